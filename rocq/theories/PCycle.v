(** * PCycle: [insert_group_at] on the first item of a later group. *)
From Coq Require Import List ZArith Bool Arith Lia.
From Verif Require Import Base MSeq MGroup SpecGroup PSort PGroup PGroup2 PGroup3 PGroup4 PGroup5 PGroup6 PGroup7.
Import ListNotations.
Open Scope Z_scope.

Section Cycle.
Context {A : Type}.
Notation gl := (glist A).

(** The node [c] is made to follow itself as a head; nothing else changes but the number of groups. *)
Definition looped (c : nat) (s t : gl) : Prop :=
  (forall a, n_nh t a = if Nat.eqb a c then Some c else n_nh s a) /\ (forall a, n_ph t a = if Nat.eqb a c then Some c else n_ph s a) /\
  (forall a, n_head t a = n_head s a) /\ n_val t = n_val s /\ n_next t = n_next s /\ n_prev t = n_prev s /\ n_par t = n_par s /\
  g_first t = g_first s /\ g_last t = g_last s /\ g_cnt t = g_cnt s /\ fresh t = fresh s /\ g_fhead t = g_fhead s /\ g_lhead t = g_lhead s /\ g_gcnt t = g_gcnt s + 1.

Lemma loop_rep : forall (s : gl) n1 h p c q n2 g, rep s (n1 ++ (h :: p) :: (c :: q) :: n2) g -> exists t, new_group_at_node (Some c) s = Ok t /\ looped c s t.
Proof.
  intros s n1 h p c q n2 g (L & G & V). set (ns := n1 ++ (h :: p) :: (c :: q) :: n2) in *. pose proof (k_nodup _ _ L) as N.
  assert (Ec : concat ns = (concat n1 ++ h :: p) ++ c :: (q ++ concat n2)) by (unfold ns; rewrite concat_app; cbn; now rewrite <- !app_assoc).
  assert (Hcf : g_first s <> Some c).
  { rewrite (k_first _ _ L), Ec. intros E. rewrite Ec in N. apply NoDup_remove_2 in N. apply N. apply in_app_iff. left.
    rewrite entry_app in E. destruct (concat n1 ++ h :: p) eqn:E2; [destruct (concat n1); discriminate|]. cbn in E. injection E as ->. now left. }
  assert (Hpc : n_prev s c = exit None (concat n1 ++ h :: p)).
  { pose proof (k_prev _ _ L) as B. rewrite Ec in B. apply bw_app in B. destruct B as (_ & E & _). exact E. }
  pose proof (k_head _ _ G) as HH. apply Forall_app in HH. destruct HH as (HH1 & HH2). inv HH2. rename H1 into HHp. inv H2. rename H1 into HHc.
  destruct HHc as (Ehc & _).
  assert (Nh : heads ns = heads n1 ++ h :: c :: heads n2) by (unfold ns; rewrite heads_app; reflexivity).
  assert (Nhd : NoDup (heads ns)) by (apply heads_nodup; auto).
  assert (Hhc : h <> c). { intros ->. rewrite Nh in Nhd. apply NoDup_remove_2 in Nhd. apply Nhd. apply in_app_iff. right. now left. }
  set (s1 := set_head c true s).
  assert (Hs1 : forall a, n_head s1 a = n_head s a). { intros a. unfold s1. cbn [n_head set_head]. unfold upd. destruct (Nat.eqb_spec a c); congruence. }
  assert (Hfind : find_group_head (fresh s1) (n_prev s1 c) s1 = Ok (Some h)).
  { subst s1. cbn [fresh n_prev set_head]. rewrite Hpc. apply find_head_rep.
    - eapply headed_ext; [|exact HHp]. intros. apply Hs1.
    - pose proof (k_prev _ _ L) as B. rewrite Ec, <- app_assoc in B. apply bw_app in B. destruct B as (_ & B).
      apply bw_app in B. destruct B as (B & _). exact B.
    - pose proof (linked_len _ _ L) as Hl. rewrite Ec in Hl. rewrite !app_length in Hl. cbn in Hl. lia. }
  assert (Enh : n_nh s h = Some c).
  { pose proof (k_nh _ _ G) as B. rewrite Nh in B. apply fw_app in B. destruct B as (_ & E & _). exact E. }
  assert (Elh : oeqb (g_lhead s) (Some h) = false).
  { apply oeqb_neq. rewrite (k_lhead _ _ G), Nh, exit_app. cbn [exit]. intros E. rewrite Nh in Nhd. apply nodup_app in Nhd. destruct Nhd as (_ & Nhd & _). inversion Nhd as [|? ? X _]; subst. apply X.
    destruct (heads n2) as [|z l]; [cbn in E; injection E as ->; now left|]. rewrite (exit_any (z :: l) _ None) in E by discriminate. apply exit_in in E. now right. }
  unfold new_group_at_node. rewrite oeqb_neq by congruence. cbn [deref bind]. fold s1. rewrite Hfind. cbn [bind deref].
  eexists. split; [reflexivity|]. cbn [n_nh set_ph set_head set_nh]. unfold s1. cbn [n_nh set_head]. rewrite Enh. cbn [n_nh set_nh]. rewrite upd_neq by auto. cbn [n_nh set_ph set_head]. rewrite Enh.
  cbn [on_some g_lhead set_ph set_nh set_head]. rewrite Elh. unfold looped.
  cbn [on_some set_nh set_ph set_head set_lhead set_gcnt g_first g_last g_cnt g_fhead g_lhead g_gcnt n_val n_prev n_next n_par n_head n_ph n_nh fresh].
  split; [|split; [|split; [intros a; unfold upd; destruct (Nat.eqb_spec a c); congruence|repeat split]]]; intros a; unfold upd.
  - destruct (Nat.eqb_spec a h), (Nat.eqb_spec a c); subst; try congruence.
  - destruct (Nat.eqb_spec a c); auto.
Qed.

Section Looped.
Variables (c : nat) (s t : gl).
Hypothesis Hl : looped c s t.
Lemma loop_value : forall l, mapM (value t) l = mapM (value s) l.
Proof. intros l. destruct Hl as (_ & _ & _ & E & _). assert (X : forall a, value t a = value s a) by (intros; unfold value; now rewrite E). induction l; cbn; auto. now rewrite X, IHl. Qed.
Lemma loop_iter : g_iter t = g_iter s.
Proof. unfold g_iter, node_iter. destruct Hl as (_ & _ & _ & _ & -> & _ & _ & -> & _ & _ & -> & _). destruct (trail _ _ _); cbn [bind]; auto. apply loop_value. Qed.
Lemma loop_reversed : g_reversed t = g_reversed s.
Proof. unfold g_reversed. destruct Hl as (_ & _ & _ & _ & _ & -> & _ & _ & -> & _ & -> & _). destruct (trail _ _ _); cbn [bind]; auto. apply loop_value. Qed.
Lemma loop_rest : forall n a, group_rest n a t = group_rest n a s.
Proof.
  destruct Hl as (_ & _ & Hh & _ & Hn & _). induction n as [|n IH]; intros a; cbn [group_rest]; rewrite Hn; destruct (n_next s a) as [b|]; auto; rewrite Hh; auto. now rewrite IH.
Qed.
Lemma loop_view : forall v, view_iter v t = view_iter v s.
Proof.
  intros v. unfold view_iter, view_nodes. assert (E : check_view v t = check_view v s).
  { unfold check_view. destruct (deref v) as [a|]; cbn [bind]; auto. destruct Hl as (_ & _ & Hh & _ & _ & _ & Hp & _). now rewrite Hh, Hp. }
  rewrite E. destruct (check_view v s) as [a|]; cbn [bind]; auto. replace (fresh t) with (fresh s) by (symmetry; apply Hl). rewrite loop_rest.
  destruct (group_rest _ _ _); cbn [bind]; auto. apply loop_value.
Qed.
Lemma loop_trail : forall l r, fw (n_nh s) (l ++ c :: r) None -> NoDup (l ++ c :: r) -> forall n, trail (n_nh t) n (entry (l ++ c :: r) None) = Err Diverge.
Proof.
  destruct Hl as (Hn & _). assert (Hc : forall n, trail (n_nh t) n (Some c) = Err Diverge).
  { induction n as [|n IH]; auto. cbn [trail]. rewrite Hn, Nat.eqb_refl. now rewrite IH. }
  induction l as [|a l IH]; intros r F N n; [apply Hc|]. cbn [app entry]. destruct n as [|n]; auto. cbn [trail]. rewrite Hn.
  cbn [app] in F, N. cbn [fw] in F. destruct F as (E & F). inversion N as [|? ? N1 N2]; subst.
  destruct (Nat.eqb_spec a c) as [->|_]; [exfalso; apply N1; apply in_app_iff; right; now left|]. rewrite E, IH; auto.
Qed.
Lemma follow_entry : forall f n l x, fw f (l ++ x) None -> n = length l -> follow f n (entry (l ++ x) None) = Ok (entry x None).
Proof.
  intros f n l x. revert n. induction l as [|a l IH]; intros n F ->; auto. cbn [app entry length follow deref bind]. destruct F as (-> & F). now apply IH.
Qed.
Lemma loop_follow : forall l r, fw (n_nh s) (l ++ c :: r) None -> NoDup (l ++ c :: r) -> forall j, (j <= length l)%nat ->
  follow (n_nh t) j (entry (l ++ c :: r) None) = follow (n_nh s) j (entry (l ++ c :: r) None).
Proof.
  destruct Hl as (Hn & _). induction l as [|a l IH]; intros r F N j Hj; [destruct j; [reflexivity|cbn in Hj; lia]|]. destruct j as [|j]; auto.
  cbn [app entry follow deref bind]. rewrite Hn. cbn [app fw] in F, N. destruct F as (E & F). inversion N as [|? ? N1 N2]; subst.
  destruct (Nat.eqb_spec a c) as [->|_]; [exfalso; apply N1; apply in_app_iff; right; now left|]. rewrite E. apply IH; auto. cbn in Hj. lia.
Qed.
Lemma loop_stays : forall l r, fw (n_nh s) (l ++ c :: r) None -> NoDup (l ++ c :: r) -> forall j, (length l <= j)%nat ->
  follow (n_nh t) j (entry (l ++ c :: r) None) = Ok (Some c).
Proof.
  destruct Hl as (Hn & _). assert (Hc : forall n, follow (n_nh t) n (Some c) = Ok (Some c)).
  { induction n as [|n IH]; auto. cbn [follow deref bind]. now rewrite Hn, Nat.eqb_refl. }
  induction l as [|a l IH]; intros r F N j Hj; [apply Hc|]. destruct j as [|j]; [cbn in Hj; lia|]. cbn [app entry follow deref bind]. rewrite Hn.
  cbn [app fw] in F, N. destruct F as (E & F). inversion N as [|? ? N1 N2]; subst.
  destruct (Nat.eqb_spec a c) as [->|_]; [exfalso; apply N1; apply in_app_iff; right; now left|]. rewrite E. apply IH; auto. cbn in Hj. lia.
Qed.
End Looped.
End Cycle.
