(** * PGroup: the linked structure of MGroup.v represents a list of non-empty groups. *)
From Coq Require Import List ZArith Bool Arith Lia.
From Verif Require Import Base MSeq MGroup.
Import ListNotations.

Ltac inv H := inversion H; subst; clear H.

(** ** Chains *)
Definition entry (l : list nat) (n : option nat) : option nat := match l with [] => n | a :: _ => Some a end.
Fixpoint exit (p : option nat) (l : list nat) : option nat := match l with [] => p | a :: l' => exit (Some a) l' end.
Fixpoint fw (f : nat -> option nat) (l : list nat) (n : option nat) : Prop :=
  match l with [] => True | a :: l' => f a = entry l' n /\ fw f l' n end.
Fixpoint bw (f : nat -> option nat) (p : option nat) (l : list nat) : Prop :=
  match l with [] => True | a :: l' => f a = p /\ bw f (Some a) l' end.
Definition upd_opt {B} (f : nat -> B) (p : option nat) (b : B) : nat -> B := match p with Some a => upd f a b | None => f end.

Lemma upd_eq : forall {B} (f : nat -> B) a b, upd f a b a = b.
Proof. intros. unfold upd. now rewrite Nat.eqb_refl. Qed.
Lemma upd_neq : forall {B} (f : nat -> B) a b x, x <> a -> upd f a b x = f x.
Proof. intros. unfold upd. destruct (Nat.eqb_spec x a); congruence. Qed.
Lemma oeqb_iff : forall p q, oeqb p q = true <-> p = q.
Proof.
  intros [a|] [b|]; cbn; split; intros H; try congruence; auto.
  - apply Nat.eqb_eq in H. congruence.
  - injection H as ->. apply Nat.eqb_refl.
Qed.
Lemma oeqb_refl : forall p, oeqb p p = true.
Proof. intros. now apply oeqb_iff. Qed.
Lemma oeqb_neq : forall p q, p <> q -> oeqb p q = false.
Proof. intros p q H. destruct (oeqb p q) eqn:E; auto. apply oeqb_iff in E. contradiction. Qed.

Lemma entry_app : forall l m n, entry (l ++ m) n = entry l (entry m n).
Proof. intros [|a l] m n; reflexivity. Qed.
Lemma exit_app : forall l m p, exit p (l ++ m) = exit (exit p l) m.
Proof. induction l; intros; cbn; auto. Qed.
Lemma exit_snoc : forall l a p, exit p (l ++ [a]) = Some a.
Proof. intros. now rewrite exit_app. Qed.
Lemma entry_in : forall l a, entry l None = Some a -> In a l.
Proof. intros [|b l] a H; cbn in *; [discriminate|]. injection H as ->. now left. Qed.
Lemma exit_in_gen : forall l p a, exit p l = Some a -> l = [] /\ p = Some a \/ In a l.
Proof. induction l as [|b l IH]; intros p a H; cbn in *; auto. destruct (IH _ _ H) as [(-> & E)|]; right; auto. left. congruence. Qed.
Lemma exit_in : forall l a, exit None l = Some a -> In a l.
Proof. intros l a H. destruct (exit_in_gen _ _ _ H) as [(_ & E)|]; [discriminate|auto]. Qed.
Lemma exit_some : forall l p, l <> [] -> exists a l', l = l' ++ [a] /\ exit p l = Some a.
Proof. intros l p H. destruct (exists_last H) as (l' & a & ->). exists a, l'. split; auto. apply exit_snoc. Qed.
Lemma exit_none : forall l, exit None l = None -> l = [].
Proof. intros [|a l] H; auto. destruct (exit_some (a :: l) None) as (x & l' & _ & E); congruence. Qed.
Lemma exit_any : forall l p q, l <> [] -> exit p l = exit q l.
Proof. intros [|a l] p q H; [contradiction|reflexivity]. Qed.

Lemma fw_app : forall f l m n, fw f (l ++ m) n <-> fw f l (entry m n) /\ fw f m n.
Proof. induction l as [|a l IH]; intros m n; cbn; [tauto|]. rewrite entry_app, IH. tauto. Qed.
Lemma bw_app : forall f l m p, bw f p (l ++ m) <-> bw f p l /\ bw f (exit p l) m.
Proof. induction l as [|a l IH]; intros m p; cbn; [tauto|]. rewrite IH. tauto. Qed.
Lemma fw_ext : forall f g l n, (forall x, In x l -> g x = f x) -> fw f l n -> fw g l n.
Proof. induction l as [|a l IH]; intros n E H; cbn in *; auto. destruct H as (H1 & H2). split; [rewrite E; auto|auto]. Qed.
Lemma bw_ext : forall f g l p, (forall x, In x l -> g x = f x) -> bw f p l -> bw g p l.
Proof. induction l as [|a l IH]; intros p E H; cbn in *; auto. destruct H as (H1 & H2). split; [rewrite E; auto|auto]. Qed.
Lemma upd_opt_out : forall {B} (f : nat -> B) p b x, p <> Some x -> upd_opt f p b x = f x.
Proof. intros B f [a|] b x H; cbn; auto. apply upd_neq. congruence. Qed.

Lemma nodup_app : forall {B} (l m : list B), NoDup (l ++ m) <-> NoDup l /\ NoDup m /\ (forall x, In x l -> ~ In x m).
Proof.
  induction l as [|a l IH]; intros m; cbn.
  - split; [intros H; repeat split; auto; constructor|tauto].
  - rewrite !NoDup_cons_iff, IH, in_app_iff. split.
    + intros (H1 & H2 & H3 & H4). repeat split; auto. intros x [<-|Hx]; auto.
    + intros ((H1 & H2) & H3 & H4). repeat split; auto. intros [H|H]; [auto|]. exact (H4 a (or_introl eq_refl) H).
Qed.

(** Insertion, deletion and replacement in chains. *)
Lemma fw_insert : forall f L1 L2 new, fw f (L1 ++ L2) None -> NoDup (L1 ++ L2) -> ~ In new (L1 ++ L2) ->
  fw (upd_opt (upd f new (entry L2 None)) (exit None L1) (Some new)) (L1 ++ new :: L2) None.
Proof.
  intros f L1 L2 new H Hn Hi. apply fw_app in H. destruct H as (H1 & H2). rewrite in_app_iff in Hi.
  apply nodup_app in Hn. destruct Hn as (N1 & N2 & N3). apply fw_app. split.
  - destruct L1 as [|x L1] using rev_ind; [exact I|]. clear IHL1. rewrite exit_snoc. cbn [upd_opt entry].
    apply fw_app in H1. destruct H1 as (H1 & _). apply fw_app. split.
    + eapply fw_ext; [|exact H1]. intros y Hy. rewrite !upd_neq; auto.
      * intros ->. apply Hi. left. apply in_app_iff. auto.
      * intros ->. apply nodup_app in N1. destruct N1 as (_ & _ & N1). apply (N1 x); auto. now left.
    + cbn. split; auto. apply upd_eq.
  - cbn [fw]. split.
    + rewrite upd_opt_out; [apply upd_eq|]. intros E. apply exit_in in E. tauto.
    + eapply fw_ext; [|exact H2]. intros y Hy. rewrite upd_opt_out, upd_neq; auto.
      * intros ->. tauto.
      * intros E. apply exit_in in E. eapply N3; eauto.
Qed.
Lemma bw_insert : forall f L1 L2 new, bw f None (L1 ++ L2) -> NoDup (L1 ++ L2) -> ~ In new (L1 ++ L2) ->
  bw (upd_opt (upd f new (exit None L1)) (entry L2 None) (Some new)) None (L1 ++ new :: L2).
Proof.
  intros f L1 L2 new H Hn Hi. apply bw_app in H. destruct H as (H1 & H2). rewrite in_app_iff in Hi.
  apply nodup_app in Hn. destruct Hn as (N1 & N2 & N3). apply bw_app. split; [|cbn [bw]; split].
  - eapply bw_ext; [|exact H1]. intros y Hy. rewrite upd_opt_out, upd_neq; auto.
    + intros ->. tauto.
    + intros E. apply entry_in in E. eapply N3; eauto.
  - rewrite upd_opt_out; [apply upd_eq|]. intros E. apply entry_in in E. tauto.
  - destruct L2 as [|b L2]; [exact I|]. cbn [entry upd_opt bw]. split; [apply upd_eq|].
    cbn in H2. destruct H2 as (_ & H2). inv N2. eapply bw_ext; [|exact H2]. intros y Hy. rewrite !upd_neq; auto.
    + intros ->. cbn in Hi. tauto.
    + intros ->. contradiction.
Qed.
Lemma fw_delete : forall f L1 a L2, fw f (L1 ++ a :: L2) None -> NoDup (L1 ++ a :: L2) ->
  fw (upd_opt f (exit None L1) (entry L2 None)) (L1 ++ L2) None.
Proof.
  intros f L1 a L2 H Hn. apply fw_app in H. destruct H as (H1 & H2). cbn in H2. destruct H2 as (_ & H2).
  apply nodup_app in Hn. destruct Hn as (N1 & N2 & N3). inv N2. apply fw_app. split.
  - destruct L1 as [|x L1] using rev_ind; [exact I|]. clear IHL1. rewrite exit_snoc. cbn [upd_opt].
    apply fw_app in H1. destruct H1 as (H1 & _). apply fw_app. split.
    + eapply fw_ext; [|exact H1]. intros y Hy. rewrite upd_neq; auto. intros ->.
      apply nodup_app in N1. destruct N1 as (_ & _ & N1). apply (N1 x); auto. now left.
    + cbn. split; auto. apply upd_eq.
  - eapply fw_ext; [|exact H2]. intros y Hy. rewrite upd_opt_out; auto.
    intros E. apply exit_in in E. apply (N3 y E). now right.
Qed.
Lemma bw_delete : forall f L1 a L2, bw f None (L1 ++ a :: L2) -> NoDup (L1 ++ a :: L2) ->
  bw (upd_opt f (entry L2 None) (exit None L1)) None (L1 ++ L2).
Proof.
  intros f L1 a L2 H Hn. apply bw_app in H. destruct H as (H1 & H2). cbn in H2. destruct H2 as (_ & H2).
  apply nodup_app in Hn. destruct Hn as (N1 & N2 & N3). inv N2. apply bw_app. split.
  - eapply bw_ext; [|exact H1]. intros y Hy. rewrite upd_opt_out; auto.
    intros E. apply entry_in in E. apply (N3 y Hy). now right.
  - destruct L2 as [|b L2]; [exact I|]. cbn [entry upd_opt bw]. split; [apply upd_eq|].
    cbn in H2. destruct H2 as (_ & H2). eapply bw_ext; [|exact H2]. intros y Hy. rewrite upd_neq; auto.
    intros ->. match goal with H : NoDup (_ :: _) |- _ => inv H end. contradiction.
Qed.
Lemma fw_replace : forall f L1 a L2 b, fw f (L1 ++ a :: L2) None -> NoDup (L1 ++ a :: L2) -> ~ In b (L1 ++ a :: L2) ->
  fw (upd_opt (upd f b (f a)) (exit None L1) (Some b)) (L1 ++ b :: L2) None.
Proof.
  intros f L1 a L2 b H Hn Hi.
  pose proof (fw_delete f L1 a L2 H Hn) as Hd.
  assert (Hn' : NoDup (L1 ++ L2)) by (apply NoDup_remove in Hn; tauto).
  assert (Hi' : ~ In b (L1 ++ L2)) by (rewrite in_app_iff in *; cbn in Hi; tauto).
  pose proof (fw_insert _ L1 L2 b Hd Hn' Hi') as Hr. eapply fw_ext; [|exact Hr].
  intros x Hx. apply fw_app in H. destruct H as (_ & H2). cbn in H2. destruct H2 as (E & _). rewrite E.
  destruct (exit None L1) as [c|] eqn:Ec; cbn [upd_opt]; auto.
  unfold upd. destruct (Nat.eqb_spec x c); auto.
Qed.
Lemma bw_replace : forall f L1 a L2 b, bw f None (L1 ++ a :: L2) -> NoDup (L1 ++ a :: L2) -> ~ In b (L1 ++ a :: L2) ->
  bw (upd_opt (upd f b (f a)) (entry L2 None) (Some b)) None (L1 ++ b :: L2).
Proof.
  intros f L1 a L2 b H Hn Hi.
  pose proof (bw_delete f L1 a L2 H Hn) as Hd.
  assert (Hn' : NoDup (L1 ++ L2)) by (apply NoDup_remove in Hn; tauto).
  assert (Hi' : ~ In b (L1 ++ L2)) by (rewrite in_app_iff in *; cbn in Hi; tauto).
  pose proof (bw_insert _ L1 L2 b Hd Hn' Hi') as Hr. eapply bw_ext; [|exact Hr].
  intros x Hx. apply bw_app in H. destruct H as (_ & H2). cbn in H2. destruct H2 as (E & _). rewrite E.
  destruct (entry L2 None) as [c|] eqn:Ec; cbn [upd_opt]; auto.
  unfold upd. destruct (Nat.eqb_spec x c); auto.
Qed.

(** ** Traversals *)
Lemma trail_fw : forall f l n, fw f l None -> (length l <= n)%nat -> trail f n (entry l None) = Ok l.
Proof.
  intros f l. induction l as [|a l IH]; intros [|n] H Hl; cbn in *; auto; [lia|].
  destruct H as (E & H). rewrite E, IH by (auto; lia). reflexivity.
Qed.
Lemma trail_bw : forall f l n, bw f None l -> (length l <= n)%nat -> trail f n (exit None l) = Ok (rev l).
Proof.
  intros f l. induction l as [|a l IH] using rev_ind; intros [|n] H Hl; cbn in *; auto.
  - rewrite app_length in Hl. cbn in Hl. lia.
  - rewrite exit_snoc. rewrite app_length in Hl. cbn in Hl. apply bw_app in H. destruct H as (H & E & _). cbn.
    rewrite E, IH by (auto; lia). cbn. now rewrite rev_app_distr.
Qed.
Lemma follow_fw : forall f l n i, fw f l n -> (i < length l)%nat -> follow f i (entry l n) = Ok (nth_error l i).
Proof.
  intros f l n. induction l as [|a l IH]; intros [|i] H Hi; cbn in *; auto; try lia.
  destruct H as (E & H). rewrite E. apply IH; auto. lia.
Qed.
Lemma follow_bw : forall f l i, bw f None l -> (i < length l)%nat -> follow f i (exit None l) = Ok (nth_error l (length l - 1 - i)).
Proof.
  intros f l. induction l as [|a l IH] using rev_ind; intros i H Hi; cbn in Hi; [lia|].
  rewrite app_length in *. cbn in Hi |- *. rewrite exit_snoc. apply bw_app in H. destruct H as (H & E & _). destruct i as [|i]; cbn.
  - rewrite nth_error_app2 by lia. replace (length l + 1 - 1 - 0 - length l)%nat with 0%nat by lia. reflexivity.
  - rewrite E, IH by (auto; lia). rewrite nth_error_app1 by lia. do 2 f_equal. lia.
Qed.

(** ** Heads of groups *)
Definition heads (ns : list (list nat)) : list nat := flat_map (fun p => firstn 1 p) ns.
Definition headed (f : nat -> bool) (p : list nat) : Prop :=
  match p with [] => True | a :: q => f a = true /\ Forall (fun b => f b = false) q end.
Lemma heads_app : forall n m, heads (n ++ m) = heads n ++ heads m.
Proof. intros. apply flat_map_app. Qed.
Lemma heads_cons : forall a q m, heads ((a :: q) :: m) = a :: heads m.
Proof. reflexivity. Qed.
Lemma heads_in : forall ns a, In a (heads ns) -> In a (concat ns).
Proof.
  intros ns a H. apply in_flat_map in H. destruct H as (p & Hp & Ha). apply in_concat. exists p. split; auto.
  destruct p; cbn in Ha; [contradiction|]. destruct Ha as [<-|[]]. now left.
Qed.
Lemma heads_nodup : forall ns, NoDup (concat ns) -> NoDup (heads ns).
Proof.
  induction ns as [|p ns IH]; cbn; intros H; [constructor|]. apply nodup_app in H. destruct H as (H1 & H2 & H3).
  destruct p as [|a p]; cbn; auto. constructor; auto. intros Hi. apply heads_in in Hi. apply (H3 a); auto. now left.
Qed.
Lemma heads_length : forall ns, Forall (fun p => p <> []) ns -> length (heads ns) = length ns.
Proof. intros ns H. induction H as [|p ns Hp H IH]; auto. destruct p; [contradiction|]. rewrite heads_cons. cbn [length]. now rewrite IH. Qed.
Lemma headed_ext : forall f g p, (forall x, In x p -> g x = f x) -> headed f p -> headed g p.
Proof.
  intros f g [|a q] E H; cbn in *; auto. destruct H as (H1 & H2). split; [rewrite E; auto|].
  rewrite Forall_forall in *. intros x Hx. rewrite E; auto.
Qed.
Lemma heads_headed_ext : forall f g ns, (forall x, In x (concat ns) -> g x = f x) -> Forall (headed f) ns -> Forall (headed g) ns.
Proof.
  intros f g ns E H. rewrite Forall_forall in *. intros p Hp. eapply headed_ext; [|apply H; auto].
  intros x Hx. apply E. apply in_concat. eauto.
Qed.
Lemma headed_iff : forall f ns a, NoDup (concat ns) -> Forall (headed f) ns -> In a (concat ns) -> (f a = true <-> In a (heads ns)).
Proof.
  intros f ns a. induction ns as [|p ns IH]; intros N H Ha; cbn in Ha; [contradiction|].
  cbn in N. apply nodup_app in N. destruct N as (N1 & N2 & N3). inv H. apply in_app_iff in Ha. destruct p as [|x p].
  - cbn. apply IH; auto. now destruct Ha.
  - cbn in H2. destruct H2 as (E & F). rewrite heads_cons. cbn [In]. destruct Ha as [[<-|Ha]|Ha].
    + tauto.
    + rewrite Forall_forall in F. rewrite (F a Ha). split; [discriminate|]. intros [<-|Hi]; [inv N1; contradiction|].
      apply heads_in in Hi. exfalso. apply (N3 a); auto. now right.
    + rewrite IH by auto. split; auto. intros [<-|Hi]; auto. exfalso. apply (N3 x); auto. now left.
Qed.

Lemma Forall2_length : forall {B C} {R : B -> C -> Prop} {l m}, Forall2 R l m -> length l = length m.
Proof. intros B C R l m H. induction H; cbn; auto. Qed.

(** ** The invariant *)
Section Rep.
Context {A : Type}.
Notation gl := (glist A).

Record linked (s : gl) (l : list nat) : Prop := {
  k_nodup : NoDup l;
  k_lt : Forall (fun a => (a < fresh s)%nat) l;
  k_next : fw (n_next s) l None;
  k_prev : bw (n_prev s) None l;
  k_first : g_first s = entry l None;
  k_last : g_last s = exit None l;
  k_cnt : g_cnt s = zlen l;
  k_par : Forall (fun a => n_par s a = true) l }.
Record grouped (s : gl) (ns : list (list nat)) : Prop := {
  k_ne : Forall (fun p => p <> []) ns;
  k_head : Forall (headed (n_head s)) ns;
  k_nh : fw (n_nh s) (heads ns) None;
  k_ph : bw (n_ph s) None (heads ns);
  k_fhead : g_fhead s = entry (heads ns) None;
  k_lhead : g_lhead s = exit None (heads ns);
  k_gcnt : g_gcnt s = zlen ns }.
Definition valued (s : gl) (ns : list (list nat)) (g : seq A) : Prop :=
  Forall2 (Forall2 (fun a x => n_val s a = Some x)) ns g.
Definition rep (s : gl) (ns : list (list nat)) (g : seq A) : Prop :=
  linked s (concat ns) /\ grouped s ns /\ valued s ns g.

Lemma rep_new : rep g_new [] [].
Proof. split; [|split]; [constructor; cbn; auto; constructor|constructor; cbn; auto; constructor|constructor]. Qed.
Lemma rep_clear : forall (s : gl), rep (clear s) [] [].
Proof. intros s. split; [|split]; [constructor; cbn; auto; constructor|constructor; cbn; auto; constructor|constructor]. Qed.

Lemma F2_ext : forall (f g : nat -> option A) p q, (forall x, In x p -> g x = f x) ->
  Forall2 (fun a x => f a = Some x) p q -> Forall2 (fun a x => g a = Some x) p q.
Proof. intros f g p q E H. induction H; constructor; [rewrite E; auto; now left|]. apply IHForall2. intros. apply E. now right. Qed.
Lemma valued_ext : forall (s t : gl) ns g, (forall x, In x (concat ns) -> n_val t x = n_val s x) -> valued s ns g -> valued t ns g.
Proof.
  intros s t ns g E H. unfold valued in *. induction H as [|p q ns g Hp H IH]; constructor.
  - eapply F2_ext; [|exact Hp]. intros. apply E. cbn. apply in_app_iff. auto.
  - apply IH. intros. apply E. cbn. apply in_app_iff. auto.
Qed.
Lemma valued_split : forall (s : gl) n1 p n2 g, valued s (n1 ++ p :: n2) g ->
  exists g1 q g2, g = g1 ++ q :: g2 /\ valued s n1 g1 /\ Forall2 (fun a x => n_val s a = Some x) p q /\ valued s n2 g2.
Proof.
  intros s n1 p n2 g H. apply Forall2_app_inv_l in H. destruct H as (g1 & g2 & H1 & H2 & ->).
  inv H2. exists g1. eauto 10.
Qed.

(** Contents. *)
Lemma concat_F2 : forall (s : gl) ns g, valued s ns g -> Forall2 (fun a x => n_val s a = Some x) (concat ns) (concat g).
Proof. intros s ns g H. induction H; cbn; [constructor|]. now apply Forall2_app. Qed.
Lemma values_F2 : forall (s : gl) l xs, Forall2 (fun a x => n_val s a = Some x) l xs -> mapM (value s) l = Ok xs.
Proof. intros s l xs H. induction H as [|a x l xs E H IH]; cbn; auto. unfold value at 1. rewrite E. cbn. now rewrite IH. Qed.
Lemma nodup_bound : forall l n, NoDup l -> Forall (fun a => (a < n)%nat) l -> (length l <= n)%nat.
Proof.
  intros l n Hn Hf. rewrite <- (seq_length n 0). apply NoDup_incl_length; auto. intros x Hx. apply in_seq.
  rewrite Forall_forall in Hf. specialize (Hf x Hx). lia.
Qed.
Lemma linked_len : forall (s : gl) l, linked s l -> (length l <= fresh s)%nat.
Proof. intros s l H. apply nodup_bound; apply H. Qed.
Lemma node_iter_rep : forall (s : gl) l, linked s l -> node_iter s = Ok l.
Proof. intros s l H. unfold node_iter. rewrite (k_first _ _ H). apply trail_fw; [apply H|now apply linked_len]. Qed.
Lemma iter_rep : forall (s : gl) ns g, rep s ns g -> g_iter s = Ok (items g).
Proof.
  intros s ns g (L & _ & V). unfold g_iter. rewrite (node_iter_rep _ _ L). cbn. apply values_F2. now apply concat_F2.
Qed.
Lemma F2_rev : forall {B C} (R : B -> C -> Prop) l m, Forall2 R l m -> Forall2 R (rev l) (rev m).
Proof. intros B C R l m H. induction H; cbn; [constructor|]. apply Forall2_app; auto. Qed.
Lemma reversed_rep : forall (s : gl) ns g, rep s ns g -> g_reversed s = Ok (rev (items g)).
Proof.
  intros s ns g (L & _ & V). unfold g_reversed. rewrite (k_last _ _ L), trail_bw; [|apply L|now apply linked_len].
  cbn. apply values_F2. apply F2_rev. now apply concat_F2.
Qed.
Lemma rep_len : forall (s : gl) ns g, rep s ns g -> g_cnt s = zlen (items g) /\ g_gcnt s = zlen g.
Proof.
  intros s ns g (L & G & V). rewrite (k_cnt _ _ L), (k_gcnt _ _ G). unfold zlen, items.
  rewrite (Forall2_length (concat_F2 _ _ _ V)), (Forall2_length V). auto.
Qed.
Lemma rep_full : forall (s : gl) ns g, rep s ns g -> Forall (fun p => p <> []) g.
Proof.
  intros s ns g (_ & G & V). pose proof (k_ne _ _ G) as H. clear G. unfold valued in V. induction V as [|p q ns g Hp V IH]; [constructor|].
  inv H. constructor; auto. intros ->. inv Hp. contradiction.
Qed.

(** Views. *)
Lemma group_rest_rep : forall (s : gl) p a rest n, Forall (fun b => n_head s b = false) p ->
  fw (n_next s) (a :: p ++ rest) None -> (forall b, entry rest None = Some b -> n_head s b = true) ->
  (length p <= n)%nat -> group_rest n a s = Ok p.
Proof.
  intros s p. induction p as [|b p IH]; intros a rest n Hp Hf Hr Hn.
  - cbn in Hf. destruct Hf as (E & _). destruct n; cbn; rewrite E; destruct rest as [|c rest]; cbn in *; auto; now rewrite Hr.
  - inv Hp. destruct n as [|n]; [cbn in Hn; lia|]. cbn in Hf. destruct Hf as (E & Hf). cbn. rewrite E, H1.
    rewrite (IH b rest n); auto. cbn in Hn. lia.
Qed.
Lemma view_nodes_rep : forall (s : gl) n1 a q n2, linked s (concat (n1 ++ (a :: q) :: n2)) -> grouped s (n1 ++ (a :: q) :: n2) ->
  view_nodes (Some a) s = Ok (a :: q).
Proof.
  intros s n1 a q n2 L G. pose proof (k_head _ _ G) as H. apply Forall_app in H. destruct H as (_ & H). inv H. destruct H2 as (Ha & Hq).
  pose proof (k_par _ _ L) as P. rewrite Forall_forall in P. rewrite concat_app in L, P. cbn [concat] in L, P.
  unfold view_nodes, check_view. cbn [deref bind]. rewrite Ha, P by (apply in_app_iff; right; now left). cbn [andb bind].
  pose proof (k_next _ _ L) as F. apply fw_app in F. destruct F as (_ & F).
  rewrite (group_rest_rep s q a (concat n2)); auto.
  - intros b Hb. destruct n2 as [|m n2]; cbn in Hb; [discriminate|]. inv H3. pose proof (k_ne _ _ G) as Hne.
    apply Forall_app in Hne. destruct Hne as (_ & Hne). inv Hne. inv H4. destruct m; [contradiction|]. cbn in Hb. injection Hb as <-.
    apply H1.
  - pose proof (linked_len _ _ L) as Hl. rewrite app_length in Hl. cbn in Hl. rewrite app_length in Hl. lia.
Qed.
Lemma mapM_F2 : forall {B C} (f : B -> res C) l m, Forall2 (fun x y => f x = Ok y) l m -> mapM f l = Ok m.
Proof. intros B C f l m H. induction H as [|x y l m E H IH]; cbn; auto. now rewrite E, IH. Qed.
Lemma group_heads_rep : forall (s : gl) ns, linked s (concat ns) -> grouped s ns -> group_heads s = Ok (heads ns).
Proof.
  intros s ns L G. unfold group_heads. rewrite (k_fhead _ _ G). apply trail_fw; [apply G|].
  apply nodup_bound; [apply heads_nodup; apply L|]. pose proof (k_lt _ _ L) as H. rewrite Forall_forall in *.
  intros x Hx. apply H. now apply heads_in.
Qed.
Lemma views_rep : forall (s : gl) ns g, rep s ns g -> Forall2 (fun h p => view_iter (Some h) s = Ok p) (heads ns) g.
Proof.
  intros s ns g (L & G & V).
  assert (H : forall n1 n2 g2, ns = n1 ++ n2 -> valued s n2 g2 -> Forall2 (fun h p => view_iter (Some h) s = Ok p) (heads n2) g2).
  { intros n1 n2 g2 E V2. revert n1 E. unfold valued in V2. induction V2 as [|p q n2 g2 Hp V2 IH]; intros n1 E; [constructor|].
    assert (Hne : p <> []).
    { pose proof (k_ne _ _ G) as H. rewrite E in H. apply Forall_app in H. destruct H as (_ & H). now inv H. }
    destruct p as [|a p]; [contradiction|]. rewrite heads_cons. constructor.
    - unfold view_iter. rewrite (view_nodes_rep s n1 a p n2) by (rewrite <- E; auto). cbn [bind]. now apply values_F2.
    - apply (IH (n1 ++ [a :: p])). now rewrite <- app_assoc. }
  apply (H [] ns g); auto.
Qed.
Lemma nested_rep : forall (s : gl) ns g, rep s ns g -> to_nested_lists s = Ok g.
Proof.
  intros s ns g H. unfold to_nested_lists. destruct H as (L & G & V) eqn:E. rewrite (group_heads_rep _ _ L G). cbn [bind].
  apply mapM_F2. eapply views_rep. split; eauto.
Qed.

(** Indices. *)
Lemma node_at_rep : forall (s : gl) l i, linked s l -> (0 <= i < zlen l)%Z -> exists a, node_at i s = Ok (Some a) /\ nth_error l (Z.to_nat i) = Some a.
Proof.
  intros s l i L Hi. unfold node_at, conform_index. rewrite (k_cnt _ _ L).
  destruct (Z.ltb_spec i 0); [lia|]. destruct (Z.geb_spec i (zlen l)); [lia|]. cbn [bind]. unfold zlen in *.
  destruct (nth_error l (Z.to_nat i)) as [a|] eqn:E; [|apply nth_error_None in E; lia]. exists a. split; auto.
  destruct (Z.leb_spec i (Z.of_nat (length l) / 2)).
  - rewrite (k_first _ _ L), follow_fw; [now rewrite E|apply L|lia].
  - rewrite (k_last _ _ L), follow_bw; [|apply L|lia]. rewrite <- E. do 2 f_equal. lia.
Qed.

(** Decomposition at an item. *)
Lemma split_at : forall {B} (ns : list (list B)) i a, nth_error (concat ns) i = Some a ->
  exists n1 p q n2, ns = n1 ++ (p ++ a :: q) :: n2 /\ length (concat n1 ++ p) = i.
Proof.
  intros B ns. induction ns as [|m ns IH]; intros i a H; cbn in H; [destruct i; discriminate|].
  destruct (Nat.lt_ge_cases i (length m)).
  - rewrite nth_error_app1 in H by auto. apply nth_error_split in H. destruct H as (p & q & -> & E).
    exists [], p, q, ns. auto.
  - rewrite nth_error_app2 in H by auto. destruct (IH _ _ H) as (n1 & p & q & n2 & -> & E).
    exists (m :: n1), p, q, n2. split; auto. cbn. rewrite <- app_assoc, app_length, E. lia.
Qed.
Lemma concat_split : forall {B} (n1 : list (list B)) p a q n2,
  concat (n1 ++ (p ++ a :: q) :: n2) = (concat n1 ++ p) ++ a :: (q ++ concat n2).
Proof. intros. rewrite concat_app. cbn. rewrite <- !app_assoc. reflexivity. Qed.

(** ** Insertion of a node into the list, without its group *)
Definition raw_before (node : nat) (x : A) (s : gl) : gl :=
  let (new, s) := alloc x (n_prev s node) (Some node) s in
  let s := on_some (n_prev s node) (fun b => set_next b (Some new)) s in
  let s := set_prev node (Some new) s in
  let s := if oeqb (Some node) (g_first s) then set_first (Some new) s else s in
  set_cnt (g_cnt s + 1) s.
Definition raw_after (node : nat) (x : A) (s : gl) : gl :=
  let (new, s) := alloc x (Some node) (n_next s node) s in
  let s := on_some (n_next s node) (fun b => set_prev b (Some new)) s in
  let s := set_next node (Some new) s in
  let s := if oeqb (Some node) (g_last s) then set_last (Some new) s else s in
  set_cnt (g_cnt s + 1) s.
(** What is left alone by it. *)
Definition same_groups (s t : gl) : Prop :=
  g_fhead t = g_fhead s /\ g_lhead t = g_lhead s /\ g_gcnt t = g_gcnt s /\
  n_head t = upd (n_head s) (fresh s) false /\ n_ph t = upd (n_ph s) (fresh s) None /\ n_nh t = upd (n_nh s) (fresh s) None.

Lemma fresh_out : forall (s : gl) l, linked s l -> ~ In (fresh s) l.
Proof. intros s l L H. pose proof (k_lt _ _ L) as F. rewrite Forall_forall in F. specialize (F _ H). lia. Qed.

Lemma raw_linked : forall (s t : gl) l1 l2, linked s (l1 ++ l2) ->
  fresh t = S (fresh s) -> n_next t = upd_opt (upd (n_next s) (fresh s) (entry l2 None)) (exit None l1) (Some (fresh s)) ->
  (forall x, In x (l1 ++ fresh s :: l2) -> n_prev t x = upd_opt (upd (n_prev s) (fresh s) (exit None l1)) (entry l2 None) (Some (fresh s)) x) ->
  g_first t = entry (l1 ++ fresh s :: l2) None -> g_last t = exit None (l1 ++ fresh s :: l2) -> g_cnt t = (g_cnt s + 1)%Z ->
  n_par t = upd (n_par s) (fresh s) true -> linked t (l1 ++ fresh s :: l2).
Proof.
  intros s t l1 l2 L E1 E2 E3 E4 E5 E6 E7. pose proof (fresh_out _ _ L) as Ho. constructor; auto.
  - apply NoDup_Add with (a := fresh s) (l := l1 ++ l2); [apply Add_app|]. split; [apply L|exact Ho].
  - rewrite E1. pose proof (k_lt _ _ L) as F. rewrite Forall_forall in *. intros x Hx. apply in_app_iff in Hx. cbn in Hx.
    destruct Hx as [Hx|[<-|Hx]]; [|lia|]; (assert (In x (l1 ++ l2)) as Hx' by (apply in_app_iff; auto); specialize (F x Hx'); lia).
  - rewrite E2. apply fw_insert; auto; apply L.
  - eapply bw_ext; [exact E3|]. apply bw_insert; auto; apply L.
  - rewrite E6, (k_cnt _ _ L). unfold zlen. rewrite !app_length. cbn. lia.
  - rewrite E7. pose proof (k_par _ _ L) as F. rewrite Forall_forall in *. intros x Hx. unfold upd.
    destruct (Nat.eqb_spec x (fresh s)); auto. apply F. apply in_app_iff in Hx. cbn in Hx. apply in_app_iff.
    destruct Hx as [|[|]]; auto. congruence.
Qed.

Lemma raw_before_rep : forall (s : gl) l1 a l2 x, linked s (l1 ++ a :: l2) ->
  let t := raw_before a x s in
  linked t (l1 ++ fresh s :: a :: l2) /\ same_groups s t /\ n_val t = upd (n_val s) (fresh s) (Some x) /\
  fresh t = S (fresh s) /\ n_par t = upd (n_par s) (fresh s) true.
Proof.
  intros s l1 a l2 x L t.
  assert (Ep : n_prev s a = exit None l1).
  { pose proof (k_prev _ _ L) as B. apply bw_app in B. destruct B as (_ & E & _). exact E. }
  assert (Hfa : a <> fresh s). { intros E. apply (fresh_out _ _ L). rewrite <- E. apply in_app_iff. right. now left. }
  assert (Ef : oeqb (Some a) (g_first s) = match l1 with [] => true | _ => false end).
  { rewrite (k_first _ _ L). destruct l1 as [|b l1]; cbn; [apply Nat.eqb_refl|]. apply Nat.eqb_neq. intros ->.
    pose proof (k_nodup _ _ L) as N. cbn in N. inv N. apply H1. apply in_app_iff. right. now left. }
  unfold raw_before in t. cbn [alloc] in t.
  assert (Ep1 : forall s1 : gl, n_prev s1 = upd (n_prev s) (fresh s) (n_prev s a) -> n_prev s1 a = exit None l1).
  { intros s1 E. rewrite E, upd_neq by auto. exact Ep. }
  assert (Efirst : g_first t = entry (l1 ++ fresh s :: a :: l2) None).
  { subst t. cbn [g_first set_cnt]. destruct l1 as [|b l1].
    - cbn [exit] in Ep. cbn [n_prev]. rewrite upd_neq, Ep by auto. cbn [on_some g_first set_prev]. rewrite Ef. reflexivity.
    - destruct (exit_some (b :: l1) None) as (c & l' & _ & Ec); [discriminate|]. cbn [n_prev]. rewrite upd_neq, Ep, Ec by auto.
      cbn [on_some g_first set_prev set_next]. rewrite Ef. cbn [g_first set_prev set_next]. rewrite (k_first _ _ L). reflexivity. }
  assert (Hrest : n_next t = upd_opt (upd (n_next s) (fresh s) (Some a)) (exit None l1) (Some (fresh s)) /\
    n_prev t = upd (upd (n_prev s) (fresh s) (n_prev s a)) a (Some (fresh s)) /\
    g_last t = g_last s /\ g_cnt t = (g_cnt s + 1)%Z /\ n_par t = upd (n_par s) (fresh s) true /\ fresh t = S (fresh s) /\
    same_groups s t /\ n_val t = upd (n_val s) (fresh s) (Some x)).
  { subst t. cbn [n_prev]. rewrite upd_neq, Ep by auto. unfold same_groups. destruct (exit None l1) as [c|];
      cbn [on_some set_next set_prev g_first]; rewrite Ef; destruct l1;
      cbn [on_some set_next set_prev set_first set_cnt g_first g_last g_cnt g_fhead g_lhead g_gcnt n_val n_prev n_next n_par n_head n_ph n_nh fresh upd_opt];
      repeat split. }
  destruct Hrest as (R1 & R2 & R3 & R4 & R5 & R6 & R7 & R8). split; [|split; auto].
  apply (raw_linked s t l1 (a :: l2)); auto.
  - intros y Hy. rewrite R2, Ep. reflexivity.
  - rewrite R3, (k_last _ _ L), !exit_app. reflexivity.
Qed.

Lemma raw_after_rep : forall (s : gl) l1 a l2 x, linked s (l1 ++ a :: l2) ->
  let t := raw_after a x s in
  linked t (l1 ++ a :: fresh s :: l2) /\ same_groups s t /\ n_val t = upd (n_val s) (fresh s) (Some x) /\
  fresh t = S (fresh s) /\ n_par t = upd (n_par s) (fresh s) true.
Proof.
  intros s l1 a l2 x L t.
  assert (En : n_next s a = entry l2 None).
  { pose proof (k_next _ _ L) as B. apply fw_app in B. destruct B as (_ & E & _). exact E. }
  assert (Hfa : a <> fresh s). { intros E. apply (fresh_out _ _ L). rewrite <- E. apply in_app_iff. right. now left. }
  assert (Ef : oeqb (Some a) (g_last s) = match l2 with [] => true | _ => false end).
  { rewrite (k_last _ _ L). destruct l2 as [|b l2].
    - rewrite exit_snoc. apply oeqb_refl.
    - apply oeqb_neq. intros E. rewrite exit_app in E. symmetry in E. change (exit None (b :: l2) = Some a) in E.
      apply exit_in in E. pose proof (k_nodup _ _ L) as N. apply NoDup_remove_2 in N. apply N. apply in_app_iff. auto. }
  assert (Hlast : exit None (l1 ++ a :: fresh s :: l2) = match l2 with [] => Some (fresh s) | _ => g_last s end).
  { rewrite (k_last _ _ L), !exit_app. destruct l2; reflexivity. }
  unfold raw_after in t. cbn [alloc] in t.
  assert (Hrest : (n_next t = upd (upd (n_next s) (fresh s) (entry l2 None)) a (Some (fresh s))) /\
    n_prev t = upd_opt (upd (n_prev s) (fresh s) (Some a)) (entry l2 None) (Some (fresh s)) /\
    g_first t = g_first s /\ g_last t = match l2 with [] => Some (fresh s) | _ => g_last s end /\
    g_cnt t = (g_cnt s + 1)%Z /\ n_par t = upd (n_par s) (fresh s) true /\ fresh t = S (fresh s) /\
    same_groups s t /\ n_val t = upd (n_val s) (fresh s) (Some x)).
  { subst t. cbn [n_next]. rewrite upd_neq, En by auto. unfold same_groups. destruct l2 as [|c l2]; cbn [entry];
      cbn [on_some set_next set_prev g_last]; rewrite Ef;
      cbn [on_some set_next set_prev set_last set_cnt g_first g_last g_cnt g_fhead g_lhead g_gcnt n_val n_prev n_next n_par n_head n_ph n_nh fresh upd_opt];
      repeat split. }
  destruct Hrest as (R1 & R2 & R3 & R3' & R4 & R5 & R6 & R7 & R8). split; [|split; auto].
  change (a :: fresh s :: l2) with ([a] ++ fresh s :: l2). rewrite app_assoc.
  apply (raw_linked s t (l1 ++ [a]) l2); auto.
  - now rewrite <- app_assoc.
  - rewrite exit_snoc. exact R1.
  - intros y Hy. rewrite R2, exit_snoc. reflexivity.
  - rewrite R3, (k_first _ _ L), !entry_app. reflexivity.
  - rewrite <- app_assoc. cbn [app]. now rewrite Hlast.
Qed.

(** ** Groups *)
Lemma groups_tail : forall (s : gl) n1 p c q n2 t, grouped s (n1 ++ (p ++ q) :: n2) -> p <> [] -> same_groups s t ->
  ~ In c (concat (n1 ++ (p ++ q) :: n2)) -> c = fresh s -> grouped t (n1 ++ (p ++ c :: q) :: n2).
Proof.
  intros s n1 p c q n2 t G Hp (S1 & S2 & S3 & S4 & S5 & S6) Hc ->.
  assert (Hh : heads (n1 ++ (p ++ fresh s :: q) :: n2) = heads (n1 ++ (p ++ q) :: n2)).
  { rewrite !heads_app. destruct p; [contradiction|]. reflexivity. }
  assert (Hin : forall x, In x (heads (n1 ++ (p ++ q) :: n2)) -> x <> fresh s).
  { intros x Hx ->. apply Hc. now apply heads_in. }
  rewrite concat_app in Hc. cbn in Hc. rewrite !in_app_iff in Hc.
  constructor.
  - pose proof (k_ne _ _ G) as H. apply Forall_app in H. destruct H as (H1 & H2). inv H2. apply Forall_app. split; auto.
    constructor; auto. destruct p; [contradiction|discriminate].
  - pose proof (k_head _ _ G) as H. apply Forall_app in H. destruct H as (H1 & H2). inv H2. rewrite S4. apply Forall_app. split; [|constructor].
    + eapply heads_headed_ext; [|exact H1]. intros x Hx. rewrite upd_neq; auto. intros ->. tauto.
    + destruct p as [|h p]; [contradiction|]. cbn in *. destruct H3 as (Eh & F). apply Forall_app in F. destruct F as (F1 & F2).
      rewrite upd_neq by (intros ->; tauto). split; auto. apply Forall_app. split; [|constructor; [apply upd_eq|]].
      * rewrite Forall_forall in *. intros x Hx. rewrite upd_neq; auto. intros ->. tauto.
      * rewrite Forall_forall in *. intros x Hx. rewrite upd_neq; auto. intros ->. tauto.
    + eapply heads_headed_ext; [|exact H4]. intros x Hx. rewrite upd_neq; auto. intros ->. tauto.
  - rewrite Hh, S6. eapply fw_ext; [|apply G]. intros x Hx. apply upd_neq. auto.
  - rewrite Hh, S5. eapply bw_ext; [|apply G]. intros x Hx. apply upd_neq. auto.
  - rewrite Hh, S1. apply G.
  - rewrite Hh, S2. apply G.
  - rewrite S3, (k_gcnt _ _ G). unfold zlen. rewrite !app_length. reflexivity.
Qed.

Lemma find_head_rep : forall (s : gl) p h n pre, headed (n_head s) (h :: p) -> bw (n_prev s) (exit None pre) (h :: p) ->
  (length p <= n)%nat -> find_group_head n (exit None (pre ++ h :: p)) s = Ok (Some h).
Proof.
  intros s p. induction p as [|x p IH] using rev_ind; intros h n pre Hh Hb Hn.
  - rewrite exit_snoc. destruct Hh as (E & _). destruct n; cbn; now rewrite E.
  - rewrite app_length in Hn. cbn in Hn. destruct n as [|n]; [lia|].
    change (h :: p ++ [x]) with ((h :: p) ++ [x]) in *. rewrite app_assoc, exit_snoc.
    destruct Hh as (Eh & F). apply Forall_app in F. destruct F as (F1 & F2). inv F2. cbn [find_group_head]. rewrite H1.
    apply bw_app in Hb. destruct Hb as (Hb & Ex & _). rewrite Ex.
    rewrite <- exit_app. apply IH; auto; [now split|lia].
Qed.

(** util.py 320-333 at a node that does not begin a group. *)
Lemma group_at_rep : forall (s : gl) n1 p c q n2 g1 xp xq g2, p <> [] ->
  rep s (n1 ++ (p ++ c :: q) :: n2) (g1 ++ (xp ++ xq) :: g2) -> length g1 = length n1 -> length xp = length p ->
  exists t, new_group_at_node (Some c) s = Ok t /\ rep t (n1 ++ p :: (c :: q) :: n2) (g1 ++ xp :: xq :: g2) /\
    fresh t = fresh s /\ n_par t = n_par s.
Proof.
  intros s n1 p c q n2 g1 xp xq g2 Hp (L & G & V) Lg Lp.
  destruct p as [|h p]; [contradiction|]. clear Hp.
  set (ns := n1 ++ ((h :: p) ++ c :: q) :: n2) in *.
  pose proof (k_nodup _ _ L) as N.
  assert (Ec : concat ns = (concat n1 ++ h :: p) ++ c :: (q ++ concat n2)) by apply concat_split.
  assert (Hcf : g_first s <> Some c).
  { rewrite (k_first _ _ L), Ec. intros E. rewrite Ec in N. apply NoDup_remove_2 in N. apply N. apply in_app_iff. left.
    rewrite entry_app in E. destruct (concat n1 ++ h :: p) eqn:E2; [destruct (concat n1); discriminate|]. cbn in E. injection E as ->. now left. }
  assert (Hpc : n_prev s c = exit None (concat n1 ++ h :: p)).
  { pose proof (k_prev _ _ L) as B. rewrite Ec in B. apply bw_app in B. destruct B as (_ & E & _). exact E. }
  assert (Hcin : In c (concat ns)) by (rewrite Ec; apply in_app_iff; right; now left).
  pose proof (k_head _ _ G) as HH. apply Forall_app in HH. destruct HH as (HH1 & HH2). inv HH2. rename H1 into HHp. rename H2 into HH2.
  destruct HHp as (Eh & F). apply Forall_app in F. destruct F as (F1 & F2). inv F2. rename H1 into Ecf. rename H2 into Fq.
  assert (Nh : heads ns = heads n1 ++ h :: heads n2) by (unfold ns; now rewrite heads_app).
  assert (Hch : ~ In c (heads ns)).
  { intros H. apply (headed_iff (n_head s) ns c N) in H; auto; [congruence|apply G]. }
  assert (Nhd : NoDup (heads ns)) by (apply heads_nodup; auto).
  assert (Hhc : h <> c). { intros ->. apply Hch. rewrite Nh. apply in_app_iff. right. now left. }
  set (s1 := set_head c true s).
  assert (Hfind : find_group_head (fresh s1) (n_prev s1 c) s1 = Ok (Some h)).
  { subst s1. cbn [fresh n_prev set_head]. rewrite Hpc. apply find_head_rep.
    - split; cbn [n_head set_head]; [rewrite upd_neq; auto|]. rewrite Forall_forall in *. intros x Hx. rewrite upd_neq; auto.
      intros ->. rewrite Ec in N. apply NoDup_remove_2 in N. apply N. apply in_app_iff. left. apply in_app_iff. right. now right.
    - pose proof (k_prev _ _ L) as B. rewrite Ec, <- app_assoc in B. apply bw_app in B. destruct B as (_ & B).
      apply bw_app in B. destruct B as (B & _). exact B.
    - pose proof (linked_len _ _ L) as Hl. rewrite Ec in Hl. rewrite !app_length in Hl. cbn in Hl. lia. }
  assert (Enh : n_nh s h = entry (heads n2) None).
  { pose proof (k_nh _ _ G) as B. rewrite Nh in B. apply fw_app in B. destruct B as (_ & E & _). exact E. }
  unfold new_group_at_node. rewrite oeqb_neq by congruence. cbn [deref bind]. fold s1. rewrite Hfind. cbn [bind deref].
  eexists. split; [reflexivity|].
  match goal with |- rep ?t _ _ /\ _ => set (t' := t) end.
  assert (HT : n_nh t' = upd (upd (n_nh s) c (entry (heads n2) None)) h (Some c) /\
     n_ph t' = upd_opt (upd (n_ph s) c (Some h)) (entry (heads n2) None) (Some c) /\
     n_head t' = upd (n_head s) c true /\ n_val t' = n_val s /\ n_next t' = n_next s /\ n_prev t' = n_prev s /\ n_par t' = n_par s /\
     g_first t' = g_first s /\ g_last t' = g_last s /\ g_cnt t' = g_cnt s /\ fresh t' = fresh s /\ g_fhead t' = g_fhead s /\
     g_lhead t' = (if oeqb (g_lhead s) (Some h) then Some c else g_lhead s) /\ g_gcnt t' = (g_gcnt s + 1)%Z).
  { subst t' s1. cbn [n_nh set_ph set_head set_nh]. rewrite upd_neq, Enh by auto.
    destruct (entry (heads n2) None) as [k|]; cbn [on_some set_nh set_ph set_head g_lhead];
      destruct (oeqb (g_lhead s) (Some h));
      cbn [on_some set_nh set_ph set_head set_lhead set_gcnt g_first g_last g_cnt g_fhead g_lhead g_gcnt n_val n_prev n_next n_par n_head n_ph n_nh fresh upd_opt];
      repeat split. }
  clearbody t'. destruct HT as (T1 & T2 & T3 & T4 & T5 & T6 & T7 & T8 & T9 & T10 & T11 & T12 & T13 & T14).
  split; [|auto]. clear s1 Hfind.
  assert (Ec' : concat (n1 ++ (h :: p) :: (c :: q) :: n2) = concat ns).
  { rewrite Ec, concat_app. cbn. now rewrite <- !app_assoc. }
  assert (Nh' : heads (n1 ++ (h :: p) :: (c :: q) :: n2) = (heads n1 ++ [h]) ++ c :: heads n2).
  { rewrite heads_app, <- app_assoc. reflexivity. }
  assert (NhA : heads ns = (heads n1 ++ [h]) ++ heads n2) by (rewrite Nh, <- app_assoc; reflexivity).
  split; [|split].
  - rewrite Ec'. destruct L as [L1 L2 L3 L4 L5 L6 L7 L8]. constructor; rewrite ?T5, ?T6, ?T7, ?T8, ?T9, ?T10, ?T11; auto.
  - constructor.
    + pose proof (k_ne _ _ G) as H. apply Forall_app in H. destruct H as (H1 & H2). inv H2. apply Forall_app. split; auto.
      constructor; [discriminate|]. constructor; [discriminate|auto].
    + rewrite T3. rewrite Ec in N. pose proof N as N'. apply NoDup_remove_2 in N'. rewrite !in_app_iff in N'. cbn in N'.
      apply Forall_app. split; [|constructor; [|constructor]].
      * eapply heads_headed_ext; [|exact HH1]. intros x Hx. rewrite upd_neq; auto. intros ->. tauto.
      * split; [rewrite upd_neq; auto|]. rewrite Forall_forall in *. intros x Hx. rewrite upd_neq; auto. intros ->. tauto.
      * split; [apply upd_eq|]. rewrite Forall_forall in *. intros x Hx. rewrite upd_neq; auto. intros ->. tauto.
      * eapply heads_headed_ext; [|exact HH2]. intros x Hx. rewrite upd_neq; auto. intros ->. tauto.
    + rewrite Nh', T1. pose proof (fw_insert (n_nh s) (heads n1 ++ [h]) (heads n2) c) as H. rewrite exit_snoc in H. apply H.
      * rewrite <- NhA. apply G.
      * now rewrite <- NhA.
      * now rewrite <- NhA.
    + rewrite Nh', T2. pose proof (bw_insert (n_ph s) (heads n1 ++ [h]) (heads n2) c) as H. rewrite exit_snoc in H. apply H.
      * rewrite <- NhA. apply G.
      * now rewrite <- NhA.
      * now rewrite <- NhA.
    + rewrite Nh', T12, (k_fhead _ _ G), NhA, !entry_app. reflexivity.
    + rewrite Nh', T13, (k_lhead _ _ G), NhA, !exit_app. cbn [exit]. destruct n2 as [|m n2'].
      * cbn [heads flat_map exit]. now rewrite oeqb_refl.
      * assert (Hm : m <> []). { pose proof (k_ne _ _ G) as H. apply Forall_app in H. destruct H as (_ & H). inv H. now inv H3. }
        destruct m as [|y m]; [contradiction|]. rewrite heads_cons. cbn [exit]. rewrite oeqb_neq; auto.
        intros E. assert (E' : exit None (y :: heads n2') = Some h) by exact E. apply exit_in in E'.
        rewrite NhA in Nhd. apply nodup_app in Nhd. destruct Nhd as (_ & _ & Nhd). apply (Nhd h).
        { apply in_app_iff. right. now left. }
        rewrite heads_cons. exact E'.
    + rewrite T14, (k_gcnt _ _ G). unfold ns, zlen. rewrite !app_length. cbn. lia.
  - apply (valued_ext s); [intros; now rewrite T4|]. unfold valued in *.
    apply Forall2_app_inv_l in V. destruct V as (h1 & h2 & V1 & V2 & E). inv V2.
    assert (g1 = h1 /\ (xp ++ xq) :: g2 = y :: l') as (-> & E2).
    { apply Forall2_length in V1. clear - E V1 Lg. revert h1 E V1. rewrite <- Lg in *. clear Lg. intros h1 E V1.
      assert (length g1 = length h1) by lia. clear V1. revert h1 E H. induction g1; intros [|z h1] E H; cbn in *; try lia; auto.
      injection E as <- E. destruct (IHg1 h1 E) as (-> & ?); [lia|]. auto. }
    injection E2 as <- <-. apply Forall2_app; auto.
    change (h :: p ++ c :: q) with ((h :: p) ++ (c :: q)) in H1. 
    apply Forall2_app_inv_l in H1. destruct H1 as (u & v & U1 & U2 & E3).
    assert (xp = u /\ xq = v) as (-> & ->).
    { apply Forall2_length in U1. assert (length xp = length u) by congruence. clear - E3 H. revert u E3 H.
      induction xp; intros [|z u] E H; cbn in *; try lia; auto. injection E as <- E. destruct (IHxp u E); [lia|]. subst. auto. }
    constructor; auto.
Qed.
End Rep.
