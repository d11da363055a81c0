(** * PGroup2: insertion and deletion of nodes. *)
From Coq Require Import List ZArith Bool Arith Lia.
From Verif Require Import Base MSeq MGroup SpecGroup PGroup.
Import ListNotations.

(** ** The specification functions at a decomposition *)
Section Dec.
Context {B : Type}.
Implicit Types (n : list (list B)) (p q : list B) (a x : B).
Lemma fs_app : forall p q, firstn (length p) (p ++ q) = p /\ skipn (length p) (p ++ q) = q.
Proof. induction p; intros q; cbn; auto. destruct (IHp q) as (-> & ->). auto. Qed.
Lemma fs_app_S : forall p a q, firstn (S (length p)) (p ++ a :: q) = p ++ [a] /\ skipn (S (length p)) (p ++ a :: q) = q.
Proof. induction p; intros b q; [auto|]. cbn [length app]. destruct (IHp b q) as (E1 & E2). cbn in *. rewrite E1, E2. auto. Qed.
Lemma len_in : forall p a q, (length p <? length (p ++ a :: q))%nat = true.
Proof. intros. apply Nat.ltb_lt. rewrite app_length. cbn. lia. Qed.
Lemma len_out : forall m n1 p, (length (concat (m :: n1) ++ p) <? length m)%nat = false /\
  (length (concat (m :: n1) ++ p) - length m)%nat = length (concat n1 ++ p).
Proof. intros. cbn. rewrite !app_length. split; [apply Nat.ltb_ge; lia|lia]. Qed.
Lemma insert_dec : forall n1 p a q n2 x,
  s_insert (length (concat n1 ++ p)) x (n1 ++ (p ++ a :: q) :: n2) = n1 ++ (p ++ x :: a :: q) :: n2.
Proof.
  induction n1 as [|m n1 IH]; intros; cbn [app s_insert].
  - cbn [concat app]. rewrite len_in. destruct (fs_app p (a :: q)) as (-> & ->). reflexivity.
  - destruct (len_out m n1 p) as (-> & ->). now rewrite IH.
Qed.
Lemma insert_after_dec : forall n1 p a q n2 x,
  s_insert_after (length (concat n1 ++ p)) x (n1 ++ (p ++ a :: q) :: n2) = n1 ++ (p ++ a :: x :: q) :: n2.
Proof.
  induction n1 as [|m n1 IH]; intros; cbn [app s_insert_after].
  - cbn [concat app]. rewrite len_in. destruct (fs_app_S p a q) as (-> & ->). now rewrite <- app_assoc.
  - destruct (len_out m n1 p) as (-> & ->). now rewrite IH.
Qed.
Lemma replace_dec : forall n1 p a q n2 x,
  s_replace (length (concat n1 ++ p)) x (n1 ++ (p ++ a :: q) :: n2) = n1 ++ (p ++ x :: q) :: n2.
Proof.
  induction n1 as [|m n1 IH]; intros; cbn [app s_replace].
  - cbn [concat app]. rewrite len_in. destruct (fs_app p (a :: q)) as (-> & _). destruct (fs_app_S p a q) as (_ & ->). reflexivity.
  - destruct (len_out m n1 p) as (-> & ->). now rewrite IH.
Qed.
Lemma delete_dec : forall n1 p a q n2,
  s_delete (length (concat n1 ++ p)) (n1 ++ (p ++ a :: q) :: n2) = n1 ++ match p ++ q with [] => n2 | r => r :: n2 end.
Proof.
  induction n1 as [|m n1 IH]; intros; cbn [app s_delete].
  - cbn [concat app]. rewrite len_in. destruct (fs_app p (a :: q)) as (-> & _). destruct (fs_app_S p a q) as (_ & ->). reflexivity.
  - destruct (len_out m n1 p) as (-> & ->). now rewrite IH.
Qed.
Lemma cut_dec : forall n1 p a q n2, p <> [] ->
  s_cut (length (concat n1 ++ p)) (n1 ++ (p ++ a :: q) :: n2) = n1 ++ p :: (a :: q) :: n2.
Proof.
  induction n1 as [|m n1 IH]; intros p a q n2 Hp; cbn [app s_cut].
  - cbn [concat app]. rewrite len_in. destruct (fs_app p (a :: q)) as (E1 & E2). destruct (length p) eqn:El.
    + destruct p; [contradiction|discriminate].
    + rewrite E1, E2. reflexivity.
  - destruct (len_out m n1 p) as (-> & ->). now rewrite IH.
Qed.
Lemma cut_head : forall n1 a q n2, s_cut (length (concat n1)) (n1 ++ (a :: q) :: n2) = n1 ++ (a :: q) :: n2.
Proof.
  induction n1 as [|m n1 IH]; intros a q n2; cbn [app s_cut]; [reflexivity|].
  destruct (len_out m n1 []) as (E1 & E2). rewrite !app_nil_r in *. rewrite E1, E2. now rewrite IH.
Qed.
Lemma later_head_dec : forall n1 p a q n2, Forall (fun p => p <> []) n1 ->
  later_head (length (concat n1 ++ p)) (n1 ++ (p ++ a :: q) :: n2) = match n1, p with _ :: _, [] => true | _, _ => false end.
Proof.
  induction n1 as [|m n1 IH]; intros p a q n2 Hn; cbn [app later_head].
  - cbn [concat app]. rewrite len_in. reflexivity.
  - destruct (len_out m n1 p) as (E1 & E2). rewrite E1, E2. inv Hn. specialize (IH p a q n2 H2).
    destruct (length (concat n1 ++ p)) as [|k] eqn:El.
    + destruct p; [|rewrite app_length in El; cbn in El; lia]. destruct (n1 ++ _) eqn:E; [destruct n1; discriminate|reflexivity].
    + rewrite IH. destruct n1 as [|m' n1]; [|reflexivity]. cbn in El. destruct p; [discriminate|reflexivity].
Qed.
Lemma append_dec : forall n1 p x, s_append false x (n1 ++ [p]) = n1 ++ [p ++ [x]] /\ s_append true x (n1 ++ [p]) = n1 ++ [p; [x]].
Proof.
  induction n1 as [|m n1 IH]; intros p x; cbn [app s_append]; auto. destruct (IH p x) as (-> & ->).
  destruct (n1 ++ [p]) eqn:E; [destruct n1; discriminate|auto].
Qed.
End Dec.

(** Parametricity. *)
Section Par.
Context {B C : Type} (R : B -> C -> Prop).
Notation RR := (Forall2 (Forall2 R)).
Lemma F2_firstn : forall i l m, Forall2 R l m -> Forall2 R (firstn i l) (firstn i m).
Proof. induction i; intros l m H; cbn; [constructor|]. inv H; constructor; auto. Qed.
Lemma F2_skipn : forall i l m, Forall2 R l m -> Forall2 R (skipn i l) (skipn i m).
Proof. induction i; intros l m H; cbn; auto. inv H; [constructor|auto]. Qed.
Lemma insert_par : forall g h i a x, RR g h -> R a x -> RR (s_insert i a g) (s_insert i x h).
Proof.
  intros g h i a x H Hx. revert i. induction H as [|p q g h Hp H IH]; intros i; cbn [s_insert]; [constructor|].
  rewrite <- (Forall2_length Hp). destruct (i <? length p)%nat; constructor; auto. apply Forall2_app; auto using F2_firstn.
  constructor; auto using F2_skipn.
Qed.
Lemma insert_after_par : forall g h i a x, RR g h -> R a x -> RR (s_insert_after i a g) (s_insert_after i x h).
Proof.
  intros g h i a x H Hx. revert i. induction H as [|p q g h Hp H IH]; intros i; cbn [s_insert_after]; [constructor|].
  rewrite <- (Forall2_length Hp). destruct (i <? length p)%nat; constructor; auto. apply Forall2_app; auto using F2_firstn.
  constructor; auto using F2_skipn.
Qed.
Lemma replace_par : forall g h i a x, RR g h -> R a x -> RR (s_replace i a g) (s_replace i x h).
Proof.
  intros g h i a x H Hx. revert i. induction H as [|p q g h Hp H IH]; intros i; cbn [s_replace]; [constructor|].
  rewrite <- (Forall2_length Hp). destruct (i <? length p)%nat; constructor; auto. apply Forall2_app; auto using F2_firstn.
  constructor; auto using F2_skipn.
Qed.
Lemma delete_par : forall g h i, RR g h -> RR (s_delete i g) (s_delete i h).
Proof.
  intros g h i H. revert i. induction H as [|p q g h Hp H IH]; intros i; cbn [s_delete]; [constructor|].
  rewrite <- (Forall2_length Hp). destruct (i <? length p)%nat; [|constructor; auto].
  assert (K : Forall2 R (firstn i p ++ skipn (S i) p) (firstn i q ++ skipn (S i) q)) by (apply Forall2_app; auto using F2_firstn, F2_skipn).
  destruct (firstn i p ++ skipn (S i) p), (firstn i q ++ skipn (S i) q); [assumption|inversion K|inversion K|constructor; assumption].
Qed.
Lemma cut_par : forall g h i, RR g h -> RR (s_cut i g) (s_cut i h).
Proof.
  intros g h i H. revert i. induction H as [|p q g h Hp H IH]; intros i; cbn [s_cut]; [constructor|].
  rewrite <- (Forall2_length Hp). destruct (i <? length p)%nat; [|constructor; auto].
  destruct i; constructor; auto. { now apply F2_firstn. } constructor; auto. now apply F2_skipn.
Qed.
Lemma later_head_par : forall g h i, RR g h -> later_head i g = later_head i h.
Proof.
  intros g h i H. revert i. induction H as [|p q g h Hp H IH]; intros i; cbn [later_head]; auto.
  rewrite <- (Forall2_length Hp). destruct (i <? length p)%nat; auto. destruct (i - length p)%nat; auto. now inversion H.
Qed.
Lemma append_par : forall ng g h a x, RR g h -> R a x -> RR (s_append ng a g) (s_append ng x h).
Proof.
  intros ng g h a x H Hx. induction H as [|p q g h Hp H IH]; cbn [s_append]; [repeat constructor; auto|].
  inversion H; subst.
  - destruct ng; repeat (constructor; auto). apply Forall2_app; auto.
  - constructor; auto.
Qed.
Lemma prepend_par : forall ng g h a x, RR g h -> R a x -> RR (s_prepend ng a g) (s_prepend ng x h).
Proof. intros ng g h a x H Hx. destruct H; cbn; [repeat constructor; auto|]. destruct ng; repeat (constructor; auto). Qed.
End Par.

(** Pointwise equality of updated maps. *)
Ltac pw := unfold upd; repeat match goal with |- context [Nat.eqb ?a ?b] => destruct (Nat.eqb_spec a b) end; congruence.

Section Rep.
Context {A : Type}.
Notation gl := (glist A).

(** What was done to [fresh] and [n_par]. *)
Definition made (s t : gl) : Prop := fresh t = S (fresh s) /\ n_par t = upd (n_par s) (fresh s) true.
Definition kept (s t : gl) : Prop := fresh t = fresh s /\ n_par t = n_par s.

Lemma linked_same : forall (s t : gl) l, linked s l -> n_next t = n_next s -> n_prev t = n_prev s -> n_par t = n_par s ->
  g_first t = g_first s -> g_last t = g_last s -> g_cnt t = g_cnt s -> fresh t = fresh s -> linked t l.
Proof. intros s t l L E1 E2 E3 E4 E5 E6 E7. destruct L. constructor; rewrite ?E1, ?E2, ?E3, ?E4, ?E5, ?E6, ?E7; auto. Qed.

(** util.py 320-333. *)
Lemma cut_rep : forall (s : gl) n1 p c q n2 g, p <> [] -> rep s (n1 ++ (p ++ c :: q) :: n2) g ->
  exists t, new_group_at_node (Some c) s = Ok t /\ rep t (n1 ++ p :: (c :: q) :: n2) (s_cut (length (concat n1 ++ p)) g) /\ kept s t.
Proof.
  intros s n1 p c q n2 g Hp H. destruct H as (L & G & V). destruct (valued_split _ _ _ _ _ V) as (g1 & y & g2 & -> & V1 & Vp & V2).
  apply Forall2_app_inv_l in Vp. destruct Vp as (xp & xq & P1 & P2 & ->).
  destruct (group_at_rep s n1 p c q n2 g1 xp xq g2) as (t & E & R & K); auto.
  - split; auto.
  - symmetry. apply (Forall2_length V1).
  - symmetry. apply (Forall2_length P1).
  - exists t. split; [exact E|]. split; [|exact K].
    replace (length (concat n1 ++ p)) with (length (concat g1 ++ xp)).
    + inv P2. rewrite cut_dec; auto. intros ->. inv P1. contradiction.
    + rewrite !app_length, (Forall2_length P1). f_equal. symmetry. apply (Forall2_length (concat_F2 _ _ _ V1)).
Qed.

Lemma child_rep : forall (s : gl) l a, linked s l -> In a l -> check_child (Some a) s = Ok a.
Proof. intros s l a L H. pose proof (k_par _ _ L) as P. rewrite Forall_forall in P. unfold check_child. now rewrite P. Qed.

Lemma raw_valued : forall (s t : gl) ns g x i, valued s ns g -> ~ In (fresh s) (concat ns) -> n_val t = upd (n_val s) (fresh s) (Some x) ->
  valued t (s_insert i (fresh s) ns) (s_insert i x g) /\ valued t (s_insert_after i (fresh s) ns) (s_insert_after i x g) /\
  (forall ng, valued t (s_append ng (fresh s) ns) (s_append ng x g)) /\ (forall ng, valued t (s_prepend ng (fresh s) ns) (s_prepend ng x g)).
Proof.
  intros s t ns g x i V Hf E.
  assert (V' : valued t ns g). { apply (valued_ext s); auto. intros y Hy. rewrite E, upd_neq; auto. intros ->. contradiction. }
  assert (Hx : n_val t (fresh s) = Some x) by (rewrite E; apply upd_eq).
  repeat split; [apply insert_par|apply insert_after_par|intros; apply append_par|intros; apply prepend_par]; auto.
Qed.

(** util.py 284-294. *)
Lemma insert_after_rep : forall (s : gl) n1 p a q n2 g x, rep s (n1 ++ (p ++ a :: q) :: n2) g ->
  exists t, insert_after (Some a) x false s = Ok t /\
    rep t (n1 ++ (p ++ a :: fresh s :: q) :: n2) (s_insert_after (length (concat n1 ++ p)) x g) /\ made s t.
Proof.
  intros s n1 p a q n2 g x (L & G & V). set (ns := n1 ++ (p ++ a :: q) :: n2) in *.
  assert (Ec : concat ns = (concat n1 ++ p) ++ a :: (q ++ concat n2)) by apply concat_split.
  assert (Ia : In a (concat ns)) by (rewrite Ec; apply in_app_iff; right; now left).
  unfold insert_after. rewrite (child_rep s _ a L Ia). cbn [bind]. fold (raw_after a x s).
  change (let (new, s0) := alloc x (Some a) (n_next s a) s in
    let s1 := on_some (n_next s0 a) (fun b => set_prev b (Some new)) s0 in
    let s2 := set_next a (Some new) s1 in let s3 := if oeqb (Some a) (g_last s2) then set_last (Some new) s2 else s2 in
    let s4 := set_cnt (g_cnt s3 + 1) s3 in Ok s4) with (Ok (raw_after a x s)).
  exists (raw_after a x s). split; [reflexivity|]. pose proof (fresh_out _ _ L) as Ho.
  rewrite Ec in L. destruct (raw_after_rep s _ a _ x L) as (L' & S' & V').
  split; [|split].
  - split; [|split].
    + rewrite concat_app. cbn [concat]. rewrite <- !app_assoc in *. exact L'.
    + change (p ++ a :: fresh s :: q) with (p ++ [a] ++ fresh s :: q). rewrite app_assoc.
      apply (groups_tail s n1 (p ++ [a]) (fresh s) q n2); auto.
      * rewrite <- app_assoc. exact G.
      * destruct p; discriminate.
      * rewrite <- app_assoc. exact Ho.
    + rewrite <- insert_after_dec. fold ns. apply (raw_valued s); auto. apply V'.
  - apply V'.
  - apply V'.
Qed.

(** The attributes of the list and its nodes other than those of groups. *)
Definition same_list (s t : gl) : Prop :=
  n_next t = n_next s /\ n_prev t = n_prev s /\ n_par t = n_par s /\ g_first t = g_first s /\ g_last t = g_last s /\
  g_cnt t = g_cnt s /\ fresh t = fresh s /\ n_val t = n_val s.
Lemma same_list_linked : forall (s t : gl) l, same_list s t -> linked s l -> linked t l.
Proof. intros s t l (E1 & E2 & E3 & E4 & E5 & E6 & E7 & _) L. eapply linked_same; eauto. Qed.

(** util.py 299-318. *)
Lemma before_head_rep : forall (s t : gl) n1 a q n2 keep, grouped s (n1 ++ (a :: q) :: n2) -> NoDup (concat (n1 ++ (a :: q) :: n2)) ->
  ~ In (fresh s) (concat (n1 ++ (a :: q) :: n2)) -> same_groups s t -> n_next t (fresh s) = Some a ->
  exists u, new_group_before_head (fresh s) keep t = Ok u /\ same_list t u /\
    grouped u (n1 ++ (if keep : bool then [fresh s] :: (a :: q) :: n2 else (fresh s :: a :: q) :: n2)).
Proof.
  intros s t n1 a q n2 keep G N Hf (S1 & S2 & S3 & S4 & S5 & S6) En. set (new := fresh s) in *.
  set (ns := n1 ++ (a :: q) :: n2) in *.
  assert (Nh : heads ns = heads n1 ++ a :: heads n2) by (unfold ns; now rewrite heads_app).
  assert (Nhd : NoDup (heads ns)) by (apply heads_nodup; auto).
  assert (Hfh : ~ In new (heads ns)) by (intros H; apply Hf; now apply heads_in).
  assert (Hna : a <> new). { intros E. apply Hfh. rewrite Nh, E. apply in_app_iff. right. now left. }
  assert (Enh : n_nh s a = entry (heads n2) None).
  { pose proof (k_nh _ _ G) as B. rewrite Nh in B. apply fw_app in B. destruct B as (_ & E & _). exact E. }
  assert (Eph : n_ph s a = exit None (heads n1)).
  { pose proof (k_ph _ _ G) as B. rewrite Nh in B. apply bw_app in B. destruct B as (_ & E & _). exact E. }
  assert (Hpa : exit None (heads n1) <> Some a).
  { intros E. apply exit_in in E. rewrite Nh in Nhd. apply NoDup_remove_2 in Nhd. apply Nhd. apply in_app_iff. auto. }
  assert (Hqa : entry (heads n2) None <> Some a).
  { intros E. apply entry_in in E. rewrite Nh in Nhd. apply NoDup_remove_2 in Nhd. apply Nhd. apply in_app_iff. auto. }
  assert (Hpn : exit None (heads n1) <> Some new).
  { intros E. apply exit_in in E. apply Hfh. rewrite Nh. apply in_app_iff. auto. }
  assert (Hqn : entry (heads n2) None <> Some new).
  { intros E. apply entry_in in E. apply Hfh. rewrite Nh. apply in_app_iff. right. now right. }
  assert (Ef : oeqb (g_fhead t) (Some a) = match heads n1 with [] => true | _ => false end).
  { rewrite S1, (k_fhead _ _ G), Nh, entry_app. destruct (heads n1) as [|b hs] eqn:E1; cbn; [apply Nat.eqb_refl|].
    apply Nat.eqb_neq. intros ->. rewrite Nh in Nhd. cbn in Nhd. inv Nhd. apply H1. apply in_app_iff. right. now left. }
  pose proof (k_head _ _ G) as HH. apply Forall_app in HH. destruct HH as (HH1 & HH2). inv HH2. rename H1 into HHp. rename H2 into HH2.
  destruct HHp as (Eha & Fq).
  pose proof (k_ne _ _ G) as Hne. apply Forall_app in Hne. destruct Hne as (Hne1 & Hne2). inv Hne2. rename H2 into Hne2. clear H1.
  assert (Hfr : ~ In new (concat n1) /\ ~ In new q /\ ~ In new (concat n2)).
  { unfold ns in Hf. rewrite concat_app in Hf. cbn in Hf. rewrite in_app_iff in Hf. cbn in Hf. rewrite in_app_iff in Hf. tauto. }
  assert (Hfa : ~ In a (concat n1) /\ ~ In a q /\ ~ In a (concat n2)).
  { unfold ns in N. rewrite concat_app in N. cbn in N. apply NoDup_remove_2 in N. rewrite !in_app_iff in N. tauto. }
  destruct Hfr as (Hfr1 & Hfr2 & Hfr3). destruct Hfa as (Hfa1 & Hfa2 & Hfa3).
  unfold new_group_before_head. rewrite En. cbn [deref bind]. eexists. split; [reflexivity|].
  match goal with |- same_list t ?u /\ _ => set (u' := u) end.
  destruct keep.
  - assert (HT : n_nh u' = upd (upd_opt (n_nh t) (exit None (heads n1)) (Some new)) new (Some a) /\
       n_ph u' = upd (upd (n_ph t) new (exit None (heads n1))) a (Some new) /\
       n_head u' = upd (n_head t) new true /\ same_list t u' /\ g_lhead u' = g_lhead t /\
       g_fhead u' = match heads n1 with [] => Some new | _ => g_fhead t end /\ g_gcnt u' = (g_gcnt t + 1)%Z).
    { assert (X : n_ph t a = exit None (heads n1)) by (rewrite S5, upd_neq; auto).
      subst u'. cbn [set_head set_ph set_nh n_ph]. rewrite upd_neq, X by auto. unfold same_list. destruct (exit None (heads n1)) as [h|];
        cbn [on_some set_nh set_ph set_head set_lhead set_gcnt g_fhead]; rewrite Ef; destruct (heads n1);
        cbn [on_some set_nh set_ph set_head set_fhead set_lhead set_gcnt g_first g_last g_cnt g_fhead g_lhead g_gcnt n_val n_prev n_next n_par n_head n_ph n_nh fresh upd_opt];
        repeat split. }
    clearbody u'. destruct HT as (T1 & T2 & T3 & T4 & T5 & T6 & T7). split; auto.
    assert (Nh' : heads (n1 ++ [new] :: (a :: q) :: n2) = heads n1 ++ new :: a :: heads n2) by now rewrite heads_app.
    constructor.
    + apply Forall_app. split; auto. constructor; [discriminate|]. constructor; [discriminate|auto].
    + rewrite T3, S4. apply Forall_app. split; [|constructor; [|constructor]].
      * eapply heads_headed_ext; [|exact HH1]. intros x Hx. rewrite !upd_neq; auto; intros ->; contradiction.
      * split; [apply upd_eq|constructor].
      * split; [rewrite !upd_neq; auto|]. rewrite Forall_forall in *. intros x Hx. rewrite !upd_neq; auto; intros ->; contradiction.
      * eapply heads_headed_ext; [|exact HH2]. intros x Hx. rewrite !upd_neq; auto; intros ->; contradiction.
    + rewrite Nh', T1, S6. pose proof (fw_insert (n_nh s) (heads n1) (a :: heads n2) new) as H. rewrite <- Nh in H.
      eapply fw_ext; [|apply H; auto; apply G]. intros x _. cbn [entry].
      destruct (exit None (heads n1)) as [h|]; cbn [upd_opt]; pw.
    + rewrite Nh', T2, S5. pose proof (bw_insert (n_ph s) (heads n1) (a :: heads n2) new) as H. rewrite <- Nh in H.
      eapply bw_ext; [|apply H; auto; apply G]. intros x _. cbn [entry upd_opt]. pw.
    + rewrite Nh', T6, S1, (k_fhead _ _ G), Nh, !entry_app. destruct (heads n1); reflexivity.
    + rewrite Nh', T5, S2, (k_lhead _ _ G), Nh, !exit_app. reflexivity.
    + rewrite T7, S3, (k_gcnt _ _ G). unfold ns, zlen. rewrite !app_length. cbn. lia.
  - assert (El : g_lhead t = exit None (heads ns)) by (rewrite S2; apply G).
    assert (HT : n_nh u' = upd (upd (upd_opt (n_nh t) (exit None (heads n1)) (Some new)) new (entry (heads n2) None)) a None /\
       n_ph u' = upd (upd_opt (upd (n_ph t) new (exit None (heads n1))) (entry (heads n2) None) (Some new)) a None /\
       n_head u' = upd (upd (n_head t) new true) a false /\ same_list t u' /\
       g_lhead u' = match heads n2 with [] => Some new | _ => g_lhead t end /\
       g_fhead u' = match heads n1 with [] => Some new | _ => g_fhead t end /\ g_gcnt u' = g_gcnt t).
    { assert (X : n_ph t a = exit None (heads n1)) by (rewrite S5, upd_neq; auto).
      assert (Y : n_nh t a = entry (heads n2) None) by (rewrite S6, upd_neq; auto).
      assert (Ell : heads n2 = [] -> oeqb (g_lhead t) (Some a) = true).
      { intros E. rewrite El, Nh, E, exit_snoc. apply oeqb_refl. }
      subst u'. cbn [set_head set_ph set_nh n_ph]. rewrite upd_neq, X by auto. unfold same_list.
      destruct (exit None (heads n1)) as [h|] eqn:Eh; cbn [on_some set_nh set_ph set_head set_lhead set_gcnt g_fhead n_nh].
      + assert (Z1 : upd (n_nh t) h (Some new) a = entry (heads n2) None) by (rewrite upd_neq; [exact Y|congruence]).
        rewrite Z1. rewrite upd_neq, Z1 by auto.
        destruct (heads n2) as [|k hs2] eqn:E2; cbn [entry on_some set_nh set_ph set_head set_lhead set_gcnt g_lhead];
          [rewrite Ell by auto|]; cbn [clear_group_head set_nh set_ph set_head set_lhead g_fhead]; rewrite Ef; destruct (heads n1);
        cbn [clear_group_head on_some set_nh set_ph set_head set_fhead set_lhead set_gcnt g_first g_last g_cnt g_fhead g_lhead g_gcnt n_val n_prev n_next n_par n_head n_ph n_nh fresh upd_opt];
        repeat split.
      + rewrite Y. rewrite upd_neq, Y by auto.
        destruct (heads n2) as [|k hs2] eqn:E2; cbn [entry on_some set_nh set_ph set_head set_lhead set_gcnt g_lhead];
          [rewrite Ell by auto|]; cbn [clear_group_head set_nh set_ph set_head set_lhead g_fhead]; rewrite Ef; destruct (heads n1);
        cbn [clear_group_head on_some set_nh set_ph set_head set_fhead set_lhead set_gcnt g_first g_last g_cnt g_fhead g_lhead g_gcnt n_val n_prev n_next n_par n_head n_ph n_nh fresh upd_opt];
        repeat split. }
    clearbody u'. destruct HT as (T1 & T2 & T3 & T4 & T5 & T6 & T7). split; auto.
    assert (Nh' : heads (n1 ++ (new :: a :: q) :: n2) = heads n1 ++ new :: heads n2) by now rewrite heads_app.
    assert (Hd : forall x, In x (heads n1 ++ new :: heads n2) -> x <> a).
    { intros x Hx ->. rewrite Nh in Nhd. apply NoDup_remove_2 in Nhd. apply Nhd. apply in_app_iff. apply in_app_iff in Hx. cbn in Hx.
      destruct Hx as [|[E|]]; auto. congruence. }
    constructor.
    + apply Forall_app. split; auto. constructor; [discriminate|auto].
    + rewrite T3, S4. apply Forall_app. split; [|constructor].
      * eapply heads_headed_ext; [|exact HH1]. intros x Hx. rewrite !upd_neq; auto; intros ->; contradiction.
      * split; [rewrite upd_neq; auto; apply upd_eq|]. constructor; [apply upd_eq|].
        rewrite Forall_forall in *. intros x Hx. rewrite !upd_neq; auto; intros ->; contradiction.
      * eapply heads_headed_ext; [|exact HH2]. intros x Hx. rewrite !upd_neq; auto; intros ->; contradiction.
    + rewrite Nh', T1, S6. pose proof (fw_replace (n_nh s) (heads n1) a (heads n2) new) as H. rewrite <- Nh in H.
      eapply fw_ext; [|apply H; auto; apply G]. intros x Hx. apply Hd in Hx. rewrite Enh.
      destruct (exit None (heads n1)) as [h|]; cbn [upd_opt]; pw.
    + rewrite Nh', T2, S5. pose proof (bw_replace (n_ph s) (heads n1) a (heads n2) new) as H. rewrite <- Nh in H.
      eapply bw_ext; [|apply H; auto; apply G]. intros x Hx. apply Hd in Hx. rewrite Eph.
      destruct (entry (heads n2) None) as [h|]; cbn [upd_opt]; pw.
    + rewrite Nh', T6, S1, (k_fhead _ _ G), Nh, !entry_app. destruct (heads n1); reflexivity.
    + rewrite Nh', T5, El, Nh, !exit_app. destruct (heads n2); reflexivity.
    + rewrite T7, S3, (k_gcnt _ _ G). unfold ns, zlen. rewrite !app_length. cbn. lia.
Qed.

(** util.py 257-282 without a new group. *)
Lemma insert_before_rep : forall (s : gl) n1 p a q n2 g x, rep s (n1 ++ (p ++ a :: q) :: n2) g ->
  exists t, insert_before (Some a) x false s = Ok t /\
    rep t (n1 ++ (p ++ fresh s :: a :: q) :: n2) (s_insert (length (concat n1 ++ p)) x g) /\ made s t.
Proof.
  intros s n1 p a q n2 g x (L & G & V). set (ns := n1 ++ (p ++ a :: q) :: n2) in *.
  assert (Ec : concat ns = (concat n1 ++ p) ++ a :: (q ++ concat n2)) by apply concat_split.
  assert (Ia : In a (concat ns)) by (rewrite Ec; apply in_app_iff; right; now left).
  pose proof (fresh_out _ _ L) as Ho. pose proof (k_nodup _ _ L) as N.
  assert (EE : insert_before (Some a) x false s = match n_next (raw_before a x s) (fresh s) with
   | Some b => if n_head (raw_before a x s) b then new_group_before_head (fresh s) false (raw_before a x s) else Ok (raw_before a x s)
   | None => Ok (raw_before a x s)
   end).
  { unfold insert_before. rewrite (child_rep s _ a L Ia). reflexivity. }
  rewrite EE. clear EE.
  rewrite Ec in L. destruct (raw_before_rep s _ a _ x L) as (L' & S' & V' & M').
  assert (En : n_next (raw_before a x s) (fresh s) = Some a).
  { pose proof (k_next _ _ L') as F. apply fw_app in F. destruct F as (_ & E & _). exact E. }
  rewrite En.
  assert (Hna : a <> fresh s) by (intros E; apply Ho; rewrite <- E; exact Ia).
  assert (Eh : n_head (raw_before a x s) a = n_head s a) by (destruct S' as (_ & _ & _ & -> & _); now rewrite upd_neq).
  rewrite Eh. pose proof (k_head _ _ G) as HH. apply Forall_app in HH. destruct HH as (_ & HH). inv HH. rename H1 into HHp. clear H2.
  destruct p as [|h p].
  - destruct HHp as (Ea & _). cbn [app] in *. rewrite Ea.
    destruct (before_head_rep s (raw_before a x s) n1 a q n2 false G N Ho S' En) as (u & E & K & G').
    exists u. split; [exact E|]. split; [|destruct K as (_ & _ & K3 & _ & _ & _ & K7 & _); destruct M' as (M1 & M2); split; congruence].
    split; [|split; [exact G'|]].
    + apply (same_list_linked (raw_before a x s)); auto. rewrite concat_app. cbn [concat app]. rewrite app_nil_r in L'. exact L'.
    + change (fresh s :: a :: q) with ([] ++ fresh s :: a :: q). rewrite <- insert_dec. fold ns.
      apply (raw_valued s); auto. destruct K as (_ & _ & _ & _ & _ & _ & _ & ->). exact V'.
  - destruct HHp as (_ & F). apply Forall_app in F. destruct F as (_ & F). inv F. rewrite H1.
    exists (raw_before a x s). split; [reflexivity|]. split; [|exact M']. split; [|split].
    + rewrite concat_app. cbn [concat]. rewrite <- !app_assoc in *. exact L'.
    + apply (groups_tail s n1 (h :: p) (fresh s) (a :: q) n2); auto. discriminate.
    + rewrite <- insert_dec. fold ns. apply (raw_valued s); auto.
Qed.

Lemma last_dec : forall {B} (g : list (list B)), Forall (fun p => p <> []) g -> g <> [] -> exists n p a, g = n ++ [p ++ [a]].
Proof.
  intros B g Hf Hn. destruct (exists_last Hn) as (n & m & ->). apply Forall_app in Hf. destruct Hf as (_ & Hf). inv Hf.
  destruct (exists_last H1) as (p & a & ->). eauto.
Qed.
Lemma cnt_zero : forall (s : gl) ns g, rep s ns g -> ((g_cnt s =? 0)%Z = true <-> g = []) /\ (g = [] <-> ns = []).
Proof.
  intros s ns g (L & G & V). rewrite (k_cnt _ _ L). pose proof (k_ne _ _ G) as Hn. unfold zlen.
  assert (Hg : g = [] <-> ns = []) by (split; intros ->; inversion V; auto). split; [|exact Hg]. rewrite Hg, Z.eqb_eq. split.
  - intros E. destruct ns as [|p ns]; auto. inv Hn. destruct p; [contradiction|]. cbn in E. lia.
  - intros ->. reflexivity.
Qed.

(** util.py 237-243. *)
Lemma insert_first_rep : forall (s : gl) x, rep s [] [] -> exists t, insert_first x s = Ok t /\ rep t [[fresh s]] [[x]] /\ made s t.
Proof.
  intros s x (L & G & _). unfold insert_first, alloc. cbn [set_last set_first g_cnt].
  unfold setup_single_group. cbn [set_cnt g_cnt]. rewrite (k_cnt _ _ L). cbn [zlen length Z.of_nat Z.add]. cbn [Z.gtb Z.compare g_first deref bind].
  eexists. split; [reflexivity|]. split; [|split; reflexivity]. split; [|split].
  - constructor; cbn; auto; try (repeat constructor; cbn; auto; fail).
    + rewrite upd_eq. auto.
    + rewrite upd_eq. auto.
    + constructor; auto. apply upd_eq.
  - constructor; cbn; auto; try (rewrite !upd_eq; auto; fail).
    + repeat constructor. discriminate.
    + constructor; [|constructor]. cbn. rewrite upd_eq. auto.
  - constructor; [|constructor]. constructor; [|constructor]. cbn. apply upd_eq.
Qed.

(** util.py 470-478. *)
Lemma append_rep : forall (s : gl) ns g x ng, rep s ns g ->
  exists t, append x ng s = Ok t /\ rep t (s_append ng (fresh s) ns) (s_append ng x g) /\ made s t.
Proof.
  intros s ns g x ng H. destruct (cnt_zero _ _ _ H) as (Hc & Hg). unfold append. destruct (g_cnt s =? 0)%Z.
  - assert (g = []) by now apply Hc. assert (ns = []) by now apply Hg. subst. destruct (insert_first_rep s x H) as (t & E & R & M).
    exists t. auto.
  - assert (Hgn : g <> []) by (intros E; apply Hc in E; discriminate). assert (Hnn : ns <> []) by (intros E; apply Hg in E; contradiction).
    pose proof (rep_full _ _ _ H) as Fg. pose proof H as (L & G & V). pose proof (k_ne _ _ G) as Fn.
    destruct (last_dec ns Fn Hnn) as (n1 & p & a & ->). destruct (last_dec g Fg Hgn) as (g1 & xp & xa & ->).
    assert (El : g_last s = Some a).
    { rewrite (k_last _ _ L), concat_app. cbn [concat]. rewrite app_nil_r, app_assoc, exit_snoc. reflexivity. }
    rewrite El.
    assert (Elen : length (concat n1 ++ p) = length (concat g1 ++ xp)).
    { pose proof (Forall2_length (concat_F2 _ _ _ V)) as E. rewrite !concat_app in E. cbn [concat] in E.
      rewrite !app_length in *. cbn in E. lia. }
    destruct (insert_after_rep s n1 p a [] [] _ x H) as (t & E & R & M).
    rewrite Elen, insert_after_dec in R. destruct ng.
    + change (p ++ [a; fresh s]) with (p ++ [a] ++ [fresh s]) in R. rewrite app_assoc in R.
      destruct (cut_rep t n1 (p ++ [a]) (fresh s) [] [] (g1 ++ [xp ++ [xa; x]])) as (u & E' & R' & K); [destruct p; discriminate|exact R|].
      exists u. split.
      { assert (Ec : check_child (Some a) s = Ok a).
        { apply (child_rep s _ a L). rewrite concat_app, in_app_iff. right. cbn. rewrite app_nil_r, in_app_iff. right. now left. }
        assert (E1 : insert_after (Some a) x false s = Ok (raw_after a x s)) by (unfold insert_after; rewrite Ec; reflexivity).
        assert (E2 : insert_after (Some a) x true s = new_group_at_node (Some (fresh s)) (raw_after a x s))
          by (unfold insert_after; rewrite Ec; reflexivity).
        rewrite E2. rewrite E1 in E. injection E as ->. exact E'. }
      rewrite app_assoc, !app_length in R'. cbn [length] in R'. rewrite <- app_length, Elen in R'.
      change (xp ++ [xa; x]) with (xp ++ [xa] ++ [x]) in R'. rewrite app_assoc in R'.
      replace (length (concat g1 ++ xp) + 1)%nat with (length (concat g1 ++ (xp ++ [xa]))) in R' by (rewrite !app_length; cbn; lia).
      rewrite cut_dec in R' by (destruct xp; discriminate). destruct (append_dec n1 (p ++ [a]) (fresh s)) as (_ & ->).
      destruct (append_dec g1 (xp ++ [xa]) x) as (_ & ->). split; [exact R'|]. destruct K as (K1 & K2), M as (M1 & M2). split; congruence.
    + exists t. split; [exact E|]. split; [|exact M]. destruct (append_dec n1 (p ++ [a]) (fresh s)) as (-> & _).
      destruct (append_dec g1 (xp ++ [xa]) x) as (-> & _). rewrite <- !app_assoc. exact R.
Qed.

(** util.py 460-468. *)
Lemma prepend_rep : forall (s : gl) ns g x ng, rep s ns g ->
  exists t, prepend x ng s = Ok t /\ rep t (s_prepend ng (fresh s) ns) (s_prepend ng x g) /\ made s t.
Proof.
  intros s ns g x ng H. destruct (cnt_zero _ _ _ H) as (Hc & Hg). unfold prepend. destruct (g_cnt s =? 0)%Z.
  - assert (g = []) by now apply Hc. assert (ns = []) by now apply Hg. subst. destruct (insert_first_rep s x H) as (t & E & R & M).
    exists t. auto.
  - assert (Hnn : ns <> []) by (intros E; apply Hg in E; apply Hc in E; discriminate).
    pose proof H as (L & G & V). pose proof (k_ne _ _ G) as Fn. destruct ns as [|m n2]; [contradiction|]. inv Fn.
    destruct m as [|a q]; [contradiction|].
    assert (El : g_first s = Some a) by (rewrite (k_first _ _ L); reflexivity).
    rewrite El. destruct ng.
    + pose proof (k_nodup _ _ L) as N. pose proof (fresh_out _ _ L) as Ho.
      assert (EE : insert_before (Some a) x true s = new_group_before_head (fresh s) true (raw_before a x s)).
      { unfold insert_before. rewrite (child_rep s _ a L) by now left. cbn [bind]. rewrite El, oeqb_refl. unfold raw_before.
        cbn [alloc fst snd]. reflexivity. }
      destruct (raw_before_rep s [] a (q ++ concat n2) x L) as (L' & S' & V' & M').
      assert (En : n_next (raw_before a x s) (fresh s) = Some a) by (destruct (k_next _ _ L') as (E & _); exact E).
      destruct (before_head_rep s (raw_before a x s) [] a q n2 true G N Ho S' En) as (u & E & K & G').
      exists u. split.
      { rewrite EE. exact E. }
      split; [|destruct K as (_ & _ & K3 & _ & _ & _ & K7 & _); destruct M' as (M1 & M2); split; congruence].
      split; [|split].
      * apply (same_list_linked (raw_before a x s)); auto.
      * exact G'.
      * apply (raw_valued s u _ _ _ 0 V Ho). destruct K as (_ & _ & _ & _ & _ & _ & _ & ->). exact V'.
    + destruct (insert_before_rep s [] [] a q n2 g x H) as (t & E & R & M). exists t. split; [exact E|]. split; [|exact M].
      cbn [app concat length s_prepend] in *. inversion V as [|? p' ? g' Hp]; subst. inversion Hp; subst. exact R.
Qed.
End Rep.
