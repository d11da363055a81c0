(** * PSort: merge sort is a stable sort. *)
From Coq Require Import List ZArith Bool Arith Lia Sorted Permutation Div2.
From Verif Require Import Base MSeq.
Import ListNotations.

Section Sort.
Context {A : Type}.
Variable leb : A -> A -> bool.
Variable P : A -> Prop.
Hypothesis total : forall a b, P a -> P b -> leb a b = true \/ leb b a = true.
Hypothesis trans : forall a b c, P a -> P b -> P c -> leb a b = true -> leb b c = true -> leb a c = true.

Definition le (a b : A) : Prop := leb a b = true.
Notation sorted := (StronglySorted le).

Lemma merge_cons : forall a l1 b l2,
  merge_lists leb (a :: l1) (b :: l2) =
  if leb a b then a :: merge_lists leb l1 (b :: l2) else b :: merge_lists leb (a :: l1) l2.
Proof. reflexivity. Qed.
Lemma merge_nil_r : forall l, merge_lists leb l [] = l.
Proof. destruct l; reflexivity. Qed.

Lemma merge_perm : forall l1 l2, Permutation (merge_lists leb l1 l2) (l1 ++ l2).
Proof.
  induction l1 as [|a l1 IH]; intros l2; [apply Permutation_refl|].
  induction l2 as [|b l2 IH2]; [rewrite merge_nil_r, app_nil_r; apply Permutation_refl|].
  rewrite merge_cons. destruct (leb a b).
  - cbn [app]. apply perm_skip, IH.
  - eapply perm_trans; [apply perm_skip, IH2|]. apply (Permutation_middle (a :: l1) l2 b).
Qed.

Lemma merge_sorted : forall l1 l2, Forall P l1 -> Forall P l2 -> sorted l1 -> sorted l2 -> sorted (merge_lists leb l1 l2).
Proof.
  induction l1 as [|a l1 IH]; intros l2 P1 P2 S1 S2; [exact S2|].
  induction l2 as [|b l2 IH2]; [rewrite merge_nil_r; exact S1|].
  rewrite merge_cons. inversion P1 as [|? ? Pa P1']; subst. inversion P2 as [|? ? Pb P2']; subst.
  inversion S1 as [|? ? S1' F1]; subst. inversion S2 as [|? ? S2' F2]; subst.
  destruct (leb a b) eqn:E.
  - constructor; [apply IH; auto|]. apply (Permutation_Forall (Permutation_sym (merge_perm _ _))).
    apply Forall_app. split; [exact F1|]. constructor; [exact E|].
    rewrite Forall_forall in *. intros x Hx. apply (trans a b x); auto. now apply F2.
  - assert (Hba : leb b a = true) by (destruct (total a b Pa Pb); congruence).
    constructor; [apply IH2; auto|]. apply (Permutation_Forall (Permutation_sym (merge_perm _ _))).
    apply Forall_app. split; [|exact F2]. constructor; [exact Hba|].
    rewrite Forall_forall in *. intros x Hx. apply (trans b a x); auto. now apply F1.
Qed.

Definition eqv (x y : A) : bool := leb x y && leb y x.

Lemma filter_none : forall (f : A -> bool) l, (forall x, In x l -> f x = false) -> filter f l = [].
Proof.
  induction l as [|a l IH]; intros H; [reflexivity|]. cbn. rewrite (H a) by (left; reflexivity).
  apply IH. intros x Hx. apply H. now right.
Qed.

Lemma merge_stable : forall x l1 l2, P x -> Forall P l1 -> Forall P l2 -> sorted l1 -> sorted l2 ->
  filter (eqv x) (merge_lists leb l1 l2) = filter (eqv x) l1 ++ filter (eqv x) l2.
Proof.
  intros x. induction l1 as [|a l1 IH]; intros l2 Px P1 P2 S1 S2; [reflexivity|].
  induction l2 as [|b l2 IH2]; [rewrite merge_nil_r, app_nil_r; reflexivity|].
  rewrite merge_cons. inversion P1 as [|? ? Pa P1']; subst. inversion P2 as [|? ? Pb P2']; subst.
  inversion S1 as [|? ? S1' F1]; subst. inversion S2 as [|? ? S2' F2]; subst.
  destruct (leb a b) eqn:E.
  - cbn [filter]. rewrite IH by auto. destruct (eqv x a); reflexivity.
  - specialize (IH2 P2' S2').
    change (filter (eqv x) (b :: merge_lists leb (a :: l1) l2))
      with (if eqv x b then b :: filter (eqv x) (merge_lists leb (a :: l1) l2)
            else filter (eqv x) (merge_lists leb (a :: l1) l2)).
    rewrite IH2. destruct (eqv x b) eqn:Exb; [|cbn [filter]; rewrite Exb; reflexivity].
    rewrite (filter_none (eqv x) (a :: l1)); [cbn [filter]; rewrite Exb; reflexivity|].
    intros y Hy. destruct (eqv x y) eqn:Exy; [exfalso|reflexivity].
    unfold eqv in *. apply andb_true_iff in Exb, Exy.
    assert (Py : P y) by (rewrite Forall_forall in P1; auto).
    assert (Hay : leb a y = true).
    { destruct Hy as [<-|Hy]; [destruct (total a a Pa Pa); auto|]. rewrite Forall_forall in F1. now apply F1. }
    assert (leb a b = true); [|congruence].
    apply (trans a x b); auto; [|tauto]. apply (trans a y x); tauto.
Qed.

Lemma half_bounds : forall a b (l : list A), let n := length (a :: b :: l) in
  (0 < Nat.div2 (S n) < n)%nat.
Proof.
  intros a b l n. subst n. cbn [length]. set (m := length l).
  pose proof (Nat.div2_odd (S (S (S m)))) as H. destruct (Nat.odd (S (S (S m)))); cbn [Nat.b2n] in H; lia.
Qed.

Lemma Forall_firstn : forall (Q : A -> Prop) k l, Forall Q l -> Forall Q (firstn k l).
Proof. induction k; intros l H; [constructor|]. destruct H; cbn; constructor; auto. Qed.
Lemma Forall_skipn : forall (Q : A -> Prop) k l, Forall Q l -> Forall Q (skipn k l).
Proof. induction k; intros l H; [exact H|]. destruct H; cbn; auto. Qed.

Lemma sort_gen : forall n l, (length l <= n)%nat -> Forall P l ->
  Permutation (merge_sort leb n l) l /\ sorted (merge_sort leb n l) /\
  forall x, P x -> filter (eqv x) (merge_sort leb n l) = filter (eqv x) l.
Proof.
  induction n as [|n IH]; intros l Hn HP.
  - destruct l; [|cbn in Hn; lia]. cbn. repeat constructor.
  - destruct l as [|a [|b l]]; [cbn; repeat constructor|cbn; repeat constructor|].
    set (L := a :: b :: l) in *. set (k := Nat.div2 (S (length L))).
    change (merge_sort leb (S n) L) with (merge_lists leb (merge_sort leb n (firstn k L)) (merge_sort leb n (skipn k L))).
    pose proof (half_bounds a b l) as Hk. fold L in Hk. fold k in Hk. cbn zeta in Hk.
    pose proof (Forall_firstn P k L HP) as PF. pose proof (Forall_skipn P k L HP) as PS.
    destruct (IH (firstn k L)) as (Q1 & S1 & F1); [rewrite firstn_length; lia|auto|].
    destruct (IH (skipn k L)) as (Q2 & S2 & F2); [rewrite skipn_length; lia|auto|].
    assert (PF' : Forall P (merge_sort leb n (firstn k L))) by (apply (Permutation_Forall (Permutation_sym Q1)); auto).
    assert (PS' : Forall P (merge_sort leb n (skipn k L))) by (apply (Permutation_Forall (Permutation_sym Q2)); auto).
    split; [|split].
    + eapply perm_trans; [apply merge_perm|]. eapply perm_trans; [apply Permutation_app; [exact Q1|exact Q2]|].
      now rewrite firstn_skipn.
    + now apply merge_sorted.
    + intros x Px. rewrite merge_stable by auto. rewrite F1, F2 by auto.
      rewrite <- filter_app, firstn_skipn. reflexivity.
Qed.

Lemma sort_items_ok : forall l, Forall P l ->
  Permutation (sort_items leb l) l /\ sorted (sort_items leb l) /\
  forall x, P x -> filter (eqv x) (sort_items leb l) = filter (eqv x) l.
Proof. intros l. now apply sort_gen. Qed.
End Sort.

(** Facts on grouped sequences. *)
Section Groups.
Context {A : Type}.
Lemma items_one_group : forall l : list A, items (one_group l) = l.
Proof. destruct l; [reflexivity|]. unfold items. cbn [one_group concat]. now rewrite app_nil_r. Qed.
Lemma items_snoc_last : forall x (g : seq A), items (snoc_last x g) = items g ++ [x].
Proof.
  intros x. induction g as [|a g IH]; [reflexivity|]. destruct g as [|b g].
  - unfold items. cbn [snoc_last concat]. now rewrite !app_nil_r.
  - change (snoc_last x (a :: b :: g)) with (a :: snoc_last x (b :: g)). unfold items in *. cbn [concat] in *. rewrite IH. now rewrite app_assoc.
Qed.
Lemma items_append : forall ng x (g : seq A), items (g_append ng x g) = items g ++ [x].
Proof.
  intros ng x g. destruct g as [|a g]; [reflexivity|]. cbn [g_append]. destruct ng; [|apply items_snoc_last].
  unfold items. rewrite concat_app. reflexivity.
Qed.
Lemma items_extend : forall l (g : seq A), items (g_extend l g) = items g ++ l.
Proof.
  unfold g_extend. induction l as [|x l IH]; intros g; [now rewrite app_nil_r|]. cbn. rewrite IH, items_append.
  now rewrite <- app_assoc.
Qed.
Definition nonempty_groups (g : seq A) : Prop := Forall (fun p => p <> []) g.
Lemma append_group_eq : forall l (g : seq A), l <> [] -> g_append_group l g = g ++ [l].
Proof.
  intros l g Hl. destruct l as [|x l]; [congruence|]. cbn [g_append_group].
  assert (H0 : g_append true x g = g ++ [[x]]) by (destruct g; reflexivity). rewrite H0.
  assert (Hs : forall y p (h : seq A), snoc_last y (h ++ [p]) = h ++ [p ++ [y]]).
  { intros y p. induction h as [|q h IH]; [reflexivity|]. cbn [app]. destruct h as [|q' h]; [reflexivity|].
    cbn [app] in *. change (snoc_last y (q :: (q' :: h ++ [p]))) with (q :: snoc_last y (q' :: h ++ [p])). now rewrite IH. }
  assert (Ha : forall y p (h : seq A), g_append false y (h ++ [p]) = h ++ [p ++ [y]]).
  { intros y p h. unfold g_append. destruct (h ++ [p]) eqn:E; [destruct h; discriminate|]. rewrite <- E. apply Hs. }
  clear H0. assert (Hg : forall l p, fold_left (fun g y => g_append false y g) l (g ++ [p]) = g ++ [p ++ l]).
  { induction l0 as [|y l0 IH]; intros p; cbn; [now rewrite app_nil_r|]. rewrite Ha, IH, <- app_assoc. reflexivity. }
  rewrite Hg. reflexivity.
Qed.
Lemma groups_fold : forall (l g : seq A), nonempty_groups l ->
  fold_left (fun g grp => g_append_group grp g) l g = g ++ l.
Proof.
  induction l as [|p l IH]; intros g Hl; [now rewrite app_nil_r|]. inversion Hl; subst. cbn [fold_left].
  rewrite append_group_eq, IH by auto. now rewrite <- app_assoc.
Qed.
Lemma cut_items : forall l : list (bool * A), items (cut_groups l) = map snd l.
Proof.
  induction l as [|[b x] l IH]; [reflexivity|]. cbn [cut_groups]. destruct l as [|[b' y] l]; [reflexivity|].
  cbn [map snd]. destruct b'.
  - cbn [items concat app]. f_equal. exact IH.
  - destruct (cut_groups ((false, y) :: l)) as [|g gs]; cbn [items concat map snd app] in *.
    + discriminate.
    + f_equal. exact IH.
Qed.
Lemma cut_nonempty : forall l : list (bool * A), nonempty_groups (cut_groups l).
Proof.
  induction l as [|[b x] l IH]; [constructor|]. cbn [cut_groups]. destruct l as [|[b' y] l].
  - constructor; [discriminate|constructor].
  - destruct b'; [constructor; [discriminate|exact IH]|].
    destruct (cut_groups ((false, y) :: l)) as [|g gs]; constructor; try discriminate; [constructor|].
    now inversion IH.
Qed.
(** Two neighbours are in different groups exactly if the second is marked. *)
Lemma cut_marks : forall l1 (x y : A) b b' l2,
  exists g1 g2, cut_groups (l1 ++ (b, x) :: (b', y) :: l2) =
    (if b' then g1 ++ g2 else
       match rev g1, g2 with
       | p :: g1', q :: g2' => rev g1' ++ (p ++ q) :: g2'
       | _, _ => []
       end) /\
    items g1 = map snd l1 ++ [x] /\ items g2 = y :: map snd l2 /\ nonempty_groups g1 /\ nonempty_groups g2 /\
    g1 = cut_groups (l1 ++ [(b, x)]) /\ g2 = cut_groups ((b', y) :: l2).
Proof.
  intros l1 x y b b' l2. exists (cut_groups (l1 ++ [(b, x)])), (cut_groups ((b', y) :: l2)).
  split; [|rewrite !cut_items, map_app; repeat split; try apply cut_nonempty].
  set (r := (b', y) :: l2).
  assert (Hne : forall l, l <> [] -> cut_groups (A := A) l <> []).
  { intros l Hl E. apply Hl. pose proof (cut_items l) as H. rewrite E in H. destruct l; [reflexivity|discriminate]. }
  induction l1 as [|[c z] l1 IH].
  - cbn [app]. cbn [cut_groups]. destruct b'; [reflexivity|]. fold r. cbn [rev app].
    destruct (cut_groups r) eqn:E; [exfalso; apply (Hne r); [discriminate|exact E]|]. reflexivity.
  - change (((c, z) :: l1) ++ (b, x) :: r) with ((c, z) :: (l1 ++ (b, x) :: r)).
    change (((c, z) :: l1) ++ [(b, x)]) with ((c, z) :: (l1 ++ [(b, x)])).
    assert (Hhd : exists c' z' t t', l1 ++ (b, x) :: r = (c', z') :: t /\ l1 ++ [(b, x)] = (c', z') :: t').
    { destruct l1 as [|[c' z'] l1]; cbn [app]; do 4 eexists; split; reflexivity. }
    destruct Hhd as (c' & z' & t & t' & E1 & E2).
    assert (Eg : forall u, cut_groups ((c, z) :: (c', z') :: u) =
      if c' then [z] :: cut_groups ((c', z') :: u)
      else match cut_groups ((c', z') :: u) with [] => [[z]] | g :: gs => (z :: g) :: gs end) by reflexivity.
    rewrite E1, E2, !Eg, <- E1, <- E2, IH. clear Eg IH.
    assert (N1 : cut_groups (l1 ++ [(b, x)]) <> []) by (apply Hne; destruct l1; discriminate).
    assert (N2 : cut_groups r <> []) by (apply Hne; discriminate).
    destruct (cut_groups r) as [|q g2'] eqn:Er; [congruence|].
    destruct b'.
    + destruct c'; [reflexivity|]. destruct (cut_groups (l1 ++ [(b, x)])); [congruence|reflexivity].
    + set (G := cut_groups (l1 ++ [(b, x)])) in *. clearbody G.
      destruct c'.
      * destruct (rev G) as [|p g1'] eqn:EG; [apply (f_equal (@rev _)) in EG; rewrite rev_involutive in EG; cbn in EG; congruence|].
        cbn [rev]. rewrite EG. cbn [app]. rewrite rev_app_distr. reflexivity.
      * destruct G as [|h G]; [congruence|]. destruct G as [|h' G].
        -- reflexivity.
        -- cbn [rev]. destruct (rev G ++ [h']) as [|p g1'] eqn:EG; [destruct (rev G); discriminate|].
           cbn [app]. rewrite !rev_app_distr. reflexivity.
Qed.
End Groups.
