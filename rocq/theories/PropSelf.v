(** * PropSelf: a list minus itself in place (C70). *)
From Coq Require Import List ZArith Bool Arith Lia Permutation.
From Verif Require Import Base Books Data DefaultData MVerse MRange Spec PDefault PropVerse PRange PSetOps MSeq MList PSort SpecList PMerge PListOps PMerge2 PListDiff
  PropRange PropList MGroup SpecGroup PGroup PGroup2 PGroup6 PGroup7 PGroup8 PropGroup MNode SpecNode PNode PNode2 PNode3 PropNode MSelf PSelf.
Import ListNotations.
Import Spec.
Open Scope Z_scope.

(** ** C70 *)
(** [l -= l] ends, by returning or by an exception, and leaves a well linked list with all the verses of [l].  If it
    returns, the list is in canonical form; it is [l] merged, if MULTIBOOK is on or no range spans books. *)
Theorem C70_keeps : forall eqb e os s g fl, wf_data (ed e) -> kept_list eqb e os s g -> zero_on e fl = verse0 (eg e) ->
  legal_list e (zero_on e fl) (items g) ->
  exists n s' q g', (forall n', (n <= n')%nat -> n_difference_update_self e n' fl s = (s', q)) /\ q <> Err Diverge /\
    shows s' g' /\ legal_list e (zero_on e fl) (items g') /\ same_verses (ed e) (zero_on e fl) (items g') (items g) /\
    (q = Ok tt -> canonical e None (items g') /\ regroup e None g' = Ok g' /\ (mergeable e None (items g) -> merge e None g = Ok g')).
Proof.
  intros eqb e os s g fl Hwf K Hz Hl. destruct (kept_state _ _ _ _ _ K) as (h & O & S & <-). unfold items in Hl. rewrite values_items in Hl.
  set (T := sizes e (map snd (concat h))).
  assert (Hn0 : zero_on e None = zero_on e fl) by (rewrite Hz; reflexivity).
  destruct (self_loop_state e Hwf fl Hz T T (Nat.le_refl _) T s h O [] (concat h) S eq_refl Hl (Nat.le_refl _)) as (u & h1 & q & E1 & S1 & B1 & D1 & _).
  { pose proof (sizes_len e Hwf fl _ Hl) as L. rewrite map_length in L. unfold T. lia. }
  rewrite <- (flat_first s h O S) in E1.
  assert (More : forall n', (T <= n')%nat -> n_self_loop e fl n' n' (g_first s) s = (u, q)).
  { intros n' Hn. rewrite (self_loop_more e fl T n' T n'); auto. rewrite E1. exact D1. }
  destruct B1 as [W1 V1 P1 _ _ _]. rewrite <- values_items in V1, W1, P1. fold (items (values h1)) in V1, W1, P1.
  assert (Vh : map snd (concat h) = items (values h)) by (symmetry; apply values_items). rewrite Vh in *.
  destruct q as [[]|ex].
  2:{ exists T, u, (Err ex), (values h1). split; [intros n' Hn; unfold n_difference_update_self; rewrite More by auto; reflexivity|]. split; [exact D1|].
      split; [eapply state_shows; eauto|]. split; [exact W1|]. split; [exact V1|]. discriminate. }
  destruct (merge_ends e None u h1 O S1) as (h2 & S2 & Q2 & I2 & G2).
  assert (T1 : legal_list e true (items (values h1))) by (eapply Forall_impl; [|exact W1]; intros; eapply (wf_range_mono e); eauto).
  destruct (merge_rest_same e Hwf None (zero_on e fl) (items (values h1))) as (W2 & V2); [now rewrite Hn0|exact W1|]. rewrite Hn0 in V2.
  exists T, (fst (n_merge e None u)), (unit_of (merge e None (values h1))), (values h2). split; [|split; [|split; [|split; [|split]]]].
  - intros n' Hn. unfold n_difference_update_self. rewrite More by auto. cbn [seq_run]. rewrite <- Q2. now destruct (n_merge e None u).
  - destruct (merge_any e Hwf None (values h1) T1) as [(g' & Eg & _)|(Eg & _)]; rewrite Eg; discriminate.
  - eapply state_shows; eauto.
  - rewrite I2. exact W2.
  - intros v Hv. rewrite I2, (V2 v Hv). now apply V1.
  - intros Eq. destruct (merge_any e Hwf None (values h1) T1) as [(g' & Eg & _ & G3 & G4 & G5 & G6 & _)|(Eg & _)]; [|rewrite Eg in Eq; discriminate].
    rewrite (G2 g' Eg). split; [exact G5|]. split; [exact G3|]. intros M.
    assert (M1 : mergeable e None (items (values h1))).
    { destruct M as [M|M]; [now left|right]. rewrite Forall_forall in M |- *. intros x Hx. destruct (P1 x Hx) as (y & Hy & Ny).
      assert (Ty : wf_range (ed e) true y).
      { rewrite Forall_forall in Hl. eapply (wf_range_mono e); eauto. }
      assert (Tx : wf_range (ed e) true x) by (rewrite Forall_forall in T1; auto).
      apply (one_book_in e Hwf y); auto; apply (InR_within e Hwf x y); auto; [now apply (InR_start e Hwf)|now apply (InR_end e Hwf)]. }
    destruct (C20_unique_partial e None (values h) (values h1) Hwf) as (k & K1 & K2 & _); auto; try (rewrite Hn0; auto).
    { intros v Hv. symmetry. now apply V1. }
    rewrite K2 in Eg. rewrite K1. exact Eg.
Qed.
(** Of ranges that have no verse in common, [l -= l] does just what [l.merge()] does. *)
Theorem C70_apart : forall eqb e os s g fl, wf_data (ed e) -> kept_list eqb e os s g -> zero_on e fl = verse0 (eg e) ->
  legal_list e (zero_on e fl) (items g) -> ForallOrdPairs (fun x y => ~ overlap (ed e) x y) (items g) ->
  exists n s' q g', (forall n', (n <= n')%nat -> n_difference_update_self e n' fl s = (s', q)) /\
    shows s' g' /\ items g' = merge_rest e None (items g) /\
    match merge e None g with Ok k => q = Ok tt /\ g' = k | Err x => q = Err x end.
Proof.
  intros eqb e os s g fl Hwf K Hz Hl Ha. destruct (kept_state _ _ _ _ _ K) as (h & O & S & <-). unfold items in Hl, Ha |- *. rewrite values_items in Hl, Ha.
  set (T := sizes e (map snd (concat h))).
  destruct (self_loop_state e Hwf fl Hz T T (Nat.le_refl _) T s h O [] (concat h) S eq_refl Hl (Nat.le_refl _)) as (u & h1 & q & E1 & S1 & B1 & D1 & A1).
  { pose proof (sizes_len e Hwf fl _ Hl) as L. rewrite map_length in L. unfold T. lia. }
  rewrite <- (flat_first s h O S) in E1. specialize (A1 Ha). subst q.
  assert (More : forall n', (T <= n')%nat -> n_self_loop e fl n' n' (g_first s) s = (u, Ok tt)).
  { intros n' Hn. rewrite (self_loop_more e fl T n' T n'); auto. rewrite E1. exact D1. }
  assert (Same : items (values h1) = items (values h)).
  { unfold items. rewrite !values_items. apply (bc_apart _ _ _ _ B1 Ha). }
  destruct (merge_ends e None u h1 O S1) as (h2 & S2 & Q2 & I2 & G2).
  assert (Em : merge e None (values h1) = merge e None (values h)) by (unfold merge; now rewrite Same).
  exists T, (fst (n_merge e None u)), (unit_of (merge e None (values h))), (values h2). split; [|split; [|split]].
  - intros n' Hn. unfold n_difference_update_self. rewrite More by auto. cbn [seq_run]. rewrite <- Em, <- Q2. now destruct (n_merge e None u).
  - eapply state_shows; eauto.
  - rewrite Same in I2. exact I2.
  - destruct (merge e None (values h)) as [k|ex] eqn:Ek; cbn; auto.
Qed.

(** Overlapping ranges are taken apart and merged again; at the first verse of the Bible the difference of ranges raises. *)
Definition made (l : list range) : heap := snd (n_run reqb (denv NONE) [LBase (OExtend l)] g_new).
Definition self_ex (l : list range) : res unit * res rlist :=
  let r := n_difference_update_self (denv NONE) 30 None (made l) in (snd r, to_nested_lists (fst r)).
Example C70_ex :
  self_ex [R (V Gen 2 5) (V Gen 2 9); R (V Gen 2 2) (V Gen 2 6); R (V Gen 1 3) (V Gen 1 3)] =
    (Ok tt, Ok [[R (V Gen 1 3) (V Gen 1 3)]; [R (V Gen 2 2) (V Gen 2 9)]]) /\
  self_ex [R (V Gen 2 2) (V Gen 2 9); R (V Gen 2 4) (V Gen 2 4); R (V Gen 2 6) (V Gen 2 7)] = (Ok tt, Ok [[R (V Gen 2 2) (V Gen 2 9)]]) /\
  self_ex [R (V Gen 1 2) (V Gen 1 5); R (V Gen 1 5) (V Gen 1 5); R (V Gen 1 1) (V Gen 1 3)] =
    (Err AttrErr, Ok [[R (V Gen 1 2) (V Gen 1 4); R (V Gen 1 5) (V Gen 1 5); R (V Gen 1 1) (V Gen 1 3)]]).
Proof. vm_compute. auto. Qed.
(** The flags reach the differences of the ranges. *)
Example C70_flags_ex : let l := [R (V Gen 50 20) (V Exod 1 5); R (V Gen 50 24) (V Gen 50 26)] in
  snd (n_difference_update_self (denv NONE) 90 None (made l)) = Err AttrErr /\
  snd (n_difference_update_self (denv MULTIBOOK) 90 None (made l)) = Ok tt /\
  snd (n_difference_update_self (denv MULTIBOOK) 90 (Some NONE) (made l)) = Ok tt /\
  snd (n_difference_update_self (denv NONE) 90 (Some MULTIBOOK) (made l)) = Ok tt.
Proof. vm_compute. auto. Qed.
Example C70_meets : let l := [R (V Gen 2 5) (V Gen 2 9); R (V Gen 2 2) (V Gen 2 6); R (V Gen 1 3) (V Gen 1 3)] in
  kept_list reqb (denv NONE) [LBase (OExtend l)] (made l) [l] /\ legal_list (denv NONE) false (items [l]) /\ mergeable (denv NONE) None (items [l]).
Proof.
  cbv zeta. split; [|split; [legal|right; repeat constructor]]. split; [|split; [reflexivity|vm_compute; reflexivity]]. split; [|exact I]. intros g _ i k E. discriminate.
Qed.
