(** * PropList: theorems on lists of ranges (C11, C14, C20-C26, C30, C33, C34, C40, C47). *)
From Coq Require Import List ZArith Bool Lia Sorted Permutation.
From Verif Require Import Base Books Data DefaultData MVerse MRange Spec PList PCore PNav PVerse PRange PDefault
  PSetOps PSetSpec PRuns PSplit PCount PUnit PUnit2 MSeq MList PSort SpecList PRegroup PMerge PMerge2 PListOps PListDiff
  PropRange PropUnit.
Import ListNotations.
Import Spec.
Open Scope Z_scope.

Notation legal_list e z l := (Forall (wf_range (ed e) z) l).

(** [g] is a canonical form of [l]: sorted, no two items touch, the same verses, grouped in the usual way. *)
Definition canonical_form (e : env) (fl : option flag) (l : list range) (g : rlist) : Prop :=
  full_groups g /\ regroup e None g = Ok g /\
  (forall z, legal_list e z l -> legal_list e z (items g)) /\
  canonical e fl (items g) /\ same_verses (ed e) (zero_on e fl) (items g) l.
Lemma merged_form : forall e fl l g, merged e fl l g -> canonical_form e fl l g.
Proof. intros e fl l g (H1 & H2 & H3 & _ & H5 & H6). repeat split; auto; now apply H6. Qed.

Ltac legal := repeat (apply Forall_cons; [wf_range|]); apply Forall_nil.

(** ** C11 and C14 for lists *)
Theorem C11_list_verse_count : forall e l fl vs, wf_data (ed e) ->
  Forall2 (fun r vl => verses_of (ed e) (count_zero e r) r vl) (items l) vs ->
  l_verse_count e l fl = Ok (fold_right Z.add 0 (map zlen vs)).
Proof.
  intros e l fl vs Hwf F. apply sumM_ok. induction F; cbn; constructor; auto. now apply C11_verse_count.
Qed.
Theorem C14_list_counts : forall e l fl whole, wf_data (ed e) ->
  (forall ns, Forall2 (fun r n => r_chap_count e r whole fl = Ok n) (items l) ns ->
     l_chap_count e l whole fl = Ok (fold_right Z.add 0 ns)) /\
  (forall ns, Forall2 (fun r n => r_book_count e r whole fl = Ok n) (items l) ns ->
     l_book_count e l whole fl = Ok (fold_right Z.add 0 ns)).
Proof. intros e l fl whole _. split; intros ns F; now apply sumM_ok. Qed.
Example C11_list_ex : l_verse_count (denv NONE) [[R (V Gen 1 30) (V Gen 2 1)]; [R (V Psa 4 0) (V Psa 5 1); R (V Gen 1 31) (V Gen 1 31)]] None = Ok 15 /\
  l_verse_count (denv NONE) [] None = Ok 0 /\
  l_chap_count (denv NONE) [[R (V Gen 1 30) (V Gen 2 1)]; [R (V Gen 1 1) (V Gen 1 31)]] false None = Ok 3 /\
  l_book_count (denv NONE) [[R (V Gen 1 30) (V Exod 2 1)]; [R (V Gen 1 1) (V Gen 1 31)]] false None = Ok 3.
Proof. vm_compute. auto. Qed.

(** ** C20 *)
(** As stated (uniqueness for all lists of legal ranges, no failure) it is false: *)
Definition C20_statement : Prop := forall e fl l l', wf_data (ed e) ->
  legal_list e (zero_on e fl) (items l) -> legal_list e (zero_on e fl) (items l') ->
  exists g, merge e fl l = Ok g /\ canonical_form e fl (items l) g /\
    (same_verses (ed e) (zero_on e fl) (items l) (items l') ->
       merge e fl l' = Ok g /\ (length (items g) <= length (items l'))%nat).
(** What [merge] returns, on all lists: *)
Theorem C20_merge : forall e fl l, wf_data (ed e) -> legal_list e true (items l) ->
  (exists g, merge e fl l = Ok g /\ canonical_form e fl (items l) g) \/
  (merge e fl l = Err Multibook /\ clash e fl (items l)).
Proof.
  intros e fl l Hwf Hl. destruct (merge_any e Hwf fl l Hl) as [(g & E & H1 & H2 & H3 & H4 & H5 & _)|H]; [left|now right].
  exists g. split; [exact E|]. repeat split; auto; now apply H5.
Qed.
(** It fails exactly when, without MULTIBOOK, a multi-book range touches another item. *)
Theorem C20_fails_iff : forall e fl l, wf_data (ed e) -> legal_list e (zero_on e fl) (items l) ->
  (merge e fl l = Err Multibook <-> clash e fl (items l)).
Proof.
  intros e fl l Hwf Hl.
  assert (Ht : legal_list e true (items l)) by (eapply Forall_impl; [|exact Hl]; intros; eapply (wf_range_mono e); eauto).
  destruct (merge_any e Hwf fl l Ht) as [(g & E & _ & _ & _ & _ & _ & H)|(E & H)].
  - split; [congruence|]. intros Hc. exfalso. now apply H.
  - split; auto.
Qed.
(** Canonical forms are unique (groups included) and shortest if MULTIBOOK is on or no range spans books. *)
Theorem C20_unique_partial : forall e fl l l', wf_data (ed e) ->
  legal_list e (zero_on e fl) (items l) -> legal_list e (zero_on e fl) (items l') ->
  mergeable e fl (items l) -> mergeable e fl (items l') ->
  same_verses (ed e) (zero_on e fl) (items l) (items l') ->
  exists g, merge e fl l = Ok g /\ merge e fl l' = Ok g /\ canonical_form e fl (items l) g.
Proof.
  intros e fl l l' Hwf Hl Hl' Hm Hm' Hs.
  assert (Ht : legal_list e true (items l)) by (eapply Forall_impl; [|exact Hl]; intros; eapply (wf_range_mono e); eauto).
  assert (Ht' : legal_list e true (items l')) by (eapply Forall_impl; [|exact Hl']; intros; eapply (wf_range_mono e); eauto).
  destruct (merged_ok e Hwf fl l Ht Hm) as (g & E & M). destruct (merged_ok e Hwf fl l' Ht' Hm') as (g' & E' & M').
  assert (g = g') by exact (merged_unique e Hwf fl _ _ g g' Hl Hl' M M' Hs). subst g'. exists g.
  split; [exact E|]. split; [exact E'|]. now apply merged_form.
Qed.
Theorem C20_shortest_partial : forall e fl l l' g, wf_data (ed e) ->
  legal_list e (zero_on e fl) (items l) -> legal_list e (zero_on e fl) l' ->
  mergeable e fl (items l) -> mergeable e fl l' ->
  same_verses (ed e) (zero_on e fl) (items l) l' -> merge e fl l = Ok g -> (length (items g) <= length l')%nat.
Proof.
  intros e fl l l' g Hwf Hl Hl' Hm Hm' Hs E.
  assert (Ht : legal_list e true (items l)) by (eapply Forall_impl; [|exact Hl]; intros; eapply (wf_range_mono e); eauto).
  destruct (merged_ok e Hwf fl l Ht Hm) as (g' & E' & M). assert (g' = g) by congruence. subst g'.
  exact (merged_shortest e Hwf fl _ _ g Hl Hl' M Hm' Hs).
Qed.
(** Two lists with the verses of Gen 50:26-Exod 1:1, without MULTIBOOK. *)
Theorem C20_unique_refuted : exists e l l' g g', wf_data (ed e) /\ legal_list e false (items l) /\ legal_list e false (items l') /\
  same_verses (ed e) (zero_on e None) (items l) (items l') /\
  merge e None l = Ok g /\ merge e None l' = Ok g' /\ g <> g'.
Proof.
  exists (denv NONE), [[R (V Gen 50 26) (V Exod 1 1)]], [[R (V Gen 50 26) (V Gen 50 26)]; [R (V Exod 1 1) (V Exod 1 1)]].
  exists [[R (V Gen 50 26) (V Exod 1 1)]], [[R (V Gen 50 26) (V Gen 50 26)]; [R (V Exod 1 1) (V Exod 1 1)]].
  split; [exact default_wf|]. split; [legal|]. split; [legal|]. split.
  - intros v Hv. cbn [items concat app]. rewrite !InL_1, InL_cons, InL_1.
    assert (W1 : wf_range default_data true (R (V Gen 50 26) (V Exod 1 1))) by wf_range.
    assert (W2 : wf_range default_data true (R (V Gen 50 26) (V Gen 50 26))) by wf_range.
    assert (W3 : wf_range default_data true (R (V Exod 1 1) (V Exod 1 1))) by wf_range.
    rewrite !(InR_wf (denv NONE) default_wf) by assumption. cbn [rstart rend].
    assert (P1 : pos (denv NONE) (V Gen 50 26) = 1532) by (vm_compute; reflexivity).
    assert (P2 : pos (denv NONE) (V Exod 1 1) = 1533) by (vm_compute; reflexivity).
    rewrite P1, P2. assert (InB default_data true v) by (eapply (InB_mono (denv NONE)); exact Hv). cbn [ed denv].
    split; [|intros [(_ & K)|(_ & K)]; (split; [assumption|lia])]. intros (_ & H1). destruct (Z.eq_dec (pos (denv NONE) v) 1532); [left|right]; (split; [assumption|lia]).
  - split; [vm_compute; reflexivity|]. split; [vm_compute; reflexivity|]. discriminate.
Qed.
Theorem C20_fails_refuted : exists e l, wf_data (ed e) /\ legal_list e false (items l) /\ merge e None l = Err Multibook.
Proof.
  exists (denv NONE), [[R (V Gen 50 26) (V Exod 1 1); R (V Exod 1 2) (V Exod 1 2)]].
  split; [exact default_wf|]. split; [legal|]. vm_compute. reflexivity.
Qed.
Example C20_ex : let l := [[R (V Gen 3 1) (V Gen 3 5); R (V Gen 1 30) (V Gen 1 31)]; [R (V Gen 3 4) (V Gen 4 1)]; [R (V Gen 2 1) (V Gen 2 1)]] in
  legal_list (denv NONE) false (items l) /\ mergeable (denv NONE) None (items l) /\
  merge (denv NONE) None l = Ok [[R (V Gen 1 30) (V Gen 2 1)]; [R (V Gen 3 1) (V Gen 4 1)]].
Proof. cbv zeta. split; [legal|]. split; [right; repeat constructor|]. vm_compute. reflexivity. Qed.

(** ** C21 *)
Definition C21_statement : Prop := forall e fl l x, wf_data (ed e) ->
  legal_list e (zero_on e fl) (items l ++ ref_list x) ->
  exists g, l_union e l x fl = Ok g /\ union_update e l x fl = Ok g /\ canonical_form e fl (items l ++ ref_list x) g.
Lemma legal_true : forall e z l, legal_list e z l -> legal_list e true l.
Proof. intros e z l H. eapply Forall_impl; [|exact H]. intros; eapply (wf_range_mono e); eauto. Qed.
Lemma union_is_merge : forall e fl l x, wf_data (ed e) -> legal_list e true (ref_list x) ->
  l_union e l x fl = merge e fl [items l ++ ref_list x] /\ union_update e l x fl = merge e fl [items l ++ ref_list x].
Proof.
  intros e fl l x Hwf Hx. unfold l_union, union_update. rewrite (ref_ranges_ok e Hwf) by auto. cbn [bind].
  unfold merge. rewrite !items_extend, items_copy. cbn [items concat]. now rewrite app_nil_r.
Qed.
Theorem C21_union : forall e fl l x, wf_data (ed e) -> legal_list e true (items l ++ ref_list x) ->
  (exists g, l_union e l x fl = Ok g /\ union_update e l x fl = Ok g /\ canonical_form e fl (items l ++ ref_list x) g) \/
  (l_union e l x fl = Err Multibook /\ union_update e l x fl = Err Multibook /\ clash e fl (items l ++ ref_list x)).
Proof.
  intros e fl l x Hwf Hl. pose proof (proj2 (proj1 (Forall_app _ _ _) Hl)) as Hx.
  destruct (union_is_merge e fl l x Hwf Hx) as (-> & ->).
  assert (Hi : items [items l ++ ref_list x] = items l ++ ref_list x) by (cbn [items concat]; unfold items; cbn [concat]; now rewrite app_nil_r).
  destruct (C20_merge e fl [items l ++ ref_list x] Hwf) as [(g & E & H)|(E & H)]; rewrite ?Hi in *; auto.
  left. exists g. auto.
Qed.
Theorem C21_fails_iff : forall e fl l x, wf_data (ed e) -> legal_list e (zero_on e fl) (items l ++ ref_list x) ->
  (l_union e l x fl = Err Multibook <-> clash e fl (items l ++ ref_list x)).
Proof.
  intros e fl l x Hwf Hl. pose proof (legal_true _ _ _ (proj2 (proj1 (Forall_app _ _ _) Hl))) as Hx.
  destruct (union_is_merge e fl l x Hwf Hx) as (-> & _).
  assert (Hi : items [items l ++ ref_list x] = items l ++ ref_list x) by (unfold items; cbn [concat]; now rewrite app_nil_r).
  pose proof (C20_fails_iff e fl [items l ++ ref_list x] Hwf) as H. rewrite Hi in H. auto.
Qed.
Theorem C21_order_partial : forall e fl a b, wf_data (ed e) ->
  legal_list e (zero_on e fl) (items a) -> legal_list e (zero_on e fl) (items b) ->
  mergeable e fl (items a) -> mergeable e fl (items b) ->
  exists g, l_union e a (BL b) fl = Ok g /\ l_union e b (BL a) fl = Ok g /\ canonical_form e fl (items a ++ items b) g.
Proof.
  intros e fl a b Hwf Ha Hb Ma Mb.
  assert (Hab : legal_list e (zero_on e fl) (items a ++ items b)) by now apply Forall_app.
  assert (Hba : legal_list e (zero_on e fl) (items b ++ items a)) by now apply Forall_app.
  destruct (union_ok e Hwf fl a (BL b)) as (g & _ & E & M); [now apply (legal_true _ _ _ Hab)|now apply (mergeable_app e)|].
  destruct (union_ok e Hwf fl b (BL a)) as (g' & _ & E' & M'); [now apply (legal_true _ _ _ Hba)|now apply (mergeable_app e)|].
  assert (g = g').
  { eapply (merged_unique e Hwf); [exact Hab|exact Hba|exact M|exact M'|]. intros v _. cbn [ref_list]. rewrite !InL_app. tauto. }
  subst g'. exists g.
  split; [exact E|]. split; [exact E'|]. now apply merged_form.
Qed.
Theorem C21_refuted : exists e l x, wf_data (ed e) /\ legal_list e false (items l ++ ref_list x) /\ l_union e l x None = Err Multibook.
Proof.
  exists (denv NONE), [[R (V Gen 50 26) (V Exod 1 1)]], (BV (V Exod 1 2)).
  split; [exact default_wf|]. split; [cbn; legal|]. vm_compute. reflexivity.
Qed.
Example C21_ex : let a := [[R (V Gen 3 1) (V Gen 3 5)]; [R (V Gen 1 30) (V Gen 1 31)]] in
  legal_list (denv NONE) false (items a) /\ mergeable (denv NONE) None (items a) /\
  l_union (denv NONE) a (BR (R (V Gen 3 4) (V Gen 4 1))) None = Ok [[R (V Gen 1 30) (V Gen 1 31)]; [R (V Gen 3 1) (V Gen 4 1)]] /\
  l_union (denv NONE) a (BV (V Gen 2 1)) None = Ok [[R (V Gen 1 30) (V Gen 2 1)]; [R (V Gen 3 1) (V Gen 3 5)]] /\
  union_update (denv NONE) a (BL [[R (V Gen 2 1) (V Gen 2 25)]]) None = Ok [[R (V Gen 1 30) (V Gen 3 5)]].
Proof. cbv zeta. split; [legal|]. split; [right; repeat constructor|]. vm_compute. auto. Qed.

(** ** C22 *)
Definition C22_statement : Prop := forall e fl l x, wf_data (ed e) ->
  legal_list e (zero_on e fl) (items l) -> legal_list e (zero_on e fl) (ref_list x) ->
  exists g, l_intersection e l x fl = Ok g /\ full_groups g /\ canonical e fl (items g) /\
    forall v, InB (ed e) (zero_on e fl) v -> (InL (ed e) v (items g) <-> InL (ed e) v (items l) /\ InL (ed e) v (ref_list x)).
Theorem C22_intersection_partial : forall e fl l x, wf_data (ed e) -> legal_list e true (items l) -> legal_list e true (ref_list x) ->
  meets_ok e fl (items l) (ref_list x) ->
  exists g, l_intersection e l x fl = Ok g /\
    (exists h, intersection_update e l x fl = Ok h /\ items h = items g) /\
    full_groups g /\ regroup e None g = Ok g /\ canonical e fl (items g) /\
    (forall z, legal_list e z (items l) -> legal_list e z (ref_list x) -> legal_list e z (items g)) /\
    forall v, InB (ed e) (zero_on e fl) v -> (InL (ed e) v (items g) <-> InL (ed e) v (items l) /\ InL (ed e) v (ref_list x)).
Proof.
  intros e fl l x Hwf Hl Hx Hm. destruct (intersection_ok e Hwf fl l x Hl Hx Hm) as (g & ms & E & (G1 & G2 & G3 & G4 & G5 & G6) & W & V).
  exists g. split; [exact E|]. split.
  { unfold intersection_update. rewrite E. cbn [bind]. eexists. split; [reflexivity|]. now rewrite items_extend. }
  split; [exact G1|]. split; [exact G2|]. split; [exact G5|]. split; [auto|].
  intros v Hv. rewrite (G6 v Hv). apply V.
Qed.
(** It fails exactly when a common part spans books without MULTIBOOK. *)
Theorem C22_fails : forall e fl l x a b c, wf_data (ed e) -> legal_list e true (items l) -> legal_list e true (ref_list x) ->
  In a (items l) -> In b (ref_list x) -> overlap (ed e) a b -> meet_of (ed e) a b c ->
  multi_on e fl = false -> ~ one_book_range c -> l_intersection e l x fl = Err Multibook.
Proof. intros e fl l x a b c Hwf. exact (intersection_multibook e Hwf fl l x a b c). Qed.
Theorem C22_refuted : exists e l x, wf_data (ed e) /\ legal_list e false (items l) /\ legal_list e false (ref_list x) /\
  l_intersection e l x None = Err Multibook.
Proof.
  exists (denv NONE), [[R (V Gen 50 26) (V Exod 1 1)]], (BL [[R (V Gen 50 26) (V Exod 1 1)]]).
  split; [exact default_wf|]. split; [cbn; legal|]. split; [cbn; legal|]. vm_compute. reflexivity.
Qed.
Example C22_ex : let a := [[R (V Gen 1 1) (V Gen 3 24)]; [R (V Exod 1 1) (V Exod 2 5)]] in
  let b := [[R (V Exod 2 4) (V Exod 2 9)]; [R (V Gen 3 1) (V Gen 4 2); R (V Gen 2 25) (V Gen 2 25)]] in
  legal_list (denv NONE) true (items a) /\ legal_list (denv NONE) true (items b) /\
  meets_ok (denv NONE) None (items a) (items b) /\
  l_intersection (denv NONE) a (BL b) None = Ok [[R (V Gen 2 25) (V Gen 3 24)]; [R (V Exod 2 4) (V Exod 2 5)]].
Proof.
  cbv zeta. split; [legal|]. split; [legal|]. split; [|vm_compute; reflexivity].
  apply (meets_ok_mergeable (denv NONE) default_wf); [legal|legal|right; repeat constructor].
Qed.

(** ** C23 *)
Definition C23_statement : Prop := forall e fl l x, wf_data (ed e) ->
  legal_list e (zero_on e fl) (items l) -> legal_list e (zero_on e fl) (ref_list x) ->
  exists n g, forall n', (n <= n')%nat -> l_difference e n' l x fl = Ok g /\ full_groups g /\ canonical e None (items g) /\
    forall v, InB (ed e) (zero_on e fl) v -> (InL (ed e) v (items g) <-> InL (ed e) v (items l) /\ ~ InL (ed e) v (ref_list x)).
(** The loop ends, and what it returns lies between [l - x] and [l]; if no two ranges of [x] touch, it is exactly
    [l - x] together with the items of [l] that lie in one range of [x] (they should vanish but are kept). *)
Theorem C23_ends : forall e fl l x, wf_data (ed e) -> zero_on e fl = verse0 (eg e) ->
  legal_list e (zero_on e fl) (items l) -> legal_list e (zero_on e fl) (ref_list x) ->
  exists n, l_difference e n l x fl <> Err Diverge /\
    forall n', (n <= n')%nat -> l_difference e n' l x fl = l_difference e n l x fl.
Proof.
  intros e fl l x Hwf Hz Hl Hx. destruct (difference_update_fuel e Hwf fl Hz l x Hl Hx) as (n & H1 & H2).
  exists n. rewrite difference_copy. split; [exact H1|]. intros n' Hn. rewrite difference_copy. auto.
Qed.
Theorem C23_difference_partial : forall e fl n l x g, wf_data (ed e) -> zero_on e fl = verse0 (eg e) ->
  legal_list e (zero_on e fl) (items l) -> legal_list e (zero_on e fl) (ref_list x) ->
  l_difference e n l x fl = Ok g ->
  full_groups g /\ regroup e None g = Ok g /\ legal_list e (zero_on e fl) (items g) /\ canonical e None (items g) /\
  (forall v, InB (ed e) (zero_on e fl) v -> InL (ed e) v (items g) -> InL (ed e) v (items l)) /\
  (forall v, InB (ed e) (zero_on e fl) v -> InL (ed e) v (items l) -> ~ InL (ed e) v (ref_list x) -> InL (ed e) v (items g)) /\
  (spread e fl (ref_list x) -> forall v, InB (ed e) (zero_on e fl) v ->
    (InL (ed e) v (items g) <->
     exists a, In a (items l) /\ InR (ed e) v a /\ (inside_one (ed e) (ref_list x) a \/ ~ InL (ed e) v (ref_list x)))).
Proof.
  intros e fl n l x g Hwf Hz Hl Hx E. rewrite difference_copy in E.
  destruct (difference_update_ok e Hwf fl Hz n l x g Hl Hx E) as ((S1 & S2 & S3 & S4) & H1 & H2 & H3).
  repeat (split; [assumption|]). exact H3.
Qed.
(** Exact when, moreover, no item of [l] lies in a range of [x]. *)
Theorem C23_exact_partial : forall e fl n l x g, wf_data (ed e) -> zero_on e fl = verse0 (eg e) ->
  legal_list e (zero_on e fl) (items l) -> legal_list e (zero_on e fl) (ref_list x) -> spread e fl (ref_list x) ->
  (forall a, In a (items l) -> ~ inside_one (ed e) (ref_list x) a) -> l_difference e n l x fl = Ok g ->
  forall v, InB (ed e) (zero_on e fl) v ->
    (InL (ed e) v (items g) <-> InL (ed e) v (items l) /\ ~ InL (ed e) v (ref_list x)).
Proof.
  intros e fl n l x g Hwf Hz Hl Hx Hs Hn E v Hv.
  destruct (C23_difference_partial e fl n l x g Hwf Hz Hl Hx E) as (_ & _ & _ & _ & _ & _ & H). rewrite (H Hs v Hv). split.
  - intros (a & Ha & Hr & [K|K]); [exfalso; now apply (Hn a)|]. split; [exists a; auto|exact K].
  - intros ((a & Ha & Hr) & K). exists a. auto.
Qed.
(** It succeeds if the verses before and after each range of [x] exist and no book boundary is in the way. *)
Theorem C23_succeeds_partial : forall e fl l x, wf_data (ed e) -> zero_on e fl = verse0 (eg e) ->
  legal_list e (zero_on e fl) (items l) -> legal_list e (zero_on e fl) (ref_list x) ->
  interior e fl (ref_list x) -> bookwise e fl (items l) ->
  exists n g, forall n', (n <= n')%nat -> l_difference e n' l x fl = Ok g /\ difference_update e n' l x fl = Ok g.
Proof.
  intros e fl l x Hwf Hz Hl Hx Hi Hb. destruct (difference_update_total e Hwf fl Hz l x Hl Hx Hi Hb) as (n & g & H).
  exists n, g. intros n' Hn. rewrite difference_copy. auto.
Qed.
(** a - a is a, not empty. *)
Theorem C23_self_refuted : exists e a, wf_data (ed e) /\ legal_list e false (items a) /\ items a <> [] /\
  forall n, l_difference e (S n) a (BL a) None = Ok a.
Proof.
  exists (denv NONE), [[R (V Gen 1 2) (V Gen 1 5)]]. split; [exact default_wf|]. split; [legal|]. split; [discriminate|].
  intros [|n]; vm_compute; reflexivity.
Qed.
(** A whole chapter less its first verse raises AttributeError. *)
Theorem C23_raises_refuted : exists e a x, wf_data (ed e) /\ legal_list e false (items a) /\ legal_list e false (ref_list x) /\
  forall n, l_difference e (S n) a x None = Err AttrErr.
Proof.
  exists (denv NONE), [[R (V Gen 1 1) (V Gen 1 31)]], (BV (V Gen 1 1)). split; [exact default_wf|]. split; [legal|]. split; [cbn; legal|].
  intros [|n]; vm_compute; reflexivity.
Qed.
Lemma spread_check : forall e fl a b, wf_data (ed e) -> separate e fl a b -> wf_range (ed e) true a -> wf_range (ed e) true b -> spread e fl [a; b].
Proof.
  intros e fl a b Hwf Hs Ha Hb. apply (canonical_spread e Hwf fl); [repeat (apply Forall_cons; [assumption|]); apply Forall_nil|].
  constructor; [constructor; constructor|]. constructor; [exact Hs|constructor].
Qed.
Example C23_ex : let e := denv NONE in let a := [[R (V Gen 1 2) (V Gen 1 9)]; [R (V Gen 2 1) (V Gen 2 7)]] in
  let b := [[R (V Gen 1 4) (V Gen 1 4)]; [R (V Gen 2 3) (V Gen 2 5)]] in
  legal_list e false (items a) /\ legal_list e false (items b) /\ interior e None (items b) /\ bookwise e None (items a) /\
  spread e None (items b) /\ l_difference e 9 a (BL b) None =
    Ok [[R (V Gen 1 2) (V Gen 1 3); R (V Gen 1 5) (V Gen 1 9)]; [R (V Gen 2 1) (V Gen 2 2); R (V Gen 2 6) (V Gen 2 7)]].
Proof.
  cbv zeta. split; [legal|]. split; [legal|]. split.
  - assert (F : forall p i q, nth_error (bible_verses default_data false) i = Some p ->
       nth_error (bible_verses default_data false) (S i) = Some q -> follows default_data false p q) by (intros p i q H1 H2; exists i; auto).
    intros b Hb. cbn in Hb. destruct Hb as [<-|[<-|[]]].
    + exists (V Gen 1 3), (V Gen 1 5). split; [apply (F _ 2%nat); vm_compute; reflexivity|].
      split; [apply (F _ 3%nat); vm_compute; reflexivity|]. right. repeat split.
    + exists (V Gen 2 2), (V Gen 2 6). split; [apply (F _ 32%nat); vm_compute; reflexivity|].
      split; [apply (F _ 35%nat); vm_compute; reflexivity|]. right. repeat split.
  - split; [right; repeat constructor|]. split; [|vm_compute; reflexivity].
    apply (spread_check (denv NONE) None); [exact default_wf| |wf_range|wf_range]. split.
    + apply (vlt_pos (denv NONE) default_wf). split; [in_bible|]. split; [in_bible|]. vm_compute. reflexivity.
    + intros (H & _). cbn [rend rstart] in H.
      assert (T : track0 (denv NONE) None (V Gen 1 4) = false) by (vm_compute; reflexivity). rewrite T in H.
      assert (F : follows default_data false (V Gen 1 4) (V Gen 1 5)) by (exists 3%nat; split; vm_compute; reflexivity).
      discriminate (succ_fun (denv NONE) default_wf false _ _ _ F H).
Qed.

(** ** C24 *)
Definition C24_statement : Prop := forall e fl l x, wf_data (ed e) ->
  legal_list e (zero_on e fl) (items l) -> legal_list e (zero_on e fl) (ref_list x) ->
  exists n g, forall n', (n <= n')%nat -> l_sym_difference e n' l x fl = Ok g /\
    forall v, InB (ed e) (zero_on e fl) v ->
      (InL (ed e) v (items g) <->
       (InL (ed e) v (items l) /\ ~ InL (ed e) v (ref_list x)) \/ (InL (ed e) v (ref_list x) /\ ~ InL (ed e) v (items l))).
(** What it returns: the symmetric difference, and every range of the canonical union [gu] that lies in a range of the
    canonical intersection [gi]. *)
Theorem C24_sym_difference_partial : forall e fl n l x g, wf_data (ed e) -> zero_on e fl = verse0 (eg e) ->
  legal_list e (zero_on e fl) (items l) -> legal_list e (zero_on e fl) (ref_list x) ->
  mergeable e fl (items l ++ ref_list x) -> l_sym_difference e n l x fl = Ok g ->
  exists gu gi, l_union e l x fl = Ok gu /\ l_intersection e l x fl = Ok gi /\
    full_groups g /\ legal_list e (zero_on e fl) (items g) /\ canonical e None (items g) /\
    forall v, InB (ed e) (zero_on e fl) v ->
      (InL (ed e) v (items g) <->
       ((InL (ed e) v (items l) /\ ~ InL (ed e) v (ref_list x)) \/ (InL (ed e) v (ref_list x) /\ ~ InL (ed e) v (items l))) \/
       exists c, In c (items gu) /\ InR (ed e) v c /\ inside_one (ed e) (items gi) c).
Proof.
  intros e fl n l x g Hwf Hz Hl Hx Hm E.
  destruct (sym_difference_ok e Hwf fl Hz n l x g Hl Hx Hm E) as (gu & gi & E1 & E2 & _ & (S1 & _ & S3 & S4) & _ & _ & _ & H).
  exists gu, gi. repeat (split; [assumption|]). exact H.
Qed.
Theorem C24_succeeds_partial : forall e fl l x, wf_data (ed e) -> zero_on e fl = verse0 (eg e) ->
  legal_list e (zero_on e fl) (items l) -> legal_list e (zero_on e fl) (ref_list x) ->
  mergeable e fl (items l ++ ref_list x) -> multi_on e fl = multibook (eg e) ->
  (forall gi, l_intersection e l x fl = Ok gi -> interior e fl (items gi)) ->
  exists n g, forall n', (n <= n')%nat -> l_sym_difference e n' l x fl = Ok g /\
    exists h, sym_difference_update e n' l x fl = Ok h /\ items h = items g.
Proof.
  intros e fl l x Hwf Hz Hl Hx Hm Hf Hi. destruct (sym_difference_total e Hwf fl Hz l x Hl Hx Hm Hf Hi) as (n & g & H).
  exists n, g. intros n' Hn. split; [now apply H|]. unfold sym_difference_update. rewrite (H n' Hn). cbn [bind].
  eexists. split; [reflexivity|]. now rewrite items_extend.
Qed.
(** a ^ a is a, not empty. *)
Theorem C24_self_refuted : exists e a, wf_data (ed e) /\ legal_list e false (items a) /\ items a <> [] /\
  forall n, l_sym_difference e (S n) a (BL a) None = Ok a.
Proof.
  exists (denv NONE), [[R (V Gen 1 2) (V Gen 1 5)]]. split; [exact default_wf|]. split; [legal|]. split; [discriminate|].
  intros [|n]; vm_compute; reflexivity.
Qed.
Example C24_ex : let e := denv NONE in let a := [[R (V Gen 1 2) (V Gen 1 5)]] in let b := [[R (V Gen 1 4) (V Gen 1 9)]] in
  legal_list e false (items a) /\ legal_list e false (items b) /\ mergeable e None (items a ++ items b) /\
  l_sym_difference e 9 a (BL b) None = Ok [[R (V Gen 1 2) (V Gen 1 3); R (V Gen 1 6) (V Gen 1 9)]].
Proof. cbv zeta. split; [legal|]. split; [legal|]. split; [right; repeat constructor|]. vm_compute. reflexivity. Qed.

(** ** C25 *)
Definition C25_statement : Prop := forall e fl l x, wf_data (ed e) ->
  legal_list e (zero_on e fl) (items l) -> legal_list e (zero_on e fl) (ref_list x) ->
  exists b, l_contains e l x fl = Ok b /\
    (b = true <-> forall v, InB (ed e) (zero_on e fl) v -> InL (ed e) v (ref_list x) -> InL (ed e) v (items l)).
Theorem C25_contains_partial : forall e fl l x, wf_data (ed e) ->
  legal_list e (zero_on e fl) (items l) -> legal_list e (zero_on e fl) (ref_list x) ->
  mergeable e fl (items l) -> mergeable e fl (ref_list x) ->
  exists b, l_contains e l x fl = Ok b /\
    (b = true <-> forall v, InB (ed e) (zero_on e fl) v -> InL (ed e) v (ref_list x) -> InL (ed e) v (items l)).
Proof. intros e fl l x Hwf. exact (contains_ok e Hwf fl l x). Qed.
Theorem C25_is_disjoint : forall e l x, wf_data (ed e) -> legal_list e true (items l) -> legal_list e true (ref_list x) ->
  exists b, l_is_disjoint e l x = Ok b /\
    (b = true <-> ~ exists v, InL (ed e) v (items l) /\ InL (ed e) v (ref_list x)).
Proof. intros e l x Hwf. exact (is_disjoint_ok e Hwf l x). Qed.
(** [Gen 50:26; Exod 1:1] contains every verse of Gen 50:26-Exod 1:1 but not this range, without MULTIBOOK. *)
Theorem C25_contains_refuted : exists e l r, wf_data (ed e) /\ legal_list e false (items l) /\ wf_range (ed e) false r /\
  l_contains e l (BR r) None = Ok false /\ forall v, InB (ed e) false v -> InR (ed e) v r -> InL (ed e) v (items l).
Proof.
  exists (denv NONE), [[R (V Gen 50 26) (V Gen 50 26)]; [R (V Exod 1 1) (V Exod 1 1)]], (R (V Gen 50 26) (V Exod 1 1)).
  split; [exact default_wf|]. split; [legal|]. split; [wf_range|]. split; [vm_compute; reflexivity|].
  intros v Hv. cbn [items concat app]. rewrite InL_cons, InL_1.
  assert (W1 : wf_range default_data true (R (V Gen 50 26) (V Exod 1 1))) by wf_range.
  assert (W2 : wf_range default_data true (R (V Gen 50 26) (V Gen 50 26))) by wf_range.
  assert (W3 : wf_range default_data true (R (V Exod 1 1) (V Exod 1 1))) by wf_range.
  rewrite !(InR_wf (denv NONE) default_wf) by assumption. cbn [rstart rend].
  assert (P1 : pos (denv NONE) (V Gen 50 26) = 1532) by (vm_compute; reflexivity).
  assert (P2 : pos (denv NONE) (V Exod 1 1) = 1533) by (vm_compute; reflexivity).
  rewrite P1, P2. intros (H0 & H1). destruct (Z.eq_dec (pos (denv NONE) v) 1532); [left|right]; (split; [assumption|lia]).
Qed.
Example C25_ex : let e := denv NONE in let l := [[R (V Gen 1 30) (V Gen 1 31)]; [R (V Gen 3 1) (V Gen 3 5)]; [R (V Gen 2 1) (V Gen 2 4)]] in
  legal_list e false (items l) /\ mergeable e None (items l) /\
  l_contains e l (BR (R (V Gen 1 31) (V Gen 2 3))) None = Ok true /\ l_contains e l (BR (R (V Gen 1 31) (V Gen 2 5))) None = Ok false /\
  l_is_disjoint e l (BV (V Gen 2 5)) = Ok true /\ l_is_disjoint e l (BL [[R (V Gen 2 5) (V Gen 3 1)]]) = Ok false.
Proof. cbv zeta. split; [legal|]. split; [right; repeat constructor|]. vm_compute. auto. Qed.

(** ** C26 *)
Definition C26_statement : Prop := forall e l, wf_data (ed e) -> legal_list e true (items l) -> items l <> [] ->
  exists r, l_range e l = Ok r /\ least_cover (ed e) true (fun _ => True) (items l) r.
(** The exact result: from the start of the first range to the end of the last, in the order of ranges. *)
Theorem C26_range_value : forall e l, wf_data (ed e) -> legal_list e true (items l) -> items l <> [] ->
  exists a b, In a (items l) /\ In b (items l) /\ l_range e l = Ok (R (rstart a) (rend b)) /\
    (forall x, In x (items l) -> vle (ed e) (rstart a) (rstart x)) /\
    (forall x, In x (items l) -> vlt (ed e) (rstart x) (rstart b) \/ (rstart x = rstart b /\ vle (ed e) (rend x) (rend b))).
Proof.
  intros e l Hwf Hl Hne. destruct (l_range_eq e Hwf l Hl Hne) as (a & b & Ia & Ib & E & Ha & Hb).
  exists a, b. split; [exact Ia|]. split; [exact Ib|]. split; [exact E|]. rewrite Forall_forall in Hl.
  pose proof (Hl a Ia) as Wa. pose proof (Hl b Ib) as Wb. split; intros x Hx; pose proof (Hl x Hx) as Wx.
  - specialize (Ha x Hx). apply (rleb_pos e Hwf) in Ha; auto. apply (vle_pos e Hwf). split; [apply Wa|]. split; [apply Wx|lia].
  - specialize (Hb x Hx). apply (rleb_pos e Hwf) in Hb; auto. destruct Hb as [H|(H1 & H2)].
    + left. apply (vlt_pos e Hwf). split; [apply Wx|]. split; [apply Wb|lia].
    + right. split; [apply (pos_eq e); auto; [apply Wx|apply Wb]|]. apply (vle_pos e Hwf). split; [apply Wx|]. split; [apply Wb|lia].
Qed.
Theorem C26_empty : forall e l fl, items l = [] ->
  l_range e l = Err ValueErr /\ l_chap_range e l fl = Err ValueErr /\ l_book_range e l fl = Err ValueErr.
Proof. intros e l fl H. unfold l_range, l_chap_range, l_book_range, l_min. rewrite H. auto. Qed.
(** It is the least cover if the ranges end in the order in which they begin. *)
Theorem C26_range_partial : forall e z l, wf_data (ed e) -> legal_list e z (items l) -> items l <> [] -> staggered (ed e) (items l) ->
  exists r, l_range e l = Ok r /\ least_cover (ed e) z (fun _ => True) (items l) r.
Proof. intros e z l Hwf. exact (l_range_least e Hwf z l). Qed.
Theorem C26_list_units_partial : forall e l fl, wf_data (ed e) -> legal_list e (zero_on e fl) (items l) -> items l <> [] ->
  staggered (ed e) (items l) ->
  ((forall a, In a (items l) -> can_start e fl (chap_at (rstart a))) ->
    exists c, l_chap_range e l fl = Ok c /\ least_cover (ed e) (zero_on e fl) (whole_chaps (ed e) (zero_on e fl)) (items l) c) /\
  ((forall a, In a (items l) -> can_start e fl (book_at (rstart a))) ->
    exists c, l_book_range e l fl = Ok c /\ least_cover (ed e) (zero_on e fl) (whole_books (ed e) (zero_on e fl)) (items l) c).
Proof.
  intros e l fl Hwf Hl Hne Hs. split; intros Hc.
  - exact (l_unit_range_ok e Hwf true l fl Hl Hne Hs Hc).
  - exact (l_unit_range_ok e Hwf false l fl Hl Hne Hs Hc).
Qed.
Theorem C26_range_units_partial : forall e r fl, wf_data (ed e) -> wf_range (ed e) (zero_on e fl) r ->
  (can_start e fl (chap_at (rstart r)) ->
    exists c, r_chap_range e r fl = Ok c /\ least_cover (ed e) (zero_on e fl) (whole_chaps (ed e) (zero_on e fl)) [r] c) /\
  (can_start e fl (book_at (rstart r)) ->
    exists c, r_book_range e r fl = Ok c /\ least_cover (ed e) (zero_on e fl) (whole_books (ed e) (zero_on e fl)) [r] c).
Proof. intros e r fl Hwf Hr. split; [exact (r_chap_range_ok e Hwf r fl Hr)|exact (r_book_range_ok e Hwf r fl Hr)]. Qed.
(** Gen 1:1-10; 1:2-3 has the range Gen 1:1-3. *)
Theorem C26_range_refuted : exists e l r v, wf_data (ed e) /\ legal_list e false (items l) /\ l_range e l = Ok r /\
  InL (ed e) v (items l) /\ ~ InR (ed e) v r.
Proof.
  exists (denv NONE), [[R (V Gen 1 1) (V Gen 1 10); R (V Gen 1 2) (V Gen 1 3)]], (R (V Gen 1 1) (V Gen 1 3)), (V Gen 1 10).
  split; [exact default_wf|]. split; [legal|]. split; [vm_compute; reflexivity|]. split.
  - exists (R (V Gen 1 1) (V Gen 1 10)). split; [now left|].
    assert (W : wf_range default_data true (R (V Gen 1 1) (V Gen 1 10))) by wf_range. now apply (InR_end (denv NONE) default_wf) in W.
  - intros [_ H]. apply (vle_iff (denv NONE) default_wf) in H. destruct H as (_ & _ & H). vm_compute in H. discriminate.
Qed.
Example C26_ex : let l := [[R (V Gen 3 1) (V Exod 3 5)]; [R (V Gen 1 30) (V Gen 4 2)]] in
  legal_list (denv NONE) false (items l) /\ l_range (denv NONE) l = Ok (R (V Gen 1 30) (V Exod 3 5)) /\
  l_chap_range (denv NONE) l None = Ok (R (V Gen 1 1) (V Exod 3 22)) /\
  l_book_range (denv NONE) l None = Ok (R (V Gen 1 1) (V Exod 40 38)) /\
  r_chap_range (denv VERSE_0) (R (V Psa 3 2) (V Psa 4 1)) None = Ok (R (V Psa 3 0) (V Psa 4 8)).
Proof. cbv zeta. split; [legal|]. vm_compute. auto. Qed.
Example C26_staggered_ex : staggered default_data [R (V Gen 3 1) (V Exod 3 5); R (V Gen 1 30) (V Gen 4 2)].
Proof.
  intros a b [<-|[<-|[]]] [<-|[<-|[]]]; cbn; intros H; apply (vlt_iff (denv NONE) default_wf) in H; destruct H as (H1 & H2 & H);
    try (vm_compute in H; discriminate).
  apply (vle_iff (denv NONE) default_wf). split; [in_bible|]. split; [in_bible|]. vm_compute. reflexivity.
Qed.

(** ** C30: the sort of range lists *)
(** Same order of items: [a] is not after [b]. *)
Definition range_le (d : bibledata) (a b : range) : Prop :=
  vlt d (rstart a) (rstart b) \/ (rstart a = rstart b /\ vle d (rend a) (rend b)).
Theorem C30_range_list_sort : forall e l, wf_data (ed e) -> legal_list e true (items l) -> items l <> [] ->
  exists s, l_sort e false l = Ok [s] /\ Permutation s (items l) /\ StronglySorted (range_le (ed e)) s /\
    exists g, l_sort e true l = Ok g /\ regroup e None [s] = Ok g /\ items g = s.
Proof.
  intros e l Hwf Hl Hne. destruct (sort_ok e Hwf (items l) Hl) as (P & S & _).
  fold (sorted_l e (items l)) in *. exists (sorted_l e (items l)).
  assert (Hn : sorted_l e (items l) <> []).
  { intros E. rewrite E in P. apply Permutation_nil in P. contradiction. }
  assert (E1 : one_group (sorted_l e (items l)) = [sorted_l e (items l)]) by (destruct (sorted_l e (items l)); [congruence|reflexivity]).
  assert (Hw : legal_list e true (sorted_l e (items l))) by (eapply Permutation_Forall; [apply Permutation_sym; exact P|exact Hl]).
  split; [unfold l_sort; fold (sorted_l e (items l)); now rewrite E1|]. split; [exact P|]. split.
  - clear - S Hw Hwf. induction S as [|a s S IH F]; [constructor|]. inversion Hw as [|? ? Wa Ws]; subst. constructor; [auto|].
    rewrite Forall_forall in *. intros b Hb. specialize (F b Hb). apply (rleb_pos e Hwf) in F; auto.
    pose proof (Ws b Hb) as Wb. destruct F as [F|(F1 & F2)].
    + left. apply (vlt_pos e Hwf). split; [apply Wa|]. split; [apply Wb|exact F].
    + right. split; [apply (pos_eq e); auto; [apply Wa|apply Wb]|]. apply (vle_pos e Hwf). split; [apply Wa|]. split; [apply Wb|exact F2].
  - destruct (regroup_none e Hwf [sorted_l e (items l)]) as (g & Eg & Ig & _).
    { unfold items. cbn [concat]. now rewrite app_nil_r. }
    exists g. split; [unfold l_sort; fold (sorted_l e (items l)); now rewrite E1|]. split; [exact Eg|].
    rewrite Ig. unfold items. cbn [concat]. now rewrite app_nil_r.
Qed.
Example C30_range_list_ex : l_sort (denv NONE) false [[R (V Gen 3 1) (V Gen 3 2)]; [R (V Gen 1 1) (V Gen 2 1); R (V Gen 1 1) (V Gen 1 2)]]
  = Ok [[R (V Gen 1 1) (V Gen 1 2); R (V Gen 1 1) (V Gen 2 1); R (V Gen 3 1) (V Gen 3 2)]].
Proof. vm_compute. reflexivity. Qed.

(** ** C33 *)
Definition C33_statement : Prop := forall e l x g r, wf_data (ed e) ->
  (op_ior e l x = Ok (g, r) -> r = Some g) /\ (op_iand e l x = Ok (g, r) -> r = Some g).
(** The list object is updated, but the variable is always bound to None. *)
Theorem C33_operators : forall e n l x,
  (forall g, union_update e l x None = Ok g -> op_ior e l x = Ok (g, None)) /\
  (forall g, intersection_update e l x None = Ok g -> op_iand e l x = Ok (g, None)) /\
  (forall g, difference_update e n l x None = Ok g -> op_isub e n l x = Ok (g, None)) /\
  (forall g, sym_difference_update e n l x None = Ok g -> op_ixor e n l x = Ok (g, None)).
Proof. intros e n l x. repeat split; intros g H; unfold op_ior, op_iand, op_isub, op_ixor, call_update; rewrite H; reflexivity. Qed.
Theorem C33_refuted : exists e l x g, wf_data (ed e) /\ legal_list e false (items l) /\ legal_list e false (ref_list x) /\
  op_ior e l x = Ok (g, None) /\ (exists h, op_iand e l x = Ok (h, None)) /\
  (exists h, op_isub e 9 l x = Ok (h, None)) /\ (exists h, op_ixor e 9 l x = Ok (h, None)).
Proof.
  exists (denv NONE), [[R (V Gen 1 2) (V Gen 1 9)]], (BV (V Gen 1 4)). eexists. split; [exact default_wf|].
  split; [legal|]. split; [cbn; legal|]. split; [vm_compute; reflexivity|].
  repeat split; eexists; vm_compute; reflexivity.
Qed.

(** ** C34 *)
Definition C34_statement : Prop := forall e fl l, wf_data (ed e) -> legal_list e true (items l) ->
  exists g, regroup e fl l = Ok g /\ items g = items l /\ full_groups g /\ regroup e fl g = Ok g.
Theorem C34_regroup_partial : forall e fl l, wf_data (ed e) -> legal_list e true (items l) -> Forall (range_can_start e fl) (items l) ->
  exists g, regroup e fl l = Ok g /\ items g = items l /\ full_groups g /\ regroup e fl g = Ok g /\
    forall l1 p x l2, items l = l1 ++ p :: x :: l2 ->
      (continues e fl p x -> together g l1 p x l2) /\ (~ continues e fl p x -> apart g l1 p x l2).
Proof. intros e fl l Hwf. exact (regroup_ok e Hwf fl l). Qed.
(** Without a [flags] argument nothing more is needed. *)
Theorem C34_regroup_global : forall e l, wf_data (ed e) -> legal_list e true (items l) ->
  exists g, regroup e None l = Ok g /\ items g = items l /\ full_groups g /\ regroup e None g = Ok g /\
    forall l1 p x l2, items l = l1 ++ p :: x :: l2 ->
      (continues e None p x -> together g l1 p x l2) /\ (~ continues e None p x -> apart g l1 p x l2).
Proof.
  intros e l Hwf Hl. apply (regroup_ok e Hwf None l Hl). rewrite Forall_forall in *. intros r Hr. apply (range_can_start_none e Hwf). auto.
Qed.
(** The groups of [split]: one, or those of [regroup] without flags. *)
Lemma verses_of_legal : forall e z ps ls, wf_data (ed e) -> Forall2 (verses_of (ed e) z) ps ls -> legal_list e true ps.
Proof.
  intros e z ps ls Hwf H. induction H as [|r l ps ls Hr _ IH]; constructor; auto. apply (wf_range_mono e z). now apply (verses_of_wf e Hwf z r l).
Qed.
Theorem C12_groups : forall e r fl l by_book by_chap num fuel, wf_data (ed e) ->
  verses_of (ed e) (split_zero0 e r fl) r l -> (length l <= fuel)%nat -> (forall n, num = Some n -> 1 <= n) ->
  exists ps, split_items e fuel r by_book by_chap num fl = Ok ps /\ ps <> [] /\ split e fuel r by_book by_chap num false fl = Ok [ps] /\
    exists g, split e fuel r by_book by_chap num true fl = Ok g /\ items g = ps /\ full_groups g /\
      forall l1 p x l2, ps = l1 ++ p :: x :: l2 -> (continues e None p x -> together g l1 p x l2) /\ (~ continues e None p x -> apart g l1 p x l2).
Proof.
  intros e r fl l by_book by_chap num fuel Hwf Hv Hfu Hn. destruct (C12_split e r fl l by_book by_chap num fuel Hwf Hv Hfu Hn) as (ps & ls & E & Hp & F).
  assert (N : ps <> []).
  { intros ->. inversion F; subst. pose proof (part_concat _ _ _ _ _ Hp) as C. cbn in C. destruct Hv as (_ & Hh & _). now rewrite <- C in Hh. }
  exists ps. split; auto. split; auto. unfold split. rewrite E. cbn [bind]. assert (O : one_group ps = [ps]) by now destruct ps. rewrite O. split; auto.
  pose proof (C34_regroup_global e [ps] Hwf) as G. unfold items in G at 1. cbn [concat] in G. rewrite app_nil_r in G. specialize (G (verses_of_legal e _ ps ls Hwf F)).
  destruct G as (g & G1 & G2 & G3 & _ & G4). exists g. split; auto. unfold items in G2 at 2. unfold items in G4. cbn [concat] in G2, G4. rewrite app_nil_r in G2. rewrite app_nil_r in G4. auto.
Qed.
Example C12_groups_ex :
  split (denv NONE) 9 (R (V Gen 1 30) (V Gen 2 3)) false true (Some 2) true None =
    Ok [[R (V Gen 1 30) (V Gen 1 31)]; [R (V Gen 2 1) (V Gen 2 2); R (V Gen 2 3) (V Gen 2 3)]] /\
  split (denv NONE) 9 (R (V Gen 1 30) (V Gen 2 3)) false true (Some 2) false None =
    Ok [[R (V Gen 1 30) (V Gen 1 31); R (V Gen 2 1) (V Gen 2 2); R (V Gen 2 3) (V Gen 2 3)]].
Proof. vm_compute. split; reflexivity. Qed.
(** [chap_ranges] of a book with its groups. *)
Theorem C42_chap_list_partial : forall e b fl, wf_data (ed e) -> In b (book_order (ed e)) -> can_start e fl (UBook b) ->
  exists ps, Forall2 (fun p c => verses_of (ed e) (zero_on e fl) p (chap_verses (ed e) (zero_on e fl) b c)) ps (zrange 1 (num_chaps (ed e) b)) /\
    book_chap_list e b false fl = Ok [ps] /\
    exists g, book_chap_list e b true fl = Ok g /\ items g = ps /\ full_groups g /\
      forall l1 p x l2, ps = l1 ++ p :: x :: l2 -> (continues e None p x -> together g l1 p x l2) /\ (~ continues e None p x -> apart g l1 p x l2).
Proof.
  intros e b fl Hwf Hb Hc. destruct (C42_chap_ranges_partial e b fl Hwf Hb Hc) as (ps & E & F). exists ps. split; auto.
  unfold book_chap_ranges in E. unfold book_chap_list. destruct (book_range e b fl) as [r|]; [|discriminate]. cbn [bind] in *. unfold split. rewrite E. cbn [bind].
  assert (N : ps <> []).
  { intros ->. pose proof (num_chaps_pos e Hwf b Hb). assert (X : In 1 (zrange 1 (num_chaps (ed e) b))) by (apply zrange_in; lia). destruct (zrange 1 (num_chaps (ed e) b)); [destruct X|inversion F]. }
  assert (O : one_group ps = [ps]) by now destruct ps. rewrite O. split; auto.
  assert (L : legal_list e true ps).
  { clear - F Hwf. induction F as [|p c ps cs Hp _ IH]; constructor; auto. apply (wf_range_mono e (zero_on e fl)). eapply (verses_of_wf e Hwf); eauto. }
  pose proof (C34_regroup_global e [ps] Hwf) as G. unfold items in G at 1. cbn [concat] in G. rewrite app_nil_r in G. specialize (G L).
  destruct G as (g & G1 & G2 & G3 & _ & G4). exists g. split; auto. unfold items in G2 at 2. unfold items in G4. cbn [concat] in G2, G4. rewrite app_nil_r in G2. rewrite app_nil_r in G4. auto.
Qed.
Example C42_chap_list_ex : book_chap_list (denv NONE) Titus true None = Ok [[R (V Titus 1 1) (V Titus 1 16)]; [R (V Titus 2 1) (V Titus 2 15)]; [R (V Titus 3 1) (V Titus 3 15)]] /\
  book_chap_list (denv NONE) Titus false None = Ok [[R (V Titus 1 1) (V Titus 1 16); R (V Titus 2 1) (V Titus 2 15); R (V Titus 3 1) (V Titus 3 15)]].
Proof. vm_compute. split; reflexivity. Qed.
(** The number of recursive calls does not matter (regroup calls chap_count, which calls split, which calls regroup). *)
Theorem C34_recursion : forall e fl l, wf_data (ed e) -> legal_list e true l -> Forall (range_can_start e fl) l ->
  exists g, forall n, regroup_n e (S n) fl l = Ok g.
Proof. intros e fl l Hwf Hl Hc. destruct (regroup_fuel e Hwf fl l Hl Hc) as (g & H & _). exists g. exact H. Qed.
(** A [flags] argument with VERSE_0 that the global flags lack makes it fail. *)
Theorem C34_flags_refuted : exists e l, wf_data (ed e) /\ legal_list e true (items l) /\ regroup e (Some VERSE_0) l = Err InvalidRef.
Proof.
  exists (denv NONE), [[R (V Psa 3 1) (V Psa 3 2)]]. split; [exact default_wf|]. split; [legal|]. vm_compute. reflexivity.
Qed.
Example C34_ex : let l := [[R (V Gen 1 2) (V Gen 1 3); R (V Gen 1 5) (V Gen 1 5); R (V Gen 2 1) (V Gen 2 3)]; [R (V Gen 2 7) (V Gen 2 8)];
    [R (V Gen 3 1) (V Gen 3 24); R (V Gen 4 1) (V Gen 4 2); R (V Exod 4 3) (V Exod 5 2); R (V Exod 5 4) (V Exod 5 4)]] in
  legal_list (denv NONE) true (items l) /\
  regroup (denv NONE) None l =
    Ok [[R (V Gen 1 2) (V Gen 1 3); R (V Gen 1 5) (V Gen 1 5)]; [R (V Gen 2 1) (V Gen 2 3); R (V Gen 2 7) (V Gen 2 8)];
        [R (V Gen 3 1) (V Gen 3 24)]; [R (V Gen 4 1) (V Gen 4 2)]; [R (V Exod 4 3) (V Exod 5 2); R (V Exod 5 4) (V Exod 5 4)]].
Proof. cbv zeta. split; [legal|]. vm_compute. reflexivity. Qed.

(** ** C40 for lists *)
Theorem C40_lists : forall e l, wf_data (ed e) -> legal_list e true (items l) ->
  (exists g, l_verse_0_to_1 e l = Ok g /\ legal_list e false (items g) /\
     Forall2 (Forall2 (fun r r' => r_verse_0_to_1 e r = Ok r')) l g) /\
  (exists g, l_verse_1_to_0 e l = Ok g /\ legal_list e true (items g) /\
     Forall2 (Forall2 (fun r r' => r_verse_1_to_0 e r = Ok r')) l g).
Proof.
  intros e l Hwf Hl.
  assert (H : forall f z, (forall r, wf_range (ed e) true r -> exists r', f r = Ok r' /\ wf_range (ed e) z r') ->
    exists g, mapM (mapM f) l = Ok g /\ legal_list e z (items g) /\ Forall2 (Forall2 (fun r r' => f r = Ok r')) l g).
  { intros f z Hf. unfold items in Hl. 
    assert (Hone : forall p, legal_list e true p -> exists q, mapM f p = Ok q /\ legal_list e z q /\ Forall2 (fun r r' => f r = Ok r') p q).
    { induction p as [|r p IH]; intros Hp; [exists []; repeat split; constructor|]. inversion Hp as [|? ? Hr Hp']; subst.
      destruct (Hf r Hr) as (r' & Er & Wr). destruct (IH Hp') as (q & Eq & Wq & Fq). exists (r' :: q). cbn [mapM].
      rewrite Er. cbn [bind]. rewrite Eq. cbn [bind]. repeat split; constructor; auto. }
    induction l as [|p l IH]; [exists []; repeat split; constructor|]. cbn [concat] in Hl. apply Forall_app in Hl. destruct Hl as (Hp & Hl).
    destruct (Hone p Hp) as (q & Eq & Wq & Fq). destruct (IH Hl) as (g & Eg & Wg & Fg). exists (q :: g). cbn [mapM].
    rewrite Eq. cbn [bind]. rewrite Eg. cbn [bind]. split; [reflexivity|]. split; [unfold items in *; cbn [concat]; now apply Forall_app|].
    now constructor. }
  split; apply H; intros r Hr; destruct (C40_ranges e r Hwf Hr) as ((r1 & E1 & W1 & _) & (r2 & E2 & W2 & _)); eauto.
Qed.
Example C40_list_ex : l_verse_0_to_1 (denv NONE) [[R (V Psa 3 0) (V Psa 3 2); R (V Gen 1 1) (V Gen 1 2)]; [R (V Psa 4 0) (V Psa 4 0)]] =
  Ok [[R (V Psa 3 1) (V Psa 3 2); R (V Gen 1 1) (V Gen 1 2)]; [R (V Psa 4 1) (V Psa 4 1)]].
Proof. vm_compute. reflexivity. Qed.

(** ** C47: methods of a range on verses, ranges and lists *)
Theorem C47_is_disjoint : forall e a x, wf_data (ed e) -> wf_range (ed e) true a -> legal_list e true (ref_list x) ->
  exists b, r_is_disjoint e a x = Ok b /\ (b = true <-> ~ exists v, InR (ed e) v a /\ InL (ed e) v (ref_list x)).
Proof.
  intros e a x Hwf Ha Hx.
  assert (Hone : forall b, wf_range (ed e) true b -> (is_disjoint e a b = true <-> ~ exists v, InR (ed e) v a /\ InL (ed e) v [b])).
  { intros b Hb. rewrite (disjoint_spec e Hwf) by auto. unfold overlap. split; intros H (v & V1 & V2); apply H; exists v; (split; [exact V1|]).
    - now apply InL_1 in V2.
    - now apply InL_1. }
  destruct x as [v|b|l]; cbn [ref_list r_is_disjoint] in *.
  - inversion Hx as [|? ? Hv _]; subst. rewrite (new_range_all e Hwf) by (try apply Hv; lia). cbn [bind]. eauto.
  - inversion Hx; subst. eauto.
  - destruct (is_disjoint_ok e Hwf l (BR a) Hx) as (b & E & H); [cbn; apply Forall_cons; [assumption|apply Forall_nil]|]. exists b. split; [exact E|].
    rewrite H. cbn [ref_list]. split; intros K (v & V1 & V2); apply K; exists v.
    + split; [exact V2|now apply InL_1].
    + split; [now apply InL_1 in V2|exact V1].
Qed.
Lemma single_merge : forall e a, wf_data (ed e) -> wf_range (ed e) true a ->
  exists g, merge e None (copy_list (list_of_items [a])) = Ok g /\ items g = [a].
Proof.
  intros e a Hwf Ha. unfold merge, merge_items. rewrite items_copy, items_of_items. cbn.
  destruct (regroup_none e Hwf [[a]]) as (g & E & I & _); [cbn; apply Forall_cons; [assumption|apply Forall_nil]|]. exists g. auto.
Qed.
Theorem C47_contains : forall e a x, wf_data (ed e) -> wf_range (ed e) true a -> legal_list e true (ref_list x) ->
  exists b, r_contains e a x = Ok b /\ (b = true <-> forall v, InL (ed e) v (ref_list x) -> InR (ed e) v a).
Proof.
  intros e a x Hwf Ha Hx.
  assert (Hone : forall b, wf_range (ed e) true b -> (contains e a b = true <-> forall v, InL (ed e) v [b] -> InR (ed e) v a)).
  { intros b Hb. rewrite (contains_spec e Hwf) by auto. split; intros H v Hv; apply H; [now apply InL_1 in Hv|now apply InL_1]. }
  destruct x as [v|b|l]; cbn [ref_list r_contains] in *.
  - inversion Hx as [|? ? Hv _]; subst. rewrite (new_range_all e Hwf) by (try apply Hv; lia). cbn [bind]. eauto.
  - inversion Hx; subst. eauto.
  - unfold l_contains. cbn [ref_ranges bind]. destruct (single_merge e a Hwf Ha) as (g & E & I). rewrite E. cbn [bind]. rewrite I.
    eexists. split; [reflexivity|]. rewrite forallb_forall. rewrite Forall_forall in Hx. split.
    + intros H v (b & Hb & Ib). specialize (H b Hb). cbn in H. rewrite orb_false_r in H. pose proof (proj1 (Hone b (Hx b Hb)) H) as H'. apply H'. now apply InL_1.
    + intros H b Hb. cbn. rewrite orb_false_r. apply (Hone b (Hx b Hb)). intros v Hv. apply H. exists b. split; [exact Hb|now apply InL_1 in Hv].
Qed.
Theorem C47_surrounds : forall e a x, wf_data (ed e) -> wf_range (ed e) true a -> legal_list e true (ref_list x) ->
  exists b, r_surrounds e a x = Ok b /\
    (b = true <-> forall r, In r (ref_list x) ->
       (exists v, InR (ed e) v a /\ forall w, InR (ed e) w r -> vlt (ed e) v w) /\
       (exists v, InR (ed e) v a /\ forall w, InR (ed e) w r -> vlt (ed e) w v)).
Proof.
  intros e a x Hwf Ha Hx. 
  assert (H : exists b, r_surrounds e a x = Ok b /\ (b = true <-> forall r, In r (ref_list x) -> surrounds e a r = true)).
  { destruct x as [v|b|l]; cbn [ref_list r_surrounds] in *.
    - inversion Hx as [|? ? Hv _]; subst. rewrite (new_range_all e Hwf) by (try apply Hv; lia). cbn [bind].
      eexists. split; [reflexivity|]. split; [intros H r [<-|[]]; exact H|intros H; apply H; now left].
    - eexists. split; [reflexivity|]. split; [intros H r [<-|[]]; exact H|intros H; apply H; now left].
    - eexists. split; [reflexivity|]. rewrite forallb_forall. reflexivity. }
  destruct H as (b & E & H). exists b. split; [exact E|]. rewrite H. rewrite Forall_forall in Hx.
  split; intros K r Hr; apply (surrounds_spec e Hwf a r); auto.
Qed.
(** For a list, [flags] is ignored (the global flags decide). *)
Theorem C47_is_adjacent : forall e a x fl, wf_data (ed e) -> wf_range (ed e) true a -> legal_list e true (ref_list x) ->
  let f := match x with BL _ => None | _ => fl end in
  exists b, r_is_adjacent e a x fl = Ok b /\
    (b = true <-> (forall r, In r (ref_list x) -> ~ overlap (ed e) a r) /\
                  exists r, In r (ref_list x) /\ (joins e f a r \/ joins e f r a)).
Proof.
  intros e a x fl Hwf Ha Hx f.
  assert (Hone : forall b g, wf_range (ed e) true b -> exists bb, is_adjacent e a b g = Ok bb /\
     (bb = true <-> (forall r, In r [b] -> ~ overlap (ed e) a r) /\ exists r, In r [b] /\ (joins e g a r \/ joins e g r a))).
  { intros b g Hb. destruct (adjacent_spec e Hwf a b g Ha Hb) as (bb & E & H). exists bb. split; [exact E|]. rewrite H. split.
    - intros J. split; [|exists b; split; [now left|exact J]]. intros r [<-|[]] (v & V1 & V2).
      apply (InR_pos e Hwf) in V1, V2. apply (wf_range_pos e Hwf) in Ha, Hb. destruct J as [J|J]; apply (joins_lt e Hwf) in J; lia.
    - intros (_ & r & [<-|[]] & J). exact J. }
  destruct x as [v|b|l]; cbn [ref_list r_is_adjacent] in *.
  - inversion Hx as [|? ? Hv _]; subst. rewrite (new_range_all e Hwf) by (try apply Hv; lia). cbn [bind]. now apply Hone.
  - inversion Hx; subst. now apply Hone.
  - destruct (is_disjoint_ok e Hwf l (BR a) Hx) as (dj & E & H); [cbn; apply Forall_cons; [assumption|apply Forall_nil]|]. rewrite E. unfold andM. cbn [bind].
    assert (Hd : dj = true <-> forall r, In r (items l) -> ~ overlap (ed e) a r).
    { rewrite H. cbn [ref_list]. split.
      - intros K r Hr (v & V1 & V2). apply K. exists v. split; [exists r; auto|now apply InL_1].
      - intros K (v & (r & Hr & V1) & V2). apply InL_1 in V2. apply (K r Hr). exists v. auto. }
    assert (Hany : exists b, anyM (fun b => is_adjacent e a b None) (items l) = Ok b /\
       (b = true <-> exists r, In r (items l) /\ (joins e None a r \/ joins e None r a))).
    { clear E H Hd. induction (items l) as [|y ys IH].
      - exists false. split; [reflexivity|]. split; [discriminate|intros (r & [] & _)].
      - inversion Hx as [|? ? Hy Hys]; subst. cbn [anyM]. destruct (adjacent_spec e Hwf a y None Ha Hy) as (bb & Ey & Hb).
        rewrite Ey. unfold orM. cbn [bind]. destruct bb.
        + exists true. split; [reflexivity|]. split; [intros _; exists y; split; [now left|now apply Hb]|auto].
        + destruct (IH Hys) as (b & -> & Hbb). exists b. split; [reflexivity|]. rewrite Hbb. split.
          * intros (r & Hr & J). exists r. split; [now right|exact J].
          * intros (r & [<-|Hr] & J); [apply Hb in J; discriminate|exists r; auto]. }
    destruct Hany as (b & Eb & Hb). destruct dj.
    + exists b. split; [exact Eb|]. rewrite Hb. split; [intros K; split; [now apply Hd|exact K]|tauto].
    + exists false. split; [reflexivity|]. split; [discriminate|]. intros (K & _). now apply Hd in K.
Qed.
(** Union and intersection with a list are those of the list; with a verse or range, those of C16 and C17. *)
Theorem C47_union_intersection : forall e a x fl, wf_data (ed e) -> legal_list e true (ref_list x) ->
  match x with
  | BL l => r_union e a x fl = l_union e l (BR a) fl /\ r_intersection e a x fl = l_intersection e l (BR a) fl
  | _ => forall b, ref_list x = [b] ->
      (forall l, union e a b fl = Ok l -> exists g, r_union e a x fl = Ok g /\ items g = l) /\
      (forall l, intersection e a b fl = Ok l -> exists g, r_intersection e a x fl = Ok g /\ items g = l) /\
      (forall l, difference e a b fl = Ok l -> exists g, r_difference e a x fl = Ok g /\ items g = l) /\
      (forall l, sym_difference e a b fl = Ok l -> exists g, r_sym_difference e a x fl = Ok g /\ items g = l)
  end.
Proof.
  intros e a x fl Hwf Hx. destruct x as [v|r|l]; [| |auto]; cbn [ref_list] in *; intros b [= <-];
    unfold r_union, r_intersection, r_difference, r_sym_difference.
  - inversion Hx as [|? ? Hv _]; subst. rewrite (new_range_all e Hwf) by (try apply Hv; lia). cbn [bind].
    repeat split; intros l E; unfold verse_range in E; rewrite E; cbn [bind]; eexists; (split; [reflexivity|apply items_of_items]).
  - repeat split; intros l E; rewrite E; cbn [bind]; eexists; (split; [reflexivity|apply items_of_items]).
Qed.
(** Range - list: AttributeError unless the list is disjoint from the range or contains it; range ^ list: always TypeError. *)
Theorem C47_difference_fails : forall e a l fl, wf_data (ed e) ->
  (l_is_disjoint e l (BR a) = Ok true -> exists g, r_difference e a (BL l) fl = Ok g /\ items g = [a]) /\
  (l_is_disjoint e l (BR a) = Ok false -> l_contains e l (BR a) None = Ok true -> r_difference e a (BL l) fl = Ok []) /\
  (l_is_disjoint e l (BR a) = Ok false -> l_contains e l (BR a) None = Ok false -> r_difference e a (BL l) fl = Err AttrErr) /\
  r_sym_difference e a (BL l) fl = Err TypeErr.
Proof.
  intros e a l fl _. unfold r_difference, r_sym_difference. split; [|split; [|split; [|reflexivity]]].
  - intros ->. cbn [bind]. eexists. split; [reflexivity|apply items_of_items].
  - intros -> ->. reflexivity.
  - intros -> ->. reflexivity.
Qed.
Theorem C47_difference_refuted : exists e a l, wf_data (ed e) /\ wf_range (ed e) false a /\ legal_list e false (items l) /\
  r_difference e a (BL l) None = Err AttrErr /\ r_sym_difference e a (BL l) None = Err TypeErr.
Proof.
  exists (denv NONE), (R (V Gen 1 2) (V Gen 1 9)), [[R (V Gen 1 4) (V Gen 1 5)]]. split; [exact default_wf|].
  split; [wf_range|]. split; [legal|]. split; vm_compute; reflexivity.
Qed.
Example C47_ex : let e := denv NONE in let a := R (V Gen 1 2) (V Gen 2 9) in let l := [[R (V Gen 1 4) (V Gen 1 5)]; [R (V Gen 2 3) (V Gen 2 9)]] in
  wf_range default_data true a /\ legal_list e true (items l) /\
  r_is_disjoint e a (BL l) = Ok false /\ r_contains e a (BL l) = Ok true /\ r_surrounds e a (BL l) = Ok false /\
  r_surrounds e a (BV (V Gen 2 8)) = Ok true /\
  r_is_adjacent e a (BL [[R (V Gen 4 1) (V Gen 4 2)]; [R (V Gen 2 10) (V Gen 2 10)]]) None = Ok true /\
  r_union e a (BL l) None = Ok [[a]] /\
  r_intersection e a (BL [[R (V Gen 1 1) (V Gen 1 5)]; [R (V Gen 2 9) (V Gen 3 9)]]) None = Ok [[R (V Gen 1 2) (V Gen 1 5)]; [R (V Gen 2 9) (V Gen 2 9)]].
Proof. cbv zeta. split; [wf_range|]. split; [legal|]. vm_compute. repeat split. Qed.
