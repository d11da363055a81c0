(** * PropAlone: the order of the books matters only between books (C78). *)
From Coq Require Import List ZArith Bool Ascii String Lia.
From Verif Require Import Base Books Chars Regex Data DefaultData MVerse MRange MSeq MList MGroup MNode MSort MOrder MOrder2 MStr MParse
  Spec SpecOrder PCore PVerse PDefault POrder POrder2 POrder5 PAlone PropSort PropOrder.
Import ListNotations.
Open Scope list_scope.
Open Scope Z_scope.

(** ** C78.  [alone e b] is the Bible with the one book [b]; it is the same whatever the order of the books was.
    Without MULTIBOOK every book behaves as the only book of a Bible. *)
Lemma off_quiet : forall e b fl, multi_on e fl = false -> quiet e b fl.
Proof. intros e b fl H. right. now rewrite multi_on_eq. Qed.
Theorem C78_one_book : forall e bs pos b, alone (reorder e bs pos) b = alone e b.
Proof. reflexivity. Qed.
Theorem C78_verses : forall e b fl, multi_on e fl = false ->
  (forall v n, vbook v = b -> add e v n fl = add (alone e b) v n fl /\ subtract e v n fl = subtract (alone e b) v n fl) /\
  (forall p q, within b p -> within b q -> is_adjacent e p q fl = is_adjacent (alone e b) p q fl /\ union e p q fl = union (alone e b) p q fl).
Proof.
  intros e b fl H. apply (off_quiet e b fl) in H. split; intros; (split; [|]); try (now apply add_same); try (now apply subtract_same); [now apply adjacent_same|now apply union_same].
Qed.
(** With any flags. *)
Theorem C78_compare : forall e b fl,
  (forall s t, vbook s = b -> vbook t = b -> vltb e s t = vltb (alone e b) s t /\ new_range e s t fl = new_range (alone e b) s t fl) /\
  forall p q, within b p -> within b q ->
  rltb e p q = rltb (alone e b) p q /\ is_disjoint e p q = is_disjoint (alone e b) p q /\
  contains e p q = contains (alone e b) p q /\ surrounds e p q = surrounds (alone e b) p q /\ intersection e p q fl = intersection (alone e b) p q fl.
Proof.
  intros e b fl. split; [intros s t Hs Ht; split; [now apply cmp_same|now apply new_same]|]. intros p q Hp Hq.
  split; [exact (proj1 (rlt_same e b p q Hp Hq))|]. split; [now apply disjoint_same|]. split; [now apply contains_same|]. split; [now apply surrounds_same|now apply intersection_same].
Qed.
(** [split] and the operations that use it read the global flags too. *)
Theorem C78_ranges : forall e b fl, multi_on e None = false -> multi_on e fl = false ->
  (forall p q, within b p -> within b q -> difference e p q fl = difference (alone e b) p q fl /\ sym_difference e p q fl = sym_difference (alone e b) p q fl) /\
  (forall r n bb bc num, within b r -> split_items e n r bb bc num fl = split_items (alone e b) n r bb bc num fl).
Proof.
  intros e b fl H0 H. apply (off_quiet e b) in H0, H. split; intros; [split; [now apply difference_same|now apply sym_difference_same]|now apply split_same].
Qed.
Theorem C78_lists : forall e b fl, multi_on e None = false -> multi_on e fl = false -> forall l, list_within b l -> let e' := alone e b in
  regroup e fl l = regroup e' fl l /\ (forall re, l_sort e re l = l_sort e' re l) /\ merge e fl l = merge e' fl l /\
  (l_min e l = l_min e' l /\ l_max e l = l_max e' l /\ l_range e l = l_range e' l /\ l_chap_range e l fl = l_chap_range e' l fl /\ l_book_range e l fl = l_book_range e' l fl) /\
  (forall whole, l_verse_count e l fl = l_verse_count e' l fl /\ l_chap_count e l whole fl = l_chap_count e' l whole fl /\ l_book_count e l whole fl = l_book_count e' l whole fl) /\
  (forall x n, ref_within b x ->
     l_is_disjoint e l x = l_is_disjoint e' l x /\ l_contains e l x fl = l_contains e' l x fl /\
     l_union e l x fl = l_union e' l x fl /\ union_update e l x fl = union_update e' l x fl /\
     l_intersection e l x fl = l_intersection e' l x fl /\ l_difference e n l x fl = l_difference e' n l x fl /\
     difference_update e n l x fl = difference_update e' n l x fl /\ l_sym_difference e n l x fl = l_sym_difference e' n l x fl).
Proof.
  intros e b fl H0 H l Hl. apply (off_quiet e b) in H0, H. cbn zeta. split; [now apply regroup_same|]. split; [intros re; now apply l_sort_same|]. split; [now apply merge_same_b|].
  destruct (l_min_same e b l Hl) as (M1 & M2 & _). split; [|split].
  - split; [exact M1|]. split; [exact M2|]. now destruct (l_ranges_same e b l fl Hl) as (R & R2).
  - intros whole. now apply l_counts_same.
  - intros x n Hx. split; [now apply l_disjoint_same|]. split; [now apply l_contains_same|]. split; [now apply l_union_same|]. split; [now apply update_same|].
    split; [now apply l_intersection_same|]. split; [now apply l_difference_same|]. split; [now apply difference_update_same|now apply l_sym_difference_same].
Qed.
(** Legal ranges within a book of the Bible, with any flags: iterating, splitting and counting never leave the book. *)
Theorem C78_walks : forall e b r, wf_data (ed e) -> wf_range (ed e) true r -> within b r ->
  wf_data (ed (alone e b)) /\ wf_range (ed (alone e b)) true r /\
  (exists N, forall n, (N <= n)%nat -> iter_range e n r = iter_range (alone e b) n r) /\
  (forall bb bc num fl, (forall k, num = Some k -> 1 <= k) ->
     exists N, forall n, (N <= n)%nat -> split_items e n r bb bc num fl = split_items (alone e b) n r bb bc num fl) /\
  (forall whole fl, verse_count e r fl = verse_count (alone e b) r fl /\ r_chap_count e r whole fl = r_chap_count (alone e b) r whole fl /\ r_book_count e r whole fl = r_book_count (alone e b) r whole fl).
Proof.
  intros e b r Hwf W Hr. assert (Hb : In b (book_order (ed e))) by (destruct W as (W & _); apply (InB_book e) in W; now rewrite (proj1 Hr) in W).
  split; [now apply alone_wf|]. split; [now apply wf_alone|]. split; [now apply iter_alone|]. split.
  - intros bb bc num fl Hn. destruct (split_alone e b Hwf Hb r bb bc num fl Hr W Hn) as (N & H). exists N. auto.
  - intros whole fl. destruct (split_chaps_alone e b Hwf Hb r Hr W) as (E1 & E2). unfold verse_count, r_chap_count, r_book_count. rewrite E1, E2. repeat (split; [reflexivity|]). reflexivity.
Qed.
(** Texts: every range of the list is within one book, and if MULTIBOOK is among the global flags the range is legal
    or its book has no place in the order. *)
Definition unmoved (e : env) (b : book) (r : range) : Prop :=
  within b r /\ (order (ed e) b = None \/ multi_on e None = false \/ (wf_data (ed e) /\ wf_range (ed e) true r)).
Lemma unmoved_settled : forall e b r, unmoved e b r -> settled e b r.
Proof.
  intros e b r (Hr & [H|[H|(Hwf & W)]]); [left; now left|left; now apply off_quiet|]. right. split; [auto|]. split; [|auto].
  destruct W as (W & _). apply (InB_book e) in W. now rewrite (proj1 Hr) in W.
Qed.
Theorem C78_text : forall e bs pos lk force fl, let e2 := reorder e bs pos in
  (forall v p, verse_str e lk v p = verse_str e2 lk v p) /\
  (forall b r, within b r -> range_str e lk force r fl = range_str e2 lk force r fl) /\
  (forall pg l, Forall (fun r => exists b, unmoved e b r /\ unmoved e2 b r) (List.concat l) -> list_str e lk pg force l fl = list_str e2 lk pg force l fl).
Proof.
  intros e bs pos lk force fl. cbn zeta. split; [reflexivity|]. split; [intros b r Hr; now apply (range_str_two e bs pos lk force r fl b)|].
  intros pg l H. apply list_str_two. eapply Forall_impl; [|exact H]. intros r (b & H1 & H2). exists b. split; [apply H1|]. split; now apply unmoved_settled.
Qed.
(** Reading, in two orders of the same books.  Without MULTIBOOK every text gives the same list or the same exception
    at the same place, and leaves the same state. *)
Definition same_books (e e2 : env) : Prop := forall b, listed e b <-> listed e2 b.
Lemma same_books_none : forall e bs pos, same_books e (reorder e bs pos) -> forall b, order (ed e) b = None <-> pos b = None.
Proof.
  intros e bs pos H b. specialize (H b). unfold listed in H. cbn [reorder ed order] in H. destruct (order (ed e) b) as [i|], (pos b) as [j|]; split; intros E; try congruence; exfalso.
  - destruct (proj1 H (ex_intro _ i eq_refl)). discriminate.
  - destruct (proj2 H (ex_intro _ j eq_refl)). discriminate.
Qed.
Theorem C78_reading : forall e bs pos fl, let e2 := reorder e bs pos in same_books e e2 -> multi_on e fl = false -> forall st s,
  parse e fl st s = parse e2 fl st s /\ list_from_str e fl st s = list_from_str e2 fl st s /\
  range_from_str e fl st s = range_from_str e2 fl st s /\ verse_from_str e fl st s = verse_from_str e2 fl st s.
Proof.
  intros e bs pos fl. cbn zeta. intros S M st s. pose proof (same_books_none e bs pos S) as N. rewrite <- multi_on_eq in M.
  assert (P : forall s, parse e fl st s = parse (reorder e bs pos) fl st s) by (intros; now apply parse_off).
  assert (E : forall x, eff (reorder e bs pos) x = eff e x) by reflexivity.
  assert (P2 : forall s, parse e (Some (eff e fl)) st s = parse (reorder e bs pos) (Some (eff e fl)) st s) by (intros; apply parse_off; [auto|now rewrite PCore.eff_eff]).
  assert (L : forall s, list_from_str e fl st s = list_from_str (reorder e bs pos) fl st s) by (intros; unfold list_from_str; now rewrite E, P2).
  split; [apply P|]. split; [apply L|]. unfold range_from_str, verse_from_str. split; [|now rewrite L].
  rewrite E. unfold list_from_str at 1 2. rewrite !E, !PCore.eff_eff, P2. reflexivity.
Qed.
(** With MULTIBOOK: an accepted text all of whose ranges lie within one book each. *)
Theorem C78_reading_multi : forall e bs pos fl, let e2 := reorder e bs pos in same_books e e2 -> forall st s st' g,
  parse e fl st s = (st', Ok g) -> Forall (fun r => exists b, within b r) (List.concat g) -> parse e2 fl st s = (st', Ok g).
Proof. intros e bs pos fl. cbn zeta. intros S st s st' g E Hg. eapply parse_on; eauto. exact (same_books_none e bs pos S). Qed.
(** Which books have a place in the order does matter: positional arguments that name such a book twice are rejected. *)
Theorem C78_unlisted : forall e b sc sv ec ev fl, order (ed e) b = None -> new_range_pos e (PA b sc sv (Some b) ec ev) fl = Err TypeErr.
Proof. intros e b sc sv ec ev fl H. unfold new_range_pos. cbn [pa_eb pa_sb]. unfold book_gt, book_cmp. now rewrite H. Qed.

(** ** Examples: the small Bible with Psalms before Genesis. *)
Definition turned (f : flag) : env := reorder (tenv f) [Psa; Gen] (fun b => if book_eqb b Psa then Some 0%nat else if book_eqb b Gen then Some 1%nat else None).
Lemma turned_books : forall f, same_books (tenv f) (turned f).
Proof.
  intros f b. unfold listed. cbn [turned tenv tiny_data reorder ed order]. destruct (book_eqb b Gen), (book_eqb b Psa); split; intros (i & H); try discriminate; eexists; reflexivity.
Qed.
Lemma turned_wf : forall f, wf_data (ed (turned f)).
Proof.
  intros f. split; [|intros b [<-|[<-|[]]]; eexists; (split; [reflexivity|]); (split; [discriminate|repeat constructor; lia])].
  intros b i. cbn [turned reorder ed order book_order]. destruct (book_eqb b Psa) eqn:E1; [|destruct (book_eqb b Gen) eqn:E2].
  - apply book_eqb_eq in E1. subst b. split; intros H; [injection H as <-; reflexivity|]. destruct i as [|[|[|i]]]; cbn in H; congruence.
  - apply book_eqb_eq in E2. subst b. split; intros H; [injection H as <-; reflexivity|]. destruct i as [|[|[|i]]]; cbn in H; congruence.
  - apply book_eqb_neq in E1, E2. split; intros H; [discriminate|]. destruct i as [|[|[|i]]]; cbn in H; congruence.
Qed.
Definition l1 : rlist := [[rg Gen 1 1 1 2]; [rg Gen 2 1 2 2]].
Example C78_one_book_ex : alone (turned NONE) Gen = alone (tenv NONE) Gen /\ ed (turned NONE) <> ed (tenv NONE).
Proof. split; [reflexivity|]. intros H. apply (f_equal book_order) in H. vm_compute in H. discriminate. Qed.
(** Genesis 2:3 is the last verse of Genesis. *)
Example C78_verses_ex :
  multi_on (tenv NONE) None = false /\ add (tenv NONE) (V Gen 1 2) 1 None = Ok (Some (V Gen 2 1)) /\ add (alone (tenv NONE) Gen) (V Gen 2 3) 1 None = Ok None /\
  add (tenv NONE) (V Gen 2 3) 1 (Some MULTIBOOK) = Ok (Some (V Psa 1 1)) /\ is_adjacent (turned NONE) (rg Gen 1 1 1 2) (rg Gen 2 1 2 2) None = Ok true.
Proof. vm_compute. repeat (split; [reflexivity|]). reflexivity. Qed.
Example C78_compare_ex :
  within Gen (rg Gen 1 1 1 2) /\ within Gen (rg Gen 2 1 2 2) /\ rltb (turned ALL) (rg Gen 1 1 1 2) (rg Gen 2 1 2 2) = true /\
  intersection (alone (tenv ALL) Gen) (rg Gen 1 1 2 1) (rg Gen 1 2 2 3) None = Ok [rg Gen 1 2 2 1].
Proof. vm_compute. tauto. Qed.
Example C78_ranges_ex :
  multi_on (tenv NONE) None = false /\ within Gen (rg Gen 1 1 2 3) /\ difference (tenv NONE) (rg Gen 1 1 2 3) (rg Gen 1 2 2 1) None = Ok [rg Gen 1 1 1 1; rg Gen 2 2 2 3] /\
  split_items (turned NONE) 9 (rg Gen 1 1 2 3) false true (Some 2) None = Ok [rg Gen 1 1 1 2; rg Gen 2 1 2 2; rg Gen 2 3 2 3].
Proof. vm_compute. tauto. Qed.
Example C78_lists_ex :
  list_within Gen l1 /\ ref_within Gen (BR (rg Gen 1 2 2 1)) /\ merge (tenv NONE) None l1 = Ok [[rg Gen 1 1 2 2]] /\
  l_difference (turned NONE) 9 l1 (BR (rg Gen 1 2 2 1)) None = Ok [[rg Gen 1 1 1 1]; [rg Gen 2 2 2 2]].
Proof.
  split; [unfold list_within; vm_compute; repeat (apply Forall_cons; [now split|]); apply Forall_nil|]. split; [now split|]. vm_compute. tauto.
Qed.
(** The end of the range is the last verse of its book, and MULTIBOOK is set. *)
Example C78_walks_ex :
  wf_range (ed (tenv ALL)) true (rg Gen 1 2 2 3) /\ within Gen (rg Gen 1 2 2 3) /\
  iter_range (tenv ALL) 9 (rg Gen 1 2 2 3) = Ok [V Gen 1 2; V Gen 2 1; V Gen 2 2; V Gen 2 3] /\
  split_items (turned ALL) 9 (rg Gen 1 2 2 3) false true None None = Ok [rg Gen 1 2 1 2; rg Gen 2 1 2 3] /\ r_chap_count (alone (tenv ALL) Gen) (rg Gen 1 2 2 3) true None = Ok 1.
Proof. split; [wf_range_tiny|]. vm_compute. tauto. Qed.
Example C78_text_ex :
  let l := [[rg Gen 1 2 1 2; rg Gen 1 2 2 3]; [rg Psa 1 1 1 2; rg Exod 2 1 2 1]] in
  Forall (fun r => exists b, unmoved (tenv ALL) b r /\ unmoved (turned ALL) b r) (List.concat l) /\
  list_str (tenv ALL) plain true false l None = Ok (s2l "Genesis 1:2, 1:2-2:3; Psalms 1, Exodus 2:1") /\
  list_str (turned ALL) plain true false l None = Ok (s2l "Genesis 1:2, 1:2-2:3; Psalms 1, Exodus 2:1").
Proof.
  cbn zeta. split; [|vm_compute; tauto].
  assert (U : forall b c v c' v', wf_range (ed (tenv ALL)) true (rg b c v c' v') -> wf_range (ed (turned ALL)) true (rg b c v c' v') ->
    exists x, unmoved (tenv ALL) x (rg b c v c' v') /\ unmoved (turned ALL) x (rg b c v c' v')).
  { intros b c v c' v' W1 W2. exists b. split; (split; [now split|]); right; right; (split; [|auto]); [exact tiny_wf|apply turned_wf]. }
  cbn [List.concat app].
  apply Forall_cons; [apply U; [wf_range_tiny|apply (wf_range_check (ed (turned ALL))); [exact (turned_wf ALL)|vm_compute; reflexivity..]]|].
  apply Forall_cons; [apply U; [wf_range_tiny|apply (wf_range_check (ed (turned ALL))); [exact (turned_wf ALL)|vm_compute; reflexivity..]]|].
  apply Forall_cons; [apply U; [wf_range_tiny|apply (wf_range_check (ed (turned ALL))); [exact (turned_wf ALL)|vm_compute; reflexivity..]]|].
  apply Forall_cons; [|apply Forall_nil]. exists Exod. split; (split; [now split|now left]).
Qed.
(** Without MULTIBOOK the second text is rejected in both orders, at the same place. *)
Example C78_reading_ex :
  same_books (tenv NONE) (turned NONE) /\ multi_on (tenv NONE) None = false /\
  parse (turned NONE) None ts_init (s2l "Gen 1:2-2:1; Psa 2, 1:1") = (TS (Some Psa) (Some 1) true, Ok [[rg Gen 1 2 2 1]; [rg Psa 2 1 2 2; rg Psa 1 1 1 1]]) /\
  parse (tenv NONE) None ts_init (s2l "Gen 1:1, 2-Psa 2; 1") = (TS (Some Psa) (Some 2) false, Err (ParseErr 9 16)) /\
  parse (turned NONE) None ts_init (s2l "Gen 1:1, 2-Psa 2; 1") = (TS (Some Psa) (Some 2) false, Err (ParseErr 9 16)).
Proof. split; [apply turned_books|]. vm_compute. repeat (split; [reflexivity|]). reflexivity. Qed.
(** With MULTIBOOK a range of two books is read in the order of the books. *)
Example C78_reading_multi_ex :
  parse (tenv MULTIBOOK) None ts_init (s2l "Gen 2:3-1:2; Psa 1") = (TS (Some Psa) (Some 1) false, Ok [[rg Gen 1 2 2 3]; [rg Psa 1 1 1 2]]) /\
  parse (turned MULTIBOOK) None ts_init (s2l "Gen 2:3-1:2; Psa 1") = (TS (Some Psa) (Some 1) false, Ok [[rg Gen 1 2 2 3]; [rg Psa 1 1 1 2]]) /\
  parse (tenv MULTIBOOK) None ts_init (s2l "Gen 2:3-Psa 1") = (TS (Some Psa) (Some 1) false, Ok [[R (V Gen 2 3) (V Psa 1 2)]]) /\
  parse (turned MULTIBOOK) None ts_init (s2l "Gen 2:3-Psa 1") = (TS (Some Psa) (Some 1) false, Ok [[R (V Psa 1 2) (V Gen 2 3)]]).
Proof. vm_compute. repeat (split; [reflexivity|]). reflexivity. Qed.
(** A book without a place in the order: a text that names two of its verses is rejected (the comparison of ref.py 710
    raises), so [same_books] is needed. *)
Example C78_unlisted_ex :
  let e2 := reorder (tenv NONE) [Exod] (fun b => if book_eqb b Exod then Some 0%nat else None) in
  parse (tenv NONE) None ts_init (s2l "Exod 1:1-2") = (TS (Some Exod) (Some 1) true, Err (ParseErr 0 10)) /\
  parse e2 None ts_init (s2l "Exod 1:1-2") = (TS (Some Exod) (Some 1) true, Ok [[rg Exod 1 1 1 2]]).
Proof. vm_compute. split; reflexivity. Qed.
