(** * PropOrder: lists of ranges of books outside the order (C77). *)
From Coq Require Import List ZArith Bool Arith Lia Permutation.
From Verif Require Import Base Books Chars Regex Data MVerse MRange MSeq MList MGroup MNode MSort MOrder MOrder2 SpecGroup SpecNode SpecOrder Spec.
From Verif Require Import PDefault PCore PVerse PSort PGroup PGroup2 PGroup4 PGroup5 PGroup6 PGroup7 PGroup8 PNode PNode2 PropGroup PSort2 POrder POrder2 PropSort POrder3 POrder4 POrder5.
Import ListNotations.
Open Scope Z_scope.

(** The spans of a range compare verses of its two books only. *)
Theorem C77_spans : forall e r fl, sound e r ->
  x_spans_start_chap e r fl = spans_start_chap e r fl /\ x_spans_end_chap e r fl = spans_end_chap e r fl /\
  x_spans_start_book e r fl = spans_start_book e r fl /\ x_spans_end_book e r fl = spans_end_book e r fl.
Proof.
  intros e r fl H. apply sound_kind in H. destruct H as (k & Ks & Kt). unfold x_spans_start_chap, x_spans_end_chap, x_spans_start_book, x_spans_end_book, spans_start_chap, spans_end_chap, spans_start_book, spans_end_book.
  assert (F : forall c, (w <- first_verse e (vbook (rend r)) c fl;; verse_le e (rstart r) w) = (w <- first_verse e (vbook (rend r)) c fl;; Ok (vleb e (rstart r) w))).
  { intros c. destruct (first_verse e (vbook (rend r)) c fl) as [w|] eqn:E; [|reflexivity]. cbn [bind]. apply first_in in E. apply vcmp_ok. unfold vkind in *. congruence. }
  assert (L : forall c, (w <- last_verse e (vbook (rstart r)) c;; verse_ge e (rend r) w) = (w <- last_verse e (vbook (rstart r)) c;; Ok (vleb e w (rend r)))).
  { intros c. destruct (last_verse e (vbook (rstart r)) c) as [w|] eqn:E; [|reflexivity]. cbn [bind]. apply last_in in E. apply vcmp_ok. unfold vkind in *. congruence. }
  now rewrite !F, !L.
Qed.
(** ** All ranges can be compared *)
Theorem C77_list : forall eqb leb0 e os s h fl, holds eqb leb0 os s h -> comparable_all e (concat (values h)) ->
  x_l_min e s = l_min e (values h) /\ x_l_max e s = l_max e (values h) /\
  x_l_range e s = l_range e (values h) /\ x_l_chap_range e fl s = l_chap_range e (values h) fl /\ x_l_book_range e fl s = l_book_range e (values h) fl.
Proof.
  intros eqb leb0 e os s h fl H C. destruct (holds_state _ _ _ _ _ _ H) as (O & S & _). destruct (all_kind _ _ C) as (k & K).
  destruct (l_min_ok e k s h O S K) as (A & B). destruct (l_range_ok e k s h O S K fl) as (R1 & R2 & R3). auto.
Qed.
Theorem C77_methods : forall eqb leb0 e os s h x ys fl n, order_ok (ed e) -> holds eqb leb0 os s h -> ref_ranges e x = Ok ys -> comparable_all e (concat (values h) ++ ys) ->
  x_l_is_disjoint e x s = l_is_disjoint e (values h) x /\ x_l_contains e x fl s = l_contains e (values h) x fl /\
  x_l_union e x fl s = n_union e x fl s /\ x_l_intersection e x fl s = n_intersection e x fl s /\
  x_intersection_update e x fl s = n_intersection_update e x fl s /\
  x_l_difference e n x fl s = n_difference e n x fl s /\ x_difference_update e n x fl s = n_difference_update e n x fl s /\
  x_l_sym_difference e n x fl s = n_sym_difference e n x fl s /\ x_sym_difference_update e n x fl s = n_sym_difference_update e n x fl s.
Proof.
  intros eqb leb0 e os s h x ys fl n Ho H E C. destruct (holds_state _ _ _ _ _ _ H) as (O & S & _). destruct (all_kind _ _ C) as (k & K). pose proof K as K'. apply Forall_app in K'. destruct K' as (Kx & Ky).
  assert (D : x_l_is_disjoint e x s = l_is_disjoint e (values h) x).
  { unfold x_l_is_disjoint, l_is_disjoint. rewrite E. cbn [bind]. destruct (read_state s h O S) as (-> & _). cbn [bind]. apply disjoint_all. intros a b Ia Ib. apply comparable2_kind. exists k. rewrite Forall_forall in Kx, Ky. auto. }
  assert (I : x_l_intersection e x fl s = n_intersection e x fl s) by (eapply l_intersection_ok; eauto).
  assert (Y : x_l_sym_difference e n x fl s = n_sym_difference e n x fl s) by (eapply l_sym_difference_ok; eauto).
  split; [exact D|]. split; [eapply l_contains_ok; eauto; now apply Forall_forall|]. split; [eapply l_union_ok; eauto|]. split; [exact I|].
  split; [unfold x_intersection_update; now rewrite I|]. split; [eapply l_difference_ok; eauto|]. split; [eapply difference_update_ok; eauto|]. split; [exact Y|].
  unfold x_sym_difference_update. now rewrite Y.
Qed.
(** The methods of a range with a list as argument. *)
Theorem C77_range : forall eqb leb0 e os s h a fl, order_ok (ed e) -> holds eqb leb0 os s h -> comparable_all e (a :: concat (values h)) ->
  x_r_is_disjoint e a s = r_is_disjoint e a (BL (values h)) /\ x_r_is_adjacent e a s = r_is_adjacent e a (BL (values h)) fl /\
  x_r_contains e a s = r_contains e a (BL (values h)) /\ x_r_surrounds e a s = r_surrounds e a (BL (values h)).
Proof.
  intros eqb leb0 e os s h a fl Ho H C. destruct (holds_state _ _ _ _ _ _ H) as (O & S & _). destruct (all_kind _ _ C) as (k & K). pose proof (Forall_inv K) as Ka. pose proof (Forall_inv_tail K) as Kl.
  assert (Cl : comparable_all e (concat (values h) ++ [a])) by (apply (kind_all e k); apply Forall_app; auto).
  destruct (C77_methods eqb leb0 e os s h (BR a) [a] fl 0%nat Ho H eq_refl Cl) as (D & _).
  destruct (read_state s h O S) as (R & _). split; [exact D|]. split.
  - unfold x_r_is_adjacent, r_is_adjacent. rewrite D, R. cbn [bind]. f_equal. apply anyM_ext. intros b Ib. rewrite Forall_forall in Kl. apply (adjacent_ok e k); auto.
  - split.
    + unfold x_r_contains, r_contains. destruct (init_plain [a]) as (t & h2 & Et & S2 & V2). cbn [map] in Et. rewrite Et. cbn [bind]. rewrite R. cbn [bind].
      assert (E1 : ref_ranges e (BL [concat (values h)]) = Ok (concat (values h))) by (cbn; unfold items; cbn; now rewrite app_nil_r).
      rewrite (l_contains_ok e k t h2 [] (BL [concat (values h)]) (concat (values h)) None S2 E1); [|rewrite V2; auto|now apply Forall_forall].
      unfold l_contains. rewrite E1. cbn [ref_ranges bind]. assert (M : merge e None (copy_list (values h2)) = merge e None (copy_list (list_of_items [a]))).
      { rewrite (copy_same t h2 [] S2). unfold merge. unfold items at 1. rewrite V2. reflexivity. }
      rewrite M. reflexivity.
    + unfold x_r_surrounds, r_surrounds. rewrite R. cbn [bind]. apply (allM_ok _ (fun b => surrounds e a b)). intros b Ib. rewrite Forall_forall in Kl. apply (surrounds_ok e k); auto.
Qed.
(** ** Some ranges cannot be compared *)
Theorem C77_list_raises : forall eqb leb0 e os s h fl, holds eqb leb0 os s h -> Forall (sound e) (concat (values h)) -> ~ comparable_all e (concat (values h)) ->
  x_l_min e s = Err TypeErr /\ x_l_max e s = Err TypeErr /\ x_l_range e s = Err TypeErr /\ x_l_chap_range e fl s = Err TypeErr /\ x_l_book_range e fl s = Err TypeErr /\
  forall x ys, ref_ranges e x = Ok ys -> x_l_contains e x fl s = Err TypeErr.
Proof.
  intros eqb leb0 e os s h fl H Hs N. destruct (holds_state _ _ _ _ _ _ H) as (O & S & _). destruct (read_state s h O S) as (R & _).
  assert (M : x_l_min e s = Err TypeErr /\ x_l_max e s = Err TypeErr).
  { unfold x_l_min, x_l_max. rewrite R. cbn [bind]. destruct (not_all e _ Hs N) as (x & m & l & El & Ix & Nx). rewrite El in *.
    apply min_mixed; [now apply Forall_inv in Hs|now apply Forall_inv_tail in Hs|eauto]. }
  destruct M as (M1 & M2). unfold x_l_range, x_l_chap_range, x_l_book_range. rewrite M1, M2. cbn [bind]. repeat (split; [reflexivity|]).
  intros x ys E. unfold x_l_contains. rewrite E. cbn [bind]. destruct (copy_gives s h O S) as (t & h2 & Et & S2 & V). rewrite Et. cbn [bind].
  destruct (torn_x e t h2 [] S2) as (u & Eu & _); [now rewrite V|now rewrite V|]. unfold x_merge, x_sort. rewrite Eu. reflexivity.
Qed.
Theorem C77_union_raises : forall eqb leb0 e os s h x ys fl n, holds eqb leb0 os s h -> ref_ranges e x = Ok ys ->
  Forall (sound e) (concat (values h) ++ ys) -> ~ comparable_all e (concat (values h) ++ ys) ->
  x_l_union e x fl s = Err TypeErr /\ x_l_sym_difference e n x fl s = Err TypeErr /\ x_sym_difference_update e n x fl s = (s, Err TypeErr).
Proof.
  intros eqb leb0 e os s h x ys fl n H E Hs N. destruct (holds_state _ _ _ _ _ _ H) as (O & S & _).
  assert (U : forall x, ref_ranges e x = Ok ys -> x_l_union e x fl s = Err TypeErr).
  { clear x E. intros x E. unfold x_l_union. destruct (copy_gives s h O S) as (t & h2 & Et & S2 & V). rewrite Et. cbn [bind]. unfold x_union_update, let_run. rewrite E.
    destruct (extend_values ys t h2 [] S2) as (w & h3 & Ew & S3 & V3). unfold call. rewrite Ew. cbn [seq_run].
    assert (I : concat (values h3) = concat (values h) ++ ys) by (rewrite V3; pose proof (items_extend ys (values h2)) as I; unfold items in I; rewrite I, V; reflexivity).
    destruct (torn_x e w h3 [] S3) as (v & Ev & _); [now rewrite I|now rewrite I|]. unfold x_merge, x_sort. rewrite Ev. reflexivity. }
  assert (Y : x_l_sym_difference e n x fl s = Err TypeErr).
  { unfold x_l_sym_difference. rewrite E. cbn [bind]. rewrite U; [reflexivity|]. cbn. unfold items. cbn. now rewrite app_nil_r. }
  split; [auto|]. split; [exact Y|]. unfold x_sym_difference_update. now rewrite Y.
Qed.
(** [intersection] compares every range of the list with every range of the other reference, and no others. *)
Definition pairs_comparable (e : env) (xs ys : list range) : Prop := forall a b, In a xs -> In b ys -> comparable2 e a b.
Theorem C77_intersection : forall eqb leb0 e os s h x ys fl, holds eqb leb0 os s h -> ref_ranges e x = Ok ys -> Forall (sound e) (concat (values h)) -> Forall (sound e) ys ->
  (pairs_comparable e (concat (values h)) ys ->
     x_l_intersection e x fl s = n_intersection e x fl s /\ x_intersection_update e x fl s = n_intersection_update e x fl s) /\
  (forall a b, In a (concat (values h)) -> In b ys -> ~ comparable2 e a b ->
     exists q, x_l_intersection e x fl s = Err q /\ x_intersection_update e x fl s = (s, Err q) /\
       (q = TypeErr \/ exists a b, In a (concat (values h)) /\ In b ys /\ comparable2 e a b /\ intersection e a b fl = Err q)).
Proof.
  intros eqb leb0 e os s h x ys fl H E Hx Hy. destruct (holds_state _ _ _ _ _ _ H) as (O & S & _). destruct (read_state s h O S) as (R & _). split.
  - intros P. assert (I : x_l_intersection e x fl s = n_intersection e x fl s).
    { assert (D : concat (values h) = [] \/ ys = [] \/ (concat (values h) <> [] /\ ys <> [])).
      { destruct (concat (values h)); [auto|]. destruct ys; [auto|]. right. right. split; discriminate. }
      destruct D as [D|[D|(Nx & Ny)]].
      - unfold x_l_intersection, n_intersection. rewrite E, R, D. cbn [bind x_all_meets n_all_meets]. rewrite (merge_x_same e None fl (clear g_new) [] [] state_new); [reflexivity|constructor].
      - subst ys. unfold x_l_intersection, n_intersection. rewrite E, R. cbn [bind].
        assert (M : forall xs t, x_all_meets e fl xs [] t = Ok t /\ n_all_meets e fl xs [] t = Ok t) by (induction xs as [|a xs IH]; intros t; cbn; auto).
        destruct (M (concat (values h)) (clear g_new)) as (-> & ->). cbn [bind]. rewrite (merge_x_same e None fl (clear g_new) [] [] state_new); [reflexivity|constructor].
      - destruct (cross_kind e _ _ Hx Hy P Nx Ny) as (k & Kx & Ky). eapply l_intersection_ok; eauto. }
    split; auto. unfold x_intersection_update. now rewrite I.
  - intros a b Ia Ib N. destruct (all_meets_mixed e fl (concat (values h)) ys (clear g_new) [] Hx Hy state_new) as [(t' & _ & Q)|(q & Eq & Q)]; [exfalso; now apply N, Q|].
    assert (I : x_l_intersection e x fl s = Err q) by (unfold x_l_intersection; rewrite E, R; cbn [bind]; now rewrite Eq).
    exists q. split; auto. split; [unfold x_intersection_update; now rewrite I|]. exact Q.
Qed.
(** [difference] does the same, and then sorts what is left. *)
Theorem C77_difference : forall eqb leb0 e os s h x ys fl n, order_ok (ed e) -> holds eqb leb0 os s h -> ref_ranges e x = Ok ys -> Forall (sound e) (concat (values h)) -> Forall (sound e) ys ->
  (pairs_comparable e (concat (values h)) ys -> comparable_all e (concat (values h)) -> x_difference_update e n x fl s = n_difference_update e n x fl s) /\
  (ys = [] -> ~ comparable_all e (concat (values h)) -> (length (concat (values h)) <= n)%nat ->
     exists t, x_difference_update e n x fl s = (t, Err TypeErr) /\ torn (concat (values h)) (zlen h) t) /\
  (forall a b, In a (concat (values h)) -> In b ys -> ~ comparable2 e a b ->
     exists t g q, x_difference_update e n x fl s = (t, Err q) /\ to_nested_lists t = Ok g /\ g_iter t = Ok (concat g) /\
       (q = TypeErr \/ q = Diverge \/ exists a b, In b ys /\ comparable2 e a b /\ difference e a b fl = Err q)).
Proof.
  intros eqb leb0 e os s h x ys fl n Ho H E Hx Hy. destruct (holds_state _ _ _ _ _ _ H) as (O & S & _). split; [|split].
  - intros P C. assert (D : concat (values h) = [] \/ ys = [] \/ (concat (values h) <> [] /\ ys <> [])).
    { destruct (concat (values h)); [auto|]. destruct ys; [auto|]. right. right. split; discriminate. }
    destruct D as [D|[D|(Nx & Ny)]].
    + unfold x_difference_update, n_difference_update, let_run. rewrite E. rewrite (flat_first s h O S). rewrite values_items in D. apply map_eq_nil in D. rewrite D. cbn [map entry].
      assert (X : x_diff_loop e fl ys n None s = (s, Ok tt) /\ n_diff_loop e fl ys n None s = (s, Ok tt)) by (destruct n; auto). destruct X as (-> & ->). cbn [seq_run].
      apply (merge_x_same e None None s h O S). rewrite values_items, D. constructor.
    + subst ys. destruct (all_kind _ _ C) as (k & K). eapply (difference_update_ok e Ho k); eauto.
    + destruct (cross_kind e _ _ Hx Hy P Nx Ny) as (k & Kx & Ky). eapply difference_update_ok; eauto.
  - intros -> N Hn. unfold x_difference_update, let_run. rewrite E. rewrite (flat_first s h O S). rewrite values_items, map_length in Hn.
    rewrite (diff_loop_nothing e fl n s h O [] (concat h) S eq_refl Hn). cbn [seq_run]. destruct (torn_x e s h O S Hx N) as (t & Et & T). exists t. unfold x_merge, x_sort. rewrite Et. auto.
  - intros a b Ia Ib N. unfold x_difference_update, let_run. rewrite E. rewrite (flat_first s h O S). rewrite values_items in Hx, Ia.
    destruct (diff_loop_mixed e Ho fl ys Hy n s h O [] (concat h) S eq_refl Hx) as (t & h' & q & Eq & S' & Q); [eauto|]. rewrite Eq. cbn [seq_run].
    destruct (read_state t h' O S') as (R1 & _ & R2 & _). exists t, (values h'), q. split; auto. split; auto. split; auto. destruct Q as [Q|[Q|Q]]; auto.
Qed.
(** [is_disjoint] and [contains] go from pair to pair, until the answer is known or two ranges cannot be compared. *)
Theorem C77_disjoint : forall eqb leb0 e os s h x xs1 a xs2 ys1 b ys2, holds eqb leb0 os s h -> concat (values h) = xs1 ++ a :: xs2 -> ref_ranges e x = Ok (ys1 ++ b :: ys2) ->
  sound e a -> sound e b -> ~ comparable2 e a b -> pairs_comparable e xs1 (ys1 ++ b :: ys2) -> pairs_comparable e [a] ys1 ->
  x_l_is_disjoint e x s = if forallb (fun p => forallb (fun q => is_disjoint e p q) (ys1 ++ b :: ys2)) xs1 && forallb (fun q => is_disjoint e a q) ys1 then Err TypeErr else Ok false.
Proof.
  intros eqb leb0 e os s h x xs1 a xs2 ys1 b ys2 H Ex E Ha Hb N P1 P2. destruct (holds_state _ _ _ _ _ _ H) as (O & S & _). destruct (read_state s h O S) as (R & _).
  unfold x_l_is_disjoint. rewrite E, R, Ex. cbn [bind]. rewrite allM_app, (disjoint_all e) by auto. cbn [bind]. destruct (forallb _ xs1); [|reflexivity]. cbn [andb allM]. unfold andM at 1. rewrite allM_app.
  rewrite (allM_ok _ (fun q => is_disjoint e a q)). 2:{ intros q Iq. apply (C76_exact e a q None). apply P2; auto. now left. }
  cbn [bind]. destruct (forallb _ ys1); [|reflexivity]. cbn [allM]. unfold andM at 1. destruct (C76_raises e a b None Ha Hb N) as (_ & _ & _ & _ & -> & _). reflexivity.
Qed.
Lemma contains_stops : forall e (s : heap) h O x ys1 b ys2 fl, order_ok (ed e) -> state s h O -> concat (values h) <> [] -> Forall (sound e) (concat (values h)) -> comparable_all e (concat (values h)) ->
  ref_ranges e x = Ok (ys1 ++ b :: ys2) -> Forall (sound e) (ys1 ++ [b]) -> pairs_comparable e (concat (values h)) ys1 -> (exists a, In a (concat (values h)) /\ ~ comparable2 e a b) ->
  x_l_contains e x fl s = (c <- l_contains e (values h) (BL [ys1]) fl ;; if c : bool then Err TypeErr else Ok false).
Proof.
  intros e s h O x ys1 b ys2 fl Ho S Ne Hs C E Hy P (a & Ia & N). destruct (all_kind _ _ C) as (k & K).
  apply Forall_app in Hy. destruct Hy as (Hy & Hb). apply Forall_inv in Hb.
  assert (Ky : forall y, In y ys1 -> of_kind e k y).
  { intros y Iy. pose proof (P a y Ia Iy) as Q. rewrite Forall_forall in K, Hy, Hs. apply cmp_kind in Q; auto. destruct (kind_of e k a (K a Ia)) as (<- & _). rewrite Q. apply sound_of. auto. }
  unfold x_l_contains, l_contains. rewrite E. cbn [ref_ranges bind]. replace (items [ys1]) with ys1 by (unfold items; cbn; now rewrite app_nil_r).
  destruct (copy_gives s h O S) as (t & h2 & Et & S2 & V). rewrite Et. cbn [bind]. rewrite (copy_same s h O S). rewrite (merge_x_same e k fl t h2 [] S2) by (now rewrite V).
  destruct (merge_ends e fl t h2 [] S2) as (h' & S' & Q & I & G). destruct (n_merge e fl t) as (u & q). cbn [fst snd] in *. subst q. rewrite V in *. destruct (merge e fl (values h)) as [m|]; [|reflexivity].
  cbn [unit_of bind]. destruct (read_state u h' [] S') as (-> & _). cbn [bind]. specialize (G m eq_refl). rewrite <- G.
  assert (Kr : Forall (of_kind e k) (concat (values h'))) by (change (Forall (of_kind e k) (items (values h'))); rewrite I; now apply merge_rest_kind).
  rewrite allM_app. rewrite (allM_ok _ (fun y => existsb (fun p => contains e p y) (concat (values h')))).
  2:{ intros y Iy. apply anyM_ok. intros p Ip. rewrite Forall_forall in Kr. apply (contains_ok e k); auto. }
  cbn [bind]. unfold items. destruct (forallb _ ys1); [|reflexivity]. cbn [allM].
  assert (Nn : concat (values h') <> []).
  { change (items (values h') <> []). rewrite I. unfold merge_rest. pose proof (sort_perm _ (rleb e) (items (values h))) as Pm. destruct (sort_items (rleb e) (items (values h))) as [|p l]; [apply Permutation_nil in Pm; intros _; now apply Ne|].
    clear. revert p. induction l as [|y l IH]; intros p; cbn [merge_left]; [discriminate|]. destruct (union e p y fl) as [[|w [|w2 z]]|]; try discriminate. apply IH. }
  destruct (concat (values h')) as [|p l]; [congruence|]. pose proof (Forall_inv Kr) as Kp. destruct (kind_of e k p Kp) as (Ep & Sp). cbn [anyM]. unfold andM, orM.
  assert (Np : ~ comparable2 e p b).
  { rewrite cmp_kind by auto. rewrite Forall_forall in K, Hs. intros X. apply N. apply cmp_kind; auto. destruct (kind_of e k a (K a Ia)) as (Ea & _). congruence. }
  destruct (C76_raises e p b None Sp Hb Np) as (_ & _ & _ & _ & _ & _ & -> & _). reflexivity.
Qed.
Theorem C77_contains : forall eqb leb0 e os s h x ys1 b ys2 fl, order_ok (ed e) -> holds eqb leb0 os s h -> concat (values h) <> [] -> Forall (sound e) (concat (values h)) -> comparable_all e (concat (values h)) ->
  ref_ranges e x = Ok (ys1 ++ b :: ys2) -> Forall (sound e) (ys1 ++ [b]) -> pairs_comparable e (concat (values h)) ys1 -> (exists a, In a (concat (values h)) /\ ~ comparable2 e a b) ->
  x_l_contains e x fl s = (c <- l_contains e (values h) (BL [ys1]) fl ;; if c : bool then Err TypeErr else Ok false).
Proof.
  intros eqb leb0 e os s h x ys1 b ys2 fl Ho H Ne Hs C E Hy P X. destruct (holds_state _ _ _ _ _ _ H) as (O & S & _). eapply contains_stops; eauto.
Qed.
(** A range and a list, up to the first range of the list that cannot be compared with it. *)
Theorem C77_range_raises : forall eqb leb0 e os s h a ys1 b ys2, order_ok (ed e) -> holds eqb leb0 os s h -> concat (values h) = ys1 ++ b :: ys2 ->
  sound e a -> Forall (sound e) ys1 -> sound e b -> ~ comparable2 e a b -> pairs_comparable e [a] ys1 ->
  x_r_is_disjoint e a s = (if forallb (fun q => is_disjoint e q a) ys1 then Err TypeErr else Ok false) /\
  x_r_is_adjacent e a s = (if forallb (fun q => is_disjoint e q a) ys1 then Err TypeErr else Ok false) /\
  x_r_contains e a s = (c <- r_contains e a (BL [ys1]) ;; if c : bool then Err TypeErr else Ok false) /\
  x_r_surrounds e a s = (if forallb (fun q => surrounds e a q) ys1 then Err TypeErr else Ok false).
Proof.
  intros eqb leb0 e os s h a ys1 b ys2 Ho H E Ha Hy Hb N P. destruct (holds_state _ _ _ _ _ _ H) as (O & S & _). destruct (read_state s h O S) as (R & _).
  assert (Sym : forall p q, comparable2 e p q -> comparable2 e q p).
  { intros p q X. apply comparable2_kind in X. apply comparable2_kind. destruct X as (k & X1 & X2). eauto. }
  assert (D : x_r_is_disjoint e a s = if forallb (fun q => is_disjoint e q a) ys1 then Err TypeErr else Ok false).
  { unfold x_r_is_disjoint. rewrite (C77_disjoint eqb leb0 e os s h (BR a) ys1 b ys2 [] a []); auto.
    - cbn [app forallb]. rewrite andb_true_r. replace (forallb (fun p => is_disjoint e p a && true) ys1) with (forallb (fun q => is_disjoint e q a) ys1); [reflexivity|].
      clear. induction ys1 as [|y l IH]; cbn; [reflexivity|]. now rewrite andb_true_r, IH.
    - intros p q Ip Iq. apply Sym. destruct Iq as [<-|[]]. apply P; [now left|auto].
    - intros p q _ [].  }
  split; [exact D|]. split; [|split].
  - unfold x_r_is_adjacent. unfold x_r_is_disjoint in D. rewrite D. now destruct (forallb _ ys1).
  - unfold x_r_contains, r_contains. rewrite R, E. destruct (init_plain [a]) as (t & h2 & Et & S2 & V2). cbn [map] in Et. rewrite Et. cbn [bind].
    assert (C2 : comparable_all e (concat (values h2))) by (rewrite V2; unfold comparable_all; destruct Ha as [Ha|Ha]; [left|right]; cbn [flat_map]; now rewrite app_nil_r).
    assert (E1 : ref_ranges e (BL [ys1 ++ b :: ys2]) = Ok (ys1 ++ b :: ys2)) by (cbn; unfold items; cbn; now rewrite app_nil_r).
    assert (X : x_l_contains e (BL [ys1 ++ b :: ys2]) None t = (c <- l_contains e (values h2) (BL [ys1]) None ;; if c : bool then Err TypeErr else Ok false)).
    { apply (contains_stops e t h2 [] (BL [ys1 ++ b :: ys2]) ys1 b ys2 None Ho S2); rewrite ?V2; auto; [discriminate|apply Forall_app; auto|exists a; split; [now left|auto]]. }
    rewrite X. unfold l_contains at 1. assert (M : merge e None (copy_list (values h2)) = merge e None (copy_list (list_of_items [a]))).
    { rewrite (copy_same t h2 [] S2). unfold merge. unfold items at 1. rewrite V2. reflexivity. }
    rewrite M. unfold l_contains. reflexivity.
  - unfold x_r_surrounds. rewrite R, E. cbn [bind]. rewrite allM_app, (allM_ok _ (fun q => surrounds e a q)).
    2:{ intros q Iq. apply (C76_exact e a q None). apply P; auto. now left. }
    cbn [bind]. destruct (forallb (fun q => surrounds e a q) ys1); [|reflexivity]. cbn [allM]. unfold andM. destruct (C76_raises e a b None Ha Hb N) as (_ & _ & _ & _ & _ & _ & _ & -> & _). reflexivity.
Qed.
(** ** One book outside the order *)
(** All ranges of the list, or of the reference, are in book [b]. *)
Definition list_within (b : book) (l : rlist) : Prop := Forall (within b) (items l).
Definition ref_within (b : book) (x : bref) : Prop := match x with BV v => vbook v = b | BR r => within b r | BL l => list_within b l end.
Theorem C77_alone : forall e b, order (ed e) b = None -> forall l, list_within b l -> let e' := alone e b in
  (forall fl, regroup e fl l = regroup e' fl l) /\ (forall re, l_sort e re l = l_sort e' re l) /\ (forall fl, merge e fl l = merge e' fl l) /\
  (l_min e l = l_min e' l /\ l_max e l = l_max e' l /\ l_range e l = l_range e' l /\
   forall fl, l_chap_range e l fl = l_chap_range e' l fl /\ l_book_range e l fl = l_book_range e' l fl) /\
  (forall whole fl, l_verse_count e l fl = l_verse_count e' l fl /\ l_chap_count e l whole fl = l_chap_count e' l whole fl /\ l_book_count e l whole fl = l_book_count e' l whole fl) /\
  (forall x fl n, ref_within b x ->
     l_is_disjoint e l x = l_is_disjoint e' l x /\ l_contains e l x fl = l_contains e' l x fl /\
     l_union e l x fl = l_union e' l x fl /\ union_update e l x fl = union_update e' l x fl /\
     l_intersection e l x fl = l_intersection e' l x fl /\ l_difference e n l x fl = l_difference e' n l x fl /\
     difference_update e n l x fl = difference_update e' n l x fl /\ l_sym_difference e n l x fl = l_sym_difference e' n l x fl).
Proof.
  intros e b Hun l Hl. cbn zeta. assert (Q : forall fl, quiet e b fl) by (intros fl; now left). split; [intros fl; now apply regroup_same|]. split; [intros re; now apply l_sort_same|]. split; [intros fl; now apply merge_same_b|].
  destruct (l_min_same e b l Hl) as (M1 & M2 & _). split; [|split].
  - split; [exact M1|]. split; [exact M2|]. destruct (l_ranges_same e b l None Hl) as (R & _). split; [exact R|]. intros fl. now destruct (l_ranges_same e b l fl Hl) as (_ & R2).
  - intros whole fl. now apply l_counts_same.
  - intros x fl n Hx. split; [now apply l_disjoint_same|]. split; [now apply l_contains_same|]. split; [now apply l_union_same|]. split; [now apply update_same|].
    split; [now apply l_intersection_same|]. split; [now apply l_difference_same|]. split; [now apply difference_update_same|now apply l_sym_difference_same].
Qed.

(** ** Examples *)
Lemma rg_sound : forall e b c v c' v', sound e (rg b c v c' v').
Proof. intros. right. exists b. apply Forall_cons; [reflexivity|apply Forall_cons; [reflexivity|apply Forall_nil]]. Qed.
Lemma other_books : forall f c v c' v' c1 v1 c2 v2, ~ comparable2 (tenv f) (rg Gen c v c' v') (rg Exod c1 v1 c2 v2).
Proof.
  intros. intros [H|(b & H)]; rewrite Forall_forall in H.
  - destruct (H Exod) as (i & Hi); [cbn; tauto|]. vm_compute in Hi. discriminate.
  - assert (b = Exod) by (apply H; cbn; tauto). assert (b = Gen) by (apply H; cbn; tauto). congruence.
Qed.
Definition nested (r : res heap) : res (list (list range)) := t <- r ;; to_nested_lists t.
Definition after (r : run) : res (list (list range)) * res unit := (to_nested_lists (fst r), snd r).
(** Comparable ranges: Psalms and Genesis of the small Bible. *)
Example C77_methods_ex : let e := tenv MULTIBOOK in
  exists s h, holds range_eqb (rleb e) tame s h /\ order_ok (ed e) /\ ref_ranges e (BR (rg Gen 1 2 2 1)) = Ok [rg Gen 1 2 2 1] /\
  comparable_all e (concat (values h) ++ [rg Gen 1 2 2 1]) /\
  x_l_range e s = Ok (R (V Gen 1 1) (V Psa 1 2)) /\ x_l_is_disjoint e (BR (rg Gen 1 2 2 1)) s = Ok false /\ x_l_contains e (BR (rg Gen 1 2 2 1)) None s = Ok true /\
  nested (x_l_union e (BR (rg Gen 1 2 2 1)) None s) = Ok [[rg Gen 1 1 2 2]; [rg Psa 1 1 1 2]] /\
  nested (x_l_intersection e (BR (rg Gen 1 2 2 1)) None s) = Ok [[rg Gen 1 2 2 1]] /\
  after (x_difference_update e 20 (BR (rg Gen 1 2 2 1)) None s) = (Ok [[rg Gen 1 1 1 1]; [rg Gen 2 2 2 2]; [rg Psa 1 1 1 2]], Ok tt) /\
  x_r_surrounds e (rg Gen 1 1 2 2) s = Ok false /\ x_r_is_adjacent e (rg Gen 1 2 2 1) s = Ok false.
Proof.
  cbn zeta. exists (snd (h_run range_eqb (rleb (tenv MULTIBOOK)) tame g_new)). eexists. split; [eexists; split; vm_compute; reflexivity|].
  split; [apply tiny_wf|]. split; [reflexivity|]. split; [|repeat (split; [vm_compute; reflexivity|]); vm_compute; reflexivity].
  left. match goal with |- Forall _ ?l => let l' := eval vm_compute in l in change l with l' end.
  repeat (apply Forall_cons; [eexists; vm_compute; reflexivity|]). apply Forall_nil.
Qed.
(** Exodus is not in the order of the small Bible.  [difference_update] has changed the list before it raises. *)
Example C77_raises_ex : let e := tenv MULTIBOOK in
  exists s h u k, holds range_eqb (rleb e) mixed s h /\ holds range_eqb (rleb e) tame u k /\ order_ok (ed e) /\
  Forall (sound e) (concat (values h)) /\ ~ comparable_all e (concat (values h)) /\
  In (rg Exod 1 1 1 2) (concat (values h)) /\ ~ comparable2 e (rg Gen 1 2 2 1) (rg Exod 1 1 1 2) /\
  x_l_range e s = Err TypeErr /\ nested (x_l_union e (BR (rg Exod 1 1 1 1)) None u) = Err TypeErr /\
  nested (x_l_intersection e (BR (rg Gen 1 2 2 1)) None s) = Err TypeErr /\ x_intersection_update e (BR (rg Gen 1 2 2 1)) None s = (s, Err TypeErr) /\
  x_sym_difference_update e 20 (BR (rg Gen 1 2 2 1)) None s = (s, Err TypeErr) /\
  after (x_difference_update e 20 (BR (rg Gen 1 2 2 1)) None s) = (Ok [[rg Psa 1 1 1 2; rg Gen 1 1 1 1]; [rg Exod 1 1 1 2; rg Gen 2 1 2 2]], Err TypeErr) /\
  x_l_is_disjoint e (BR (rg Exod 1 1 1 1)) u = Err TypeErr /\ x_l_is_disjoint e (BL [[rg Psa 1 2 1 2; rg Exod 1 1 1 1]]) u = Ok false /\
  x_l_contains e (BL [[rg Gen 1 2 2 1; rg Exod 1 1 1 1]]) None u = Err TypeErr /\ x_l_contains e (BL [[rg Gen 1 2 2 1; rg Psa 2 1 2 1; rg Exod 1 1 1 1]]) None u = Ok false /\
  x_r_surrounds e (rg Exod 1 1 1 1) u = Err TypeErr /\ x_r_is_adjacent e (rg Gen 1 1 2 2) s = Ok false.
Proof.
  cbn zeta. exists (snd (h_run range_eqb (rleb (tenv MULTIBOOK)) mixed g_new)). eexists. exists (snd (h_run range_eqb (rleb (tenv MULTIBOOK)) tame g_new)). eexists.
  split; [eexists; split; vm_compute; reflexivity|]. split; [eexists; split; vm_compute; reflexivity|]. split; [apply tiny_wf|].
  match goal with |- Forall _ ?l /\ _ => let l' := eval vm_compute in l in change l with l' end.
  split; [|split; [|split; [vm_compute; tauto|split; [apply other_books|repeat (split; [vm_compute; reflexivity|]); vm_compute; reflexivity]]]].
  - repeat (apply Forall_cons; [apply rg_sound|]). apply Forall_nil.
  - intros [H|(b & H)].
    + rewrite Forall_forall in H. destruct (H Exod) as (i & Hi); [vm_compute; tauto|]. vm_compute in Hi. discriminate.
    + rewrite Forall_forall in H. assert (b = Exod) by (apply H; vm_compute; tauto). assert (b = Gen) by (apply H; vm_compute; tauto). congruence.
Qed.
Example C77_alone_ex : let e := tenv NONE in
  order (ed e) Exod = None /\ list_within Exod [[rg Exod 1 1 1 2]; [rg Exod 2 1 2 2]] /\ ref_within Exod (BR (rg Exod 1 2 2 1)) /\
  merge e None [[rg Exod 1 1 1 2]; [rg Exod 2 1 2 2]] = Ok [[rg Exod 1 1 2 2]] /\
  l_difference e 9 [[rg Exod 1 1 1 2]; [rg Exod 2 1 2 2]] (BR (rg Exod 1 2 2 1)) None = Ok [[rg Exod 1 1 1 1]; [rg Exod 2 2 2 2]] /\
  l_sym_difference (alone e Exod) 9 [[rg Exod 1 1 1 2]] (BR (rg Exod 1 2 2 1)) None = Ok [[rg Exod 1 1 1 1]; [rg Exod 2 1 2 1]] /\ wf_data (ed (alone e Exod)).
Proof.
  cbn zeta. split; [reflexivity|]. split; [unfold list_within; vm_compute; repeat (apply Forall_cons; [now split|]); apply Forall_nil|]. split; [now split|].
  repeat (split; [vm_compute; reflexivity|]). apply C76_ex.
Qed.
