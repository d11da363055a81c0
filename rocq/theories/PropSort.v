(** * PropSort: sorting items that cannot all be compared (C75), and ranges of books outside the order (C76). *)
From Coq Require Import List ZArith Bool Arith Lia Permutation Sorted.
From Verif Require Import Base Books Chars Regex Data MVerse MRange MSeq MList MGroup MNode MSort MOrder SpecGroup SpecOrder Spec.
From Verif Require Import PDefault PCore PVerse PSort PGroup PGroup2 PGroup4 PGroup5 PGroup6 PGroup7 PGroup8 PNode PNode2 PropGroup PSort2 POrder POrder2.
Import ListNotations.
Open Scope Z_scope.

(** ** C75 *)
(** The list object [t] after a sort of a list with the items [xs] in [n] groups has raised: the counts are those of before,
    reading forwards shows items of the first half only, beginning with the first one, reading backwards items of the second half
    only, beginning with the last one, and there is no way to read the groups. *)
Definition torn {A} (xs : list A) (n : Z) (t : glist A) : Prop :=
  let k := Nat.div2 (S (length xs)) in
  g_cnt t = zlen xs /\ group_count t = n /\ to_nested_lists t = Err GroupViewErr /\
  exists front back r1 r2, g_iter t = Ok front /\ g_reversed t = Ok (rev back) /\ front <> [] /\ back <> [] /\
    hd_error front = hd_error xs /\ hd_error (rev back) = hd_error (rev xs) /\
    Permutation (front ++ r1) (firstn k xs) /\ Permutation (back ++ r2) (skipn k xs).
(** Reading a torn list shows less than it should. *)
Lemma torn_less : forall A (xs : list A) n t, torn xs n t -> (2 <= length xs)%nat ->
  exists front back, g_iter t = Ok front /\ g_reversed t = Ok (rev back) /\ zlen front < g_cnt t /\ zlen back < g_cnt t.
Proof.
  intros A xs n t (C & _ & _ & front & back & r1 & r2 & E1 & E2 & N1 & N2 & _ & _ & P1 & P2) H. exists front, back. split; auto. split; auto. rewrite C.
  destruct xs as [|x [|y xs]]; cbn [length] in H; [lia|lia|]. destruct (half_bounds x y xs) as (H1 & H2).
  apply Permutation_length in P1. apply Permutation_length in P2. rewrite app_length, firstn_length in P1. rewrite app_length, skipn_length in P2. unfold zlen. lia.
Qed.

Section Base.
Context {A : Type}.
Variable le : A -> A -> res bool.
Variable leb : A -> A -> bool.
Hypothesis agree : forall x y b, le x y = Ok b -> leb x y = b.
Lemma sort_x_state : forall (s : glist A) h O, state s h O ->
  (exists t, sort_x le s = (t, Ok tt) /\ sort leb s = Ok t) \/
  (exists t q, sort_x le s = (t, Err q) /\ (exists x y, In x (concat (values h)) /\ In y (concat (values h)) /\ le x y = Err q) /\
     (2 <= length (concat (values h)))%nat /\ torn (concat (values h)) (zlen h) t /\
     forall a x, In (a, x) (concat h) -> view_iter (Some a) t = Err GroupViewErr).
Proof.
  intros s h O S. destruct (sort_x_rep le leb agree s _ _ (st_rep _ _ _ S)) as [H|(t & q & front & back & r1 & r2 & E & C & H2 & I1 & I2 & N1 & N2 & F1 & F2 & P1 & P2 & C1 & C2 & G & V)]; [left; exact H|right].
  exists t, q. split; auto. split; auto. split; auto. destruct (state_cnt _ _ _ S) as (K1 & K2). split.
  - split; [rewrite C1, K1; unfold zlen; f_equal; rewrite values_items; now rewrite map_length|]. split; [unfold group_count; now rewrite C2, K2|].
    split; auto. exists front, back, r1, r2. repeat split; auto.
  - intros a x Hi. assert (Ha : In a (concat (serials h))) by (rewrite serials_items; apply in_map_iff; exists (a, x); auto).
    now apply V.
Qed.
End Base.

(** If no comparison of two items raises, the list is sorted as in C30. *)
Theorem C75_sort : forall A (eqb leb0 leb : A -> A -> bool) le os s h, holds eqb leb0 os s h -> (forall x y b, le x y = Ok b -> leb x y = b) ->
  (forall x y, In x (concat (values h)) -> In y (concat (values h)) -> exists b, le x y = Ok b) ->
  exists t, sort_x le s = (t, Ok tt) /\ sort leb s = Ok t.
Proof.
  intros A eqb leb0 leb le os s h H Ha Hi. destruct (holds_state _ _ _ _ _ _ H) as (O & S & _).
  destruct (sort_x_state le leb Ha s h O S) as [X|(t & q & _ & (x & y & Hx & Hy & E) & _)]; [exact X|]. destruct (Hi x y Hx Hy) as (b & Eb). congruence.
Qed.
(** A sort raises what a comparison of two items raises, and tears the list; the views of the groups are lost. *)
Theorem C75_torn : forall A (eqb leb0 : A -> A -> bool) le os s h t q, holds eqb leb0 os s h -> sort_x le s = (t, Err q) ->
  (exists x y, In x (concat (values h)) /\ In y (concat (values h)) /\ le x y = Err q) /\
  torn (concat (values h)) (zlen h) t /\ (2 <= length (concat (values h)))%nat /\
  (exists front back, g_iter t = Ok front /\ g_reversed t = Ok (rev back) /\ zlen front < g_cnt t /\ zlen back < g_cnt t) /\
  forall a x, In (a, x) (concat h) -> view_iter (Some a) t = Err GroupViewErr.
Proof.
  intros A eqb leb0 le os s h t q H E. destruct (holds_state _ _ _ _ _ _ H) as (O & S & _).
  assert (Ha : forall x y b, le x y = Ok b -> totalized le x y = b) by (intros x y b Eb; unfold totalized; now rewrite Eb).
  destruct (sort_x_state le _ Ha s h O S) as [(u & E' & _)|(u & q' & E' & C & H2 & T & V)]; rewrite E in E'; [discriminate|]. inv E'.
  split; auto. split; auto. split; auto. split; [eapply torn_less; eauto|exact V].
Qed.
(** Items of several kinds, comparable only with items of their own kind. *)
Definition by_kinds {A K} (kind : A -> K) (le : A -> A -> res bool) (q : exn) : Prop :=
  forall x y, (kind x = kind y -> exists b, le x y = Ok b) /\ (kind x <> kind y -> le x y = Err q).
Theorem C75_kinds : forall A K (kind : A -> K) (eqb leb0 : A -> A -> bool) le q os s h, (forall k k' : K, {k = k'} + {k <> k'}) -> by_kinds kind le q -> holds eqb leb0 os s h ->
  ((exists x y, In x (concat (values h)) /\ In y (concat (values h)) /\ kind x <> kind y) <-> exists t, sort_x le s = (t, Err q)) /\
  ((forall x y, In x (concat (values h)) -> In y (concat (values h)) -> kind x = kind y) <-> exists t, sort_x le s = (t, Ok tt)).
Proof.
  intros A K kind eqb leb0 le q os s h dec Hk H. destruct (holds_state _ _ _ _ _ _ H) as (O & S & _).
  assert (Ha : forall x y b, le x y = Ok b -> totalized le x y = b) by (intros x y b Eb; unfold totalized; now rewrite Eb).
  assert (Hkk : forall x y b, le x y = Ok b -> kind x = kind y).
  { intros x y b E. destruct (dec (kind x) (kind y)) as [Y|N]; auto. apply Hk in N. congruence. }
  destruct (sort_x_state le _ Ha s h O S) as [(t & E & _)|(t & q' & E & (x & y & Hx & Hy & C) & _)]; rewrite E.
  - pose proof (sort_x_kinds le _ Ha K kind Hkk s _ _ t (st_rep _ _ _ S) E) as Hs. split; split.
    + intros (x & y & Hx & Hy & N). exfalso. apply N. now apply Hs.
    + intros (u & X). congruence.
    + eauto.
    + intros _. exact Hs.
  - assert (N : kind x <> kind y). { intros Ek. apply (proj1 (Hk x y)) in Ek. destruct Ek. congruence. }
    assert (q' = q) by (apply Hk in N; congruence). subst q'. split; split.
    + eauto.
    + intros _. exists x, y. auto.
    + intros Hs. exfalso. apply N. auto.
    + intros (u & X). congruence.
Qed.
(** Pairs of a kind and a number; only numbers of one kind can be compared. *)
Definition kn_le (x y : nat * Z) : res bool := if Nat.eqb (fst x) (fst y) then Ok (snd x <=? snd y) else Err TypeErr.
Definition keqb (x y : nat * Z) : bool := Nat.eqb (fst x) (fst y) && (snd x =? snd y).
Example C75_ex : by_kinds fst kn_le TypeErr /\
  (let run os := snd (h_run keqb (fun _ _ => true) os g_new) in
   let s := run [OAppendGroup [(1%nat, 3); (1%nat, 2)]; OAppendGroup [(1%nat, 1)]] in
   let u := run [OAppendGroup [(1%nat, 3); (1%nat, 2); (1%nat, 5)]; OAppendGroup [(1%nat, 1); (2%nat, 4)]] in
   (exists h, holds keqb (fun _ _ => true) [OAppendGroup [(1%nat, 3); (1%nat, 2); (1%nat, 5)]; OAppendGroup [(1%nat, 1); (2%nat, 4)]] u h) /\
   (let t := sort_x kn_le s in (to_nested_lists (fst t), snd t) = (Ok [[(1%nat, 1); (1%nat, 2); (1%nat, 3)]], Ok tt)) /\
   (let t := sort_x kn_le u in
    (snd t, g_iter (fst t), g_reversed (fst t), g_cnt (fst t), group_count (fst t), to_nested_lists (fst t)) =
    (Err TypeErr, Ok [(1%nat, 3); (1%nat, 5)], Ok [(2%nat, 4)], 5, 2, Err GroupViewErr))).
Proof.
  split.
  - intros (i & x) (j & y). unfold kn_le. cbn [fst snd]. split; [intros ->; rewrite Nat.eqb_refl; eauto|]. intros N. apply Nat.eqb_neq in N. now rewrite N.
  - split; [|split; vm_compute; reflexivity]. eexists. eexists. split; vm_compute; reflexivity.
Qed.
(** ** Lists of ranges *)
Lemma range_le_agree : forall e x y b, range_le e x y = Ok b -> rleb e x y = b.
Proof.
  assert (V : forall e v w b, verse_le e v w = Ok b -> vkind e v = vkind e w /\ vleb e v w = b).
  { intros e v w b E. assert (K : vkind e v = vkind e w).
    { assert (D : {vkind e v = vkind e w} + {vkind e v <> vkind e w}) by (repeat decide equality). destruct D as [|N]; auto.
      destruct (vcmp_err e v w N) as (_ & E' & _). congruence. }
    split; auto. destruct (vcmp_ok e v w K) as (_ & E' & _). congruence. }
  intros e x y b. unfold range_le, range_cmp. destruct (verse_eqb (rstart x) (rstart y)) eqn:Es; intros E.
  - apply verse_eqb_eq in Es. destruct (V _ _ _ _ E) as (K & <-). apply bool_iff_eq. unfold rleb, rltb, vleb.
    destruct (verse_eqb (rstart y) (rstart x)) eqn:Ey; [|rewrite Es, verse_eqb_refl in Ey; discriminate].
    reflexivity.
  - destruct (V _ _ _ _ E) as (K & <-). unfold rleb, rltb, vleb. rewrite verse_eqb_sym, Es. reflexivity.
Qed.
Lemma kind_dec : forall k k' : option book, {k = k'} + {k <> k'}.
Proof. repeat decide equality. Qed.
Lemma range_le_kind : forall e x y b, range_le e x y = Ok b -> vkind e (rstart x) = vkind e (rstart y).
Proof.
  intros e x y b. unfold range_le, range_cmp. destruct (verse_eqb (rstart x) (rstart y)) eqn:Es; intros E; [apply verse_eqb_eq in Es; congruence|].
  destruct (kind_dec (vkind e (rstart x)) (vkind e (rstart y))) as [|N]; auto. destruct (vcmp_err e _ _ N) as (_ & E' & _). congruence.
Qed.
Lemma all_kind : forall e l, comparable_all e l -> exists k, Forall (of_kind e k) l.
Proof. intros e [|r l] H; [exists None; constructor|]. now apply comparable_all_kind in H. Qed.
Lemma kind_all : forall e k l, Forall (of_kind e k) l -> comparable_all e l.
Proof. intros e k [|r l] H; [left; constructor|]. apply comparable_all_kind; [discriminate|eauto]. Qed.
Lemma sound_all : forall e l, Forall (sound e) l -> (forall x y, In x l -> In y l -> vkind e (rstart x) = vkind e (rstart y)) -> comparable_all e l.
Proof.
  intros e [|r l] Hs H; [left; constructor|]. apply (kind_all e (vkind e (rstart r))). apply Forall_forall. intros x Hx.
  pose proof (proj1 (Forall_forall _ _) Hs x Hx) as Hx2. apply sound_kind in Hx2. destruct Hx2 as (k & K1 & K2).
  pose proof (H x r Hx (or_introl eq_refl)). split; congruence.
Qed.

Lemma sort_same_x : forall e k (s : heap) h O, state s h O -> Forall (of_kind e k) (concat (values h)) -> sort_x (range_le e) s = call (sort (rleb e)) s.
Proof.
  intros e k s h O S H. destruct (sort_x_state (range_le e) (rleb e) (range_le_agree e) s h O S) as [(t & E & E')|(t & q & _ & (x & y & Hx & Hy & E) & _)].
  - unfold call. now rewrite E, E'.
  - rewrite Forall_forall in H. pose proof (H x Hx). pose proof (H y Hy). destruct (range_cmp_ok e k x y) as (_ & E' & _); auto. congruence.
Qed.
Lemma merge_loop_x : forall e k fl l2 n (s : heap) h O l1 a x, state s h O -> concat h = l1 ++ (a, x) :: l2 -> Forall (of_kind e k) (x :: map snd l2) ->
  x_merge_loop e fl n (Some a) s = n_merge_loop e fl n (Some a) s.
Proof.
  intros e k fl. induction l2 as [|(b & y) l2 IH]; intros n s h O l1 a x H E Hk.
  - pose proof (flat_next s h O _ _ _ _ H E) as En. cbn in En. destruct n; cbn; rewrite En; auto.
  - pose proof (flat_next s h O _ _ _ _ H E) as En. cbn in En. destruct n as [|n]; [cbn; now rewrite En|].
    pose proof (flat_value s h O _ _ _ _ H E) as Ea.
    assert (E2 : concat h = (l1 ++ [(a, x)]) ++ (b, y) :: l2) by (rewrite <- app_assoc; exact E).
    pose proof (flat_value s h O _ _ _ _ H E2) as Eb.
    cbn [n_merge_loop x_merge_loop]. rewrite En. unfold let_run. rewrite Ea, Eb.
    cbn [map snd] in Hk. pose proof (Forall_inv Hk) as Kx. pose proof (Forall_inv_tail Hk) as Hk'. pose proof (Forall_inv Hk') as Ky.
    rewrite (union_ok e k x y Kx Ky). destruct (union e x y fl) as [u|ex] eqn:Eu; auto.
    assert (Keep : x_merge_loop e fl n (Some b) s = n_merge_loop e fl n (Some b) s) by (eapply IH; [exact H|exact E2|exact Hk']).
    destruct u as [|m [|m2 u]]; auto. clear Keep. pose proof (Forall_inv (union_kind e k x y Kx Ky fl _ Eu)) as Km.
    destruct (flat_set s h O _ _ _ _ m H E) as (h1 & S1 & C1).
    pose proof (flat_pop_after _ _ _ _ _ _ _ _ _ S1 C1) as P.
    assert (C1' : concat h1 = (l1 ++ [(a, m)]) ++ (b, y) :: l2) by (rewrite <- app_assoc; exact C1).
    assert (N : nth_error (concat h1) (length (l1 ++ [(a, m)])) = Some (b, y)) by (rewrite C1'; apply nth_mid).
    destruct (pop_state _ h1 O _ _ _ S1 N) as (u & Eq & S2 & _).
    assert (C2 : concat (s_delete (length (l1 ++ [(a, m)])) h1) = l1 ++ (a, m) :: l2).
    { rewrite delete_items; [|rewrite C1', !app_length; cbn; lia]. rewrite C1'. destruct (first_skip (l1 ++ [(a, m)]) (b, y) l2) as (-> & -> & _). now rewrite <- app_assoc. }
    unfold call. rewrite P, Eq. cbn [bind snd seq_run]. eapply IH; [exact S2|exact C2|].
    constructor; auto. now apply Forall_inv_tail in Hk'.
Qed.
Lemma sort_perm : forall A (leb : A -> A -> bool) l, Permutation (sort_items leb l) l.
Proof.
  intros A leb l. unfold sort_items. generalize (le_n (length l)). generalize (length l) at 2 3 as n. intros n. revert l. induction n as [|n IH]; intros l Hn.
  - destruct l; [apply Permutation_refl|cbn in Hn; lia].
  - destruct l as [|a [|b l]]; [apply Permutation_refl..|]. set (L := a :: b :: l) in *. set (k := Nat.div2 (S (length L))).
    change (merge_sort leb (S n) L) with (merge_lists leb (merge_sort leb n (firstn k L)) (merge_sort leb n (skipn k L))).
    pose proof (half_bounds a b l) as Hk. fold L in Hk. fold k in Hk. cbn zeta in Hk.
    eapply perm_trans; [apply merge_perm|]. eapply perm_trans; [apply Permutation_app; apply IH; [rewrite firstn_length|rewrite skipn_length]; lia|].
    now rewrite firstn_skipn.
Qed.
Lemma merge_x_same : forall e k fl (s : heap) h O, state s h O -> Forall (of_kind e k) (concat (values h)) -> x_merge e fl s = n_merge e fl s.
Proof.
  intros e k fl s h O S H. unfold x_merge, n_merge, x_sort, n_sort. rewrite (sort_same_x e k s h O S H). unfold call.
  destruct (sort_state (rleb e) s h O S) as (t & Et & S'). rewrite Et. cbn [seq_run]. f_equal.
  rewrite (flat_first t _ O S'), concat_one_group.
  assert (P : Forall (of_kind e k) (map snd (sort_items (fun a b => rleb e (snd a) (snd b)) (concat h)))).
  { rewrite sort_values. rewrite values_items in H. eapply Permutation_Forall; [|exact H]. apply Permutation_sym, sort_perm. }
  destruct (sort_items (fun a b => rleb e (snd a) (snd b)) (concat h)) as [|(a & x) l] eqn:El.
  - cbn [map entry]. destruct (fresh t); reflexivity.
  - cbn [map fst snd entry] in *. eapply (merge_loop_x e k fl l _ t _ O [] a x); [exact S'| |exact P]. cbn. now rewrite app_nil_r.
Qed.
Lemma torn_x : forall e (s : heap) h O, state s h O -> Forall (sound e) (concat (values h)) -> ~ comparable_all e (concat (values h)) ->
  exists t, sort_x (range_le e) s = (t, Err TypeErr) /\ torn (concat (values h)) (zlen h) t.
Proof.
  intros e s h O S Hs N. destruct (sort_x_state (range_le e) (rleb e) (range_le_agree e) s h O S) as [(t & E & E')|(t & q & E & (x & y & Hx & Hy & C) & _ & T & _)].
  - exfalso. apply N. apply sound_all; auto. apply (sort_x_kinds _ _ (range_le_agree e) _ (fun r => vkind e (rstart r)) (range_le_kind e) s _ _ t (st_rep _ _ _ S) E).
  - exists t. rewrite E. split; auto. repeat f_equal. revert C. unfold range_le, range_cmp.
    assert (Q : forall v w, verse_le e v w = Err q -> q = TypeErr).
    { intros v w X. destruct (kind_dec (vkind e v) (vkind e w)) as [K|K]; [destruct (vcmp_ok e v w K) as (_ & Y & _)|destruct (vcmp_err e v w K) as (_ & Y & _)]; congruence. }
    destruct (verse_eqb (rstart x) (rstart y)); apply Q.
Qed.

(** Ranges that can all be compared: [sort] and [merge] do what C33, C59 and C60 say. *)
Theorem C75_ranges : forall eqb leb0 e os s h re fl, holds eqb leb0 os s h -> comparable_all e (concat (values h)) ->
  x_sort e re s = n_sort e re s /\ x_merge e fl s = n_merge e fl s.
Proof.
  intros eqb leb0 e os s h re fl H C. destruct (holds_state _ _ _ _ _ _ H) as (O & S & _). destruct (all_kind _ _ C) as (k & K). split.
  - unfold x_sort, n_sort. now rewrite (sort_same_x e k s h O S K).
  - exact (merge_x_same e k fl s h O S K).
Qed.
(** Ranges that cannot all be compared: [sort] and [merge] raise [TypeError] and tear the list. *)
Theorem C75_ranges_torn : forall eqb leb0 e os s h, holds eqb leb0 os s h -> Forall (sound e) (concat (values h)) -> ~ comparable_all e (concat (values h)) ->
  exists t, torn (concat (values h)) (zlen h) t /\ (forall re, x_sort e re s = (t, Err TypeErr)) /\ forall fl, x_merge e fl s = (t, Err TypeErr).
Proof.
  intros eqb leb0 e os s h H Hs N. destruct (holds_state _ _ _ _ _ _ H) as (O & S & _). destruct (torn_x e s h O S Hs N) as (t & E & T). exists t.
  unfold x_merge, x_sort. rewrite E. cbn. auto.
Qed.
(** [union_update] with other ranges [ys]. *)
Theorem C75_union_update : forall eqb leb0 e os s h x ys fl, holds eqb leb0 os s h -> ref_ranges e x = Ok ys ->
  let xs := concat (values h) ++ ys in
  (comparable_all e xs -> x_union_update e x fl s = n_union_update e x fl s) /\
  (Forall (sound e) xs -> ~ comparable_all e xs -> exists n t, x_union_update e x fl s = (t, Err TypeErr) /\ torn xs n t).
Proof.
  intros eqb leb0 e os s h x ys fl H E. cbn zeta. destruct (holds_state _ _ _ _ _ _ H) as (O & S & _). unfold x_union_update, n_union_update, let_run. rewrite E.
  destruct (extend_values ys s h O S) as (t & h' & Et & S' & V). unfold call. rewrite Et. cbn [seq_run].
  assert (I : concat (values h) ++ ys = concat (values h')). { rewrite V. symmetry. exact (items_extend ys (values h)). } rewrite I. split.
  - intros C. destruct (all_kind _ _ C) as (k & K). exact (merge_x_same e k fl t h' O S' K).
  - intros Hs N. destruct (torn_x e t h' O S' Hs N) as (u & Eu & T). exists (zlen h'), u. unfold x_merge, x_sort. rewrite Eu. auto.
Qed.

(** In the Bible of [tiny_data] the order has Genesis and Psalms only. *)
Definition rg (b : book) (c v c' v' : Z) : range := R (V b c v) (V b c' v').
Definition mixed : list (op range) := [OAppendGroup [rg Psa 1 1 1 2; rg Gen 1 1 1 2]; OAppendGroup [rg Exod 1 1 1 2; rg Gen 2 1 2 2]].
Definition tame : list (op range) := [OAppendGroup [rg Psa 1 1 1 2; rg Gen 1 1 1 2]; OAppendGroup [rg Gen 2 1 2 2]].
Example C75_ranges_ex : let e := tenv MULTIBOOK in
  exists s h u k, holds range_eqb (rleb e) mixed s h /\ holds range_eqb (rleb e) tame u k /\
  Forall (sound e) (concat (values h)) /\ ~ comparable_all e (concat (values h)) /\ comparable_all e (concat (values k)) /\
  (let t := x_sort e false s in (snd t, g_iter (fst t), g_reversed (fst t), g_cnt (fst t)) = (Err TypeErr, Ok [rg Psa 1 1 1 2], Ok [rg Gen 2 1 2 2], 4)) /\
  (let t := x_merge e None u in (snd t, to_nested_lists (fst t)) = (Ok tt, Ok [[rg Gen 1 1 2 2]; [rg Psa 1 1 1 2]])) /\
  (let t := x_union_update e (BR (rg Exod 1 1 1 2)) None u in (snd t, g_iter (fst t), g_cnt (fst t)) = (Err TypeErr, Ok [rg Psa 1 1 1 2], 4)).
Proof.
  cbn zeta. exists (snd (h_run range_eqb (rleb (tenv MULTIBOOK)) mixed g_new)). eexists. exists (snd (h_run range_eqb (rleb (tenv MULTIBOOK)) tame g_new)). eexists.
  split; [eexists; split; vm_compute; reflexivity|]. split; [eexists; split; vm_compute; reflexivity|].
  match goal with |- Forall _ ?l /\ _ => let l' := eval vm_compute in l in change l with l' end.
  split; [|split; [|split; [|split; [|split]; vm_compute; reflexivity]]].
  - apply Forall_forall. intros x Hx. right. exists (vbook (rstart x)). unfold range_books.
    repeat (destruct Hx as [<-|Hx]; [apply Forall_cons; [reflexivity|apply Forall_cons; [reflexivity|apply Forall_nil]]|]). destruct Hx.
  - intros [H|(b & H)].
    + rewrite Forall_forall in H. destruct (H Exod) as (i & Hi); [vm_compute; tauto|]. vm_compute in Hi. discriminate.
    + rewrite Forall_forall in H. assert (b = Exod) by (apply H; vm_compute; tauto). assert (b = Gen) by (apply H; vm_compute; tauto). congruence.
  - left. match goal with |- Forall _ ?l => let l' := eval vm_compute in l in change l with l' end.
    repeat (apply Forall_cons; [eexists; vm_compute; reflexivity|]). apply Forall_nil.
Qed.
(** A sort that raises leaves the list as it was. *)
Definition C75_statement : Prop := forall eqb leb0 e os s h t re q, holds eqb leb0 os s h -> Forall (sound e) (concat (values h)) -> x_sort e re s = (t, Err q) -> g_iter t = g_iter s.
Theorem C75_refuted : exists eqb leb0 e os s h t, wf_data (ed e) /\ holds eqb leb0 os s h /\ Forall (sound e) (concat (values h)) /\ x_sort e false s = (t, Err TypeErr) /\
  g_iter s = Ok [rg Psa 1 1 1 2; rg Gen 1 1 1 2; rg Exod 1 1 1 2; rg Gen 2 1 2 2] /\ g_iter t = Ok [rg Psa 1 1 1 2] /\ g_cnt t = 4.
Proof.
  destruct C75_ranges_ex as (s & h & _ & _ & H & _ & Hs & _ & _ & E & _ & _).
  exists range_eqb, (rleb (tenv MULTIBOOK)), (tenv MULTIBOOK), mixed, s, h, (fst (x_sort (tenv MULTIBOOK) false s)). split; [exact tiny_wf|]. split; auto. split; auto.
  cbn zeta in E. injection E as E1 E2 _ E4. split; [rewrite <- E1; apply surjective_pairing|]. split; [|auto].
  destruct H as (outs & _ & R). assert (X : snd (h_run range_eqb (rleb (tenv MULTIBOOK)) mixed g_new) = s) by now rewrite R. rewrite <- X. vm_compute. reflexivity.
Qed.

(** ** C76 *)
(** Every range that the constructor makes has comparable ends. *)
Theorem C76_sound : forall e s t fl r, new_range e s t fl = Ok r -> sound e r.
Proof.
  intros e s t fl r E. apply sound_kind. unfold new_range in E. destruct (_ && _); [discriminate|].
  destruct (kind_dec (vkind e s) (vkind e t)) as [K|K]; [|destruct (vcmp_err e s t K) as (_ & _ & X & _); rewrite X in E; discriminate].
  exists (vkind e s). destruct (verse_gt e s t) as [c|]; [|discriminate]. cbn in E. injection E as <-. destruct c; split; cbn; congruence.
Qed.
Theorem C76_exact : forall e a b fl, comparable2 e a b ->
  range_lt e a b = Ok (rltb e a b) /\ range_le e a b = Ok (rleb e a b) /\ range_gt e a b = Ok (rltb e b a) /\ range_ge e a b = Ok (rleb e b a) /\
  x_is_disjoint e a b = Ok (is_disjoint e a b) /\ x_is_adjacent e a b fl = is_adjacent e a b fl /\ x_contains e a b = Ok (contains e a b) /\
  x_surrounds e a b = Ok (surrounds e a b) /\ x_union e a b fl = union e a b fl /\ x_intersection e a b fl = intersection e a b fl /\
  x_difference e a b fl = difference e a b fl /\ x_sym_difference e a b fl = sym_difference e a b fl.
Proof.
  intros e a b fl C. apply comparable2_kind in C. destruct C as (k & Ka & Kb). destruct (range_cmp_ok e k a b Ka Kb) as (-> & -> & -> & ->).
  rewrite (disjoint_ok e k a b Ka Kb), (adjacent_ok e k a b Ka Kb), (contains_ok e k a b Ka Kb), (surrounds_ok e k a b Ka Kb), (union_ok e k a b Ka Kb),
    (intersection_ok e k a b Ka Kb), (difference_ok e k a b fl Ka Kb), (sym_difference_ok e k a b fl Ka Kb). repeat (split; [reflexivity|]). reflexivity.
Qed.
Theorem C76_raises : forall e a b fl, sound e a -> sound e b -> ~ comparable2 e a b ->
  range_lt e a b = Err TypeErr /\ range_le e a b = Err TypeErr /\ range_gt e a b = Err TypeErr /\ range_ge e a b = Err TypeErr /\
  x_is_disjoint e a b = Err TypeErr /\ x_is_adjacent e a b fl = Err TypeErr /\ x_contains e a b = Err TypeErr /\ x_surrounds e a b = Err TypeErr /\
  x_union e a b fl = Err TypeErr /\ x_intersection e a b fl = Err TypeErr /\ x_difference e a b fl = Err TypeErr /\ x_sym_difference e a b fl = Err TypeErr.
Proof.
  intros e a b fl Ha Hb N. apply not_comparable in N; auto. destruct (range_cmp_err e a b N) as (-> & -> & -> & ->).
  destruct (ops_err e a b N fl) as (-> & -> & -> & -> & -> & -> & -> & ->). repeat (split; [reflexivity|]). reflexivity.
Qed.
Theorem C76_iter : forall e r n, order_ok (ed e) -> sound e r -> x_iter_range e n r = iter_range e n r.
Proof. intros e r n Ho. apply iter_ok. intros b i E. exists i. now apply Ho. Qed.
(** Verses of a book outside the order: there is no next and no previous book; everything is as in a Bible of which it is the only book. *)
Theorem C76_alone : forall e b, order (ed e) b = None ->
  next_book e b = Ok None /\ prev_book e b = Ok None /\
  (forall v n fl, vbook v = b -> add e v n fl = add (alone e b) v n fl /\ subtract e v n fl = subtract (alone e b) v n fl) /\
  (forall s t fl, vbook s = b -> vbook t = b -> new_range e s t fl = new_range (alone e b) s t fl) /\
  (forall p q fl, within b p -> within b q ->
     rltb e p q = rltb (alone e b) p q /\ is_disjoint e p q = is_disjoint (alone e b) p q /\ is_adjacent e p q fl = is_adjacent (alone e b) p q fl /\
     contains e p q = contains (alone e b) p q /\ surrounds e p q = surrounds (alone e b) p q /\
     union e p q fl = union (alone e b) p q fl /\ intersection e p q fl = intersection (alone e b) p q fl /\
     difference e p q fl = difference (alone e b) p q fl /\ sym_difference e p q fl = sym_difference (alone e b) p q fl) /\
  (forall r n, within b r -> iter_range e n r = iter_range (alone e b) n r) /\
  (forall r n bb bc num fl, within b r -> split_items e n r bb bc num fl = split_items (alone e b) n r bb bc num fl).
Proof.
  intros e b H. assert (Q : forall fl, quiet e b fl) by (intros fl; now left). split; [now apply next_e|]. split; [now apply prev_e|].
  split; [intros v n fl Hv; split; [now apply add_same|now apply subtract_same]|].
  split; [intros; now apply new_same|].
  split; [intros p q fl Hp Hq|].
  - split; [exact (proj1 (rlt_same e b p q Hp Hq))|]. split; [now apply disjoint_same|]. split; [now apply adjacent_same|]. split; [now apply contains_same|].
    split; [now apply surrounds_same|]. split; [now apply union_same|]. split; [now apply intersection_same|]. split; [now apply difference_same|now apply sym_difference_same].
  - split; [intros; now apply iter_same|]. intros. now apply split_same.
Qed.
Example C76_ex : let e := tenv NONE in
  order (ed e) Exod = None /\ sound e (rg Exod 1 1 2 2) /\ sound e (rg Gen 1 1 2 3) /\ ~ comparable2 e (rg Exod 1 1 2 2) (rg Gen 1 1 2 3) /\ comparable2 e (rg Exod 1 1 2 2) (rg Exod 1 2 2 1) /\
  x_union e (rg Exod 1 1 2 2) (rg Gen 1 1 2 3) None = Err TypeErr /\
  x_difference e (rg Exod 1 1 2 2) (rg Exod 1 2 2 1) None = Ok [rg Exod 1 1 1 1; rg Exod 2 2 2 2] /\
  x_iter_range e 9 (rg Exod 1 2 2 2) = Ok [V Exod 1 2; V Exod 2 1; V Exod 2 2] /\
  split_items e 9 (rg Exod 1 2 2 2) false true None None = Ok [rg Exod 1 2 1 2; rg Exod 2 1 2 2] /\
  new_range e (V Exod 2 1) (V Exod 1 1) None = Ok (rg Exod 1 1 2 1) /\ new_range e (V Exod 2 1) (V Gen 1 1) (Some MULTIBOOK) = Err TypeErr /\
  wf_data (ed (alone e Exod)).
Proof.
  cbn zeta. assert (S : forall b c v c' v', sound (tenv NONE) (rg b c v c' v')).
  { intros. right. exists b. unfold range_books. cbn. apply Forall_cons; [reflexivity|apply Forall_cons; [reflexivity|apply Forall_nil]]. }
  split; [reflexivity|]. split; [apply S|]. split; [apply S|].
  split; [|split; [right; exists Exod; unfold range_books; cbn; repeat (apply Forall_cons; [reflexivity|]); apply Forall_nil|]].
  - intros [H|(b & H)]; rewrite Forall_forall in H.
    + destruct (H Exod) as (i & Hi); [vm_compute; tauto|]. vm_compute in Hi. discriminate.
    + assert (b = Exod) by (apply H; vm_compute; tauto). assert (b = Gen) by (apply H; vm_compute; tauto). congruence.
  - repeat (split; [vm_compute; reflexivity|]). split.
    + intros b i. cbn [alone ed order book_order]. destruct (book_eqb b Exod) eqn:E.
      * apply book_eqb_eq in E. subst b. split; [intros H; injection H as <-; reflexivity|]. destruct i as [|[|i]]; cbn; congruence.
      * split; [discriminate|]. destruct i as [|[|i]]; cbn; [|discriminate..]. intros H. injection H as <-. now rewrite book_eqb_refl in E.
    + intros b [<-|[]]. exists [2; 2]. split; [reflexivity|]. split; [discriminate|]. repeat constructor; lia.
Qed.
