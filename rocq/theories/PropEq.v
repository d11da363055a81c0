(** * PropEq: equality between objects of any class (C96), indexes of any class (C97). *)
From Coq Require Import List Ascii ZArith Bool Arith Lia.
From Verif Require Import Base Books Data DefaultData MVerse MRange Spec PList PCore PDefault MSeq MList MGroup SpecGroup PGroup PropGroup MNode MNew SpecNew PNew2 PropVerse MEq.
Import ListNotations.
Import Spec.
Open Scope Z_scope.
Open Scope list_scope.

(** ** C96 *)
Definition items_eq : list pyval -> list pyval -> res bool :=
  fix items_eq (l m : list pyval) : res bool :=
    match l, m with
    | x :: l', y :: m' => q <- py_eq x y ;; if q : bool then items_eq l' m' else Ok false
    | _, _ => Ok true
    end.
Lemma py_eq_seq : forall l m, py_eq (VSeq l) (VSeq m) = if (length l =? length m)%nat then items_eq l m else Ok false.
Proof. reflexivity. Qed.
Lemma pyval_lists : forall P : pyval -> Prop,
  (forall a, (forall l, a <> VSeq l) -> P a) -> (forall l, Forall P l -> P (VSeq l)) -> forall a, P a.
Proof.
  intros P H1 H2. fix IH 1. intros a. destruct a as [|n|s|b|v|r|l|l|l|]; try (apply H1; discriminate).
  apply H2. induction l as [|x l IHl]; constructor; auto.
Qed.
Lemma sym_bool : forall {A} (f : A -> A -> bool), (forall x y, f x y = true <-> x = y) -> forall x y, f x y = f y x.
Proof.
  intros A f H x y. destruct (f x y) eqn:E1, (f y x) eqn:E2; auto.
  - pose proof E1 as E. apply H in E. subst. congruence.
  - pose proof E2 as E. apply H in E. subst. congruence.
Qed.

(** Equal objects are those of the same class and contents. *)
Theorem C96_equal : forall a b, plain_value a -> plain_value b -> (py_eq a b = Ok true <-> a = b).
Proof.
  induction a as [a Ha|l IH] using pyval_lists; intros b Pa Pb.
  - destruct a as [|m|s|k|v|r|l|l|l|], b as [|m'|s'|k'|v'|r'|l'|l'|l'|]; cbn [py_eq list_eq_other has_len];
      try (split; intros E; discriminate E).
    + split; auto.
    + pose proof (Z.eqb_eq m m') as X. destruct (m =? m'); split; intros E; try discriminate E; [f_equal; now apply X|auto|].
      inversion E. apply X in H0. discriminate.
    + pose proof (same_by_spec _ Ascii.eqb_eq s s') as X. destruct (same_by Ascii.eqb s s'); split; intros E; try discriminate E; [f_equal; now apply X|auto|].
      inversion E. apply X in H0. discriminate.
    + pose proof (book_eqb_eq k k') as X. destruct (book_eqb k k'); split; intros E; try discriminate E; [f_equal; now apply X|auto|].
      inversion E. apply X in H0. discriminate.
    + pose proof (verse_eqb_eq v v') as X. destruct (verse_eqb v v'); split; intros E; try discriminate E; [f_equal; now apply X|auto|].
      inversion E. apply X in H0. discriminate.
    + pose proof (range_eqb_iff r r') as X. destruct (range_eqb r r'); split; intros E; try discriminate E; [f_equal; now apply X|auto|].
      inversion E. apply X in H0. discriminate.
    + pose proof (same_by_spec _ (same_by_spec _ range_eqb_iff) l l') as X. destruct (same_by (same_by range_eqb) l l'); split; intros E; try discriminate E;
        [f_equal; now apply X|auto|]. inversion E. apply X in H0. discriminate.
    + now destruct (Ha l).
    + inversion Pa.
    + inversion Pa.
  - inversion Pa as [| | | | | | |? Fl]; subst. destruct b as [|m|s|k|v|r|m|m|m|]; try (split; intros E; discriminate E).
    inversion Pb as [| | | | | | |? Fm]; subst. rewrite py_eq_seq.
    assert (X : length l = length m -> (items_eq l m = Ok true <-> l = m)).
    { clear Pa Pb. revert m Fm. induction l as [|x l IHl]; intros [|y m] Fm L; try discriminate L; [split; auto|].
      inversion IH as [|? ? IHx IHr]; subst. inversion Fl; subst. inversion Fm; subst. cbn [items_eq].
      pose proof (IHx y H1 H3) as Q. injection L as L. pose proof (IHl IHr H2 m H4 L) as Q'.
      destruct (py_eq x y) as [[|]|z]; cbn [bind].
      - destruct Q as [Q _]. rewrite (Q eq_refl). rewrite Q'. split; congruence.
      - split; [discriminate|]. intros E. injection E as -> ->. destruct Q as [_ Q]. specialize (Q eq_refl). discriminate.
      - split; [discriminate|]. intros E. injection E as -> ->. destruct Q as [_ Q]. specialize (Q eq_refl). discriminate. }
    destruct (Nat.eqb_spec (length l) (length m)) as [L|L].
    + rewrite (X L). split; congruence.
    + split; [discriminate|]. intros E. injection E as ->. congruence.
Qed.
Theorem C96_symmetric : forall a b, py_eq a b = py_eq b a.
Proof.
  induction a as [a Ha|l IH] using pyval_lists; intros b.
  - destruct a as [|m|s|k|v|r|l|l|l|], b as [|m'|s'|k'|v'|r'|l'|l'|l'|]; try reflexivity; try (now destruct (Ha l)); cbn [py_eq]; f_equal.
    + apply Z.eqb_sym.
    + apply (sym_bool _ (same_by_spec _ Ascii.eqb_eq)).
    + apply (sym_bool _ book_eqb_eq).
    + apply (sym_bool _ verse_eqb_eq).
    + apply (sym_bool _ range_eqb_iff).
    + apply (sym_bool _ (same_by_spec _ (same_by_spec _ range_eqb_iff))).
  - destruct b as [|m|s|k|v|r|m|m|m|]; try reflexivity. rewrite !py_eq_seq. rewrite (Nat.eqb_sym (length m)).
    destruct (length l =? length m)%nat; auto. revert m. induction l as [|x l IHl]; intros [|y m]; try reflexivity.
    inversion IH as [|? ? IHx IHr]; subst. cbn [items_eq]. rewrite (IHx y). destruct (py_eq y x) as [[|]|]; cbn [bind]; auto.
Qed.
Theorem C96_not_equal : forall a b, py_ne a b = match py_eq a b with Ok q => Ok (negb q) | Err x => Err x end.
Proof. intros a b. unfold py_ne. now destruct (py_eq a b). Qed.
(** When it raises: a list of ranges against something without a length. *)
Inductive sizeless : pyval -> Prop :=
| sl_none : sizeless VNone
| sl_int n : sizeless (VInt n)
| sl_book b : sizeless (VBook b)
| sl_verse v : sizeless (VVerse v)
| sl_range r : sizeless (VRange r)
| sl_other : sizeless VOther.
Theorem C96_raises : forall a b, (forall l, a <> VSeq l) ->
  match py_eq a b with
  | Err x => x = TypeErr /\ ((exists l, a = VList l) /\ sizeless b \/ (exists l, b = VList l) /\ sizeless a)
  | Ok _ => ~ ((exists l, a = VList l) /\ sizeless b \/ (exists l, b = VList l) /\ sizeless a)
  end.
Proof.
  intros a b H. destruct a as [|m|s|k|v|r|l|l|l|], b as [|m'|s'|k'|v'|r'|l'|l'|l'|]; try (now destruct (H l)); cbn [py_eq list_eq_other has_len];
    try (split; [reflexivity|]; solve [left; split; [eexists; reflexivity|constructor]|right; split; [eexists; reflexivity|constructor]]);
    intros [((x & X) & Y)|((x & X) & Y)]; try discriminate X; inversion Y.
Qed.
(** Without lists of ranges it never raises. *)
Inductive without_list : pyval -> Prop :=
| wl_seq l : Forall without_list l -> without_list (VSeq l)
| wl_other a : (forall l, a <> VSeq l) -> (forall l, a <> VList l) -> without_list a.
Theorem C96_total_partial : forall a b, without_list a -> without_list b -> exists q, py_eq a b = Ok q.
Proof.
  induction a as [a Ha|l IH] using pyval_lists; intros b Wa Wb.
  - assert (Na : forall m, a <> VList m) by (inversion Wa; subst; [now destruct (Ha l)|assumption]).
    assert (Nb : forall m, b <> VList m) by (inversion Wb; subst; [discriminate|assumption]).
    pose proof (C96_raises a b Ha) as R. destruct (py_eq a b) as [q|x]; [now exists q|]. destruct R as (_ & [((m & E) & _)|((m & E) & _)]); [now destruct (Na m)|now destruct (Nb m)].
  - assert (Fl : Forall without_list l) by (inversion Wa; subst; [assumption|now destruct (H l)]).
    destruct b as [|m|s|k|v|r|m|m|m|]; try (eexists; reflexivity).
    assert (Fm : Forall without_list m) by (inversion Wb; subst; [assumption|now destruct (H m)]).
    rewrite py_eq_seq. destruct (length l =? length m)%nat; [|now exists false]. clear Wa Wb. revert m Fm.
    induction l as [|x l IHl]; intros [|y m] Fm; try (eexists; reflexivity). inversion IH; subst. inversion Fl; subst. inversion Fm; subst.
    cbn [items_eq]. destruct (H1 y H3 H5) as [[|] ->]; cbn [bind]; [apply IHl; auto|now exists false].
Qed.
Theorem C96_refuted : exists l x, plain_value (VList l) /\ plain_value x /\ VList l <> x /\ py_eq (VList l) x = Err TypeErr /\ py_eq x (VList l) = Err TypeErr.
Proof. exists [], VNone. split; [constructor|]. split; [constructor|]. split; [discriminate|]. split; reflexivity. Qed.
Example C96_ex :
  plain_value (VSeq [VVerse (V Gen 1 1); VInt 3]) /\ without_list (VVerse (V Gen 1 1)) /\
  py_eq (VSeq [VVerse (V Gen 1 1); VInt 3]) (VSeq [VVerse (V Gen 1 1); VInt 3]) = Ok true /\
  py_eq (VVerse (V Gen 1 1)) (VRange (R (V Gen 1 1) (V Gen 1 1))) = Ok false /\
  py_eq (VList [[R (V Gen 1 1) (V Gen 1 2)]]) (VList [[R (V Gen 1 1) (V Gen 1 2)]]) = Ok true /\
  py_eq (VList [[R (V Gen 1 1) (V Gen 1 2)]]) (VSeq [VRange (R (V Gen 1 1) (V Gen 1 2))]) = Ok false /\
  py_eq (VList [[R (V Gen 1 1) (V Gen 1 2)]]) (VVerse (V Gen 1 1)) = Err TypeErr /\ py_ne VNone (VBook Gen) = Ok true.
Proof. split; [repeat constructor|]. split; [apply wl_other; discriminate|]. repeat split; reflexivity. Qed.

(** ** C97 *)
Definition no_index (x : pyval) : Prop := forall i, x <> VInt i.
Lemma as_index_bad : forall x, no_index x -> as_index x = Err TypeErr.
Proof. intros x H. destruct x; try reflexivity. now destruct (H n). Qed.
(** With ints the methods are those of C28 and C29, where the places of [insert] and [insert_group_at] are proved. *)
Theorem C97_ints : forall i r s v e j,
  x_get_item (VInt i) s = get_item i s /\ x_set_item (VInt i) (VRange r) s = call (set_item i r) s /\
  x_pop (VInt i) s = pop (Some i) s /\ x_del_item (VInt i) s = del_item i s /\ x_insert (VInt i) (VRange r) s = call (insert i r) s /\
  x_insert_group_at (Some (VInt i)) s = insert_group_at i s /\ x_group_at (VInt i) s = group_at i s /\
  x_view_get v (VInt i) s = view_get v i s /\
  x_index e (VRange r) (VInt i) (VInt j) s = index range_eqb r (Some i) (Some j) s /\
  x_index e (VRange r) (VInt i) VNone s = index range_eqb r (Some i) None s /\
  x_index e (VRange r) VNone (VInt j) s = index range_eqb r None (Some j) s /\
  x_pop VNone s = pop None s /\ x_index e (VRange r) VNone VNone s = index range_eqb r None None s.
Proof.
  intros i r s v e j. repeat (split; [reflexivity|]). split; [unfold x_view_get, view_get; destruct (check_view v s); reflexivity|].
  unfold x_index. cbn [check_type bind as_index minus_one]. replace (j - 1 + 1) with j by lia. unfold index.
  split; [destruct (conform_index i s); reflexivity|]. split; [destruct (conform_index i s); reflexivity|].
  split; [destruct (conform_index 0 s); reflexivity|]. split; [reflexivity|]. destruct (conform_index 0 s); reflexivity.
Qed.
(** Ints are places in the list (C28); below -len see C28_refuted. *)
Theorem C97_places_partial : forall leb os (s : heap) h i, holds range_eqb leb os s h -> - zlen (concat (values h)) <= i ->
  match place (zlen (concat (values h))) i with
  | None => x_get_item (VInt i) s = Err IndexErr /\ x_pop (VInt i) s = Err IndexErr /\ x_del_item (VInt i) s = Err IndexErr /\
      forall r, snd (x_set_item (VInt i) (VRange r) s) = Err IndexErr
  | Some k => exists x, nth_error (concat (values h)) k = Some x /\ x_get_item (VInt i) s = Ok x /\
      (exists t, x_pop (VInt i) s = Ok (x, t) /\ x_del_item (VInt i) s = Ok t /\ shows t (s_delete k (values h))) /\
      forall r, exists t, x_set_item (VInt i) (VRange r) s = (t, Ok tt) /\ shows t (s_replace k r (values h))
  end.
Proof.
  intros leb os s h i H Hi. pose proof (C28_get_item_partial _ _ _ _ _ _ i H Hi) as G. pose proof (C28_pop_partial _ _ _ _ _ _ i H Hi) as P.
  pose proof (fun r => C28_set_item_partial _ _ _ _ _ _ i r H Hi) as S.
  unfold x_del_item, x_set_item, let_run. cbn [x_get_item x_pop as_index bind check_type]. unfold x_get_item. cbn [as_index bind]. unfold call.
  destruct (place (zlen (concat (values h))) i) as [k|].
  - destruct P as (x & t & P1 & P2 & P3). rewrite P2 in G. exists x. split; auto. split; auto. split.
    + exists t. rewrite P1. auto.
    + intros r. destruct (S r) as (u & S1 & S2). exists u. rewrite S1. auto.
  - rewrite P. split; auto. split; auto. split; auto. intros r. now rewrite S.
Qed.
Theorem C97_groups_partial : forall leb os (s : heap) h i, holds range_eqb leb os s h -> - zlen h <= i ->
  match place (zlen h) i with
  | None => x_group_at (VInt i) s = Err IndexErr
  | Some k => exists v p, x_group_at (VInt i) s = Ok (Some v) /\ nth_error (values h) k = Some p /\
      forall j, x_view_get (Some v) (VInt j) s = if j <? 0 then Err IndexErr else match nth_error p (Z.to_nat j) with Some y => Ok y | None => Err IndexErr end
  end.
Proof.
  intros leb os s h i H Hi. pose proof (C28_groups_partial _ _ _ _ _ _ i H Hi) as G. unfold x_group_at. cbn [as_index bind].
  destruct (place (zlen h) i) as [k|]; [|exact G]. destruct G as (v & p & G1 & G2 & _ & _ & G3). exists v, p. split; auto. split; auto.
  intros j. destruct (C97_ints j (R (V Gen 1 1) (V Gen 1 1)) s (Some v) (denv NONE) 0) as (_ & _ & _ & _ & _ & _ & _ & E & _). rewrite E. apply G3.
Qed.
(** Everything else raises TypeError, and what would change the list leaves it as it is. *)
Theorem C97_otherwise : forall x y s r v e hi, no_index x ->
  x_get_item x s = Err TypeErr /\ x_set_item x y s = (s, Err TypeErr) /\ x_insert x y s = (s, Err TypeErr) /\
  x_insert_group_at (Some x) s = Err TypeErr /\ x_group_at x s = Err TypeErr /\
  (x <> VNone -> x_pop x s = Err TypeErr /\ x_del_item x s = Err TypeErr /\ x_index e (VRange r) x hi s = Err TypeErr) /\
  (forall a, check_view v s = Ok a -> x_view_get v x s = Err TypeErr).
Proof.
  intros x y s r v e hi H. pose proof (as_index_bad x H) as E.
  split; [unfold x_get_item; now rewrite E|]. split; [unfold x_set_item, let_run; rewrite E; now destruct y|].
  split; [unfold x_insert, let_run; rewrite E; now destruct y|]. split; [unfold x_insert_group_at; now rewrite E|].
  split; [unfold x_group_at; now rewrite E|]. split.
  - intros N. assert (P : x_pop x s = Err TypeErr) by (unfold x_pop; rewrite E; destruct x; try reflexivity; congruence).
    split; [exact P|]. split; [unfold x_del_item; now rewrite P|]. unfold x_index. cbn [check_type bind]. rewrite E. destruct x; try reflexivity; congruence.
  - intros a Ea. unfold x_view_get. rewrite Ea. cbn [bind]. now rewrite E.
Qed.
(** The limit of [index] has 1 subtracted first: with a range or a list of ranges as limit that is a ValueError, which says that the
    value is not in the list, and with a verse a TypeError. *)
Lemma minus_one_verse : forall e v, wf_data (ed e) -> InB (ed e) true v -> exists z, minus_one e (VVerse v) = Ok z /\ no_index z.
Proof.
  intros e v W H. destruct (C05_subtract_exact e v 1 None W H) as (i & _ & _ & E); [lia|]. unfold minus_one. rewrite E.
  destruct (if (Z.to_nat 1 <=? i)%nat then nth_error (back_track e None v) (i - Z.to_nat 1) else None) as [w|] eqn:En;
    [|exists VNone; split; [reflexivity|discriminate]].
  assert (X : (vverse w =? 0) && negb (track0 e None v) = false).
  { destruct (Z.to_nat 1 <=? i)%nat; [|discriminate En]. apply nth_error_In in En. unfold back_track in En. apply filter_In in En. destruct En as [_ C].
    destruct (Z.eqb_spec (vverse w) 0) as [Z0|]; [|reflexivity]. unfold counts_back in C. rewrite Z0 in C. cbn [orb Z.ltb Z.compare] in C.
    assert (T : track0 e None v = true).
    { destruct (book_eqb (vbook w) (vbook v) && (vchap w =? vchap v)); [exact C|]. unfold track0, zero_on. cbn [eff]. now rewrite C. }
    now rewrite T. }
  rewrite X. exists (VVerse w). split; [reflexivity|discriminate].
Qed.
Theorem C97_limit : forall e s r y lo i x, wf_data (ed e) -> (lo = VInt i \/ lo = VNone /\ i = 0) -> get_item i s = Ok y ->
  no_index x -> x <> VNone ->
  match x with
  | VRange _ | VList _ => x_index e (VRange r) lo x s = Err ValueErr
  | VVerse v => InB (ed e) true v -> x_index e (VRange r) lo x s = Err TypeErr
  | _ => x_index e (VRange r) lo x s = Err TypeErr
  end.
Proof.
  intros e s r y lo i x W L G N Nn.
  assert (C : exists k, conform_index i s = Ok k).
  { unfold get_item, node_at in G. destruct (conform_index i s) as [k|]; [now exists k|discriminate G]. }
  destruct C as (k & C).
  assert (E : x_index e (VRange r) lo x s = (z <- minus_one e x ;; j <- as_index z ;; index range_eqb r (Some i) (Some (j + 1)) s)).
  { unfold x_index. cbn [check_type bind]. destruct L as [->|[-> ->]]; cbn [as_index bind]; rewrite C; cbn [bind]; destruct x; congruence. }
  rewrite E. destruct x as [|n|t|b|v|q|l|l|l|]; try reflexivity; [now destruct (N n)|].
  intros I. destruct (minus_one_verse e v W I) as (z & -> & Hz). cbn [bind]. now rewrite (as_index_bad z Hz).
Qed.
(** A start outside the list is an IndexError, whatever the limit. *)
Theorem C97_start : forall e s r lo i x, (lo = VInt i \/ lo = VNone /\ i = 0) -> get_item i s = Err IndexErr -> x_index e (VRange r) lo x s = Err IndexErr.
Proof.
  intros e s r lo i x L G.
  assert (F : forall f n p z, follow f n p = Err z -> z <> IndexErr).
  { intros f n. induction n as [|n IH]; intros p z E; [discriminate E|]. cbn [follow] in E. destruct p as [a|]; cbn [deref bind] in E; [eauto|].
    injection E as <-. discriminate. }
  assert (C : conform_index i s = Err IndexErr).
  { unfold get_item, node_at in G. destruct (conform_index i s) as [k|z]; cbn [bind] in G; [|congruence]. exfalso.
    destruct (k <=? g_cnt s / 2); (destruct (follow _ _ _) as [[a|]|z] eqn:Ef in G; cbn [bind deref] in G;
      [unfold value in G; destruct (n_val s a); discriminate G|discriminate G|injection G as ->; now apply F in Ef]). }
  unfold x_index. cbn [check_type bind]. destruct L as [->|[-> ->]]; cbn [as_index bind]; now rewrite C.
Qed.
Theorem C97_limit_refuted : exists os s h x r, holds range_eqb (fun _ _ => true) os s h /\ In r (concat (values h)) /\ no_index x /\
  x_index (denv NONE) (VRange r) VNone x s = Err ValueErr.
Proof.
  pose (r := R (V Gen 1 1) (V Gen 1 2)).
  exists [OExtend [r]], (snd (h_run range_eqb (fun _ _ => true) [OExtend [r]] g_new)), [[(0%nat, r)]], (VRange r), r.
  split; [exists [Ok None]; split; [reflexivity|vm_compute; reflexivity]|]. split; [left; reflexivity|]. split; [discriminate|vm_compute; reflexivity].
Qed.
Example C97_limit_ex : let s := snd (h_run range_eqb (fun _ _ => true) [OExtend [R (V Gen 1 1) (V Gen 1 2); R (V Gen 2 1) (V Gen 2 2)]] g_new) in
  wf_data (ed (denv NONE)) /\ get_item 1 s = Ok (R (V Gen 2 1) (V Gen 2 2)) /\ InB default_data true (V Gen 1 3) /\
  x_index (denv NONE) (VRange (R (V Gen 2 1) (V Gen 2 2))) (VInt 1) (VVerse (V Gen 1 3)) s = Err TypeErr /\
  x_index (denv NONE) (VRange (R (V Gen 2 1) (V Gen 2 2))) (VInt 1) (VInt 2) s = Ok 1 /\
  get_item 2 s = Err IndexErr /\ x_index (denv NONE) (VRange (R (V Gen 2 1) (V Gen 2 2))) (VInt 2) (VStr []) s = Err IndexErr.
Proof.
  cbv zeta. split; [exact default_wf|]. split; [vm_compute; reflexivity|]. split; [in_bible|]. repeat split; vm_compute; reflexivity.
Qed.
(** The default of the index of [insert_group_at] is never accepted; [del l[None]] deletes the last item. *)
Theorem C97_insert_group_at : forall s, x_insert_group_at None s = Err TypeErr.
Proof. reflexivity. Qed.
Theorem C97_insert_group_at_refuted : exists os s h, holds range_eqb (fun _ _ => true) os s h /\ x_insert_group_at None s = Err TypeErr.
Proof. exists [], g_new, []. split; [exists []; split; reflexivity|reflexivity]. Qed.
Theorem C97_del_refuted : exists os s h t, holds range_eqb (fun _ _ => true) os s h /\ x_del_item VNone s = Ok t /\
  g_iter t = Ok [R (V Gen 1 1) (V Gen 1 2)].
Proof.
  pose (os := [OExtend [R (V Gen 1 1) (V Gen 1 2); R (V Gen 2 1) (V Gen 2 2)]]).
  exists os, (snd (h_run range_eqb (fun _ _ => true) os g_new)), [[(0%nat, R (V Gen 1 1) (V Gen 1 2)); (1%nat, R (V Gen 2 1) (V Gen 2 2))]].
  eexists. split; [exists [Ok None]; split; [reflexivity|vm_compute; reflexivity]|]. split; [vm_compute; reflexivity|vm_compute; reflexivity].
Qed.
Example C97_ex : let os := [OExtend [R (V Gen 1 1) (V Gen 1 2); R (V Gen 2 1) (V Gen 2 2)]] in let s := snd (h_run range_eqb (fun _ _ => true) os g_new) in
  holds range_eqb (fun _ _ => true) os s [[(0%nat, R (V Gen 1 1) (V Gen 1 2)); (1%nat, R (V Gen 2 1) (V Gen 2 2))]] /\ place 2 (-1) = Some 1%nat /\
  no_index (VStr []) /\ x_get_item (VInt (-1)) s = Ok (R (V Gen 2 1) (V Gen 2 2)) /\ x_get_item (VInt 2) s = Err IndexErr /\ x_get_item (VStr []) s = Err TypeErr /\
  x_insert_group_at (Some (VInt 1)) s <> Err TypeErr.
Proof.
  cbv zeta. split; [exists [Ok None]; split; [reflexivity|vm_compute; reflexivity]|]. split; [reflexivity|]. split; [discriminate|].
  repeat (split; [vm_compute; reflexivity|]). vm_compute. discriminate.
Qed.
