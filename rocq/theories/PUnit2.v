(** * PUnit2: consequences for ranges, books and chapters (C08, C09, C40, C42, C43). *)
From Coq Require Import List ZArith Bool Lia Sorted.
From Verif Require Import Base Books Data MVerse MRange Spec PList PCore PNav PVerse PRange PSetOps PSetSpec PRuns PSplit PCount PTerm PUnit.
Import ListNotations.
Import Spec.
Open Scope Z_scope.

Section Units2.
Variable e : env.
Notation d := (ed e).
Hypothesis Hwf : wf_data d.
Notation pos := (pos e).
Notation zg := (verse0 (eg e)).
Notation zf fl := (zero_on e fl).

(** ** Positional construction *)
(** The comparison of the books does not raise. *)
Lemma new_range_pos_swapped : forall a fl, books_listed d a -> new_range_pos e a fl = new_range_swapped e (swap_args e a) fl.
Proof.
  intros a fl (H1 & H2). unfold new_range_pos. destruct (pa_eb a) as [b|] eqn:E; [|reflexivity].
  specialize (H2 b eq_refl). apply In_nth_error in H1. apply In_nth_error in H2. destruct H1 as (i & Hi), H2 as (j & Hj).
  unfold book_gt. rewrite (book_cmp_eq e _ _ _ i j Hwf Hi Hj). reflexivity.
Qed.
Lemma new_range_pos_units : forall a fl u1 u2, books_listed d a ->
  first_unit a = Some u1 -> second_unit a = Some u2 -> unit_ok d (zf fl) u1 -> unit_ok d (zf fl) u2 ->
  (vle d (unit_first d (zf fl) u1) (unit_last d u2) -> can_start e fl u1 ->
     new_range_pos e a fl = build e (zf fl) fl u1 u2) /\
  (vlt d (unit_last d u2) (unit_first d (zf fl) u1) -> can_start e fl u2 ->
     new_range_pos e a fl = build e (zf fl) fl u2 u1).
Proof.
  intros a fl u1 u2 Ha U1 U2 O1 O2. rewrite (new_range_pos_swapped a fl Ha).
  destruct (swap_units e Hwf a Ha) as [[Hs Hp]|(Hs1 & Hs2 & Hin & Hp)]; specialize (Hp _ _ _ U1 U2 O1 O2).
  - rewrite Hs. split; intros Hv Hc.
    + now apply swapped_ok.
    + apply (vlt_pos e Hwf) in Hv. lia.
  - split; intros Hv Hc.
    + apply (vle_pos e Hwf) in Hv. lia.
    + apply swapped_ok; auto; congruence.
Qed.

Lemma new_range_pos_bad : forall a fl, books_listed d a ->
  bad_unit e (zf fl) (first_unit a) \/ bad_unit e (zf fl) (second_unit a) ->
  new_range_pos e a fl = Err InvalidRef.
Proof.
  intros a fl Ha Hb. rewrite (new_range_pos_swapped a fl Ha).
  destruct (swap_units e Hwf a Ha) as [[Hs Hp]|(Hs1 & Hs2 & Hin & Hp)].
  - rewrite Hs. apply swapped_bad; auto. tauto.
  - apply swapped_bad; auto. rewrite Hs1, Hs2. tauto.
Qed.

Lemma new_range_pos_cannot : forall a fl u1 u2, books_listed d a ->
  first_unit a = Some u1 -> second_unit a = Some u2 -> unit_ok d (zf fl) u1 -> unit_ok d (zf fl) u2 ->
  (vle d (unit_first d (zf fl) u1) (unit_last d u2) -> ~ can_start e fl u1 ->
     new_range_pos e a fl = Err InvalidRef) /\
  (vlt d (unit_last d u2) (unit_first d (zf fl) u1) -> ~ can_start e fl u2 ->
     new_range_pos e a fl = Err InvalidRef).
Proof.
  intros a fl u1 u2 Ha U1 U2 O1 O2. rewrite (new_range_pos_swapped a fl Ha).
  destruct (swap_units e Hwf a Ha) as [[Hs Hp]|(Hs1 & Hs2 & Hin & Hp)]; specialize (Hp _ _ _ U1 U2 O1 O2).
  - rewrite Hs. split; intros Hv Hc.
    + apply swapped_bad; auto. right. right. eauto.
    + apply (vlt_pos e Hwf) in Hv. lia.
  - split; intros Hv Hc.
    + apply (vle_pos e Hwf) in Hv. lia.
    + apply swapped_bad; auto. right. right. exists u2. split; auto; congruence.
Qed.

Lemma first_unit_listed : forall a u, books_listed d a -> first_unit a = Some u -> In (unit_book u) (book_order d).
Proof.
  intros [sb sc sv eb ec ev] u [H1 H2] H. unfold first_unit, named_unit in H. cbn in *.
  destruct sc, sv; try discriminate; injection H as <-; exact H1.
Qed.
Lemma second_unit_listed : forall a u, books_listed d a -> second_unit a = Some u -> In (unit_book u) (book_order d).
Proof.
  intros [sb sc sv eb ec ev] u [H1 H2] H. unfold second_unit, first_unit, named_unit in H. cbn in *.
  destruct eb as [eb'|]; [pose proof (H2 _ eq_refl)|]; destruct ec, ev, sc, sv; rewrite ?book_eqb_refl in H;
    try (destruct (book_eqb eb' sb)); try discriminate; injection H as <-; auto.
Qed.

Lemma build_ok : forall z fl u1 u2 r, In (unit_book u1) (book_order d) -> In (unit_book u2) (book_order d) ->
  unit_ok d z u1 -> unit_ok d z u2 -> vle d (unit_first d z u1) (unit_last d u2) -> build e z fl u1 u2 = Ok r ->
  wf_range d z r /\ (multi_on e fl = true \/ vbook (rstart r) = vbook (rend r)).
Proof.
  intros z fl u1 u2 r I1 I2 O1 O2 Hle H. unfold build in H.
  destruct (negb (multi_on e fl) && negb (book_eqb (unit_book u1) (unit_book u2))) eqn:E; [discriminate|].
  injection H as <-. cbn [rstart rend]. rewrite unit_first_book, unit_last_book. split.
  - split; [|split; auto].
    + apply (unit_bounds e Hwf z u1 I1 O1).
    + apply (unit_bounds e Hwf z u2 I2 O2).
  - destruct (multi_on e fl); [auto|]. right. cbn [negb andb] in E. apply negb_false_iff in E. now apply book_eqb_eq.
Qed.

Lemma vlt_vle : forall a b, vlt d a b -> vle d a b.
Proof. intros a b H. apply (vlt_pos e Hwf) in H. apply (vle_pos e Hwf). intuition lia. Qed.

(** Whenever the positional constructor succeeds, what it makes is described by its two units. *)
Lemma new_range_pos_inv : forall a fl r, books_listed d a -> new_range_pos e a fl = Ok r ->
  exists u1 u2, first_unit a = Some u1 /\ second_unit a = Some u2 /\
    unit_ok d (zf fl) u1 /\ unit_ok d (zf fl) u2 /\
    (multi_on e fl = true \/ unit_book u1 = unit_book u2) /\
    ((vle d (unit_first d (zf fl) u1) (unit_last d u2) /\ r = R (unit_first d (zf fl) u1) (unit_last d u2)) \/
     (vlt d (unit_last d u2) (unit_first d (zf fl) u1) /\ r = R (unit_first d (zf fl) u2) (unit_last d u1))).
Proof.
  intros a fl r Ha H.
  destruct (first_unit a) as [u1|] eqn:U1; [|rewrite new_range_pos_bad in H; auto; [discriminate|left; now rewrite U1]].
  destruct (second_unit a) as [u2|] eqn:U2; [|rewrite new_range_pos_bad in H; auto; [discriminate|right; now rewrite U2]].
  destruct (ok_dec e (zf fl) u1) as [O1|O1]; [|rewrite new_range_pos_bad in H; auto; [discriminate|left; now rewrite U1]].
  destruct (ok_dec e (zf fl) u2) as [O2|O2]; [|rewrite new_range_pos_bad in H; auto; [discriminate|right; now rewrite U2]].
  exists u1, u2. split; auto. split; auto. split; auto. split; auto.
  pose proof (first_unit_listed a u1 Ha U1) as I1. pose proof (second_unit_listed a u2 Ha U2) as I2.
  destruct (unit_bounds e Hwf _ u1 I1 O1) as (F1 & L1 & P1). destruct (unit_bounds e Hwf _ u2 I2 O2) as (F2 & L2 & P2).
  pose proof (InB_mono e _ _ F1). pose proof (InB_mono e _ _ L2). pose proof (InB_mono e _ _ F2). pose proof (InB_mono e _ _ L1).
  destruct (new_range_pos_units a fl u1 u2 Ha U1 U2 O1 O2) as [N1 N2].
  destruct (new_range_pos_cannot a fl u1 u2 Ha U1 U2 O1 O2) as [N3 N4].
  destruct (Z.le_gt_cases (pos (unit_first d (zf fl) u1)) (pos (unit_last d u2))) as [Hle|Hgt].
  - assert (Hv : vle d (unit_first d (zf fl) u1) (unit_last d u2)) by (apply (vle_pos e Hwf); auto).
    destruct (startable_dec e fl u1) as [S1|S1]; [|rewrite N3 in H by auto; discriminate].
    rewrite N1 in H by auto. unfold build in H.
    destruct (negb (multi_on e fl) && negb (book_eqb (unit_book u1) (unit_book u2))) eqn:E; [discriminate|].
    injection H as <-. split; auto. destruct (multi_on e fl); [auto|]. right. apply negb_false_iff in E. now apply book_eqb_eq.
  - assert (Hv : vlt d (unit_last d u2) (unit_first d (zf fl) u1)) by (apply (vlt_pos e Hwf); auto).
    destruct (startable_dec e fl u2) as [S1|S1]; [|rewrite N4 in H by auto; discriminate].
    rewrite N2 in H by auto. unfold build in H.
    destruct (negb (multi_on e fl) && negb (book_eqb (unit_book u2) (unit_book u1))) eqn:E; [discriminate|].
    injection H as <-. split; auto. destruct (multi_on e fl); [auto|]. right. apply negb_false_iff in E. now apply book_eqb_eq in E.
Qed.

Lemma new_range_pos_legal : forall a fl r, books_listed d a -> new_range_pos e a fl = Ok r ->
  wf_range d (zf fl) r /\ (multi_on e fl = true \/ vbook (rstart r) = vbook (rend r)).
Proof.
  intros a fl r Ha H. destruct (new_range_pos_inv a fl r Ha H) as (u1 & u2 & U1 & U2 & O1 & O2 & Hm & Hr).
  pose proof (first_unit_listed a u1 Ha U1) as I1. pose proof (second_unit_listed a u2 Ha U2) as I2.
  destruct (unit_bounds e Hwf _ u1 I1 O1) as (F1 & L1 & P1). destruct (unit_bounds e Hwf _ u2 I2 O2) as (F2 & L2 & P2).
  destruct Hr as [[Hv ->]|[Hv ->]]; cbn [rstart rend]; rewrite unit_first_book, unit_last_book;
    (split; [|destruct Hm as [Hm|Hm]; auto]); split; auto; split; auto.
  apply (vlt_pos e Hwf) in Hv. apply (vle_pos e Hwf). cbn [rstart rend].
  split; [now apply (InB_mono e) in F2|]. split; [now apply (InB_mono e) in L1|]. lia.
Qed.

Lemma new_range_legal : forall s t fl r, InB d true s -> InB d true t -> new_range e s t fl = Ok r ->
  wf_range d true r /\ (multi_on e fl = true \/ vbook (rstart r) = vbook (rend r)) /\
  ((vle d s t /\ r = R s t) \/ (vlt d t s /\ r = R t s)).
Proof.
  intros s t fl r Hs Ht H. rewrite (new_range_eq e Hwf) in H by auto.
  destruct (negb (multi_on e fl) && negb (book_eqb (vbook s) (vbook t))) eqn:E; [discriminate|]. injection H as <-.
  assert (Hb : multi_on e fl = true \/ vbook s = vbook t).
  { destruct (multi_on e fl); [auto|]. right. apply negb_false_iff in E. now apply book_eqb_eq. }
  rewrite !(vle_pos e Hwf), (vlt_pos e Hwf). unfold wf_range.
  destruct (Z.ltb_spec (pos t) (pos s)); cbn [rstart rend]; rewrite (vle_pos e Hwf); intuition (auto; lia).
Qed.
Lemma new_range_succeeds : forall s t fl, InB d true s -> InB d true t ->
  (multi_on e fl = true \/ vbook s = vbook t -> exists r, new_range e s t fl = Ok r) /\
  (multi_on e fl = false -> vbook s <> vbook t -> new_range e s t fl = Err Multibook).
Proof.
  intros s t fl Hs Ht. rewrite (new_range_eq e Hwf) by auto. split.
  - intros [-> | ->]; cbn [negb andb]; eauto. rewrite book_eqb_refl, andb_false_r. eauto.
  - intros -> Hb. apply book_eqb_neq in Hb. now rewrite Hb.
Qed.

(** ** The verses of a unit *)
Lemma chap_ends : forall z b c, In b (book_order d) -> 1 <= c <= num_chaps d b ->
  hd_error (chap_verses d z b c) = Some (V b c (first_num d z b c)) /\
  hd_error (rev (chap_verses d z b c)) = Some (V b c (last_num d b c)).
Proof.
  intros z b c Hb Hc. pose proof (first_le_last e Hwf z b c Hb Hc). unfold chap_verses. split.
  - rewrite zrange_cons by lia. reflexivity.
  - rewrite zrange_snoc by lia. rewrite map_app, rev_app_distr. reflexivity.
Qed.
Lemma book_ends : forall z b, In b (book_order d) ->
  hd_error (book_verses d z b) = Some (V b 1 (first_num d z b 1)) /\
  hd_error (rev (book_verses d z b)) = Some (V b (num_chaps d b) (last_num d b (num_chaps d b))).
Proof.
  intros z b Hb. pose proof (num_chaps_pos e Hwf b Hb) as Hn. unfold book_verses. split.
  - rewrite zrange_cons by lia. cbn [flat_map]. destruct (chap_ends z b 1 Hb ltac:(lia)) as [H _].
    destruct (chap_verses d z b 1); [discriminate|exact H].
  - rewrite zrange_snoc by lia. rewrite flat_map_app. cbn [flat_map]. rewrite app_nil_r, rev_app_distr.
    destruct (chap_ends z b (num_chaps d b) Hb ltac:(lia)) as [_ H].
    destruct (rev (chap_verses d z b (num_chaps d b))); [discriminate|exact H].
Qed.

Lemma unit_verses_of : forall z u, In (unit_book u) (book_order d) -> unit_ok d z u ->
  verses_of d z (R (unit_first d z u) (unit_last d u)) (unit_verses d z u).
Proof.
  intros z u Hb Hok. destruct u as [b|b c|b c v]; cbn [unit_book unit_ok unit_first unit_last unit_verses] in *.
  - split; [|now apply book_ends]. now apply book_in_bible.
  - split; [|now apply chap_ends]. destruct (book_in_bible e z b Hb) as (l1 & l3 & E).
    rewrite (book_verses_split e z b c Hok) in E.
    rewrite E. set (la := flat_map _ (zrange 1 (c - 1))). set (lb := flat_map _ (zrange (c + 1) _)).
    exists (l1 ++ la), (lb ++ l3). rewrite <- !app_assoc. reflexivity.
  - split; [|auto]. assert (H : InB d z (V b c v)) by (apply (in_bible_verses e); auto).
    apply in_split in H. destruct H as (l1 & l3 & E). exists l1, l3. exact E.
Qed.

Lemma in_unit_verses : forall z u v, In (unit_book u) (book_order d) -> unit_ok d z u ->
  (In v (unit_verses d z u) <-> InB d z v /\ in_unit u v).
Proof.
  intros z u v Hb Hok. rewrite (verses_of_In e Hwf _ _ _ v (unit_verses_of z u Hb Hok)).
  destruct (unit_bounds e Hwf z u Hb Hok) as (F & L & _).
  split; intros [Hv H]; split; auto.
  - apply (InR_pos e Hwf) in H. cbn [rstart rend] in H. apply (in_unit_pos e Hwf z u v); auto. tauto.
  - apply (InR_pos e Hwf). cbn [rstart rend]. apply (in_unit_pos e Hwf z u v) in H; auto.
    pose proof (InB_mono e _ _ F). pose proof (InB_mono e _ _ L). pose proof (InB_mono e _ _ Hv). tauto.
Qed.

(** [first_verse] and [last_verse] as units. *)
Definition whole_unit (b : book) (oc : option Z) : unit_ref :=
  match oc with None => UBook b | Some c => UChap b c end.
Lemma first_verse_unit : forall b oc fl, In b (book_order d) -> unit_ok d (zf fl) (whole_unit b oc) ->
  (can_start e fl (whole_unit b oc) -> first_verse e b oc fl = Ok (unit_first d (zf fl) (whole_unit b oc))) /\
  (~ can_start e fl (whole_unit b oc) -> first_verse e b oc fl = Err InvalidRef).
Proof.
  intros b oc fl Hb Hok.
  assert (Hs : first_verse e b oc fl = first_verse e b oc (Some (eff e fl))).
  { unfold first_verse, min_verse_num. now rewrite eff_eff. }
  rewrite Hs.
  assert (Hn : named_unit b oc None = Some (whole_unit b oc)) by (destruct oc; reflexivity).
  pose proof (start_eval e Hwf b oc None fl Hb _ Hn) as [H1 _]. pose proof (start_fails e Hwf b oc None fl Hb _ Hn) as H2.
  destruct oc; split; auto.
Qed.
Lemma last_verse_unit : forall b oc, In b (book_order d) -> unit_ok d false (whole_unit b oc) ->
  last_verse e b oc = Ok (unit_last d (whole_unit b oc)).
Proof.
  intros b [c|] Hb Hok; [now apply (last_verse_in e Hwf)|now apply last_verse_book].
Qed.
Lemma whole_unit_book : forall b oc, unit_book (whole_unit b oc) = b.
Proof. intros b []; reflexivity. Qed.
Lemma whole_unit_ok : forall z b oc, unit_ok d z (whole_unit b oc) -> forall z', unit_ok d z' (whole_unit b oc).
Proof. intros z b [] H z'; exact H. Qed.

(** The range of a book or chapter. *)
Definition unit_range (b : book) (oc : option Z) (fl : option flag) : res range :=
  s <- first_verse e b oc fl ;; t <- last_verse e b oc ;; new_range e s t fl.
Lemma unit_range_ok : forall b oc fl, In b (book_order d) -> unit_ok d (zf fl) (whole_unit b oc) ->
  can_start e fl (whole_unit b oc) ->
  unit_range b oc fl = Ok (R (unit_first d (zf fl) (whole_unit b oc)) (unit_last d (whole_unit b oc))).
Proof.
  intros b oc fl Hb Hok Hc. unfold unit_range. set (u := whole_unit b oc) in *.
  assert (Hu : unit_book u = b) by apply whole_unit_book.
  rewrite (proj1 (first_verse_unit b oc fl Hb Hok) Hc). cbn [bind].
  rewrite last_verse_unit by (auto; eapply whole_unit_ok; eauto). cbn [bind]. fold u.
  destruct (unit_bounds e Hwf (zf fl) u) as (F & L & P); [now rewrite Hu|assumption|].
  rewrite (new_range_eq e Hwf) by (eapply (InB_mono e); eauto).
  rewrite unit_first_book, unit_last_book, book_eqb_refl, andb_false_r.
  destruct (Z.ltb_spec (pos (unit_last d u)) (pos (unit_first d (zf fl) u))); [lia|reflexivity].
Qed.
Lemma unit_range_cannot : forall b oc fl, In b (book_order d) -> unit_ok d (zf fl) (whole_unit b oc) ->
  ~ can_start e fl (whole_unit b oc) -> unit_range b oc fl = Err InvalidRef.
Proof.
  intros b oc fl Hb Hok Hc. unfold unit_range. now rewrite (proj2 (first_verse_unit b oc fl Hb Hok) Hc).
Qed.
Lemma unit_range_bad : forall b c fl, In b (book_order d) -> ~ (1 <= c <= num_chaps d b) ->
  unit_range b (Some c) fl = Err InvalidRef.
Proof. intros b c fl Hb Hc. unfold unit_range. now rewrite (first_verse_bad e Hwf). Qed.

(** Counts of a book. *)
Lemma sum_chaps_ok : forall b fl cs, In b (book_order d) -> (forall c, In c cs -> 1 <= c <= num_chaps d b) ->
  sum_chaps e b fl cs = Ok (zlen (flat_map (chap_verses d (zf fl) b) cs)).
Proof.
  intros b fl cs Hb. induction cs as [|c cs IH]; intros Hc; [reflexivity|].
  cbn [sum_chaps flat_map]. pose proof (Hc c (or_introl eq_refl)) as Hc1.
  rewrite (max_in e Hwf), (min_in e Hwf) by auto. cbn [bind]. rewrite IH by (intros; apply Hc; right; auto). cbn [bind].
  rewrite zero_on_eq. f_equal. unfold zlen. rewrite app_length, Nat2Z.inj_add. f_equal.
  rewrite chap_verses_length. pose proof (first_le_last e Hwf (zf fl) b c Hb Hc1). lia.
Qed.
Lemma book_count_ok : forall b fl, In b (book_order d) ->
  chap_count e b = num_chaps d b /\ book_verse_count e b fl = Ok (zlen (book_verses d (zf fl) b)).
Proof.
  intros b fl Hb.
  assert (Hc : chap_count e b = num_chaps d b).
  { unfold chap_count. rewrite (max_chap_eq e b), (min_chap_in e Hwf) by auto. lia. }
  split; auto. unfold book_verse_count. rewrite Hc. apply sum_chaps_ok; auto. intros c. now rewrite zrange_in.
Qed.

(** Runs of chapters in a book. *)
Lemma runs_chaps : forall z b cs, In b (book_order d) -> (forall c, In c cs -> 1 <= c <= num_chaps d b) -> NoDup cs ->
  runs same_ch (flat_map (chap_verses d z b) cs) = map (chap_verses d z b) cs.
Proof.
  intros z b cs Hb. induction cs as [|c cs IH]; intros Hc Hnd; [reflexivity|].
  inversion Hnd as [|? ? Hni Hnd']; subst. cbn [flat_map map].
  rewrite <- IH by (auto; intros; apply Hc; right; auto). clear IH.
  pose proof (chap_ends z b c Hb (Hc c (or_introl eq_refl))) as [Hh _].
  assert (Hsame : forall x y, In x (chap_verses d z b c) -> In y (chap_verses d z b c) -> same_ch x y = true).
  { intros x y Hx Hy. apply same_ch_iff. apply (in_chap_verses e) in Hx, Hy. intuition congruence. }
  destruct (chap_verses d z b c) as [|v l] eqn:E; [discriminate|].
  destruct cs as [|c' cs].
  - cbn [flat_map]. rewrite app_nil_r. apply (runs_one same_ch). exact Hsame.
  - cbn [flat_map]. pose proof (chap_ends z b c' Hb (Hc c' (or_intror (or_introl eq_refl)))) as [Hh' _].
    destruct (chap_verses d z b c') as [|w l'] eqn:E'; [discriminate|]. cbn [app].
    apply (runs_app same_ch (v :: l) v l w); auto.
    intros x Hx. rewrite <- E in Hx. apply (in_chap_verses e) in Hx.
    assert (Hw : In w (chap_verses d z b c')) by (rewrite E'; left; auto). apply (in_chap_verses e) in Hw.
    destruct (same_ch x w) eqn:Es; auto. apply same_ch_iff in Es. exfalso. apply Hni. left.
    destruct Hx as (_ & ? & _), Hw as (_ & ? & _). destruct Es. congruence.
Qed.

Lemma chap_ranges_ok : forall b fl, In b (book_order d) -> can_start e fl (UBook b) ->
  exists ps, book_chap_ranges e b fl = Ok ps /\
    Forall2 (fun p c => verses_of d (zf fl) p (chap_verses d (zf fl) b c)) ps (zrange 1 (num_chaps d b)).
Proof.
  intros b fl Hb Hc. unfold book_chap_ranges. change (book_range e b fl) with (unit_range b None fl).
  pose proof (num_chaps_pos e Hwf b Hb) as Hn.
  rewrite unit_range_ok by (auto; exact I). cbn [bind whole_unit].
  pose proof (unit_verses_of (zf fl) (UBook b) Hb I) as Hv. cbn [unit_verses] in Hv.
  set (r := R _ _) in *.
  assert (Hz : split_zero e r fl = zf fl).
  { unfold split_zero. rewrite <- zero_on_eq. subst r. cbn [rstart rend unit_first unit_last vverse].
    destruct (Z.eqb_spec (last_num d b (num_chaps d b)) 0) as [E|E].
    - pose proof (last_num_pos e Hwf b (num_chaps d b) Hb). lia.
    - unfold first_num. rewrite zero_on_eq. destruct (zf fl); cbn; auto. }
  destruct (split_chaps e Hwf r fl (book_verses d (zf fl) b)) as (ps & Hps & Hf); [now rewrite Hz|].
  rewrite Hps. exists ps. split; auto.
  unfold book_verses in Hf. rewrite runs_chaps in Hf; auto.
  2:{ intros c. now rewrite zrange_in. }
  2:{ apply (sorted_nodup Z.lt); [intros; lia|apply zrange_sorted]. }
  assert (Hcs : forall c, In c (zrange 1 (num_chaps d b)) -> 1 <= c <= num_chaps d b) by (intros c; now rewrite zrange_in).
  clear -Hf Hcs Hb Hwf. revert ps Hf. induction (zrange 1 (num_chaps d b)) as [|c cs IH]; intros ps Hf;
    inversion Hf as [|p x ps' xs Hp Hf']; subst; constructor.
  - destruct (unit_verses_of (zf fl) (UChap b c) Hb (Hcs c (or_introl eq_refl))) as [Hs _]. split; auto.
  - apply IH; auto. intros; apply Hcs; right; auto.
Qed.

(** The whole Bible. *)
Lemma hd_last_split : forall (o : list book) b0 o' bn o'', o = b0 :: o' -> rev o = bn :: o'' -> In b0 o /\ In bn o.
Proof.
  intros o b0 o' bn o'' H1 H2. split; [rewrite H1; left; auto|]. apply in_rev. rewrite H2. left. auto.
Qed.
Lemma bible_ends : forall z b0 o' bn o'', book_order d = b0 :: o' -> rev (book_order d) = bn :: o'' ->
  verses_of d z (R (unit_first d z (UBook b0)) (unit_last d (UBook bn))) (bible_verses d z).
Proof.
  intros z b0 o' bn o'' H1 H2. destruct (hd_last_split _ _ _ _ _ H1 H2) as [I0 In'].
  split; [exists [], []; now rewrite app_nil_r|]. unfold bible_verses. split.
  - rewrite H1. cbn [flat_map]. destruct (book_ends z b0 I0) as [H _]. destruct (book_verses d z b0); [discriminate|exact H].
  - assert (E : book_order d = rev o'' ++ [bn]) by (rewrite <- (rev_involutive (book_order d)), H2; reflexivity).
    rewrite E, flat_map_app. cbn [flat_map]. rewrite app_nil_r, rev_app_distr.
    destruct (book_ends z bn In') as [_ H]. destruct (rev (book_verses d z bn)); [discriminate|exact H].
Qed.
Lemma whole_bible_ok : forall fl b0 o' bn o'', book_order d = b0 :: o' -> rev (book_order d) = bn :: o'' ->
  can_start e fl (UBook b0) ->
  whole_bible e fl = Ok (R (unit_first d (zf fl) (UBook b0)) (unit_last d (UBook bn))).
Proof.
  intros fl b0 o' bn o'' H1 H2 Hc. destruct (hd_last_split _ _ _ _ _ H1 H2) as [I0 I1].
  set (f := flag_or (eff e fl) MULTIBOOK).
  assert (Hst : stable e f) by apply stable_or_multi.
  assert (Hz : zf (Some f) = zf fl).
  { rewrite <- !zero_on_eq. unfold stable in Hst. rewrite Hst. subst f. destruct (eff e fl) as [m z']; destruct m, z'; reflexivity. }
  assert (Hm : multi_on e (Some f) = true).
  { rewrite <- multi_on_eq. unfold stable in Hst. rewrite Hst. subst f. destruct (eff e fl) as [m z']; destruct m, z'; reflexivity. }
  pose proof (bible_ends (zf fl) _ _ _ _ H1 H2) as Hv.
  unfold whole_bible. rewrite H2, H1. cbv beta iota. fold f.
  assert (Hc' : can_start e (Some f) (UBook b0)) by (cbn [can_start] in *; rewrite Hz; exact Hc).
  rewrite (proj1 (first_verse_unit b0 None (Some f) I0 I) Hc'). cbn [bind].
  rewrite last_verse_unit by (auto; exact I). cbn [bind whole_unit]. rewrite Hz.
  apply (verses_of_wf e Hwf) in Hv. apply (wf_range_pos e Hwf) in Hv. cbn [rstart rend] in Hv. destruct Hv as (F & L & P).
  rewrite (new_range_eq e Hwf) by (eapply (InB_mono e); eauto). rewrite Hm. cbn [negb andb].
  destruct (Z.ltb_spec (pos (unit_last d (UBook bn))) (pos (unit_first d (zf fl) (UBook b0)))); [lia|reflexivity].
Qed.

(** ** Whole-unit tests *)
Lemma covers_start : forall z u r, wf_range d z r -> in_unit u (rstart r) -> In (unit_book u) (book_order d) -> unit_ok d z u ->
  ((forall v, In v (unit_verses d z u) -> InR d v r) <->
   rstart r = unit_first d z u /\ pos (unit_last d u) <= pos (rend r)).
Proof.
  intros z u r Hr Hs Hb Hok. pose proof (unit_bounds e Hwf z u Hb Hok) as (F & L & P).
  apply (wf_range_pos e Hwf) in Hr. destruct Hr as (Rs & Re & Rp).
  pose proof (InB_mono e _ _ F) as F'. pose proof (InB_mono e _ _ L) as L'.
  pose proof (InB_mono e _ _ Rs) as Rs'. pose proof (InB_mono e _ _ Re) as Re'.
  apply (in_unit_pos e Hwf z u _ Hb Hok Rs) in Hs. split.
  - intros H.
    assert (H1 : InR d (unit_first d z u) r) by (apply H, (in_unit_verses z u); auto; split; auto; apply (in_unit_pos e Hwf z); auto; lia).
    assert (H2 : InR d (unit_last d u) r) by (apply H, (in_unit_verses z u); auto; split; auto; apply (in_unit_pos e Hwf z); auto; lia).
    apply (InR_pos e Hwf) in H1, H2. split; [|tauto]. apply (pos_eq e); auto. lia.
  - intros [E Hle] v Hv. apply (in_unit_verses z u) in Hv; auto. destruct Hv as [Hv1 Hv2].
    apply (in_unit_pos e Hwf z u v Hb Hok Hv1) in Hv2. apply (InR_pos e Hwf). rewrite E.
    pose proof (InB_mono e _ _ Hv1). repeat split; auto; lia.
Qed.
Lemma covers_end : forall z u r, wf_range d z r -> in_unit u (rend r) -> In (unit_book u) (book_order d) -> unit_ok d z u ->
  ((forall v, In v (unit_verses d z u) -> InR d v r) <->
   rend r = unit_last d u /\ pos (rstart r) <= pos (unit_first d z u)).
Proof.
  intros z u r Hr Hs Hb Hok. pose proof (unit_bounds e Hwf z u Hb Hok) as (F & L & P).
  apply (wf_range_pos e Hwf) in Hr. destruct Hr as (Rs & Re & Rp).
  pose proof (InB_mono e _ _ F) as F'. pose proof (InB_mono e _ _ L) as L'.
  pose proof (InB_mono e _ _ Rs) as Rs'. pose proof (InB_mono e _ _ Re) as Re'.
  apply (in_unit_pos e Hwf z u _ Hb Hok Re) in Hs. split.
  - intros H.
    assert (H1 : InR d (unit_first d z u) r) by (apply H, (in_unit_verses z u); auto; split; auto; apply (in_unit_pos e Hwf z); auto; lia).
    assert (H2 : InR d (unit_last d u) r) by (apply H, (in_unit_verses z u); auto; split; auto; apply (in_unit_pos e Hwf z); auto; lia).
    apply (InR_pos e Hwf) in H1, H2. split; [|tauto]. apply (pos_eq e); auto. lia.
  - intros [E Hle] v Hv. apply (in_unit_verses z u) in Hv; auto. destruct Hv as [Hv1 Hv2].
    apply (in_unit_pos e Hwf z u v Hb Hok Hv1) in Hv2. apply (InR_pos e Hwf). rewrite E.
    pose proof (InB_mono e _ _ Hv1). repeat split; auto; lia.
Qed.

Notation chap_of v := (UChap (vbook v) (vchap v)).
Notation book_of v := (UBook (vbook v)).
Lemma unit_of_ok : forall z v, InB d true v -> In (vbook v) (book_order d) /\ unit_ok d z (chap_of v).
Proof. intros z v H. split; [now apply (InB_book e) in H|]. apply (InB_legal e) in H. apply H. Qed.

Definition bool_is (x : res bool) (P : Prop) : Prop := exists b, x = Ok b /\ (b = true <-> P).

Lemma verses_of_unit_eq : forall z u r, In (unit_book u) (book_order d) -> unit_ok d z u ->
  (verses_of d z r (unit_verses d z u) <-> r = R (unit_first d z u) (unit_last d u)).
Proof.
  intros z u r Hb Hok. pose proof (unit_verses_of z u Hb Hok) as H. split; [|now intros ->].
  intros H'. destruct H as (_ & Hh & Ht), H' as (_ & Hh' & Ht'). destruct r as [s t]. cbn [rstart rend] in *. congruence.
Qed.

Lemma is_whole_chap_ok : forall r fl, wf_range d true r -> can_start e fl (chap_of (rstart r)) ->
  bool_is (is_whole_chap e r fl)
    (exists b c, In b (book_order d) /\ 1 <= c <= num_chaps d b /\ verses_of d (zf fl) r (chap_verses d (zf fl) b c)).
Proof.
  intros [s t] fl Hr Hc. pose proof Hr as (Rs & Re & _). cbn [rstart rend] in *.
  destruct (unit_of_ok (zf fl) s Rs) as [Bs Os].
  unfold is_whole_chap. cbn [rstart rend].
  assert (Heq : bool_is (is_whole_chap e (R s t) fl) (R s t = R (unit_first d (zf fl) (chap_of s)) (unit_last d (chap_of s)))).
  { unfold is_whole_chap, andM, bool_is. cbn [rstart rend bind]. destruct (book_eqb (vbook s) (vbook t)) eqn:Eb.
    - apply book_eqb_eq in Eb. rewrite (proj1 (first_verse_unit (vbook s) (Some (vchap s)) fl Bs Os) Hc). cbn [bind whole_unit].
      rewrite <- Eb. rewrite (last_verse_unit (vbook s) (Some (vchap s))) by auto.
      destruct (verse_eqb s (unit_first d (zf fl) (chap_of s))) eqn:Es.
      + cbn [bind]. eexists. split; [reflexivity|]. apply verse_eqb_eq in Es. rewrite verse_eqb_eq. cbn [whole_unit].
        split; [intros Et; apply f_equal2; assumption|congruence].
      + cbn [bind]. eexists. split; [reflexivity|]. apply verse_eqb_neq in Es. split; [discriminate|congruence].
    - eexists. split; [reflexivity|]. apply book_eqb_neq in Eb. split; [discriminate|].
      intros H. injection H as H1 H2. apply (f_equal vbook) in H2. cbn in H2. congruence. }
  destruct Heq as (b & Hb & Hi). exists b. split; [exact Hb|]. rewrite Hi. clear Hb Hi. split.
  - intros H. exists (vbook s), (vchap s). split; auto. split; auto.
    apply (verses_of_unit_eq (zf fl) (chap_of s)); auto.
  - intros (b' & c & Hb' & Hc' & Hv). apply (verses_of_unit_eq (zf fl) (UChap b' c)) in Hv; auto.
    injection Hv as -> ->. reflexivity.
Qed.
Lemma is_whole_book_ok : forall r fl, wf_range d true r -> can_start e fl (book_of (rstart r)) ->
  bool_is (is_whole_book e r fl)
    (exists b, In b (book_order d) /\ verses_of d (zf fl) r (book_verses d (zf fl) b)).
Proof.
  intros [s t] fl Hr Hc. pose proof Hr as (Rs & Re & _). cbn [rstart rend] in *.
  destruct (unit_of_ok (zf fl) s Rs) as [Bs _].
  assert (Heq : bool_is (is_whole_book e (R s t) fl) (R s t = R (unit_first d (zf fl) (book_of s)) (unit_last d (book_of s)))).
  { unfold is_whole_book, andM, bool_is. cbn [rstart rend bind]. destruct (book_eqb (vbook s) (vbook t)) eqn:Eb.
    - apply book_eqb_eq in Eb. rewrite (proj1 (first_verse_unit (vbook s) None fl Bs I) Hc). cbn [bind whole_unit].
      rewrite <- Eb. rewrite (last_verse_unit (vbook s) None) by (auto; exact I).
      destruct (verse_eqb s (unit_first d (zf fl) (book_of s))) eqn:Es.
      + cbn [bind]. eexists. split; [reflexivity|]. apply verse_eqb_eq in Es. rewrite verse_eqb_eq. cbn [whole_unit].
        split; [intros Et; apply f_equal2; assumption|congruence].
      + cbn [bind]. eexists. split; [reflexivity|]. apply verse_eqb_neq in Es. split; [discriminate|congruence].
    - eexists. split; [reflexivity|]. apply book_eqb_neq in Eb. split; [discriminate|].
      intros H. injection H as H1 H2. apply (f_equal vbook) in H2. cbn in H2. congruence. }
  destruct Heq as (b & Hb & Hi). exists b. split; [exact Hb|]. rewrite Hi. clear Hb Hi. split.
  - intros H. exists (vbook s). split; auto. apply (verses_of_unit_eq (zf fl) (book_of s)); auto. exact I.
  - intros (b' & Hb' & Hv). apply (verses_of_unit_eq (zf fl) (UBook b')) in Hv; auto; [|exact I].
    injection Hv as -> ->. reflexivity.
Qed.

Lemma spans_start_gen : forall r oc fl, wf_range d (zf fl) r ->
  let u := whole_unit (vbook (rstart r)) oc in
  unit_ok d (zf fl) u -> in_unit u (rstart r) -> can_start e fl u ->
  bool_is (andM (w <- first_verse e (vbook (rstart r)) oc fl ;; Ok (verse_eqb (rstart r) w))
                (w <- last_verse e (vbook (rstart r)) oc ;; Ok (vleb e w (rend r))))
    (forall v, In v (unit_verses d (zf fl) u) -> InR d v r).
Proof.
  intros r oc fl Hr u Hok Hu Hc. pose proof Hr as (Rs & Re & _).
  pose proof (InB_book e _ _ Rs) as Hb. assert (Hub : unit_book u = vbook (rstart r)) by apply whole_unit_book.
  assert (Hb' : In (unit_book u) (book_order d)) by now rewrite Hub.
  pose proof (unit_bounds e Hwf (zf fl) u Hb' Hok) as (F & L & _).
  unfold bool_is, andM. rewrite (proj1 (first_verse_unit _ _ fl Hb Hok) Hc). fold u. cbn [bind].
  rewrite last_verse_unit by (auto; eapply whole_unit_ok; eauto). fold u. cbn [bind].
  pose proof (covers_start (zf fl) u r Hr Hu Hb' Hok) as Hcov.
  rewrite (vleb_pos_eq e Hwf) by (eapply (InB_mono e); eauto).
  destruct (verse_eqb (rstart r) (unit_first d (zf fl) u)) eqn:E.
  - apply verse_eqb_eq in E. eexists. split; [reflexivity|]. rewrite Hcov, Z.leb_le. tauto.
  - apply verse_eqb_neq in E. eexists. split; [reflexivity|]. rewrite Hcov. split; [discriminate|tauto].
Qed.
Lemma spans_end_gen : forall r oc fl, wf_range d (zf fl) r ->
  let u := whole_unit (vbook (rend r)) oc in
  unit_ok d (zf fl) u -> in_unit u (rend r) -> can_start e fl u ->
  bool_is (andM (w <- last_verse e (vbook (rend r)) oc ;; Ok (verse_eqb (rend r) w))
                (w <- first_verse e (vbook (rend r)) oc fl ;; Ok (vleb e (rstart r) w)))
    (forall v, In v (unit_verses d (zf fl) u) -> InR d v r).
Proof.
  intros r oc fl Hr u Hok Hu Hc. pose proof Hr as (Rs & Re & _).
  pose proof (InB_book e _ _ Re) as Hb. assert (Hub : unit_book u = vbook (rend r)) by apply whole_unit_book.
  assert (Hb' : In (unit_book u) (book_order d)) by now rewrite Hub.
  pose proof (unit_bounds e Hwf (zf fl) u Hb' Hok) as (F & L & _).
  unfold bool_is, andM. rewrite (proj1 (first_verse_unit _ _ fl Hb Hok) Hc). fold u. cbn [bind].
  rewrite last_verse_unit by (auto; eapply whole_unit_ok; eauto). fold u. cbn [bind].
  pose proof (covers_end (zf fl) u r Hr Hu Hb' Hok) as Hcov.
  rewrite (vleb_pos_eq e Hwf) by (eapply (InB_mono e); eauto).
  destruct (verse_eqb (rend r) (unit_last d u)) eqn:E.
  - apply verse_eqb_eq in E. eexists. split; [reflexivity|]. rewrite Hcov, Z.leb_le. tauto.
  - apply verse_eqb_neq in E. eexists. split; [reflexivity|]. rewrite Hcov. split; [discriminate|tauto].
Qed.

(** ** Verse 0 and verse 1 *)
Definition to_1 (v : verse) : verse := if vverse v =? 0 then V (vbook v) (vchap v) 1 else v.
Definition to_0 (v : verse) : verse :=
  if (vverse v =? 1) && zmem (vchap v) (verse_0s d (vbook v)) then V (vbook v) (vchap v) 0 else v.

Lemma verse_0_to_1_ok : forall v, InB d true v -> verse_0_to_1 e v = Ok (to_1 v) /\ InB d false (to_1 v).
Proof.
  intros [b c v] Hv. pose proof (InB_book e _ _ Hv) as Hb. pose proof (InB_legal e _ _ Hv) as [Hc Hl].
  cbn [vbook vchap vverse] in *. pose proof (last_num_pos e Hwf b c Hb Hc) as Hp.
  unfold verse_0_to_1, to_1. cbn [vbook vchap vverse]. destruct (Z.eqb_spec v 0) as [E|E].
  - destruct (table_of e Hwf b Hb) as [l Hl']. split.
    + eapply new_verse_ok; eauto. split; auto. pose proof (first_num_01 e (verse0 (eff e None)) b c). lia.
    + apply (in_bible_verses e). cbn [vbook vchap vverse]. split; auto. split; auto. unfold first_num. cbn [andb]. lia.
  - split; auto. apply (in_bible_verses e). cbn [vbook vchap vverse]. split; auto. split; auto.
    pose proof (first_num_01 e true b c). unfold first_num at 1. cbn [andb]. lia.
Qed.
Lemma verse_1_to_0_ok : forall v, InB d true v -> verse_1_to_0 e v = Ok (to_0 v) /\ InB d true (to_0 v).
Proof.
  intros [b c v] Hv. pose proof (InB_book e _ _ Hv) as Hb. pose proof (InB_legal e _ _ Hv) as [Hc Hl].
  cbn [vbook vchap vverse] in *. pose proof (last_num_pos e Hwf b c Hb Hc) as Hp.
  unfold verse_1_to_0, to_0. cbn [vbook vchap vverse]. destruct (Z.eqb_spec v 1) as [E|E]; [|auto].
  rewrite (min_in e Hwf) by auto. cbn [bind]. change (verse0 (eff e (Some VERSE_0))) with true. unfold first_num. cbn [andb].
  destruct (zmem c (verse_0s d b)) eqn:Ez; cbn [Z.eqb]; [|auto].
  destruct (table_of e Hwf b Hb) as [l Hl'].
  assert (Hleg : legal d true b c 0) by (split; auto; unfold first_num; rewrite Ez; cbn [andb]; lia). split.
  - eapply new_verse_ok; eauto.
  - apply (in_bible_verses e). auto.
Qed.

Lemma to_1_mono : forall a b, InB d true a -> InB d true b -> pos a <= pos b -> pos (to_1 a) <= pos (to_1 b).
Proof.
  intros a b Ha Hb Hle. destruct (verse_0_to_1_ok a Ha) as [_ Ha']. destruct (verse_0_to_1_ok b Hb) as [_ Hb'].
  apply (InB_mono e) in Ha', Hb'.
  assert (Ea : vbook (to_1 a) = vbook a /\ vchap (to_1 a) = vchap a /\ vverse (to_1 a) = (if vverse a =? 0 then 1 else vverse a))
    by (unfold to_1; destruct (vverse a =? 0); auto).
  assert (Eb : vbook (to_1 b) = vbook b /\ vchap (to_1 b) = vchap b /\ vverse (to_1 b) = (if vverse b =? 0 then 1 else vverse b))
    by (unfold to_1; destruct (vverse b =? 0); auto).
  destruct Ea as (Ea1 & Ea2 & Ea3), Eb as (Eb1 & Eb2 & Eb3).
  destruct (book_eq_dec (vbook a) (vbook b)) as [E|E].
  - rewrite (pos_book e Hwf) in Hle |- * by (auto; congruence). rewrite Ea2, Eb2, Ea3, Eb3.
    apply (InB_legal e) in Ha. apply (InB_legal e) in Hb. destruct Ha as [_ Ha], Hb as [_ Hb].
    pose proof (first_num_01 e true (vbook a) (vchap a)). pose proof (first_num_01 e true (vbook b) (vchap b)).
    destruct (Z.eqb_spec (vverse a) 0), (Z.eqb_spec (vverse b) 0); lia.
  - destruct (Z.le_gt_cases (pos (to_1 a)) (pos (to_1 b))) as [H|H]; auto. exfalso. apply E.
    pose proof (bord_mono e Hwf _ _ Ha Hb Hle). assert (H' : pos (to_1 b) <= pos (to_1 a)) by lia.
    pose proof (bord_mono e Hwf _ _ Hb' Ha' H'). rewrite Ea1, Eb1 in *.
    apply (bord_inj e Hwf); [now apply (InB_book e) in Ha|now apply (InB_book e) in Hb|lia].
Qed.
Lemma to_0_mono : forall a b, InB d true a -> InB d true b -> pos a <= pos b -> pos (to_0 a) <= pos (to_0 b).
Proof.
  intros a b Ha Hb Hle. destruct (verse_1_to_0_ok a Ha) as [_ Ha']. destruct (verse_1_to_0_ok b Hb) as [_ Hb'].
  assert (Ea : vbook (to_0 a) = vbook a /\ vchap (to_0 a) = vchap a /\
               vverse (to_0 a) = (if (vverse a =? 1) && zmem (vchap a) (verse_0s d (vbook a)) then 0 else vverse a))
    by (unfold to_0; destruct ((vverse a =? 1) && zmem (vchap a) (verse_0s d (vbook a))); auto).
  assert (Eb : vbook (to_0 b) = vbook b /\ vchap (to_0 b) = vchap b /\
               vverse (to_0 b) = (if (vverse b =? 1) && zmem (vchap b) (verse_0s d (vbook b)) then 0 else vverse b))
    by (unfold to_0; destruct ((vverse b =? 1) && zmem (vchap b) (verse_0s d (vbook b))); auto).
  destruct Ea as (Ea1 & Ea2 & Ea3), Eb as (Eb1 & Eb2 & Eb3).
  destruct (book_eq_dec (vbook a) (vbook b)) as [E|E].
  - rewrite (pos_book e Hwf) in Hle |- * by (auto; congruence). rewrite Ea2, Eb2, Ea3, Eb3.
    apply (InB_legal e) in Ha. apply (InB_legal e) in Hb. destruct Ha as [_ Ha], Hb as [_ Hb].
    destruct Hle as [H|[H1 H2]]; [left; exact H|right; split; auto]. rewrite <- E, <- H1 in *. unfold first_num in *. cbn [andb] in *.
    destruct (zmem (vchap a) (verse_0s d (vbook a))); rewrite ?andb_true_r, ?andb_false_r; auto.
    destruct (Z.eqb_spec (vverse a) 1), (Z.eqb_spec (vverse b) 1); lia.
  - destruct (Z.le_gt_cases (pos (to_0 a)) (pos (to_0 b))) as [H|H]; auto. exfalso. apply E.
    pose proof (bord_mono e Hwf _ _ Ha Hb Hle). assert (H' : pos (to_0 b) <= pos (to_0 a)) by lia.
    pose proof (bord_mono e Hwf _ _ Hb' Ha' H'). rewrite Ea1, Eb1 in *.
    apply (bord_inj e Hwf); [now apply (InB_book e) in Ha|now apply (InB_book e) in Hb|lia].
Qed.

Lemma new_range_all : forall s t, InB d true s -> InB d true t -> pos s <= pos t -> new_range e s t (Some ALL) = Ok (R s t).
Proof.
  intros s t Hs Ht Hle. rewrite (new_range_eq e Hwf) by auto. change (multi_on e (Some ALL)) with true. cbn [negb andb].
  destruct (Z.ltb_spec (pos t) (pos s)); [lia|reflexivity].
Qed.
Lemma r_0_to_1_ok : forall r, wf_range d true r ->
  r_verse_0_to_1 e r = Ok (R (to_1 (rstart r)) (to_1 (rend r))) /\ wf_range d false (R (to_1 (rstart r)) (to_1 (rend r))).
Proof.
  intros [s t] H. apply (wf_range_pos e Hwf) in H. cbn [rstart rend] in *. destruct H as (Hs & Ht & Hp).
  destruct (verse_0_to_1_ok s Hs) as [Es Is]. destruct (verse_0_to_1_ok t Ht) as [Et It].
  pose proof (to_1_mono s t Hs Ht Hp) as Hm.
  unfold r_verse_0_to_1. cbn [rstart rend]. rewrite Es, Et. cbn [bind]. split.
  - apply new_range_all; auto; eapply (InB_mono e); eauto.
  - apply (wf_range_pos e Hwf). auto.
Qed.
Lemma r_1_to_0_ok : forall r, wf_range d true r ->
  r_verse_1_to_0 e r = Ok (R (to_0 (rstart r)) (to_0 (rend r))) /\ wf_range d true (R (to_0 (rstart r)) (to_0 (rend r))).
Proof.
  intros [s t] H. apply (wf_range_pos e Hwf) in H. cbn [rstart rend] in *. destruct H as (Hs & Ht & Hp).
  destruct (verse_1_to_0_ok s Hs) as [Es Is]. destruct (verse_1_to_0_ok t Ht) as [Et It].
  pose proof (to_0_mono s t Hs Ht Hp) as Hm.
  unfold r_verse_1_to_0. cbn [rstart rend]. rewrite Es, Et. cbn [bind]. split.
  - apply new_range_all; auto.
  - apply (wf_range_pos e Hwf). auto.
Qed.
End Units2.
