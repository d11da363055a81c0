(** * PropUnit: properties C08, C09, C40-C43 and C45 (construction of ranges, books and chapters, verse 0s, flags). *)
From Coq Require Import List ZArith Bool Lia Sorted.
From Verif Require Import Base Books Data DefaultData MVerse MRange Spec PList PCore PNav PVerse PDefault PRange
  PSetOps PSetSpec PRuns PSplit PCount PTerm PUnit PUnit2 PFlags PropRange.
Import ListNotations.
Import Spec.
Open Scope Z_scope.

(** ** C08.  Construction from two verses ... *)
Theorem C08_two_verses : forall e s t fl r, wf_data (ed e) -> InB (ed e) true s -> InB (ed e) true t ->
  new_range e s t fl = Ok r ->
  wf_range (ed e) true r /\ (multi_on e fl = true \/ vbook (rstart r) = vbook (rend r)) /\
  ((vle (ed e) s t /\ r = R s t) \/ (vlt (ed e) t s /\ r = R t s)).
Proof. intros e s t fl r Hwf. exact (new_range_legal e Hwf s t fl r). Qed.
Theorem C08_two_verses_result : forall e s t fl, wf_data (ed e) -> InB (ed e) true s -> InB (ed e) true t ->
  (multi_on e fl = true \/ vbook s = vbook t -> exists r, new_range e s t fl = Ok r) /\
  (multi_on e fl = false -> vbook s <> vbook t -> new_range e s t fl = Err Multibook).
Proof. intros e s t fl Hwf. exact (new_range_succeeds e Hwf s t fl). Qed.
(** ... and from positional parts. *)
Theorem C08_positional : forall e a fl r, wf_data (ed e) -> books_listed (ed e) a -> new_range_pos e a fl = Ok r ->
  wf_range (ed e) (zero_on e fl) r /\ (multi_on e fl = true \/ vbook (rstart r) = vbook (rend r)).
Proof. intros e a fl r Hwf. exact (new_range_pos_legal e Hwf a fl r). Qed.
Theorem C08_exact_ends : forall e b1 c1 v1 b2 c2 v2 fl r, wf_data (ed e) ->
  In b1 (book_order (ed e)) -> In b2 (book_order (ed e)) ->
  new_range_pos e (PA b1 (Some c1) (Some v1) (Some b2) (Some c2) (Some v2)) fl = Ok r ->
  r = R (V b1 c1 v1) (V b2 c2 v2) \/ r = R (V b2 c2 v2) (V b1 c1 v1).
Proof.
  intros e b1 c1 v1 b2 c2 v2 fl r Hwf H1 H2 H.
  assert (Ha : books_listed (ed e) (PA b1 (Some c1) (Some v1) (Some b2) (Some c2) (Some v2)))
    by (split; [exact H1|cbn; intros b E; now injection E as <-]).
  destruct (new_range_pos_inv e Hwf _ fl r Ha H) as (u1 & u2 & U1 & U2 & _ & _ & _ & Hr).
  cbn in U1, U2. injection U1 as <-. injection U2 as <-. cbn in Hr. tauto.
Qed.
Theorem C08_exact_ends_result : forall e b1 c1 v1 b2 c2 v2 fl, wf_data (ed e) ->
  In b1 (book_order (ed e)) -> In b2 (book_order (ed e)) ->
  let x := new_range_pos e (PA b1 (Some c1) (Some v1) (Some b2) (Some c2) (Some v2)) fl in
  (~ legal (ed e) (zero_on e fl) b1 c1 v1 \/ ~ legal (ed e) (zero_on e fl) b2 c2 v2 -> x = Err InvalidRef) /\
  (legal (ed e) (zero_on e fl) b1 c1 v1 -> legal (ed e) (zero_on e fl) b2 c2 v2 ->
   x = new_range e (V b1 c1 v1) (V b2 c2 v2) fl).
Proof.
  intros e b1 c1 v1 b2 c2 v2 fl Hwf H1 H2 x. subst x. set (a := PA _ _ _ _ _ _).
  assert (Ha : books_listed (ed e) a) by (split; [exact H1|cbn; intros b E; now injection E as <-]).
  assert (U1 : first_unit a = Some (UVerse b1 c1 v1)) by reflexivity.
  assert (U2 : second_unit a = Some (UVerse b2 c2 v2)) by reflexivity.
  split.
  - intros H. apply (new_range_pos_bad e Hwf); [exact Ha|]. rewrite U1, U2. exact H.
  - intros L1 L2. destruct (new_range_pos_units e Hwf a fl _ _ Ha U1 U2 L1 L2) as [N1 N2]. cbn [unit_first unit_last] in N1, N2.
    assert (I1 : InB (ed e) true (V b1 c1 v1)) by (apply (InB_mono e (zero_on e fl)), (in_bible_verses e); auto).
    assert (I2 : InB (ed e) true (V b2 c2 v2)) by (apply (InB_mono e (zero_on e fl)), (in_bible_verses e); auto).
    rewrite (new_range_eq e Hwf) by auto. cbn [vbook].
    destruct (Z.ltb_spec (pos e (V b2 c2 v2)) (pos e (V b1 c1 v1))) as [Hlt|Hge].
    + rewrite N2; [|apply (vlt_pos e Hwf); auto|exact I]. unfold build. cbn.
      replace (book_eqb b2 b1) with (book_eqb b1 b2); [reflexivity|].
      destruct (book_eqb b1 b2) eqn:E; symmetry.
      * apply book_eqb_eq. apply book_eqb_eq in E. congruence.
      * apply book_eqb_neq. apply book_eqb_neq in E. congruence.
    + rewrite N1; [|apply (vle_pos e Hwf); auto|exact I]. reflexivity.
Qed.
(** Books without a place in the order: the comparison raises [TypeError], whatever the other parts are. *)
Theorem C08_unordered : forall e, (forall s t fl, vbook s <> vbook t -> multi_on e fl = true ->
    order (ed e) (vbook s) = None \/ order (ed e) (vbook t) = None -> new_range e s t fl = Err TypeErr) /\
  (forall b c v b' c' v' fl, order (ed e) b = None \/ order (ed e) b' = None ->
    new_range_pos e (PA b c v (Some b') c' v') fl = Err TypeErr).
Proof.
  intros e. assert (C : forall op b b', order (ed e) b = None \/ order (ed e) b' = None -> book_cmp op e b b' = Err TypeErr).
  { intros op b b' H. unfold book_cmp. destruct (order (ed e) b); auto. destruct (order (ed e) b'); auto. now destruct H. }
  split.
  - intros s t fl Hb Hm H. unfold new_range. rewrite multi_on_eq, Hm. cbn [negb andb]. unfold verse_gt, verse_cmp.
    replace (book_eqb (vbook s) (vbook t)) with false by (symmetry; now apply book_eqb_neq). unfold book_gt. now rewrite C.
  - intros b c v b' c' v' fl H. unfold new_range_pos. cbn [pa_eb pa_sb]. unfold book_gt. now rewrite C.
Qed.
Example C08_unordered_ex : let e := mkEnv (fst (set_book_order default_data [Gen; Exod])) ALL in
  order (ed e) Mark = None /\ new_range e (V Mark 2 3) (V Gen 1 1) None = Err TypeErr /\
  new_range_pos e (PA Mark (Some 2) (Some 3) (Some Mark) (Some 2) (Some 5)) None = Err TypeErr /\
  new_range e (V Mark 2 3) (V Mark 2 5) None = Ok (R (V Mark 2 3) (V Mark 2 5)).
Proof. vm_compute. auto. Qed.
Example C08_ex : new_range (denv NONE) (V Matt 5 3) (V Matt 2 1) None = Ok (R (V Matt 2 1) (V Matt 5 3)) /\
  new_range_pos (denv NONE) (PA Matt (Some 5) (Some 3) (Some Matt) (Some 2) (Some 1)) None = Ok (R (V Matt 2 1) (V Matt 5 3)) /\
  new_range_pos (denv NONE) (PA Matt (Some 5) (Some 3) (Some Mark) (Some 2) (Some 1)) None = Err Multibook /\
  books_listed default_data (PA Matt (Some 5) (Some 3) (Some Matt) (Some 2) (Some 1)).
Proof.
  repeat split; try (vm_compute; reflexivity); cbn [pa_sb pa_eb].
  - apply mem_book_in. vm_compute. reflexivity.
  - intros b H. injection H as <-. apply mem_book_in. vm_compute. reflexivity.
Qed.

(** ** C09.  Omitted parts: the arguments name two units; the range reaches from the first verse of the one
    to the last verse of the other. *)
Definition C09_statement : Prop := forall e a fl u1 u2, wf_data (ed e) -> books_listed (ed e) a ->
  first_unit a = Some u1 -> second_unit a = Some u2 ->
  unit_ok (ed e) (zero_on e fl) u1 -> unit_ok (ed e) (zero_on e fl) u2 ->
  multi_on e fl = true \/ unit_book u1 = unit_book u2 ->
  (vle (ed e) (unit_first (ed e) (zero_on e fl) u1) (unit_last (ed e) u2) ->
     new_range_pos e a fl = Ok (R (unit_first (ed e) (zero_on e fl) u1) (unit_last (ed e) u2))) /\
  (vlt (ed e) (unit_last (ed e) u2) (unit_first (ed e) (zero_on e fl) u1) ->
     new_range_pos e a fl = Ok (R (unit_first (ed e) (zero_on e fl) u2) (unit_last (ed e) u1))).

(** True unless the range begins with the verse 0 of a named book or chapter, VERSE_0 is given as an argument
    and the global flags do not contain it. *)
Theorem C09_units_partial : forall e a fl u1 u2, wf_data (ed e) -> books_listed (ed e) a ->
  first_unit a = Some u1 -> second_unit a = Some u2 ->
  unit_ok (ed e) (zero_on e fl) u1 -> unit_ok (ed e) (zero_on e fl) u2 ->
  multi_on e fl = true \/ unit_book u1 = unit_book u2 ->
  (vle (ed e) (unit_first (ed e) (zero_on e fl) u1) (unit_last (ed e) u2) -> can_start e fl u1 ->
     new_range_pos e a fl = Ok (R (unit_first (ed e) (zero_on e fl) u1) (unit_last (ed e) u2))) /\
  (vlt (ed e) (unit_last (ed e) u2) (unit_first (ed e) (zero_on e fl) u1) -> can_start e fl u2 ->
     new_range_pos e a fl = Ok (R (unit_first (ed e) (zero_on e fl) u2) (unit_last (ed e) u1))).
Proof.
  intros e a fl u1 u2 Hwf Ha U1 U2 O1 O2 Hm. destruct (new_range_pos_units e Hwf a fl u1 u2 Ha U1 U2 O1 O2) as [N1 N2].
  assert (Hb : forall x y, (x = u1 /\ y = u2) \/ (x = u2 /\ y = u1) ->
     negb (multi_on e fl) && negb (book_eqb (unit_book x) (unit_book y)) = false).
  { intros x y Hxy. destruct Hm as [-> | Hm]; [reflexivity|].
    replace (unit_book x) with (unit_book y) by (destruct Hxy as [[-> ->]|[-> ->]]; congruence).
    now rewrite book_eqb_refl, andb_false_r. }
  split; intros Hv Hc; [rewrite N1 by auto|rewrite N2 by auto]; unfold build; rewrite Hb by auto; reflexivity.
Qed.
(** The condition holds whenever global flags and call agree about verse 0s. *)
Theorem C09_condition : forall e fl u, wf_data (ed e) -> zero_on e fl = verse0 (eg e) ->
  In (unit_book u) (book_order (ed e)) -> unit_ok (ed e) (zero_on e fl) u -> can_start e fl u.
Proof. intros e fl u Hwf. exact (startable_agree e Hwf fl u). Qed.
(** When it fails the result is InvalidRef. *)
Theorem C09_cannot_start : forall e a fl u1 u2, wf_data (ed e) -> books_listed (ed e) a ->
  first_unit a = Some u1 -> second_unit a = Some u2 ->
  unit_ok (ed e) (zero_on e fl) u1 -> unit_ok (ed e) (zero_on e fl) u2 ->
  (vle (ed e) (unit_first (ed e) (zero_on e fl) u1) (unit_last (ed e) u2) -> ~ can_start e fl u1 ->
     new_range_pos e a fl = Err InvalidRef) /\
  (vlt (ed e) (unit_last (ed e) u2) (unit_first (ed e) (zero_on e fl) u1) -> ~ can_start e fl u2 ->
     new_range_pos e a fl = Err InvalidRef).
Proof. intros e a fl u1 u2 Hwf. exact (new_range_pos_cannot e Hwf a fl u1 u2). Qed.
(** Units in different books without MULTIBOOK, units that do not exist, and a verse without a chapter are refused. *)
Theorem C09_multibook : forall e a fl u1 u2, wf_data (ed e) -> books_listed (ed e) a ->
  first_unit a = Some u1 -> second_unit a = Some u2 ->
  unit_ok (ed e) (zero_on e fl) u1 -> unit_ok (ed e) (zero_on e fl) u2 -> can_start e fl u1 -> can_start e fl u2 ->
  multi_on e fl = false -> unit_book u1 <> unit_book u2 -> new_range_pos e a fl = Err Multibook.
Proof.
  intros e a fl u1 u2 Hwf Ha U1 U2 O1 O2 S1 S2 Hm Hb. destruct (new_range_pos_units e Hwf a fl u1 u2 Ha U1 U2 O1 O2) as [N1 N2].
  pose proof (first_unit_listed e a u1 Ha U1) as I1. pose proof (second_unit_listed e a u2 Ha U2) as I2.
  destruct (unit_bounds e Hwf _ u1 I1 O1) as (F1 & _ & _). destruct (unit_bounds e Hwf _ u2 I2 O2) as (_ & L2 & _).
  apply (InB_mono e) in F1, L2.
  destruct (Z.le_gt_cases (pos e (unit_first (ed e) (zero_on e fl) u1)) (pos e (unit_last (ed e) u2))).
  - rewrite N1 by (auto; apply (vle_pos e Hwf); auto). unfold build. rewrite Hm.
    replace (book_eqb (unit_book u1) (unit_book u2)) with false; [reflexivity|]. symmetry. now apply book_eqb_neq.
  - rewrite N2 by (auto; apply (vlt_pos e Hwf); auto). unfold build. rewrite Hm.
    replace (book_eqb (unit_book u2) (unit_book u1)) with false; [reflexivity|]. symmetry. apply book_eqb_neq. congruence.
Qed.
Theorem C09_invalid : forall e a fl, wf_data (ed e) -> books_listed (ed e) a ->
  (forall u1 u2, first_unit a = Some u1 -> second_unit a = Some u2 ->
     ~ (unit_ok (ed e) (zero_on e fl) u1 /\ unit_ok (ed e) (zero_on e fl) u2)) ->
  new_range_pos e a fl = Err InvalidRef.
Proof.
  intros e a fl Hwf Ha H. apply (new_range_pos_bad e Hwf); [exact Ha|].
  destruct (first_unit a) as [u1|] eqn:U1; [|left; exact I]. destruct (second_unit a) as [u2|] eqn:U2; [|right; exact I].
  cbn [bad_unit]. specialize (H u1 u2 eq_refl eq_refl). destruct (ok_dec e (zero_on e fl) u1); [|auto]. right. tauto.
Qed.
Theorem C09_units_refuted : exists e a fl u1 u2, wf_data (ed e) /\ books_listed (ed e) a /\
  first_unit a = Some u1 /\ second_unit a = Some u2 /\
  unit_ok (ed e) (zero_on e fl) u1 /\ unit_ok (ed e) (zero_on e fl) u2 /\ unit_book u1 = unit_book u2 /\
  vle (ed e) (unit_first (ed e) (zero_on e fl) u1) (unit_last (ed e) u2) /\
  new_range_pos e a fl = Err InvalidRef.
Proof.
  exists (denv NONE), (PA Psa (Some 3) None None None None), (Some VERSE_0), (UChap Psa 3), (UChap Psa 3).
  split; [exact default_wf|]. split; [split; [apply mem_book_in; vm_compute; reflexivity|discriminate]|].
  split; [reflexivity|]. split; [reflexivity|]. split; [vm_compute; split; discriminate|]. split; [vm_compute; split; discriminate|].
  split; [reflexivity|]. split; [|vm_compute; reflexivity].
  apply (vle_iff (denv NONE) default_wf). split; [in_bible|]. split; [in_bible|vm_compute; reflexivity].
Qed.

(** Order of the units: two units of which one is wholly before the other may be named in either order. *)
Definition unit_chap_num (u : unit_ref) : option Z := match u with UBook _ => None | UChap _ c => Some c | UVerse _ c _ => Some c end.
Definition unit_verse_num (u : unit_ref) : option Z := match u with UVerse _ _ v => Some v | _ => None end.
Definition args_of (u1 u2 : unit_ref) : pos_args :=
  PA (unit_book u1) (unit_chap_num u1) (unit_verse_num u1) (Some (unit_book u2)) (unit_chap_num u2) (unit_verse_num u2).
Definition C09_order_statement : Prop := forall e fl u1 u2, wf_data (ed e) ->
  In (unit_book u1) (book_order (ed e)) -> In (unit_book u2) (book_order (ed e)) ->
  new_range_pos e (args_of u1 u2) fl = new_range_pos e (args_of u2 u1) fl.
Lemma args_units : forall u1 u2, first_unit (args_of u1 u2) = Some u1 /\ second_unit (args_of u1 u2) = Some u2.
Proof. intros [b|b c|b c v] [b'|b' c'|b' c' v']; split; reflexivity. Qed.
Theorem C09_either_order_partial : forall e fl u1 u2, wf_data (ed e) ->
  In (unit_book u1) (book_order (ed e)) -> In (unit_book u2) (book_order (ed e)) ->
  vlt (ed e) (unit_last (ed e) u1) (unit_first (ed e) (zero_on e fl) u2) ->
  new_range_pos e (args_of u1 u2) fl = new_range_pos e (args_of u2 u1) fl.
Proof.
  intros e fl u1 u2 Hwf I1 I2 Hlt.
  assert (L12 : books_listed (ed e) (args_of u1 u2)) by (split; [exact I1|cbn; intros b E; injection E as <-; exact I2]).
  assert (L21 : books_listed (ed e) (args_of u2 u1)) by (split; [exact I2|cbn; intros b E; injection E as <-; exact I1]).
  destruct (args_units u1 u2) as [A1 A2]. destruct (args_units u2 u1) as [B1 B2].
  destruct (ok_dec e (zero_on e fl) u1) as [O1|O1].
  2:{ rewrite !(new_range_pos_bad e Hwf); auto; rewrite ?A1, ?A2, ?B1, ?B2; auto. }
  destruct (ok_dec e (zero_on e fl) u2) as [O2|O2].
  2:{ rewrite !(new_range_pos_bad e Hwf); auto; rewrite ?A1, ?A2, ?B1, ?B2; auto. }
  destruct (new_range_pos_units e Hwf _ fl _ _ L12 A1 A2 O1 O2) as [N1 _].
  destruct (new_range_pos_units e Hwf _ fl _ _ L21 B1 B2 O2 O1) as [_ M2].
  destruct (new_range_pos_cannot e Hwf _ fl _ _ L12 A1 A2 O1 O2) as [N3 _].
  destruct (new_range_pos_cannot e Hwf _ fl _ _ L21 B1 B2 O2 O1) as [_ M4].
  assert (Hle : vle (ed e) (unit_first (ed e) (zero_on e fl) u1) (unit_last (ed e) u2)).
  { destruct (unit_bounds e Hwf _ u1 I1 O1) as (F1 & _ & P1). destruct (unit_bounds e Hwf _ u2 I2 O2) as (_ & L2 & P2).
    apply (InB_mono e) in F1, L2. apply (vlt_pos e Hwf) in Hlt. apply (vle_pos e Hwf). intuition lia. }
  destruct (startable_dec e fl u1) as [S1|S1].
  - rewrite N1, M2 by auto. reflexivity.
  - rewrite N3, M4 by auto. reflexivity.
Qed.
(** "Matthew 5 to Matthew" ends with the book, "Matthew to Matthew 5" with chapter 5. *)
Theorem C09_either_order_refuted : exists e fl u1 u2, wf_data (ed e) /\
  In (unit_book u1) (book_order (ed e)) /\ In (unit_book u2) (book_order (ed e)) /\
  new_range_pos e (args_of u1 u2) fl = Ok (R (V Matt 5 1) (V Matt 28 20)) /\
  new_range_pos e (args_of u2 u1) fl = Ok (R (V Matt 1 1) (V Matt 5 48)).
Proof.
  exists (denv NONE), None, (UChap Matt 5), (UBook Matt). split; [exact default_wf|].
  split; [apply mem_book_in; vm_compute; reflexivity|]. split; [apply mem_book_in; vm_compute; reflexivity|].
  split; vm_compute; reflexivity.
Qed.
Example C09_ex :
  new_range_pos (denv NONE) (PA Matt None None None None None) None = Ok (R (V Matt 1 1) (V Matt 28 20)) /\
  new_range_pos (denv NONE) (PA Matt (Some 5) None None (Some 7) None) None = Ok (R (V Matt 5 1) (V Matt 7 29)) /\
  new_range_pos (denv NONE) (PA Matt (Some 5) (Some 3) None None (Some 1)) None = Ok (R (V Matt 5 1) (V Matt 5 3)) /\
  new_range_pos (denv NONE) (PA Matt (Some 7) None None (Some 5) (Some 2)) None = Ok (R (V Matt 5 2) (V Matt 7 29)) /\
  new_range_pos (denv MULTIBOOK) (PA Mark None None (Some Matt) None None) None = Ok (R (V Matt 1 1) (V Mark 16 20)) /\
  new_range_pos (denv NONE) (PA Matt None (Some 3) None None None) None = Err InvalidRef /\
  first_unit (PA Matt (Some 7) None None (Some 5) (Some 2)) = Some (UChap Matt 7) /\
  second_unit (PA Matt (Some 7) None None (Some 5) (Some 2)) = Some (UVerse Matt 5 2).
Proof. repeat split; vm_compute; reflexivity. Qed.

(** ** C40 *)
Theorem C40_verse_0_to_1 : forall e v, wf_data (ed e) -> InB (ed e) true v ->
  exists w, verse_0_to_1 e v = Ok w /\ InB (ed e) false w /\
    (vverse v = 0 -> w = V (vbook v) (vchap v) 1) /\ (vverse v <> 0 -> w = v).
Proof.
  intros e v Hwf Hv. destruct (verse_0_to_1_ok e Hwf v Hv) as [H1 H2]. exists (to_1 v). split; auto. split; auto.
  unfold to_1. destruct (Z.eqb_spec (vverse v) 0); split; auto; contradiction.
Qed.
Theorem C40_verse_1_to_0 : forall e v, wf_data (ed e) -> InB (ed e) true v ->
  exists w, verse_1_to_0 e v = Ok w /\ InB (ed e) true w /\
    (vverse v = 1 -> InB (ed e) true (V (vbook v) (vchap v) 0) -> w = V (vbook v) (vchap v) 0) /\
    (vverse v <> 1 \/ ~ InB (ed e) true (V (vbook v) (vchap v) 0) -> w = v).
Proof.
  intros e v Hwf Hv. destruct (verse_1_to_0_ok e Hwf v Hv) as [H1 H2]. exists (to_0 e v). split; auto. split; auto.
  assert (Hz : InB (ed e) true (V (vbook v) (vchap v) 0) <-> zmem (vchap v) (verse_0s (ed e) (vbook v)) = true).
  { rewrite (in_bible_verses e). cbn [vbook vchap vverse]. unfold legal, first_num. cbn [andb].
    pose proof (InB_book e _ _ Hv). apply (InB_legal e) in Hv. destruct Hv as [Hc _].
    pose proof (last_num_pos e Hwf _ _ H Hc). destruct (zmem (vchap v) (verse_0s (ed e) (vbook v))); intuition (auto; try lia; try discriminate). }
  rewrite Hz. unfold to_0. destruct (Z.eqb_spec (vverse v) 1); cbn [andb].
  - destruct (zmem (vchap v) (verse_0s (ed e) (vbook v))); split; auto; intuition congruence.
  - split; auto. contradiction.
Qed.
Theorem C40_idempotent : forall e v w, wf_data (ed e) -> InB (ed e) true v ->
  (verse_0_to_1 e v = Ok w -> verse_0_to_1 e w = Ok w) /\ (verse_1_to_0 e v = Ok w -> verse_1_to_0 e w = Ok w).
Proof.
  intros e v w Hwf Hv. destruct (verse_0_to_1_ok e Hwf v Hv) as [H1 _]. destruct (verse_1_to_0_ok e Hwf v Hv) as [H2 I2].
  rewrite H1, H2. split; intros H; injection H as <-.
  - destruct (verse_0_to_1_ok e Hwf v Hv) as [_ I1]. apply (InB_false_verse e) in I1; auto.
    unfold verse_0_to_1. destruct (Z.eqb_spec (vverse (to_1 v)) 0); [tauto|reflexivity].
  - destruct (verse_1_to_0_ok e Hwf _ I2) as [-> _]. f_equal. unfold to_0 at 1.
    destruct (Z.eqb_spec (vverse (to_0 e v)) 1) as [E|E]; auto. cbn [andb].
    unfold to_0 in *. destruct ((vverse v =? 1) && zmem (vchap v) (verse_0s (ed e) (vbook v))) eqn:Ez; [cbn in E; lia|].
    rewrite E in Ez. cbn [Z.eqb andb Pos.eqb] in Ez. now rewrite Ez.
Qed.
Theorem C40_order : forall e a b a' b', wf_data (ed e) -> vle (ed e) a b ->
  (verse_0_to_1 e a = Ok a' -> verse_0_to_1 e b = Ok b' -> vle (ed e) a' b') /\
  (verse_1_to_0 e a = Ok a' -> verse_1_to_0 e b = Ok b' -> vle (ed e) a' b').
Proof.
  intros e a b a' b' Hwf Hle. apply (vle_pos e Hwf) in Hle. destruct Hle as (Ha & Hb & Hp).
  destruct (verse_0_to_1_ok e Hwf a Ha) as [-> Ia]. destruct (verse_0_to_1_ok e Hwf b Hb) as [-> Ib].
  destruct (verse_1_to_0_ok e Hwf a Ha) as [-> Ja]. destruct (verse_1_to_0_ok e Hwf b Hb) as [-> Jb].
  apply (InB_mono e) in Ia, Ib. split; intros E1 E2; injection E1 as <-; injection E2 as <-; apply (vle_pos e Hwf).
  - auto using (to_1_mono e Hwf).
  - auto using (to_0_mono e Hwf).
Qed.
(** Ranges: both ends are mapped; the result is always a legal range. *)
Theorem C40_ranges : forall e r, wf_data (ed e) -> wf_range (ed e) true r ->
  (exists r', r_verse_0_to_1 e r = Ok r' /\ wf_range (ed e) false r' /\
     verse_0_to_1 e (rstart r) = Ok (rstart r') /\ verse_0_to_1 e (rend r) = Ok (rend r')) /\
  (exists r', r_verse_1_to_0 e r = Ok r' /\ wf_range (ed e) true r' /\
     verse_1_to_0 e (rstart r) = Ok (rstart r') /\ verse_1_to_0 e (rend r) = Ok (rend r')).
Proof.
  intros e r Hwf Hr. pose proof Hr as (Hs & Ht & _). split.
  - eexists. split; [exact (proj1 (r_0_to_1_ok e Hwf r Hr))|]. split; [exact (proj2 (r_0_to_1_ok e Hwf r Hr))|].
    split; apply (verse_0_to_1_ok e Hwf); auto.
  - eexists. split; [exact (proj1 (r_1_to_0_ok e Hwf r Hr))|]. split; [exact (proj2 (r_1_to_0_ok e Hwf r Hr))|].
    split; apply (verse_1_to_0_ok e Hwf); auto.
Qed.
Example C40_ex : verse_0_to_1 (denv NONE) (V Psa 3 0) = Ok (V Psa 3 1) /\
  verse_1_to_0 (denv NONE) (V Psa 3 1) = Ok (V Psa 3 0) /\ verse_1_to_0 (denv NONE) (V Gen 3 1) = Ok (V Gen 3 1) /\
  r_verse_1_to_0 (denv NONE) (R (V Psa 2 12) (V Psa 4 1)) = Ok (R (V Psa 2 12) (V Psa 4 0)) /\
  r_verse_0_to_1 (denv NONE) (R (V Psa 3 0) (V Psa 3 0)) = Ok (R (V Psa 3 1) (V Psa 3 1)) /\
  InB default_data true (V Psa 3 0).
Proof. do 5 (split; [vm_compute; reflexivity|]). in_bible. Qed.

(** ** C42 *)
Definition C42_statement : Prop := forall e b fl, wf_data (ed e) -> In b (book_order (ed e)) ->
  exists r, book_range e b fl = Ok r /\ verses_of (ed e) (zero_on e fl) r (book_verses (ed e) (zero_on e fl) b).
Theorem C42_book_range_partial : forall e b fl, wf_data (ed e) -> In b (book_order (ed e)) -> can_start e fl (UBook b) ->
  exists r, book_range e b fl = Ok r /\ verses_of (ed e) (zero_on e fl) r (book_verses (ed e) (zero_on e fl) b).
Proof.
  intros e b fl Hwf Hb Hc. eexists. split; [exact (unit_range_ok e Hwf b None fl Hb I Hc)|].
  exact (unit_verses_of e Hwf _ (UBook b) Hb I).
Qed.
Theorem C42_chap_range_partial : forall e b c fl, wf_data (ed e) -> In b (book_order (ed e)) ->
  1 <= c <= num_chaps (ed e) b -> can_start e fl (UChap b c) ->
  exists r, book_chap_range e b c fl = Ok r /\ verses_of (ed e) (zero_on e fl) r (chap_verses (ed e) (zero_on e fl) b c).
Proof.
  intros e b c fl Hwf Hb Hn Hc. eexists. split; [exact (unit_range_ok e Hwf b (Some c) fl Hb Hn Hc)|].
  exact (unit_verses_of e Hwf _ (UChap b c) Hb Hn).
Qed.
Theorem C42_chap_ranges_partial : forall e b fl, wf_data (ed e) -> In b (book_order (ed e)) -> can_start e fl (UBook b) ->
  exists ps, book_chap_ranges e b fl = Ok ps /\
    Forall2 (fun p c => verses_of (ed e) (zero_on e fl) p (chap_verses (ed e) (zero_on e fl) b c)) ps
            (zrange 1 (num_chaps (ed e) b)).
Proof. intros e b fl Hwf. exact (chap_ranges_ok e Hwf b fl). Qed.
Theorem C42_no_chapter : forall e b c fl, wf_data (ed e) -> In b (book_order (ed e)) ->
  ~ (1 <= c <= num_chaps (ed e) b) ->
  book_chap_range e b c fl = Err InvalidRef /\ first_verse e b (Some c) fl = Err InvalidRef /\ last_verse e b (Some c) = Err InvalidRef.
Proof.
  intros e b c fl Hwf Hb Hc. split; [exact (unit_range_bad e Hwf b c fl Hb Hc)|].
  split; [now apply (first_verse_bad e Hwf)|now apply (last_verse_bad e Hwf)].
Qed.
Theorem C42_first_verse_partial : forall e b c fl, wf_data (ed e) -> In b (book_order (ed e)) ->
  (can_start e fl (UBook b) -> exists v, first_verse e b None fl = Ok v /\
     hd_error (book_verses (ed e) (zero_on e fl) b) = Some v) /\
  (1 <= c <= num_chaps (ed e) b -> can_start e fl (UChap b c) -> exists v, first_verse e b (Some c) fl = Ok v /\
     hd_error (chap_verses (ed e) (zero_on e fl) b c) = Some v).
Proof.
  intros e b c fl Hwf Hb. split.
  - intros Hc. eexists. split; [exact (proj1 (first_verse_unit e Hwf b None fl Hb I) Hc)|]. now apply (book_ends e Hwf).
  - intros Hn Hc. eexists. split; [exact (proj1 (first_verse_unit e Hwf b (Some c) fl Hb Hn) Hc)|]. now apply (chap_ends e Hwf).
Qed.
Theorem C42_last_verse : forall e b c z, wf_data (ed e) -> In b (book_order (ed e)) ->
  (exists v, last_verse e b None = Ok v /\ hd_error (rev (book_verses (ed e) z b)) = Some v) /\
  (1 <= c <= num_chaps (ed e) b -> exists v, last_verse e b (Some c) = Ok v /\
     hd_error (rev (chap_verses (ed e) z b c)) = Some v).
Proof.
  intros e b c z Hwf Hb. split.
  - eexists. split; [exact (last_verse_unit e Hwf b None Hb I)|]. now apply (book_ends e Hwf).
  - intros Hn. eexists. split; [exact (last_verse_unit e Hwf b (Some c) Hb Hn)|]. now apply (chap_ends e Hwf).
Qed.
Theorem C42_counts : forall e b fl, wf_data (ed e) -> In b (book_order (ed e)) ->
  chap_count e b = num_chaps (ed e) b /\ book_verse_count e b fl = Ok (zlen (book_verses (ed e) (zero_on e fl) b)).
Proof. intros e b fl Hwf. exact (book_count_ok e Hwf b fl). Qed.
Theorem C42_whole_bible_partial : forall e fl b0 o bn o', wf_data (ed e) ->
  book_order (ed e) = b0 :: o -> rev (book_order (ed e)) = bn :: o' -> can_start e fl (UBook b0) ->
  exists r, whole_bible e fl = Ok r /\ verses_of (ed e) (zero_on e fl) r (bible_verses (ed e) (zero_on e fl)) /\
    forall v, InB (ed e) (zero_on e fl) v -> InR (ed e) v r.
Proof.
  intros e fl b0 o bn o' Hwf H1 H2 Hc. eexists. split; [exact (whole_bible_ok e Hwf fl b0 o bn o' H1 H2 Hc)|].
  pose proof (bible_ends e Hwf (zero_on e fl) _ _ _ _ H1 H2) as Hv. split; [exact Hv|].
  intros v Hi. now apply (verses_of_In e Hwf _ _ _ v Hv) in Hi.
Qed.
(** The range of the chapters (books) that a verse or a range touches. *)
Theorem C42_verse_ranges_partial : forall e v fl, wf_data (ed e) -> InB (ed e) true v ->
  (can_start e fl (UChap (vbook v) (vchap v)) -> exists r, v_chap_range e v fl = Ok r /\
     verses_of (ed e) (zero_on e fl) r (chap_verses (ed e) (zero_on e fl) (vbook v) (vchap v))) /\
  (can_start e fl (UBook (vbook v)) -> exists r, v_book_range e v fl = Ok r /\
     verses_of (ed e) (zero_on e fl) r (book_verses (ed e) (zero_on e fl) (vbook v))).
Proof.
  intros e v fl Hwf Hv. destruct (unit_of_ok e true v Hv) as [Hb Hc]. split; intros Hs.
  - exact (C42_chap_range_partial e (vbook v) (vchap v) fl Hwf Hb Hc Hs).
  - exact (C42_book_range_partial e (vbook v) fl Hwf Hb Hs).
Qed.
Theorem C42_refuted : exists e b c, wf_data (ed e) /\ In b (book_order (ed e)) /\ 1 <= c <= num_chaps (ed e) b /\
  book_chap_range e b c (Some VERSE_0) = Err InvalidRef.
Proof.
  exists (denv NONE), Psa, 3. split; [exact default_wf|]. split; [apply mem_book_in; vm_compute; reflexivity|].
  split; [vm_compute; split; discriminate|vm_compute; reflexivity].
Qed.
Example C42_ex : book_range (denv NONE) Phlm None = Ok (R (V Phlm 1 1) (V Phlm 1 25)) /\
  book_chap_range (denv VERSE_0) Psa 3 None = Ok (R (V Psa 3 0) (V Psa 3 8)) /\
  book_chap_ranges (denv NONE) Titus None =
    Ok [R (V Titus 1 1) (V Titus 1 16); R (V Titus 2 1) (V Titus 2 15); R (V Titus 3 1) (V Titus 3 15)] /\
  book_verse_count (denv NONE) Psa None = Ok 2461 /\ book_verse_count (denv NONE) Psa (Some VERSE_0) = Ok 2577 /\
  whole_bible (denv NONE) None = Ok (R (V Gen 1 1) (V Rev 22 21)) /\ can_start (denv VERSE_0) None (UChap Psa 3).
Proof. do 6 (split; [vm_compute; reflexivity|]). intros _. in_bible. Qed.

(** ** C43.  The result of each test, when its universe is that of the flags in effect. *)
Definition decides (x : res bool) (P : Prop) : Prop := exists b, x = Ok b /\ (b = true <-> P).
Definition C43_statement : Prop := forall e r fl, wf_data (ed e) -> wf_range (ed e) true r ->
  decides (is_whole_chap e r fl)
    (exists b c, In b (book_order (ed e)) /\ 1 <= c <= num_chaps (ed e) b /\
       verses_of (ed e) (zero_on e fl) r (chap_verses (ed e) (zero_on e fl) b c)) /\
  decides (spans_start_chap e r fl)
    (forall v, In v (chap_verses (ed e) (zero_on e fl) (vbook (rstart r)) (vchap (rstart r))) -> InR (ed e) v r).
Theorem C43_is_whole_chap_partial : forall e r fl, wf_data (ed e) -> wf_range (ed e) true r ->
  can_start e fl (UChap (vbook (rstart r)) (vchap (rstart r))) ->
  decides (is_whole_chap e r fl)
    (exists b c, In b (book_order (ed e)) /\ 1 <= c <= num_chaps (ed e) b /\
       verses_of (ed e) (zero_on e fl) r (chap_verses (ed e) (zero_on e fl) b c)).
Proof. intros e r fl Hwf. exact (is_whole_chap_ok e Hwf r fl). Qed.
Theorem C43_is_whole_book_partial : forall e r fl, wf_data (ed e) -> wf_range (ed e) true r ->
  can_start e fl (UBook (vbook (rstart r))) ->
  decides (is_whole_book e r fl)
    (exists b, In b (book_order (ed e)) /\ verses_of (ed e) (zero_on e fl) r (book_verses (ed e) (zero_on e fl) b)).
Proof. intros e r fl Hwf. exact (is_whole_book_ok e Hwf r fl). Qed.
Theorem C43_spans_chap_partial : forall e r fl, wf_data (ed e) -> wf_range (ed e) (zero_on e fl) r ->
  (can_start e fl (UChap (vbook (rstart r)) (vchap (rstart r))) -> decides (spans_start_chap e r fl)
    (forall v, In v (chap_verses (ed e) (zero_on e fl) (vbook (rstart r)) (vchap (rstart r))) -> InR (ed e) v r)) /\
  (can_start e fl (UChap (vbook (rend r)) (vchap (rend r))) -> decides (spans_end_chap e r fl)
    (forall v, In v (chap_verses (ed e) (zero_on e fl) (vbook (rend r)) (vchap (rend r))) -> InR (ed e) v r)).
Proof.
  intros e r fl Hwf Hr. pose proof Hr as (Hs & Ht & _). split; intros Hc.
  - apply (spans_start_gen e Hwf r (Some (vchap (rstart r))) fl); auto.
    + apply (unit_of_ok e). now apply (InB_mono e) in Hs.
    + cbn. auto.
  - apply (spans_end_gen e Hwf r (Some (vchap (rend r))) fl); auto.
    + apply (unit_of_ok e). now apply (InB_mono e) in Ht.
    + cbn. auto.
Qed.
Theorem C43_spans_book_partial : forall e r fl, wf_data (ed e) -> wf_range (ed e) (zero_on e fl) r ->
  (can_start e fl (UBook (vbook (rstart r))) -> decides (spans_start_book e r fl)
    (forall v, In v (book_verses (ed e) (zero_on e fl) (vbook (rstart r))) -> InR (ed e) v r)) /\
  (can_start e fl (UBook (vbook (rend r))) -> decides (spans_end_book e r fl)
    (forall v, In v (book_verses (ed e) (zero_on e fl) (vbook (rend r))) -> InR (ed e) v r)).
Proof.
  intros e r fl Hwf Hr. split; intros Hc.
  - apply (spans_start_gen e Hwf r None fl); auto; cbn; auto.
  - apply (spans_end_gen e Hwf r None fl); auto; cbn; auto.
Qed.
Lemma hd_decides : forall (x : res verse) v (o : option verse) w, x = Ok w -> o = Some w ->
  decides (y <- x ;; Ok (verse_eqb v y)) (o = Some v).
Proof.
  intros x v o w -> ->. exists (verse_eqb v w). split; [reflexivity|]. rewrite verse_eqb_eq. split; congruence.
Qed.
(** A chapter or book may be given; otherwise it is the verse's own. *)
Theorem C43_is_first_partial : forall e v oc ob fl, wf_data (ed e) -> In (vbook v) (book_order (ed e)) ->
  let c := match oc with Some c => c | None => vchap v end in
  let b := match ob with Some b => b | None => vbook v end in
  (1 <= c <= num_chaps (ed e) (vbook v) -> can_start e fl (UChap (vbook v) c) ->
     decides (is_first_in_chap e v oc fl) (hd_error (chap_verses (ed e) (zero_on e fl) (vbook v) c) = Some v)) /\
  (In b (book_order (ed e)) -> can_start e fl (UBook b) ->
     decides (is_first_in_book e v ob fl) (hd_error (book_verses (ed e) (zero_on e fl) b) = Some v)).
Proof.
  intros e v oc ob fl Hwf Hb c b. split.
  - intros Hn Hc. destruct (proj2 (C42_first_verse_partial e (vbook v) c fl Hwf Hb) Hn Hc) as (w & H1 & H2).
    exact (hd_decides _ v _ w H1 H2).
  - intros Hb' Hc. destruct (proj1 (C42_first_verse_partial e b 0 fl Hwf Hb') Hc) as (w & H1 & H2).
    exact (hd_decides _ v _ w H1 H2).
Qed.
Theorem C43_is_last : forall e v oc ob z, wf_data (ed e) -> In (vbook v) (book_order (ed e)) ->
  let c := match oc with Some c => c | None => vchap v end in
  let b := match ob with Some b => b | None => vbook v end in
  (1 <= c <= num_chaps (ed e) (vbook v) ->
     decides (is_last_in_chap e v oc) (hd_error (rev (chap_verses (ed e) z (vbook v) c)) = Some v)) /\
  (In b (book_order (ed e)) ->
     decides (is_last_in_book e v ob) (hd_error (rev (book_verses (ed e) z b)) = Some v)).
Proof.
  intros e v oc ob z Hwf Hb c b. split.
  - intros Hn. destruct (proj2 (C42_last_verse e (vbook v) c z Hwf Hb) Hn) as (w & H1 & H2).
    exact (hd_decides _ v _ w H1 H2).
  - intros Hb'. destruct (proj1 (C42_last_verse e b 0 z Hwf Hb')) as (w & H1 & H2).
    exact (hd_decides _ v _ w H1 H2).
Qed.
(** A single verse range. *)
Theorem C43_is_single_verse : forall e r z, wf_data (ed e) -> wf_range (ed e) z r ->
  (is_single_verse r = true <-> exists v, forall w, InR (ed e) w r <-> w = v).
Proof.
  intros e r z Hwf Hr. apply (wf_range_mono e) in Hr. pose proof Hr as Hr'. apply (wf_range_pos e Hwf) in Hr'.
  destruct Hr' as (Hs & Ht & Hp). unfold is_single_verse. rewrite verse_eqb_eq. split.
  - intros E. exists (rstart r). intros w. rewrite (InR_pos e Hwf). rewrite <- E in *. split.
    + intros H. apply (pos_eq e); try tauto. lia.
    + intros ->. intuition lia.
  - intros [v H].
    assert (H1 : InR (ed e) (rstart r) r) by (apply (InR_pos e Hwf); intuition lia).
    assert (H2 : InR (ed e) (rend r) r) by (apply (InR_pos e Hwf); intuition lia).
    apply H in H1, H2. congruence.
Qed.
(** A range beginning with a verse 0 is not recognised when verse 0s are off, although it contains the whole chapter;
    and with VERSE_0 only in the argument the test raises. *)
Theorem C43_spans_refuted : exists e r fl, wf_data (ed e) /\ wf_range (ed e) true r /\
  spans_start_chap e r fl = Ok false /\
  (forall v, In v (chap_verses (ed e) (zero_on e fl) (vbook (rstart r)) (vchap (rstart r))) -> InR (ed e) v r).
Proof.
  exists (denv NONE), (R (V Psa 3 0) (V Psa 3 8)), None. split; [exact default_wf|].
  assert (Hr : wf_range default_data true (R (V Psa 3 0) (V Psa 3 8))) by wf_range.
  split; [exact Hr|]. split; [vm_compute; reflexivity|].
  intros v Hv. apply (in_chap_verses (denv NONE)) in Hv. destruct Hv as (Eb & Ec & Hv). cbn [rstart rend vbook vchap] in *.
  change (first_num (ed (denv NONE)) (zero_on (denv NONE) None) Psa 3) with 1 in Hv.
  change (last_num (ed (denv NONE)) Psa 3) with 8 in Hv.
  assert (Hi : InB default_data true v).
  { apply (in_bible_verses (denv NONE)). rewrite Eb, Ec. split; [apply mem_book_in; vm_compute; reflexivity|].
    split; [vm_compute; split; discriminate|]. change (first_num (ed (denv NONE)) true Psa 3) with 0. 
    change (last_num (ed (denv NONE)) Psa 3) with 8. lia. }
  destruct Hr as (Hs & Ht & _). cbn [rstart rend] in *. split; apply (vle_pos (denv NONE) default_wf); cbn [rstart rend];
    (split; [assumption|split; [assumption|]]); apply (pos_book (denv NONE) default_wf); auto; cbn [vchap vverse]; lia.
Qed.
Theorem C43_raises_refuted : exists e r fl, wf_data (ed e) /\ wf_range (ed e) (zero_on e fl) r /\
  is_whole_chap e r fl = Err InvalidRef /\ spans_start_chap e r fl = Err InvalidRef.
Proof.
  exists (denv NONE), (R (V Psa 3 0) (V Psa 3 8)), (Some VERSE_0). split; [exact default_wf|]. split; [wf_range|].
  split; vm_compute; reflexivity.
Qed.
Example C43_ex : is_whole_chap (denv NONE) (R (V Gen 2 1) (V Gen 2 25)) None = Ok true /\
  is_whole_chap (denv NONE) (R (V Gen 1 1) (V Gen 2 25)) None = Ok false /\
  is_whole_book (denv NONE) (R (V Phlm 1 1) (V Phlm 1 25)) None = Ok true /\
  spans_start_chap (denv NONE) (R (V Gen 1 1) (V Gen 2 3)) None = Ok true /\
  spans_end_chap (denv NONE) (R (V Gen 1 1) (V Gen 2 3)) None = Ok false /\
  spans_start_book (denv MULTIBOOK) (R (V Gen 1 1) (V Exod 2 3)) None = Ok true /\
  spans_end_book (denv MULTIBOOK) (R (V Gen 1 1) (V Exod 2 3)) None = Ok false /\
  is_first_in_chap (denv NONE) (V Gen 3 1) None None = Ok true /\ is_last_in_book (denv NONE) (V Gen 50 26) None = Ok true /\
  is_first_in_book (denv NONE) (V Gen 3 1) None None = Ok false /\ is_single_verse (R (V Gen 3 1) (V Gen 3 1)) = true.
Proof. repeat split; vm_compute; reflexivity. Qed.

(** ** C41.  Methods for which the argument has the effect of setting the global flags; the argument NONE never has it. *)
Definition C41_statement : Prop := forall e f v n a b,
  add e v n (Some f) = add (with_flags e f) v n None /\
  subtract e v n (Some f) = subtract (with_flags e f) v n None /\
  union e a b (Some f) = union (with_flags e f) a b None /\
  difference e a b (Some f) = difference (with_flags e f) a b None.
Theorem C41_verses_partial : forall e f, f <> NONE ->
  (forall b c, min_verse_num e b c (Some f) = min_verse_num (with_flags e f) b c None) /\
  (forall b c v, new_verse e b c v (Some f) = new_verse (with_flags e f) b c v None) /\
  (forall v n, add e v n (Some f) = add (with_flags e f) v n None) /\
  (forall b, book_verse_count e b (Some f) = book_verse_count (with_flags e f) b None).
Proof.
  intros e f Hf. split; [exact (min_verse_with e f Hf)|]. split; [exact (new_verse_with e f Hf)|].
  split; [exact (add_with e f Hf)|exact (book_verse_count_with e f Hf)].
Qed.
Theorem C41_ranges_partial : forall e f, f <> NONE ->
  (forall s t, new_range e s t (Some f) = new_range (with_flags e f) s t None) /\
  (forall a b, is_adjacent e a b (Some f) = is_adjacent (with_flags e f) a b None) /\
  (forall a b, union e a b (Some f) = union (with_flags e f) a b None) /\
  (forall a b, intersection e a b (Some f) = intersection (with_flags e f) a b None).
Proof.
  intros e f Hf. split; [exact (new_range_with e f Hf)|]. split; [exact (is_adjacent_with e f Hf)|].
  split; [exact (union_with e f Hf)|exact (intersection_with e f Hf)].
Qed.
Theorem C41_split_partial : forall e f fuel r by_book by_chap num l, f <> NONE -> wf_data (ed e) ->
  verses_of (ed e) (split_zero0 e r (Some f)) r l -> (length l <= fuel)%nat -> (forall n, num = Some n -> 1 <= n) ->
  split_items e fuel r by_book by_chap num (Some f) = split_items (with_flags e f) fuel r by_book by_chap num None.
Proof. intros e f fuel r by_book by_chap num l Hf. exact (split_with e f Hf fuel r by_book by_chap num l). Qed.
(** NONE as an argument does nothing. *)
Theorem C41_none_ignored : forall e v n a b,
  add e v n (Some NONE) = add e v n None /\ subtract e v n (Some NONE) = subtract e v n None /\
  union e a b (Some NONE) = union e a b None /\ new_range e v (rstart a) (Some NONE) = new_range e v (rstart a) None.
Proof. intros e v n a b. repeat split; reflexivity. Qed.
Theorem C41_none_refuted : exists e v n, add e v n (Some NONE) <> add (with_flags e NONE) v n None.
Proof. exists (denv MULTIBOOK), (V Gen 50 26), 1. vm_compute. discriminate. Qed.
Theorem C41_subtract_refuted : exists e f v n, f <> NONE /\
  subtract e v n (Some f) <> subtract (with_flags e f) v n None.
Proof. exists (denv NONE), VERSE_0, (V Psa 5 0), 10. split; [discriminate|]. vm_compute. discriminate. Qed.
Theorem C41_first_verse_refuted : exists e f b c, f <> NONE /\
  first_verse e b (Some c) (Some f) <> first_verse (with_flags e f) b (Some c) None.
Proof. exists (denv NONE), VERSE_0, Psa, 3. split; [discriminate|]. vm_compute. discriminate. Qed.
Theorem C41_difference_refuted : exists e f a b, f <> NONE /\
  difference e a b (Some f) <> difference (with_flags e f) a b None.
Proof.
  exists (denv NONE), MULTIBOOK, (R (V Gen 50 20) (V Exod 1 5)), (R (V Gen 50 22) (V Gen 50 23)).
  split; [discriminate|]. vm_compute. discriminate.
Qed.
Theorem C41_count_refuted : exists e f r, f <> NONE /\ verse_count e r (Some f) <> verse_count (with_flags e f) r None.
Proof. exists (denv NONE), VERSE_0, (R (V Psa 2 1) (V Psa 4 1)). split; [discriminate|]. vm_compute. discriminate. Qed.
Theorem C41_distance_refuted : exists e f v w, f <> NONE /\
  subtract_verse e v w (Some f) <> subtract_verse (with_flags e f) v w None.
Proof. exists (denv NONE), MULTIBOOK, (V Exod 1 1), (V Gen 50 26). split; [discriminate|]. vm_compute. discriminate. Qed.
Example C41_ex : add (denv NONE) (V Gen 50 26) 1 (Some MULTIBOOK) = Ok (Some (V Exod 1 1)) /\
  add (denv NONE) (V Gen 50 26) 1 None = Ok None /\
  union (denv NONE) (R (V Gen 50 1) (V Gen 50 26)) (R (V Exod 1 1) (V Exod 1 3)) (Some MULTIBOOK) = Ok [R (V Gen 50 1) (V Exod 1 3)].
Proof. repeat split; vm_compute; reflexivity. Qed.

(** ** C45.  Ranges over several books when MULTIBOOK is not in effect. *)
Definition several_books (r : range) : Prop := vbook (rstart r) <> vbook (rend r).
Definition C45_statement : Prop := forall e a b fl l v, wf_data (ed e) -> multi_on e fl = false ->
  wf_range (ed e) (zero_on e fl) a -> wf_range (ed e) (zero_on e fl) b -> several_books a -> several_books b ->
  (exists u i, union e a b fl = Ok u /\ intersection e a b fl = Ok i) /\
  (difference e a b fl = Ok l -> InB (ed e) (zero_on e fl) v -> (InL (ed e) v l <-> InR (ed e) v a /\ ~ InR (ed e) v b)).
Theorem C45_counts_split_partial : forall e r fl l, wf_data (ed e) -> multi_on e fl = false -> several_books r ->
  (verses_of (ed e) (count_zero e r) r l -> verse_count e r fl = Ok (zlen l)) /\
  (forall by_book by_chap num fuel, verses_of (ed e) (split_zero0 e r fl) r l -> (length l <= fuel)%nat ->
     (forall n, num = Some n -> 1 <= n) ->
     exists ps ls, split_items e fuel r by_book by_chap num fl = Ok ps /\
       partition_of by_book by_chap (option_map Z.to_nat num) l ls /\
       Forall2 (verses_of (ed e) (split_zero0 e r fl)) ps ls).
Proof.
  intros e r fl l Hwf _ _. split; [now apply C11_verse_count|]. intros by_book by_chap num fuel H1 H2 H3. now apply C12_split.
Qed.
Theorem C45_iteration_partial : forall e r l, wf_data (ed e) -> multibook (eg e) = false -> several_books r ->
  verses_of (ed e) false r l -> exists N, forall fuel, (N <= fuel)%nat -> iter_range e fuel r = Ok l.
Proof. intros e r l Hwf _ _. now apply C10_iteration_partial. Qed.
(** Two multi-book ranges with a common verse: union fails always; intersection exactly when the common part
    is in several books. *)
Theorem C45_union_fails : forall e a b fl, wf_data (ed e) -> wf_range (ed e) true a -> wf_range (ed e) true b ->
  multi_on e fl = false -> several_books a -> touching e fl a b -> union e a b fl = Err Multibook.
Proof.
  intros e a b fl Hwf Ha Hb Hm Hs Ht. destruct (C16_hull e a b true Hwf Ha Hb) as (h & Hh & Hw).
  apply (C16_union_fails e a b h fl); auto. intros E. apply Hs.
  destruct Hh as (_ & _ & H1 & _ & H3 & _). apply (vle_pos e Hwf) in H1, H3. apply (wf_range_pos e Hwf) in Ha.
  destruct H1 as (I1 & I2 & P1), H3 as (I3 & I4 & P3), Ha as (_ & _ & P).
  transitivity (vbook (rstart h)).
  - apply (same_book_between e Hwf (rstart h) (rstart a) (rend h)); auto; try lia.
  - symmetry. apply (same_book_between e Hwf (rstart h) (rend a) (rend h)); auto; lia.
Qed.
Theorem C45_union_refuted : exists e a b, wf_data (ed e) /\ multi_on e None = false /\
  wf_range (ed e) false a /\ wf_range (ed e) false b /\ several_books a /\ several_books b /\ union e a b None = Err Multibook.
Proof.
  exists (denv NONE), (R (V Gen 50 25) (V Exod 1 2)), (R (V Gen 50 26) (V Exod 1 5)). split; [exact default_wf|].
  split; [reflexivity|]. split; [wf_range|]. split; [wf_range|]. split; [discriminate|]. split; [discriminate|]. vm_compute. reflexivity.
Qed.
Theorem C45_intersection_refuted : exists e a b, wf_data (ed e) /\ multi_on e None = false /\
  wf_range (ed e) false a /\ wf_range (ed e) false b /\ several_books a /\ several_books b /\ intersection e a b None = Err Multibook.
Proof.
  exists (denv NONE), (R (V Gen 50 25) (V Exod 1 2)), (R (V Gen 50 26) (V Exod 1 5)). split; [exact default_wf|].
  split; [reflexivity|]. split; [wf_range|]. split; [wf_range|]. split; [discriminate|]. split; [discriminate|]. vm_compute. reflexivity.
Qed.
Theorem C45_difference_refuted : exists e a b, wf_data (ed e) /\ multi_on e None = false /\
  wf_range (ed e) false a /\ wf_range (ed e) false b /\ several_books a /\ several_books b /\ difference e a b None = Err Multibook.
Proof.
  exists (denv NONE), (R (V Gen 50 24) (V Lev 1 4)), (R (V Exod 40 38) (V Lev 1 2)). split; [exact default_wf|].
  split; [reflexivity|]. split; [wf_range|]. split; [wf_range|]. split; [discriminate|]. split; [discriminate|]. vm_compute. reflexivity.
Qed.
Example C45_ex : verse_count (denv NONE) (R (V Gen 50 25) (V Exod 1 2)) None = Ok 4 /\
  split_items (denv NONE) 9 (R (V Gen 50 25) (V Exod 1 2)) true false None None
    = Ok [R (V Gen 50 25) (V Gen 50 26); R (V Exod 1 1) (V Exod 1 2)] /\
  iter_range (denv NONE) 9 (R (V Gen 50 25) (V Exod 1 2)) = Ok [V Gen 50 25; V Gen 50 26; V Exod 1 1; V Exod 1 2].
Proof. repeat split; vm_compute; reflexivity. Qed.
