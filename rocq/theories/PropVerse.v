(** * PropVerse: properties C01-C06 (books and verses).

    Each theorem is stated with Spec.v and the model functions only; the proofs are in PVerse.v.
    [wf_data] holds of the default tables ([default_wf]). *)
From Coq Require Import List ZArith Bool Lia.
From Verif Require Import Base Books Data DefaultData MVerse MRange Spec PCore PNav PVerse PDefault.
Import ListNotations.
Open Scope Z_scope.

(** ** C01 *)
Theorem C01_constructible_iff_exists : forall e b l c v fl w,
  max_verses (ed e) b = Some l ->
  new_verse e b c v fl = Ok w <-> (w = V b c v /\ legal (ed e) (zero_on e fl) b c v).
Proof. exact verse_constructible. Qed.
Theorem C01_otherwise_invalid_partial : forall e b l c v fl,
  max_verses (ed e) b = Some l ->
  ~ legal (ed e) (zero_on e fl) b c v -> new_verse e b c v fl = Err InvalidRef.
Proof. exact verse_not_constructible. Qed.
(** The full claim (any book) is false: for a book without a table, chapter 0 raises [TypeError]. *)
Theorem C01_no_table_refuted : exists e b c v fl, ~ legal (ed e) (zero_on e fl) b c v /\ new_verse e b c v fl = Err TypeErr.
Proof.
  exists (mkEnv (mkData default_book_order (order default_data) (fun _ => None) (verse_0s default_data) (names default_data)
    (range_sep default_data) (major_list_sep default_data) (minor_list_sep default_data) (verse_sep_std default_data) (verse_sep_alt default_data)) NONE), Gen, 0, 1, None.
  split; [unfold legal; lia|vm_compute; reflexivity].
Qed.

Example C01_ex : max_verses default_data Psa <> None /\
  new_verse (denv NONE) Psa 3 0 None = Err InvalidRef /\
  new_verse (denv NONE) Psa 3 0 (Some VERSE_0) = Ok (V Psa 3 0) /\
  new_verse (denv VERSE_0) Psa 3 0 None = Ok (V Psa 3 0) /\
  new_verse (denv VERSE_0) Psa 3 8 None = Ok (V Psa 3 8) /\
  new_verse (denv VERSE_0) Psa 3 9 None = Err InvalidRef.
Proof. vm_compute. repeat split; congruence. Qed.

(** ** C02 *)
Theorem C02_verse_order : forall e i j a b,
  wf_data (ed e) ->
  at_pos (bible_verses (ed e) true) i a -> at_pos (bible_verses (ed e) true) j b ->
  verse_lt e a b = Ok (i <? j)%nat /\ verse_le e a b = Ok (i <=? j)%nat /\
  verse_gt e a b = Ok (j <? i)%nat /\ verse_ge e a b = Ok (j <=? i)%nat /\
  verse_eqb a b = (i =? j)%nat.
Proof. exact verse_order. Qed.
(** The same with positions counted without verse 0s. *)
Theorem C02_verse_order_any : forall e z i j a b,
  wf_data (ed e) ->
  at_pos (bible_verses (ed e) z) i a -> at_pos (bible_verses (ed e) z) j b ->
  verse_lt e a b = Ok (i <? j)%nat.
Proof. exact verse_order_any. Qed.
(** Every verse of the Bible has exactly one position. *)
Theorem C02_positions : forall e z v, wf_data (ed e) ->
  (InB (ed e) z v <-> exists i, at_pos (bible_verses (ed e) z) i v) /\
  (forall i j, at_pos (bible_verses (ed e) z) i v -> at_pos (bible_verses (ed e) z) j v -> i = j).
Proof.
  intros e z v Hwf. split; [exact (InB_pos e z v)|]. intros i j. exact (pos_inj e Hwf z i j v).
Qed.
(** The verses of the Bible are the constructible verses of ordered books. *)
Theorem C02_bible_is_constructible : forall e fl v, wf_data (ed e) ->
  InB (ed e) (zero_on e fl) v <->
  (In (vbook v) (book_order (ed e)) /\ new_verse e (vbook v) (vchap v) (vverse v) fl = Ok v).
Proof.
  intros e fl v Hwf. rewrite (in_bible_verses e). split; intros [Hb H]; (split; [assumption|]);
    destruct (table_of e Hwf _ Hb) as [l Hl].
  - apply (verse_constructible e _ l); auto. destruct v; auto.
  - now apply (verse_constructible e _ l) in H.
Qed.

Example C02_ex : at_pos (bible_verses default_data true) 31 (V Gen 2 1) /\
  verse_lt (denv NONE) (V Gen 2 1) (V Gen 1 31) = Ok false /\
  verse_lt (denv NONE) (V Mal 1 1) (V Matt 28 1) = Ok true.
Proof. vm_compute. auto. Qed.

(** ** C03 *)
Theorem C03_setter : forall d l, NoDup l ->
  exists d', set_book_order d l = (d', Ok tt) /\ book_order d' = l /\ order_ok d' /\
    max_verses d' = max_verses d /\ verse_0s d' = verse_0s d /\ names d' = names d /\
    range_sep d' = range_sep d /\ major_list_sep d' = major_list_sep d /\
    minor_list_sep d' = minor_list_sep d /\ verse_sep_std d' = verse_sep_std d /\
    verse_sep_alt d' = verse_sep_alt d.
Proof. exact set_order_ok. Qed.
Theorem C03_setter_duplicate : forall d l, ~ NoDup l -> snd (set_book_order d l) = Err KeyErr.
Proof. exact set_order_dup. Qed.
Theorem C03_next_prev : forall e i b, wf_data (ed e) -> at_pos (book_order (ed e)) i b ->
  order (ed e) b = Some i /\
  next_book e b = Ok (nth_error (book_order (ed e)) (S i)) /\
  prev_book e b = Ok (match i with O => None | S k => nth_error (book_order (ed e)) k end).
Proof. exact next_prev_at. Qed.
Theorem C03_left_out : forall e b, wf_data (ed e) -> ~ In b (book_order (ed e)) ->
  order (ed e) b = None /\ next_book e b = Ok None /\ prev_book e b = Ok None.
Proof.
  intros e b Hwf Hb. assert (H : order (ed e) b = None).
  { destruct (order (ed e) b) as [i|] eqn:E; [|reflexivity]. destruct Hb.
    apply (order_nth e Hwf) in E. eapply nth_error_In; eauto. }
  split; [assumption|]. now apply next_prev_unordered.
Qed.
Theorem C03_inverse : forall e a b, wf_data (ed e) ->
  next_book e a = Ok (Some b) <-> prev_book e b = Ok (Some a).
Proof. exact next_prev_inverse. Qed.
Theorem C03_book_comparison : forall e i j a b, wf_data (ed e) ->
  at_pos (book_order (ed e)) i a -> at_pos (book_order (ed e)) j b ->
  book_lt e a b = Ok (i <? j)%nat /\ book_le e a b = Ok (i <=? j)%nat /\
  book_gt e a b = Ok (j <? i)%nat /\ book_ge e a b = Ok (j <=? i)%nat.
Proof.
  intros e i j a b Hwf Ha Hb.
  unfold book_lt, book_le, book_gt, book_ge. repeat split; exact (book_cmp_eq e _ a b i j Hwf Ha Hb).
Qed.

Example C03_ex : NoDup [Mark; Gen] /\ ~ NoDup [Mark; Mark] /\
  (let e := mkEnv (fst (set_book_order default_data [Mark; Gen])) NONE in
   next_book e Mark = Ok (Some Gen) /\ next_book e Gen = Ok None /\ prev_book e Gen = Ok (Some Mark) /\
   order (ed e) Rev = None).
Proof.
  split; [repeat constructor; simpl; intuition discriminate|]. split.
  - intros H. inversion H as [|x l Hn Hd]. apply Hn. now left.
  - vm_compute. auto.
Qed.

(** ** C04.  [track] is the sequence of verses (Spec.v); every verse of the Bible is on its track. *)
Theorem C04_on_track : forall e fl v, wf_data (ed e) -> InB (ed e) true v ->
  exists i, at_pos (track e fl v) i v /\ forall j, at_pos (track e fl v) j v -> j = i.
Proof.
  intros e fl v Hwf Hin. destruct (track_pos e fl v Hwf Hin) as [i Hi]. exists i. split; [assumption|].
  intros j Hj. eapply PList.nodup_nth_inj; eauto. now apply track_nodup.
Qed.
Theorem C04_add : forall e v n fl i, wf_data (ed e) -> InB (ed e) true v -> 0 <= n ->
  at_pos (track e fl v) i v -> add e v n fl = Ok (nth_error (track e fl v) (i + Z.to_nat n)).
Proof. exact add_track. Qed.
Theorem C04_add_negative : forall e v n fl, wf_data (ed e) -> InB (ed e) true v -> n < 0 ->
  add e v n fl = if vverse v + n <? first_num (ed e) (track0 e fl v) (vbook v) (vchap v)
                 then Err InvalidRef else Ok (Some (V (vbook v) (vchap v) (vverse v + n))).
Proof. exact add_track_neg. Qed.

Example C04_ex : InB default_data true (V Gen 1 31) /\ at_pos (track (denv NONE) None (V Gen 1 31)) 30 (V Gen 1 31) /\
  add (denv NONE) (V Gen 1 31) 26 None = Ok (Some (V Gen 3 1)) /\
  add (denv NONE) (V Gen 50 26) 1 None = Ok None /\
  add (denv NONE) (V Gen 50 26) 1 (Some MULTIBOOK) = Ok (Some (V Exod 1 1)) /\
  add (denv NONE) (V Psa 3 8) 1 None = Ok (Some (V Psa 4 1)) /\
  add (denv NONE) (V Psa 3 8) 1 (Some VERSE_0) = Ok (Some (V Psa 4 0)) /\
  add (denv NONE) (V Rev 22 21) 1 (Some ALL) = Ok None /\
  add (denv NONE) (V Gen 1 31) (-31) None = Err InvalidRef.
Proof. split; [in_bible|]. vm_compute. auto 10. Qed.

(** ** C05.  The full statement is false: the loop of [subtract] looks up the verse 0s of earlier chapters
    in the global flags (ref.py 530), not in the flags of the call. *)
Definition C05_statement : Prop := forall e v n fl i, wf_data (ed e) -> InB (ed e) true v -> 0 <= n ->
  at_pos (track e fl v) i v ->
  subtract e v n fl = Ok (if (Z.to_nat n <=? i)%nat then nth_error (track e fl v) (i - Z.to_nat n) else None).

(** It holds whenever the global flags agree with the call about verse 0s (in particular whenever no
    [flags] argument is given and the verse is not a verse 0 excluded by the global flags). *)
Theorem C05_subtract_partial : forall e v n fl i, wf_data (ed e) -> InB (ed e) true v -> 0 <= n ->
  track0 e fl v = verse0 (eg e) ->
  at_pos (track e fl v) i v ->
  subtract e v n fl = Ok (if (Z.to_nat n <=? i)%nat then nth_error (track e fl v) (i - Z.to_nat n) else None).
Proof. exact sub_track. Qed.
Theorem C05_subtract_negative : forall e v n fl, wf_data (ed e) -> InB (ed e) true v -> n < 0 ->
  subtract e v n fl = if vverse v - n >? last_num (ed e) (vbook v) (vchap v)
                 then Err InvalidRef else Ok (Some (V (vbook v) (vchap v) (vverse v - n))).
Proof. exact sub_track_neg. Qed.

(** Exactly, for all flags: the verse 0s of the chapter of [v] count as the call says, the others as the global flags say, and to
    end at a verse 0 that the call does not allow is an error. *)
Theorem C05_subtract_exact : forall e v n fl, wf_data (ed e) -> InB (ed e) true v -> 0 <= n ->
  exists i, at_pos (back_track e fl v) i v /\ (forall j, at_pos (back_track e fl v) j v -> j = i) /\
  subtract e v n fl =
    match (if (Z.to_nat n <=? i)%nat then nth_error (back_track e fl v) (i - Z.to_nat n) else None) with
    | None => Ok None
    | Some w => if (vverse w =? 0) && negb (track0 e fl v) then Err InvalidRef else Ok (Some w)
    end.
Proof.
  intros e v n fl Hwf Hin Hn. destruct (back_track_pos e fl v Hwf Hin) as (i & Hi). exists i. split; auto. split; [|now apply sub_back_track].
  intros j Hj. eapply (NoDup_nth_error (back_track e fl v)); [|apply nth_error_Some; unfold at_pos in Hj; congruence|unfold at_pos in *; congruence].
  apply NoDup_filter. destruct (multi_on e fl); [now apply bible_nodup|now apply (book_nodup e)].
Qed.
Example C05_exact_ex : InB default_data true (V Psa 4 1) /\
  subtract (denv NONE) (V Psa 4 1) 2 (Some VERSE_0) = Ok (Some (V Psa 3 8)) /\
  subtract (denv NONE) (V Psa 4 1) 10 (Some VERSE_0) = Ok (Some (V Psa 2 12)) /\
  subtract (denv VERSE_0) (V Psa 4 1) 9 (Some MULTIBOOK) = Err InvalidRef /\
  subtract (denv VERSE_0) (V Psa 4 1) 10 (Some MULTIBOOK) = Ok (Some (V Psa 2 12)).
Proof. split; [in_bible|]. vm_compute. auto 10. Qed.

(** Ten places before Psalm 4:1, counting verse 0s, is Psalm 3:0; the code returns Psalm 2:12. *)
Theorem C05_subtract_refuted : exists e v n fl i, wf_data (ed e) /\ InB (ed e) true v /\ 0 <= n /\
  at_pos (track e fl v) i v /\ (Z.to_nat n <= i)%nat /\
  nth_error (track e fl v) (i - Z.to_nat n) = Some (V Psa 3 0) /\
  subtract e v n fl = Ok (Some (V Psa 2 12)).
Proof.
  exists (denv NONE), (V Psa 4 1), 10, (Some VERSE_0), 28%nat.
  split; [exact default_wf|]. split; [in_bible|]. vm_compute.
  repeat split; congruence || lia.
Qed.

Example C05_ex : InB default_data true (V Gen 3 1) /\ track0 (denv NONE) None (V Gen 3 1) = verse0 NONE /\
  at_pos (track (denv NONE) None (V Gen 3 1)) 56 (V Gen 3 1) /\
  subtract (denv NONE) (V Gen 3 1) 26 None = Ok (Some (V Gen 1 31)) /\
  subtract (denv NONE) (V Gen 3 1) 57 None = Ok None /\
  subtract (denv MULTIBOOK) (V Exod 1 1) 1 None = Ok (Some (V Gen 50 26)).
Proof. split; [in_bible|]. vm_compute. auto 10. Qed.

(** ** C06.  [v] and the flags agree about verse 0s, and so do the global flags (see C05). *)
Theorem C06_add_subtract_partial : forall e v w n fl, wf_data (ed e) -> InB (ed e) (zero_on e fl) v -> 0 <= n ->
  zero_on e fl = verse0 (eg e) ->
  add e v n fl = Ok (Some w) <-> (InB (ed e) (zero_on e fl) w /\ subtract e w n fl = Ok (Some v)).
Proof. exact add_sub. Qed.
Theorem C06_add_add : forall e v w m n fl, wf_data (ed e) -> InB (ed e) true v -> 0 <= m -> 0 <= n ->
  track0 e fl v = zero_on e fl ->
  add e v m fl = Ok (Some w) -> add e w n fl = add e v (m + n) fl.
Proof. exact add_add. Qed.

(** Without that agreement both laws fail. *)
Theorem C06_add_subtract_refuted : exists e v w n fl, wf_data (ed e) /\ InB (ed e) (zero_on e fl) v /\ 0 <= n /\
  add e v n fl = Ok (Some w) /\ subtract e w n fl <> Ok (Some v).
Proof.
  exists (denv NONE), (V Psa 3 0), (V Psa 4 1), 10, (Some VERSE_0).
  split; [exact default_wf|]. split; [in_bible|]. vm_compute. repeat split; congruence.
Qed.
Theorem C06_add_add_refuted : exists e v w m n fl, wf_data (ed e) /\ InB (ed e) true v /\ 0 <= m /\ 0 <= n /\
  add e v m fl = Ok (Some w) /\ add e w n fl <> add e v (m + n) fl.
Proof.
  exists (denv NONE), (V Psa 3 0), (V Psa 3 1), 1, 8, None.
  split; [exact default_wf|]. split; [in_bible|]. vm_compute. repeat split; congruence.
Qed.

Example C06_ex : InB default_data false (V Gen 1 31) /\
  add (denv NONE) (V Gen 1 31) 26 None = Ok (Some (V Gen 3 1)) /\
  subtract (denv NONE) (V Gen 3 1) 26 None = Ok (Some (V Gen 1 31)) /\
  add (denv NONE) (V Gen 3 1) 4 None = add (denv NONE) (V Gen 1 31) 30 None.
Proof. split; [in_bible|]. vm_compute. auto. Qed.

Print Assumptions C01_constructible_iff_exists.
Print Assumptions C02_verse_order.
Print Assumptions C03_setter.
Print Assumptions C04_add.
Print Assumptions C05_subtract_partial.
Print Assumptions C05_subtract_refuted.
Print Assumptions C06_add_subtract_partial.
Print Assumptions C06_add_add.
