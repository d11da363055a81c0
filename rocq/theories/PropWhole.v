(** * PropWhole: whole chapters and books for every legal range under all flags (C14, C26, C42, C43). *)
From Coq Require Import List ZArith Bool Lia.
From Verif Require Import Base Books Data DefaultData MVerse MRange MSeq MList Spec SpecList PList PCore PNav PVerse PDefault PRange PSetOps PRuns PSplit PCount PCount2 PUnit PUnit2 PUnit3 PMerge PListOps PropRange PropUnit PropList.
Import ListNotations.
Import Spec.
Open Scope Z_scope.

(** What is counted: a chapter or book of which the range has some verse; if it is that of the start or of the end, the range must
    have all of its verses under the global flags, and, in the universe in which the range is split, no verse before them. *)
Definition counted_chap (e : env) (r : range) (k : book * Z) : Prop :=
  touches_chap (ed e) r k /\
  (k = (vbook (rstart r), vchap (rstart r)) \/ k = (vbook (rend r), vchap (rend r)) ->
   covers_chap (ed e) (verse0 (eg e)) r k /\
   forall v, InB (ed e) (count_zero e r) v -> InR (ed e) v r -> vbook v = fst k -> vchap v = snd k ->
   exists u, In u (chap_verses (ed e) (verse0 (eg e)) (fst k) (snd k)) /\ vle (ed e) u v).
Definition counted_book (e : env) (r : range) (b : book) : Prop :=
  touches_book (ed e) r b /\
  (b = vbook (rstart r) \/ b = vbook (rend r) ->
   covers_book (ed e) (verse0 (eg e)) r b /\
   forall v, InB (ed e) (count_zero e r) v -> InR (ed e) v r -> vbook v = b ->
   exists u, In u (book_verses (ed e) (verse0 (eg e)) b) /\ vle (ed e) u v).
Lemma counted_iff : forall {K} (P Q : K -> Prop) n, (forall k, P k <-> Q k) -> counted P n -> counted Q n.
Proof. intros K P Q n H (ks & A & B & C). exists ks. split; [exact A|]. split; [|exact C]. intros k. rewrite B. apply H. Qed.
Theorem C14_whole_chap_exact : forall e r fl, wf_data (ed e) -> wf_range (ed e) true r ->
  exists n, r_chap_count e r true fl = Ok n /\ counted (counted_chap e r) n.
Proof.
  intros e r fl Hwf Hr. destruct (chap_whole_exact e Hwf r fl Hr) as (n & E & C). exists n. split; [exact E|]. revert C. apply counted_iff.
  pose proof (split_zero_wf e Hwf r None Hr) as Hz. change (split_zero e r None) with (count_zero e r) in *.
  assert (Chap : forall b c v, In v (chap_verses (ed e) (verse0 (eg e)) b c) -> ch_key v = (b, c)) by (intros b c v H; apply (in_chap_verses e) in H; unfold ch_key; destruct H as (-> & -> & _); reflexivity).
  intros [b c]. unfold counts, counted_chap, covers_chap. cbn [fst snd]. split.
  - intros ((v & Hv & HR & Hk) & H). injection Hk as <- <-. pose proof (InB_book e _ _ Hv) as Ho. pose proof (InB_legal e _ _ Hv) as (Hc & _).
    assert (T : forall w, In w (chap_verses (ed e) (verse0 (eg e)) (vbook v) (vchap v)) -> InB (ed e) (verse0 (eg e)) w).
    { intros w Hw. apply (in_chap_verses e) in Hw. destruct Hw as (E1 & E2 & E3). apply (in_bible_verses e). rewrite E1, E2. split; [exact Ho|]. split; [exact Hc|exact E3]. }
    split; [exists v; auto|]. intros A. destruct (H A) as (H1 & H2). split; [split; [exact Ho|split; [exact Hc|]]|].
    + intros w Hw. apply H1; [now apply T|exact (Chap _ _ _ Hw)].
    + intros w Hw HwR E1 E2. destruct (H2 w Hw) as (u & Hu & Ku & Pu); [unfold ch_key; congruence|exact HwR|]. injection Ku as E3 E4. exists u. split.
      * apply (in_chap_verses e). split; [exact E3|]. split; [exact E4|]. apply (InB_legal e) in Hu. rewrite E3, E4 in Hu. exact (proj2 Hu).
      * apply (vle_pos e Hwf). split; [eapply (InB_mono e); eauto|]. split; [eapply (InB_mono e); eauto|exact Pu].
  - intros ((v & HR & E1 & E2) & H). split.
    + destruct (zero_universe e Hwf _ r v Hz HR) as (w & HwR & HwB & E3 & E4). exists w. split; [exact HwB|]. split; [exact HwR|]. unfold ch_key. cbn [fst snd] in *. congruence.
    + intros A. destruct (H A) as ((_ & _ & H1) & H2). split.
      * intros w Hw Kw. injection Kw as E3 E4. apply H1. apply (in_chap_verses e). split; [exact E3|]. split; [exact E4|]. apply (InB_legal e) in Hw. rewrite E3, E4 in Hw. exact (proj2 Hw).
      * intros w Hw Kw HwR. injection Kw as E3 E4. destruct (H2 w Hw HwR E3 E4) as (u & Hu & Pu). pose proof (Chap _ _ _ Hu) as Ku. exists u. apply (vle_pos e Hwf) in Pu. split; [|split; [exact Ku|tauto]].
        apply (in_chap_verses e) in Hu. destruct Hu as (E5 & E6 & E7). apply (in_bible_verses e). rewrite E5, E6. destruct Pu as (Pu & _). split; [rewrite <- E5; exact (InB_book e _ _ Pu)|]. split; [|exact E7]. rewrite <- E5, <- E6. exact (proj1 (InB_legal e _ _ Pu)).
Qed.
Theorem C14_whole_book_exact : forall e r fl, wf_data (ed e) -> wf_range (ed e) true r ->
  exists n, r_book_count e r true fl = Ok n /\ counted (counted_book e r) n.
Proof.
  intros e r fl Hwf Hr. destruct (book_whole_exact e Hwf r fl Hr) as (n & E & C). exists n. split; [exact E|]. revert C. apply counted_iff.
  pose proof (split_zero_wf e Hwf r None Hr) as Hz. change (split_zero e r None) with (count_zero e r) in *.
  intros b. unfold counts, counted_book, covers_book. split.
  - intros ((v & Hv & HR & Hk) & H). subst b. pose proof (InB_book e _ _ Hv) as Ho.
    split; [exists v; auto|]. intros A. destruct (H A) as (H1 & H2). split; [split; [exact Ho|]|].
    + intros w Hw. apply (in_book_verses e) in Hw. destruct Hw as (E1 & E2). apply H1; [|exact E1]. apply (in_bible_verses e). rewrite E1. split; [exact Ho|exact E2].
    + intros w Hw HwR E1. destruct (H2 w Hw E1 HwR) as (u & Hu & Ku & Pu). exists u. split.
      * apply (in_book_verses e). split; [exact Ku|]. apply (InB_legal e) in Hu. rewrite <- Ku. exact Hu.
      * apply (vle_pos e Hwf). split; [eapply (InB_mono e); eauto|]. split; [eapply (InB_mono e); eauto|exact Pu].
  - intros ((v & HR & E1) & H). split.
    + destruct (zero_universe e Hwf _ r v Hz HR) as (w & HwR & HwB & E3 & E4). exists w. split; [exact HwB|]. split; [exact HwR|]. congruence.
    + intros A. destruct (H A) as ((_ & H1) & H2). split.
      * intros w Hw Kw. apply H1. apply (in_book_verses e). split; [exact Kw|]. apply (InB_legal e) in Hw. rewrite <- Kw. exact Hw.
      * intros w Hw Kw HwR. destruct (H2 w Hw HwR Kw) as (u & Hu & Pu). apply (in_book_verses e) in Hu. destruct Hu as (E5 & E7). exists u. apply (vle_pos e Hwf) in Pu. split; [|split; [exact E5|tauto]].
        apply (in_bible_verses e). split; [|rewrite E5; exact E7]. destruct Pu as (Pu & _). exact (InB_book e _ _ Pu).
Qed.
(** Psalms 3:0-4:8 has two whole psalms, Psalms 2:1-4:8 three; without VERSE_0 the first counts none, the second all three
    (its verses are 2:1-12, 3:1-8, 4:1-8 then), and Psalms 3:0-6:10 the two in the middle. *)
Example C14_whole_ex :
  wf_range default_data true (R (V Psa 3 0) (V Psa 4 8)) /\ r_chap_count (denv NONE) (R (V Psa 3 0) (V Psa 4 8)) true None = Ok 0 /\
  r_chap_count (denv VERSE_0) (R (V Psa 3 0) (V Psa 4 8)) true None = Ok 2 /\
  r_chap_count (denv NONE) (R (V Psa 2 1) (V Psa 4 8)) true None = Ok 3 /\
  r_chap_count (denv NONE) (R (V Psa 3 0) (V Psa 6 10)) true None = Ok 2 /\
  r_book_count (denv NONE) (R (V Psa 1 1) (V Psa 150 6)) true None = Ok 1.
Proof. split; [wf_range|]. vm_compute. auto. Qed.

(** ** C42.  What C42_book_range_partial and its companions leave out: where the first verse is not known to the global flags, every
    one of these methods raises. *)
Theorem C42_raises : forall e b fl, wf_data (ed e) -> In b (book_order (ed e)) ->
  (~ can_start e fl (UBook b) ->
     first_verse e b None fl = Err InvalidRef /\ book_range e b fl = Err InvalidRef /\ book_chap_ranges e b fl = Err InvalidRef /\
     forall v, vbook v = b -> v_book_range e v fl = Err InvalidRef) /\
  (forall c, 1 <= c <= num_chaps (ed e) b -> ~ can_start e fl (UChap b c) ->
     first_verse e b (Some c) fl = Err InvalidRef /\ book_chap_range e b c fl = Err InvalidRef /\
     forall v, vbook v = b -> vchap v = c -> v_chap_range e v fl = Err InvalidRef).
Proof.
  intros e b fl Hwf Hb. split.
  - intros Hc. pose proof (unit_range_cannot e Hwf b None fl Hb I Hc : book_range e b fl = Err InvalidRef) as Hr.
    split; [exact (proj2 (first_verse_unit e Hwf b None fl Hb I) Hc)|]. split; [exact Hr|].
    split; [unfold book_chap_ranges; now rewrite Hr|]. intros v <-. exact Hr.
  - intros c Hn Hc. split; [exact (proj2 (first_verse_unit e Hwf b (Some c) fl Hb Hn) Hc)|].
    assert (Hr : book_chap_range e b c fl = Err InvalidRef) by exact (unit_range_cannot e Hwf b (Some c) fl Hb Hn Hc).
    split; [exact Hr|]. intros v <- <-. exact Hr.
Qed.
Theorem C42_bible_raises : forall e fl b0 o, wf_data (ed e) -> book_order (ed e) = b0 :: o -> ~ can_start e fl (UBook b0) ->
  whole_bible e fl = Err InvalidRef.
Proof.
  intros e fl b0 o Hwf Ho Hc. unfold whole_bible. rewrite Ho at 1.
  destruct (rev (book_order (ed e))) eqn:E; [rewrite Ho in E; cbn in E; symmetry in E; now apply app_cons_not_nil in E|].
  rewrite (proj2 (first_verse_unit e Hwf b0 None (Some (flag_or (eff e fl) MULTIBOOK)) ltac:(rewrite Ho; now left) I)); [reflexivity|].
  intros H. apply Hc. intros Hz.
  assert (Z : zero_on e (Some (flag_or (eff e fl) MULTIBOOK)) = zero_on e fl).
  { pose proof (stable_or_multi e (eff e fl)) as Hst. rewrite <- !zero_on_eq. unfold stable in Hst. rewrite Hst. destruct (eff e fl) as [m z']; destruct m, z'; reflexivity. }
  cbn [whole_unit can_start] in H. rewrite Z in H. exact (H Hz).
Qed.
(** ** C43 *)
Theorem C43_start_exact : forall e r fl, wf_data (ed e) -> wf_range (ed e) true r ->
  let b := vbook (rstart r) in let c := vchap (rstart r) in
  (can_start e fl (UChap b c) -> decides (spans_start_chap e r fl)
     (hd_error (chap_verses (ed e) (zero_on e fl) b c) = Some (rstart r) /\
      forall v, In v (chap_verses (ed e) (zero_on e fl) b c) -> InR (ed e) v r)) /\
  (~ can_start e fl (UChap b c) -> spans_start_chap e r fl = Err InvalidRef) /\
  (can_start e fl (UBook b) -> decides (spans_start_book e r fl)
     (hd_error (book_verses (ed e) (zero_on e fl) b) = Some (rstart r) /\
      forall v, In v (book_verses (ed e) (zero_on e fl) b) -> InR (ed e) v r)) /\
  (~ can_start e fl (UBook b) -> spans_start_book e r fl = Err InvalidRef).
Proof.
  intros e r fl Hwf Hr b c. pose proof Hr as (Hs & _). pose proof (proj2 (unit_of_ok e (zero_on e fl) _ Hs)) as Ho.
  pose proof (start_exact e Hwf r (Some c) fl Hr Ho) as (H1 & H2). pose proof (start_exact e Hwf r None fl Hr I) as (H3 & H4).
  split; [exact H1|]. split; [exact H2|]. split; [exact H3|exact H4].
Qed.
Theorem C43_end_exact : forall e r fl, wf_data (ed e) -> wf_range (ed e) true r ->
  let b := vbook (rend r) in let c := vchap (rend r) in
  (can_start e fl (UChap b c) -> decides (spans_end_chap e r fl)
     (forall v, In v (chap_verses (ed e) (zero_on e fl) b c) -> InR (ed e) v r)) /\
  (~ can_start e fl (UChap b c) ->
     spans_end_chap e r fl = if verse_eqb (rend r) (V b c (last_num (ed e) b c)) then Err InvalidRef else Ok false) /\
  (can_start e fl (UBook b) -> decides (spans_end_book e r fl)
     (forall v, In v (book_verses (ed e) (zero_on e fl) b) -> InR (ed e) v r)) /\
  (~ can_start e fl (UBook b) ->
     spans_end_book e r fl =
     if verse_eqb (rend r) (V b (num_chaps (ed e) b) (last_num (ed e) b (num_chaps (ed e) b))) then Err InvalidRef else Ok false).
Proof.
  intros e r fl Hwf Hr b c. pose proof Hr as (_ & Ht & _). pose proof (proj2 (unit_of_ok e (zero_on e fl) _ Ht)) as Ho.
  pose proof (end_exact e Hwf r (Some c) fl Hr Ho (conj eq_refl eq_refl)) as (H1 & H2).
  pose proof (end_exact e Hwf r None fl Hr I eq_refl) as (H3 & H4).
  split; [exact H1|]. split; [exact H2|]. split; [exact H3|exact H4].
Qed.
Theorem C43_raises : forall e r fl, wf_data (ed e) -> wf_range (ed e) true r ->
  let b := vbook (rstart r) in let c := vchap (rstart r) in
  (~ can_start e fl (UChap b c) ->
     is_whole_chap e r fl = (if book_eqb b (vbook (rend r)) then Err InvalidRef else Ok false)) /\
  (~ can_start e fl (UBook b) ->
     is_whole_book e r fl = (if book_eqb b (vbook (rend r)) then Err InvalidRef else Ok false)).
Proof.
  intros e r fl Hwf Hr b c. pose proof Hr as (Hs & _). pose proof (proj2 (unit_of_ok e (zero_on e fl) _ Hs)) as Ho. split; intros Hc.
  - exact (whole_cannot e Hwf r (Some c) (Some c) fl Hr Ho Hc).
  - exact (whole_cannot e Hwf r None None fl Hr I Hc).
Qed.
Theorem C43_is_first_raises : forall e v oc ob fl, wf_data (ed e) -> In (vbook v) (book_order (ed e)) ->
  let c := match oc with Some c => c | None => vchap v end in
  let b := match ob with Some b => b | None => vbook v end in
  (1 <= c <= num_chaps (ed e) (vbook v) -> ~ can_start e fl (UChap (vbook v) c) -> is_first_in_chap e v oc fl = Err InvalidRef) /\
  (In b (book_order (ed e)) -> ~ can_start e fl (UBook b) -> is_first_in_book e v ob fl = Err InvalidRef).
Proof.
  intros e v oc ob fl Hwf Hb c b. split.
  - intros Hn Hc. pose proof (proj2 (first_verse_unit e Hwf (vbook v) (Some c) fl Hb Hn) Hc) as H.
    unfold is_first_in_chap, v_first_verse. change (match oc with Some c => c | None => vchap v end) with c. 
    destruct oc; subst c; rewrite H; reflexivity.
  - intros Hb' Hc. pose proof (proj2 (first_verse_unit e Hwf b None fl Hb' I) Hc) as H.
    unfold is_first_in_book. destruct ob; subst b; rewrite H; reflexivity.
Qed.
(** A range from a verse 0, while verse 0s are off: it spans its last psalm but not its first.  With VERSE_0 in the argument only, the
    test of the start raises; that of the end raises too, unless the range ends before the psalm does. *)
Example C43_exact_ex : let r := R (V Psa 3 0) (V Psa 4 8) in let q := R (V Psa 3 0) (V Psa 4 7) in
  wf_range default_data true r /\ ~ can_start (denv NONE) (Some VERSE_0) (UChap Psa 4) /\
  spans_start_chap (denv NONE) r None = Ok false /\ spans_end_chap (denv NONE) r None = Ok true /\
  spans_start_chap (denv NONE) r (Some VERSE_0) = Err InvalidRef /\ spans_end_chap (denv NONE) r (Some VERSE_0) = Err InvalidRef /\
  spans_end_chap (denv NONE) q (Some VERSE_0) = Ok false /\
  is_whole_chap (denv NONE) r (Some VERSE_0) = Err InvalidRef /\
  book_chap_range (denv NONE) Psa 4 (Some VERSE_0) = Err InvalidRef.
Proof.
  intros r q. split; [wf_range|]. split.
  - intros H. specialize (H eq_refl). apply (InB_legal (denv NONE)) in H. destruct H as (_ & H). vm_compute in H. now destruct H.
  - vm_compute. auto 10.
Qed.

(** ** C26.  The chapters and books of a range, and of a list with the range [r], always run from the first verse of the chapter (book)
    of the start to the last one of that of the end; if that first verse is not known to the global flags, the methods raise. *)
Definition units_of (e : env) (fl : option flag) (r : range) (x y : res range) : Prop :=
  let z := zero_on e fl in let s := rstart r in let t := rend r in
  (can_start e fl (chap_at s) -> exists c, x = Ok c /\
     hd_error (chap_verses (ed e) z (vbook s) (vchap s)) = Some (rstart c) /\
     hd_error (rev (chap_verses (ed e) z (vbook t) (vchap t))) = Some (rend c)) /\
  (~ can_start e fl (chap_at s) -> x = Err InvalidRef) /\
  (can_start e fl (book_at s) -> exists c, y = Ok c /\
     hd_error (book_verses (ed e) z (vbook s)) = Some (rstart c) /\ hd_error (rev (book_verses (ed e) z (vbook t))) = Some (rend c)) /\
  (~ can_start e fl (book_at s) -> y = Err InvalidRef).
Lemma units_of_value : forall e a b fl, wf_data (ed e) -> InB (ed e) true a -> InB (ed e) true b -> pos e a <= pos e b ->
  let f := flag_or (eff e fl) MULTIBOOK in
  units_of e fl (R a b)
    (s <- v_first_verse e a None (Some f) ;; t <- v_last_verse e b None ;; new_range e s t (Some f))
    (s <- first_verse e (vbook a) None (Some f) ;; t <- last_verse e (vbook b) None ;; new_range e s t (Some f)).
Proof.
  intros e a b fl Hwf Ha Hb Hp f. unfold units_of. cbn [rstart rend].
  pose proof (unit_of_ok e (zero_on e fl) a Ha) as (Ba & Oa). pose proof (unit_of_ok e (zero_on e fl) b Hb) as (Bb & Ob).
  destruct (multi_flag e fl) as (Zf & _). fold f in Zf.
  assert (C : forall oc, can_start e (Some f) (whole_unit (vbook a) oc) <-> can_start e fl (whole_unit (vbook a) oc)).
  { intros oc. destruct oc; cbn [whole_unit can_start]; rewrite Zf; reflexivity. }
  split; [|split; [|split]]; intros Hc.
  - eexists. split; [exact (unit_range_value e Hwf true fl a b Ha Hb Hp Hc)|]. cbn [rstart rend unit_at chap_at unit_first unit_last].
    split; [exact (proj1 (chap_ends e Hwf _ _ _ Ba Oa))|exact (proj2 (chap_ends e Hwf _ _ _ Bb Ob))].
  - unfold v_first_verse. rewrite (proj2 (first_verse_unit e Hwf (vbook a) (Some (vchap a)) (Some f) Ba Oa)); [reflexivity|].
    intros H. apply C in H. exact (Hc H).
  - eexists. split; [exact (unit_range_value e Hwf false fl a b Ha Hb Hp Hc)|]. cbn [rstart rend unit_at book_at unit_first unit_last].
    split; [exact (proj1 (book_ends e Hwf _ _ Ba))|exact (proj2 (book_ends e Hwf _ _ Bb))].
  - rewrite (proj2 (first_verse_unit e Hwf (vbook a) None (Some f) Ba I)); [reflexivity|]. intros H. apply C in H. exact (Hc H).
Qed.
Theorem C26_range_units_exact : forall e r fl, wf_data (ed e) -> wf_range (ed e) true r ->
  units_of e fl r (r_chap_range e r fl) (r_book_range e r fl).
Proof.
  intros e [a b] fl Hwf Hr. pose proof Hr as (Ha & Hb & _). apply (wf_range_pos e Hwf) in Hr.
  exact (units_of_value e a b fl Hwf Ha Hb (proj2 (proj2 Hr))).
Qed.
Theorem C26_list_units_exact : forall e l fl, wf_data (ed e) -> legal_list e true (items l) -> items l <> [] ->
  exists r, l_range e l = Ok r /\ units_of e fl r (l_chap_range e l fl) (l_book_range e l fl).
Proof.
  intros e l fl Hwf Hl Hne. destruct (l_min_max e Hwf l Hl Hne) as (a & b & Ea & Eb & Ia & Ib & Ha & _).
  rewrite Forall_forall in Hl. pose proof (Hl a Ia) as Wa. pose proof (Hl b Ib) as Wb.
  pose proof (Ha b Ib) as Hab. apply (rleb_pos e Hwf) in Hab; auto.
  pose proof (proj2 (proj2 (proj1 (wf_range_pos e Hwf _ _) Wb))) as Pb.
  assert (Hp : pos e (rstart a) <= pos e (rend b)) by lia.
  exists (R (rstart a) (rend b)). split.
  - unfold l_range. rewrite Ea, Eb. cbn [bind]. apply (new_range_all e Hwf); [apply Wa|apply Wb|exact Hp].
  - unfold l_chap_range, l_book_range. rewrite Ea, Eb. cbn [bind].
    exact (units_of_value e (rstart a) (rend b) fl Hwf (proj1 Wa) (proj1 (proj2 Wb)) Hp).
Qed.
Example C26_units_ex : let l := [[R (V Psa 3 0) (V Psa 3 8)]; [R (V Psa 1 2) (V Psa 1 3)]] in
  legal_list (denv NONE) true (items l) /\ l_chap_range (denv NONE) l None = Ok (R (V Psa 1 1) (V Psa 3 8)) /\
  r_chap_range (denv NONE) (R (V Psa 3 0) (V Psa 3 8)) None = Ok (R (V Psa 3 1) (V Psa 3 8)) /\
  r_chap_range (denv NONE) (R (V Psa 3 2) (V Psa 3 8)) (Some VERSE_0) = Err InvalidRef /\
  ~ can_start (denv NONE) (Some VERSE_0) (chap_at (V Psa 3 2)).
Proof.
  intros l. split; [legal|]. do 3 (split; [vm_compute; reflexivity|]).
  intros H. specialize (H eq_refl). apply (InB_legal (denv NONE)) in H. destruct H as (_ & H). vm_compute in H. now destruct H.
Qed.
