(** * PropArgs: the methods of books and verses that take a chapter number or a book, with any argument or none (C94). *)
From Coq Require Import List ZArith Bool Lia.
From Verif Require Import Base Books Data DefaultData MVerse MRange Spec PList PCore PNav PVerse PDefault PUnit PUnit2 PropUnit MNew MArgs.
Import ListNotations.
Import Spec.
Open Scope Z_scope.

(** ** Chapter numbers *)
Lemma check_int : forall e b c, check_chap e b (VInt c) = if bad_chap e b c then Err InvalidRef else Ok c.
Proof.
  intros e b c. unfold check_chap, bad_chap. cbn [py_gt bind].
  rewrite (Z.gtb_ltb (min_chap_num e b) c). destruct (c <? min_chap_num e b); cbn [orb]; auto.
Qed.
Lemma check_other : forall e b x, (forall c, x <> VInt c) -> check_chap e b x = Err TypeErr.
Proof. intros e b x H. unfold check_chap. destruct x; try reflexivity. now destruct (H n). Qed.
Lemma a_min_int : forall e b c fl, a_min_verse_num e b (Some (VInt c)) fl = min_verse_num e b c fl.
Proof. intros e b c fl. unfold a_min_verse_num, min_verse_num. cbn [required bind]. rewrite check_int. now destruct (bad_chap e b c). Qed.
Lemma a_max_int : forall e b c, a_max_verse_num e b (Some (VInt c)) = max_verse_num e b c.
Proof. intros e b c. unfold a_max_verse_num, max_verse_num. cbn [required bind]. rewrite check_int. now destruct (bad_chap e b c). Qed.
Lemma a_first_int : forall e b c fl, a_first_verse e b (Some (VInt c)) fl = first_verse e b (Some c) fl.
Proof. intros e b c fl. unfold a_first_verse, first_verse. cbn [or_none]. rewrite a_min_int. reflexivity. Qed.
Lemma a_last_int : forall e b c, a_last_verse e b (Some (VInt c)) = last_verse e b (Some c).
Proof. intros e b c. unfold a_last_verse, last_verse. cbn [or_none]. rewrite a_max_int. reflexivity. Qed.
Lemma a_first_none : forall e b fl, a_first_verse e b (Some VNone) fl = first_verse e b None fl.
Proof. intros e b fl. unfold a_first_verse, first_verse. cbn [or_none]. rewrite a_min_int. reflexivity. Qed.
Lemma a_last_none : forall e b, a_last_verse e b (Some VNone) = last_verse e b None.
Proof. intros e b. unfold a_last_verse, last_verse. cbn [or_none]. rewrite a_max_int. reflexivity. Qed.
Lemma a_num_other : forall e b fl x, (forall c, x <> VInt c) ->
  a_min_verse_num e b (Some x) fl = Err TypeErr /\ a_max_verse_num e b (Some x) = Err TypeErr.
Proof. intros e b fl x H. unfold a_min_verse_num, a_max_verse_num. cbn [required bind]. now rewrite check_other. Qed.
Lemma a_verse_other : forall e b fl x, (forall c, x <> VInt c) -> x <> VNone ->
  a_first_verse e b (Some x) fl = Err TypeErr /\ a_last_verse e b (Some x) = Err TypeErr.
Proof.
  intros e b fl x H N. unfold a_first_verse, a_last_verse. cbn [or_none].
  destruct (a_num_other e b fl x H) as [H1 H2]. destruct x; try (rewrite H1, H2; split; reflexivity). congruence.
Qed.

(** ** C94: books *)
Theorem C94_book_numbers : forall e b fl, wf_data (ed e) -> In b (book_order (ed e)) ->
  (forall c, 1 <= c <= num_chaps (ed e) b ->
     a_min_verse_num e b (Some (VInt c)) fl = Ok (first_num (ed e) (zero_on e fl) b c) /\
     a_max_verse_num e b (Some (VInt c)) = Ok (last_num (ed e) b c)) /\
  (forall c, ~ (1 <= c <= num_chaps (ed e) b) ->
     a_min_verse_num e b (Some (VInt c)) fl = Err InvalidRef /\ a_max_verse_num e b (Some (VInt c)) = Err InvalidRef) /\
  (forall o, (forall c, o <> Some (VInt c)) -> a_min_verse_num e b o fl = Err TypeErr /\ a_max_verse_num e b o = Err TypeErr).
Proof.
  intros e b fl Hwf Hb. split; [|split].
  - intros c Hc. rewrite a_min_int, a_max_int, (min_in e Hwf), (max_in e Hwf) by auto. now rewrite zero_on_eq.
  - intros c Hc. rewrite a_min_int, a_max_int. destruct (table_of e Hwf b Hb) as [l Hl].
    destruct (bad_chap_err e b l c fl Hl Hc) as (_ & -> & ->). auto.
  - intros [x|] H; [|split; reflexivity]. apply a_num_other. intros c ->. now apply (H c).
Qed.
(** The verses; without a number, those of the whole book.  [can_start]: see C42_refuted. *)
Theorem C94_book_verses_partial : forall e b fl z, wf_data (ed e) -> In b (book_order (ed e)) ->
  (forall o, o = None \/ o = Some VNone ->
     (can_start e fl (UBook b) -> exists v, a_first_verse e b o fl = Ok v /\ hd_error (book_verses (ed e) (zero_on e fl) b) = Some v) /\
     exists v, a_last_verse e b o = Ok v /\ hd_error (rev (book_verses (ed e) z b)) = Some v) /\
  (forall c, 1 <= c <= num_chaps (ed e) b ->
     (can_start e fl (UChap b c) -> exists v, a_first_verse e b (Some (VInt c)) fl = Ok v /\ hd_error (chap_verses (ed e) (zero_on e fl) b c) = Some v) /\
     exists v, a_last_verse e b (Some (VInt c)) = Ok v /\ hd_error (rev (chap_verses (ed e) z b c)) = Some v) /\
  (forall c, ~ (1 <= c <= num_chaps (ed e) b) ->
     a_first_verse e b (Some (VInt c)) fl = Err InvalidRef /\ a_last_verse e b (Some (VInt c)) = Err InvalidRef) /\
  (forall x, (forall c, x <> VInt c) -> x <> VNone -> a_first_verse e b (Some x) fl = Err TypeErr /\ a_last_verse e b (Some x) = Err TypeErr).
Proof.
  intros e b fl z Hwf Hb. split; [|split; [|split]].
  - intros o Ho. assert (E : a_first_verse e b o fl = first_verse e b None fl /\ a_last_verse e b o = last_verse e b None).
    { destruct Ho as [->| ->]; [change (a_first_verse e b None fl) with (a_first_verse e b (Some VNone) fl);
        change (a_last_verse e b None) with (a_last_verse e b (Some VNone))|]; now rewrite a_first_none, a_last_none. }
    destruct E as [-> ->]. split; [exact (proj1 (C42_first_verse_partial e b 0 fl Hwf Hb))|exact (proj1 (C42_last_verse e b 0 z Hwf Hb))].
  - intros c Hc. rewrite a_first_int, a_last_int.
    split; [exact (proj2 (C42_first_verse_partial e b c fl Hwf Hb) Hc)|exact (proj2 (C42_last_verse e b c z Hwf Hb) Hc)].
  - intros c Hc. rewrite a_first_int, a_last_int. destruct (C42_no_chapter e b c fl Hwf Hb Hc) as (_ & -> & ->). auto.
  - intros x H N. now apply a_verse_other.
Qed.
Theorem C94_chap_range_partial : forall e b fl, wf_data (ed e) -> In b (book_order (ed e)) ->
  (forall c, 1 <= c <= num_chaps (ed e) b -> can_start e fl (UChap b c) ->
     exists r, a_chap_range e b (Some (VInt c)) fl = Ok r /\ verses_of (ed e) (zero_on e fl) r (chap_verses (ed e) (zero_on e fl) b c)) /\
  (forall c, ~ (1 <= c <= num_chaps (ed e) b) -> a_chap_range e b (Some (VInt c)) fl = Err InvalidRef) /\
  (forall o, (forall c, o <> Some (VInt c)) -> o <> Some VNone -> a_chap_range e b o fl = Err TypeErr).
Proof.
  intros e b fl Hwf Hb. split; [|split].
  - intros c Hc Hs. destruct (C42_chap_range_partial e b c fl Hwf Hb Hc Hs) as (r & E & V). exists r. split; auto.
    unfold a_chap_range. cbn [required bind]. rewrite a_first_int, a_last_int. exact E.
  - intros c Hc. unfold a_chap_range. cbn [required bind]. rewrite a_first_int. now destruct (C42_no_chapter e b c fl Hwf Hb Hc) as (_ & -> & _).
  - intros [x|] H N; [|reflexivity]. unfold a_chap_range. cbn [required bind].
    assert (E : a_first_verse e b (Some x) fl = Err TypeErr) by (apply a_verse_other; [intros c ->; now apply (H c)|congruence]).
    now rewrite E.
Qed.
(** [None] for the chapter gives the whole book. *)
Theorem C94_chap_range_none_partial : forall e b fl, wf_data (ed e) -> In b (book_order (ed e)) -> can_start e fl (UBook b) ->
  exists r, a_chap_range e b (Some VNone) fl = Ok r /\ verses_of (ed e) (zero_on e fl) r (book_verses (ed e) (zero_on e fl) b).
Proof.
  intros e b fl Hwf Hb Hs. destruct (C42_book_range_partial e b fl Hwf Hb Hs) as (r & E & V). exists r. split; auto.
  unfold a_chap_range. cbn [required bind]. rewrite a_first_none, a_last_none. exact E.
Qed.
Theorem C94_chap_range_refuted : exists e b r, wf_data (ed e) /\ In b (book_order (ed e)) /\ a_chap_range e b (Some VNone) None = Ok r.
Proof.
  exists (denv NONE), Phlm, (R (V Phlm 1 1) (V Phlm 1 25)). split; [exact default_wf|]. split; [apply mem_book_in; vm_compute; reflexivity|].
  vm_compute. reflexivity.
Qed.

(** ** C94: verses *)
(** The argument [o] stands for chapter [c]: the number itself, or nothing or [None] for the chapter of the verse. *)
Definition chapter_meant (v : verse) (o : option pyval) (c : Z) : Prop :=
  o = Some (VInt c) \/ (o = None \/ o = Some VNone) /\ c = vchap v.
Lemma own_meant : forall v o c, chapter_meant v o c -> own_chap v (or_none o) = VInt c.
Proof. intros v o c [->|[[->| ->] ->]]; reflexivity. Qed.
Theorem C94_verse_numbers_partial : forall e v o c fl, wf_data (ed e) -> In (vbook v) (book_order (ed e)) -> chapter_meant v o c ->
  (1 <= c <= num_chaps (ed e) (vbook v) ->
     av_min_verse_num e v o fl = Ok (first_num (ed e) (zero_on e fl) (vbook v) c) /\
     (o <> None -> av_max_verse_num e v o = Ok (last_num (ed e) (vbook v) c))) /\
  (~ (1 <= c <= num_chaps (ed e) (vbook v)) ->
     av_min_verse_num e v o fl = Err InvalidRef /\ (o <> None -> av_max_verse_num e v o = Err InvalidRef)).
Proof.
  intros e v o c fl Hwf Hb Hm. pose proof (own_meant v o c Hm) as Ho.
  destruct (C94_book_numbers e (vbook v) fl Hwf Hb) as (G & B & _). unfold av_min_verse_num, av_max_verse_num. rewrite Ho.
  assert (K : o <> None -> (x <- required o ;; a_max_verse_num e (vbook v) (Some (own_chap v x))) = a_max_verse_num e (vbook v) (Some (VInt c))).
  { intros N. destruct o as [x|]; [|congruence]. cbn [required bind or_none] in *. now rewrite Ho. }
  split; intros H; [destruct (G c H) as [G1 G2]|destruct (B c H) as [G1 G2]]; split; auto; intros N; rewrite (K N); auto.
Qed.
Theorem C94_verse_verses_partial : forall e v o c fl z, wf_data (ed e) -> In (vbook v) (book_order (ed e)) -> chapter_meant v o c ->
  (1 <= c <= num_chaps (ed e) (vbook v) ->
     (can_start e fl (UChap (vbook v) c) ->
        (exists w, av_first_verse e v o fl = Ok w /\ hd_error (chap_verses (ed e) (zero_on e fl) (vbook v) c) = Some w) /\
        decides (av_is_first_in_chap e v o fl) (hd_error (chap_verses (ed e) (zero_on e fl) (vbook v) c) = Some v)) /\
     (exists w, av_last_verse e v o = Ok w /\ hd_error (rev (chap_verses (ed e) z (vbook v) c)) = Some w) /\
     decides (av_is_last_in_chap e v o) (hd_error (rev (chap_verses (ed e) z (vbook v) c)) = Some v)) /\
  (~ (1 <= c <= num_chaps (ed e) (vbook v)) ->
     av_first_verse e v o fl = Err InvalidRef /\ av_is_first_in_chap e v o fl = Err InvalidRef /\
     av_last_verse e v o = Err InvalidRef /\ av_is_last_in_chap e v o = Err InvalidRef).
Proof.
  intros e v o c fl z Hwf Hb Hm. pose proof (own_meant v o c Hm) as Ho.
  destruct (C94_book_verses_partial e (vbook v) fl z Hwf Hb) as (_ & G & B & _).
  unfold av_is_first_in_chap, av_is_last_in_chap, av_first_verse, av_last_verse. cbn [or_none]. rewrite Ho.
  split; intros H.
  - destruct (G c H) as [G1 (w & G2 & G3)]. split; [|split].
    + intros Hs. destruct (G1 Hs) as (u & G4 & G5). split; [now exists u|]. exact (hd_decides _ v _ u G4 G5).
    + now exists w.
    + exact (hd_decides _ v _ w G2 G3).
  - destruct (B c H) as [-> ->]. auto.
Qed.
Theorem C94_verse_otherwise : forall e v x fl, (forall c, x <> VInt c) -> x <> VNone ->
  av_min_verse_num e v (Some x) fl = Err TypeErr /\ av_max_verse_num e v (Some x) = Err TypeErr /\
  av_first_verse e v (Some x) fl = Err TypeErr /\ av_last_verse e v (Some x) = Err TypeErr /\
  av_is_first_in_chap e v (Some x) fl = Err TypeErr /\ av_is_last_in_chap e v (Some x) = Err TypeErr.
Proof.
  intros e v x fl H N. assert (Ho : own_chap v x = x) by (destruct x; congruence || reflexivity).
  destruct (a_num_other e (vbook v) fl x H) as [H1 H2]. destruct (a_verse_other e (vbook v) fl x H N) as [H3 H4].
  unfold av_is_first_in_chap, av_is_last_in_chap, av_first_verse, av_last_verse, av_min_verse_num, av_max_verse_num.
  cbn [or_none required bind]. rewrite Ho, H1, H2, H3, H4. repeat split; reflexivity.
Qed.
(** The verse's own chapter is the default of all these methods but [max_verse_num], whose documentation says so too. *)
Theorem C94_max_verse_num_refuted : exists e v, wf_data (ed e) /\ InB (ed e) false v /\
  av_max_verse_num e v None = Err TypeErr /\ av_min_verse_num e v None None = Ok 1.
Proof. exists (denv NONE), (V Gen 1 1). split; [exact default_wf|]. split; [in_bible|]. vm_compute. auto. Qed.

(** The tests for a book. *)
Theorem C94_in_book_partial : forall e v o b fl z, wf_data (ed e) -> In b (book_order (ed e)) ->
  o = Some (VBook b) \/ (o = None \/ o = Some VNone) /\ b = vbook v ->
  (can_start e fl (UBook b) -> decides (av_is_first_in_book e v o fl) (hd_error (book_verses (ed e) (zero_on e fl) b) = Some v)) /\
  decides (av_is_last_in_book e v o) (hd_error (rev (book_verses (ed e) z b)) = Some v).
Proof.
  intros e v o b fl z Hwf Hb Ho. destruct (C94_book_verses_partial e b fl z Hwf Hb) as (G & _).
  destruct (G (Some VNone) (or_intror eq_refl)) as [G1 (w & G2 & G3)].
  assert (E : av_is_first_in_book e v o fl = (w <- a_first_verse e b (Some VNone) fl ;; Ok (verse_eqb v w)) /\
              av_is_last_in_book e v o = (w <- a_last_verse e b (Some VNone) ;; Ok (verse_eqb v w))).
  { destruct Ho as [->|[[->| ->] ->]]; split; reflexivity. }
  destruct E as [-> ->]. split; [|exact (hd_decides _ v _ w G2 G3)].
  intros Hs. destruct (G1 Hs) as (u & G4 & G5). exact (hd_decides _ v _ u G4 G5).
Qed.
Theorem C94_in_book_otherwise : forall e v x fl, (forall b, x <> VBook b) -> (forall u, x <> VVerse u) -> x <> VNone ->
  av_is_first_in_book e v (Some x) fl = Err AttrErr /\ av_is_last_in_book e v (Some x) = Err AttrErr.
Proof.
  intros e v x fl Hb Hv N. unfold av_is_first_in_book, av_is_last_in_book. cbn [or_none].
  destruct x; try (split; reflexivity); [congruence|now destruct (Hb b)|now destruct (Hv v0)].
Qed.
(** A verse is taken too, and stands for its chapter. *)
Theorem C94_in_book_verse_partial : forall e v u fl z, wf_data (ed e) -> InB (ed e) true u ->
  (can_start e fl (UChap (vbook u) (vchap u)) ->
     decides (av_is_first_in_book e v (Some (VVerse u)) fl) (hd_error (chap_verses (ed e) (zero_on e fl) (vbook u) (vchap u)) = Some v)) /\
  decides (av_is_last_in_book e v (Some (VVerse u))) (hd_error (rev (chap_verses (ed e) z (vbook u) (vchap u))) = Some v).
Proof.
  intros e v u fl z Hwf Hu. destruct (unit_of_ok e true u Hu) as [Hb Hc].
  destruct (C94_verse_verses_partial e u (Some VNone) (vchap u) fl z Hwf Hb) as [G _]; [right; auto|].
  destruct (G Hc) as (G1 & (w & G2 & G3) & _). unfold av_is_first_in_book, av_is_last_in_book. cbn [or_none].
  split; [|exact (hd_decides _ v _ w G2 G3)].
  intros Hs. destruct (G1 Hs) as ((x & G4 & G5) & _). exact (hd_decides _ v _ x G4 G5).
Qed.
Theorem C94_in_book_refuted : exists e v u, wf_data (ed e) /\ InB (ed e) false v /\ InB (ed e) false u /\ vbook u = vbook v /\
  hd_error (book_verses (ed e) false (vbook u)) <> Some v /\ av_is_first_in_book e v (Some (VVerse u)) None = Ok true.
Proof.
  exists (denv NONE), (V Gen 2 1), (V Gen 2 3). split; [exact default_wf|]. split; [in_bible|]. split; [in_bible|].
  vm_compute. repeat split; congruence.
Qed.

Example C94_ex : In Psa (book_order default_data) /\ In Gen (book_order default_data) /\ chapter_meant (V Psa 3 5) None 3 /\
  chapter_meant (V Psa 3 5) (Some (VInt 7)) 7 /\ can_start (denv VERSE_0) None (UChap Psa 3) /\ can_start (denv NONE) None (UBook Gen) /\
  av_min_verse_num (denv VERSE_0) (V Psa 3 5) None None = Ok 0 /\ av_max_verse_num (denv NONE) (V Psa 3 5) (Some VNone) = Ok 8 /\
  av_first_verse (denv VERSE_0) (V Psa 3 5) None None = Ok (V Psa 3 0) /\ av_last_verse (denv NONE) (V Psa 3 5) (Some (VInt 7)) = Ok (V Psa 7 17) /\
  av_is_last_in_chap (denv NONE) (V Psa 3 8) None = Ok true /\ av_is_last_in_chap (denv NONE) (V Psa 3 8) (Some (VInt 4)) = Ok false /\
  av_is_first_in_book (denv NONE) (V Gen 1 1) (Some (VBook Gen)) None = Ok true /\
  a_first_verse (denv NONE) Gen None None = Ok (V Gen 1 1) /\ a_last_verse (denv NONE) Gen None = Ok (V Gen 50 26) /\
  a_chap_range (denv NONE) Gen (Some (VInt 2)) None = Ok (R (V Gen 2 1) (V Gen 2 25)) /\
  a_chap_range (denv NONE) Gen (Some (VInt 51)) None = Err InvalidRef /\ a_chap_range (denv NONE) Gen (Some (VStr [])) None = Err TypeErr.
Proof.
  split; [apply mem_book_in; vm_compute; reflexivity|]. split; [apply mem_book_in; vm_compute; reflexivity|].
  split; [right; auto|]. split; [now left|]. split; [intros _; in_bible|]. split; [intros H; discriminate H|].
  vm_compute. repeat split; reflexivity.
Qed.
