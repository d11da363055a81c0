(** * PRegroup: [regroup] never fails on legal ranges, keeps the items, and where it begins new groups. *)
From Coq Require Import List ZArith Bool Lia Sorted.
From Verif Require Import Base Books Data MVerse MRange Spec PList PCore PNav PVerse PRange
  PSetOps PSetSpec PRuns PSplit PCount PUnit PUnit2 MSeq MList PSort SpecList.
Import ListNotations.
Import Spec.
Open Scope Z_scope.

Section Regroup.
Variable e : env.
Notation d := (ed e).
Hypothesis Hwf : wf_data d.
Notation pos := (pos e).
Notation zg := (verse0 (eg e)).
Notation zf fl := (zero_on e fl).

Lemma zero_none : zf None = zg.
Proof. reflexivity. Qed.

Lemma can_start_none : forall u, In (unit_book u) (book_order d) -> unit_ok d zg u -> can_start e None u.
Proof. intros u Hb Hok. apply startable_agree; auto. Qed.

Lemma unit_facts : forall z v oc, InB d true v -> (oc = None \/ oc = Some (vchap v)) ->
  let u := whole_unit (vbook v) oc in
  In (unit_book u) (book_order d) /\ unit_ok d z u /\ InB d true (unit_first d z u) /\ InB d true (unit_last d u).
Proof.
  intros z v oc Hv Hoc u. pose proof (InB_book e _ _ Hv) as Hb.
  assert (Hub : unit_book u = vbook v) by apply whole_unit_book.
  assert (Hok : unit_ok d z u).
  { subst u. destruct Hoc as [-> | ->]; cbn; [exact I|]. apply InB_legal in Hv; auto. unfold legal in Hv. tauto. }
  assert (Hb' : In (unit_book u) (book_order d)) by now rewrite Hub.
  pose proof (unit_bounds e Hwf z u Hb' Hok) as (F & L & _).
  repeat split; auto; eapply (InB_mono e); eauto.
Qed.

Lemma opens_eval : forall r oc fl, wf_range d true r -> (oc = None \/ oc = Some (vchap (rstart r))) ->
  let u := whole_unit (vbook (rstart r)) oc in
  can_start e fl u ->
  bool_is (andM (w <- first_verse e (vbook (rstart r)) oc fl ;; Ok (verse_eqb (rstart r) w))
                (w <- last_verse e (vbook (rstart r)) oc ;; Ok (vleb e w (rend r))))
    (opens_with d (zf fl) u r).
Proof.
  intros r oc fl Hr Hoc u Hc. pose proof Hr as (Rs & Re & _).
  destruct (unit_facts (zf fl) _ _ Rs Hoc) as (Hb & Hok & F & L). fold u in Hb, Hok, F, L.
  assert (Hb' : In (vbook (rstart r)) (book_order d)) by (eapply InB_book; eauto).
  unfold bool_is, andM. rewrite (proj1 (first_verse_unit e Hwf _ _ fl Hb' Hok) Hc). fold u. cbn [bind].
  rewrite (last_verse_unit e Hwf) by (auto; eapply whole_unit_ok; eauto). fold u. cbn [bind].
  rewrite (vleb_pos_eq e Hwf) by auto. unfold opens_with.
  destruct (verse_eqb (rstart r) (unit_first d (zf fl) u)) eqn:E.
  - apply verse_eqb_eq in E. eexists. split; [reflexivity|]. rewrite (vle_pos e Hwf), Z.leb_le. tauto.
  - apply verse_eqb_neq in E. eexists. split; [reflexivity|]. split; [discriminate|tauto].
Qed.
Lemma closes_eval : forall r oc fl, wf_range d true r -> (oc = None \/ oc = Some (vchap (rend r))) ->
  let u := whole_unit (vbook (rend r)) oc in
  can_start e fl u ->
  bool_is (andM (w <- last_verse e (vbook (rend r)) oc ;; Ok (verse_eqb (rend r) w))
                (w <- first_verse e (vbook (rend r)) oc fl ;; Ok (vleb e (rstart r) w)))
    (closes_with d (zf fl) u r).
Proof.
  intros r oc fl Hr Hoc u Hc. pose proof Hr as (Rs & Re & _).
  destruct (unit_facts (zf fl) _ _ Re Hoc) as (Hb & Hok & F & L). fold u in Hb, Hok, F, L.
  assert (Hb' : In (vbook (rend r)) (book_order d)) by (eapply InB_book; eauto).
  unfold bool_is, andM. rewrite (proj1 (first_verse_unit e Hwf _ _ fl Hb' Hok) Hc). fold u. cbn [bind].
  rewrite (last_verse_unit e Hwf) by (auto; eapply whole_unit_ok; eauto). fold u. cbn [bind].
  rewrite (vleb_pos_eq e Hwf) by auto. unfold closes_with.
  destruct (verse_eqb (rend r) (unit_last d u)) eqn:E.
  - apply verse_eqb_eq in E. eexists. split; [reflexivity|]. rewrite (vle_pos e Hwf), Z.leb_le. tauto.
  - apply verse_eqb_neq in E. eexists. split; [reflexivity|]. split; [discriminate|tauto].
Qed.

(** A range that is a whole unit, given by a chapter or book at its start. *)
Definition is_unit (z : bool) (u : unit_ref) (r : range) : Prop :=
  vbook (rstart r) = vbook (rend r) /\ rstart r = unit_first d z u /\ rend r = unit_last d u.
Lemma whole_eval : forall r oc fl, wf_range d true r -> (oc = None \/ oc = Some (vchap (rstart r))) ->
  let u := whole_unit (vbook (rstart r)) oc in
  can_start e fl u ->
  bool_is (andM (Ok (book_eqb (vbook (rstart r)) (vbook (rend r))))
            (andM (w <- first_verse e (vbook (rstart r)) oc fl ;; Ok (verse_eqb (rstart r) w))
                  (w <- last_verse e (vbook (rend r)) oc ;; Ok (verse_eqb (rend r) w))))
    (is_unit (zf fl) u r).
Proof.
  intros r oc fl Hr Hoc u Hc. pose proof Hr as (Rs & Re & _).
  destruct (unit_facts (zf fl) _ _ Rs Hoc) as (Hb & Hok & F & L). fold u in Hb, Hok, F, L.
  assert (Hb' : In (vbook (rstart r)) (book_order d)) by (eapply InB_book; eauto).
  unfold bool_is, andM, is_unit. cbn [bind]. destruct (book_eqb (vbook (rstart r)) (vbook (rend r))) eqn:E1.
  2:{ eexists. split; [reflexivity|]. split; [discriminate|]. intros (H & _). apply book_eqb_eq in H. congruence. }
  apply book_eqb_eq in E1. rewrite <- E1.
  rewrite (proj1 (first_verse_unit e Hwf _ _ fl Hb' Hok) Hc). fold u. cbn [bind].
  rewrite (last_verse_unit e Hwf) by (auto; eapply whole_unit_ok; eauto). fold u. cbn [bind].
  destruct (verse_eqb (rstart r) (unit_first d (zf fl) u)) eqn:E.
  - apply verse_eqb_eq in E. eexists. split; [reflexivity|]. rewrite verse_eqb_eq. tauto.
  - apply verse_eqb_neq in E. eexists. split; [reflexivity|]. split; [discriminate|tauto].
Qed.

(** What one step needs from the chapter count: it is only asked for in one case. *)
Definition multi_chap (x : range) : Prop := chap_at (rend x) <> chap_at (rstart x).
Definition matches (st : rg_state) (x : range) : Prop :=
  rg_book st = Some (vbook (rstart x)) /\ rg_chap st = Some (vchap (rstart x)) /\ rg_verse st = true.
Definition counts (cc : range -> res Z) (x : range) : Prop :=
  exists n, cc x = Ok n /\ (1 < n <-> multi_chap x).

Lemma obook_eqb_eq : forall o b, obook_eqb o b = true <-> o = Some b.
Proof.
  intros [x|] b; cbn; [|split; discriminate]. rewrite book_eqb_eq. split; [now intros ->|now intros [=]].
Qed.
Lemma oz_eqb_eq : forall o z, oz_eqb o z = true <-> o = Some z.
Proof. intros [x|] z; cbn; [|split; discriminate]. rewrite Z.eqb_eq. split; [now intros ->|now intros [=]]. Qed.

(** The state after an item. *)
Definition state_of (fl : option flag) (x : range) (st : rg_state) : Prop :=
  rg_book st = Some (vbook (rend x)) /\
  (rg_chap st = None \/ rg_chap st = Some (vchap (rend x))) /\
  (open_after e fl x <-> rg_chap st = Some (vchap (rend x)) /\ rg_verse st = true).

Lemma first_in_chap : forall z b c, unit_first d z (UChap b c) = V b c (first_num d z b c).
Proof. reflexivity. Qed.

(** The first chapter of a book begins where the book begins. *)
Lemma opens_book_chap : forall z r, wf_range d true r ->
  opens_with d z (book_at (rstart r)) r -> opens_with d z (chap_at (rstart r)) r.
Proof.
  intros z r Hr (H1 & H2). pose proof Hr as (Rs & Re & _). unfold opens_with, chap_at, book_at in *.
  assert (Hc : vchap (rstart r) = 1) by (rewrite H1; reflexivity).
  assert (Hb : In (vbook (rstart r)) (book_order d)) by (eapply InB_book; eauto).
  split; [rewrite Hc; exact H1|]. eapply (vle_trans e); eauto. apply (vle_pos e Hwf).
  destruct (unit_facts true (rstart r) (Some (vchap (rstart r))) Rs) as (_ & _ & _ & L1); [auto|].
  destruct (unit_facts true (rstart r) None Rs) as (_ & _ & _ & L2); [auto|]. cbn [whole_unit] in *.
  split; [exact L1|]. split; [exact L2|].
  apply (pos_book e Hwf); auto. cbn. rewrite Hc.
  pose proof (num_chaps_pos e Hwf _ Hb). destruct (Z.eq_dec 1 (num_chaps d (vbook (rstart r)))) as [E|E].
  - right. rewrite <- E. lia.
  - left. lia.
Qed.

Lemma unit_le : forall z u, In (unit_book u) (book_order d) -> unit_ok d z u -> pos (unit_first d z u) <= pos (unit_last d u).
Proof. intros z u Hb Hok. pose proof (unit_bounds e Hwf z u Hb Hok) as (F & L & H). tauto. Qed.

Lemma is_unit_opens : forall z u r, In (unit_book u) (book_order d) -> wf_range d true r ->
  is_unit z u r -> opens_with d z u r /\ (unit_ok d z u -> closes_with d z u r).
Proof.
  intros z u r Hb Hr (E1 & E2 & E3). pose proof Hr as (Rs & Re & _). split; [split; [auto|]|split; [auto|]].
  - rewrite <- E3. now apply (vle_refl e).
  - rewrite <- E2. now apply (vle_refl e).
Qed.

(** A range that opens and closes with its start unit, or a single verse that does either, is that unit. *)
Lemma single_unit : forall z oc r, wf_range d true r -> rstart r = rend r -> (oc = None \/ oc = Some (vchap (rstart r))) ->
  let u := whole_unit (vbook (rstart r)) oc in
  (opens_with d z u r -> is_unit z u r) /\ (closes_with d z u r -> is_unit z u r).
Proof.
  intros z oc r Hr Hs Hoc u. pose proof Hr as (Rs & Re & _).
  destruct (unit_facts z _ _ Rs Hoc) as (Hb & Hok & F & L). fold u in Hb, Hok, F, L.
  pose proof (unit_le z u Hb Hok) as Hle. unfold opens_with, closes_with, is_unit. rewrite !(vle_pos e Hwf).
  split; intros (H1 & _ & _ & H2); (split; [congruence|]).
  - split; [exact H1|]. apply (pos_eq e); auto. rewrite <- Hs, H1 in *. lia.
  - split; [|exact H1]. apply (pos_eq e); auto. rewrite Hs, H1 in *. lia.
Qed.

Lemma book_chap_unit : forall z r, wf_range d true r -> is_unit z (chap_at (rstart r)) r ->
  opens_with d z (book_at (rstart r)) r \/ closes_with d z (book_at (rend r)) r ->
  is_unit z (book_at (rstart r)) r.
Proof.
  intros z r Hr (E1 & E2 & E3) H. pose proof Hr as (Rs & Re & _).
  destruct (unit_facts z (rstart r) None Rs) as (Hb & _ & F & L); [auto|]. cbn [whole_unit unit_book] in *.
  fold (book_at (rstart r)) in *.
  assert (Hc : vchap (rend r) = vchap (rstart r)) by now rewrite E3.
  pose proof (InB_legal e _ _ Rs) as (L1 & _). pose proof (InB_legal e _ _ Re) as (L2 & _).
  pose proof (num_chaps_pos e Hwf _ Hb) as Hn.
  unfold opens_with, closes_with, is_unit in *. rewrite <- E1 in *.
  assert (Hbk : book_at (rend r) = book_at (rstart r)) by (unfold book_at; now rewrite E1).
  rewrite Hbk in H. rewrite !(vle_pos e Hwf) in H. destruct H as [(H1 & _ & _ & H2)|(H1 & _ & _ & H2)].
  - split; [auto|]. split; [exact H1|]. apply (pos_eq e); auto.
    assert (pos (rend r) <= pos (unit_last d (book_at (rstart r)))); [|lia].
    apply (pos_book e Hwf); auto. cbn. try rewrite <- E1 in L2.
    pose proof (InB_legal e _ _ Re) as (_ & L3). rewrite <- E1 in L3.
    destruct (Z.eq_dec (vchap (rend r)) (num_chaps d (vbook (rstart r)))) as [E|E]; [right|left; lia].
    rewrite <- E. lia.
  - split; [auto|]. split; [|exact H1]. apply (pos_eq e); auto.
    assert (pos (unit_first d z (book_at (rstart r))) <= pos (rstart r)); [|lia].
    apply (pos_book e Hwf); auto. cbn.
    destruct (Z.eq_dec 1 (vchap (rstart r))) as [E|E]; [right|left; lia].
    split; [exact E|]. rewrite E2. cbn. rewrite <- E. lia.
Qed.

Ltac evb H b Hb := destruct H as (b & Hb & ?); rewrite Hb.

Lemma rg_step_ok : forall fl cc st x, wf_range d true x -> range_can_start e fl x ->
  (matches st x -> counts cc x) ->
  exists nb st', rg_step e fl cc st x = Ok (nb, st') /\ state_of fl x st' /\
    (nb = false <-> matches st x /\ ~ opens_with d (zf fl) (chap_at (rstart x)) x /\ ~ multi_chap x).
Proof.
  intros fl cc st x Hx (C1 & C2 & C3 & C4) Hcc. pose proof Hx as (Rs & Re & _).
  assert (Hbs : In (vbook (rstart x)) (book_order d)) by (eapply InB_book; eauto).
  assert (Hbe : In (vbook (rend x)) (book_order d)) by (eapply InB_book; eauto).
  assert (Hn : can_start e None (chap_at (rend x))).
  { apply can_start_none; [exact Hbe|]. cbn. apply InB_legal in Re. unfold legal in Re. tauto. }
  pose proof (opens_eval x None fl Hx (or_introl eq_refl) C2) as Esb.
  pose proof (opens_eval x (Some (vchap (rstart x))) fl Hx (or_intror eq_refl) C1) as Esc.
  pose proof (closes_eval x None fl Hx (or_introl eq_refl) C4) as Eeb.
  pose proof (closes_eval x (Some (vchap (rend x))) fl Hx (or_intror eq_refl) C3) as Eec.
  pose proof (closes_eval x (Some (vchap (rend x))) None Hx (or_intror eq_refl) Hn) as Een.
  pose proof (whole_eval x None fl Hx (or_introl eq_refl) C2) as Ewb.
  pose proof (whole_eval x (Some (vchap (rstart x))) fl Hx (or_intror eq_refl) C1) as Ewc.
  cbn [whole_unit] in *. rewrite zero_none in Een.
  fold (chap_at (rstart x)) in *. fold (book_at (rstart x)) in *. fold (chap_at (rend x)) in *. fold (book_at (rend x)) in *.
  pose proof (opens_book_chap (zf fl) x Hx) as Hbc.
  destruct Esb as (sb & Esb & Psb). destruct Esc as (sc & Esc & Psc).
  destruct Eeb as (eb & Eeb & Peb). destruct Eec as (ec & Eec & Pec). destruct Een as (en & Een & Pen).
  destruct Ewb as (wb & Ewb & Pwb). destruct Ewc as (wc & Ewc & Pwc).
  unfold rg_step, rg_open, rg_close. unfold spans_start_book, spans_start_chap, spans_end_book, spans_end_chap, is_whole_book, is_whole_chap.
  rewrite Esb, Esc, Eeb, Eec, Een, Ewb, Ewc. cbn [bind notM].
  (* facts on whole units *)
  assert (Wb : wb = true -> sb = true /\ eb = true /\ vbook (rend x) = vbook (rstart x)).
  { intros H. apply Pwb in H. destruct (is_unit_opens _ (book_at (rstart x)) x Hbs Hx H) as (O & C).
    assert (Hbk : book_at (rend x) = book_at (rstart x)) by (unfold book_at; f_equal; symmetry; apply H).
    rewrite <- Hbk in C. destruct H as (H & _).
    split; [now apply Psb|]. split; [apply Peb, C; exact I|auto]. }
  assert (Wc : wc = true -> sc = true /\ ec = true /\ vbook (rend x) = vbook (rstart x) /\ vchap (rend x) = vchap (rstart x)).
  { intros H. apply Pwc in H. destruct (is_unit_opens _ (chap_at (rstart x)) x Hbs Hx H) as (O & C).
    assert (Hch : vchap (rend x) = vchap (rstart x)) by (destruct H as (_ & _ & H); rewrite H; reflexivity).
    assert (Hbk : chap_at (rend x) = chap_at (rstart x)) by (unfold chap_at; f_equal; [symmetry; apply H|auto]).
    rewrite <- Hbk in C. destruct H as (H & _).
    split; [now apply Psc|]. split; [|auto]. apply Pec, C. cbn. apply InB_legal in Re. unfold legal in Re. tauto. }
  assert (Wcb : wc = true -> sb = true \/ eb = true -> wb = true).
  { intros H1 H2. apply Pwb. apply Pwc in H1. apply book_chap_unit; auto.
    destruct H2 as [H2|H2]; [left; now apply Psb|right; now apply Peb]. }
  assert (Sg : is_single_verse x = true -> (sc = true -> wc = true) /\ (sb = true -> wb = true) /\ (eb = true -> wb = true) /\
               rstart x = rend x).
  { unfold is_single_verse. intros H. apply verse_eqb_eq in H.
    pose proof (single_unit (zf fl) (Some (vchap (rstart x))) x Hx H (or_intror eq_refl)) as (S1 & _).
    pose proof (single_unit (zf fl) None x Hx H (or_introl eq_refl)) as (S3 & S4). cbn [whole_unit] in *.
    fold (chap_at (rstart x)) in *. fold (book_at (rstart x)) in *.
    repeat split; intros; [apply Pwc, S1, Psc; auto|apply Pwb, S3, Psb; auto|apply Pwb, S4|auto].
    rewrite H. now apply Peb. }
  assert (Psbc : sb = true -> sc = true) by (intros H; apply Psc, Hbc, Psb, H).
  assert (Popen : open_after e fl x <->
    ~ eb = true /\ ~ (ec = true /\ (vbook (rstart x) <> vbook (rend x) \/ (sc = true /\ en = true)))).
  { unfold open_after. cbn zeta. rewrite Peb, Pec, Psc, Pen. reflexivity. }
  (* the group decision *)
  set (P1 := if sb then _ else _).
  assert (HP1 : exists nb cc', P1 = Ok (nb, (cc', negb sb && negb sc)) /\
     cc' = (if sb then None else Some (vchap (rstart x))) /\
     (nb = false <-> matches st x /\ ~ opens_with d (zf fl) (chap_at (rstart x)) x /\ ~ multi_chap x)).
  { subst P1. destruct sb.
    - do 2 eexists. split; [reflexivity|]. split; [reflexivity|]. split; [discriminate|].
      intros (_ & H & _). exfalso. apply H, Psc, Psbc. reflexivity.
    - destruct sc.
      + do 2 eexists. split; [reflexivity|]. split; [reflexivity|]. split; [discriminate|].
        intros (_ & H & _). exfalso. apply H, Psc. reflexivity.
      + assert (Hno : ~ opens_with d (zf fl) (chap_at (rstart x)) x) by (intros H; apply Psc in H; discriminate).
        destruct (obook_eqb (rg_book st) (vbook (rstart x))) eqn:Eb.
        2:{ cbn [bind]. do 2 eexists. split; [reflexivity|]. split; [reflexivity|]. split; [discriminate|].
            intros ((H & _) & _). apply obook_eqb_eq in H. congruence. }
        apply obook_eqb_eq in Eb.
        destruct (negb (rg_verse st) || negb (oz_eqb (rg_chap st) (vchap (rstart x)))) eqn:Ev.
        { cbn [bind]. do 2 eexists. split; [reflexivity|]. split; [reflexivity|]. split; [discriminate|].
          intros ((_ & H1 & H2) & _). apply oz_eqb_eq in H1. rewrite H1, H2 in Ev. discriminate. }
        apply orb_false_iff in Ev. destruct Ev as (Ev1 & Ev2). apply negb_false_iff in Ev1, Ev2.
        apply oz_eqb_eq in Ev2. assert (Hm : matches st x) by (repeat split; auto).
        destruct (Hcc Hm) as (n & En & Pn). rewrite En. cbn [bind]. do 2 eexists. split; [reflexivity|]. split; [reflexivity|].
        rewrite <- Pn, Z.gtb_ltb, Z.ltb_ge. split; intros; [|lia]. repeat split; auto; try tauto. lia. }
  destruct HP1 as (nb & cc' & EP1 & Ecc & Pnb). rewrite EP1. clear P1 EP1. cbn [bind fst snd]. subst cc'.
  set (av := negb sb && negb sc). set (A2 := if av then _ else _).
  assert (EA2 : A2 = Ok (av || negb en)) by (subst A2; destruct av; reflexivity).
  rewrite EA2. clear A2 EA2. cbn [bind].
  assert (Hav : av = negb sc) by (subst av; destruct sb, sc; auto; discriminate (Psbc eq_refl)).
  unfold andM. cbn [bind].
  destruct wb.
  { destruct (Wb eq_refl) as (-> & -> & Hb). cbn [negb bind]. do 2 eexists. split; [reflexivity|]. split; [|exact Pnb].
    unfold state_of. cbn [rg_book rg_chap rg_verse]. rewrite Popen, Hb. split; [reflexivity|]. split; [now left|].
    split; [intros (H & _); now destruct H|intros ([=] & _)]. }
  destruct wc.
  { destruct (Wc eq_refl) as (-> & -> & Hb & Hc). cbn [negb bind].
    assert (sb = false) by (destruct sb; auto; discriminate (Wcb eq_refl (or_introl eq_refl))).
    assert (eb = false) by (destruct eb; auto; discriminate (Wcb eq_refl (or_intror eq_refl))). subst sb eb.
    do 2 eexists. split; [reflexivity|]. split; [|exact Pnb].
    unfold state_of. cbn [rg_book rg_chap rg_verse]. rewrite Popen, Hb, Hc. split; [reflexivity|]. split; [now right|].
    rewrite Hav. cbn [negb orb]. destruct en; cbn [negb]; split.
    - intros (_ & H). exfalso. apply H. auto.
    - intros (_ & [=]).
    - auto.
    - intros _. split; [discriminate|]. intros (_ & [H|(_ & [=])]). now apply H. }
  cbn [negb bind]. destruct (is_single_verse x) eqn:Es; cbn [negb].
  { destruct (Sg eq_refl) as (S1 & S2 & S3 & Hs).
    assert (sb = false) by (destruct sb; auto; discriminate (S2 eq_refl)).
    assert (sc = false) by (destruct sc; auto; discriminate (S1 eq_refl)).
    assert (eb = false) by (destruct eb; auto; discriminate (S3 eq_refl)). subst sb sc eb.
    do 2 eexists. split; [reflexivity|]. split; [|exact Pnb].
    unfold state_of. cbn [rg_book rg_chap rg_verse]. rewrite Popen, <- Hs. split; [reflexivity|]. split; [now right|].
    rewrite Hav. cbn [negb orb]. split; [auto|]. intros _. split; [discriminate|].
    intros (_ & [H|([=] & _)]). now apply H. }
  destruct eb.
  { do 2 eexists. split; [reflexivity|]. split; [|exact Pnb].
    unfold state_of. cbn [rg_book rg_chap rg_verse]. rewrite Popen. split; [reflexivity|]. split; [now left|].
    split; [intros (H & _); now destruct H|intros ([=] & _)]. }
  set (av3 := if book_eqb _ _ then _ else _).
  assert (EE : (if av3 then Ok false else Ok ec) = Ok (negb av3 && ec)) by (destruct av3; reflexivity).
  rewrite EE. clear EE. cbn [bind]. do 2 eexists. split; [reflexivity|]. split; [|exact Pnb].
  unfold state_of. cbn [rg_book rg_chap rg_verse]. rewrite Popen. split; [reflexivity|]. split; [now right|].
  subst av3. rewrite Hav. destruct (book_eqb (vbook (rend x)) (vbook (rstart x))) eqn:Ek.
  - apply book_eqb_eq in Ek. rewrite Ek. split.
    + intros (_ & H). split; [reflexivity|]. destruct sc, en, ec; cbn; auto. exfalso. apply H. auto.
    + intros (_ & H). split; [discriminate|]. intros (-> & [H1|(-> & ->)]); [now apply H1|discriminate].
  - assert (Hne : vbook (rstart x) <> vbook (rend x)).
    { intros H. symmetry in H. apply book_eqb_eq in H. congruence. }
    cbn [negb andb]. split.
    + intros (_ & H). split; [reflexivity|]. destruct ec; [exfalso; apply H; auto|reflexivity].
    + intros (_ & H). split; [discriminate|]. intros (-> & _). discriminate.
Qed.

(** ** The loop *)
Fixpoint marks_ok (fl : option flag) (prev : option range) (ms : list (bool * range)) : Prop :=
  match ms with
  | [] => True
  | (b, x) :: ms' =>
      match prev with Some p => (b = false <-> continues e fl p x) | None => b = true end /\
      marks_ok fl (Some x) ms'
  end.
Fixpoint cc_ok (cc : range -> res Z) (prev : option range) (l : list range) : Prop :=
  match l with
  | [] => True
  | x :: l' =>
      match prev with Some p => chap_at (rstart x) = chap_at (rend p) -> counts cc x | None => True end /\
      cc_ok cc (Some x) l'
  end.
Definition state_after (fl : option flag) (prev : option range) (st : rg_state) : Prop :=
  match prev with Some p => state_of fl p st | None => st = RG None None false end.

Lemma rg_loop_ok : forall fl cc l prev st, Forall (wf_range d true) l -> Forall (range_can_start e fl) l ->
  state_after fl prev st -> cc_ok cc prev l ->
  exists ms, rg_loop e fl cc st l = Ok ms /\ map snd ms = l /\ marks_ok fl prev ms.
Proof.
  intros fl cc. induction l as [|x l IH]; intros prev st Hw Hc Hst Hcc.
  - exists []. repeat split.
  - inversion Hw as [|? ? Hx Hw']; subst. inversion Hc as [|? ? Hcx Hc']; subst. destruct Hcc as (Hcc1 & Hcc2).
    assert (Hm : matches st x -> exists p, prev = Some p /\ chap_at (rstart x) = chap_at (rend p) /\ open_after e fl p).
    { intros (M1 & M2 & M3). destruct prev as [p|]; cbn in Hst; [|subst st; discriminate].
      destruct Hst as (S1 & S2 & S3). exists p. split; [reflexivity|].
      assert (E1 : vbook (rend p) = vbook (rstart x)) by congruence.
      assert (E2 : vchap (rend p) = vchap (rstart x)) by (destruct S2; congruence).
      split; [unfold chap_at; now rewrite E1, E2|]. apply S3. rewrite E2. auto. }
    destruct (rg_step_ok fl cc st x Hx Hcx) as (nb & st' & E & Hst' & Hnb).
    { intros M. destruct (Hm M) as (p & -> & Hp & _). now apply Hcc1. }
    destruct (IH (Some x) st' Hw' Hc' Hst' Hcc2) as (ms & Ems & Hms & Hok).
    exists ((nb, x) :: ms). cbn [rg_loop]. rewrite E. cbn [bind fst snd]. rewrite Ems. cbn [bind map snd].
    split; [reflexivity|]. split; [now rewrite Hms|]. split; [|exact Hok].
    destruct prev as [p|].
    + rewrite Hnb. unfold continues. split.
      * intros (M & N1 & N2). destruct (Hm M) as (p' & [= <-] & Hp & Ho).
        split; [exact Ho|]. split; [exact N1|]. split; [exact Hp|]. unfold multi_chap in N2.
        unfold chap_at in *. destruct (book_eqb (vbook (rend x)) (vbook (rstart x))) eqn:Q1.
        -- apply book_eqb_eq in Q1. rewrite Q1 in *. f_equal.
           destruct (Z.eq_dec (vchap (rend x)) (vchap (rstart x))) as [Q2|Q2]; [exact Q2|].
           exfalso. apply N2. intros [=]. now apply Q2.
        -- exfalso. apply N2. intros [= Q2 Q3]. apply book_eqb_eq in Q2. congruence.
      * intros (Ho & N1 & Hp & N2). destruct Hst as (S1 & S2 & S3).
        apply S3 in Ho. unfold chap_at in Hp. injection Hp as P1 P2.
        split; [split; [congruence|split; [destruct Ho; congruence|tauto]]|]. split; [exact N1|].
        unfold multi_chap. congruence.
    + cbn in Hst. subst st. destruct nb; [reflexivity|]. destruct (proj1 Hnb eq_refl) as ((M & _) & _). discriminate.
Qed.

Lemma marks_unique : forall fl ms prev ms', map snd ms = map snd ms' -> marks_ok fl prev ms -> marks_ok fl prev ms' -> ms = ms'.
Proof.
  intros fl. induction ms as [|[b x] ms IH]; intros prev ms' E H1 H2.
  - destruct ms'; [reflexivity|discriminate].
  - destruct ms' as [|[b' x'] ms']; [discriminate|]. cbn in E. injection E as -> E.
    destruct H1 as (A1 & B1). destruct H2 as (A2 & B2). f_equal; [|eauto]. f_equal.
    destruct prev; [|congruence]. destruct b, b'; auto; exfalso.
    + assert (true = false) by (apply A1, A2; reflexivity). discriminate.
    + assert (true = false) by (apply A2, A1; reflexivity). discriminate.
Qed.

Definition chap_counter (n : nat) (x : range) : res Z :=
  match n with
  | O => Err Diverge
  | S n => ps <- split_items e (nav_fuel e) x false true None None ;;
           g <- regroup_n e n None ps ;; Ok (zlen (items g))
  end.
Lemma regroup_n_eq : forall n fl l, regroup_n e n fl l =
  (ms <- rg_loop e fl (chap_counter n) (RG None None false) l ;; Ok (cut_groups ms)).
Proof. intros [|n] fl l; reflexivity. Qed.

Lemma range_can_start_none : forall r, wf_range d true r -> range_can_start e None r.
Proof.
  intros r (Rs & Re & _).
  pose proof (InB_legal e _ _ Rs) as (L1 & _). pose proof (InB_legal e _ _ Re) as (L2 & _).
  pose proof (InB_book e _ _ Rs). pose proof (InB_book e _ _ Re).
  repeat split; apply can_start_none; cbn; auto.
Qed.

(** The pieces of a split by chapters. *)
Lemma chap_pieces : forall x, wf_range d true x ->
  exists ps, split_items e (nav_fuel e) x false true None None = Ok ps /\ Forall (wf_range d true) ps /\
    (forall cc, cc_ok cc None ps) /\ (1 < zlen ps <-> multi_chap x).
Proof.
  intros x Hx. set (z := split_zero e x None).
  destruct (verses_of_exists e Hwf z x) as (l & Hl); [now apply split_zero_wf|].
  destruct (split_chaps e Hwf x None l Hl) as (ps & E & F2). exists ps. split; [exact E|].
  pose proof (verses_of_seg e z x l Hl) as Hseg.
  assert (Hw : Forall (wf_range d true) ps).
  { pose proof (runs_segs e same_ch z l Hseg) as Hs. clear E. revert Hs. induction F2 as [|p y ps ys (P1 & P2) F2 IH]; intros Hs; constructor.
    - inversion Hs as [|? ? Hy _]; subst.
      assert (I1 : In (rstart p) y) by (destruct y; [discriminate|injection P1 as ->; now left]).
      assert (I2 : In (rend p) y) by (apply hd_rev_in in P2; destruct P2 as (y' & ->); apply in_or_app; right; now left).
      pose proof (seg_in_true e _ _ _ Hy I1) as B1. pose proof (seg_in_true e _ _ _ Hy I2) as B2.
      apply (wf_range_pos e Hwf). split; [exact B1|]. split; [exact B2|].
      pose proof (seg_in e _ _ _ Hy I2) as B3.
      apply (seg_between e Hwf z y (rstart p) (rend p) (rend p) Hy P1 P2 B3) in I2. lia.
    - inversion Hs; auto. }
  split; [exact Hw|]. split.
  - intros cc.
    assert (Hbr : forall rs1 p q rs2, ps = rs1 ++ p :: q :: rs2 -> chap_at (rstart q) <> chap_at (rend p)).
    { intros rs1 p q rs2 Eps Hpq. subst ps.
      apply Forall2_app_inv_l in F2. destruct F2 as (y1 & y2 & _ & F2 & Er).
      inversion F2 as [|? p' ? y3 Pp F3]; subst. inversion F3 as [|? q' ? y4 Pq F4]; subst.
      destruct (runs_break same_ch l y1 p' q' y4 Er) as (a & b & Ha & Hb & Hs).
      destruct Pp as (_ & Pp). destruct Pq as (Pq & _). rewrite Pp in Ha. rewrite Pq in Hb. injection Ha as <-. injection Hb as <-.
      assert (same_ch (rend p) (rstart q) = true); [|congruence]. apply same_ch_iff. unfold chap_at in Hpq.
      injection Hpq as Q1 Q2. auto. }
    clear E F2 Hw. destruct ps as [|p ps]; [exact I|]. split; [exact I|].
    revert p Hbr. induction ps as [|q ps IH]; intros p Hbr; [exact I|]. split.
    + intros H. exfalso. eapply (Hbr [] p q ps); [reflexivity|exact H].
    + apply IH. intros rs1 p' q' rs2 Eq. apply (Hbr (p :: rs1) p' q' rs2). now rewrite Eq.
  - destruct (chap_count_spec e Hwf x None Hx) as (n & En & (ks & Hnd & Hin & Hlen)).
    unfold r_chap_count in En. rewrite E in En. cbn [bind count_pieces] in En. injection En as En. rewrite En, Hlen. clear En Hlen.
    pose proof Hx as (Rs & Re & _).
    assert (Ts : In (ch_key (rstart x)) ks) by (apply Hin; exists (rstart x); split; [now apply (InR_start e Hwf)|split; reflexivity]).
    assert (Te : In (ch_key (rend x)) ks) by (apply Hin; exists (rend x); split; [now apply (InR_end e Hwf)|split; reflexivity]).
    assert (Hk : multi_chap x <-> ch_key (rstart x) <> ch_key (rend x)).
    { unfold multi_chap, chap_at, ch_key. split; intros H K; apply H; injection K as K1 K2; congruence. }
    rewrite Hk. unfold zlen. split.
    + intros H K. destruct ks as [|k1 [|k2 ks]]; cbn in H; try lia.
      assert (Hall : forall k, In k (k1 :: k2 :: ks) -> k = ch_key (rstart x)).
      { intros k Hk'. apply Hin in Hk'. destruct Hk' as (v & Hv & V1 & V2).
        apply (InR_pos e Hwf) in Hv. destruct Hv as (B1 & _ & _ & B4).
        assert (Kv : ch_key v = ch_key (rstart x)) by (apply (ch_convex e Hwf _ _ (rend x)); auto).
        rewrite <- Kv. destruct k. unfold ch_key. cbn in *. congruence. }
      assert (k1 = k2) by (rewrite (Hall k1), (Hall k2); cbn; auto).
      inversion Hnd as [|? ? N _]; subst. apply N. now left.
    + intros K. destruct ks as [|k1 [|k2 ks]]; cbn; try lia; cbn in Ts, Te.
      * destruct Ts.
      * destruct Ts as [Ts|[]]. destruct Te as [Te|[]]. congruence.
Qed.

Lemma regroup_pieces : forall n ps, Forall (wf_range d true) ps -> (forall cc, cc_ok cc None ps) ->
  exists g, regroup_n e n None ps = Ok g /\ items g = ps.
Proof.
  intros n ps Hw Hcc. rewrite regroup_n_eq.
  destruct (rg_loop_ok None (chap_counter n) ps None (RG None None false)) as (ms & E & Hms & _); auto.
  - rewrite Forall_forall in *. intros r Hr. apply range_can_start_none. auto.
  - reflexivity.
  - rewrite E. cbn [bind]. eexists. split; [reflexivity|]. now rewrite cut_items.
Qed.
Lemma chap_counter_ok : forall n x, wf_range d true x -> counts (chap_counter (S n)) x.
Proof.
  intros n x Hx. destruct (chap_pieces x Hx) as (ps & E & Hw & Hcc & Hn).
  destruct (regroup_pieces n ps Hw Hcc) as (g & Eg & Hg).
  exists (zlen ps). split; [|exact Hn]. cbn [chap_counter]. rewrite E. cbn [bind]. rewrite Eg. cbn [bind]. now rewrite Hg.
Qed.

(** ** Boundaries *)
Lemma marks_split : forall fl m1 b p b' x m2 prev, marks_ok fl prev (m1 ++ (b, p) :: (b', x) :: m2) ->
  (b' = false <-> continues e fl p x).
Proof.
  intros fl. induction m1 as [|[c y] m1 IH]; intros b p b' x m2 prev H.
  - apply H.
  - destruct H as (_ & H). eapply IH. exact H.
Qed.
Lemma last_group : forall {A} (g : seq A), nonempty_groups g -> forall l x, items g = l ++ [x] ->
  exists ga a, g = ga ++ [a ++ [x]] /\ concat ga ++ a = l.
Proof.
  intros A g Hg l x E. destruct (exists_last (l := g)) as (ga & a' & ->).
  { intros ->. destruct l; discriminate. }
  unfold items in E. rewrite concat_app in E. cbn in E. rewrite app_nil_r in E.
  apply Forall_app in Hg. destruct Hg as (_ & Hg). inversion Hg as [|? ? Ha _]; subst.
  destruct (exists_last Ha) as (a & y & ->). rewrite app_assoc in E. apply app_inj_tail in E. destruct E as (E & ->).
  exists ga, a. auto.
Qed.
Lemma first_group : forall {A} (g : seq A), nonempty_groups g -> forall l x, items g = x :: l ->
  exists b gb, g = (x :: b) :: gb /\ b ++ concat gb = l.
Proof.
  intros A g Hg l x E. destruct g as [|p g]; [discriminate|]. inversion Hg as [|? ? Hp _]; subst.
  destruct p as [|y b]; [congruence|]. cbn in E. injection E as -> E. exists b, g. auto.
Qed.
Lemma cut_boundary : forall {A} (l1 : list (bool * A)) x y b b' l2,
  let g := cut_groups (l1 ++ (b, x) :: (b', y) :: l2) in
  if b' then apart g (map snd l1) x y (map snd l2) else together g (map snd l1) x y (map snd l2).
Proof.
  intros A l1 x y b b' l2 g. destruct (cut_marks l1 x y b b' l2) as (g1 & g2 & E & I1 & I2 & N1 & N2 & _ & _).
  destruct (last_group g1 N1 _ _ I1) as (ga & a & -> & Ea). destruct (first_group g2 N2 _ _ I2) as (c & gb & -> & Eb).
  subst g. destruct b'; exists ga, a, c, gb; (split; [|auto]); rewrite E.
  - now rewrite <- app_assoc.
  - rewrite rev_app_distr. cbn [rev app]. rewrite rev_involutive. now rewrite <- app_assoc.
Qed.

Theorem regroup_fuel : forall fl l, Forall (wf_range d true) l -> Forall (range_can_start e fl) l ->
  exists g, (forall n, regroup_n e (S n) fl l = Ok g) /\ items g = l /\ nonempty_groups g /\
    forall l1 p x l2, l = l1 ++ p :: x :: l2 ->
      (continues e fl p x -> together g l1 p x l2) /\ (~ continues e fl p x -> apart g l1 p x l2).
Proof.
  intros fl l Hw Hc.
  assert (Hcc : forall n prev, cc_ok (chap_counter (S n)) prev l).
  { intros n. clear Hc. induction Hw as [|x l Hx Hw IH]; intros prev; [exact I|]. split; [|apply IH].
    destruct prev; [intros _; now apply chap_counter_ok|exact I]. }
  destruct (rg_loop_ok fl (chap_counter 1) l None (RG None None false) Hw Hc eq_refl (Hcc 0%nat None)) as (ms & E & Hms & Hok).
  exists (cut_groups ms). split.
  { intros n. rewrite regroup_n_eq.
    destruct (rg_loop_ok fl (chap_counter (S n)) l None (RG None None false) Hw Hc eq_refl (Hcc n None)) as (ms' & E' & Hms' & Hok').
    rewrite E'. cbn [bind]. f_equal. f_equal. eapply marks_unique; [|exact Hok'|exact Hok]. congruence. }
  split; [now rewrite cut_items|]. split; [apply cut_nonempty|].
  intros l1 p x l2 El. rewrite El in Hms.
  assert (Hsp : exists m1 b b' m2, ms = m1 ++ (b, p) :: (b', x) :: m2 /\ map snd m1 = l1 /\ map snd m2 = l2).
  { apply map_eq_app in Hms. destruct Hms as (m1 & m' & -> & M1 & M2).
    destruct m' as [|[b p'] m']; [discriminate|]. cbn in M2. injection M2 as -> M2.
    destruct m' as [|[b' x'] m']; [discriminate|]. cbn in M2. injection M2 as -> M2.
    exists m1, b, b', m'. auto. }
  destruct Hsp as (m1 & b & b' & m2 & -> & M1 & M2). pose proof (marks_split fl m1 b p b' x m2 None Hok) as Hb.
  pose proof (cut_boundary m1 p x b b' m2) as Hcut. cbn zeta in Hcut. rewrite M1, M2 in Hcut.
  split; intros H.
  - apply Hb in H. subst b'. exact Hcut.
  - destruct b'; [exact Hcut|]. exfalso. apply H, Hb. reflexivity.
Qed.

Lemma regroup_ok : forall fl l, Forall (wf_range d true) (items l) -> Forall (range_can_start e fl) (items l) ->
  exists g, regroup e fl l = Ok g /\ items g = items l /\ nonempty_groups g /\ regroup e fl g = Ok g /\
    forall l1 p x l2, items l = l1 ++ p :: x :: l2 ->
      (continues e fl p x -> together g l1 p x l2) /\ (~ continues e fl p x -> apart g l1 p x l2).
Proof.
  intros fl l Hw Hc. destruct (regroup_fuel fl (items l) Hw Hc) as (g & E & I & N & B).
  exists g. unfold regroup. rewrite I. split; [apply (E 0%nat)|]. split; [reflexivity|]. split; [exact N|].
  split; [apply (E 0%nat)|exact B].
Qed.
Lemma regroup_none : forall l, Forall (wf_range d true) (items l) ->
  exists g, regroup e None l = Ok g /\ items g = items l /\ nonempty_groups g /\ regroup e None g = Ok g.
Proof.
  intros l Hw. destruct (regroup_ok None l Hw) as (g & E & I & N & R & _); [|eauto].
  rewrite Forall_forall in *. intros r Hr. apply range_can_start_none. auto.
Qed.

(** With the whole units covered rather than begun or ended. *)
Lemma opens_covers : forall z r, wf_range d z r ->
  (opens_with d z (chap_at (rstart r)) r <-> covers_chap d z r (vbook (rstart r), vchap (rstart r))).
Proof.
  intros z r Hr. pose proof Hr as (Rs & _). pose proof (InB_mono e _ _ Rs) as Rs'. unfold covers_chap. cbn [fst snd].
  destruct (unit_facts z (rstart r) (Some (vchap (rstart r))) Rs') as (Hb & Hok & F & L); [auto|]. cbn [whole_unit] in *.

  pose proof (covers_start e Hwf z (chap_at (rstart r)) r Hr (conj eq_refl eq_refl) Hb Hok) as Hc. cbn [unit_verses chap_at] in Hc.
  unfold opens_with. rewrite (vle_pos e Hwf). fold (chap_at (rstart r)). fold (chap_at (rstart r)) in Hc.
  cbn in Hok. pose proof (InB_mono e _ _ (proj1 (proj2 Hr))). tauto.
Qed.
Lemma closes_covers : forall z r oc, wf_range d z r -> (oc = None \/ oc = Some (vchap (rend r))) ->
  let u := whole_unit (vbook (rend r)) oc in
  (closes_with d z u r <-> forall v, In v (unit_verses d z u) -> InR d v r).
Proof.
  intros z r oc Hr Hoc u. pose proof Hr as (Rs & Re & _). pose proof (InB_mono e _ _ Re) as Re'.
  destruct (unit_facts z (rend r) oc Re' Hoc) as (Hb & Hok & F & L). fold u in Hb, Hok, F, L.
  assert (Hin : in_unit u (rend r)) by (subst u; destruct Hoc as [-> | ->]; cbn; auto).
  rewrite (covers_end e Hwf z u r Hr Hin Hb Hok). unfold closes_with. rewrite (vle_pos e Hwf).
  pose proof (InB_mono e _ _ Rs). tauto.
Qed.
End Regroup.
