(** * PUnit3: the tests for whole units on every legal range, under all flags (C42, C43). *)
From Coq Require Import List ZArith Bool Lia.
From Verif Require Import Base Books Data MVerse MRange Spec PList PCore PNav PVerse PRange PSetOps PSetSpec PRuns PSplit PCount PTerm PUnit PUnit2.
Import ListNotations.
Import Spec.
Open Scope Z_scope.

Section Units3.
Variable e : env.
Notation d := (ed e).
Hypothesis Hwf : wf_data d.
Notation pos := (pos e).
Notation zf fl := (zero_on e fl).

(** A range, of whatever universe, has all verses of a unit when it has the first and the last. *)
Lemma covers_gen : forall z u r, wf_range d true r -> In (unit_book u) (book_order d) -> unit_ok d z u ->
  ((forall v, In v (unit_verses d z u) -> InR d v r) <->
   pos (rstart r) <= pos (unit_first d z u) /\ pos (unit_last d u) <= pos (rend r)).
Proof.
  intros z u r Hr Hb Hok. pose proof (unit_bounds e Hwf z u Hb Hok) as (F & L & P).
  apply (wf_range_pos e Hwf) in Hr. destruct Hr as (Rs & Re & Rp).
  pose proof (InB_mono e _ _ F) as F'. pose proof (InB_mono e _ _ L) as L'. split.
  - intros H.
    assert (H1 : InR d (unit_first d z u) r) by (apply H, (in_unit_verses e Hwf z u); auto; split; auto; apply (in_unit_pos e Hwf z); auto; lia).
    assert (H2 : InR d (unit_last d u) r) by (apply H, (in_unit_verses e Hwf z u); auto; split; auto; apply (in_unit_pos e Hwf z); auto; lia).
    apply (InR_pos e Hwf) in H1, H2. tauto.
  - intros [H1 H2] v Hv. apply (in_unit_verses e Hwf z u) in Hv; auto. destruct Hv as [Hv1 Hv2].
    apply (in_unit_pos e Hwf z u v Hb Hok Hv1) in Hv2. apply (InR_pos e Hwf).
    pose proof (InB_mono e _ _ Hv1). repeat split; auto; lia.
Qed.
Lemma start_exact : forall r oc fl, wf_range d true r ->
  let u := whole_unit (vbook (rstart r)) oc in
  let x := andM (w <- first_verse e (vbook (rstart r)) oc fl ;; Ok (verse_eqb (rstart r) w))
                (w <- last_verse e (vbook (rstart r)) oc ;; Ok (vleb e w (rend r))) in
  unit_ok d (zf fl) u ->
  (can_start e fl u -> bool_is x (hd_error (unit_verses d (zf fl) u) = Some (rstart r) /\ forall v, In v (unit_verses d (zf fl) u) -> InR d v r)) /\
  (~ can_start e fl u -> x = Err InvalidRef).
Proof.
  intros r oc fl Hr u x Hok. pose proof Hr as (Rs & Re & _).
  pose proof (InB_book e _ _ Rs) as Hb. assert (Hub : unit_book u = vbook (rstart r)) by apply whole_unit_book.
  assert (Hb' : In (unit_book u) (book_order d)) by now rewrite Hub.
  pose proof (unit_bounds e Hwf (zf fl) u Hb' Hok) as (F & L & _).
  subst x. split; intros Hc.
  - unfold bool_is, andM. rewrite (proj1 (first_verse_unit e Hwf _ _ fl Hb Hok) Hc). fold u. cbn [bind].
    rewrite (last_verse_unit e Hwf) by (auto; eapply whole_unit_ok; eauto). fold u. cbn [bind].
    pose proof (unit_verses_of e Hwf (zf fl) u Hb' Hok) as (_ & Hh & _). cbn [rstart] in Hh. rewrite Hh.
    pose proof (covers_gen (zf fl) u r Hr Hb' Hok) as Hcov.
    rewrite (vleb_pos_eq e Hwf) by (try assumption; eapply (InB_mono e); eauto).
    destruct (verse_eqb (rstart r) (unit_first d (zf fl) u)) eqn:E.
    + apply verse_eqb_eq in E. eexists. split; [reflexivity|]. rewrite Hcov, Z.leb_le, <- E. intuition lia.
    + apply verse_eqb_neq in E. eexists. split; [reflexivity|]. split; [discriminate|]. intros [H _]. congruence.
  - unfold andM. rewrite (proj2 (first_verse_unit e Hwf _ _ fl Hb Hok) Hc). reflexivity.
Qed.
Lemma end_exact : forall r oc fl, wf_range d true r ->
  let u := whole_unit (vbook (rend r)) oc in
  let x := andM (w <- last_verse e (vbook (rend r)) oc ;; Ok (verse_eqb (rend r) w))
                (w <- first_verse e (vbook (rend r)) oc fl ;; Ok (vleb e (rstart r) w)) in
  unit_ok d (zf fl) u -> in_unit u (rend r) ->
  (can_start e fl u -> bool_is x (forall v, In v (unit_verses d (zf fl) u) -> InR d v r)) /\
  (~ can_start e fl u -> x = if verse_eqb (rend r) (unit_last d u) then Err InvalidRef else Ok false).
Proof.
  intros r oc fl Hr u x Hok Hin. pose proof Hr as (Rs & Re & _).
  pose proof (InB_book e _ _ Re) as Hb. assert (Hub : unit_book u = vbook (rend r)) by apply whole_unit_book.
  assert (Hb' : In (unit_book u) (book_order d)) by now rewrite Hub.
  assert (Hok' : unit_ok d true u) by (subst u; eapply whole_unit_ok; eauto).
  pose proof (unit_bounds e Hwf (zf fl) u Hb' Hok) as (F & L & _).
  apply (in_unit_pos e Hwf true u _ Hb' Hok' Re) in Hin.
  subst x. unfold bool_is, andM. rewrite (last_verse_unit e Hwf) by (auto; eapply whole_unit_ok; eauto). fold u. cbn [bind].
  split; intros Hc.
  - rewrite (proj1 (first_verse_unit e Hwf _ _ fl Hb Hok) Hc). fold u. cbn [bind].
    pose proof (covers_gen (zf fl) u r Hr Hb' Hok) as Hcov.
    rewrite (vleb_pos_eq e Hwf) by (try assumption; eapply (InB_mono e); eauto).
    destruct (verse_eqb (rend r) (unit_last d u)) eqn:E.
    + apply verse_eqb_eq in E. eexists. split; [reflexivity|]. rewrite Hcov, Z.leb_le, <- E. intuition lia.
    + apply verse_eqb_neq in E. eexists. split; [reflexivity|]. rewrite Hcov. split; [discriminate|]. intros [_ H]. exfalso. apply E.
      apply (pos_eq e); auto; [eapply (InB_mono e); eauto|]. lia.
  - rewrite (proj2 (first_verse_unit e Hwf _ _ fl Hb Hok) Hc). destruct (verse_eqb (rend r) (unit_last d u)); reflexivity.
Qed.
Lemma whole_cannot : forall r oc oc' fl, wf_range d true r ->
  let u := whole_unit (vbook (rstart r)) oc in
  unit_ok d (zf fl) u -> ~ can_start e fl u ->
  andM (Ok (book_eqb (vbook (rstart r)) (vbook (rend r))))
    (andM (w <- first_verse e (vbook (rstart r)) oc fl ;; Ok (verse_eqb (rstart r) w))
          (w <- last_verse e (vbook (rend r)) oc' ;; Ok (verse_eqb (rend r) w))) =
  if book_eqb (vbook (rstart r)) (vbook (rend r)) then Err InvalidRef else Ok false.
Proof.
  intros r oc oc' fl Hr u Hok Hc. pose proof Hr as (Rs & _). pose proof (InB_book e _ _ Rs) as Hb.
  unfold andM. rewrite (proj2 (first_verse_unit e Hwf _ _ fl Hb Hok) Hc). cbn [bind]. now destruct book_eqb.
Qed.
End Units3.
