(** * PSetSpec: exact results of the set operations on two ranges, in the terms of Spec.v. *)
From Coq Require Import List ZArith Bool Lia Sorted.
From Verif Require Import Base Books Data MVerse MRange Spec PList PCore PNav PVerse PRange PSetOps.
Import ListNotations.
Open Scope Z_scope.

Section SetSpec.
Variable e : env.
Notation d := (ed e).
Notation pos := (PRange.pos e).
Hypothesis Hwf : wf_data d.

Lemma hull_of_eq : forall a b h, wf_range d true a -> wf_range d true b ->
  hull_of d a b h -> h = hull e a b.
Proof.
  intros a b h Ha Hb (Hs & Ht & H1 & H2 & H3 & H4).
  apply (wf_range_pos e Hwf) in Ha, Hb. destruct Ha as (Ha1 & Ha2 & Ha3), Hb as (Hb1 & Hb2 & Hb3).
  apply (vle_pos e Hwf) in H1, H2, H3, H4.
  destruct h as [s t]. cbn [rstart rend] in *. unfold hull. f_equal; apply (pos_eq e).
  - tauto.
  - now apply vmin_in.
  - rewrite (pos_vmin e Hwf) by auto. destruct Hs as [-> | ->]; lia.
  - tauto.
  - now apply vmax_in.
  - rewrite (pos_vmax e Hwf) by auto. destruct Ht as [-> | ->]; lia.
Qed.

Lemma hull_of_hull : forall a b, wf_range d true a -> wf_range d true b -> hull_of d a b (hull e a b).
Proof.
  intros a b Ha Hb.
  apply (wf_range_pos e Hwf) in Ha, Hb. destruct Ha as (Ha1 & Ha2 & Ha3), Hb as (Hb1 & Hb2 & Hb3).
  unfold hull_of, hull. cbn [rstart rend].
  pose proof (pos_vmin e Hwf _ _ Ha1 Hb1) as P1. pose proof (pos_vmax e Hwf _ _ Ha2 Hb2) as P2.
  pose proof (vmin_in e true _ _ Ha1 Hb1). pose proof (vmax_in e true _ _ Ha2 Hb2).
  split; [unfold vmin; destruct (vltb e (rstart b) (rstart a)); auto|].
  split; [unfold vmax; destruct (vltb e (rend a) (rend b)); auto|].
  repeat split; apply (vle_pos e Hwf); (split; [auto|split; [auto|lia]]).
Qed.

Lemma meet_of_eq : forall a b m, wf_range d true a -> wf_range d true b ->
  meet_of d a b m -> m = meet e a b.
Proof.
  intros a b h Ha Hb (Hs & Ht & H1 & H2 & H3 & H4).
  apply (wf_range_pos e Hwf) in Ha, Hb. destruct Ha as (Ha1 & Ha2 & Ha3), Hb as (Hb1 & Hb2 & Hb3).
  apply (vle_pos e Hwf) in H1, H2, H3, H4.
  destruct h as [s t]. cbn [rstart rend] in *. unfold meet. f_equal; apply (pos_eq e).
  - tauto.
  - now apply vmax_in.
  - rewrite (pos_vmax e Hwf) by auto. destruct Hs as [-> | ->]; lia.
  - tauto.
  - now apply vmin_in.
  - rewrite (pos_vmin e Hwf) by auto. destruct Ht as [-> | ->]; lia.
Qed.

Lemma meet_of_meet : forall a b, wf_range d true a -> wf_range d true b -> meet_of d a b (meet e a b).
Proof.
  intros a b Ha Hb.
  apply (wf_range_pos e Hwf) in Ha, Hb. destruct Ha as (Ha1 & Ha2 & Ha3), Hb as (Hb1 & Hb2 & Hb3).
  unfold meet_of, meet. cbn [rstart rend].
  pose proof (pos_vmax e Hwf _ _ Ha1 Hb1) as P1. pose proof (pos_vmin e Hwf _ _ Ha2 Hb2) as P2.
  pose proof (vmax_in e true _ _ Ha1 Hb1). pose proof (vmin_in e true _ _ Ha2 Hb2).
  split; [unfold vmax; destruct (vltb e (rstart a) (rstart b)); auto|].
  split; [unfold vmin; destruct (vltb e (rend b) (rend a)); auto|].
  repeat split; apply (vle_pos e Hwf); (split; [auto|split; [auto|lia]]).
Qed.

Lemma multi_test : forall fl a b,
  negb (multi_on e fl) && negb (book_eqb a b) = true <-> multi_on e fl = false /\ a <> b.
Proof.
  intros fl a b. rewrite andb_true_iff, !negb_true_iff. rewrite <- book_eqb_neq. tauto.
Qed.
Lemma multi_test_false : forall fl a b, multi_on e fl = true \/ a = b ->
  negb (multi_on e fl) && negb (book_eqb a b) = false.
Proof.
  intros fl a b H. destruct (negb (multi_on e fl) && negb (book_eqb a b)) eqn:E; auto.
  apply multi_test in E. destruct E as [E1 E2], H as [H|H]; [congruence|contradiction].
Qed.

Lemma union_touching : forall a b h fl, wf_range d true a -> wf_range d true b ->
  touching e fl a b -> hull_of d a b h ->
  (multi_on e fl = true \/ vbook (rstart h) = vbook (rend h)) -> union e a b fl = Ok [h].
Proof.
  intros a b h fl Ha Hb Ht Hh Hm. apply hull_of_eq in Hh; auto. subst h.
  destruct (union_cases e Hwf a b fl Ha Hb) as [[_ ->]|[Hn _]]; [|contradiction].
  rewrite multi_test_false; auto.
Qed.
Lemma union_touching_multibook : forall a b h fl, wf_range d true a -> wf_range d true b ->
  touching e fl a b -> hull_of d a b h ->
  multi_on e fl = false -> vbook (rstart h) <> vbook (rend h) -> union e a b fl = Err Multibook.
Proof.
  intros a b h fl Ha Hb Ht Hh Hm Hne. apply hull_of_eq in Hh; auto. subst h.
  destruct (union_cases e Hwf a b fl Ha Hb) as [[_ ->]|[Hn _]]; [|contradiction].
  rewrite (proj2 (multi_test _ _ _)); auto.
Qed.
Lemma union_apart : forall a b fl, wf_range d true a -> wf_range d true b -> ~ touching e fl a b ->
  (vlt d (rstart a) (rstart b) -> union e a b fl = Ok [a; b]) /\
  (vlt d (rstart b) (rstart a) -> union e a b fl = Ok [b; a]) /\
  (vlt d (rstart a) (rstart b) \/ vlt d (rstart b) (rstart a)).
Proof.
  intros a b fl Ha Hb Hn. destruct (union_cases e Hwf a b fl Ha Hb) as [[Ht _]|[_ ->]]; [contradiction|].
  assert (Ho : ~ overlap d a b) by (intros H; apply Hn; now left).
  rewrite (overlap_pos e Hwf) in Ho by auto.
  apply (wf_range_pos e Hwf) in Ha, Hb. destruct Ha as (Ha1 & Ha2 & Ha3), Hb as (Hb1 & Hb2 & Hb3).
  rewrite !(vlt_pos e Hwf). unfold disjb in Ho. apply not_false_is_true in Ho.
  apply orb_true_iff in Ho. rewrite !Z.ltb_lt in Ho.
  destruct (Z.ltb_spec (pos (rstart a)) (pos (rstart b))); intuition lia.
Qed.

Lemma intersection_overlap : forall a b m fl, wf_range d true a -> wf_range d true b ->
  overlap d a b -> meet_of d a b m ->
  (multi_on e fl = true \/ vbook (rstart m) = vbook (rend m)) -> intersection e a b fl = Ok [m].
Proof.
  intros a b h fl Ha Hb Ht Hh Hm. apply meet_of_eq in Hh; auto. subst h.
  destruct (intersection_cases e Hwf a b fl Ha Hb) as [[_ ->]|[Hn _]]; [|contradiction].
  rewrite multi_test_false; auto.
Qed.
Lemma intersection_overlap_multibook : forall a b m fl, wf_range d true a -> wf_range d true b ->
  overlap d a b -> meet_of d a b m ->
  multi_on e fl = false -> vbook (rstart m) <> vbook (rend m) -> intersection e a b fl = Err Multibook.
Proof.
  intros a b h fl Ha Hb Ht Hh Hm Hne. apply meet_of_eq in Hh; auto. subst h.
  destruct (intersection_cases e Hwf a b fl Ha Hb) as [[_ ->]|[Hn _]]; [|contradiction].
  rewrite (proj2 (multi_test _ _ _)); auto.
Qed.
Lemma intersection_apart : forall a b fl, wf_range d true a -> wf_range d true b ->
  ~ overlap d a b -> intersection e a b fl = Ok [].
Proof.
  intros a b fl Ha Hb Hn. destruct (intersection_cases e Hwf a b fl Ha Hb) as [[Ht _]|[_ ->]]; [contradiction|reflexivity].
Qed.

(** Difference of overlapping ranges, neither part being forced out of the book. *)
Lemma sub_1_some : forall v fl p, InB d (zero_on e fl) v -> zero_on e fl = verse0 (eg e) ->
  follows d (zero_on e fl) p v -> (multi_on e fl = true \/ vbook p = vbook v) ->
  subtract e v 1 fl = Ok (Some p).
Proof.
  intros v fl p Hv Hz Hf Hm.
  assert (Ht : track0 e fl v = zero_on e fl) by now apply track0_in.
  destruct (sub_1 e Hwf v fl (InB_mono e _ _ Hv)) as [o [-> Ho]]; [congruence|].
  rewrite Ht in Ho. destruct o as [w|].
  - destruct Ho as [Ho _]. f_equal. f_equal. eapply (succ_inj e); eauto.
  - destruct (Ho p Hf) as [H1 H2]. destruct Hm; [congruence|contradiction].
Qed.
Lemma add_1_some : forall v fl q, InB d (zero_on e fl) v ->
  follows d (zero_on e fl) v q -> (multi_on e fl = true \/ vbook q = vbook v) ->
  add e v 1 fl = Ok (Some q).
Proof.
  intros v fl q Hv Hf Hm.
  assert (Ht : track0 e fl v = zero_on e fl) by now apply track0_in.
  destruct (add_1 e Hwf v fl (InB_mono e _ _ Hv)) as [o [-> Ho]].
  rewrite Ht in Ho. destruct o as [w|].
  - destruct Ho as [Ho _]. f_equal. f_equal. eapply (succ_fun e); eauto.
  - destruct (Ho q Hf) as [H1 H2]. destruct Hm; [congruence|contradiction].
Qed.

Lemma difference_parts : forall a b fl p q,
  zero_on e fl = verse0 (eg e) ->
  wf_range d (zero_on e fl) a -> wf_range d (zero_on e fl) b ->
  overlap d a b -> ~ (forall v, InR d v a -> InR d v b) ->
  follows d (zero_on e fl) p (rstart b) -> follows d (zero_on e fl) (rend b) q ->
  (multi_on e fl = true /\ multibook (eg e) = true \/
   vbook p = vbook (rstart b) /\ vbook q = vbook (rend b) /\ vbook (rstart a) = vbook p /\ vbook (rend a) = vbook q) ->
  exists lo hi, difference e a b fl = Ok (lo ++ hi) /\
    (vlt d (rstart a) (rstart b) -> lo = [R (rstart a) p]) /\
    (vle d (rstart b) (rstart a) -> lo = []) /\
    (vlt d (rend b) (rend a) -> hi = [R q (rend a)]) /\
    (vle d (rend a) (rend b) -> hi = []).
Proof.
  intros a b fl p q Hz Ha Hb Ho Hc Hp Hq Hm.
  pose proof (wf_range_mono e _ _ Ha) as Ha'. pose proof (wf_range_mono e _ _ Hb) as Hb'.
  assert (Hs : subtract e (rstart b) 1 fl = Ok (Some p)).
  { apply sub_1_some; auto; [apply Hb|]. destruct Hm as [[H _]|[H _]]; auto. }
  assert (Ht : add e (rend b) 1 fl = Ok (Some q)).
  { apply add_1_some; auto; [apply Hb|]. destruct Hm as [[H _]|(_ & H & _)]; auto. }
  eexists. eexists. split.
  { rewrite (difference_exact e Hwf a b fl Hz Ha Hb Ho Hc _ _ Hs Ht).
    replace (negb (multibook (eg e)) && negb (book_eqb (vbook (rstart a)) (vbook p))) with false.
    2:{ symmetry. apply andb_false_iff. rewrite !negb_false_iff, book_eqb_eq. tauto. }
    replace (negb (multibook (eg e)) && negb (book_eqb (vbook q) (vbook (rend a)))) with false.
    2:{ symmetry. apply andb_false_iff. rewrite !negb_false_iff, book_eqb_eq.
        destruct Hm as [[_ H]|(_ & _ & _ & H)]; auto. }
    reflexivity. }
  rewrite !(vlt_pos e Hwf), !(vle_pos e Hwf).
  destruct (Z.ltb_spec (pos (rstart a)) (pos (rstart b)));
  destruct (Z.ltb_spec (pos (rend b)) (pos (rend a))); intuition (try reflexivity; lia).
Qed.

(** The difference fails when nothing precedes, or follows, the second range. *)
Lemma difference_no_lower : forall a b fl,
  zero_on e fl = verse0 (eg e) ->
  wf_range d (zero_on e fl) a -> wf_range d (zero_on e fl) b ->
  overlap d a b -> ~ (forall v, InR d v a -> InR d v b) ->
  (forall p, follows d (zero_on e fl) p (rstart b) -> multi_on e fl = false /\ vbook p <> vbook (rstart b)) ->
  difference e a b fl = Err (if multibook (eg e) then TypeErr else AttrErr).
Proof.
  intros a b fl Hz Ha Hb Ho Hc Hp.
  assert (Hb1 : InB d (zero_on e fl) (rstart b)) by apply Hb.
  assert (Hb2 : InB d (zero_on e fl) (rend b)) by apply Hb.
  assert (Ht : track0 e fl (rstart b) = zero_on e fl) by now apply track0_in.
  destruct (sub_1 e Hwf (rstart b) fl (InB_mono e _ _ Hb1)) as [o [Hs Hos]]; [congruence|].
  destruct (add_1 e Hwf (rend b) fl (InB_mono e _ _ Hb2)) as [oq [Hq _]].
  rewrite (difference_exact e Hwf a b fl Hz Ha Hb Ho Hc _ _ Hs Hq).
  destruct o as [w|]; [|reflexivity].
  rewrite Ht in Hos. destruct Hos as [H1 H2]. destruct (Hp w H1) as [H3 H4]. destruct H2; [congruence|contradiction].
Qed.
Lemma difference_no_upper : forall a b fl p,
  zero_on e fl = verse0 (eg e) ->
  wf_range d (zero_on e fl) a -> wf_range d (zero_on e fl) b ->
  overlap d a b -> ~ (forall v, InR d v a -> InR d v b) ->
  follows d (zero_on e fl) p (rstart b) ->
  (multi_on e fl = true /\ multibook (eg e) = true \/ vbook p = vbook (rstart b) /\ vbook (rstart a) = vbook p) ->
  (forall q, follows d (zero_on e fl) (rend b) q -> multi_on e fl = false /\ vbook q <> vbook (rend b)) ->
  difference e a b fl = Err (if multibook (eg e) then TypeErr else AttrErr).
Proof.
  intros a b fl p Hz Ha Hb Ho Hc Hp Hm Hq.
  assert (Hb1 : InB d (zero_on e fl) (rstart b)) by apply Hb.
  assert (Hb2 : InB d (zero_on e fl) (rend b)) by apply Hb.
  assert (Ht : track0 e fl (rend b) = zero_on e fl) by now apply track0_in.
  assert (Hs : subtract e (rstart b) 1 fl = Ok (Some p)).
  { apply sub_1_some; auto. destruct Hm as [[H _]|[H _]]; auto. }
  destruct (add_1 e Hwf (rend b) fl (InB_mono e _ _ Hb2)) as [oq [Hqq Hoq]].
  rewrite (difference_exact e Hwf a b fl Hz Ha Hb Ho Hc _ _ Hs Hqq).
  replace (negb (multibook (eg e)) && negb (book_eqb (vbook (rstart a)) (vbook p))) with false.
  2:{ symmetry. apply andb_false_iff. rewrite !negb_false_iff, book_eqb_eq. tauto. }
  destruct oq as [w|]; [|reflexivity].
  rewrite Ht in Hoq. destruct Hoq as [H1 H2]. destruct (Hq w H1) as [H3 H4]. destruct H2; [congruence|contradiction].
Qed.

Lemma sym_difference_equal : forall a fl, sym_difference e a a fl = Ok [].
Proof.
  intros a fl. unfold sym_difference. replace (range_eqb a a) with true; [reflexivity|].
  symmetry. now apply range_eqb_eq.
Qed.
Lemma sym_difference_apart : forall a b fl, wf_range d true a -> wf_range d true b ->
  ~ overlap d a b -> sym_difference e a b fl = union e a b fl.
Proof.
  intros a b fl Ha Hb Ho. unfold sym_difference. destruct (range_eqb a b) eqn:E.
  - apply range_eqb_eq in E. subst b. destruct Ho. exists (rstart a). split; now apply InR_start.
  - destruct (union e a b fl) as [u|er]; [|reflexivity]. cbn [bind].
    rewrite intersection_apart by auto. cbn [bind]. destruct u as [|u0 [|u1 u]]; reflexivity.
Qed.
Lemma sym_difference_overlap : forall a b h m fl, wf_range d true a -> wf_range d true b ->
  overlap d a b -> a <> b -> hull_of d a b h -> meet_of d a b m ->
  multi_on e fl = true \/ vbook (rstart h) = vbook (rend h) ->
  sym_difference e a b fl = difference e h m None.
Proof.
  intros a b h m fl Ha Hb Ho Hne Hh Hm Hb1.
  unfold sym_difference. destruct (range_eqb a b) eqn:E; [apply range_eqb_eq in E; contradiction|].
  rewrite (union_touching a b h fl) by (auto; now left). cbn [bind].
  rewrite (intersection_overlap a b m fl); auto.
  destruct Hb1 as [H|H]; auto. right.
  pose proof (meet_of_eq a b m Ha Hb Hm) as ->. pose proof (hull_of_eq a b h Ha Hb Hh) as ->.
  pose proof (hull_wf e Hwf true _ _ Ha Hb) as Hw. apply (wf_range_pos e Hwf) in Hw.
  destruct Hw as (W1 & W2 & W3).
  pose proof (meet_wf e Hwf true _ _ Ha Hb Ho) as Hw. apply (wf_range_pos e Hwf) in Hw.
  destruct Hw as (M1 & M2 & M3).
  apply (wf_range_pos e Hwf) in Ha, Hb. destruct Ha as (Ha1 & Ha2 & Ha3), Hb as (Hb1 & Hb2 & Hb3).
  unfold hull, meet in *. cbn [rstart rend] in *.
  rewrite (pos_vmin e Hwf) in W3, M3 by auto. rewrite (pos_vmax e Hwf) in W3, M3 by auto.
  transitivity (vbook (vmin e (rstart a) (rstart b))).
  - apply (same_book_between e Hwf _ _ (vmax e (rend a) (rend b))); auto.
    rewrite (pos_vmin e Hwf), !(pos_vmax e Hwf) by auto. lia.
  - symmetry. apply (same_book_between e Hwf _ _ (vmax e (rend a) (rend b))); auto.
    rewrite !(pos_vmin e Hwf), (pos_vmax e Hwf) by auto. lia.
Qed.
End SetSpec.
