(** * PSetOps: predicates and set operations on two ranges. *)
From Coq Require Import List ZArith Bool Lia Sorted.
From Verif Require Import Base Books Data MVerse MRange Spec PList PCore PNav PVerse PRange.
Import ListNotations.
Open Scope Z_scope.

Section SetOps.
Variable e : env.
Notation d := (ed e).
Notation pos := (PRange.pos e).
Hypothesis Hwf : wf_data d.

Ltac ranges :=
  repeat match goal with
  | H : wf_range d ?z ?r |- _ => rewrite (wf_range_pos e Hwf) in H; destruct H as [? [? ?]]
  end.

Lemma InR_wf : forall v r, wf_range d true r ->
  (InR d v r <-> InB d true v /\ pos (rstart r) <= pos v <= pos (rend r)).
Proof. intros v r H. ranges. rewrite (InR_pos e Hwf). tauto. Qed.

Lemma InR_start : forall r, wf_range d true r -> InR d (rstart r) r.
Proof. intros r H. apply InR_wf; auto. ranges. split; [assumption|lia]. Qed.
Lemma InR_end : forall r, wf_range d true r -> InR d (rend r) r.
Proof. intros r H. apply InR_wf; auto. ranges. split; [assumption|lia]. Qed.

Definition disjb (a b : range) : bool := (pos (rend a) <? pos (rstart b)) || (pos (rend b) <? pos (rstart a)).

Lemma is_disjoint_pos : forall a b, wf_range d true a -> wf_range d true b ->
  is_disjoint e a b = disjb a b.
Proof.
  intros a b Ha Hb. unfold is_disjoint, order2, disjb. rewrite (rltb_pos e Hwf) by assumption. ranges.
  destruct (_ || _) eqn:E; rewrite (vltb_pos_eq e Hwf) by assumption;
    destruct (Z.ltb_spec (pos (rstart a)) (pos (rstart b))); destruct (Z.eqb_spec (pos (rstart a)) (pos (rstart b)));
    destruct (Z.ltb_spec (pos (rend a)) (pos (rend b))); simpl in E; try discriminate; try lia;
    destruct (Z.ltb_spec (pos (rend a)) (pos (rstart b))); destruct (Z.ltb_spec (pos (rend b)) (pos (rstart a)));
    simpl; auto; lia.
Qed.

Lemma overlap_pos : forall a b, wf_range d true a -> wf_range d true b ->
  (overlap d a b <-> disjb a b = false).
Proof.
  intros a b Ha Hb. unfold overlap, disjb. rewrite orb_false_iff, !Z.ltb_ge. split.
  - intros [v [H1 H2]]. apply InR_wf in H1; auto. apply InR_wf in H2; auto. lia.
  - intros [H1 H2].
    destruct (Z.le_gt_cases (pos (rstart a)) (pos (rstart b))).
    + exists (rstart b). split; [|now apply InR_start]. apply InR_wf; auto. ranges. split; [assumption|lia].
    + exists (rstart a). split; [now apply InR_start|]. apply InR_wf; auto. ranges. split; [assumption|lia].
Qed.

Lemma disjoint_spec : forall a b, wf_range d true a -> wf_range d true b ->
  (is_disjoint e a b = true <-> ~ overlap d a b).
Proof.
  intros a b Ha Hb. rewrite overlap_pos, is_disjoint_pos by assumption.
  destruct (disjb a b); split; congruence.
Qed.

Lemma contains_pos : forall a b, wf_range d true a -> wf_range d true b ->
  contains e a b = (pos (rstart a) <=? pos (rstart b)) && (pos (rend b) <=? pos (rend a)).
Proof.
  intros a b Ha Hb. unfold contains. ranges. rewrite !(vleb_pos_eq e Hwf) by assumption.
  destruct (Z.leb_spec (pos (rstart a)) (pos (rstart b))); destruct (Z.leb_spec (pos (rend b)) (pos (rend a)));
  destruct (Z.leb_spec (pos (rstart b)) (pos (rend a))); destruct (Z.leb_spec (pos (rstart a)) (pos (rend b)));
  simpl; auto; lia.
Qed.

Lemma contains_spec : forall a b, wf_range d true a -> wf_range d true b ->
  (contains e a b = true <-> forall v, InR d v b -> InR d v a).
Proof.
  intros a b Ha Hb. rewrite contains_pos by assumption. rewrite andb_true_iff, !Z.leb_le. split.
  - intros H v Hv. apply InR_wf in Hv; auto. apply InR_wf; auto. split; [tauto|lia].
  - intros H. pose proof (H _ (InR_start b Hb)) as H1. pose proof (H _ (InR_end b Hb)) as H2.
    apply InR_wf in H1; auto. apply InR_wf in H2; auto. lia.
Qed.

Lemma surrounds_pos : forall a b, wf_range d true a -> wf_range d true b ->
  surrounds e a b = (pos (rstart a) <? pos (rstart b)) && (pos (rend b) <? pos (rend a)).
Proof.
  intros a b Ha Hb. unfold surrounds. ranges. rewrite !(vltb_pos_eq e Hwf) by assumption.
  destruct (Z.ltb_spec (pos (rstart a)) (pos (rstart b))); destruct (Z.ltb_spec (pos (rend b)) (pos (rend a)));
  destruct (Z.ltb_spec (pos (rstart b)) (pos (rend a))); destruct (Z.ltb_spec (pos (rstart a)) (pos (rend b)));
  simpl; auto; lia.
Qed.

Lemma surrounds_spec : forall a b, wf_range d true a -> wf_range d true b ->
  (surrounds e a b = true <->
   (exists v, InR d v a /\ forall w, InR d w b -> vlt d v w) /\
   (exists v, InR d v a /\ forall w, InR d w b -> vlt d w v)).
Proof.
  intros a b Ha Hb. rewrite surrounds_pos by assumption. rewrite andb_true_iff, !Z.ltb_lt. split.
  - intros [H1 H2]. split.
    + exists (rstart a). split; [now apply InR_start|]. intros w Hw. apply InR_wf in Hw; auto.
      apply (vlt_pos e Hwf). ranges. repeat split; try tauto; lia.
    + exists (rend a). split; [now apply InR_end|]. intros w Hw. apply InR_wf in Hw; auto.
      apply (vlt_pos e Hwf). ranges. repeat split; try tauto; lia.
  - intros [[v [Hv Hv']] [w [Hw Hw']]].
    pose proof (Hv' _ (InR_start b Hb)) as H1. pose proof (Hw' _ (InR_end b Hb)) as H2.
    apply (vlt_pos e Hwf) in H1. apply (vlt_pos e Hwf) in H2.
    apply InR_wf in Hv; auto. apply InR_wf in Hw; auto. lia.
Qed.

(** ** Adjacency *)
Lemma track0_InB : forall fl v, InB d true v -> InB d (track0 e fl v) v.
Proof. intros fl v H. rewrite <- track0_eq. now apply honour0_verse0. Qed.

Lemma joins_lt : forall fl a b, joins e fl a b -> pos (rend a) < pos (rstart b).
Proof.
  intros fl a b [H _]. destruct (succ_in e _ _ _ H) as [H1 _].
  exact (proj2 (succ_split e Hwf _ _ _ _ H H1)).
Qed.

Lemma adjacent_spec : forall a b fl, wf_range d true a -> wf_range d true b ->
  exists bb, is_adjacent e a b fl = Ok bb /\ (bb = true <-> joins e fl a b \/ joins e fl b a).
Proof.
  intros a b fl Ha Hb. unfold is_adjacent, order2. rewrite (rltb_pos e Hwf) by assumption.
  assert (Hgen : forall lo hi, wf_range d true lo -> wf_range d true hi ->
     exists bb, (o <- add e (rend lo) 1 fl ;; Ok (overse_eqb o (rstart hi))) = Ok bb /\
                (bb = true <-> joins e fl lo hi)).
  { intros lo hi Hlo Hhi. destruct (wf_range_pos e Hwf true lo) as [Hw _]. destruct (Hw Hlo) as [_ [He _]].
    destruct (add_1 e Hwf (rend lo) fl He) as [o [Hadd Ho]]. rewrite Hadd. cbn [bind].
    eexists. split; [reflexivity|]. unfold joins. destruct o as [w|]; cbn [overse_eqb].
    - rewrite verse_eqb_eq. destruct Ho as [Hs Hm]. split.
      + intros <-. split; [assumption|]. destruct Hm; auto.
      + intros [Hs' _]. eapply (succ_fun e Hwf); eauto.
    - split; [discriminate|]. intros [Hs Hm]. destruct (Ho _ Hs) as [Hm1 Hm2].
      destruct Hm; congruence. }
  destruct (_ || _) eqn:E; cbn [fst snd].
  - destruct (Hgen a b Ha Hb) as [bb [H1 H2]]. exists bb. split; [assumption|]. rewrite H2.
    split; [auto|]. intros [H|H]; [assumption|]. apply joins_lt in H. ranges.
    destruct (Z.ltb_spec (pos (rstart a)) (pos (rstart b))); [lia|].
    destruct (Z.eqb_spec (pos (rstart a)) (pos (rstart b))); simpl in E; [lia|discriminate].
  - destruct (Hgen b a Hb Ha) as [bb [H1 H2]]. exists bb. split; [assumption|]. rewrite H2.
    split; [auto|]. intros [H|H]; [|assumption]. apply joins_lt in H. ranges.
    destruct (Z.ltb_spec (pos (rstart a)) (pos (rstart b))); [discriminate|]. lia.
Qed.

(** ** Union *)
Notation touching := (Spec.touching e).

(** First and last of two verses, by position. *)
Definition hull (a b : range) : range := R (vmin e (rstart a) (rstart b)) (vmax e (rend a) (rend b)).

Lemma hull_wf : forall z a b, wf_range d z a -> wf_range d z b -> wf_range d z (hull a b).
Proof.
  intros z a b Ha Hb. apply (wf_range_pos e Hwf). unfold hull. cbn [rstart rend].
  pose proof (wf_range_mono e _ _ Ha). pose proof (wf_range_mono e _ _ Hb).
  assert (Ha' := Ha). assert (Hb' := Hb). ranges. split; [now apply vmin_in|]. split; [now apply vmax_in|].
  rewrite (pos_vmin e Hwf), (pos_vmax e Hwf) by assumption. lia.
Qed.

Lemma union_cases : forall a b fl, wf_range d true a -> wf_range d true b ->
  (touching fl a b /\
     union e a b fl = if negb (multi_on e fl) && negb (book_eqb (vbook (rstart (hull a b))) (vbook (rend (hull a b))))
                      then Err Multibook else Ok [hull a b]) \/
  (~ touching fl a b /\
     union e a b fl = Ok (if pos (rstart a) <? pos (rstart b) then [a; b] else [b; a])).
Proof.
  intros a b fl Ha Hb. unfold union. destruct (adjacent_spec a b fl Ha Hb) as [bb [Hadj Hbb]].
  rewrite Hadj. unfold andM, notM. cbn [bind].
  pose proof (disjoint_spec a b Ha Hb) as Hd.
  assert (Hnew : forall fl, new_range e (vmin e (rstart a) (rstart b)) (vmax e (rend a) (rend b)) fl =
    if negb (multi_on e fl) && negb (book_eqb (vbook (rstart (hull a b))) (vbook (rend (hull a b))))
    then Err Multibook else Ok (hull a b)).
  { intros fl'. assert (Hh := hull_wf true a b Ha Hb). apply (wf_range_pos e Hwf) in Hh. destruct Hh as [H1 [H2 H3]].
    unfold hull in *. cbn [rstart rend] in *. rewrite (new_range_eq e Hwf) by assumption.
    destruct (_ && _); [reflexivity|]. destruct (Z.ltb_spec (pos (vmax e (rend a) (rend b))) (pos (vmin e (rstart a) (rstart b)))); [lia|reflexivity]. }
  destruct (is_disjoint e a b) eqn:Ed.
  - apply proj1 in Hd. specialize (Hd eq_refl). destruct bb; cbn [bind negb].
    + left. split; [right; tauto|]. rewrite Hnew.
      destruct (_ && _); reflexivity.
    + right. split.
      * intros [H|H]; [tauto|]. apply Hbb in H. discriminate.
      * assert (Hd' := Ed). rewrite is_disjoint_pos in Hd' by assumption. unfold disjb in Hd'.
        unfold order2. rewrite (rltb_pos e Hwf) by assumption. ranges.
        apply orb_true_iff in Hd'. rewrite !Z.ltb_lt in Hd'.
        destruct (Z.ltb_spec (pos (rstart a)) (pos (rstart b))); cbn [orb]; [reflexivity|].
        destruct (Z.eqb_spec (pos (rstart a)) (pos (rstart b))); [lia|reflexivity].
  - cbn [bind]. left. split.
    + left. apply overlap_pos; auto. rewrite <- is_disjoint_pos by assumption. assumption.
    + rewrite Hnew. destruct (_ && _); reflexivity.
Qed.

Lemma InR_hull : forall v a b, wf_range d true a -> wf_range d true b ->
  (InR d v (hull a b) <-> InB d true v /\
     Z.min (pos (rstart a)) (pos (rstart b)) <= pos v <= Z.max (pos (rend a)) (pos (rend b))).
Proof.
  intros v a b Ha Hb. rewrite (InR_wf v _ (hull_wf true a b Ha Hb)). unfold hull. cbn [rstart rend].
  ranges. rewrite (pos_vmin e Hwf), (pos_vmax e Hwf) by assumption. tauto.
Qed.

(** The hull of touching ranges has no further verses of the universe. *)
Lemma hull_sound : forall fl a b v, wf_range d true a -> wf_range d true b -> touching fl a b ->
  InB d (zero_on e fl) v -> (InR d v (hull a b) <-> InR d v a \/ InR d v b).
Proof.
  intros fl a b v Ha Hb Ht Hv. pose proof (InB_mono e _ _ Hv) as Hv'.
  assert (Hz : InB d (track0 e fl (rend a)) v /\ InB d (track0 e fl (rend b)) v).
  { unfold track0. destruct (zero_on e fl); simpl; [auto|].
    destruct (vverse (rend a) =? 0), (vverse (rend b) =? 0); auto. }
  rewrite InR_hull, !InR_wf by assumption. split.
  - intros [_ H].
    destruct (Z.le_gt_cases (pos (rstart a)) (pos v)); destruct (Z.le_gt_cases (pos v) (pos (rend a)));
      try (left; split; [assumption|lia]); right; (split; [assumption|]);
      destruct Ht as [Ho|[Hj|Hj]].
    all: try (apply overlap_pos in Ho; auto; unfold disjb in Ho; apply orb_false_iff in Ho;
              rewrite !Z.ltb_ge in Ho; ranges; lia).
    all: pose proof (joins_lt _ _ _ Hj) as Hlt; destruct Hj as [Hj _];
         pose proof (succ_split e Hwf _ _ _ v Hj ltac:(tauto)); ranges; lia.
  - intros [H|H]; (split; [assumption|]); ranges; lia.
Qed.

Lemma InL_1 : forall v r, InL d v [r] <-> InR d v r.
Proof. intros. unfold InL. split; [intros [x [[->|[]] H]]; auto|]. intros H. exists r. simpl; auto. Qed.
Lemma InL_2 : forall v r s, InL d v [r; s] <-> InR d v r \/ InR d v s.
Proof.
  intros. unfold InL. split.
  - intros [x [[->|[->|[]]] H]]; auto.
  - intros [H|H]; eexists; simpl; eauto.
Qed.
Lemma InL_nil : forall v, ~ InL d v [].
Proof. intros v [x [[] _]]. Qed.
Lemma InL_cons : forall v r l, InL d v (r :: l) <-> InR d v r \/ InL d v l.
Proof.
  intros. unfold InL. split.
  - intros [x [[->|H] H']]; eauto.
  - intros [H|[x [H H']]]; eexists; simpl; eauto.
Qed.
Lemma InL_app : forall v l m, InL d v (l ++ m) <-> InL d v l \/ InL d v m.
Proof.
  intros. unfold InL. split.
  - intros [x [H H']]. apply in_app_or in H. destruct H; eauto.
  - intros [[x [H H']]|[x [H H']]]; exists x; split; auto; apply in_or_app; auto.
Qed.

Lemma union_sound : forall a b fl l v, wf_range d true a -> wf_range d true b ->
  union e a b fl = Ok l -> InB d (zero_on e fl) v ->
  (InL d v l <-> InR d v a \/ InR d v b).
Proof.
  intros a b fl l v Ha Hb Hu Hv. destruct (union_cases a b fl Ha Hb) as [[Ht H]|[Ht H]]; rewrite H in Hu.
  - destruct (_ && _); [discriminate|]. injection Hu as <-. rewrite InL_1. now apply (hull_sound fl).
  - injection Hu as <-. destruct (_ <? _); rewrite InL_2; tauto.
Qed.

(** ** Intersection *)
Definition meet (a b : range) : range := R (vmax e (rstart a) (rstart b)) (vmin e (rend a) (rend b)).

Lemma meet_wf : forall z a b, wf_range d z a -> wf_range d z b -> overlap d a b -> wf_range d z (meet a b).
Proof.
  intros z a b Ha Hb Ho. pose proof (wf_range_mono e _ _ Ha) as Ha'. pose proof (wf_range_mono e _ _ Hb) as Hb'.
  apply overlap_pos in Ho; auto. unfold disjb in Ho. apply orb_false_iff in Ho. rewrite !Z.ltb_ge in Ho.
  apply (wf_range_pos e Hwf). unfold meet. cbn [rstart rend]. ranges.
  split; [now apply vmax_in|]. split; [now apply vmin_in|].
  rewrite (pos_vmin e Hwf), (pos_vmax e Hwf) by assumption. lia.
Qed.

Lemma intersection_cases : forall a b fl, wf_range d true a -> wf_range d true b ->
  (overlap d a b /\
     intersection e a b fl = if negb (multi_on e fl) && negb (book_eqb (vbook (rstart (meet a b))) (vbook (rend (meet a b))))
                      then Err Multibook else Ok [meet a b]) \/
  (~ overlap d a b /\ intersection e a b fl = Ok []).
Proof.
  intros a b fl Ha Hb. unfold intersection. pose proof (disjoint_spec a b Ha Hb) as Hd.
  destruct (is_disjoint e a b) eqn:Ed.
  - right. tauto.
  - assert (Ho : overlap d a b).
    { apply overlap_pos; auto. rewrite <- is_disjoint_pos by assumption. assumption. }
    left. split; [assumption|]. assert (Hm := meet_wf true a b Ha Hb Ho).
    apply (wf_range_pos e Hwf) in Hm. destruct Hm as [H1 [H2 H3]]. unfold meet in *. cbn [rstart rend] in *.
    rewrite (new_range_eq e Hwf) by assumption. destruct (_ && _); [reflexivity|]. cbn [bind].
    destruct (Z.ltb_spec (pos (vmin e (rend a) (rend b))) (pos (vmax e (rstart a) (rstart b)))); [lia|reflexivity].
Qed.

Lemma InR_meet : forall v a b, wf_range d true a -> wf_range d true b -> overlap d a b ->
  (InR d v (meet a b) <-> InR d v a /\ InR d v b).
Proof.
  intros v a b Ha Hb Ho. rewrite (InR_wf v _ (meet_wf true a b Ha Hb Ho)), !InR_wf by assumption.
  unfold meet. cbn [rstart rend]. ranges.
  rewrite (pos_vmin e Hwf), (pos_vmax e Hwf) by assumption.
  split; [intros [Hi Hp]; repeat split; auto; lia|]. intros [[Hi Hp] [_ Hq]]. split; auto. lia.
Qed.

Lemma intersection_sound : forall a b fl l v, wf_range d true a -> wf_range d true b ->
  intersection e a b fl = Ok l -> (InL d v l <-> InR d v a /\ InR d v b).
Proof.
  intros a b fl l v Ha Hb Hu. destruct (intersection_cases a b fl Ha Hb) as [[Ho H]|[Ho H]]; rewrite H in Hu.
  - destruct (_ && _); [discriminate|]. injection Hu as <-. rewrite InL_1. now apply InR_meet.
  - injection Hu as <-. split; [intros H'; now apply InL_nil in H'|]. intros [H1 H2]. destruct Ho. now exists v.
Qed.

(** ** Difference *)
Lemma new_range_opt_ok : forall s t fl r, new_range_opt e s t fl = Ok r ->
  exists s' t', s = Some s' /\ t = Some t' /\ new_range e s' t' fl = Ok r.
Proof.
  intros [s|] [t|] fl r H; simpl in H; try (destruct (multibook (eff e fl)); discriminate).
  eauto.
Qed.

Lemma zero_track : forall fl v, InB d (zero_on e fl) v -> track0 e fl v = zero_on e fl.
Proof. intros. now apply track0_in. Qed.

Lemma difference_sound : forall a b fl l v,
  zero_on e fl = verse0 (eg e) ->
  wf_range d (zero_on e fl) a -> wf_range d (zero_on e fl) b ->
  difference e a b fl = Ok l -> InB d (zero_on e fl) v ->
  (InL d v l <-> InR d v a /\ ~ InR d v b).
Proof.
  intros a b fl l v Hz Ha Hb Hd Hv. pose proof (wf_range_mono e _ _ Ha) as Ha'.
  pose proof (wf_range_mono e _ _ Hb) as Hb'. unfold difference in Hd.
  destruct (is_disjoint e a b) eqn:Edis.
  { injection Hd as <-. apply disjoint_spec in Edis; auto. rewrite InL_1. split; [|tauto].
    intros H. split; [assumption|]. intros H'. apply Edis. now exists v. }
  destruct (contains e b a) eqn:Ec.
  { injection Hd as <-. rewrite contains_spec in Ec by assumption.
    split; [intros H; now apply InL_nil in H|]. intros [H1 H2]. destruct H2. auto. }
  rewrite is_disjoint_pos in Edis by assumption. unfold disjb in Edis.
  apply orb_false_iff in Edis. rewrite !Z.ltb_ge in Edis.
  rewrite contains_pos in Ec by assumption. apply andb_false_iff in Ec. rewrite !Z.leb_gt in Ec.
  pose proof (InB_mono e _ _ Hv) as Hv'.
  ranges.
  destruct (sub_1 e Hwf (rstart b) fl) as [op [Hsub Hop]]; auto.
  { rewrite zero_track; auto. }
  destruct (add_1 e Hwf (rend b) fl) as [oq [Hadd Hoq]]; auto.
  rewrite Hsub in Hd. cbn [bind] in Hd.
  destruct (new_range_opt e (Some (rstart a)) op None) as [lower|] eqn:El; [|discriminate]. cbn [bind] in Hd.
  rewrite Hadd in Hd. cbn [bind] in Hd.
  destruct (new_range_opt e oq (Some (rend a)) None) as [upper|] eqn:Eu; [|discriminate]. cbn [bind] in Hd.
  apply new_range_opt_ok in El. destruct El as [s1 [p [Hs1 [Hp El]]]]. injection Hs1 as <-. subst op.
  apply new_range_opt_ok in Eu. destruct Eu as [q [t1 [Hq [Ht1 Eu]]]]. injection Ht1 as <-. subst oq.
  destruct Hop as [Hop _]. destruct Hoq as [Hoq _]. rewrite zero_track in Hop, Hoq by assumption.
  pose proof (succ_split e Hwf _ _ _ v Hop Hv) as [Sp Sp'].
  pose proof (succ_split e Hwf _ _ _ v Hoq Hv) as [Sq Sq'].
  destruct (succ_in e _ _ _ Hop) as [Hpin _]. destruct (succ_in e _ _ _ Hoq) as [_ Hqin].
  pose proof (InB_mono e _ _ Hpin) as Hpin'. pose proof (InB_mono e _ _ Hqin) as Hqin'.
  (* comparisons of the ends with p and q *)
  pose proof (succ_split e Hwf _ _ _ (rstart a) Hop ltac:(assumption)) as [Sa _].
  pose proof (succ_split e Hwf _ _ _ (rend a) Hoq ltac:(assumption)) as [Se _].
  rewrite (new_range_eq e Hwf) in El, Eu by assumption.
  destruct (_ && _) in El; [discriminate|]. destruct (_ && _) in Eu; [discriminate|].
  injection El as El. injection Eu as Eu.
  assert (Haw : wf_range d true a) by (apply (wf_range_pos e Hwf); auto).
  assert (Hbw : wf_range d true b) by (apply (wf_range_pos e Hwf); auto).
  rewrite (InR_wf v a), (InR_wf v b) by assumption.
  rewrite surrounds_pos, (rltb_pos e Hwf) in Hd by assumption.
  assert (HL : pos (rstart a) < pos (rstart b) -> (InR d v lower <-> pos (rstart a) <= pos v < pos (rstart b))).
  { intros Hlt. destruct (Z.ltb_spec (pos p) (pos (rstart a))); [lia|]. subst lower.
    rewrite (InR_pos e Hwf). cbn [rstart rend]. split; [intros; lia|]. intros. repeat split; auto; lia. }
  assert (HU : pos (rend b) < pos (rend a) -> (InR d v upper <-> pos (rend b) < pos v <= pos (rend a))).
  { intros Hlt. destruct (Z.ltb_spec (pos (rend a)) (pos q)); [lia|]. subst upper.
    rewrite (InR_pos e Hwf). cbn [rstart rend]. split; [intros; lia|]. intros. repeat split; auto; lia. }
  clear El Eu.
  assert (HN : ~ (InB d true v /\ pos (rstart b) <= pos v <= pos (rend b)) <->
               ~ (pos (rstart b) <= pos v <= pos (rend b))) by tauto.
  assert (HI : InB d true v /\ pos (rstart a) <= pos v <= pos (rend a) <->
               pos (rstart a) <= pos v <= pos (rend a)) by tauto.
  rewrite HN, HI. clear HN HI.
  destruct (Z.ltb_spec (pos (rstart a)) (pos (rstart b))); destruct (Z.ltb_spec (pos (rend b)) (pos (rend a)));
    cbn [andb orb] in Hd.
  - injection Hd as <-. rewrite InL_2, HL, HU by assumption. lia.
  - injection Hd as <-. rewrite InL_1, HL by assumption. lia.
  - destruct (Z.eqb_spec (pos (rstart a)) (pos (rstart b))); cbn [andb] in Hd.
    + destruct (Z.ltb_spec (pos (rend a)) (pos (rend b))); [lia|]. injection Hd as <-.
      rewrite InL_1, HU by assumption. lia.
    + injection Hd as <-. rewrite InL_1, HU by assumption. lia.
  - lia.
Qed.

(** The exact result of [difference] for overlapping ranges, [b] not covering [a]. *)
Lemma difference_exact : forall a b fl,
  zero_on e fl = verse0 (eg e) ->
  wf_range d (zero_on e fl) a -> wf_range d (zero_on e fl) b ->
  overlap d a b -> ~ (forall v, InR d v a -> InR d v b) ->
  forall op oq, subtract e (rstart b) 1 fl = Ok op -> add e (rend b) 1 fl = Ok oq ->
  difference e a b fl =
  match op, oq with
  | Some p, Some q =>
      if negb (multibook (eg e)) && negb (book_eqb (vbook (rstart a)) (vbook p)) then Err Multibook
      else if negb (multibook (eg e)) && negb (book_eqb (vbook q) (vbook (rend a))) then Err Multibook
      else Ok ((if pos (rstart a) <? pos (rstart b) then [R (rstart a) p] else []) ++
               (if pos (rend b) <? pos (rend a) then [R q (rend a)] else []))
  | Some p, None =>
      if negb (multibook (eg e)) && negb (book_eqb (vbook (rstart a)) (vbook p)) then Err Multibook
      else Err (if multibook (eg e) then TypeErr else AttrErr)
  | None, _ => Err (if multibook (eg e) then TypeErr else AttrErr)
  end.
Proof.
  intros a b fl Hz Ha Hb Ho Hnc op oq Hsub Hadd. pose proof (wf_range_mono e _ _ Ha) as Ha'.
  pose proof (wf_range_mono e _ _ Hb) as Hb'. unfold difference.
  assert (Ed : is_disjoint e a b = false).
  { destruct (is_disjoint e a b) eqn:E; [|reflexivity]. apply disjoint_spec in E; auto. contradiction. }
  assert (Ec : contains e b a = false).
  { destruct (contains e b a) eqn:E; [|reflexivity]. rewrite contains_spec in E by assumption. contradiction. }
  rewrite Ed, Ec, Hsub, Hadd. cbn [bind].
  rewrite is_disjoint_pos in Ed by assumption. unfold disjb in Ed.
  apply orb_false_iff in Ed. rewrite !Z.ltb_ge in Ed.
  rewrite contains_pos in Ec by assumption. apply andb_false_iff in Ec. rewrite !Z.leb_gt in Ec.
  rewrite surrounds_pos, (rltb_pos e Hwf) by assumption.
  ranges.
  destruct (sub_1 e Hwf (rstart b) fl) as [op' [Hsub' Hop]]; auto.
  { rewrite zero_track; auto. }
  rewrite Hsub in Hsub'. injection Hsub' as <-.
  destruct (add_1 e Hwf (rend b) fl) as [oq' [Hadd' Hoq]]; auto.
  rewrite Hadd in Hadd'. injection Hadd' as <-.
  destruct op as [p|].
  2:{ unfold new_range_opt. rewrite (multi_on_eq e None). change (multi_on e None) with (multibook (eg e)).
      destruct (multibook (eg e)); reflexivity. }
  destruct Hop as [Hop _]. rewrite zero_track in Hop by assumption.
  destruct (succ_in e _ _ _ Hop) as [Hpin _]. pose proof (InB_mono e _ _ Hpin) as Hpin'.
  pose proof (succ_split e Hwf _ _ _ (rstart a) Hop ltac:(assumption)) as [Sa Sa'].
  cbn [new_range_opt]. rewrite (new_range_eq e Hwf) by assumption.
  change (multi_on e None) with (multibook (eg e)).
  destruct (negb (multibook (eg e)) && negb (book_eqb (vbook (rstart a)) (vbook p))) eqn:E1;
    [destruct oq; reflexivity|]. cbn [bind].
  destruct oq as [q|].
  2:{ unfold new_range_opt. rewrite (multi_on_eq e None). change (multi_on e None) with (multibook (eg e)).
      destruct (multibook (eg e)); reflexivity. }
  destruct Hoq as [Hoq _]. rewrite zero_track in Hoq by assumption.
  destruct (succ_in e _ _ _ Hoq) as [_ Hqin]. pose proof (InB_mono e _ _ Hqin) as Hqin'.
  pose proof (succ_split e Hwf _ _ _ (rend a) Hoq ltac:(assumption)) as [Se Se'].
  cbn [new_range_opt]. rewrite (new_range_eq e Hwf) by assumption.
  change (multi_on e None) with (multibook (eg e)).
  destruct (negb (multibook (eg e)) && negb (book_eqb (vbook q) (vbook (rend a)))) eqn:E2; [reflexivity|]. cbn [bind].
  destruct (Z.ltb_spec (pos (rstart a)) (pos (rstart b))); destruct (Z.ltb_spec (pos (rend b)) (pos (rend a)));
    cbn [andb orb app]; try lia.
  - destruct (Z.ltb_spec (pos p) (pos (rstart a))); [lia|].
    destruct (Z.ltb_spec (pos (rend a)) (pos q)); [lia|]. reflexivity.
  - destruct (Z.ltb_spec (pos p) (pos (rstart a))); [lia|]. reflexivity.
  - destruct (Z.ltb_spec (pos (rend a)) (pos q)); [lia|].
    destruct (Z.ltb_spec (pos (rend a)) (pos (rend b))); [lia|]. rewrite andb_false_r. reflexivity.
Qed.

Lemma difference_disjoint : forall a b fl, wf_range d true a -> wf_range d true b ->
  ~ overlap d a b -> difference e a b fl = Ok [a].
Proof. intros a b fl Ha Hb Ho. unfold difference. apply disjoint_spec in Ho; auto. now rewrite Ho. Qed.
Lemma difference_covered : forall a b fl, wf_range d true a -> wf_range d true b ->
  (forall v, InR d v a -> InR d v b) -> difference e a b fl = Ok [].
Proof.
  intros a b fl Ha Hb Hc. unfold difference.
  assert (Ed : is_disjoint e a b = false).
  { destruct (is_disjoint e a b) eqn:E; [|reflexivity]. apply disjoint_spec in E; auto.
    destruct E. exists (rstart a). split; [|apply Hc]; now apply InR_start. }
  rewrite Ed. apply contains_spec in Hc; auto. now rewrite Hc.
Qed.

(** Existing neighbours (inside the Bible, or the book without MULTIBOOK) make the difference succeed. *)
Lemma difference_succeeds : forall a b fl p q,
  zero_on e fl = verse0 (eg e) ->
  wf_range d (zero_on e fl) a -> wf_range d (zero_on e fl) b ->
  follows d (zero_on e fl) p (rstart b) -> follows d (zero_on e fl) (rend b) q ->
  (multi_on e fl = true /\ multibook (eg e) = true \/
   vbook p = vbook (rstart b) /\ vbook q = vbook (rend b) /\ vbook (rstart a) = vbook p /\ vbook (rend a) = vbook q) ->
  exists l, difference e a b fl = Ok l.
Proof.
  intros a b fl p q Hz Ha Hb Hp Hq Hm. pose proof (wf_range_mono e _ _ Ha) as Ha'.
  pose proof (wf_range_mono e _ _ Hb) as Hb'.
  destruct (is_disjoint e a b) eqn:Ed.
  { apply disjoint_spec in Ed; auto. rewrite difference_disjoint by assumption. eauto. }
  assert (Ho : overlap d a b).
  { apply overlap_pos; auto. rewrite <- is_disjoint_pos by assumption. assumption. }
  destruct (contains e b a) eqn:Ec.
  { rewrite contains_spec in Ec by assumption. rewrite difference_covered by assumption. eauto. }
  assert (Hnc : ~ (forall v, InR d v a -> InR d v b)).
  { intros H. apply contains_spec in H; auto. congruence. }
  assert (Hb1 : InB d true (rstart b)) by (destruct Hb'; assumption).
  assert (Hb2 : InB d true (rend b)) by (destruct Hb' as [_ [? _]]; assumption).
  assert (Hb1z : InB d (zero_on e fl) (rstart b)) by (destruct Hb; assumption).
  assert (Hb2z : InB d (zero_on e fl) (rend b)) by (destruct Hb as [_ [? _]]; assumption).
  destruct (sub_1 e Hwf (rstart b) fl Hb1) as [op [Hsub Hop]]; [rewrite zero_track; auto|].
  destruct (add_1 e Hwf (rend b) fl Hb2) as [oq [Hadd Hoq]].
  rewrite (difference_exact a b fl Hz Ha Hb Ho Hnc op oq Hsub Hadd).
  rewrite zero_track in Hop, Hoq by assumption.
  destruct op as [p'|].
  2:{ destruct (Hop p Hp) as [H1 H2]. destruct Hm as [[Hm _]|[Hm _]]; congruence. }
  destruct Hop as [Hop _]. pose proof (succ_inj e Hwf _ _ _ _ Hp Hop). subst p'.
  destruct oq as [q'|].
  2:{ destruct (Hoq q Hq) as [H1 H2]. destruct Hm as [[Hm _]|[_ [Hm _]]]; congruence. }
  destruct Hoq as [Hoq _]. pose proof (succ_fun e Hwf _ _ _ _ Hq Hoq). subst q'.
  destruct Hm as [[_ Hm]|[H1 [H2 [H3 H4]]]].
  - rewrite Hm. cbn [negb andb]. eauto.
  - rewrite H3, H4, !book_eqb_refl. rewrite !andb_false_r. eauto.
Qed.

Lemma sym_difference_sound : forall a b fl l v,
  zero_on e fl = verse0 (eg e) ->
  wf_range d (zero_on e fl) a -> wf_range d (zero_on e fl) b ->
  sym_difference e a b fl = Ok l -> InB d (zero_on e fl) v ->
  (InL d v l <-> (InR d v a /\ ~ InR d v b) \/ (InR d v b /\ ~ InR d v a)).
Proof.
  intros a b fl l v Hz Ha Hb Hs Hv. pose proof (wf_range_mono e _ _ Ha) as Ha'.
  pose proof (wf_range_mono e _ _ Hb) as Hb'. unfold sym_difference in Hs.
  destruct (range_eqb a b) eqn:Eq.
  { injection Hs as <-. apply range_eqb_eq in Eq. subst b. split; [intros H; now apply InL_nil in H|tauto]. }
  destruct (union_cases a b fl Ha' Hb') as [[Ht Hu]|[Ht Hu]]; rewrite Hu in Hs.
  2:{ cbn [bind] in Hs. destruct (intersection_cases a b fl Ha' Hb') as [[Ho Hi]|[Ho Hi]].
      - destruct Ht. now left.
      - rewrite Hi in Hs. cbn [bind] in Hs.
        assert (Hl : l = if pos (rstart a) <? pos (rstart b) then [a; b] else [b; a]).
        { destruct (_ <? _); congruence. }
        subst l. assert (Hno : ~ (InR d v a /\ InR d v b)) by (intros [H1 H2]; apply Ho; now exists v).
        destruct (_ <? _); rewrite InL_2; tauto. }
  destruct (negb (multi_on e fl) && _); [discriminate|]. cbn [bind] in Hs.
  pose proof (hull_sound fl a b v Ha' Hb' Ht Hv) as Hh.
  destruct (intersection_cases a b fl Ha' Hb') as [[Ho Hi]|[Ho Hi]]; rewrite Hi in Hs.
  - destruct (negb (multi_on e fl) && _); [discriminate|]. cbn [bind] in Hs.
    pose proof (InR_meet v a b Ha' Hb' Ho) as Hm.
    rewrite (difference_sound (hull a b) (meet a b) None l v).
    + rewrite Hh, Hm. destruct (Hh), (Hm). clear - Hh Hm. 
      split; [intros [[H|H] Hn]; tauto|].
      intros [[H Hn]|[H Hn]]; tauto.
    + reflexivity.
    + change (zero_on e None) with (verse0 (eg e)). rewrite <- Hz. now apply hull_wf.
    + change (zero_on e None) with (verse0 (eg e)). rewrite <- Hz. now apply meet_wf.
    + exact Hs.
    + change (zero_on e None) with (verse0 (eg e)). rewrite <- Hz. assumption.
  - cbn [bind] in Hs. injection Hs as <-. rewrite InL_1, Hh.
    assert (Hno : ~ (InR d v a /\ InR d v b)) by (intros [H1 H2]; apply Ho; now exists v). tauto.
Qed.

End SetOps.
