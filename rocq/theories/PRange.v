(** * PRange: positions of verses, and the set operations on two ranges. *)
From Coq Require Import List ZArith Bool Lia Sorted.
From Verif Require Import Base Books Data MVerse MRange Spec PList PCore PNav PVerse.
Import ListNotations.
Open Scope Z_scope.

(** First index of a verse in a list. *)
Fixpoint idx (v : verse) (l : list verse) : nat :=
  match l with [] => 0%nat | x :: xs => if verse_eqb v x then 0%nat else S (idx v xs) end.
Lemma idx_nth : forall v l, In v l -> nth_error l (idx v l) = Some v.
Proof.
  induction l as [|x l IH]; intros H; [destruct H|]. simpl. destruct (verse_eqb v x) eqn:E.
  - apply verse_eqb_eq in E. now subst.
  - simpl. apply IH. destruct H as [->|H]; [|assumption]. rewrite verse_eqb_refl in E. discriminate.
Qed.

Section Ranges.
Variable e : env.
Notation d := (ed e).
Hypothesis Hwf : wf_data d.

Definition pos (v : verse) : Z := Z.of_nat (idx v (bible_verses d true)).

Lemma pos_at : forall v, InB d true v -> at_pos (bible_verses d true) (Z.to_nat (pos v)) v.
Proof. intros v H. unfold pos, at_pos. rewrite Nat2Z.id. now apply idx_nth. Qed.
Lemma pos_nonneg : forall v, 0 <= pos v.
Proof. intros. unfold pos. lia. Qed.
Lemma pos_of_at : forall v i, at_pos (bible_verses d true) i v -> pos v = Z.of_nat i.
Proof.
  intros v i H. assert (Hin : InB d true v) by (apply InB_pos; eauto).
  pose proof (pos_at v Hin) as H'. pose proof (pos_inj e Hwf true _ _ _ H H'). pose proof (pos_nonneg v). lia.
Qed.
Lemma pos_eq : forall a b, InB d true a -> InB d true b -> pos a = pos b -> a = b.
Proof. intros a b Ha Hb H. apply pos_at in Ha. apply pos_at in Hb. rewrite H in Ha. unfold at_pos in *. congruence. Qed.
Lemma vltb_lt : forall a b, InB d true a -> InB d true b -> (vltb e a b = true <-> pos a < pos b).
Proof.
  intros a b Ha Hb. rewrite (vltb_pos e Hwf true _ _ a b (pos_at a Ha) (pos_at b Hb)).
  pose proof (pos_nonneg a). pose proof (pos_nonneg b). lia.
Qed.
Lemma vltb_pos_eq : forall a b, InB d true a -> InB d true b -> vltb e a b = (pos a <? pos b).
Proof. intros a b Ha Hb. apply bool_iff_eq. rewrite Z.ltb_lt. now apply vltb_lt. Qed.
Lemma vleb_pos_eq : forall a b, InB d true a -> InB d true b -> vleb e a b = (pos a <=? pos b).
Proof.
  intros a b Ha Hb. unfold vleb. rewrite vltb_pos_eq by assumption.
  destruct (Z.ltb_spec (pos b) (pos a)); destruct (Z.leb_spec (pos a) (pos b)); auto; lia.
Qed.
Lemma verse_eqb_pos : forall a b, InB d true a -> InB d true b -> verse_eqb a b = (pos a =? pos b).
Proof.
  intros a b Ha Hb. apply bool_iff_eq. rewrite verse_eqb_eq, Z.eqb_eq. split; [congruence|].
  now apply pos_eq.
Qed.
Lemma vle_pos : forall a b, vle d a b <-> InB d true a /\ InB d true b /\ pos a <= pos b.
Proof.
  intros a b. rewrite (vle_iff e Hwf). split; intros [Ha [Hb H]]; repeat split; auto.
  - rewrite vleb_pos_eq in H by assumption. now apply Z.leb_le.
  - rewrite vleb_pos_eq by assumption. now apply Z.leb_le.
Qed.
Lemma vlt_pos : forall a b, vlt d a b <-> InB d true a /\ InB d true b /\ pos a < pos b.
Proof.
  intros a b. rewrite (vlt_iff e Hwf). split; intros [Ha [Hb H]]; repeat split; auto.
  - rewrite vltb_pos_eq in H by assumption. now apply Z.ltb_lt.
  - rewrite vltb_pos_eq by assumption. now apply Z.ltb_lt.
Qed.
Lemma InR_pos : forall v r, InR d v r <->
  InB d true v /\ InB d true (rstart r) /\ InB d true (rend r) /\ pos (rstart r) <= pos v <= pos (rend r).
Proof. intros v r. unfold InR. rewrite !vle_pos. tauto. Qed.
Lemma wf_range_pos : forall z r, wf_range d z r <->
  InB d z (rstart r) /\ InB d z (rend r) /\ pos (rstart r) <= pos (rend r).
Proof.
  intros z r. unfold wf_range. rewrite vle_pos. split; [tauto|]. intros [H1 [H2 H3]].
  pose proof (InB_mono e _ _ H1). pose proof (InB_mono e _ _ H2). tauto.
Qed.
Lemma wf_range_mono : forall z r, wf_range d z r -> wf_range d true r.
Proof. intros z r [H1 [H2 H3]]. split; [|split]; auto; eapply InB_mono; eauto. Qed.

(** Positions determine the book order. *)
Lemma bord_mono : forall a b, InB d true a -> InB d true b -> pos a <= pos b -> bord e (vbook a) <= bord e (vbook b).
Proof.
  intros a b Ha Hb H. destruct (Z.le_gt_cases (bord e (vbook a)) (bord e (vbook b))); [assumption|].
  assert (vltb e b a = true).
  { unfold vltb. destruct (book_eqb (vbook b) (vbook a)) eqn:E.
    - apply book_eqb_eq in E. rewrite E in H0. lia.
    - now apply Z.ltb_lt. }
  apply vltb_lt in H1; auto. lia.
Qed.
Lemma same_book_between : forall a b c, InB d true a -> InB d true b -> InB d true c ->
  pos a <= pos b <= pos c -> vbook a = vbook c -> vbook b = vbook a.
Proof.
  intros a b c Ha Hb Hc H Heq. pose proof (bord_mono a b Ha Hb ltac:(lia)).
  pose proof (bord_mono b c Hb Hc ltac:(lia)). rewrite <- Heq in H1.
  apply (bord_inj e Hwf); [now apply (InB_book e) in Hb|now apply (InB_book e) in Ha|lia].
Qed.

(** ** Construction from two verses *)
Lemma new_range_eq : forall s t fl, InB d true s -> InB d true t ->
  new_range e s t fl =
  if negb (multi_on e fl) && negb (book_eqb (vbook s) (vbook t)) then Err Multibook
  else Ok (if pos t <? pos s then R t s else R s t).
Proof.
  intros s t fl Hs Ht. unfold new_range. rewrite verse_gt_swap, verse_lt_total; [|auto|eapply (InB_book e); eauto|eapply (InB_book e); eauto].
  cbn [bind]. now rewrite multi_on_eq, vltb_pos_eq.
Qed.

Lemma vmin_pos : forall a b, InB d true a -> InB d true b -> InB d true (vmin e a b) /\ pos (vmin e a b) = Z.min (pos a) (pos b).
Proof.
  intros a b Ha Hb. unfold vmin. rewrite vltb_pos_eq by assumption.
  destruct (Z.ltb_spec (pos b) (pos a)); split; auto; lia.
Qed.
Lemma vmax_pos : forall a b, InB d true a -> InB d true b -> InB d true (vmax e a b) /\ pos (vmax e a b) = Z.max (pos a) (pos b).
Proof.
  intros a b Ha Hb. unfold vmax. rewrite vltb_pos_eq by assumption.
  destruct (Z.ltb_spec (pos a) (pos b)); split; auto; lia.
Qed.
Lemma pos_vmin : forall a b, InB d true a -> InB d true b -> pos (vmin e a b) = Z.min (pos a) (pos b).
Proof. intros. now apply vmin_pos. Qed.
Lemma pos_vmax : forall a b, InB d true a -> InB d true b -> pos (vmax e a b) = Z.max (pos a) (pos b).
Proof. intros. now apply vmax_pos. Qed.
Lemma vmin_in : forall z a b, InB d z a -> InB d z b -> InB d z (vmin e a b).
Proof. intros. unfold vmin. now destruct (vltb e b a). Qed.
Lemma vmax_in : forall z a b, InB d z a -> InB d z b -> InB d z (vmax e a b).
Proof. intros. unfold vmax. now destruct (vltb e a b). Qed.

(** Tuple comparison of ranges. *)
Lemma rltb_pos : forall a b, wf_range d true a -> wf_range d true b ->
  rltb e a b = (pos (rstart a) <? pos (rstart b)) ||
               ((pos (rstart a) =? pos (rstart b)) && (pos (rend a) <? pos (rend b))).
Proof.
  intros a b [Ha [Ha' _]] [Hb [Hb' _]]. unfold rltb. rewrite verse_eqb_pos, !vltb_pos_eq by assumption.
  destruct (Z.eqb_spec (pos (rstart a)) (pos (rstart b))); destruct (Z.ltb_spec (pos (rstart a)) (pos (rstart b)));
    simpl; auto; lia.
Qed.

(** ** Neighbours in a universe *)
Lemma bible_mono_nth : forall z i j a b, at_pos (bible_verses d z) i a -> at_pos (bible_verses d z) j b ->
  (pos a < pos b <-> (i < j)%nat).
Proof.
  intros z i j a b Hi Hj.
  assert (Ha : InB d true a) by (apply (InB_mono e z); apply InB_pos; eauto).
  assert (Hb : InB d true b) by (apply (InB_mono e z); apply InB_pos; eauto).
  rewrite <- vltb_lt by assumption. eapply vltb_pos; eauto.
Qed.

Notation succ := (follows d).

Lemma succ_split : forall z p q v, succ z p q -> InB d z v ->
  (pos v <= pos p <-> pos v < pos q) /\ pos p < pos q.
Proof.
  intros z p q v [i [Hp Hq]] Hv. apply InB_pos in Hv. destruct Hv as [k Hk].
  pose proof (bible_mono_nth z _ _ _ _ Hp Hq). pose proof (bible_mono_nth z _ _ _ _ Hk Hq).
  pose proof (bible_mono_nth z _ _ _ _ Hp Hk).
  split; [|lia]. split; intros.
  - lia.
  - assert (k < S i)%nat by (apply H0; lia). destruct (Z.le_gt_cases (pos v) (pos p)); [assumption|].
    assert (i < k)%nat by (apply H1; lia). lia.
Qed.

Lemma succ_in : forall z p q, succ z p q -> InB d z p /\ InB d z q.
Proof. intros z p q [i [Hp Hq]]. split; apply InB_pos; eauto. Qed.

(** A book is a segment of the Bible. *)
Lemma book_in_bible : forall z b, In b (book_order d) ->
  exists l1 l3, bible_verses d z = l1 ++ book_verses d z b ++ l3.
Proof.
  intros z b Hb. destruct (order_in_split e b Hb) as [o1 [o2 Ho]].
  exists (flat_map (book_verses d z) o1), (flat_map (book_verses d z) o2).
  unfold bible_verses. rewrite Ho, flat_map_app. reflexivity.
Qed.

Lemma track_succ : forall fl v i w, InB d true v ->
  at_pos (track e fl v) i v -> at_pos (track e fl v) (S i) w ->
  succ (track0 e fl v) v w /\ (multi_on e fl = false -> vbook w = vbook v).
Proof.
  intros fl v i w Hv Hi Hw. unfold track in *. destruct (multi_on e fl).
  - split; [|discriminate]. now exists i.
  - split.
    + destruct (book_in_bible (track0 e fl v) (vbook v)) as [l1 [l3 H]].
      { now apply (InB_book e) in Hv. }
      exists (length l1 + i)%nat. unfold at_pos in *. rewrite H. split.
      * rewrite nth_error_app2 by lia. replace (length l1 + i - length l1)%nat with i by lia.
        rewrite nth_error_app1; [assumption|]. apply nth_error_Some. congruence.
      * rewrite nth_error_app2 by lia. replace (S (length l1 + i) - length l1)%nat with (S i) by lia.
        rewrite nth_error_app1; [assumption|]. apply nth_error_Some. congruence.
    + intros _. apply nth_error_In in Hw. now apply (in_book_verses e) in Hw.
Qed.

(** Converse: the successor in the universe is on the track, unless it is in another book. *)
Lemma succ_track : forall fl v i w, InB d true v ->
  at_pos (track e fl v) i v -> succ (track0 e fl v) v w -> multi_on e fl = true \/ vbook w = vbook v ->
  at_pos (track e fl v) (S i) w.
Proof.
  intros fl v i w Hv Hi Hs Hm. unfold track in *. destruct (multi_on e fl) eqn:Em.
  - destruct Hs as [k [Hk Hk']]. pose proof (pos_inj e Hwf _ _ _ _ Hi Hk). now subst.
  - destruct Hm as [Hm|Hm]; [discriminate|].
    destruct (succ_in _ _ _ Hs) as [_ Hw].
    assert (Hin : In w (book_verses d (track0 e fl v) (vbook v))).
    { apply in_book_verses. split; [assumption|]. rewrite <- Hm. now apply (InB_legal e) in Hw. }
    apply In_nth_error in Hin. destruct Hin as [k Hk].
    assert (Hb : In (vbook v) (book_order d)) by (now apply (InB_book e) in Hv).
    destruct (book_in_bible (track0 e fl v) (vbook v) Hb) as [l1 [l3 H]].
    destruct Hs as [m [Hm1 Hm2]]. unfold at_pos in *.
    assert (Hpos : forall k x, nth_error (book_verses d (track0 e fl v) (vbook v)) k = Some x ->
       nth_error (bible_verses d (track0 e fl v)) (length l1 + k) = Some x).
    { intros k' x Hk'. rewrite H, nth_error_app2 by lia.
      replace (length l1 + k' - length l1)%nat with k' by lia.
      rewrite nth_error_app1; [assumption|]. apply nth_error_Some. congruence. }
    pose proof (pos_inj e Hwf _ _ _ _ Hm1 (Hpos _ _ Hi)).
    pose proof (pos_inj e Hwf _ _ _ _ Hm2 (Hpos _ _ Hk)). replace (S i) with k by lia. exact Hk.
Qed.

(** [add 1] gives the successor. *)
Lemma add_1 : forall v fl, InB d true v ->
  exists o, add e v 1 fl = Ok o /\
  match o with
  | Some w => succ (track0 e fl v) v w /\ (multi_on e fl = true \/ vbook w = vbook v)
  | None => forall w, succ (track0 e fl v) v w -> multi_on e fl = false /\ vbook w <> vbook v
  end.
Proof.
  intros v fl Hv. destruct (track_pos e fl v Hwf Hv) as [i Hi].
  exists (nth_error (track e fl v) (S i)). split.
  - rewrite (add_track e v 1 fl i) by (auto; lia). do 2 f_equal. lia.
  - destruct (nth_error (track e fl v) (S i)) as [w|] eqn:E.
    + destruct (track_succ fl v i w Hv Hi E) as [H1 H2]. split; [assumption|].
      destruct (multi_on e fl); auto.
    + intros w Hw. destruct (multi_on e fl) eqn:Em.
      * pose proof (succ_track fl v i w Hv Hi Hw (or_introl Em)). unfold at_pos in *. congruence.
      * split; [reflexivity|]. intros Hb.
        pose proof (succ_track fl v i w Hv Hi Hw (or_intror Hb)). unfold at_pos in *. congruence.
Qed.

Lemma succ_fun : forall z p q q', succ z p q -> succ z p q' -> q = q'.
Proof.
  intros z p q q' [i [Hp Hq]] [j [Hp' Hq']]. pose proof (pos_inj e Hwf _ _ _ _ Hp Hp'). subst.
  unfold at_pos in *. congruence.
Qed.
Lemma succ_inj : forall z p p' q, succ z p q -> succ z p' q -> p = p'.
Proof.
  intros z p p' q [i [Hp Hq]] [j [Hp' Hq']]. pose proof (pos_inj e Hwf _ _ _ _ Hq Hq').
  assert (i = j) by lia. subst. unfold at_pos in *. congruence.
Qed.

(** [subtract 1] gives the predecessor, when the global flags agree about verse 0s. *)
Lemma sub_1 : forall v fl, InB d true v -> track0 e fl v = verse0 (eg e) ->
  exists o, subtract e v 1 fl = Ok o /\
  match o with
  | Some w => succ (track0 e fl v) w v /\ (multi_on e fl = true \/ vbook w = vbook v)
  | None => forall w, succ (track0 e fl v) w v -> multi_on e fl = false /\ vbook w <> vbook v
  end.
Proof.
  intros v fl Hv Hz. destruct (track_pos e fl v Hwf Hv) as [i Hi].
  assert (Hin : InB d (track0 e fl v) v).
  { rewrite <- track0_eq. now apply honour0_verse0. }
  assert (Htr : forall w, In w (track e fl v) -> InB d (track0 e fl v) w /\
                (multi_on e fl = false -> vbook w = vbook v)).
  { intros w Hw. unfold track in Hw. destruct (multi_on e fl).
    - split; [assumption|discriminate].
    - apply (in_book_verses e) in Hw. destruct Hw as [Hb Hl]. split; auto.
      apply (in_bible_verses e). rewrite Hb. split; auto. now apply (InB_book e) in Hv. }
  assert (Hseq : forall k p q, at_pos (track e fl v) k p -> at_pos (track e fl v) (S k) q ->
                 succ (track0 e fl v) p q).
  { intros k p q Hp Hq. unfold track in *. destruct (multi_on e fl).
    - now exists k.
    - destruct (book_in_bible (track0 e fl v) (vbook v)) as [l1 [l3 H]].
      { now apply (InB_book e) in Hv. }
      exists (length l1 + k)%nat. unfold at_pos in *. rewrite H. split.
      + rewrite nth_error_app2 by lia. replace (length l1 + k - length l1)%nat with k by lia.
        rewrite nth_error_app1; [assumption|]. apply nth_error_Some. congruence.
      + rewrite nth_error_app2 by lia. replace (S (length l1 + k) - length l1)%nat with (S k) by lia.
        rewrite nth_error_app1; [assumption|]. apply nth_error_Some. congruence. }
  rewrite (sub_track e v 1 fl i) by (auto; lia).
  destruct i as [|i].
  - exists None. split; [reflexivity|]. intros w Hw.
    destruct (multi_on e fl) eqn:Em.
    + unfold track in Hi. rewrite Em in Hi. destruct Hw as [k [Hk Hk']].
      pose proof (pos_inj e Hwf _ _ _ _ Hi Hk'). discriminate.
    + split; [reflexivity|]. intros Hb. destruct (succ_in _ _ _ Hw) as [Hw' _].
      assert (Hwt : In w (track e fl v)).
      { unfold track. rewrite Em. apply (in_book_verses e). split; auto. rewrite <- Hb.
        now apply (InB_legal e) in Hw'. }
      apply In_nth_error in Hwt. destruct Hwt as [k Hk].
      destruct k as [|k].
      * unfold at_pos in Hi. rewrite Hk in Hi. injection Hi as ->.
        pose proof (succ_split _ _ _ v Hw Hin). lia.
      * (* w at S k is after v at 0 *)
        assert (pos v < pos w).
        { assert (Hs : StronglySorted (vltP e) (track e fl v)).
          { unfold track. rewrite Em. apply book_verses_sorted. }
          pose proof (sorted_nth_lt _ _ _ _ _ _ Hs Hi Hk ltac:(lia)) as H.
          apply vltb_lt; auto. eapply InB_mono; eauto. }
        pose proof (succ_split _ _ _ v Hw Hin). lia.
  - exists (nth_error (track e fl v) i). split.
    + change (Z.to_nat 1) with 1%nat. destruct (Nat.leb_spec 1 (S i)); [|lia].
      replace (S i - 1)%nat with i by lia. reflexivity.
    + destruct (nth_error (track e fl v) i) as [w|] eqn:E.
      * split; [eapply Hseq; eauto|]. destruct (Htr w (nth_error_In _ _ E)) as [_ H].
        destruct (multi_on e fl); auto.
      * apply nth_error_None in E. assert (S i < length (track e fl v))%nat.
        { apply nth_error_Some. unfold at_pos in Hi. congruence. }
        lia.
Qed.

End Ranges.
