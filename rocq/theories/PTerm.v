(** * PTerm: iteration of arbitrary ranges, and [split] with a size below 1. *)
From Coq Require Import List ZArith Bool Lia Sorted.
From Verif Require Import Base Books Data MVerse MRange Spec PList PCore PNav PVerse PRange PSetOps PRuns PSplit PCount.
Import ListNotations.
Open Scope Z_scope.

Section Term.
Variable e : env.
Notation d := (ed e).
Hypothesis Hwf : wf_data d.
Notation pos := (pos e).

(** A sorted list splits at any position. *)
Lemma sorted_cut : forall {A} (lt : A -> A -> Prop) (P : A -> bool) l, StronglySorted lt l ->
  (forall x y, lt x y -> P y = true -> P x = true) ->
  exists l1 l2, l = l1 ++ l2 /\ (forall x, In x l1 -> P x = true) /\ (forall x, In x l2 -> P x = false).
Proof.
  intros A lt P l Hs Hd. induction Hs as [|a l Hs IH Ha].
  - exists [], []. repeat split; intros x [].
  - destruct IH as [l1 [l2 [-> [H1 H2]]]]. destruct (P a) eqn:E.
    + exists (a :: l1), l2. repeat split; auto. intros x [<-|Hx]; auto.
    + exists [], (a :: l1 ++ l2). split; [reflexivity|]. split; [intros x []|].
      intros x [<-|Hx]; auto. destruct (P x) eqn:Ex; auto. rewrite Forall_forall in Ha.
      rewrite (Hd a x) in E; auto.
Qed.

Lemma InB_false_verse : forall v, InB d false v <-> InB d true v /\ vverse v <> 0.
Proof.
  intros v. rewrite !(in_bible_verses e). unfold legal, first_num. cbn [andb].
  destruct (zmem (vchap v) (verse_0s d (vbook v))); intuition lia.
Qed.

(** What iterating over a range yields, in every case. *)
Lemma iter_exact : forall r, wf_range d true r ->
  exists l, (exists N, forall fuel, (N <= fuel)%nat -> iter_range e fuel r = Ok l) /\
    StronglySorted (vlt d) l /\
    forall v, In v l <-> InR d v r /\ (vverse v <> 0 \/ v = rstart r).
Proof.
  intros r Hr. pose proof Hr as Hr'. apply (wf_range_pos e Hwf) in Hr'. destruct Hr' as [Hs [Ht Hst]].
  pose proof (bible_verses_sorted e Hwf false) as Hsort.
  assert (Hall : forall x, In x (bible_verses d false) -> InB d true x) by (intros x Hx; now apply (InB_mono e false)).
  assert (Hcut : forall (P : verse -> bool) L, StronglySorted (vltP e) L ->
    (forall x, In x L -> InB d true x) ->
    (forall x y, InB d true x -> InB d true y -> pos x < pos y -> P y = true -> P x = true) ->
    exists l1 l2, L = l1 ++ l2 /\ (forall x, In x l1 -> P x = true) /\ (forall x, In x l2 -> P x = false)).
  { intros P L HL HB HP. apply (sorted_cut (fun x y => InB d true x /\ InB d true y /\ vltP e x y)).
    - clear -HL HB. induction HL as [|a L HL IH Ha]; constructor.
      + apply IH. intros x Hx; apply HB; now right.
      + rewrite Forall_forall in *. intros x Hx. repeat split; auto; apply HB; [now left|now right].
    - intros x y (Hx & Hy & Hlt) Py. apply (HP x y); auto. now apply (vltb_lt e Hwf). }
  destruct (Hcut (fun v => pos v <? pos (rstart r)) (bible_verses d false)) as [l1 [l2 [HL [H1 H2]]]]; auto.
  { intros x y _ _ Hxy. rewrite !Z.ltb_lt. lia. }
  rewrite HL in Hsort. apply sorted_app_inv in Hsort. destruct Hsort as [_ [Hs2 _]].
  destruct (Hcut (fun v => pos v <=? pos (rend r)) l2) as [l [l3 [HL2 [H3 H4]]]]; auto.
  { intros x Hx. apply Hall. rewrite HL. apply in_or_app. now right. }
  { intros x y _ _ Hxy. rewrite !Z.leb_le. lia. }
  subst l2. apply sorted_app_inv in Hs2. destruct Hs2 as [Hsl [_ Hl3]].
  assert (Hin : forall x, In x l -> pos (rstart r) <= pos x <= pos (rend r)).
  { intros x Hx. specialize (H2 x (in_or_app _ _ _ (or_introl Hx))). specialize (H3 x Hx). cbn beta in H2, H3.
    rewrite Z.ltb_ge in H2. rewrite Z.leb_le in H3. lia. }
  assert (HlB : forall x, In x l -> InB d false x).
  { intros x Hx. unfold InB. rewrite HL, !in_app_iff. auto. }
  assert (Hiff : forall x, In x l <-> InR d x r /\ vverse x <> 0).
  { intros x. split.
    - intros Hx. pose proof (HlB x Hx) as HxB. apply InB_false_verse in HxB. destruct HxB as [HxB Hx0].
      split; auto. apply (InR_pos e Hwf). specialize (Hin x Hx). auto.
    - intros [Hx Hx0]. apply (InR_pos e Hwf) in Hx. destruct Hx as (HxB & _ & _ & Hp).
      assert (HxF : InB d false x) by (apply InB_false_verse; auto).
      unfold InB in HxF. rewrite HL, !in_app_iff in HxF. destruct HxF as [Hc|[Hc|Hc]]; auto.
      + specialize (H1 x Hc). apply Z.ltb_lt in H1. lia.
      + specialize (H4 x Hc). apply Z.leb_gt in H4. lia. }
  assert (Hsl' : StronglySorted (vlt d) l).
  { clear -Hsl HlB Hwf. induction Hsl as [|a l Hl IH Ha]; constructor.
    - apply IH. intros x Hx; apply HlB; now right.
    - rewrite Forall_forall in *. intros x Hx. apply (vlt_iff e Hwf). repeat split.
      + apply (InB_mono e false), HlB. now left.
      + apply (InB_mono e false), HlB. now right.
      + exact (Ha x Hx). }
  exists (if vverse (rstart r) =? 0 then rstart r :: l else l). split; [|split].
  - exists (S (length l)). intros fuel Hf. apply (iter_spec e Hwf r l1 l l3); auto; try lia.
    + intros x Hx. specialize (H1 x Hx). apply Z.ltb_lt in H1. assumption.
    + intros x Hx. specialize (H4 x Hx). apply Z.leb_gt in H4. assumption.
  - destruct (Z.eqb_spec (vverse (rstart r)) 0) as [E|E]; auto. constructor; auto.
    rewrite Forall_forall. intros x Hx. apply (vlt_pos e Hwf). pose proof (Hin x Hx) as Hp.
    assert (HxF : InB d true x) by (apply (InB_mono e false); auto). repeat split; auto.
    assert (pos (rstart r) <> pos x); [|lia]. intros Heq. apply (pos_eq e) in Heq; auto. subst x.
    apply Hiff in Hx. tauto.
  - intros v. destruct (Z.eqb_spec (vverse (rstart r)) 0) as [E|E].
    + cbn [In]. rewrite Hiff. split.
      * intros [<-|H]; [|tauto]. split; [|now right]. now apply (InR_start e Hwf).
      * intros [H [H0|H0]]; auto.
    + rewrite Hiff. split; [tauto|]. intros [H [H0| ->]]; auto.
Qed.

(** ** [split] with [num_verses] below 1 *)
Lemma add_in_chap : forall v n fl, InB d true v -> InB d (zero_on e fl || (vverse v =? 0)) v -> 0 <= n ->
  vverse v + n <= last_num d (vbook v) (vchap v) ->
  add e v n fl = Ok (Some (V (vbook v) (vchap v) (vverse v + n))).
Proof.
  intros v n fl Hv Hz Hn Hle. pose proof (InB_book e _ _ Hv) as Hb. pose proof (InB_legal e _ _ Hz) as Hl.
  destruct Hl as [Hc Hf]. unfold add. rewrite (max_in e Hwf) by auto. cbn [bind].
  destruct (nav_fuel e) as [|k] eqn:Ek; [unfold nav_fuel in Ek; discriminate|]. cbn [add_loop].
  replace (vverse v + n >? last_num d (vbook v) (vchap v)) with false
    by (symmetry; rewrite Z.gtb_ltb; apply Z.ltb_ge; lia).
  rewrite (new_verse_in e Hwf); auto; [apply stable_honour0|].
  rewrite track0_eq. unfold track0. lia.
Qed.

Section Below1.
Variable f : flag.
Hypothesis Hf : stable e f.
Let z := verse0 f.

Lemma zero_stable : forall v, InB d z v -> zero_on e (Some f) || (vverse v =? 0) = z /\ track0 e (Some f) v = z.
Proof.
  intros v Hv. destruct (fits_zero e f Hf) as [H0 _]. unfold track0. rewrite H0. fold z.
  enough (z || (vverse v =? 0) = z) as -> by auto.
  destruct z eqn:E; auto. cbn [orb]. apply InB_false_verse in Hv. destruct Hv as [_ Hv].
  now apply Z.eqb_neq.
Qed.

Lemma new_range_same : forall s t, vbook s = vbook t -> exists r, new_range e s t (Some f) = Ok r.
Proof.
  intros s t H. unfold new_range. replace (book_eqb (vbook s) (vbook t)) with true
    by (symmetry; now apply book_eqb_eq). cbn [negb]. rewrite andb_false_r. unfold verse_gt, verse_cmp.
  replace (book_eqb (vbook s) (vbook t)) with true by (symmetry; now apply book_eqb_eq). destruct (vchap s =? vchap t); cbn [bind]; eauto.
Qed.

(** Invariant: [t] lies before [u] in the chapter of [u], and [u] is not after [stop]. *)
Lemma num_loop_neg : forall n fuel s t u stop, n < 0 ->
  InB d z t -> InB d z u -> InB d true stop -> pos u <= pos stop ->
  vbook s = vbook u -> vbook t = vbook u -> vchap t = vchap u -> vverse t < vverse u ->
  vverse t < Z.of_nat fuel ->
  split_num_loop e f n fuel (Some s) (Some t) stop = Err InvalidRef.
Proof.
  intros n fuel. induction fuel as [|k IH]; intros s t u stop Hn Ht Hu Hstop Hp Hs Hb Hc Hlt Hfu.
  { pose proof (InB_legal e _ _ Ht) as [_ Hl]. pose proof (first_num_01 e z (vbook t) (vchap t)). lia. }
  pose proof (InB_mono e _ _ Ht) as HtB. pose proof (InB_mono e _ _ Hu) as HuB.
  cbn [split_num_loop]. rewrite (vltb_pos_eq e Hwf) by auto.
  assert (Htu : pos t < pos u).
  { apply Z.nle_gt. rewrite (pos_book e Hwf u t) by auto. lia. }
  replace (pos t <? pos stop) with true by (symmetry; apply Z.ltb_lt; lia).
  unfold new_range_opt. destruct (new_range_same s t) as [r ->]; [congruence|]. cbn [bind].
  destruct (zero_stable t Ht) as [Z1 Z2].
  pose proof (InB_legal e _ _ Hu) as [Hcu Hlu]. pose proof (InB_legal e _ _ Ht) as [Hct Hlt'].
  rewrite (add_in_chap t 1) by (rewrite ?Z1; auto; try lia; rewrite Hb, Hc; lia). cbn [bind].
  rewrite (add_track_neg e t n) by auto. rewrite Z2.
  destruct (Z.ltb_spec (vverse t + n) (first_num d z (vbook t) (vchap t))) as [Hl|Hl]; cbn [bind]; [reflexivity|].
  rewrite (IH _ _ u); auto; cbn [vbook vchap vverse]; try lia.
  apply (in_bible_verses e). cbn [vbook vchap vverse]. split; [now apply (InB_book e z)|].
  split; auto. lia.
Qed.

Lemma split_num1_neg : forall n fuel s stop, n < 0 -> InB d z s -> InB d true stop -> pos s <= pos stop ->
  vverse s <= Z.of_nat fuel -> split_num1 e f n fuel (R s stop) = Err InvalidRef.
Proof.
  intros n fuel s stop Hn Hs Ht Hp Hfu. unfold split_num1. cbn [rstart rend].
  destruct (zero_stable s Hs) as [_ Z2]. pose proof (InB_mono e _ _ Hs) as HsB.
  pose proof (InB_legal e _ _ Hs) as [Hc Hl].
  rewrite add_track_neg by (auto; lia). rewrite Z2.
  destruct (Z.ltb_spec (vverse s + (n - 1)) (first_num d z (vbook s) (vchap s))) as [H|H]; cbn [bind]; [reflexivity|].
  apply (num_loop_neg n fuel s _ s); cbn [vbook vchap vverse]; auto; try lia.
  apply (in_bible_verses e). cbn [vbook vchap vverse]. split; [now apply (InB_book e z)|].
  split; auto. lia.
Qed.

Lemma num_loop_0 : forall fuel s t stop,
  InB d z t -> InB d z s -> InB d true stop -> pos s <= pos stop ->
  vbook t = vbook s -> vchap t = vchap s -> vverse t = vverse s - 1 ->
  split_num_loop e f 0 fuel (Some s) (Some t) stop = Err Diverge.
Proof.
  induction fuel as [|k IH]; intros s t stop Ht Hs Hstop Hp Hb Hc Hv;
    pose proof (InB_mono e _ _ Ht) as HtB; pose proof (InB_mono e _ _ Hs) as HsB;
    cbn [split_num_loop]; rewrite (vltb_pos_eq e Hwf) by auto;
    (assert (Hts : pos t < pos s) by (apply Z.nle_gt; rewrite (pos_book e Hwf s t) by auto; lia));
    replace (pos t <? pos stop) with true by (symmetry; apply Z.ltb_lt; lia); [reflexivity|].
  unfold new_range_opt. destruct (new_range_same s t) as [r ->]; [congruence|]. cbn [bind].
  destruct (zero_stable t Ht) as [Z1 _].
  pose proof (InB_legal e _ _ Hs) as [Hcs Hls]. pose proof (InB_legal e _ _ Ht) as [Hct Hlt].
  rewrite (add_in_chap t 1) by (rewrite ?Z1; auto; try lia; rewrite Hb, Hc; lia). cbn [bind].
  rewrite (add_in_chap t 0) by (rewrite ?Z1; auto; lia). cbn [bind].
  replace (V (vbook t) (vchap t) (vverse t + 1)) with s by (destruct s, t; cbn in *; subst; f_equal; lia).
  replace (V (vbook t) (vchap t) (vverse t + 0)) with t by (destruct t; cbn; f_equal; lia).
  rewrite IH; auto.
Qed.

Lemma split_num1_0 : forall fuel s stop, InB d z s -> InB d true stop -> pos s <= pos stop ->
  split_num1 e f 0 fuel (R s stop) =
  Err (if vverse s =? first_num d z (vbook s) (vchap s) then InvalidRef else Diverge).
Proof.
  intros fuel s stop Hs Ht Hp. unfold split_num1. cbn [rstart rend].
  destruct (zero_stable s Hs) as [_ Z2]. pose proof (InB_mono e _ _ Hs) as HsB.
  pose proof (InB_legal e _ _ Hs) as [Hc Hl].
  rewrite add_track_neg by (auto; lia). rewrite Z2.
  destruct (Z.ltb_spec (vverse s + (0 - 1)) (first_num d z (vbook s) (vchap s))) as [H|H]; cbn [bind].
  - replace (vverse s =? first_num d z (vbook s) (vchap s)) with true by (symmetry; apply Z.eqb_eq; lia). reflexivity.
  - replace (vverse s =? first_num d z (vbook s) (vchap s)) with false by (symmetry; apply Z.eqb_neq; lia).
    apply num_loop_0; cbn [vbook vchap vverse]; auto; try lia.
    apply (in_bible_verses e). cbn [vbook vchap vverse]. split; [now apply (InB_book e z)|].
    split; auto. lia.
Qed.
End Below1.

Lemma split_first : forall r fl l by_book by_chap fuel n,
  verses_of d (split_zero e r fl) r l -> (length l <= fuel)%nat ->
  exists p qs, rstart p = rstart r /\ InB d true (rend p) /\ pos (rstart p) <= pos (rend p) /\
    split_items e fuel r by_book by_chap (Some n) fl =
    split_all (split_num1 e (split_flags e r fl) n fuel) (p :: qs).
Proof.
  intros r fl l by_book by_chap fuel n Hv Hfu.
  destruct (split_items_ok e Hwf r fl l by_book by_chap None fuel Hv Hfu) as [ps [Hps Hfa]]; [discriminate|].
  assert (Hne : l <> []).
  { destruct Hv as [_ [Hh _]]. now destruct l. }
  destruct (pieces_partition by_book by_chap None l Hne) as [Hcat Hnon _ _ _ _]; [discriminate|].
  destruct Hfa as [|p x ps xs [Hp1 Hp2] Hrest].
  { cbn in Hcat. congruence. }
  inversion Hnon as [|y ys Hx Hxs]; subst y ys.
  exists p, ps.
  assert (Hseg : seg e (split_zero e r fl) (x ++ concat xs)).
  { cbn [concat] in Hcat. rewrite Hcat. now apply verses_of_seg in Hv. }
  apply seg_app in Hseg. destruct Hseg as [Hseg _].
  assert (Hs : In (rstart p) x) by (apply hd_in in Hp1; destruct Hp1 as [l' ->]; now left).
  assert (Ht : In (rend p) x) by (apply hd_rev_in in Hp2; destruct Hp2 as [l' ->]; apply in_or_app; right; now left).
  split.
  { destruct Hv as [_ [Hh _]]. rewrite <- Hcat in Hh. cbn [concat] in Hh.
    destruct x as [|a x]; [congruence|]. cbn in Hh, Hp1. congruence. }
  split; [now apply (seg_in_true e (split_zero e r fl) x)|]. split.
  { apply (seg_between e Hwf (split_zero e r fl) x (rstart p) (rend p)); auto. now apply (seg_in e (split_zero e r fl) x). }
  revert Hps. unfold split_items.
  destruct (if by_book then _ else _) as [l1|er]; cbn [bind]; [|discriminate].
  destruct (if by_chap then _ else _) as [l2|er]; cbn [bind]; [|discriminate].
  intros Heq. injection Heq as ->. reflexivity.
Qed.

Lemma split_negative : forall r fl l by_book by_chap n fuel, n < 0 ->
  verses_of d (split_zero e r fl) r l -> (length l <= fuel)%nat -> vverse (rstart r) <= Z.of_nat fuel ->
  split_items e fuel r by_book by_chap (Some n) fl = Err InvalidRef.
Proof.
  intros r fl l by_book by_chap n fuel Hn Hv Hfu Hfu2.
  destruct (split_first r fl l by_book by_chap fuel n Hv Hfu) as (p & qs & Hp & Ht & Hle & ->).
  unfold split_all. cbn [mapM]. destruct p as [s t]. cbn [rstart rend] in *.
  rewrite split_num1_neg; auto.
  - apply split_flags_stable.
  - rewrite split_flags_zero. subst s. exact (proj1 (verses_of_wf e Hwf _ _ _ Hv)).
  - now subst s.
Qed.

Lemma split_zero_size : forall r fl l by_book by_chap fuel,
  verses_of d (split_zero e r fl) r l -> (length l <= fuel)%nat ->
  split_items e fuel r by_book by_chap (Some 0) fl =
  Err (if vverse (rstart r) =? first_num d (split_zero e r fl) (vbook (rstart r)) (vchap (rstart r))
       then InvalidRef else Diverge).
Proof.
  intros r fl l by_book by_chap fuel Hv Hfu.
  destruct (split_first r fl l by_book by_chap fuel 0 Hv Hfu) as (p & qs & Hp & Ht & Hle & ->).
  unfold split_all. cbn [mapM]. destruct p as [s t]. cbn [rstart rend] in *.
  rewrite split_num1_0; auto.
  - rewrite split_flags_zero. now subst s.
  - apply split_flags_stable.
  - rewrite split_flags_zero. subst s. exact (proj1 (verses_of_wf e Hwf _ _ _ Hv)).
Qed.
End Term.
