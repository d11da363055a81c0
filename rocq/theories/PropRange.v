(** * PropRange: properties C07 and C10-C19 (distance, iteration, counting, splitting, set operations
    on two ranges).

    Stated with Spec.v and the model functions only.  A statement that is false of the code is kept in view
    as a [Definition Cnn_statement]; the theorem named [_partial] proves it under the weakest condition found,
    and [_refuted] gives a witness against the rest. *)
From Coq Require Import List ZArith Bool Lia Sorted.
From Verif Require Import Base Books Data DefaultData MVerse MRange Spec PList PCore PNav PVerse PDefault PRange
  PSetOps PSetSpec PRuns PSplit PCount PTerm.
Import ListNotations.
Open Scope Z_scope.

(** ** C07.  Verse 0s are counted if the global flags say so or one of the two verses is one. *)
Definition dist_zero (e : env) (v w : verse) : bool := verse0 (eg e) || (vverse v =? 0) || (vverse w =? 0).
Definition C07_statement : Prop := forall e v w fl i j, wf_data (ed e) ->
  at_pos (bible_verses (ed e) (zero_on e fl || (vverse v =? 0) || (vverse w =? 0))) i v ->
  at_pos (bible_verses (ed e) (zero_on e fl || (vverse v =? 0) || (vverse w =? 0))) j w ->
  (multi_on e fl = true \/ vbook v = vbook w) ->
  subtract_verse e v w fl = Ok (Z.of_nat i - Z.of_nat j).

(** True when no [flags] argument is given (the [-] operator), as the argument is ignored. *)
Theorem C07_distance_partial : forall e v w fl i j, wf_data (ed e) ->
  at_pos (bible_verses (ed e) (dist_zero e v w)) i v -> at_pos (bible_verses (ed e) (dist_zero e v w)) j w ->
  multi_on e None = true \/ vbook v = vbook w ->
  subtract_verse e v w fl = Ok (Z.of_nat i - Z.of_nat j).
Proof. intros e v w fl i j Hwf. exact (verse_difference e Hwf v w fl i j). Qed.
Theorem C07_multibook : forall e v w fl, multi_on e None = false -> vbook v <> vbook w ->
  subtract_verse e v w fl = Err Multibook.
Proof.
  intros e v w fl Hm Hb. unfold subtract_verse, new_range. rewrite multi_on_eq, Hm.
  replace (book_eqb (vbook v) (vbook w)) with false; [reflexivity|]. symmetry. now apply book_eqb_neq.
Qed.
Lemma dist_zero_in : forall e v w, wf_data (ed e) -> InB (ed e) true v -> InB (ed e) (dist_zero e v w) v.
Proof.
  intros e v w Hwf Hv. unfold dist_zero. destruct (_ || _) eqn:E; auto.
  apply orb_false_iff in E. destruct E as [E _]. apply orb_false_iff in E. destruct E as [_ E].
  apply Z.eqb_neq in E. now apply (InB_false_verse e).
Qed.
Theorem C07_antisymmetric : forall e v w fl n, wf_data (ed e) -> InB (ed e) true v -> InB (ed e) true w ->
  subtract_verse e v w fl = Ok n -> subtract_verse e w v fl = Ok (- n).
Proof.
  intros e v w fl n Hwf Hv Hw Hn.
  pose proof (dist_zero_in e v w Hwf Hv) as Hv'. pose proof (dist_zero_in e w v Hwf Hw) as Hw'.
  assert (Hsym : dist_zero e w v = dist_zero e v w).
  { unfold dist_zero. rewrite <- !orb_assoc. f_equal. apply orb_comm. }
  apply (InB_pos e) in Hv'. destruct Hv' as [i Hi]. apply (InB_pos e) in Hw'. destruct Hw' as [j Hj].
  destruct (multi_on e None) eqn:Em.
  - rewrite (C07_distance_partial e w v fl j i) by (rewrite ?Hsym in *; auto).
    rewrite (C07_distance_partial e v w fl i j) in Hn by (rewrite ?Hsym in *; auto).
    injection Hn as <-. f_equal. lia.
  - destruct (book_eqb (vbook v) (vbook w)) eqn:Eb.
    + apply book_eqb_eq in Eb.
      rewrite (C07_distance_partial e w v fl j i) by (rewrite ?Hsym in *; auto).
      rewrite (C07_distance_partial e v w fl i j) in Hn by (rewrite ?Hsym in *; auto).
      injection Hn as <-. f_equal. lia.
    + apply book_eqb_neq in Eb. rewrite C07_multibook in Hn by auto. discriminate.
Qed.
(** Adding the distance leads back, if [w] counts verse 0s exactly when [v - w] does. *)
Theorem C07_add_back_partial : forall e v w fl n, wf_data (ed e) ->
  InB (ed e) true v -> InB (ed e) true w -> vle (ed e) w v ->
  track0 e None w = dist_zero e v w ->
  subtract_verse e v w fl = Ok n -> 0 <= n /\ add e w n None = Ok (Some v).
Proof.
  intros e v w fl n Hwf Hv Hw Hle Ht Hn.
  pose proof (dist_zero_in e v w Hwf Hv) as Hv'.
  assert (Hw' : InB (ed e) (dist_zero e v w) w).
  { rewrite <- Ht. now apply (track0_InB e). }
  pose proof Hv' as HvB. pose proof Hw' as HwB.
  apply (InB_pos e) in Hv'. destruct Hv' as [i Hi]. apply (InB_pos e) in Hw'. destruct Hw' as [j Hj].
  assert (Hij : (j <= i)%nat).
  { apply (vle_iff e Hwf) in Hle. destruct Hle as (_ & _ & Hle). now apply (vleb_pos e Hwf (dist_zero e v w) j i w v). }
  assert (Hmb : multi_on e None = true \/ vbook v = vbook w).
  { destruct (multi_on e None) eqn:Em; auto. right. destruct (book_eqb (vbook v) (vbook w)) eqn:Eb.
    - now apply book_eqb_eq.
    - apply book_eqb_neq in Eb. rewrite C07_multibook in Hn by auto. discriminate. }
  rewrite (C07_distance_partial e v w fl i j) in Hn by auto. injection Hn as <-.
  split; [lia|]. replace (Z.of_nat i - Z.of_nat j) with (Z.of_nat (i - j)) by lia.
  destruct (track_pos e None w Hwf Hw) as [k Hk].
  rewrite (add_track e w (Z.of_nat (i - j)) None k) by (auto; lia). rewrite Nat2Z.id. f_equal.
  unfold track in *. rewrite Ht in *. destruct (multi_on e None) eqn:Em.
  - assert (k = j) by (eapply (pos_inj e); eauto). subst k.
    replace (j + (i - j))%nat with i by lia. exact Hi.
  - destruct Hmb as [H|Hb]; [discriminate|].
    destruct (book_in_bible e (dist_zero e v w) (vbook w)) as [l1 [l3 HL]].
    { now apply (InB_book e true). }
    pose proof (bible_nodup e Hwf (dist_zero e v w)) as Hnd. rewrite HL in Hnd.
    unfold at_pos in *. rewrite HL in Hi, Hj.
    assert (HvIn : In v (book_verses (ed e) (dist_zero e v w) (vbook w))).
    { apply (in_book_verses e). split; auto. rewrite <- Hb. now apply (InB_legal e). }
    destruct (In_nth_error _ _ HvIn) as [m Hm].
    pose proof (nth_error_pos _ _ _ _ _ _ Hnd Hm Hi) as E1. pose proof (nth_error_pos _ _ _ _ _ _ Hnd Hk Hj) as E2.
    replace (k + (i - j))%nat with m by lia. exact Hm.
Qed.
Theorem C07_flags_refuted : exists e v w fl i j, wf_data (ed e) /\
  at_pos (bible_verses (ed e) (zero_on e fl || (vverse v =? 0) || (vverse w =? 0))) i v /\
  at_pos (bible_verses (ed e) (zero_on e fl || (vverse v =? 0) || (vverse w =? 0))) j w /\
  multi_on e fl = true /\
  subtract_verse e v w fl = Err Multibook /\ subtract_verse e v w fl <> Ok (Z.of_nat i - Z.of_nat j).
Proof.
  exists (denv NONE), (V Exod 1 2), (V Gen 50 26), (Some MULTIBOOK), 1534%nat, 1532%nat.
  split; [exact default_wf|]. vm_compute. repeat split; discriminate.
Qed.
Theorem C07_add_back_refuted : exists e v w n, wf_data (ed e) /\ InB (ed e) true v /\ InB (ed e) true w /\
  vle (ed e) w v /\ subtract_verse e v w None = Ok n /\ add e w n None <> Ok (Some v).
Proof.
  exists (denv NONE), (V Psa 4 0), (V Psa 3 1), 8. split; [exact default_wf|].
  split; [in_bible|]. split; [in_bible|].
  split; [apply (vle_iff (denv NONE) default_wf); split; [in_bible|]; split; [in_bible|vm_compute; reflexivity]|].
  vm_compute. split; congruence.
Qed.

Example C07_ex :
  at_pos (bible_verses default_data false) 1534 (V Exod 1 2) /\ at_pos (bible_verses default_data false) 31 (V Gen 2 1) /\
  subtract_verse (denv MULTIBOOK) (V Exod 1 2) (V Gen 2 1) None = Ok 1503 /\
  subtract_verse (denv MULTIBOOK) (V Gen 2 1) (V Exod 1 2) None = Ok (-1503) /\
  subtract_verse (denv NONE) (V Psa 4 0) (V Psa 3 8) None = Ok 1 /\
  add (denv MULTIBOOK) (V Gen 2 1) 1503 None = Ok (Some (V Exod 1 2)).
Proof. vm_compute. repeat split. Qed.

(** ** C10 *)
Definition C10_statement : Prop := forall e r l, wf_data (ed e) -> wf_range (ed e) (verse0 (eg e)) r ->
  verses_of (ed e) (verse0 (eg e)) r l ->
  exists N, forall fuel, (N <= fuel)%nat -> iter_range e fuel r = Ok l.

(** True for the ranges with no verse 0 at an end, read without verse 0s; in particular always when VERSE_0
    is not in force. *)
Theorem C10_iteration_partial : forall e r l, wf_data (ed e) -> verses_of (ed e) false r l ->
  exists N, forall fuel, (N <= fuel)%nat -> iter_range e fuel r = Ok l.
Proof.
  intros e r l Hwf Hv. pose proof (verses_of_wf e Hwf _ _ _ Hv) as Hr.
  destruct (iter_exact e Hwf r (wf_range_mono e _ _ Hr)) as [l' [[N HN] [Hs Hin]]].
  exists N. intros fuel Hf. rewrite (HN fuel Hf). f_equal.
  assert (Hirr : forall x, ~ vlt (ed e) x x).
  { intros x H. apply (vlt_pos e Hwf) in H. lia. }
  assert (Htr : forall x y z, vlt (ed e) x y -> vlt (ed e) y z -> vlt (ed e) x z).
  { intros x y z H1 H2. apply (vlt_pos e Hwf) in H1, H2. apply (vlt_pos e Hwf). intuition lia. }
  apply (sorted_ext (vlt (ed e))); auto.
  - pose proof (verses_of_seg e _ _ _ Hv) as Hseg. pose proof (seg_sorted e Hwf _ _ Hseg) as Hss.
    pose proof (fun v => seg_in_true e _ _ v Hseg) as HB. clear -Hss HB Hwf.
    induction Hss as [|a l Hss IH Ha]; constructor.
    + apply IH. intros v Hv. apply HB. now right.
    + rewrite Forall_forall in *. intros x Hx. apply (vlt_iff e Hwf).
      repeat split; [apply HB; now left|apply HB; now right|exact (Ha x Hx)].
  - intros x. rewrite Hin, (verses_of_In e Hwf _ _ _ x Hv), (InB_false_verse e). split.
    + intros [HR [H0| ->]]; split; auto; pose proof HR as HR'; apply (InR_pos e Hwf) in HR'; try tauto.
      destruct Hr as (H1 & _ & _). now apply (InB_false_verse e) in H1.
    + tauto.
Qed.
(** What iteration yields in every case: the start verse, then the verses numbered at least 1 up to the end,
    each once and in order, and it stops. *)
Theorem C10_iteration_exact : forall e r, wf_data (ed e) -> wf_range (ed e) true r ->
  exists l, (exists N, forall fuel, (N <= fuel)%nat -> iter_range e fuel r = Ok l) /\
    StronglySorted (vlt (ed e)) l /\
    forall v, In v l <-> InR (ed e) v r /\ (vverse v <> 0 \/ v = rstart r).
Proof. intros e r Hwf. exact (iter_exact e Hwf r). Qed.
Theorem C10_iteration_refuted : exists e r l l' fuel, wf_data (ed e) /\ wf_range (ed e) (verse0 (eg e)) r /\
  verses_of (ed e) (verse0 (eg e)) r l /\ iter_range e fuel r = Ok l' /\ l' <> l.
Proof.
  exists (tenv VERSE_0), (R (V Psa 1 1) (V Psa 2 2)),
    [V Psa 1 1; V Psa 1 2; V Psa 2 0; V Psa 2 1; V Psa 2 2], [V Psa 1 1; V Psa 1 2; V Psa 2 1; V Psa 2 2], 9%nat.
  split; [exact tiny_wf|]. split; [wf_range_tiny|].
  split; [verses_of 5%nat|]. split; [vm_compute; reflexivity|discriminate].
Qed.
(** The same with the default tables: Psalm 4:0 is left out. *)
Theorem C10_default_refuted : exists r v fuel l, wf_range default_data true r /\ InR default_data v r /\
  iter_range (denv VERSE_0) fuel r = Ok l /\ ~ In v l.
Proof.
  exists (R (V Psa 3 8) (V Psa 4 1)), (V Psa 4 0), 9%nat, [V Psa 3 8; V Psa 4 1].
  split; [wf_range|]. split; [|split; [vm_compute; reflexivity|cbn [In]; intuition discriminate]].
  split; apply (vle_iff (denv NONE) default_wf); (split; [in_bible|split; [in_bible|vm_compute; reflexivity]]).
Qed.

Example C10_ex : verses_of default_data false (R (V Gen 1 30) (V Gen 2 1)) [V Gen 1 30; V Gen 1 31; V Gen 2 1] /\
  iter_range (denv NONE) 9 (R (V Gen 1 30) (V Gen 2 1)) = Ok [V Gen 1 30; V Gen 1 31; V Gen 2 1] /\
  iter_range (denv NONE) 9 (R (V Gen 50 26) (V Exod 1 1)) = Ok [V Gen 50 26; V Exod 1 1] /\
  iter_range (denv NONE) 9 (R (V Psa 3 0) (V Psa 3 2)) = Ok [V Psa 3 0; V Psa 3 1; V Psa 3 2].
Proof. split; [verses_of 29%nat|]. vm_compute. auto. Qed.

(** ** C11.  The [flags] argument plays no part (the property speaks of the flags in force). *)
Definition count_zero (e : env) (r : range) : bool :=
  zero_on e None || (vverse (rstart r) =? 0) || (vverse (rend r) =? 0).
Theorem C11_verse_count : forall e r fl l, wf_data (ed e) -> verses_of (ed e) (count_zero e r) r l ->
  verse_count e r fl = Ok (zlen l).
Proof. intros e r fl l Hwf. exact (verse_count_spec e Hwf r fl l). Qed.
(** Every legal range has such a list of verses, so the count is always defined. *)
Theorem C11_verses : forall e r, wf_data (ed e) -> wf_range (ed e) true r ->
  exists l, verses_of (ed e) (count_zero e r) r l /\ NoDup l /\
    forall v, In v l <-> InB (ed e) (count_zero e r) v /\ InR (ed e) v r.
Proof.
  intros e r Hwf Hr. destruct (verses_of_exists e Hwf _ _ (split_zero_wf e Hwf r None Hr)) as [l Hl].
  exists l. split; [exact Hl|]. split.
  - apply (sorted_nodup (vltP e)); [apply vltP_irrefl|]. eapply (seg_sorted e); eauto. eapply (verses_of_seg e); eauto.
  - intros v. exact (verses_of_In e Hwf _ _ _ v Hl).
Qed.

Example C11_ex : verses_of default_data false (R (V Gen 1 30) (V Gen 2 1)) [V Gen 1 30; V Gen 1 31; V Gen 2 1] /\
  verse_count (denv NONE) (R (V Gen 1 30) (V Gen 2 1)) None = Ok 3 /\
  verse_count (denv NONE) (R (V Psa 3 8) (V Psa 4 2)) None = Ok 3 /\
  verse_count (denv VERSE_0) (R (V Psa 3 8) (V Psa 4 2)) None = Ok 4 /\
  verse_count (denv NONE) (R (V Psa 4 0) (V Psa 5 1)) None = Ok 11 /\
  verse_count (denv NONE) (R (V Gen 1 1) (V Rev 22 21)) None = Ok 31102.
Proof. split; [verses_of 29%nat|]. vm_compute. repeat split. Qed.

(** ** C12 *)
Definition split_zero0 (e : env) (r : range) (fl : option flag) : bool :=
  zero_on e fl || (vverse (rstart r) =? 0) || (vverse (rend r) =? 0).
Lemma piece_verses : forall e z ps ls, seg e z (concat ls) -> Forall2 piece_of ps ls ->
  Forall2 (verses_of (ed e) z) ps ls.
Proof.
  intros e z ps ls Hseg H. induction H as [|p x ps ls Hp Hr IH]; constructor.
  - cbn [concat] in Hseg. apply (seg_app e) in Hseg. destruct Hseg as [Hx _]. split; [exact Hx|exact Hp].
  - cbn [concat] in Hseg. apply (seg_app e) in Hseg. apply IH. tauto.
Qed.
Theorem C12_split : forall e r fl l by_book by_chap num fuel, wf_data (ed e) ->
  verses_of (ed e) (split_zero0 e r fl) r l -> (length l <= fuel)%nat ->
  (forall n, num = Some n -> 1 <= n) ->
  exists ps ls, split_items e fuel r by_book by_chap num fl = Ok ps /\
    partition_of by_book by_chap (option_map Z.to_nat num) l ls /\
    Forall2 (verses_of (ed e) (split_zero0 e r fl)) ps ls.
Proof.
  intros e r fl l by_book by_chap num fuel Hwf Hv Hfu Hn.
  destruct (split_items_ok e Hwf r fl l by_book by_chap num fuel Hv Hfu Hn) as [ps [Hps Hfa]].
  assert (Hne : l <> []) by (destruct Hv as [_ [Hh _]]; now destruct l).
  pose proof (pieces_partition by_book by_chap num l Hne Hn) as Hpart.
  exists ps, (pieces by_book by_chap num l). split; [exact Hps|]. split; [exact Hpart|].
  apply piece_verses; [|exact Hfa]. rewrite (part_concat _ _ _ _ _ Hpart). exact (verses_of_seg e _ _ _ Hv).
Qed.

Example C12_ex :
  verses_of default_data false (R (V Gen 1 30) (V Gen 2 3)) (map (V Gen 1) [30; 31] ++ map (V Gen 2) [1; 2; 3]) /\
  split_items (denv NONE) 9 (R (V Gen 1 30) (V Gen 2 3)) false true (Some 2) None =
    Ok [R (V Gen 1 30) (V Gen 1 31); R (V Gen 2 1) (V Gen 2 2); R (V Gen 2 3) (V Gen 2 3)] /\
  split_items (denv NONE) 9 (R (V Gen 1 30) (V Gen 2 3)) false false (Some 3) None =
    Ok [R (V Gen 1 30) (V Gen 2 1); R (V Gen 2 2) (V Gen 2 3)] /\
  split_items (denv NONE) 9 (R (V Gen 50 25) (V Exod 1 3)) true false (Some 2) None =
    Ok [R (V Gen 50 25) (V Gen 50 26); R (V Exod 1 1) (V Exod 1 2); R (V Exod 1 3) (V Exod 1 3)].
Proof. split; [verses_of 29%nat|]. vm_compute. auto. Qed.

(** ** C13 *)
Definition C13_statement : Prop := forall e r fl by_book by_chap n, wf_data (ed e) -> wf_range (ed e) true r ->
  exists N, forall fuel, (N <= fuel)%nat -> split_items e fuel r by_book by_chap (Some n) fl <> Err Diverge.
(** True for every [n] but 0: [n >= 1] returns ranges, [n < 0] raises. *)
Theorem C13_terminates_partial : forall e r fl by_book by_chap n, wf_data (ed e) -> wf_range (ed e) true r -> n <> 0 ->
  exists N, forall fuel, (N <= fuel)%nat ->
    if 1 <=? n then exists ps, split_items e fuel r by_book by_chap (Some n) fl = Ok ps
    else split_items e fuel r by_book by_chap (Some n) fl = Err InvalidRef.
Proof.
  intros e r fl by_book by_chap n Hwf Hr Hn.
  destruct (verses_of_exists e Hwf _ _ (split_zero_wf e Hwf r fl Hr)) as [l Hl].
  exists (length l + Z.to_nat (vverse (rstart r)))%nat. intros fuel Hf. destruct (Z.leb_spec 1 n) as [H1|H1].
  - destruct (split_items_ok e Hwf r fl l by_book by_chap (Some n) fuel Hl) as [ps [H _]]; [lia| |eauto].
    intros m Hm. injection Hm as <-. exact H1.
  - apply (split_negative e Hwf r fl l); auto; lia.
Qed.
Theorem C13_without_size : forall e r fl by_book by_chap, wf_data (ed e) -> wf_range (ed e) true r ->
  exists N ps, forall fuel, (N <= fuel)%nat -> split_items e fuel r by_book by_chap None fl = Ok ps.
Proof.
  intros e r fl by_book by_chap Hwf Hr.
  destruct (verses_of_exists e Hwf _ _ (split_zero_wf e Hwf r fl Hr)) as [l Hl].
  destruct (split_items_ok e Hwf r fl l by_book by_chap None (length l) Hl) as [ps [Hps Hfa]]; [lia|discriminate|].
  exists (length l), ps. intros fuel Hf.
  destruct (split_items_ok e Hwf r fl l by_book by_chap None fuel Hl) as [ps' [Hps' Hfa']]; [lia|discriminate|].
  rewrite Hps'. f_equal. clear -Hfa Hfa'. revert ps' Hfa'.
  induction Hfa as [|p x ps ls [H1 H2] Hr IH]; intros ps' H; inversion H as [|p' x' ps'' ls' [H3 H4] Hr']; subst; auto.
  f_equal; [|now apply IH]. destruct p as [a b], p' as [a' b']. cbn [rstart rend] in *. congruence.
Qed.
(** With size 0 the loop never ends, unless the range begins a chapter (then an exception is raised). *)
Theorem C13_size_0 : forall e r fl by_book by_chap l fuel, wf_data (ed e) ->
  verses_of (ed e) (split_zero0 e r fl) r l -> (length l <= fuel)%nat ->
  split_items e fuel r by_book by_chap (Some 0) fl =
  Err (if vverse (rstart r) =? first_num (ed e) (split_zero0 e r fl) (vbook (rstart r)) (vchap (rstart r))
       then InvalidRef else Diverge).
Proof.
  intros e r fl by_book by_chap l fuel Hwf Hv Hf.
  exact (split_zero_size e Hwf r fl l by_book by_chap fuel Hv Hf).
Qed.
Theorem C13_terminates_refuted : exists e r fl, wf_data (ed e) /\ wf_range (ed e) true r /\
  forall fuel, split_items e fuel r false false (Some 0) fl = Err Diverge.
Proof.
  exists (denv NONE), (R (V Gen 1 2) (V Gen 1 3)), None. split; [exact default_wf|]. split; [wf_range|].
  assert (Hv : verses_of default_data false (R (V Gen 1 2) (V Gen 1 3)) [V Gen 1 2; V Gen 1 3]) by verses_of 1%nat.
  intros fuel. destruct fuel as [|[|fuel]]; [vm_compute; reflexivity..|].
  rewrite (C13_size_0 (denv NONE) (R (V Gen 1 2) (V Gen 1 3)) None false false
             [V Gen 1 2; V Gen 1 3] (S (S fuel)) default_wf Hv) by (cbn [length]; lia).
  vm_compute. reflexivity.
Qed.

Example C13_ex : wf_range default_data true (R (V Gen 1 2) (V Gen 2 3)) /\
  split_items (denv NONE) 99 (R (V Gen 1 2) (V Gen 2 3)) false false (Some (-1)) None = Err InvalidRef /\
  split_items (denv NONE) 99 (R (V Gen 1 2) (V Gen 2 3)) false false (Some 30) None =
    Ok [R (V Gen 1 2) (V Gen 1 31); R (V Gen 2 1) (V Gen 2 3)] /\
  split_items (denv NONE) 99 (R (V Gen 1 1) (V Gen 2 3)) false true (Some 0) None = Err InvalidRef /\
  split_items (denv NONE) 99 (R (V Gen 1 2) (V Gen 2 3)) false true (Some 0) None = Err Diverge.
Proof. split; [wf_range|]. vm_compute. auto. Qed.

(** ** C14 *)
Theorem C14_chap_count : forall e r fl, wf_data (ed e) -> wf_range (ed e) true r ->
  exists n, r_chap_count e r false fl = Ok n /\ counted (touches_chap (ed e) r) n.
Proof. intros e r fl Hwf. exact (chap_count_spec e Hwf r fl). Qed.
Theorem C14_book_count : forall e r fl, wf_data (ed e) -> wf_range (ed e) true r ->
  exists n, r_book_count e r false fl = Ok n /\ counted (touches_book (ed e) r) n.
Proof. intros e r fl Hwf. exact (book_count_spec e Hwf r fl). Qed.
Definition C14_whole_statement : Prop := forall e r fl, wf_data (ed e) -> wf_range (ed e) true r ->
  exists n, r_chap_count e r true fl = Ok n /\ counted (covers_chap (ed e) (count_zero e r) r) n.
(** True for the ranges that are legal under the global flags. *)
Theorem C14_whole_chap_count_partial : forall e r fl, wf_data (ed e) -> wf_range (ed e) (verse0 (eg e)) r ->
  exists n, r_chap_count e r true fl = Ok n /\ counted (covers_chap (ed e) (verse0 (eg e)) r) n.
Proof. intros e r fl Hwf. exact (chap_count_whole_spec e Hwf r fl). Qed.
Theorem C14_whole_book_count_partial : forall e r fl, wf_data (ed e) -> wf_range (ed e) (verse0 (eg e)) r ->
  exists n, r_book_count e r true fl = Ok n /\ counted (covers_book (ed e) (verse0 (eg e)) r) n.
Proof. intros e r fl Hwf. exact (book_count_whole_spec e Hwf r fl). Qed.
(** Psalm 3:0-8 is the whole psalm, but counts no whole chapter when VERSE_0 is not set globally. *)
Theorem C14_whole_refuted : exists e r fl, wf_data (ed e) /\ wf_range (ed e) true r /\
  covers_chap (ed e) (count_zero e r) r (vbook (rstart r), vchap (rstart r)) /\ r_chap_count e r true fl = Ok 0.
Proof.
  exists (denv NONE), (R (V Psa 3 0) (V Psa 3 8)), None. split; [exact default_wf|]. split; [wf_range|].
  split; [|vm_compute; reflexivity].
  unfold covers_chap. cbn [fst snd rstart vbook vchap]. split; [apply mem_book_in; vm_compute; reflexivity|].
  split; [vm_compute; split; discriminate|].
  intros v Hv.
  assert (HvB : InB default_data true v).
  { apply (in_bible_verses (denv NONE)). apply (in_chap_verses (denv NONE)) in Hv. destruct Hv as (Hb & Hc & Hl).
    rewrite Hb, Hc. split; [apply mem_book_in; vm_compute; reflexivity|]. split; [vm_compute; split; discriminate|].
    exact Hl. }
  apply (in_chap_verses (denv NONE)) in Hv. destruct Hv as (Hb & Hc & Hl).
  change (first_num (ed (denv NONE)) (count_zero (denv NONE) (R (V Psa 3 0) (V Psa 3 8))) Psa 3) with 0 in Hl.
  change (last_num (ed (denv NONE)) Psa 3) with 8 in Hl.
  destruct v as [b c v]. cbn [vbook vchap vverse] in *. subst b c.
  split; apply (vle_iff (denv NONE) default_wf); (split; [auto; in_bible|split; [auto; in_bible|]]);
    unfold vleb, vltb; cbn; apply negb_true_iff, Z.ltb_ge; lia.
Qed.

Example C14_ex : wf_range default_data false (R (V Gen 1 2) (V Lev 3 17)) /\
  r_chap_count (denv NONE) (R (V Gen 1 2) (V Lev 3 17)) false None = Ok 93 /\
  r_chap_count (denv NONE) (R (V Gen 1 2) (V Lev 3 17)) true None = Ok 92 /\
  r_book_count (denv NONE) (R (V Gen 1 2) (V Lev 3 17)) false None = Ok 3 /\
  r_book_count (denv NONE) (R (V Gen 1 2) (V Lev 3 17)) true None = Ok 1 /\
  r_chap_count (denv NONE) (R (V Gen 1 2) (V Gen 1 5)) true None = Ok 0.
Proof. split; [wf_range|]. vm_compute. repeat split. Qed.

(** ** C15.  A verse argument [v] is the range [R v v]. *)
Theorem C15_is_disjoint : forall e a b, wf_data (ed e) -> wf_range (ed e) true a -> wf_range (ed e) true b ->
  (is_disjoint e a b = true <-> ~ exists v, InR (ed e) v a /\ InR (ed e) v b).
Proof. intros e a b Hwf. exact (disjoint_spec e Hwf a b). Qed.
Theorem C15_contains : forall e a b, wf_data (ed e) -> wf_range (ed e) true a -> wf_range (ed e) true b ->
  (contains e a b = true <-> forall v, InR (ed e) v b -> InR (ed e) v a).
Proof. intros e a b Hwf. exact (contains_spec e Hwf a b). Qed.
Theorem C15_surrounds : forall e a b, wf_data (ed e) -> wf_range (ed e) true a -> wf_range (ed e) true b ->
  (surrounds e a b = true <->
   (exists v, InR (ed e) v a /\ forall w, InR (ed e) w b -> vlt (ed e) v w) /\
   (exists v, InR (ed e) v a /\ forall w, InR (ed e) w b -> vlt (ed e) w v)).
Proof. intros e a b Hwf. exact (surrounds_spec e Hwf a b). Qed.
(** Adjacent: one range begins with the verse directly after the other's last verse (and, without
    MULTIBOOK, in the same book). *)
Theorem C15_is_adjacent : forall e a b fl, wf_data (ed e) -> wf_range (ed e) true a -> wf_range (ed e) true b ->
  exists t, is_adjacent e a b fl = Ok t /\ (t = true <-> joins e fl a b \/ joins e fl b a).
Proof. intros e a b fl Hwf. exact (adjacent_spec e Hwf a b fl). Qed.
(** [joins] means: disjoint, in this order, with no verse in between. *)
Theorem C15_no_verse_between_partial : forall e fl a b, wf_data (ed e) -> wf_range (ed e) true a ->
  wf_range (ed e) (track0 e fl (rend a)) b ->
  (joins e fl a b <-> vlt (ed e) (rend a) (rstart b) /\
    (forall v, InB (ed e) (track0 e fl (rend a)) v -> vlt (ed e) (rend a) v -> vle (ed e) (rstart b) v) /\
    (multi_on e fl = true \/ vbook (rend a) = vbook (rstart b))).
Proof.
  intros e fl a b Hwf Ha Hb. set (z := track0 e fl (rend a)) in *. unfold joins. fold z.
  assert (HaB : InB (ed e) z (rend a)) by (apply (track0_InB e); apply Ha).
  assert (HbB : InB (ed e) z (rstart b)) by apply Hb.
  pose proof (InB_mono e _ _ HaB) as HaT. pose proof (InB_mono e _ _ HbB) as HbT.
  rewrite (vlt_pos e Hwf). split.
  - intros [Hf Hm]. pose proof (succ_split e Hwf z _ _ (rend a) Hf HaB) as [_ Hlt].
    split; [auto|]. split; [|exact Hm]. intros v Hv Hav. apply (vlt_pos e Hwf) in Hav. apply (vle_pos e Hwf).
    destruct Hav as (_ & HvT & Hav). pose proof (succ_split e Hwf z _ _ v Hf Hv) as [Hs _].
    repeat split; auto. lia.
  - intros (H1 & H2 & Hm). split; [|exact Hm]. destruct H1 as (_ & _ & H1).
    apply (InB_pos e) in HaB. destruct HaB as [i Hi]. apply (InB_pos e) in HbB. destruct HbB as [j Hj].
    exists i. split; [exact Hi|].
    assert (Hij : (i < j)%nat) by now apply (bible_mono_nth e Hwf z i j (rend a) (rstart b)).
    destruct (nth_error (bible_verses (ed e) z) (S i)) as [w|] eqn:Hw.
    2:{ apply nth_error_None in Hw. unfold at_pos in Hj. assert (nth_error (bible_verses (ed e) z) j <> None) by congruence.
        apply nth_error_Some in H. lia. }
    assert (Hwz : InB (ed e) z w) by (eapply nth_error_In; eauto).
    assert (Hlt : PRange.pos e (rend a) < PRange.pos e w) by (apply (bible_mono_nth e Hwf z i (S i)); auto).
    assert (Hle : vle (ed e) (rstart b) w).
    { apply H2; auto. apply (vlt_pos e Hwf). repeat split; auto. now apply (InB_mono e z). }
    apply (vle_pos e Hwf) in Hle. destruct Hle as (_ & HwT & Hle).
    assert (PRange.pos e w <= PRange.pos e (rstart b)).
    { apply Z.nlt_ge. intros Hc. apply (bible_mono_nth e Hwf z j (S i)) in Hc; auto. lia. }
    unfold at_pos. rewrite Hw. f_equal. apply (pos_eq e); auto. lia.
Qed.
(** The full claim (adjacent exactly if disjoint and no verse lies between) is false: without MULTIBOOK the end of a book
    is not adjacent to the next book, and a verse 0 is passed over when verse 0s are off. *)
Lemma apart_nothing : forall d a b i, NoDup (bible_verses d true) -> at_pos (bible_verses d true) i a -> at_pos (bible_verses d true) (S i) b ->
  vlt d a b /\ ~ exists v, vlt d a v /\ vlt d v b.
Proof.
  intros d a b i N Ha Hb.
  assert (U : forall k l v, at_pos (bible_verses d true) k v -> at_pos (bible_verses d true) l v -> k = l).
  { intros k l v Hk Hl. apply (proj1 (NoDup_nth_error _) N); [apply nth_error_Some|]; unfold at_pos in *; congruence. }
  split; [exists i, (S i); auto|]. intros (v & (i1 & k & A & B & C) & (k2 & j & D & E & F)).
  pose proof (U _ _ _ A Ha). pose proof (U _ _ _ D B). pose proof (U _ _ _ E Hb). lia.
Qed.
Theorem C15_is_adjacent_refuted : 
  (exists a b, wf_range default_data true a /\ wf_range default_data true b /\ vbook (rend a) <> vbook (rstart b) /\
     vlt default_data (rend a) (rstart b) /\ (~ exists v, vlt default_data (rend a) v /\ vlt default_data v (rstart b)) /\
     is_adjacent (denv NONE) a b None = Ok false) /\
  (exists a b, wf_range default_data true a /\ wf_range default_data true b /\ vbook (rend a) = vbook (rstart b) /\
     vlt default_data (rend a) (rstart b) /\ (~ exists v, vlt default_data (rend a) v /\ vlt default_data v (rstart b)) /\
     is_adjacent (denv NONE) a b None = Ok false).
Proof.
  split.
  - exists (R (V Gen 50 26) (V Gen 50 26)), (R (V Exod 1 1) (V Exod 1 1)). split; [wf_range|]. split; [wf_range|]. split; [discriminate|].
    destruct (apart_nothing default_data (V Gen 50 26) (V Exod 1 1) 1532 (bible_nodup (denv NONE) default_wf true)) as (A & B); [vm_compute; reflexivity|vm_compute; reflexivity|].
    split; [exact A|]. split; [exact B|]. vm_compute. reflexivity.
  - exists (R (V Psa 2 12) (V Psa 2 12)), (R (V Psa 3 0) (V Psa 3 0)). split; [wf_range|]. split; [wf_range|]. split; [reflexivity|].
    destruct (apart_nothing default_data (V Psa 2 12) (V Psa 3 0) (N.to_nat 13957) (bible_nodup (denv NONE) default_wf true)) as (A & B); [vm_compute; reflexivity|vm_compute; reflexivity|].
    split; [exact A|]. split; [exact B|]. vm_compute. reflexivity.
Qed.
(** The order of ranges: by start, then by end. *)
Theorem C15_order : forall e a b, wf_data (ed e) -> wf_range (ed e) true a -> wf_range (ed e) true b ->
  (rltb e a b = true <-> vlt (ed e) (rstart a) (rstart b) \/
     (rstart a = rstart b /\ vlt (ed e) (rend a) (rend b))) /\
  (range_eqb a b = true <-> a = b) /\ (rleb e a b = true <-> rltb e a b = true \/ a = b).
Proof.
  intros e a b Hwf Ha Hb. pose proof (rltb_pos e Hwf a b Ha Hb) as H1. pose proof (rltb_pos e Hwf b a Hb Ha) as H2.
  apply (wf_range_pos e Hwf) in Ha, Hb. destruct Ha as (Ha1 & Ha2 & Ha3), Hb as (Hb1 & Hb2 & Hb3).
  assert (Hlt : rltb e a b = true <-> vlt (ed e) (rstart a) (rstart b) \/
     (rstart a = rstart b /\ vlt (ed e) (rend a) (rend b))).
  { rewrite H1, orb_true_iff, andb_true_iff, !Z.ltb_lt, Z.eqb_eq, !(vlt_pos e Hwf). split.
    - intros [H|[H H']]; [left; auto|right]. split; auto. now apply (pos_eq e).
    - intros [H|[H H']]; [left; tauto|right]. split; [congruence|tauto]. }
  split; [exact Hlt|]. split; [apply range_eqb_eq|].
  unfold rleb. rewrite H1, H2, negb_true_iff, orb_false_iff, andb_false_iff, orb_true_iff, andb_true_iff.
  rewrite !Z.ltb_lt, !Z.ltb_ge, Z.eqb_neq, Z.eqb_eq. split.
  - intros [H [H'|H']]; [left; lia|].
    destruct (Z.eq_dec (PRange.pos e (rstart a)) (PRange.pos e (rstart b))) as [E|E]; [|left; lia].
    destruct (Z.eq_dec (PRange.pos e (rend a)) (PRange.pos e (rend b))) as [E'|E']; [|left; lia].
    right. apply (pos_eq e) in E, E'; auto. destruct a, b; cbn in *; congruence.
  - intros [H| ->]; lia.
Qed.

Example C15_ex : let e := denv NONE in
  let a := R (V Gen 1 2) (V Gen 1 31) in let b := R (V Gen 2 1) (V Gen 3 1) in
  wf_range default_data true a /\ wf_range default_data true b /\
  is_disjoint e a b = true /\ is_adjacent e a b None = Ok true /\ is_adjacent e b a None = Ok true /\
  is_adjacent e (R (V Gen 50 26) (V Gen 50 26)) (R (V Exod 1 1) (V Exod 1 1)) None = Ok false /\
  is_adjacent e (R (V Gen 50 26) (V Gen 50 26)) (R (V Exod 1 1) (V Exod 1 1)) (Some MULTIBOOK) = Ok true /\
  contains e a (R (V Gen 1 2) (V Gen 1 3)) = true /\ surrounds e a (R (V Gen 1 2) (V Gen 1 3)) = false /\
  surrounds e a (R (V Gen 1 3) (V Gen 1 3)) = true /\ rltb e a b = true.
Proof. cbv zeta. split; [wf_range|]. split; [wf_range|]. vm_compute. auto 10. Qed.

(** ** C16 *)
Definition C16_statement : Prop := forall e a b fl, wf_data (ed e) -> wf_range (ed e) true a -> wf_range (ed e) true b ->
  exists l, union e a b fl = Ok l /\
    forall v, InB (ed e) (zero_on e fl) v -> (InL (ed e) v l <-> InR (ed e) v a \/ InR (ed e) v b).
(** The verses are right whenever a result is returned. *)
Theorem C16_union_verses : forall e a b fl l v, wf_data (ed e) -> wf_range (ed e) true a -> wf_range (ed e) true b ->
  union e a b fl = Ok l -> InB (ed e) (zero_on e fl) v ->
  (InL (ed e) v l <-> InR (ed e) v a \/ InR (ed e) v b).
Proof. intros e a b fl l v Hwf. exact (union_sound e Hwf a b fl l v). Qed.
(** One range when they overlap or are adjacent ... *)
Theorem C16_union_joined_partial : forall e a b h fl, wf_data (ed e) -> wf_range (ed e) true a -> wf_range (ed e) true b ->
  touching e fl a b -> hull_of (ed e) a b h ->
  multi_on e fl = true \/ vbook (rstart h) = vbook (rend h) -> union e a b fl = Ok [h].
Proof. intros e a b h fl Hwf. exact (union_touching e Hwf a b h fl). Qed.
(** ... which always exists and is legal ... *)
Theorem C16_hull : forall e a b z, wf_data (ed e) -> wf_range (ed e) z a -> wf_range (ed e) z b ->
  exists h, hull_of (ed e) a b h /\ wf_range (ed e) z h.
Proof.
  intros e a b z Hwf Ha Hb. exists (hull e a b). split; [|now apply hull_wf].
  apply hull_of_hull; auto; eapply (wf_range_mono e); eauto.
Qed.
(** ... else both in order. *)
Theorem C16_union_apart : forall e a b fl, wf_data (ed e) -> wf_range (ed e) true a -> wf_range (ed e) true b ->
  ~ touching e fl a b ->
  (vlt (ed e) (rstart a) (rstart b) -> union e a b fl = Ok [a; b]) /\
  (vlt (ed e) (rstart b) (rstart a) -> union e a b fl = Ok [b; a]) /\
  (vlt (ed e) (rstart a) (rstart b) \/ vlt (ed e) (rstart b) (rstart a)).
Proof. intros e a b fl Hwf. exact (union_apart e Hwf a b fl). Qed.
(** The only failure: a joined range over several books without MULTIBOOK. *)
Theorem C16_union_fails : forall e a b h fl, wf_data (ed e) -> wf_range (ed e) true a -> wf_range (ed e) true b ->
  touching e fl a b -> hull_of (ed e) a b h ->
  multi_on e fl = false -> vbook (rstart h) <> vbook (rend h) -> union e a b fl = Err Multibook.
Proof. intros e a b h fl Hwf. exact (union_touching_multibook e Hwf a b h fl). Qed.
Theorem C16_never_fails_refuted : exists e a b fl, wf_data (ed e) /\ wf_range (ed e) (verse0 (eg e)) a /\
  wf_range (ed e) (verse0 (eg e)) b /\ union e a b fl = Err Multibook.
Proof.
  exists (denv NONE), (R (V Gen 50 25) (V Exod 1 2)), (R (V Exod 1 2) (V Exod 1 5)), None.
  split; [exact default_wf|]. split; [wf_range|]. split; [wf_range|]. vm_compute. reflexivity.
Qed.

Example C16_ex : let e := denv NONE in
  let a := R (V Gen 1 2) (V Gen 1 31) in let b := R (V Gen 2 1) (V Gen 3 1) in
  wf_range default_data true a /\ wf_range default_data true b /\
  union e b a None = Ok [R (V Gen 1 2) (V Gen 3 1)] /\
  union e (R (V Gen 2 2) (V Gen 3 1)) a None = Ok [a; R (V Gen 2 2) (V Gen 3 1)].
Proof. cbv zeta. split; [wf_range|]. split; [wf_range|]. vm_compute. auto. Qed.

(** ** C17 *)
Definition C17_statement : Prop := forall e a b fl, wf_data (ed e) -> wf_range (ed e) true a -> wf_range (ed e) true b ->
  exists l, intersection e a b fl = Ok l /\ forall v, (InL (ed e) v l <-> InR (ed e) v a /\ InR (ed e) v b).
Theorem C17_intersection_verses : forall e a b fl l v, wf_data (ed e) -> wf_range (ed e) true a -> wf_range (ed e) true b ->
  intersection e a b fl = Ok l -> (InL (ed e) v l <-> InR (ed e) v a /\ InR (ed e) v b).
Proof. intros e a b fl l v Hwf. exact (intersection_sound e Hwf a b fl l v). Qed.
Theorem C17_intersection_overlap_partial : forall e a b m fl, wf_data (ed e) -> wf_range (ed e) true a -> wf_range (ed e) true b ->
  overlap (ed e) a b -> meet_of (ed e) a b m ->
  multi_on e fl = true \/ vbook (rstart m) = vbook (rend m) -> intersection e a b fl = Ok [m].
Proof. intros e a b m fl Hwf. exact (intersection_overlap e Hwf a b m fl). Qed.
Theorem C17_meet : forall e a b z, wf_data (ed e) -> wf_range (ed e) z a -> wf_range (ed e) z b ->
  overlap (ed e) a b -> exists m, meet_of (ed e) a b m /\ wf_range (ed e) z m.
Proof.
  intros e a b z Hwf Ha Hb Ho. exists (meet e a b). split; [|now apply meet_wf].
  apply meet_of_meet; auto; eapply (wf_range_mono e); eauto.
Qed.
Theorem C17_intersection_apart : forall e a b fl, wf_data (ed e) -> wf_range (ed e) true a -> wf_range (ed e) true b ->
  ~ overlap (ed e) a b -> intersection e a b fl = Ok [].
Proof. intros e a b fl Hwf. exact (intersection_apart e Hwf a b fl). Qed.
Theorem C17_intersection_fails : forall e a b m fl, wf_data (ed e) -> wf_range (ed e) true a -> wf_range (ed e) true b ->
  overlap (ed e) a b -> meet_of (ed e) a b m ->
  multi_on e fl = false -> vbook (rstart m) <> vbook (rend m) -> intersection e a b fl = Err Multibook.
Proof. intros e a b m fl Hwf. exact (intersection_overlap_multibook e Hwf a b m fl). Qed.
Theorem C17_never_fails_refuted : exists e a b fl, wf_data (ed e) /\ wf_range (ed e) (verse0 (eg e)) a /\
  wf_range (ed e) (verse0 (eg e)) b /\ intersection e a b fl = Err Multibook.
Proof.
  exists (denv NONE), (R (V Gen 50 25) (V Exod 1 2)), (R (V Gen 50 25) (V Exod 1 2)), None.
  split; [exact default_wf|]. split; [wf_range|]. split; [wf_range|]. vm_compute. reflexivity.
Qed.

Example C17_ex : let e := denv NONE in
  let a := R (V Gen 1 2) (V Gen 2 5) in let b := R (V Gen 2 1) (V Gen 3 1) in
  wf_range default_data true a /\ wf_range default_data true b /\
  intersection e b a None = Ok [R (V Gen 2 1) (V Gen 2 5)] /\
  intersection e b (R (V Gen 1 1) (V Gen 1 31)) None = Ok [].
Proof. cbv zeta. split; [wf_range|]. split; [wf_range|]. vm_compute. auto. Qed.

(** ** C18 *)
Definition C18_statement : Prop := forall e a b fl, wf_data (ed e) ->
  wf_range (ed e) true a -> wf_range (ed e) true b ->
  exists l, difference e a b fl = Ok l /\
    forall v, InB (ed e) (zero_on e fl) v -> (InL (ed e) v l <-> InR (ed e) v a /\ ~ InR (ed e) v b).
(** The verses are right whenever a result is returned, for ranges legal under the flags of the call, if the
    global flags agree about verse 0s. *)
Theorem C18_difference_verses_partial : forall e a b fl l v, wf_data (ed e) ->
  zero_on e fl = verse0 (eg e) ->
  wf_range (ed e) (zero_on e fl) a -> wf_range (ed e) (zero_on e fl) b ->
  difference e a b fl = Ok l -> InB (ed e) (zero_on e fl) v ->
  (InL (ed e) v l <-> InR (ed e) v a /\ ~ InR (ed e) v b).
Proof. intros e a b fl l v Hwf. exact (difference_sound e Hwf a b fl l v). Qed.
Theorem C18_disjoint : forall e a b fl, wf_data (ed e) -> wf_range (ed e) true a -> wf_range (ed e) true b ->
  ~ overlap (ed e) a b -> difference e a b fl = Ok [a].
Proof. intros e a b fl Hwf. exact (difference_disjoint e Hwf a b fl). Qed.
Theorem C18_covered : forall e a b fl, wf_data (ed e) -> wf_range (ed e) true a -> wf_range (ed e) true b ->
  (forall v, InR (ed e) v a -> InR (ed e) v b) -> difference e a b fl = Ok [].
Proof. intros e a b fl Hwf. exact (difference_covered e Hwf a b fl). Qed.
(** The remaining case, with [p] directly before and [q] directly after [b]. *)
Theorem C18_parts_partial : forall e a b fl p q, wf_data (ed e) ->
  zero_on e fl = verse0 (eg e) ->
  wf_range (ed e) (zero_on e fl) a -> wf_range (ed e) (zero_on e fl) b ->
  overlap (ed e) a b -> ~ (forall v, InR (ed e) v a -> InR (ed e) v b) ->
  follows (ed e) (zero_on e fl) p (rstart b) -> follows (ed e) (zero_on e fl) (rend b) q ->
  (multi_on e fl = true /\ multibook (eg e) = true \/
   vbook p = vbook (rstart b) /\ vbook q = vbook (rend b) /\ vbook (rstart a) = vbook p /\ vbook (rend a) = vbook q) ->
  exists lo hi, difference e a b fl = Ok (lo ++ hi) /\
    (vlt (ed e) (rstart a) (rstart b) -> lo = [R (rstart a) p]) /\
    (vle (ed e) (rstart b) (rstart a) -> lo = []) /\
    (vlt (ed e) (rend b) (rend a) -> hi = [R q (rend a)]) /\
    (vle (ed e) (rend a) (rend b) -> hi = []).
Proof. intros e a b fl p q Hwf. exact (difference_parts e Hwf a b fl p q). Qed.
(** It fails whenever no verse comes before [b] (in the book, without MULTIBOOK) ... *)
Theorem C18_nothing_before_fails : forall e a b fl, wf_data (ed e) ->
  zero_on e fl = verse0 (eg e) ->
  wf_range (ed e) (zero_on e fl) a -> wf_range (ed e) (zero_on e fl) b ->
  overlap (ed e) a b -> ~ (forall v, InR (ed e) v a -> InR (ed e) v b) ->
  (forall p, follows (ed e) (zero_on e fl) p (rstart b) -> multi_on e fl = false /\ vbook p <> vbook (rstart b)) ->
  difference e a b fl = Err (if multibook (eg e) then TypeErr else AttrErr).
Proof. intros e a b fl Hwf. exact (difference_no_lower e Hwf a b fl). Qed.
(** ... or after it. *)
Theorem C18_nothing_after_fails : forall e a b fl p, wf_data (ed e) ->
  zero_on e fl = verse0 (eg e) ->
  wf_range (ed e) (zero_on e fl) a -> wf_range (ed e) (zero_on e fl) b ->
  overlap (ed e) a b -> ~ (forall v, InR (ed e) v a -> InR (ed e) v b) ->
  follows (ed e) (zero_on e fl) p (rstart b) ->
  (multi_on e fl = true /\ multibook (eg e) = true \/ vbook p = vbook (rstart b) /\ vbook (rstart a) = vbook p) ->
  (forall q, follows (ed e) (zero_on e fl) (rend b) q -> multi_on e fl = false /\ vbook q <> vbook (rend b)) ->
  difference e a b fl = Err (if multibook (eg e) then TypeErr else AttrErr).
Proof. intros e a b fl p Hwf. exact (difference_no_upper e Hwf a b fl p). Qed.
(** Gen 1 - Gen 1:1-5 raises AttributeError. *)
Theorem C18_never_raises_refuted : exists e a b fl, wf_data (ed e) /\ wf_range (ed e) (verse0 (eg e)) a /\
  wf_range (ed e) (verse0 (eg e)) b /\ difference e a b fl = Err AttrErr.
Proof.
  exists (denv NONE), (R (V Gen 1 1) (V Gen 1 31)), (R (V Gen 1 1) (V Gen 1 5)), None.
  split; [exact default_wf|]. split; [wf_range|]. split; [wf_range|]. vm_compute. reflexivity.
Qed.
(** Psalm 4:0-3 minus Psalm 4:1 contains Psalm 3:8 (global flags NONE). *)
Theorem C18_verses_refuted : exists e a b fl l v, wf_data (ed e) /\ wf_range (ed e) true a /\ wf_range (ed e) true b /\
  difference e a b fl = Ok l /\ InB (ed e) (zero_on e fl) v /\ InL (ed e) v l /\ ~ InR (ed e) v a.
Proof.
  exists (denv NONE), (R (V Psa 4 0) (V Psa 4 3)), (R (V Psa 4 1) (V Psa 4 1)), None.
  exists [R (V Psa 3 8) (V Psa 4 0); R (V Psa 4 2) (V Psa 4 3)], (V Psa 3 8).
  split; [exact default_wf|]. split; [wf_range|]. split; [wf_range|]. split; [vm_compute; reflexivity|].
  split; [in_bible|]. split.
  - exists (R (V Psa 3 8) (V Psa 4 0)). split; [now left|].
    split; apply (vle_iff (denv NONE) default_wf); (split; [in_bible|split; [in_bible|vm_compute; reflexivity]]).
  - intros [H _]. apply (vle_iff (denv NONE) default_wf) in H. destruct H as (_ & _ & H). vm_compute in H. discriminate.
Qed.

Example C18_ex : let e := denv NONE in
  let a := R (V Gen 1 2) (V Gen 2 5) in let b := R (V Gen 2 1) (V Gen 2 3) in
  wf_range default_data false a /\ wf_range default_data false b /\
  difference e a b None = Ok [R (V Gen 1 2) (V Gen 1 31); R (V Gen 2 4) (V Gen 2 5)] /\
  difference e b a None = Ok [] /\
  difference e a (R (V Gen 2 1) (V Gen 2 9)) None = Ok [R (V Gen 1 2) (V Gen 1 31)] /\
  difference (denv MULTIBOOK) (R (V Exod 1 1) (V Exod 1 5)) (R (V Exod 1 1) (V Exod 1 2)) None = Ok [R (V Exod 1 3) (V Exod 1 5)].
Proof. cbv zeta. split; [wf_range|]. split; [wf_range|]. vm_compute. auto. Qed.

(** ** C19 *)
Definition C19_statement : Prop := forall e a b fl, wf_data (ed e) ->
  wf_range (ed e) true a -> wf_range (ed e) true b ->
  exists l, sym_difference e a b fl = Ok l /\
    forall v, InB (ed e) (zero_on e fl) v ->
      (InL (ed e) v l <-> (InR (ed e) v a /\ ~ InR (ed e) v b) \/ (InR (ed e) v b /\ ~ InR (ed e) v a)).
Theorem C19_sym_difference_verses_partial : forall e a b fl l v, wf_data (ed e) ->
  zero_on e fl = verse0 (eg e) ->
  wf_range (ed e) (zero_on e fl) a -> wf_range (ed e) (zero_on e fl) b ->
  sym_difference e a b fl = Ok l -> InB (ed e) (zero_on e fl) v ->
  (InL (ed e) v l <-> (InR (ed e) v a /\ ~ InR (ed e) v b) \/ (InR (ed e) v b /\ ~ InR (ed e) v a)).
Proof. intros e a b fl l v Hwf. exact (sym_difference_sound e Hwf a b fl l v). Qed.
Theorem C19_equal : forall e a fl, sym_difference e a a fl = Ok [].
Proof. exact sym_difference_equal. Qed.
Theorem C19_disjoint : forall e a b fl, wf_data (ed e) -> wf_range (ed e) true a -> wf_range (ed e) true b ->
  ~ overlap (ed e) a b -> sym_difference e a b fl = union e a b fl.
Proof. intros e a b fl Hwf. exact (sym_difference_apart e Hwf a b fl). Qed.
(** Otherwise it is the hull minus the common part, and fails exactly when that difference does. *)
Theorem C19_overlap : forall e a b h m fl, wf_data (ed e) -> wf_range (ed e) true a -> wf_range (ed e) true b ->
  overlap (ed e) a b -> a <> b -> hull_of (ed e) a b h -> meet_of (ed e) a b m ->
  multi_on e fl = true \/ vbook (rstart h) = vbook (rend h) ->
  sym_difference e a b fl = difference e h m None.
Proof. intros e a b h m fl Hwf. exact (sym_difference_overlap e Hwf a b h m fl). Qed.
Theorem C19_never_raises_refuted : exists e a b fl, wf_data (ed e) /\ wf_range (ed e) (verse0 (eg e)) a /\
  wf_range (ed e) (verse0 (eg e)) b /\ sym_difference e a b fl = Err AttrErr.
Proof.
  exists (denv NONE), (R (V Gen 1 1) (V Gen 1 31)), (R (V Gen 1 1) (V Gen 1 5)), None.
  split; [exact default_wf|]. split; [wf_range|]. split; [wf_range|]. vm_compute. reflexivity.
Qed.

Example C19_ex : let e := denv NONE in
  let a := R (V Gen 1 2) (V Gen 2 5) in let b := R (V Gen 2 1) (V Gen 3 1) in
  wf_range default_data false a /\ wf_range default_data false b /\
  sym_difference e a b None = Ok [R (V Gen 1 2) (V Gen 1 31); R (V Gen 2 6) (V Gen 3 1)] /\
  sym_difference e a a None = Ok [] /\
  sym_difference e a (R (V Gen 2 6) (V Gen 3 1)) None = Ok [R (V Gen 1 2) (V Gen 3 1)].
Proof. cbv zeta. split; [wf_range|]. split; [wf_range|]. vm_compute. auto. Qed.
