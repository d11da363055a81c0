(** * PSplit: iteration, splitting and counting of ranges. *)
From Coq Require Import List ZArith Bool Lia Sorted.
From Verif Require Import Base Books Data MVerse MRange Spec PList PCore PNav PVerse PRange PSetOps PRuns.
Import ListNotations.
Open Scope Z_scope.

Section Split.
Variable e : env.
Notation d := (ed e).
Hypothesis Hwf : wf_data d.
Notation pos := (pos e).

(** ** Segments of the Bible *)
Definition seg (z : bool) (l : list verse) : Prop := exists l1 l3, bible_verses d z = l1 ++ l ++ l3.

Lemma seg_in : forall z l v, seg z l -> In v l -> InB d z v.
Proof. intros z l v [l1 [l3 H]] Hv. unfold InB. rewrite H. rewrite !in_app_iff. auto. Qed.
Lemma seg_in_true : forall z l v, seg z l -> In v l -> InB d true v.
Proof. intros z l v H Hv. apply (InB_mono e z). eapply seg_in; eauto. Qed.
Lemma seg_app : forall z la lb, seg z (la ++ lb) -> seg z la /\ seg z lb.
Proof.
  intros z la lb [l1 [l3 H]]. split.
  - exists l1, (lb ++ l3). rewrite H. now rewrite <- app_assoc.
  - exists (l1 ++ la), l3. rewrite H. now rewrite <- !app_assoc.
Qed.
Lemma seg_sorted : forall z l, seg z l -> StronglySorted (vltP e) l.
Proof.
  intros z l [l1 [l3 H]]. pose proof (bible_verses_sorted e Hwf z) as Hs. rewrite H in Hs.
  apply sorted_app_inv in Hs. destruct Hs as [_ [Hs _]]. now apply sorted_app_inv in Hs.
Qed.
Lemma seg_lt : forall z la lb a b, seg z (la ++ lb) -> In a la -> In b lb -> pos a < pos b.
Proof.
  intros z la lb a b H Ha Hb. pose proof (seg_sorted z _ H) as Hs. apply sorted_app_inv in Hs.
  destruct Hs as [_ [_ Hs]]. apply (vltb_lt e Hwf); [| |apply Hs; assumption];
    eapply seg_in_true; eauto; apply in_or_app; auto.
Qed.
Lemma seg_follows : forall z la a b lb, seg z (la ++ a :: b :: lb) -> follows d z a b.
Proof.
  intros z la a b lb [l1 [l3 H]]. exists (length l1 + length la)%nat. unfold at_pos. rewrite H.
  split; rewrite nth_error_app2 by lia; rewrite <- app_assoc; rewrite nth_error_app2 by lia.
  - replace (length l1 + length la - length l1 - length la)%nat with 0%nat by lia. reflexivity.
  - replace (S (length l1 + length la) - length l1 - length la)%nat with 1%nat by lia. reflexivity.
Qed.
Lemma hd_rev_in : forall {A} (l : list A) x, hd_error (rev l) = Some x -> exists l', l = l' ++ [x].
Proof.
  intros A l x H. destruct l as [|y l _] using rev_ind; [discriminate|]. rewrite rev_app_distr in H.
  injection H as ->. eauto.
Qed.
Lemma hd_in : forall {A} (l : list A) x, hd_error l = Some x -> exists l', l = x :: l'.
Proof. intros A [|y l] x H; [discriminate|]. injection H as ->. eauto. Qed.

(** In a segment from [s] to [t] are exactly the verses between [s] and [t]. *)
Lemma seg_between : forall z l s t v, seg z l -> hd_error l = Some s -> hd_error (rev l) = Some t ->
  InB d z v -> (In v l <-> pos s <= pos v <= pos t).
Proof.
  intros z l s t v Hs Hh Ht Hv. pose proof (InB_mono e _ _ Hv) as Hv'.
  destruct (hd_in _ _ Hh) as [lh Eh]. destruct (hd_rev_in _ _ Ht) as [lt Et]. split.
  - intros Hin. split.
    + subst l. destruct Hin as [<-|Hin]; [lia|]. 
      pose proof (seg_lt z [s] lh s v Hs (or_introl eq_refl) Hin). lia.
    + rewrite Et in Hin. apply in_app_or in Hin. destruct Hin as [Hin|[<-|[]]]; [|lia].
      rewrite Et in Hs. pose proof (seg_lt z lt [t] v t Hs Hin (or_introl eq_refl)). lia.
  - intros Hp. destruct Hs as [l1 [l3 H]]. unfold InB in Hv. rewrite H in Hv.
    pose proof (bible_verses_sorted e Hwf z) as Hso. rewrite H in Hso.
    assert (Hall : forall x, In x (l1 ++ l ++ l3) -> InB d true x).
    { intros x Hx. rewrite <- H in Hx. now apply (InB_mono e z). }
    apply in_app_or in Hv. destruct Hv as [Hv|Hv].
    { exfalso. apply sorted_app_inv in Hso. destruct Hso as [_ [_ Hso]].
      assert (vltP e v s) by (apply Hso; auto; rewrite Eh; simpl; auto).
      apply (vltb_lt e Hwf) in H0; auto; [lia|]. apply Hall. rewrite Eh. apply in_elt. }
    apply in_app_or in Hv. destruct Hv as [Hv|Hv]; [assumption|].
    exfalso. apply sorted_app_inv in Hso. destruct Hso as [_ [Hso _]].
    apply sorted_app_inv in Hso. destruct Hso as [_ [_ Hso]].
    assert (Hlt : In t l) by (rewrite Et; apply in_or_app; simpl; auto).
    assert (vltP e t v) by (apply Hso; auto).
    apply (vltb_lt e Hwf) in H0; auto; [lia|]. apply Hall. rewrite !in_app_iff. auto.
Qed.

Lemma verses_of_seg : forall z r l, verses_of d z r l -> seg z l.
Proof. intros z r l [H _]. exact H. Qed.
Lemma verses_of_In : forall z r l v, verses_of d z r l -> (In v l <-> InB d z v /\ InR d v r).
Proof.
  intros z r l v [Hs [Hh Ht]].
  assert (H1 : In (rstart r) l) by (destruct (hd_in _ _ Hh) as [x ->]; simpl; auto).
  assert (H2 : In (rend r) l) by (destruct (hd_rev_in _ _ Ht) as [x ->]; apply in_or_app; simpl; auto).
  rewrite (InR_pos e Hwf). split.
  - intros Hv. pose proof (seg_in z l v Hs Hv) as Hz. split; [assumption|].
    pose proof (proj1 (seg_between z l _ _ v Hs Hh Ht Hz) Hv).
    repeat split; try lia; eapply seg_in_true; eauto.
  - intros [Hz [_ [_ [_ Hp]]]]. now apply (seg_between z l _ _ v Hs Hh Ht).
Qed.

Lemma verses_of_wf : forall z r l, verses_of d z r l -> wf_range d z r.
Proof.
  intros z r l [Hs [Hh Ht]].
  assert (H1 : In (rstart r) l) by (destruct (hd_in _ _ Hh) as [x ->]; simpl; auto).
  assert (H2 : In (rend r) l) by (destruct (hd_rev_in _ _ Ht) as [x ->]; apply in_or_app; simpl; auto).
  apply (wf_range_pos e Hwf). pose proof (seg_in z l _ Hs H1). pose proof (seg_in z l _ Hs H2).
  split; [assumption|]. split; [assumption|].
  pose proof (proj1 (seg_between z l _ _ (rend r) Hs Hh Ht H0) H2). lia.
Qed.

Lemma verses_of_exists : forall z r, wf_range d z r -> exists l, verses_of d z r l.
Proof.
  intros z r H. apply (wf_range_pos e Hwf) in H. destruct H as [Hs [Ht Hp]].
  apply in_split in Hs. destruct Hs as [l1 [l2 H]].
  unfold InB in Ht. 
  assert (Hin : In (rend r) (rstart r :: l2)).
  { rewrite H in Ht. apply in_app_or in Ht. destruct Ht as [Ht|Ht]; [|assumption]. exfalso.
    assert (Hseg : seg z (l1 ++ rstart r :: l2)) by (exists [], []; rewrite H; now rewrite app_nil_r).
    pose proof (seg_lt z l1 (rstart r :: l2) _ _ Hseg Ht (or_introl eq_refl)). lia. }
  apply in_split in Hin. destruct Hin as [m1 [m2 Hm]].
  exists (m1 ++ [rend r]). split; [|split].
  - exists l1, m2. rewrite H, Hm. now rewrite <- !app_assoc.
  - destruct m1; simpl in *; congruence.
  - now rewrite rev_app_distr.
Qed.

Lemma verses_of_fun : forall z r l l', verses_of d z r l -> verses_of d z r l' -> l = l'.
Proof.
  intros z r l l' H H'. apply (sorted_ext (vltP e)).
  - intros x Hx. unfold vltP in Hx. rewrite vltb_irrefl in Hx. discriminate.
  - intros x y w. unfold vltP. apply vltb_trans.
  - apply (seg_sorted z). eapply verses_of_seg; eauto.
  - apply (seg_sorted z). eapply verses_of_seg; eauto.
  - intros v. rewrite (verses_of_In z r l v H), (verses_of_In z r l' v H'). tauto.
Qed.

(** ** Iteration (C10) *)
Lemma add_1_seg : forall z f la a b lb, seg z (la ++ a :: b :: lb) -> track0 e (Some f) a = z ->
  multi_on e (Some f) = true \/ vbook b = vbook a -> add e a 1 (Some f) = Ok (Some b).
Proof.
  intros z f la a b lb Hs Hz Hm. pose proof (seg_follows _ _ _ _ _ Hs) as Hf.
  destruct (succ_in e _ _ _ Hf) as [Ha Hb]. apply (InB_mono e) in Ha.
  destruct (add_1 e Hwf a (Some f) Ha) as [o [Ho H]]. rewrite Ho, Hz in *. destruct o as [w|].
  - destruct H as [H _]. do 2 f_equal. eapply succ_fun; eauto.
  - destruct (H b Hf). destruct Hm; congruence.
Qed.

Lemma iter_loop_seg : forall fuel v l l1 l3 stop, bible_verses d false = l1 ++ (v :: l) ++ l3 ->
  InB d true stop -> (length (v :: l) <= fuel)%nat ->
  (forall x, In x (v :: l) -> pos x <= pos stop) -> (forall x, In x l3 -> pos stop < pos x) ->
  iter_loop e fuel (Some v) stop = Ok (v :: l).
Proof.
  induction fuel as [|n IH]; intros v l l1 l3 stop H Hstop Hf Hle Hgt; [simpl in Hf; lia|].
  assert (Hall : forall x, In x (l1 ++ (v :: l) ++ l3) -> InB d false x) by (intros x Hx; rewrite <- H in Hx; exact Hx).
  assert (Hv : InB d false v) by (apply Hall; rewrite !in_app_iff; simpl; auto).
  assert (Hv' : InB d true v) by now apply (InB_mono e) in Hv.
  cbn [iter_loop]. rewrite (vleb_pos_eq e Hwf) by assumption.
  destruct (Z.leb_spec (pos v) (pos stop)) as [_|Hbad]; [|pose proof (Hle v (or_introl eq_refl)); lia].
  assert (Ht : track0 e (Some MULTIBOOK) v = false).
  { unfold track0, zero_on. simpl. apply (InB_legal e) in Hv. destruct Hv as [_ Hv].
    unfold first_num in Hv. simpl in Hv. apply Z.eqb_neq. lia. }
  destruct l as [|w l].
  - destruct l3 as [|w l3].
    + destruct (add_1 e Hwf v (Some MULTIBOOK) Hv') as [o [Ho Hw]]. rewrite Ho. destruct o as [w|].
      * exfalso. rewrite Ht in Hw. destruct Hw as [[i [Hi Hi']] _]. unfold at_pos in *.
        assert (i = length l1).
        { apply (pos_inj e Hwf false _ _ v Hi). unfold at_pos. rewrite H, nth_error_app2 by lia.
          now rewrite Nat.sub_diag. }
        subst i. assert (S (length l1) < length (bible_verses d false))%nat by (apply nth_error_Some; congruence).
        rewrite H, !app_length in H0. simpl in H0. lia.
      * cbn [bind]. destruct n; reflexivity.
    + rewrite (add_1_seg false MULTIBOOK l1 v w l3); [|exists [], []; rewrite H; simpl; now rewrite app_nil_r|assumption|left; reflexivity].
      cbn [bind]. assert (Hw : InB d true w).
      { apply (InB_mono e false). apply Hall. rewrite !in_app_iff. simpl. auto. }
      assert (Hn : iter_loop e n (Some w) stop = Ok []).
      { destruct n; cbn [iter_loop]; rewrite (vleb_pos_eq e Hwf) by assumption;
          destruct (Z.leb_spec (pos w) (pos stop)); auto; pose proof (Hgt w (or_introl eq_refl)); lia. }
      now rewrite Hn.
  - rewrite (add_1_seg false MULTIBOOK l1 v w (l ++ l3)); [|exists [], []; rewrite H; simpl; now rewrite app_nil_r|assumption|left; reflexivity].
    cbn [bind]. rewrite (IH w l (l1 ++ [v]) l3 stop); auto.
    + rewrite H. rewrite <- app_assoc. reflexivity.
    + simpl in *. lia.
    + intros x Hx. apply Hle. now right.
Qed.

(** The verses produced by iterating over a range: a start with verse number 0 comes first, then every verse
    of the range that is not a verse 0. *)
Lemma iter_spec : forall r l1 l l3 fuel, wf_range d true r -> bible_verses d false = l1 ++ l ++ l3 ->
  (forall x, In x l1 -> pos x < pos (rstart r)) ->
  (forall x, In x l -> pos (rstart r) <= pos x <= pos (rend r)) ->
  (forall x, In x l3 -> pos (rend r) < pos x) ->
  (length l < fuel)%nat ->
  iter_range e fuel r = Ok (if vverse (rstart r) =? 0 then rstart r :: l else l).
Proof.
  intros r l1 l l3 fuel Hr H H1 Hl H3 Hf. unfold iter_range. destruct r as [s t]. cbn [rstart rend] in *.
  apply (wf_range_pos e Hwf) in Hr. cbn [rstart rend] in Hr. destruct Hr as [Hs [Ht Hst]].
  destruct (Z.eqb_spec (vverse s) 0) as [Ez|Ez].
  - destruct fuel as [|n]; [lia|]. cbn [iter_loop]. rewrite (vleb_pos_eq e Hwf) by assumption.
    destruct (Z.leb_spec (pos s) (pos t)) as [_|Hbad]; [|lia].
    assert (Htr : track0 e (Some MULTIBOOK) s = true).
    { unfold track0. rewrite Ez. apply orb_true_r. }
    (* the next verse is verse 1 of the same chapter *)
    pose proof (InB_legal e _ _ Hs) as Hleg. pose proof (InB_book e _ _ Hs) as Hb.
    destruct (add_1 e Hwf s (Some MULTIBOOK) Hs) as [o [Ho Hw]]. rewrite Ho. rewrite Htr in Hw.
    assert (Hone : InB d false (V (vbook s) (vchap s) 1)).
    { apply (in_bible_verses e). split; [assumption|]. cbn. destruct Hleg as [Hc Hn]. split; [assumption|].
      unfold first_num. cbn [andb]. pose proof (last_num_pos e Hwf _ _ Hb Hc). lia. }
    assert (Hsucc : follows d true s (V (vbook s) (vchap s) 1)).
    { destruct (order_in_split e _ Hb) as [o1 [o2 Hord]].
      assert (Hl0 : first_num d true (vbook s) (vchap s) = 0).
      { destruct Hleg as [_ Hn]. rewrite Ez in Hn. pose proof (first_num_01 e true (vbook s) (vchap s)). lia. }
      pose proof (last_num_pos e Hwf _ _ Hb (proj1 Hleg)) as Hlp.
      apply (seg_follows true (earlier e (mkFlag true true) true (vbook s) (vchap s) o1) s _
               (skipn 2 (chap_verses d true (vbook s) (vchap s)) ++ later e (mkFlag true true) (vbook s) (vchap s) o2)).
      exists [], []. rewrite app_nil_r. simpl app at 1.
      change (bible_verses d true) with (scope e (mkFlag true true) true (vbook s)).
      pose proof (scope_split e (mkFlag true true) o1 (vbook s) o2 (vchap s) Hord (proj1 Hleg)) as Hsc.
      change (verse0 (mkFlag true true)) with true in Hsc. rewrite Hsc. f_equal.
      unfold chap_verses. rewrite Hl0. rewrite (zrange_cons 0) by lia. rewrite (zrange_cons (0 + 1)) by lia.
      destruct s as [b c v]. cbn in *. subst v. reflexivity. }
    destruct o as [w|]; [|destruct (Hw _ Hsucc); discriminate].
    destruct Hw as [Hw _]. pose proof (succ_fun e Hwf _ _ _ _ Hw Hsucc). subst w. cbn [bind].
    assert (Hs1 : pos s < pos (V (vbook s) (vchap s) 1)) by (apply (succ_split e Hwf true s _ s); assumption).
    assert (Hnot : forall x, InB d false x -> (pos s <= pos x <-> pos (V (vbook s) (vchap s) 1) <= pos x)).
    { intros x Hx. assert (Hxt : InB d true x) by now apply (InB_mono e) in Hx.
      destruct (succ_split e Hwf true s _ x Hsucc Hxt) as [Hiff _]. split; [|lia]. intros Hge.
      destruct (Z.eq_dec (pos x) (pos s)) as [E|E].
      - exfalso. apply (pos_eq e) in E; auto. subst x. apply (InB_legal e) in Hx.
        destruct Hx as [_ Hx]. rewrite Ez in Hx. unfold first_num in Hx. cbn in Hx. lia.
      - lia. }
    pose proof (InB_mono e _ _ Hone) as Hone'.
    unfold InB in Hone. rewrite H in Hone. apply in_app_or in Hone. destruct Hone as [Hone|Hone].
    { pose proof (H1 _ Hone). lia. }
    apply in_app_or in Hone. destruct Hone as [Hone|Hone].
    + destruct l as [|x l]; [destruct Hone|].
      assert (Ex : x = V (vbook s) (vchap s) 1).
      { assert (Hx : InB d false x) by (unfold InB; rewrite H, !in_app_iff; simpl; auto).
        pose proof (Hl x (or_introl eq_refl)) as Hxp. pose proof (proj1 (Hnot x Hx) ltac:(lia)).
        destruct Hone as [Hone|Hone]; [assumption|].
        assert (Hseg : seg false ([x] ++ l)) by (exists l1, l3; rewrite H; reflexivity).
        pose proof (seg_lt false [x] l x _ Hseg (or_introl eq_refl) Hone). lia. }
      subst x. rewrite (iter_loop_seg n _ l l1 l3 t); auto.
      * simpl in *. lia.
      * intros y Hy. now apply Hl.
    + assert (l = []).
      { destruct l as [|x l]; [reflexivity|]. exfalso.
        assert (Hx : InB d false x) by (unfold InB; rewrite H, !in_app_iff; simpl; auto).
        pose proof (Hl x (or_introl eq_refl)). pose proof (H3 _ Hone).
        pose proof (proj1 (Hnot x Hx)). lia. }
      subst l. assert (Hn : iter_loop e n (Some (V (vbook s) (vchap s) 1)) t = Ok []).
      { pose proof (H3 _ Hone).
        destruct n; cbn [iter_loop]; rewrite (vleb_pos_eq e Hwf) by assumption;
          destruct (Z.leb_spec (pos (V (vbook s) (vchap s) 1)) (pos t)); auto; lia. }
      now rewrite Hn.
  - assert (Hs0 : InB d false s).
    { apply (in_bible_verses e). apply (in_bible_verses e) in Hs. destruct Hs as [Hb [Hc Hn]].
      split; [assumption|]. split; [assumption|]. unfold first_num in *. cbn [andb] in *.
      destruct (zmem (vchap s) (verse_0s d (vbook s))); lia. }
    unfold InB in Hs0. rewrite H in Hs0.
    apply in_app_or in Hs0. destruct Hs0 as [Hs0|Hs0]; [pose proof (H1 _ Hs0); lia|].
    apply in_app_or in Hs0. destruct Hs0 as [Hs0|Hs0]; [|pose proof (H3 _ Hs0); lia].
    destruct l as [|x l]; [destruct Hs0|].
    assert (Ex : x = s).
    { destruct Hs0 as [Hs0|Hs0]; [assumption|].
      assert (Hseg : seg false ([x] ++ l)) by (exists l1, l3; rewrite H; reflexivity).
      pose proof (seg_lt false [x] l x _ Hseg (or_introl eq_refl) Hs0).
      pose proof (Hl x (or_introl eq_refl)). lia. }
    subst x. rewrite (iter_loop_seg fuel _ l l1 l3 t); auto.
    + lia.
    + intros y Hy. now apply Hl.
Qed.

(** ** Splitting *)
Definition piece_of (p : range) (x : list verse) : Prop :=
  hd_error x = Some (rstart p) /\ hd_error (rev x) = Some (rend p).

(** The flag value and a segment fit together: the segment is in the universe of the flags, and
    MULTIBOOK is set unless it lies in one book. *)
Definition fits (f : flag) (l : list verse) : Prop :=
  stable e f /\ seg (verse0 f) l /\ (multibook f = true \/ one_book l).

Lemma fits_app : forall f la lb, fits f (la ++ lb) -> fits f la /\ fits f lb.
Proof.
  intros f la lb [Hst [Hs Hm]]. destruct (seg_app _ _ _ Hs) as [H1 H2].
  split; (split; [assumption|split; [assumption|]]); destruct Hm as [Hm|Hm]; auto; right;
    intros a b Ha Hb; apply Hm; apply in_or_app; auto.
Qed.

Lemma fits_zero : forall f, stable e f -> zero_on e (Some f) = verse0 f /\ multi_on e (Some f) = multibook f.
Proof. intros f H. rewrite <- zero_on_eq, <- multi_on_eq. now rewrite H. Qed.

Lemma fits_new_range : forall f l s t, fits f l -> In s l -> In t l -> pos s <= pos t ->
  new_range e s t (Some f) = Ok (R s t).
Proof.
  intros f l s t [Hst [Hs Hm]] H1 H2 Hp. rewrite (new_range_eq e Hwf) by (eapply seg_in_true; eauto).
  destruct (fits_zero f Hst) as [_ ->].
  assert (negb (multibook f) && negb (book_eqb (vbook s) (vbook t)) = false) as ->.
  { destruct Hm as [->|Hm]; [reflexivity|]. rewrite (Hm s t H1 H2), book_eqb_refl. apply andb_false_r. }
  destruct (Z.ltb_spec (pos t) (pos s)); [lia|reflexivity].
Qed.

Lemma fits_track0 : forall f l v, fits f l -> In v l -> track0 e (Some f) v = verse0 f.
Proof.
  intros f l v [Hst [Hs Hm]] Hv. destruct (fits_zero f Hst) as [Hz _]. rewrite <- Hz.
  apply (track0_in e); auto. rewrite Hz. eapply seg_in; eauto.
Qed.

Lemma fits_add1 : forall f la a b lb, fits f (la ++ a :: b :: lb) -> add e a 1 (Some f) = Ok (Some b).
Proof.
  intros f la a b lb H. pose proof H as [Hst [Hs Hm]]. eapply add_1_seg; eauto.
  - eapply fits_track0; eauto. apply in_elt.
  - destruct (fits_zero f Hst) as [_ ->]. destruct Hm as [Hm|Hm]; auto. right. apply Hm.
    + apply in_or_app. simpl. auto.
    + apply in_elt.
Qed.

(** *** By book or by chapter *)
Section Unit.
Variable same : verse -> verse -> bool.
Variable unit_end : verse -> res verse.
Hypothesis same_refl : forall a, same a a = true.
Hypothesis same_sym : forall a b, same a b = same b a.
Hypothesis same_trans : forall a b c, same a b = true -> same b c = true -> same a c = true.
Hypothesis same_book : forall a b, same a b = true -> vbook a = vbook b.
Hypothesis unit_spec : forall v, InB d true v -> exists u, unit_end v = Ok u /\ InB d false u /\
  forall w, InB d true w -> pos v <= pos w -> (same v w = true <-> pos w <= pos u).

Lemma InB_false : forall z v, InB d false v -> InB d z v.
Proof. intros [|] v H; [now apply (InB_mono e) in H|assumption]. Qed.

Lemma split_unit_loop_ok : forall f fuel l s u stop, fits f l ->
  hd_error l = Some s -> hd_error (rev l) = Some stop -> unit_end s = Ok u ->
  (length (runs same l) <= S fuel)%nat ->
  exists ps, split_unit_loop unit_end e f fuel s u stop = Ok ps /\ Forall2 piece_of ps (runs same l).
Proof.
  intros f. induction fuel as [|n IH]; intros l s u stop Hfit Hh Ht Hu Hn.
  - (* at most one run *)
    pose proof Hfit as [Hst [Hseg Hm]].
    destruct (hd_in _ _ Hh) as [l' El]. destruct (hd_rev_in _ _ Ht) as [l0 Et].
    assert (Hsl : In s l) by (rewrite El; simpl; auto).
    assert (Htl : In stop l) by (rewrite Et; apply in_or_app; simpl; auto).
    pose proof (seg_in_true _ _ _ Hseg Hsl) as HsB. pose proof (seg_in_true _ _ _ Hseg Htl) as HtB.
    pose proof (proj1 (seg_between _ l s stop stop Hseg Hh Ht (seg_in _ _ _ Hseg Htl)) Htl) as Hp.
    destruct (unit_spec s HsB) as [u' [Hu' [HuB Hsame]]]. rewrite Hu in Hu'. injection Hu' as <-.
    assert (Hone : runs same l = [l]).
    { pose proof (runs_concat same l) as Hc. rewrite El in Hc, Hn |- *.
      destruct (runs_shape same s l') as [r [rs E]]. rewrite E in *. destruct rs; [|simpl in Hn; lia].
      cbn [concat] in Hc. rewrite app_nil_r in Hc. congruence. }
    assert (Hss : same s stop = true).
    { apply (runs_same same same_refl same_sym same_trans l l); auto. rewrite Hone. simpl. auto. }
    apply Hsame in Hss; auto; [|lia].
    cbn [split_unit_loop]. rewrite (vltb_pos_eq e Hwf) by (auto; eapply InB_false; eauto).
    destruct (Z.ltb_spec (pos u) (pos stop)); [lia|].
    rewrite (fits_new_range f l) by (auto; lia). cbn [bind]. eexists. split; [reflexivity|].
    rewrite Hone. constructor; [split; assumption|constructor].
  - pose proof Hfit as [Hst [Hseg Hm]].
    destruct (hd_in _ _ Hh) as [l' El]. destruct (hd_rev_in _ _ Ht) as [l0 Et].
    assert (Hsl : In s l) by (rewrite El; simpl; auto).
    assert (Htl : In stop l) by (rewrite Et; apply in_or_app; simpl; auto).
    pose proof (seg_in_true _ _ _ Hseg Hsl) as HsB. pose proof (seg_in_true _ _ _ Hseg Htl) as HtB.
    pose proof (proj1 (seg_between _ l s stop stop Hseg Hh Ht (seg_in _ _ _ Hseg Htl)) Htl) as Hp.
    destruct (unit_spec s HsB) as [u' [Hu' [HuB Hsame]]]. rewrite Hu in Hu'. injection Hu' as <-.
    pose proof (InB_false true u HuB) as HuT.
    cbn [split_unit_loop]. rewrite (vltb_pos_eq e Hwf) by assumption.
    assert (Hsu : pos s <= pos u) by (apply (Hsame s HsB); [lia|apply same_refl]).
    destruct (Z.ltb_spec (pos u) (pos stop)) as [Hlt|Hge].
    + (* more units follow *)
      assert (Hul : In u l).
      { apply (seg_between _ l s stop u Hseg Hh Ht); [now apply InB_false|lia]. }
      apply in_split in Hul. destruct Hul as [la [lb E]].
      assert (E' : l = (la ++ [u]) ++ lb) by (rewrite E, <- app_assoc; reflexivity).
      assert (Hb : exists b lb', lb = b :: lb').
      { destruct lb as [|b lb']; [|eauto]. exfalso. rewrite E' in Ht. rewrite app_nil_r, rev_app_distr in Ht.
        injection Ht as ->. lia. }
      destruct Hb as [b [lb' ->]].
      assert (Hua : In u (la ++ [u])) by (apply in_or_app; simpl; auto).
      assert (Hsa : In s (la ++ [u])).
      { assert (Hin := Hsl). rewrite E' in Hin. apply in_app_or in Hin. destruct Hin as [Hin|Hin]; [assumption|].
        exfalso. rewrite E' in Hseg.
        pose proof (seg_lt _ _ _ u s Hseg Hua Hin). lia. }
      rewrite (fits_new_range f l s u) by (auto; rewrite E; apply in_elt). cbn [bind].
      rewrite E in Hfit. rewrite (fits_add1 f la u b lb' Hfit). rewrite <- E in Hfit. cbn [bind].
      assert (Hbl : In b l) by (rewrite E'; apply in_or_app; simpl; auto).
      destruct (unit_spec b (seg_in_true _ _ _ Hseg Hbl)) as [ub [Hub _]]. rewrite Hub. cbn [bind].
      (* all of la ++ [u] is the same unit, b is not *)
      assert (HallA : forall x, In x (la ++ [u]) -> same s x = true).
      { intros x Hx. assert (Hxl : In x l) by (rewrite E'; apply in_or_app; auto).
        pose proof (proj1 (seg_between _ l s stop x Hseg Hh Ht (seg_in _ _ _ Hseg Hxl)) Hxl).
        apply Hsame; [eapply seg_in_true; eauto|lia|].
        apply in_app_or in Hx. destruct Hx as [Hx|[<-|[]]]; [|lia].
        rewrite E in Hseg. pose proof (seg_lt _ la (u :: b :: lb') x u Hseg Hx (or_introl eq_refl)). lia. }
      assert (Hpb : pos u < pos b).
      { rewrite E' in Hseg. apply (seg_lt _ _ _ u b Hseg Hua). simpl. auto. }
      assert (Hnb : forall x, In x (la ++ [u]) -> same x b = false).
      { intros x Hx. destruct (same x b) eqn:Exb; [|reflexivity]. exfalso.
        assert (Hsb : same s b = true) by (eapply same_trans; eauto).
        apply Hsame in Hsb; [lia|eapply seg_in_true; eauto|lia]. }
      assert (Hruns : runs same l = (la ++ [u]) :: runs same (b :: lb')).
      { rewrite E'. destruct (la ++ [u]) as [|x la'] eqn:Ela; [destruct la; discriminate|].
        eapply runs_app; [reflexivity| |exact Hnb].
        intros x1 y1 Hx1 Hy1. apply same_trans with s; [rewrite same_sym|]; auto. }
      destruct (IH (b :: lb') b ub stop) as [ps [Hps Hf2]]; auto.
      * rewrite E' in Hfit. now apply fits_app in Hfit.
      * rewrite E' in Ht. rewrite rev_app_distr in Ht. destruct (rev (b :: lb')) eqn:Er.
        -- apply (f_equal (@rev _)) in Er. rewrite rev_involutive in Er. discriminate.
        -- exact Ht.
      * rewrite Hruns in Hn. cbn [length] in Hn. lia.
      * rewrite Hps. cbn [bind]. eexists. split; [reflexivity|]. rewrite Hruns. constructor; [|assumption].
        split; cbn [rstart rend].
        -- rewrite E' in Hh. destruct (la ++ [u]) eqn:Ela; [destruct la; discriminate|exact Hh].
        -- now rewrite rev_app_distr.
    + rewrite (fits_new_range f l s stop) by (auto; lia). cbn [bind]. eexists. split; [reflexivity|].
      assert (Hone : runs same l = [l]).
      { rewrite El. apply runs_one. rewrite <- El.
        assert (Hall : forall x, In x l -> same s x = true).
        { intros x Hx. pose proof (proj1 (seg_between _ l s stop x Hseg Hh Ht (seg_in _ _ _ Hseg Hx)) Hx).
          apply Hsame; [eapply seg_in_true; eauto|lia|lia]. }
        intros x y Hx Hy. apply same_trans with s; [rewrite same_sym|]; auto. }
      rewrite Hone. constructor; [split; assumption|constructor].
Qed.

Lemma split_unit_ok : forall f fuel r l, fits f l -> piece_of r l -> (length (runs same l) <= S fuel)%nat ->
  exists ps, split_unit unit_end e f fuel r = Ok ps /\ Forall2 piece_of ps (runs same l).
Proof.
  intros f fuel r l Hfit [Hh Ht] Hn. unfold split_unit.
  assert (Hs : InB d true (rstart r)).
  { destruct Hfit as [_ [Hs _]]. eapply seg_in_true; eauto. destruct (hd_in _ _ Hh) as [x ->]. simpl. auto. }
  destruct (unit_spec _ Hs) as [u [Hu _]]. rewrite Hu. cbn [bind].
  now apply split_unit_loop_ok.
Qed.
End Unit.

(** *** The two units *)
Definition same_bk (a b : verse) : bool := book_eqb (vbook a) (vbook b).
Definition same_ch (a b : verse) : bool := book_eqb (vbook a) (vbook b) && (vchap a =? vchap b).

Lemma same_bk_iff : forall a b, same_bk a b = true <-> vbook a = vbook b.
Proof. intros. unfold same_bk. apply book_eqb_eq. Qed.
Lemma same_ch_iff : forall a b, same_ch a b = true <-> vbook a = vbook b /\ vchap a = vchap b.
Proof. intros. unfold same_ch. now rewrite andb_true_iff, book_eqb_eq, Z.eqb_eq. Qed.

Lemma same_bk_refl : forall a, same_bk a a = true.
Proof. intros. now apply same_bk_iff. Qed.
Lemma same_bk_sym : forall a b, same_bk a b = same_bk b a.
Proof. intros. apply bool_iff_eq. rewrite !same_bk_iff. intuition. Qed.
Lemma same_bk_trans : forall a b c, same_bk a b = true -> same_bk b c = true -> same_bk a c = true.
Proof. intros a b c. rewrite !same_bk_iff. congruence. Qed.
Lemma same_ch_refl : forall a, same_ch a a = true.
Proof. intros. now apply same_ch_iff. Qed.
Lemma same_ch_sym : forall a b, same_ch a b = same_ch b a.
Proof. intros. apply bool_iff_eq. rewrite !same_ch_iff. intuition. Qed.
Lemma same_ch_trans : forall a b c, same_ch a b = true -> same_ch b c = true -> same_ch a c = true.
Proof. intros a b c. rewrite !same_ch_iff. intuition congruence. Qed.

Lemma last_verse_in : forall b c, In b (book_order d) -> 1 <= c <= num_chaps d b ->
  last_verse e b (Some c) = Ok (V b c (last_num d b c)) /\ InB d false (V b c (last_num d b c)).
Proof.
  intros b c Hb Hc. pose proof (last_num_pos e Hwf b c Hb Hc) as Hl.
  unfold last_verse. rewrite (max_in e Hwf) by assumption. cbn [bind]. split.
  - destruct (table_of e Hwf b Hb) as [l Hl']. eapply new_verse_ok; eauto. split; [assumption|].
    pose proof (first_num_01 e (verse0 (eff e None)) b c). lia.
  - apply (in_bible_verses e). split; [assumption|]. cbn. split; [assumption|].
    pose proof (first_num_01 e false b c). lia.
Qed.
Lemma last_verse_book : forall b, In b (book_order d) ->
  last_verse e b None = Ok (V b (num_chaps d b) (last_num d b (num_chaps d b))).
Proof.
  intros b Hb. pose proof (num_chaps_pos e Hwf b Hb).
  unfold last_verse. rewrite (max_chap_eq e b). apply (last_verse_in b (num_chaps d b) Hb). lia.
Qed.

(** Within one book, positions follow chapter and verse numbers. *)
Lemma pos_book : forall a b, InB d true a -> InB d true b -> vbook a = vbook b ->
  (pos a <= pos b <-> vchap a < vchap b \/ (vchap a = vchap b /\ vverse a <= vverse b)).
Proof.
  intros a b Ha Hb E. pose proof (vleb_pos_eq e Hwf a b Ha Hb) as H. rewrite <- Z.leb_le, <- H.
  unfold vleb, vltb. rewrite E, book_eqb_refl. rewrite negb_true_iff.
  destruct (Z.eqb_spec (vchap b) (vchap a)); rewrite Z.ltb_ge; lia.
Qed.

Lemma unit_book : forall v, InB d true v ->
  exists u, last_verse e (vbook v) None = Ok u /\ InB d false u /\
  forall w, InB d true w -> pos v <= pos w -> (same_bk v w = true <-> pos w <= pos u).
Proof.
  intros v Hv. pose proof (InB_book e _ _ Hv) as Hb. pose proof (num_chaps_pos e Hwf _ Hb) as Hn.
  destruct (last_verse_in (vbook v) (num_chaps d (vbook v)) Hb ltac:(lia)) as [_ Hin].
  eexists. split; [now apply last_verse_book|]. split; [assumption|]. intros w Hw Hp.
  set (u := V _ _ _) in *. pose proof (InB_mono e _ _ Hin) as Hu. rewrite same_bk_iff. split.
  - intros E. apply pos_book; auto. cbn [vbook vchap vverse u].
    apply (InB_legal e) in Hw. rewrite <- E in Hw. destruct Hw as [Hc Hl].
    destruct (Z.eq_dec (vchap w) (num_chaps d (vbook v))) as [E'|E']; [|lia]. rewrite E' in Hl. lia.
  - intros Hwu. symmetry. apply (same_book_between e Hwf v w u); auto.
Qed.

Lemma unit_chap : forall v, InB d true v ->
  exists u, v_last_verse e v None = Ok u /\ InB d false u /\
  forall w, InB d true w -> pos v <= pos w -> (same_ch v w = true <-> pos w <= pos u).
Proof.
  intros v Hv. pose proof (InB_book e _ _ Hv) as Hb. pose proof (InB_legal e _ _ Hv) as [Hc Hl].
  destruct (last_verse_in (vbook v) (vchap v) Hb Hc) as [Hlv Hin].
  eexists. split; [exact Hlv|]. split; [assumption|]. intros w Hw Hp.
  set (u := V _ _ _) in *. pose proof (InB_mono e _ _ Hin) as Hu. rewrite same_ch_iff. split.
  - intros [E E']. apply pos_book; auto. cbn [vbook vchap vverse u]. right. split; [congruence|].
    apply (InB_legal e) in Hw. rewrite <- E, <- E' in Hw. destruct Hw. lia.
  - intros Hwu. assert (E : vbook v = vbook w) by (symmetry; apply (same_book_between e Hwf v w u); auto).
    split; [assumption|]. apply pos_book in Hp; auto. apply pos_book in Hwu; auto. cbn in Hwu. lia.
Qed.

(** *** Every [n] verses *)
Lemma filter_none : forall {A} (g : A -> bool) l, (forall x, In x l -> g x = false) -> filter g l = [].
Proof.
  induction l as [|x l IH]; intros H; [reflexivity|]. simpl. rewrite (H x) by (simpl; auto).
  apply IH. intros; apply H; simpl; auto.
Qed.
Lemma filter_all : forall {A} (g : A -> bool) l, (forall x, In x l -> g x = true) -> filter g l = l.
Proof.
  induction l as [|x l IH]; intros H; [reflexivity|]. simpl. rewrite (H x) by (simpl; auto). f_equal.
  apply IH. intros; apply H; simpl; auto.
Qed.
Lemma filter_book : forall z b, In b (book_order d) ->
  filter (fun v => book_eqb (vbook v) b) (bible_verses d z) = book_verses d z b.
Proof.
  intros z b Hb. destruct (order_in_split e _ Hb) as [o1 [o2 Ho]]. unfold bible_verses. rewrite Ho.
  pose proof (order_nodup e Hwf) as Hnd. rewrite Ho in Hnd. apply NoDup_remove_2 in Hnd.
  rewrite flat_map_app. cbn [flat_map]. rewrite !filter_app.
  rewrite (filter_none _ (flat_map (book_verses d z) o1)), (filter_none _ (flat_map (book_verses d z) o2)).
  - simpl. rewrite app_nil_r. apply filter_all. intros x Hx. apply (in_book_verses e) in Hx.
    apply book_eqb_eq. apply Hx.
  - intros x Hx. apply in_flat_map in Hx. destruct Hx as [b' [Hb' Hx]]. apply (in_book_verses e) in Hx.
    destruct Hx as [Hx _]. destruct (book_eqb (vbook x) b) eqn:E; [|reflexivity]. apply book_eqb_eq in E.
    exfalso. apply Hnd. apply in_or_app. right. congruence.
  - intros x Hx. apply in_flat_map in Hx. destruct Hx as [b' [Hb' Hx]]. apply (in_book_verses e) in Hx.
    destruct Hx as [Hx _]. destruct (book_eqb (vbook x) b) eqn:E; [|reflexivity]. apply book_eqb_eq in E.
    exfalso. apply Hnd. apply in_or_app. left. congruence.
Qed.

(** A fitting segment is a segment of the track of each of its verses. *)
Lemma fits_track : forall f l v, fits f l -> In v l -> exists la lb, track e (Some f) v = la ++ l ++ lb.
Proof.
  intros f l v Hfit Hv. pose proof Hfit as [Hst [[l1 [l3 Hs]] Hm]].
  pose proof (fits_track0 f l v Hfit Hv) as Hz. destruct (fits_zero f Hst) as [_ Hmu].
  unfold track. rewrite Hz, Hmu. destruct (multibook f) eqn:Em; [eauto|].
  destruct Hm as [Hm|Hm]; [discriminate|].
  rewrite <- filter_book.
  - rewrite Hs, !filter_app. rewrite (filter_all _ l).
    + eauto.
    + intros x Hx. apply book_eqb_eq. now apply Hm.
  - apply (InB_book e (verse0 f)). unfold InB. rewrite Hs, !in_app_iff. auto.
Qed.

Lemma fits_add : forall f la v lb n, fits f (la ++ v :: lb) -> 0 <= n ->
  exists o, add e v n (Some f) = Ok o /\
    ((Z.to_nat n < length (v :: lb))%nat -> o = nth_error (v :: lb) (Z.to_nat n)) /\
    ((length (v :: lb) <= Z.to_nat n)%nat -> forall w, o = Some w -> InB d true w /\ forall x, In x (la ++ v :: lb) -> pos x < pos w).
Proof.
  intros f la v lb n Hfit Hn. assert (Hv : In v (la ++ v :: lb)) by apply in_elt.
  destruct (fits_track f _ v Hfit Hv) as [ta [tb Ht]]. pose proof Hfit as [Hst [Hs Hm]].
  pose proof (seg_in_true _ _ _ Hs Hv) as HvB.
  assert (Hi : at_pos (track e (Some f) v) (length ta + length la) v).
  { unfold at_pos. rewrite Ht. rewrite nth_error_app2 by lia. rewrite <- app_assoc, nth_error_app2 by lia.
    replace (length ta + length la - length ta - length la)%nat with 0%nat by lia. reflexivity. }
  rewrite (add_track e v n (Some f) _ Hwf HvB Hn Hi). rewrite Ht.
  assert (En : forall k, nth_error (ta ++ (la ++ v :: lb) ++ tb) (length ta + length la + k) = nth_error ((v :: lb) ++ tb) k).
  { intros k. rewrite nth_error_app2 by lia. rewrite <- app_assoc, nth_error_app2 by lia. f_equal. lia. }
  rewrite En. eexists. split; [reflexivity|]. split.
  - intros Hlt. rewrite nth_error_app1 by assumption. reflexivity.
  - intros Hge w Hw. rewrite nth_error_app2 in Hw by assumption. apply nth_error_In in Hw.
    assert (Hwt : In w (track e (Some f) v)) by (rewrite Ht, !in_app_iff; auto).
    destruct (fits_zero f Hst) as [Hz Hmu].
    destruct (track_in e (Some f) v w Hwf) as [HwB _]; auto.
    { rewrite Hz. eapply seg_in; eauto. }
    apply (InB_mono e) in HwB. split; [assumption|]. intros x Hx.
    assert (Hso : StronglySorted (vltP e) (track e (Some f) v)).
    { unfold track. destruct (multi_on e (Some f)); [now apply bible_verses_sorted|apply book_verses_sorted]. }
    rewrite Ht, app_assoc in Hso. apply sorted_app_inv in Hso. destruct Hso as [_ [_ Hso]].
    apply (vltb_lt e Hwf); auto; [eapply seg_in_true; eauto|]. apply Hso; auto. apply in_or_app. auto.
Qed.

(** [t] is the verse [n - 1] places after the beginning of [l], if [l] is that long, and otherwise beyond [l]. *)
Definition ahead (l : list verse) (n : nat) (t : option verse) : Prop :=
  ((n <= length l)%nat -> t = nth_error l (n - 1)) /\
  ((length l < n)%nat -> forall w, t = Some w -> InB d true w /\ forall x, In x l -> pos x < pos w).

Lemma nth_error_firstn_split : forall {A} (l : list A) n x, (1 <= n)%nat -> nth_error l (n - 1) = Some x ->
  exists la, l = la ++ x :: skipn n l /\ firstn n l = la ++ [x].
Proof.
  intros A l n x Hn H. apply nth_error_split in H. destruct H as [la [lb [E Hl]]]. exists la. subst l.
  assert (Es : skipn n (la ++ x :: lb) = lb).
  { rewrite skipn_app, skipn_all2 by lia. replace (n - length la)%nat with 1%nat by lia. reflexivity. }
  assert (Ef : firstn n (la ++ x :: lb) = la ++ [x]).
  { rewrite firstn_app, firstn_all2 by lia. replace (n - length la)%nat with 1%nat by lia. reflexivity. }
  now rewrite Es, Ef.
Qed.

Lemma split_num_loop_ok : forall f n fuel l s t stop, 1 <= n -> fits f l ->
  hd_error l = Some s -> hd_error (rev l) = Some stop -> ahead l (Z.to_nat n) t ->
  (length l <= S fuel)%nat ->
  exists ps, split_num_loop e f n fuel (Some s) t stop = Ok ps /\ Forall2 piece_of ps (chunks (Z.to_nat n) l).
Proof.
  intros f n. induction fuel as [|k IH]; intros l s t stop Hn Hfit Hh Ht Hah Hk;
    pose proof Hfit as [Hst [Hseg Hm]];
    destruct (hd_in _ _ Hh) as [l' El]; destruct (hd_rev_in _ _ Ht) as [l0 Et];
    (assert (Hsl : In s l) by (rewrite El; simpl; auto));
    (assert (Htl : In stop l) by (rewrite Et; apply in_or_app; simpl; auto));
    pose proof (seg_in_true _ _ _ Hseg Hsl) as HsB; pose proof (seg_in_true _ _ _ Hseg Htl) as HtB;
    pose proof (proj1 (seg_between _ l s stop stop Hseg Hh Ht (seg_in _ _ _ Hseg Htl)) Htl) as Hp;
    assert (Hlast : new_range_opt e (Some s) (Some stop) (Some f) = Ok (R s stop))
      by (unfold new_range_opt; now rewrite (fits_new_range f l s stop) by (auto; lia)).
  - assert (Hsmall : chunks (Z.to_nat n) l = [l]) by (rewrite El; apply chunks_small; [lia|rewrite <- El; lia]).
    assert (Hl1 : l = [s]) by (rewrite El in *; destruct l'; [reflexivity|simpl in Hk; lia]).
    assert (Hend : exists ps, split_num_loop e f n 0 (Some s) t stop = Ok ps /\ ps = [R s stop]).
    { cbn [split_num_loop]. destruct t as [t1|]; [|rewrite Hlast; cbn [bind]; eauto].
      assert (vltb e t1 stop = false) as ->; [|rewrite Hlast; cbn [bind]; eauto].
      destruct Hah as [H1 H2]. assert (stop = s) by (rewrite Hl1 in Htl; destruct Htl as [E|[]]; auto). subst stop.
      destruct (Nat.le_gt_cases (Z.to_nat n) (length l)) as [Hle|Hgt].
      - specialize (H1 Hle). rewrite Hl1 in H1, Hle. simpl in Hle. replace (Z.to_nat n - 1)%nat with 0%nat in H1 by lia.
        injection H1 as ->. apply vltb_irrefl.
      - destruct (H2 Hgt t1 eq_refl) as [Hw Hx]. rewrite (vltb_pos_eq e Hwf) by assumption. apply Z.ltb_ge.
        pose proof (Hx s Hsl). lia. }
    destruct Hend as [ps [Hps ->]]. exists [R s stop]. split; [assumption|]. rewrite Hsmall.
    constructor; [split; assumption|constructor].
  - assert (Hend : (length l <= Z.to_nat n)%nat -> Forall2 piece_of [R s stop] (chunks (Z.to_nat n) l)).
    { intros Hle. rewrite El. rewrite chunks_small by (try rewrite <- El; lia). rewrite <- El.
      constructor; [split; assumption|constructor]. }
    destruct Hah as [H1 H2].
    destruct (Nat.le_gt_cases (length l) (Z.to_nat n)) as [Hle|Hgt].
    + (* last piece *)
      exists [R s stop]. split; [|auto]. cbn [split_num_loop].
      destruct t as [t1|]; [|rewrite Hlast; reflexivity].
      assert (vltb e t1 stop = false) as ->; [|rewrite Hlast; reflexivity].
      destruct (Nat.le_gt_cases (Z.to_nat n) (length l)) as [Hle'|Hgt'].
      * specialize (H1 Hle'). assert (Z.to_nat n = length l) by lia.
        rewrite Et in H1. rewrite H, Et, app_length in H1. simpl in H1.
        rewrite nth_error_app2 in H1 by lia. replace (length l0 + 1 - 1 - length l0)%nat with 0%nat in H1 by lia.
        injection H1 as ->. apply vltb_irrefl.
      * destruct (H2 Hgt' t1 eq_refl) as [Hw Hx]. rewrite (vltb_pos_eq e Hwf) by assumption. apply Z.ltb_ge.
        pose proof (Hx stop Htl). lia.
    + specialize (H1 ltac:(lia)).
      destruct (nth_error l (Z.to_nat n - 1)) as [t1|] eqn:Et1; [|apply nth_error_None in Et1; lia].
      subst t. destruct (nth_error_firstn_split l (Z.to_nat n) t1 ltac:(lia) Et1) as [la [E Ef]].
      assert (Hsk : exists b lb, skipn (Z.to_nat n) l = b :: lb).
      { destruct (skipn (Z.to_nat n) l) eqn:Es; [|eauto]. exfalso.
        apply (f_equal (@length _)) in Es. rewrite skipn_length in Es. simpl in Es. lia. }
      destruct Hsk as [b [lb Es]]. rewrite Es in E.
      assert (Hlen : length la = (Z.to_nat n - 1)%nat).
      { apply (f_equal (@length _)) in Ef. rewrite firstn_length, app_length in Ef. simpl in Ef. lia. }
      assert (Ht1 : In t1 l) by (rewrite E; apply in_elt).
      assert (Htb : In stop (b :: lb)).
      { rewrite E in Ht. replace (la ++ t1 :: b :: lb) with ((la ++ [t1]) ++ b :: lb) in Ht by now rewrite <- app_assoc.
        rewrite rev_app_distr in Ht. destruct (rev (b :: lb)) eqn:Er.
        - apply (f_equal (@rev _)) in Er. rewrite rev_involutive in Er. discriminate.
        - injection Ht as ->. apply in_rev. rewrite Er. simpl. auto. }
      assert (Hlt : pos t1 < pos stop).
      { rewrite E in Hseg. replace (la ++ t1 :: b :: lb) with ((la ++ [t1]) ++ b :: lb) in Hseg by now rewrite <- app_assoc.
        apply (seg_lt _ _ _ t1 stop Hseg); auto. apply in_or_app. simpl. auto. }
      cbn [split_num_loop]. rewrite (vltb_pos_eq e Hwf) by (auto; eapply seg_in_true; eauto).
      destruct (Z.ltb_spec (pos t1) (pos stop)); [|lia].
      assert (Hst1 : pos s <= pos t1).
      { apply (seg_between _ l s stop t1 Hseg Hh Ht); auto. eapply seg_in; eauto. }
      unfold new_range_opt at 1. rewrite (fits_new_range f l s t1) by auto. cbn [bind].
      assert (Hfit' := Hfit). rewrite E in Hfit'. rewrite (fits_add1 f la t1 b lb Hfit'). cbn [bind].
      destruct (fits_add f la t1 (b :: lb) n Hfit' ltac:(lia)) as [o [Ho [Ho1 Ho2]]]. rewrite Ho. cbn [bind].
      assert (Hfitb : fits f (b :: lb)).
      { replace (la ++ t1 :: b :: lb) with ((la ++ [t1]) ++ b :: lb) in Hfit' by now rewrite <- app_assoc.
        now apply fits_app in Hfit'. }
      destruct (IH (b :: lb) b o stop) as [ps [Hps Hf2]]; auto.
      * rewrite E in Ht. replace (la ++ t1 :: b :: lb) with ((la ++ [t1]) ++ b :: lb) in Ht by now rewrite <- app_assoc.
        rewrite rev_app_distr in Ht. destruct (rev (b :: lb)) eqn:Er; [|exact Ht].
        apply (f_equal (@rev _)) in Er. rewrite rev_involutive in Er. discriminate.
      * split.
        -- intros Hle. rewrite Ho1 by (simpl in *; lia). 
           replace (Z.to_nat n) with (S (Z.to_nat n - 1))%nat at 1 by lia. reflexivity.
        -- intros Hlt' w Hw. destruct (Ho2 ltac:(simpl in *; lia) w Hw) as [Hw1 Hw2]. split; [assumption|].
           intros x Hx. apply Hw2. rewrite in_app_iff. simpl in *. tauto.
      * rewrite E, app_length in Hk. simpl in Hk |- *. lia.
      * rewrite Hps. cbn [bind]. eexists. split; [reflexivity|].
        rewrite El. rewrite chunks_eq by lia. rewrite <- El. rewrite Es, Ef. constructor; [|assumption].
        split; cbn [rstart rend].
        -- rewrite E in Hh. destruct la; [injection Hh as ->; reflexivity|exact Hh].
        -- now rewrite rev_app_distr.
Qed.

Lemma split_num1_ok : forall f n fuel r l, 1 <= n -> fits f l -> piece_of r l -> (length l <= S fuel)%nat ->
  exists ps, split_num1 e f n fuel r = Ok ps /\ Forall2 piece_of ps (chunks (Z.to_nat n) l).
Proof.
  intros f n fuel r l Hn Hfit [Hh Ht] Hk. unfold split_num1. destruct (hd_in _ _ Hh) as [l' El].
  destruct (fits_add f [] (rstart r) l' (n - 1)) as [o [Ho [H1 H2]]]; [simpl; rewrite <- El; assumption|lia|].
  rewrite Ho. cbn [bind]. rewrite <- El in *. apply split_num_loop_ok; auto. split.
  - intros Hle. rewrite H1 by lia. f_equal. lia.
  - intros Hlt w Hw. destruct (H2 ltac:(lia) w Hw) as [Hw1 Hw2]. split; [assumption|].
    intros x Hx. apply Hw2. exact Hx.
Qed.

(** *** All pieces of a list *)
Lemma split_all_ok : forall (g : range -> res (list range)) (h : list verse -> list (list verse)) ps ls,
  Forall2 piece_of ps ls ->
  (forall p x, In x ls -> piece_of p x -> exists qs, g p = Ok qs /\ Forall2 piece_of qs (h x)) ->
  exists qs, split_all g ps = Ok qs /\ Forall2 piece_of qs (flat_map h ls).
Proof.
  intros g h ps ls H. induction H as [|p x ps ls Hp Hps IH]; intros Hg.
  - exists []. split; [reflexivity|constructor].
  - destruct (Hg p x (or_introl eq_refl) Hp) as [qs [Hq Hq2]].
    destruct IH as [qs' [Hq' Hq2']]; [intros; apply Hg; simpl; auto|].
    unfold split_all in *. cbn [mapM]. rewrite Hq. cbn [bind].
    destruct (mapM g ps) as [ls'|] eqn:Em; [|discriminate]. cbn [bind] in *. injection Hq' as <-.
    exists (qs ++ concat ls'). split; [reflexivity|]. cbn [flat_map]. now apply Forall2_app.
Qed.

Lemma fits_concat : forall f ls x, fits f (concat ls) -> In x ls -> fits f x.
Proof.
  intros f ls x H Hx. apply in_split in Hx. destruct Hx as [l1 [l2 ->]].
  rewrite concat_app in H. cbn [concat] in H. apply fits_app in H. destruct H as [_ H]. now apply fits_app in H.
Qed.

Lemma split_flags_stable : forall r fl, stable e (split_flags e r fl).
Proof.
  intros r fl. unfold split_flags. destruct (_ || _); [apply stable_or_v0|].
  destruct (negb _); [apply stable_or_multi|apply stable_eff].
Qed.
Definition split_zero (r : range) (fl : option flag) : bool :=
  zero_on e fl || (vverse (rstart r) =? 0) || (vverse (rend r) =? 0).
Lemma split_flags_zero : forall r fl, verse0 (split_flags e r fl) = split_zero r fl.
Proof.
  intros r fl. unfold split_flags, split_zero. rewrite <- zero_on_eq.
  destruct (eff e fl) as [m z].
  destruct (vverse (rstart r) =? 0); destruct (vverse (rend r) =? 0); destruct (negb _); cbn;
    rewrite ?orb_true_r, ?orb_false_r; reflexivity.
Qed.
Lemma split_flags_multi : forall r fl, vbook (rstart r) <> vbook (rend r) -> multibook (split_flags e r fl) = true.
Proof.
  intros r fl H. unfold split_flags. apply book_eqb_neq in H. rewrite H. cbn [negb].
  destruct (_ || _); cbn; rewrite ?orb_true_r; reflexivity.
Qed.
Lemma split_flags_fits : forall r fl l, verses_of d (split_zero r fl) r l -> fits (split_flags e r fl) l.
Proof.
  intros r fl l H. split; [apply split_flags_stable|]. rewrite split_flags_zero.
  split; [eapply verses_of_seg; eauto|].
  destruct (book_eq_dec (vbook (rstart r)) (vbook (rend r))) as [E|E]; [right|left; now apply split_flags_multi].
  pose proof (verses_of_wf _ _ _ H) as Hw. apply wf_range_mono in Hw. apply (wf_range_pos e Hwf) in Hw.
  destruct Hw as [Hs [Ht _]].
  assert (Hall : forall x, In x l -> vbook x = vbook (rstart r)).
  { intros x Hx. apply (verses_of_In _ _ _ x H) in Hx. destruct Hx as [_ Hx]. apply (InR_pos e Hwf) in Hx.
    apply (same_book_between e Hwf (rstart r) x (rend r)); tauto. }
  intros a b Ha Hb. rewrite (Hall a Ha), (Hall b Hb). reflexivity.
Qed.

(** The pieces computed by [split], as lists of verses. *)
Definition pieces (by_book by_chap : bool) (num : option Z) (l : list verse) : list (list verse) :=
  let ls1 := if by_book then runs same_bk l else [l] in
  let ls2 := if by_chap then flat_map (runs same_ch) ls1 else ls1 in
  match num with None => ls2 | Some n => flat_map (chunks (Z.to_nat n)) ls2 end.

Lemma concat_flat_map_id : forall {A} (h : list A -> list (list A)) ls, (forall x, concat (h x) = x) ->
  concat (flat_map h ls) = concat ls.
Proof.
  intros A h ls H. induction ls as [|x ls IH]; [reflexivity|]. simpl. rewrite concat_app, IH, H. reflexivity.
Qed.

Lemma runs_le_length : forall (same : verse -> verse -> bool) l, (length (runs same l) <= length l)%nat.
Proof.
  intros same l. induction l as [|v l IH]; [simpl; lia|]. simpl. destruct (runs same l) as [|[|w r] rs]; simpl in *; try lia.
  destruct (same v w); simpl; lia.
Qed.
Lemma In_concat_length : forall {A} (ls : list (list A)) x, In x ls -> (length x <= length (concat ls))%nat.
Proof.
  intros A ls x H. apply in_split in H. destruct H as [l1 [l2 ->]]. rewrite concat_app. cbn [concat].
  rewrite !app_length. lia.
Qed.

Lemma split_items_ok : forall r fl l by_book by_chap num fuel,
  verses_of d (split_zero r fl) r l -> (length l <= fuel)%nat ->
  (forall n, num = Some n -> 1 <= n) ->
  exists ps, split_items e fuel r by_book by_chap num fl = Ok ps /\
             Forall2 piece_of ps (pieces by_book by_chap num l).
Proof.
  intros r fl l by_book by_chap num fuel Hl Hf Hnum. pose proof (split_flags_fits r fl l Hl) as Hfit.
  set (f := split_flags e r fl) in *. unfold split_items. fold f.
  assert (Hpl : piece_of r l) by (destruct Hl as [_ Hl]; exact Hl).
  assert (H1 : exists ps1 ls1, (if by_book then split_all (split_book1 e f fuel) [r] else Ok [r]) = Ok ps1 /\
     (ls1 = if by_book then runs same_bk l else [l]) /\ Forall2 piece_of ps1 ls1 /\ concat ls1 = l).
  { destruct by_book.
    - destruct (split_all_ok (split_book1 e f fuel) (runs same_bk) [r] [l]) as [qs [Hq Hq2]].
      + constructor; [assumption|constructor].
      + intros p x [<-|[]] Hp. apply (split_unit_ok same_bk _ same_bk_refl same_bk_sym same_bk_trans unit_book); auto.
        pose proof (runs_le_length same_bk l). lia.
      + exists qs, (runs same_bk l). split; [assumption|]. split; [reflexivity|].
        simpl in Hq2. rewrite app_nil_r in Hq2. split; [assumption|]. apply runs_concat.
    - exists [r], [l]. repeat split; auto. simpl. apply app_nil_r. }
  destruct H1 as [ps1 [ls1 [E1 [El1 [F1 C1]]]]]. rewrite E1. cbn [bind].
  assert (H2 : exists ps2 ls2, (if by_chap then split_all (split_chap1 e f fuel) ps1 else Ok ps1) = Ok ps2 /\
     (ls2 = if by_chap then flat_map (runs same_ch) ls1 else ls1) /\ Forall2 piece_of ps2 ls2 /\ concat ls2 = l).
  { destruct by_chap.
    - destruct (split_all_ok (split_chap1 e f fuel) (runs same_ch) ps1 ls1 F1) as [qs [Hq Hq2]].
      + intros p x Hx Hp. apply (split_unit_ok same_ch _ same_ch_refl same_ch_sym same_ch_trans unit_chap); auto.
        * apply (fits_concat f ls1); auto. now rewrite C1.
        * pose proof (runs_le_length same_ch x). pose proof (In_concat_length ls1 x Hx). rewrite C1 in H0. lia.
      + exists qs, (flat_map (runs same_ch) ls1). split; [assumption|]. split; [reflexivity|]. split; [assumption|].
        rewrite concat_flat_map_id; [assumption|]. apply runs_concat.
    - exists ps1, ls1. auto. }
  destruct H2 as [ps2 [ls2 [E2 [El2 [F2 C2]]]]]. rewrite E2. cbn [bind].
  assert (Ep : pieces by_book by_chap num l = match num with None => ls2 | Some n => flat_map (chunks (Z.to_nat n)) ls2 end)
    by (unfold pieces; subst ls1 ls2; reflexivity).
  rewrite Ep. destruct num as [n|]; [|eauto].
  apply (split_all_ok (split_num1 e f n fuel) (chunks (Z.to_nat n)) ps2 ls2 F2).
  intros p x Hx Hp. apply split_num1_ok; auto.
  - apply (fits_concat f ls2); auto. now rewrite C2.
  - pose proof (In_concat_length ls2 x Hx). rewrite C2 in H. lia.
Qed.

(** *** The pieces are the partition that the options ask for *)
Lemma hd_concat : forall {A} (xs : list (list A)) b, hd_error xs = Some b -> b <> [] ->
  hd_error (concat xs) = hd_error b.
Proof. intros A [|x xs] b H Hb; [discriminate|]. injection H as ->. destruct b; [congruence|reflexivity]. Qed.
Lemma last_concat : forall {A} (xs : list (list A)) a, hd_error (rev xs) = Some a -> a <> [] ->
  hd_error (rev (concat xs)) = hd_error (rev a).
Proof.
  intros A xs a H Ha. destruct (hd_rev_in _ _ H) as [ys ->]. rewrite concat_app. cbn [concat].
  rewrite app_nil_r, rev_app_distr. destruct (rev a) eqn:E; [|reflexivity].
  apply (f_equal (@rev _)) in E. rewrite rev_involutive in E. simpl in E. congruence.
Qed.

(** Refining a partition with [h]. *)
Lemma refine_break : forall (h : list verse -> list (list verse)) (Q : list verse -> list verse -> Prop) (R : list verse -> list verse -> Prop) ls,
  (forall x, concat (h x) = x) -> (forall x, Forall (fun p => p <> []) (h x)) ->
  Forall (fun p => p <> []) ls ->
  (forall p q a b, hd_error (rev p) = hd_error (rev a) -> hd_error q = hd_error b -> Q p q -> Q a b) ->
  (forall ls1 p q ls2, ls = ls1 ++ p :: q :: ls2 -> Q p q) ->
  (forall x ls1 p q ls2, In x ls -> h x = ls1 ++ p :: q :: ls2 -> R p q) ->
  forall ls1 p q ls2, flat_map h ls = ls1 ++ p :: q :: ls2 -> Q p q \/ R p q.
Proof.
  intros h Q R ls Hc Hne Hls HQ Hb Hr. apply adjacent_flat_map.
  - intros p Hp. split.
    + intros E. pose proof (Hc p) as H. rewrite E in H. simpl in H. subst p.
      rewrite Forall_forall in Hls. now apply (Hls [] Hp).
    + intros xs a b ys E. eapply Hr; eauto.
  - intros ls1 p q ls2 E a b Ha Hb'. apply (HQ p q a b); [| |eapply Hb; eauto].
    + rewrite <- (Hc p). apply last_concat; auto. specialize (Hne p). rewrite Forall_forall in Hne.
      apply Hne. destruct (hd_rev_in _ _ Ha) as [ys ->]. apply in_or_app. simpl. auto.
    + rewrite <- (Hc q). apply hd_concat; auto. specialize (Hne q). rewrite Forall_forall in Hne.
      apply Hne. destruct (hd_in _ _ Hb') as [ys ->]. simpl. auto.
Qed.

Lemma In_concat : forall {A} (ls : list (list A)) x p, In p ls -> In x p -> In x (concat ls).
Proof. intros. apply in_concat. eauto. Qed.

Lemma refine_sub : forall {A} (h : list A -> list (list A)) (P : list A -> Prop) ls,
  (forall x, concat (h x) = x) -> (forall x y, P x -> (forall v, In v y -> In v x) -> P y) ->
  Forall P ls -> Forall P (flat_map h ls).
Proof.
  intros A h P ls Hc Hsub H. rewrite Forall_forall in *. intros y Hy. apply in_flat_map in Hy.
  destruct Hy as [x [Hx Hy]]. apply (Hsub x y); auto. intros v Hv. rewrite <- (Hc x). eapply In_concat; eauto.
Qed.

Lemma new_book_ends : forall p q a b, hd_error (rev p) = hd_error (rev a) -> hd_error q = hd_error b ->
  new_book p q -> new_book a b.
Proof. intros p q a b H1 H2 [x [y H]]. exists x, y. now rewrite <- H1, <- H2. Qed.
Lemma new_chap_ends : forall p q a b, hd_error (rev p) = hd_error (rev a) -> hd_error q = hd_error b ->
  new_chap p q -> new_chap a b.
Proof. intros p q a b H1 H2 [x [y H]]. exists x, y. now rewrite <- H1, <- H2. Qed.

Lemma one_book_sub : forall x y : list verse, one_book x -> (forall v, In v y -> In v x) -> one_book y.
Proof. intros x y H Hs a b Ha Hb. apply H; auto. Qed.
Lemma one_chap_sub : forall x y : list verse, one_chap x -> (forall v, In v y -> In v x) -> one_chap y.
Proof. intros x y H Hs a b Ha Hb. apply H; auto. Qed.

Lemma pieces_partition : forall by_book by_chap num l, l <> [] -> (forall n, num = Some n -> 1 <= n) ->
  partition_of by_book by_chap (option_map Z.to_nat num) l (pieces by_book by_chap num l).
Proof.
  intros by_book by_chap num l Hl Hnum. unfold pieces.
  set (ls1 := if by_book then runs same_bk l else [l]).
  assert (P1 : partition_of by_book false None l ls1).
  { unfold ls1. destruct by_book; constructor.
    - apply runs_concat.
    - apply runs_nonempty.
    - intros _. apply Forall_forall. intros x Hx a b Ha Hb. apply same_bk_iff.
      exact (runs_same same_bk same_bk_refl same_bk_sym same_bk_trans l x Hx a b Ha Hb).
    - discriminate.
    - discriminate.
    - intros xs p q ys E. left. split; [reflexivity|].
      destruct (runs_break same_bk l xs p q ys E) as [a [b [Ha [Hb Hab]]]]. exists a, b.
      split; [assumption|]. split; [assumption|]. intros Heq. apply same_bk_iff in Heq. congruence.
    - simpl. apply app_nil_r.
    - auto.
    - discriminate.
    - discriminate.
    - discriminate.
    - intros [|x [|]] p q ys E; discriminate. }
  set (ls2 := if by_chap then flat_map (runs same_ch) ls1 else ls1).
  assert (P2 : partition_of by_book by_chap None l ls2).
  { unfold ls2. destruct by_chap; [|exact P1]. destruct P1 as [Q1 Q2 Q3 Q4 Q5 Q6]. constructor.
    - rewrite concat_flat_map_id; [assumption|]. apply runs_concat.
    - apply Forall_flat_map. rewrite Forall_forall in *. intros. apply runs_nonempty.
    - intros Hb. apply refine_sub; auto; [apply runs_concat|apply one_book_sub].
    - intros _. apply Forall_forall. intros x Hx a b Ha Hb. apply in_flat_map in Hx. destruct Hx as [y [Hy Hx]].
      apply same_ch_iff. exact (runs_same same_ch same_ch_refl same_ch_sym same_ch_trans y x Hx a b Ha Hb).
    - discriminate.
    - intros xs p q ys E.
      apply (refine_break (runs same_ch) (fun p q => by_book = true /\ new_book p q) new_chap ls1) in E.
      + destruct E; auto.
      + apply runs_concat.
      + apply runs_nonempty.
      + assumption.
      + intros p' q' a b H1 H2 [H3 H4]. split; [assumption|]. eapply new_book_ends; eauto.
      + intros xs' p' q' ys' E'. destruct (Q6 _ _ _ _ E') as [H|[[H _]|H]]; [assumption|discriminate|discriminate].
      + intros x xs' p' q' ys' _ E'. destruct (runs_break same_ch x _ _ _ _ E') as [a [b [Ha [Hb Hab]]]].
        exists a, b. split; [assumption|]. split; [assumption|].
        destruct (book_eq_dec (vbook a) (vbook b)) as [E1|E1]; [|auto].
        destruct (Z.eq_dec (vchap a) (vchap b)) as [E2|E2]; [|auto]. exfalso.
        assert (same_ch a b = true) by now apply same_ch_iff. congruence. }
  destruct num as [n|]; [|exact P2]. cbn [option_map]. specialize (Hnum n eq_refl).
  destruct P2 as [Q1 Q2 Q3 Q4 Q5 Q6].
  assert (Hch : forall x : list verse, concat (chunks (Z.to_nat n) x) = x) by (intros; apply (chunks_props (Z.to_nat n) ltac:(lia) (length x)); lia).
  constructor.
  - rewrite concat_flat_map_id; assumption.
  - apply Forall_flat_map. apply Forall_forall. intros x _. apply (chunks_props (Z.to_nat n) ltac:(lia) (length x)). lia.
  - intros Hb. apply refine_sub; auto. apply one_book_sub.
  - intros Hb. apply refine_sub; auto. apply one_chap_sub.
  - intros k Hk. injection Hk as <-. apply Forall_flat_map. apply Forall_forall. intros x _.
    apply (chunks_props (Z.to_nat n) ltac:(lia) (length x)). lia.
  - intros xs p q ys E.
    apply (refine_break (chunks (Z.to_nat n))
       (fun p q => (by_book = true /\ new_book p q) \/ (by_chap = true /\ new_chap p q))
       (fun p _ => length p = Z.to_nat n) ls2) in E.
    + destruct E as [[H|H]|H]; [auto|auto|]. right. right. now rewrite H.
    + exact Hch.
    + intros x. apply (chunks_props (Z.to_nat n) ltac:(lia) (length x)). lia.
    + assumption.
    + intros p' q' a b H1 H2 [[H3 H4]|[H3 H4]]; [left|right]; (split; [assumption|]);
        [eapply new_book_ends|eapply new_chap_ends]; eauto.
    + intros xs' p' q' ys' E'. destruct (Q6 _ _ _ _ E') as [H|[H|H]]; auto. discriminate.
    + intros x xs' p' q' ys' _ E'. eapply (chunks_props (Z.to_nat n) ltac:(lia) (length x)); eauto.
Qed.

End Split.
