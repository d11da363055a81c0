(** * PMerge: [merge] brings a list of ranges into its canonical form. *)
From Coq Require Import List ZArith Bool Lia Sorted Permutation.
From Verif Require Import Base Books Data MVerse MRange Spec PList PCore PNav PVerse PRange
  PSetOps PSetSpec PRuns PSplit MSeq MList PSort SpecList PRegroup.
Import ListNotations.
Import Spec.
Open Scope Z_scope.

Section Merge.
Variable e : env.
Notation d := (ed e).
Hypothesis Hwf : wf_data d.
Notation pos := (pos e).
Notation zf fl := (zero_on e fl).
Notation wft := (wf_range d true).

(** ** The order *)
Lemma rleb_pos : forall a b, wft a -> wft b ->
  (rleb e a b = true <-> pos (rstart a) < pos (rstart b) \/
                         (pos (rstart a) = pos (rstart b) /\ pos (rend a) <= pos (rend b))).
Proof.
  intros a b Ha Hb. unfold rleb. rewrite negb_true_iff, (rltb_pos e Hwf) by auto.
  rewrite orb_false_iff, andb_false_iff, Z.ltb_ge, Z.eqb_neq, Z.ltb_ge. lia.
Qed.
Lemma rleb_total : forall a b, wft a -> wft b -> rleb e a b = true \/ rleb e b a = true.
Proof. intros a b Ha Hb. rewrite !rleb_pos by auto. lia. Qed.
Lemma rleb_trans : forall a b c, wft a -> wft b -> wft c -> rleb e a b = true -> rleb e b c = true -> rleb e a c = true.
Proof. intros a b c Ha Hb Hc. rewrite !rleb_pos by auto. lia. Qed.
Lemma rleb_antisym : forall a b, wft a -> wft b -> rleb e a b = true -> rleb e b a = true -> a = b.
Proof.
  intros a b Ha Hb. rewrite !rleb_pos by auto. intros H1 H2. destruct a as [s t], b as [s' t']. cbn in *.
  pose proof Ha as (A1 & A2 & _). pose proof Hb as (B1 & B2 & _). cbn in *.
  f_equal; apply (pos_eq e); auto; lia.
Qed.

Definition sorted_l (l : list range) : list range := sort_items (rleb e) l.
Lemma sort_ok : forall l, Forall wft l ->
  Permutation (sorted_l l) l /\ StronglySorted (fun a b => rleb e a b = true) (sorted_l l) /\
  forall x, wft x -> filter (eqv (rleb e) x) (sorted_l l) = filter (eqv (rleb e) x) l.
Proof.
  intros l Hl. apply (sort_items_ok (rleb e) wft); auto.
  - intros; now apply rleb_total.
  - intros a b c Ha Hb Hc. now apply rleb_trans.
Qed.

Lemma InL_perm : forall l m v, Permutation l m -> (InL d v l <-> InL d v m).
Proof.
  intros l m v P. pose proof (Permutation_sym P) as P'.
  split; intros (r & Hr & Hv); exists r; (split; [|exact Hv]); eapply Permutation_in; eauto.
Qed.
Lemma mergeable_perm : forall fl l m, Permutation l m -> mergeable e fl l -> mergeable e fl m.
Proof. intros fl l m P [H|H]; [now left|right]. eapply Permutation_Forall; eauto. Qed.
Lemma mergeable_incl : forall fl l m, (forall r, In r m -> In r l) -> mergeable e fl l -> mergeable e fl m.
Proof. intros fl l m P [H|H]; [now left|right]. rewrite Forall_forall in *. auto. Qed.
Lemma mergeable_app : forall fl l m, mergeable e fl l -> mergeable e fl m -> mergeable e fl (l ++ m).
Proof. intros fl l m [H|H] [K|K]; try (now left). right. apply Forall_app. auto. Qed.
Lemma mergeable_in : forall fl l r, mergeable e fl l -> In r l -> multi_on e fl = true \/ one_book_range r.
Proof. intros fl l r [H|H] K; [now left|right]. rewrite Forall_forall in H. auto. Qed.

(** ** Merging two ranges *)
Lemma one_book_in : forall r v w, wft r -> one_book_range r -> InR d v r -> InR d w r -> vbook v = vbook w.
Proof.
  intros r v w Hr Ho Hv Hw. apply (InR_pos e Hwf) in Hv, Hw.
  assert (vbook v = vbook (rstart r)) by (apply (same_book_between e Hwf _ _ (rend r)); tauto).
  assert (vbook w = vbook (rstart r)) by (apply (same_book_between e Hwf _ _ (rend r)); tauto). congruence.
Qed.
Lemma touching_hull_book : forall fl a b, wft a -> wft b -> touching e fl a b ->
  (multi_on e fl = true \/ one_book_range a /\ one_book_range b) ->
  multi_on e fl = true \/ one_book_range (hull e a b).
Proof.
  intros fl a b Ha Hb Ht [Hm|(Oa & Ob)]; [now left|]. destruct (multi_on e fl) eqn:Em; [now left|right].
  assert (Hsame : vbook (rstart a) = vbook (rstart b)).
  { pose proof (InR_start e Hwf a Ha) as I1. pose proof (InR_end e Hwf a Ha) as I2.
    pose proof (InR_start e Hwf b Hb) as I3. pose proof (InR_end e Hwf b Hb) as I4.
    destruct Ht as [(v & Va & Vb)|[(_ & [?|J])|(_ & [?|J])]]; unfold one_book_range in *; try congruence.
    rewrite (one_book_in a _ v Ha Oa I1 Va). apply (one_book_in b); auto. }
  unfold one_book_range, hull, vmin, vmax in *. cbn. destruct (vltb e (rstart b) (rstart a)), (vltb e (rend a) (rend b)); congruence.
Qed.
Lemma touching_dec : forall fl a b, wft a -> wft b -> touching e fl a b \/ ~ touching e fl a b.
Proof. intros fl a b Ha Hb. destruct (union_cases e Hwf a b fl Ha Hb) as [(H & _)|(H & _)]; auto. Qed.
Lemma hull_start : forall a b, wft a -> wft b -> pos (rstart a) <= pos (rstart b) -> rstart (hull e a b) = rstart a.
Proof.
  intros a b (A & _) (B & _) H. unfold hull, vmin. cbn. rewrite (vltb_pos_eq e Hwf) by auto.
  destruct (pos (rstart b) <? pos (rstart a)) eqn:E; [apply Z.ltb_lt in E; lia|reflexivity].
Qed.
Lemma union_step : forall fl a b, wft a -> wft b ->
  (multi_on e fl = true \/ one_book_range a /\ one_book_range b) ->
  (touching e fl a b /\ union e a b fl = Ok [hull e a b]) \/
  (~ touching e fl a b /\ exists x y, union e a b fl = Ok [x; y]).
Proof.
  intros fl a b Ha Hb Hm. destruct (union_cases e Hwf a b fl Ha Hb) as [(H & E)|(H & E)].
  - left. split; [exact H|]. rewrite E, multi_test_false; [reflexivity|]. eapply touching_hull_book; eauto.
  - right. split; [exact H|]. rewrite E. destruct (pos (rstart a) <? pos (rstart b)); eauto.
Qed.

Lemma separate_start : forall fl a b b', rstart b = rstart b' -> separate e fl a b -> separate e fl a b'.
Proof. intros fl a b b' E. unfold separate, joins. now rewrite E. Qed.
Lemma separate_of : forall fl a b, wft a -> wft b -> pos (rstart a) <= pos (rstart b) -> ~ touching e fl a b -> separate e fl a b.
Proof.
  intros fl a b Ha Hb Hle Ht. pose proof Ha as (A1 & A2 & _). pose proof Hb as (B1 & B2 & _). split.
  - apply (vlt_pos e Hwf). repeat split; auto.
    destruct (Z_lt_le_dec (pos (rend a)) (pos (rstart b))) as [H|H]; [exact H|exfalso].
    apply Ht. left. apply (overlap_pos e Hwf); auto. unfold disjb. rewrite orb_false_iff, !Z.ltb_ge.
    apply (wf_range_pos e Hwf) in Ha, Hb. lia.
  - intros J. apply Ht. right. now left.
Qed.

(** A verse between two neighbours that join is a verse 0 that joins itself. *)
Lemma separate_trans : forall fl a b c, wft a -> wft b -> wft c -> separate e fl a b -> separate e fl b c -> separate e fl a c.
Proof.
  intros fl a b c Ha Hb Hc (L1 & J1) (L2 & J2). rewrite !(vlt_pos e Hwf) in *.
  pose proof Hb as Hb'. apply (wf_range_pos e Hwf) in Hb'. destruct Hb' as (B1 & B2 & B3).
  pose proof Hc as (C1 & _).
  unfold separate. rewrite (vlt_pos e Hwf). split; [intuition lia|].
  intros (J & Hm). apply J2.
  assert (Hz : track0 e fl (rend a) = false).
  { destruct (track0 e fl (rend a)) eqn:E; [exfalso|reflexivity].
    pose proof (succ_split e Hwf true (rend a) (rstart c) (rstart b) J B1). lia. }
  rewrite Hz in J.
  assert (Hzf : zero_on e fl = false) by (unfold track0 in Hz; apply orb_false_iff in Hz; tauto).
  assert (Hno : forall v, InB d true v -> pos (rend a) < pos v < pos (rstart c) -> ~ InB d false v).
  { intros v Hv Hp Hf. pose proof (succ_split e Hwf false _ _ v J Hf). lia. }
  assert (Hv0 : vverse (rend b) = 0).
  { pose proof (Hno (rend b) B2 ltac:(lia)) as N. apply (in_bible_verses e) in B2.
    destruct B2 as (B2 & L & Lv). destruct (Z.eq_dec (vverse (rend b)) 0) as [E|E]; [exact E|exfalso].
    apply N. apply (in_bible_verses e). split; [exact B2|]. split; [exact L|].
    pose proof (first_num_01 e true (vbook (rend b)) (vchap (rend b))). unfold first_num. cbn [andb]. lia. }
  assert (Ht : track0 e fl (rend b) = true) by (unfold track0; rewrite Hv0; apply orb_true_r).
  assert (Hbk : vbook (rend a) = vbook (rstart c) -> vbook (rend b) = vbook (rstart c)).
  { intros E. rewrite <- E. apply (same_book_between e Hwf (rend a) (rend b) (rstart c)); auto; try tauto. lia. }
  unfold joins. rewrite Ht. split; [|destruct Hm as [Hm|Hm]; [now left|right; now apply Hbk]].
  (* the verse after the verse 0 is verse 1 of the chapter *)
  set (w := V (vbook (rend b)) (vchap (rend b)) 1).
  pose proof B2 as B2'. apply (in_bible_verses e) in B2'. destruct B2' as (Bb & Lc & Lv).
  assert (Wf : InB d false w).
  { apply (in_bible_verses e). cbn. split; [exact Bb|]. split; [exact Lc|]. unfold first_num. cbn.
    pose proof (last_num_pos e Hwf _ _ Bb Lc). lia. }
  pose proof (InB_mono e _ _ Wf) as Wt.
  assert (Hw : pos (rend b) < pos w).
  { assert (~ pos w <= pos (rend b)); [|lia]. rewrite (pos_book e Hwf w (rend b)) by auto. cbn. lia. }
  assert (Hcw : pos (rstart c) <= pos w).
  { pose proof (succ_split e Hwf false _ _ w J Wf). lia. }
  assert (Hfol : follows d true (rend b) w).
  { destruct (add_1 e Hwf (rend b) (Some (mkFlag true true)) B2) as (o & _ & Ho).
    change (track0 e (Some (mkFlag true true)) (rend b)) with true in Ho.
    destruct o as [q|].
    - destruct Ho as (Ho & _). replace w with q; [exact Ho|].
      pose proof (succ_in e _ _ _ Ho) as (_ & Hq).
      pose proof (succ_split e Hwf true _ _ w Ho Wt) as (S1 & _).
      pose proof (succ_split e Hwf true _ _ q Ho Hq) as (_ & S2).
      assert (Hqw : pos q <= pos w) by lia.
      assert (Hbq : vbook q = vbook (rend b)).
      { apply (same_book_between e Hwf (rend b) q w); auto; try lia. }
      apply (pos_eq e); auto. assert (pos w <= pos q); [|lia].
      apply (pos_book e Hwf); auto.
      assert (Q : ~ pos q <= pos (rend b)) by lia. rewrite (pos_book e Hwf q (rend b)) in Q by auto.
      assert (Q' : pos q <= pos w) by lia. rewrite (pos_book e Hwf q w) in Q' by auto. cbn in *. lia.
    - exfalso. (* there is a verse after it *)
      pose proof (pos_at e _ B2) as P1. pose proof (pos_at e _ Wt) as P2.
      pose proof (pos_nonneg e (rend b)). 
      assert (exists q, at_pos (bible_verses d true) (S (Z.to_nat (pos (rend b)))) q) as (q & Hq).
      { unfold at_pos in *. destruct (nth_error (bible_verses d true) (S (Z.to_nat (pos (rend b))))) eqn:E; [eauto|exfalso].
        apply nth_error_None in E. assert (Z.to_nat (pos w) < length (bible_verses d true))%nat; [|lia].
        apply nth_error_Some. congruence. }
      destruct (Ho q) as (Hx & _); [|discriminate]. exists (Z.to_nat (pos (rend b))). auto. }
  replace (rstart c) with w; [exact Hfol|].
  pose proof (succ_split e Hwf true _ _ (rstart c) Hfol C1). apply (pos_eq e); auto. lia.
Qed.

(** ** The loop *)
Lemma merge_loop_ok : forall fl rest cur, Forall wft (cur :: rest) -> mergeable e fl (cur :: rest) ->
  (forall x, In x rest -> pos (rstart cur) <= pos (rstart x)) ->
  StronglySorted (fun a b => rleb e a b = true) rest ->
  exists h m, merge_loop e fl cur rest = Ok (h :: m) /\ rstart h = rstart cur /\
    (forall z, Forall (wf_range d z) (cur :: rest) -> Forall (wf_range d z) (h :: m)) /\
    mergeable e fl (h :: m) /\ canonical e fl (h :: m) /\ same_verses d (zf fl) (h :: m) (cur :: rest).
Proof.
  intros fl. induction rest as [|x rest IH]; intros cur Hw Hm Hs Hsort.
  - exists cur, []. cbn [merge_loop]. split; [reflexivity|]. split; [reflexivity|]. split; [auto|]. split; [auto|].
    split; [repeat constructor|]. intros v _. reflexivity.
  - inversion Hw as [|? ? Hc Hw']; subst. inversion Hw' as [|? ? Hx Hw'']; subst.
    inversion Hsort as [|? ? Hsort' Hfx]; subst.
    assert (Hcx : multi_on e fl = true \/ one_book_range cur /\ one_book_range x).
    { destruct Hm as [Hm|Hm]; [now left|right]. inversion Hm as [|? ? M1 M2]; subst. inversion M2; auto. }
    assert (Hle : pos (rstart cur) <= pos (rstart x)) by (apply Hs; now left).
    cbn [merge_loop]. destruct (union_step fl cur x Hc Hx Hcx) as [(Ht & E)|(Ht & a & b & E)]; rewrite E; cbn [bind].
    + assert (Hh : wft (hull e cur x)) by (now apply hull_wf).
      pose proof (hull_start cur x Hc Hx Hle) as Hhs.
      destruct (IH (hull e cur x)) as (h & m & Em & E1 & E2 & E3 & E4 & E5).
      * constructor; auto.
      * destruct (touching_hull_book fl cur x Hc Hx Ht Hcx) as [K|K]; [now left|].
        destruct Hm as [Hm|Hm]; [now left|right]. constructor; [exact K|]. inversion Hm as [|? ? _ M]; subst. now inversion M.
      * intros y Hy. rewrite Hhs. apply Hs. now right.
      * exact Hsort'.
      * exists h, m. split; [exact Em|]. split; [congruence|]. split.
        { intros z Hz. apply E2. inversion Hz as [|? ? Z1 Z2]; subst. inversion Z2; subst. constructor; auto. now apply hull_wf. }
        split; [exact E3|]. split; [exact E4|].
        intros v Hv. rewrite (E5 v Hv), !InL_cons, (hull_sound e Hwf fl cur x v) by auto. tauto.
    + destruct (IH x) as (h & m & Em & E1 & E2 & E3 & E4 & E5); auto.
      * eapply mergeable_incl; [|exact Hm]. intros r Hr. now right.
      * intros y Hy. rewrite Forall_forall in Hfx, Hw''. specialize (Hfx y Hy). apply rleb_pos in Hfx; auto. lia.
      * rewrite Em. cbn [bind]. exists cur, (h :: m). split; [reflexivity|]. split; [reflexivity|].
        assert (Hwh : Forall wft (h :: m)) by (apply E2; auto).
        split.
        { intros z Hz. inversion Hz; subst. constructor; auto. }
        split.
        { destruct Hm as [Hm|Hm]; [now left|]. destruct E3 as [E3|E3]; [now left|right]. inversion Hm; subst. now constructor. }
        assert (Hsx : separate e fl cur h) by (eapply separate_start; [symmetry; exact E1|now apply separate_of]).
        split.
        { constructor; [exact E4|]. constructor; [exact Hsx|]. inversion E4 as [|? ? _ F4]; subst.
          inversion Hwh as [|? ? W1 W2]; subst. rewrite Forall_forall in *. intros y Hy.
          eapply separate_trans; [exact Hc|exact W1|apply W2; exact Hy|exact Hsx|apply F4; exact Hy]. }
        { intros v Hv. rewrite InL_cons, (E5 v Hv), <- InL_cons. reflexivity. }
Qed.

Lemma merge_items_ok : forall fl l, Forall wft l -> mergeable e fl l ->
  exists m, merge_items e fl l = Ok m /\ (forall z, Forall (wf_range d z) l -> Forall (wf_range d z) m) /\
    mergeable e fl m /\ canonical e fl m /\ same_verses d (zf fl) m l.
Proof.
  intros fl l Hw Hm. unfold merge_items. destruct (sort_ok l Hw) as (P & S & _). fold (sorted_l l).
  pose proof (Permutation_sym P) as P'.
  assert (HwS : Forall wft (sorted_l l)) by (eapply Permutation_Forall; eauto).
  assert (HmS : mergeable e fl (sorted_l l)) by (eapply mergeable_perm; eauto).
  destruct (sorted_l l) as [|x xs] eqn:E.
  - exists []. apply Permutation_nil in P. subst l. repeat split; auto; try constructor. 
  - inversion S as [|? ? S1 S2]; subst. inversion HwS as [|? ? W1 W2]; subst.
    destruct (merge_loop_ok fl xs x) as (h & m & Em & E1 & E2 & E3 & E4 & E5); auto.
    { intros y Hy. rewrite Forall_forall in *. specialize (S2 y Hy). apply rleb_pos in S2; auto. lia. }
    exists (h :: m). split; [exact Em|]. split.
    { intros z Hz. apply E2. eapply Permutation_Forall; eauto. }
    split; [exact E3|]. split; [exact E4|].
    intros v Hv. rewrite (E5 v Hv). now apply InL_perm.
Qed.

Lemma merge_ok : forall fl l, Forall wft (items l) -> mergeable e fl (items l) ->
  exists g, merge e fl l = Ok g /\ nonempty_groups g /\ regroup e None g = Ok g /\
    (forall z, Forall (wf_range d z) (items l) -> Forall (wf_range d z) (items g)) /\
    mergeable e fl (items g) /\ canonical e fl (items g) /\ same_verses d (zf fl) (items g) (items l).
Proof.
  intros fl l Hw Hm. unfold merge. destruct (merge_items_ok fl (items l) Hw Hm) as (m & E & W & M & C & S).
  rewrite E. cbn [bind]. destruct (regroup_none e Hwf (one_group m)) as (g & Eg & Ig & Ng & Rg).
  { rewrite items_one_group. now apply W. }
  rewrite items_one_group in Ig. exists g. rewrite Eg, Ig. repeat split; auto; now apply S.
Qed.

(** ** Uniqueness and minimality *)
(** The next verse after the end of a range. *)
Lemma succ_exists : forall z a b, InB d z a -> InB d z b -> pos a < pos b ->
  exists w, follows d z a w /\ InB d z w /\ pos a < pos w <= pos b.
Proof.
  intros z a b Ha Hb Hlt.
  destruct (proj1 (InB_pos e z a) Ha) as (i & Hi). destruct (proj1 (InB_pos e z b) Hb) as (j & Hj).
  pose proof (bible_mono_nth e Hwf z i j a b Hi Hj) as M. assert (Hij : (i < j)%nat) by (apply M; lia).
  assert (exists w, at_pos (bible_verses d z) (S i) w) as (w & Hw).
  { unfold at_pos in *. destruct (nth_error (bible_verses d z) (S i)) eqn:E; [eauto|exfalso].
    apply nth_error_None in E. assert (j < length (bible_verses d z))%nat; [|lia]. apply nth_error_Some. congruence. }
  assert (F : follows d z a w) by (exists i; auto).
  exists w. split; [exact F|]. split; [apply (InB_pos e); eauto|].
  pose proof (succ_split e Hwf z a w b F Hb). lia.
Qed.

(** Verses between the end of a range of a canonical list and a later verse of the list: the next verse is not in the list,
    unless it is in another book. *)
Lemma canonical_gap : forall fl m1 r m2 w, Forall (wf_range d (zf fl)) (m1 ++ r :: m2) -> canonical e fl (m1 ++ r :: m2) ->
  follows d (zf fl) (rend r) w -> multi_on e fl = true \/ vbook (rend r) = vbook w -> InL d w (m1 ++ r :: m2) -> False.
Proof.
  intros fl m1 r m2 w Hw Hc F Hb (q & Hq & Iq).
  assert (Hr : wf_range d (zf fl) r) by (rewrite Forall_forall in Hw; apply Hw, in_or_app; right; now left).
  pose proof (succ_in e _ _ _ F) as (R1 & W1).
  assert (Hlt : pos (rend r) < pos w) by (apply (succ_split e Hwf _ _ _ w F W1)).
  apply (InR_pos e Hwf) in Iq. destruct Iq as (I1 & I2 & I3 & I4).
  assert (Hwq : wf_range d (zf fl) q) by (rewrite Forall_forall in Hw; auto).
  apply sorted_app_inv in Hc. destruct Hc as (_ & C2 & C3). inversion C2 as [|? ? C4 C5]; subst.
  apply in_app_or in Hq. destruct Hq as [Hq|[->|Hq]].
  - destruct (C3 q r Hq (or_introl eq_refl)) as (L & _). apply (vlt_pos e Hwf) in L.
    apply (wf_range_pos e Hwf) in Hr. lia.
  - lia.
  - rewrite Forall_forall in C5. destruct (C5 q Hq) as (L & J). apply (vlt_pos e Hwf) in L.
    destruct Hwq as (Q1 & _). pose proof (succ_split e Hwf _ _ _ (rstart q) F Q1) as (S1 & _).
    assert (rstart q = w) by (apply (pos_eq e); auto; lia). subst w.
    apply J. split; [|exact Hb]. now rewrite (zero_track e Hwf fl (rend r)).
Qed.

Lemma canonical_unique : forall fl m m', Forall (wf_range d (zf fl)) m -> Forall (wf_range d (zf fl)) m' ->
  mergeable e fl m -> mergeable e fl m' -> canonical e fl m -> canonical e fl m' ->
  same_verses d (zf fl) m m' -> m = m'.
Proof.
  intros fl.
  assert (Hstart : forall r m v, Forall (wf_range d (zf fl)) (r :: m) -> canonical e fl (r :: m) -> InL d v (r :: m) -> pos (rstart r) <= pos v).
  { intros r m v Hw Hc (q & Hq & Iq). apply (InR_pos e Hwf) in Iq. destruct Hq as [->|Hq]; [lia|].
    inversion Hc as [|? ? _ F]; subst. rewrite Forall_forall in F. destruct (F q Hq) as (L & _).
    apply (vlt_pos e Hwf) in L. inversion Hw as [|? ? W1 _]; subst. apply (wf_range_pos e Hwf) in W1. lia. }
  assert (Hend : forall r m r' m', Forall (wf_range d (zf fl)) (r :: m) -> Forall (wf_range d (zf fl)) (r' :: m') ->
     mergeable e fl (r' :: m') -> canonical e fl (r :: m) ->
     same_verses d (zf fl) (r :: m) (r' :: m') -> rstart r = rstart r' -> pos (rend r) < pos (rend r') -> False).
  { intros r m r' m' Hw Hw' Hm' Hc Hs Es Hlt. inversion Hw as [|? ? W1 _]; subst. inversion Hw' as [|? ? W1' _]; subst.
    pose proof W1 as (_ & A2 & _). pose proof W1' as (B1 & B2 & _).
    destruct (succ_exists (zf fl) (rend r) (rend r') A2 B2 Hlt) as (w & F & Ww & Hp).
    pose proof W1 as W1p. apply (wf_range_pos e Hwf) in W1p. destruct W1p as (_ & _ & W1p). rewrite Es in W1p.
    assert (Iw : InR d w r') by (apply (InR_pos e Hwf); repeat split; try (eapply (InB_mono e); eauto); lia).
    assert (Ie : InR d (rend r) r') by (apply (InR_pos e Hwf); repeat split; try (eapply (InB_mono e); eauto); lia).
    eapply (canonical_gap fl [] r m w); auto.
    - destruct (mergeable_in fl _ r' Hm' (or_introl eq_refl)) as [K|K]; [now left|right].
      eapply one_book_in; [eapply (wf_range_mono e); exact W1'|exact K|exact Ie|exact Iw].
    - apply Hs; [exact Ww|]. exists r'. split; [now left|exact Iw]. }
  induction m as [|r m IH]; intros m' Hw Hw' Hm Hm' Hc Hc' Hs.
  - destruct m' as [|r' m']; [reflexivity|exfalso]. inversion Hw' as [|? ? W _]; subst. pose proof W as (B1 & _).
    apply (InL_nil e (rstart r')). apply Hs; [exact B1|]. exists r'. split; [now left|].
    apply (InR_start e Hwf). eapply (wf_range_mono e); eauto.
  - destruct m' as [|r' m'].
    { exfalso. inversion Hw as [|? ? W _]; subst. pose proof W as (B1 & _).
      apply (InL_nil e (rstart r)). apply Hs; [exact B1|]. exists r. split; [now left|].
      apply (InR_start e Hwf). eapply (wf_range_mono e); eauto. }
    inversion Hw as [|? ? W1 W2]; subst. inversion Hw' as [|? ? W1' W2']; subst.
    pose proof W1 as (A1 & A2 & _). pose proof W1' as (B1 & B2 & _).
    pose proof (wf_range_mono e _ _ W1) as T1. pose proof (wf_range_mono e _ _ W1') as T1'.
    assert (Hs' : same_verses d (zf fl) (r' :: m') (r :: m)) by (intros v Hv; symmetry; now apply Hs).
    assert (Es : rstart r = rstart r').
    { apply (pos_eq e); [eapply (InB_mono e); eauto..|].
      assert (pos (rstart r') <= pos (rstart r)).
      { apply (Hstart r' m'); auto. apply Hs; auto. exists r. split; [now left|now apply (InR_start e Hwf)]. }
      assert (pos (rstart r) <= pos (rstart r')).
      { apply (Hstart r m); auto. apply Hs; auto. exists r'. split; [now left|now apply (InR_start e Hwf)]. }
      lia. }
    assert (Ee : rend r = rend r').
    { apply (pos_eq e); [eapply (InB_mono e); eauto..|].
      destruct (Z.lt_trichotomy (pos (rend r)) (pos (rend r'))) as [H|[H|H]]; [exfalso|exact H|exfalso].
      - eapply (Hend r m r' m'); eauto.
      - eapply (Hend r' m' r m); eauto. }
    assert (r = r') by (destruct r, r'; cbn in *; congruence). subst r'. f_equal.
    inversion Hc as [|? ? Hc2 F]; subst. inversion Hc' as [|? ? Hc2' F']; subst.
    apply IH; auto.
    + eapply mergeable_incl; [|exact Hm]. intros; now right.
    + eapply mergeable_incl; [|exact Hm']. intros; now right.
    + assert (Hnot : forall m, Forall (separate e fl r) m -> forall v, InL d v m -> ~ InR d v r).
      { intros m0 F0 v (q & Hq & Iq) Ir. rewrite Forall_forall in F0. destruct (F0 q Hq) as (L & _).
        apply (vlt_pos e Hwf) in L. apply (InR_pos e Hwf) in Iq, Ir. lia. }
      intros v Hv. pose proof (Hs v Hv) as H. rewrite !InL_cons in H.
      pose proof (Hnot m F v). pose proof (Hnot m' F' v). tauto.
Qed.

Lemma canonical_shortest : forall fl m l, Forall (wf_range d (zf fl)) m -> Forall (wf_range d (zf fl)) l ->
  mergeable e fl l -> canonical e fl m -> same_verses d (zf fl) m l -> (length m <= length l)%nat.
Proof.
  intros fl m l Hw Hl Hm Hc Hs.
  assert (Hq : exists qs, Forall2 (fun r q => In q l /\ InR d (rstart r) q) m qs).
  { assert (H : forall r, In r m -> exists q, In q l /\ InR d (rstart r) q).
    { intros r Hr. rewrite Forall_forall in Hw. specialize (Hw r Hr). apply Hs; [apply Hw|].
      exists r. split; [exact Hr|]. apply (InR_start e Hwf). eapply (wf_range_mono e); eauto. }
    clear Hw Hl Hm Hc Hs. induction m as [|r m IH]; [exists []; constructor|].
    destruct (H r (or_introl eq_refl)) as (q & Hq). destruct IH as (qs & Hqs); [intros; apply H; now right|].
    exists (q :: qs). now constructor. }
  destruct Hq as (qs & Hqs). rewrite (Forall2_len _ _ _ Hqs). apply NoDup_incl_length.
  - (* two ranges of m do not begin in the same range of l *)
    assert (Hdis : forall m1 r m2 r' m3 q, m = m1 ++ r :: m2 ++ r' :: m3 -> In q l -> InR d (rstart r) q -> InR d (rstart r') q -> False).
    { intros m1 r m2 r' m3 q Em Hq I1 I2.
      assert (Hsep : separate e fl r r').
      { unfold canonical in Hc. rewrite Em in Hc. apply sorted_app_inv in Hc. destruct Hc as (_ & C & _).
        inversion C as [|? ? _ F]; subst. rewrite Forall_forall in F. apply F, in_or_app. right. now left. }
      destruct Hsep as (L & _). apply (vlt_pos e Hwf) in L.
      assert (Wr : wf_range d (zf fl) r) by (rewrite Forall_forall in Hw; apply Hw; rewrite Em; apply in_or_app; right; now left).
      assert (Wr' : wf_range d (zf fl) r').
      { rewrite Forall_forall in Hw; apply Hw; rewrite Em; apply in_or_app; right; right; apply in_or_app; right; now left. }
      assert (Wq : wf_range d (zf fl) q) by (rewrite Forall_forall in Hl; auto).
      pose proof Wr as (_ & A2 & _). pose proof Wr' as (B1 & _).
      destruct (succ_exists (zf fl) (rend r) (rstart r') A2 B1 ltac:(lia)) as (w & F & Ww & Hp).
      apply (wf_range_pos e Hwf) in Wr. apply (InR_pos e Hwf) in I1, I2.
      assert (Iw : InR d w q) by (apply (InR_pos e Hwf); repeat split; try tauto; try (eapply (InB_mono e); eauto); lia).
      assert (Ie : InR d (rend r) q) by (apply (InR_pos e Hwf); repeat split; try tauto; try (eapply (InB_mono e); eauto); lia).
      eapply (canonical_gap fl m1 r (m2 ++ r' :: m3) w); try (rewrite <- Em; auto).
      - exact F.
      - destruct (mergeable_in fl _ q Hm Hq) as [K|K]; [now left|right].
        eapply one_book_in; [eapply (wf_range_mono e); exact Wq|exact K|exact Ie|exact Iw].
      - apply Hs; [exact Ww|]. exists q. auto. }
    assert (Hgen : forall m1 m2 qs2, m = m1 ++ m2 -> Forall2 (fun r q => In q l /\ InR d (rstart r) q) m2 qs2 -> NoDup qs2).
    { intros m1 m2 qs2. revert m1. induction m2 as [|r m2 IH] in qs2 |- *; intros m1 Em F; inversion F as [|? q ? qs3 (Q1 & Q2) F3]; subst; [constructor|].
      constructor.
      - intros Hin. assert (Hex : exists m2a r' m2b, m2 = m2a ++ r' :: m2b /\ InR d (rstart r') q).
        { clear - F3 Hin. induction F3 as [|r0 q0 m0 qs0 (P1 & P2) F3 IH]; [destruct Hin|].
          destruct Hin as [->|Hin]; [exists [], r0, m0; auto|].
          destruct (IH Hin) as (a & r' & b & -> & H). exists (r0 :: a), r', b. auto. }
        destruct Hex as (a & r' & b & -> & Hr'). eapply (Hdis m1 r a r' b q); eauto.
      - eapply (IH qs3 (m1 ++ [r])); [now rewrite <- app_assoc|exact F3]. }
    apply (Hgen [] m qs); auto.
  - intros q Hq. clear - Hqs Hq. induction Hqs as [|r q0 m qs (P1 & _) F IH]; [destruct Hq|].
    destruct Hq as [->|Hq]; auto.
Qed.
End Merge.
