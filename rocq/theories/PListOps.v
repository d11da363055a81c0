(** * PListOps: the set operations and queries of range lists. *)
From Coq Require Import List ZArith Bool Lia Sorted Permutation.
From Verif Require Import Base Books Data MVerse MRange Spec PList PCore PNav PVerse PRange
  PSetOps PSetSpec PRuns PSplit PUnit PUnit2 MSeq MList PSort SpecList PRegroup PMerge.
Import ListNotations.
Import Spec.
Open Scope Z_scope.

Lemma mapM_ok : forall {A B} (f : A -> res B) l, (forall x, In x l -> exists y, f x = Ok y) ->
  exists ys, mapM f l = Ok ys /\ Forall2 (fun x y => f x = Ok y) l ys.
Proof.
  intros A B f. induction l as [|x l IH]; intros H; [exists []; repeat constructor|].
  destruct (H x (or_introl eq_refl)) as (y & Ey). destruct IH as (ys & E & F); [intros; apply H; now right|].
  exists (y :: ys). cbn [mapM]. rewrite Ey. cbn [bind]. rewrite E. cbn [bind]. split; [reflexivity|now constructor].
Qed.

Section ListOps.
Variable e : env.
Notation d := (ed e).
Hypothesis Hwf : wf_data d.
Notation pos := (pos e).
Notation zf fl := (zero_on e fl).
Notation wft := (wf_range d true).

Lemma new_range_all : forall s t, InB d true s -> InB d true t -> pos s <= pos t -> new_range e s t (Some ALL) = Ok (R s t).
Proof.
  intros s t Hs Ht Hle. rewrite (new_range_eq e Hwf) by auto. cbn [multi_on negb andb].
  destruct (pos t <? pos s) eqn:E; [apply Z.ltb_lt in E; lia|reflexivity].
Qed.
Lemma unit_facts : forall z v oc, InB d true v -> (oc = None \/ oc = Some (vchap v)) ->
  In (vbook v) (book_order d) /\ unit_ok d z (whole_unit (vbook v) oc).
Proof.
  intros z v oc Hv Hoc. destruct (unit_of_ok e z v Hv) as (H1 & H2). split; [exact H1|]. destruct Hoc as [-> | ->]; [exact I|exact H2].
Qed.
Lemma wf_verse_range : forall z v, InB d z v -> wf_range d z (verse_range v).
Proof. intros z v Hv. apply (wf_range_pos e Hwf). cbn. repeat split; auto; lia. Qed.

Lemma ref_ranges_ok : forall x, Forall wft (ref_list x) -> ref_ranges e x = Ok (ref_list x).
Proof.
  intros [v|r|l] H; try reflexivity. unfold ref_ranges. cbn [ref_list] in *. inversion H as [|? ? (Hv & _) _]; subst. cbn in Hv.
  rewrite new_range_all by (auto; lia). reflexivity.
Qed.

Lemma items_fold_groups : forall (l g : rlist), items (fold_left (fun g grp => g_append_group grp g) l g) = items g ++ items l.
Proof.
  induction l as [|p l IH]; intros g; cbn [fold_left]; [unfold items at 3; cbn; now rewrite app_nil_r|].
  rewrite IH. unfold items at 4. cbn [concat]. fold (items l). rewrite app_assoc. f_equal.
  destruct p as [|x p]; [cbn; now rewrite app_nil_r|]. rewrite append_group_eq by discriminate.
  unfold items. rewrite concat_app. cbn. now rewrite app_nil_r.
Qed.
Lemma items_copy : forall l, items (copy_list l) = items l.
Proof. intros l. unfold copy_list. now rewrite items_fold_groups. Qed.
Lemma copy_nonempty : forall l, nonempty_groups l -> copy_list l = l.
Proof. intros l H. unfold copy_list. now rewrite groups_fold. Qed.
Lemma items_of_items : forall l, items (list_of_items l) = l.
Proof. intros l. unfold list_of_items. now rewrite items_extend. Qed.

(** What [merge] and everything built on it returns. *)
Definition merged (fl : option flag) (l : list range) (g : rlist) : Prop :=
  nonempty_groups g /\ regroup e None g = Ok g /\
  (forall z, Forall (wf_range d z) l -> Forall (wf_range d z) (items g)) /\
  mergeable e fl (items g) /\ canonical e fl (items g) /\ same_verses d (zf fl) (items g) l.

Lemma merged_ok : forall fl l, Forall wft (items l) -> mergeable e fl (items l) ->
  exists g, merge e fl l = Ok g /\ merged fl (items l) g.
Proof. intros fl l Hw Hm. destruct (merge_ok e Hwf fl l Hw Hm) as (g & E & H). exists g. split; [exact E|exact H]. Qed.

Lemma merged_unique : forall fl l l' g g', Forall (wf_range d (zf fl)) l -> Forall (wf_range d (zf fl)) l' ->
  merged fl l g -> merged fl l' g' -> same_verses d (zf fl) l l' -> g = g'.
Proof.
  intros fl l l' g g' Hw Hw' (N & Rg & W & M & C & S) (N' & Rg' & W' & M' & C' & S') Hs.
  assert (E : items g = items g').
  { eapply (canonical_unique e Hwf fl); eauto. intros v Hv. rewrite (S v Hv), (S' v Hv). now apply Hs. }
  unfold regroup in *. rewrite E in Rg. congruence.
Qed.
Lemma merged_shortest : forall fl l l' g, Forall (wf_range d (zf fl)) l -> Forall (wf_range d (zf fl)) l' ->
  merged fl l g -> mergeable e fl l' -> same_verses d (zf fl) l l' -> (length (items g) <= length l')%nat.
Proof.
  intros fl l l' g Hw Hw' (N & Rg & W & M & C & S) Hm Hs.
  eapply (canonical_shortest e Hwf fl); eauto. intros v Hv. rewrite (S v Hv). now apply Hs.
Qed.

Lemma Forall_app2 : forall {A} (P : A -> Prop) l m, Forall P (l ++ m) -> Forall P l /\ Forall P m.
Proof. intros A P l m H. now apply Forall_app in H. Qed.

(** ** Union *)
Lemma union_ok : forall fl l x, Forall wft (items l ++ ref_list x) -> mergeable e fl (items l ++ ref_list x) ->
  exists g, union_update e l x fl = Ok g /\ l_union e l x fl = Ok g /\ merged fl (items l ++ ref_list x) g.
Proof.
  intros fl l x Hw Hm. destruct (Forall_app2 _ _ _ Hw) as (W1 & W2).
  assert (Hu : forall l', items l' = items l -> exists g, union_update e l' x fl = Ok g /\ merged fl (items l ++ ref_list x) g /\
     union_update e l' x fl = merge e fl (g_extend (ref_list x) l')).
  { intros l' E. unfold union_update. rewrite ref_ranges_ok by auto. cbn [bind].
    assert (Ei : items (g_extend (ref_list x) l') = items l ++ ref_list x) by now rewrite items_extend, E.
    destruct (merged_ok fl (g_extend (ref_list x) l')) as (g & Eg & Hg); rewrite ?Ei; auto. rewrite Ei in Hg.
    exists g. auto. }
  destruct (Hu l eq_refl) as (g & E1 & M1 & R1).
  destruct (Hu (copy_list l) (items_copy l)) as (g' & E2 & M2 & R2).
  exists g. split; [exact E1|]. split; [|exact M1]. unfold l_union. rewrite R2.
  rewrite <- E1, R1. unfold merge. now rewrite !items_extend, items_copy.
Qed.

(** ** Intersection *)
Notation meets_ok := (SpecList.meets_ok e).
Lemma overlap_dec : forall a b, wft a -> wft b -> overlap d a b \/ ~ overlap d a b.
Proof. intros a b Ha Hb. destruct (intersection_cases e Hwf a b None Ha Hb) as [(H & _)|(H & _)]; auto. Qed.

Lemma meets_ok_mergeable : forall fl l m, Forall wft l -> Forall wft m -> mergeable e fl l -> meets_ok fl l m.
Proof.
  intros fl l m Hl Hm Hg a b c Ha Hb Ho Hc. rewrite Forall_forall in Hl, Hm.
  destruct (mergeable_in e fl _ a Hg Ha) as [K|K]; [now left|right].
  assert (c = meet e a b) by (apply (meet_of_eq e Hwf); auto). subst c.
  assert (Wm : wft (meet e a b)) by (apply meet_wf; auto).
  apply (one_book_in e Hwf a); auto; apply (InR_meet e Hwf _ a b); auto; [now apply (InR_start e Hwf)|now apply (InR_end e Hwf)].
Qed.
Lemma InL_dec : forall v l, Forall wft l -> InL d v l \/ ~ InL d v l.
Proof.
  intros v l H. destruct (in_dec verse_eq_dec v (bible_verses d true)) as [Hv|Hv].
  2:{ right. intros (r & _ & Hr). apply (InR_pos e Hwf) in Hr. now apply Hv. }
  induction H as [|r l Hr Hl IH]; [right; apply InL_nil|]. rewrite InL_cons, (InR_wf e Hwf v r Hr).
  destruct (Z_le_gt_dec (pos (rstart r)) (pos v)); destruct (Z_le_gt_dec (pos v) (pos (rend r)));
    destruct IH as [IH|IH]; try tauto; try (left; left; split; [exact Hv|lia]); right; intros [(_ & K)|K]; try lia; tauto.
Qed.

Lemma meets_with_ok : forall fl a bs, wft a -> Forall wft bs -> meets_ok fl [a] bs ->
  exists ms, meets_with e fl a bs = Ok ms /\
    (forall z, wf_range d z a -> Forall (wf_range d z) bs -> Forall (wf_range d z) ms) /\ mergeable e fl ms /\
    forall v, InL d v ms <-> InR d v a /\ InL d v bs.
Proof.
  intros fl a. induction bs as [|b bs IH]; intros Ha Hb Hm.
  - exists []. split; [reflexivity|]. split; [constructor|]. split; [right; constructor|].
    intros v. split; intros H; [now apply InL_nil in H|destruct H as (_ & H); now apply InL_nil in H].
  - inversion Hb as [|? ? B1 B2]; subst. destruct IH as (ms & E & W & M & S); auto.
    { intros x y c Hx Hy. apply Hm; [exact Hx|now right]. }
    cbn [meets_with]. destruct (intersection_cases e Hwf a b fl Ha B1) as [(Ho & Ei)|(Ho & Ei)].
    + assert (Hmeet : multi_on e fl = true \/ one_book_range (meet e a b)).
      { apply (Hm a b); [now left|now left|exact Ho|]. apply (meet_of_meet e Hwf); auto. }
      rewrite Ei, multi_test_false by exact Hmeet. cbn [bind]. rewrite E. cbn [bind]. exists (meet e a b :: ms).
      split; [reflexivity|]. split.
      { intros z Z1 Z2. inversion Z2; subst. constructor; auto. apply meet_wf; auto. }
      split; [destruct Hmeet as [K|K]; [now left|]; destruct M as [M|M]; [now left|right; now constructor]|].
      intros v. rewrite InL_cons, S, InL_cons, (InR_meet e Hwf v a b) by auto. tauto.
    + rewrite Ei. cbn [bind]. rewrite E. cbn [bind]. exists ms. split; [reflexivity|]. split; [|split; [exact M|]].
      { intros z Z1 Z2. inversion Z2; subst. now apply W. }
      intros v. rewrite S, InL_cons. split; [tauto|]. intros (H1 & [H2|H2]); [|tauto].
      exfalso. apply Ho. exists v. auto.
Qed.
Lemma all_meets_ok : forall fl xs bs, Forall wft xs -> Forall wft bs -> meets_ok fl xs bs ->
  exists ms, all_meets e fl xs bs = Ok ms /\
    (forall z, Forall (wf_range d z) xs -> Forall (wf_range d z) bs -> Forall (wf_range d z) ms) /\ mergeable e fl ms /\
    forall v, InL d v ms <-> InL d v xs /\ InL d v bs.
Proof.
  intros fl. unfold all_meets. induction xs as [|a xs IH]; intros bs Ha Hb Hm.
  - exists []. split; [reflexivity|]. split; [constructor|]. split; [right; constructor|].
    intros v. split; [intros H; now apply InL_nil in H|intros (H & _); now apply InL_nil in H].
  - inversion Ha as [|? ? A1 A2]; subst. destruct (IH bs) as (ms & E & W & M & S); auto.
    { intros x y c Hx Hy. apply Hm; [now right|exact Hy]. }
    destruct (meets_with_ok fl a bs A1 Hb) as (m1 & E1 & W1 & M1 & S1).
    { intros x y c [<-|[]] Hy. apply Hm; [now left|exact Hy]. }
    cbn [mapM]. rewrite E1. cbn [bind]. destruct (mapM _ xs) as [ls|] eqn:El; [|discriminate]. cbn [bind] in *.
    injection E as <-. cbn [concat]. exists (m1 ++ concat ls). split; [reflexivity|]. split.
    { intros z Z1 Z2. inversion Z1; subst. apply Forall_app. auto. }
    split; [now apply mergeable_app|]. intros v. rewrite InL_app, S, S1, InL_cons. tauto.
Qed.
Lemma intersection_ok : forall fl l x, Forall wft (items l) -> Forall wft (ref_list x) -> meets_ok fl (items l) (ref_list x) ->
  exists g ms, l_intersection e l x fl = Ok g /\ merged fl ms g /\
    (forall z, Forall (wf_range d z) (items l) -> Forall (wf_range d z) (ref_list x) -> Forall (wf_range d z) ms) /\
    forall v, InL d v ms <-> InL d v (items l) /\ InL d v (ref_list x).
Proof.
  intros fl l x Hl Hx Hm. unfold l_intersection. rewrite ref_ranges_ok by auto. cbn [bind].
  destruct (all_meets_ok fl (items l) (ref_list x) Hl Hx Hm) as (ms & E & W & M & S). rewrite E. cbn [bind].
  destruct (merged_ok fl (list_of_items ms)) as (g & Eg & Hg); rewrite ?items_of_items in *; auto.
  exists g, ms. auto.
Qed.
Lemma meets_with_err : forall fl a bs, wft a -> Forall wft bs ->
  (exists ms, meets_with e fl a bs = Ok ms) \/ meets_with e fl a bs = Err Multibook.
Proof.
  intros fl a. induction bs as [|b bs IH]; intros Ha Hb; [left; eexists; reflexivity|].
  inversion Hb as [|? ? B1 B2]; subst. cbn [meets_with].
  destruct (intersection_cases e Hwf a b fl Ha B1) as [(_ & ->)|(_ & ->)].
  - destruct (negb _ && _); [now right|]. cbn [bind]. destruct (IH Ha B2) as [(ms & ->)| ->]; [left; eexists; reflexivity|now right].
  - cbn [bind]. destruct (IH Ha B2) as [(ms & ->)| ->]; [left; eexists; reflexivity|now right].
Qed.
Lemma intersection_multibook : forall fl l x a b c, Forall wft (items l) -> Forall wft (ref_list x) ->
  In a (items l) -> In b (ref_list x) -> overlap d a b -> meet_of d a b c ->
  multi_on e fl = false -> ~ one_book_range c -> l_intersection e l x fl = Err Multibook.
Proof.
  intros fl l x a b c Hl Hx Ha Hb Ho Hc Hm Hn. unfold l_intersection. rewrite ref_ranges_ok by auto. cbn [bind].
  set (bs := ref_list x) in *. clearbody bs. unfold all_meets.
  assert (E : mapM (fun a => meets_with e fl a bs) (items l) = Err Multibook); [|now rewrite E].
  revert Hl Ha. generalize (items l) as xs. induction xs as [|y xs IH]; intros Hl Ha; [destruct Ha|].
  inversion Hl as [|? ? L1 L2]; subst. cbn [mapM].
  destruct (meets_with_err fl y bs L1 Hx) as [(ms & E)|E]; rewrite E; cbn [bind]; [|reflexivity].
  destruct Ha as [->|Ha]; [exfalso|now rewrite IH].
  assert (Hw : meets_with e fl a bs = Err Multibook); [|congruence]. clear E ms.
  rewrite Forall_forall in Hx. clear - Hwf Hx Hb Ho Hc Hm Hn L1.
  induction bs as [|y bs IH]; [destruct Hb|]. cbn [meets_with].
  destruct (intersection_cases e Hwf a y fl L1 (Hx y (or_introl eq_refl))) as [(Hy & E)|(Hy & E)].
  - destruct Hb as [->|Hb].
    + assert (Hmt : c = meet e a b) by (apply (meet_of_eq e Hwf); auto; apply Hx; now left). subst c.
      rewrite E. replace (negb (multi_on e fl) && _) with true; [reflexivity|]. symmetry. apply (multi_test e). auto.
    + rewrite E. destruct (negb _ && _); [reflexivity|]. cbn [bind]. rewrite IH; auto. intros; apply Hx; now right.
  - rewrite E. cbn [bind]. destruct Hb as [->|Hb]; [tauto|]. rewrite IH; auto. intros; apply Hx; now right.
Qed.

(** ** Contains and disjoint *)
Lemma canonical_contains : forall fl m b, Forall (wf_range d (zf fl)) m -> canonical e fl m -> wf_range d (zf fl) b ->
  (multi_on e fl = true \/ one_book_range b) ->
  ((exists a, In a m /\ forall v, InR d v b -> InR d v a) <-> forall v, InB d (zf fl) v -> InR d v b -> InL d v m).
Proof.
  intros fl m b Hw Hc Hb Hm. pose proof (wf_range_mono e _ _ Hb) as Tb. split.
  - intros (a & Ha & H) v _ Hv. exists a. auto.
  - intros H. destruct (H (rstart b)) as (a & Ha & Ia); [apply Hb|now apply (InR_start e Hwf)|].
    exists a. split; [exact Ha|]. assert (Wa : wf_range d (zf fl) a) by (rewrite Forall_forall in Hw; auto).
    pose proof (wf_range_mono e _ _ Wa) as Ta. apply (InR_pos e Hwf) in Ia.
    destruct (Z_le_gt_dec (pos (rend b)) (pos (rend a))) as [K|K].
    + intros v Hv. apply (InR_pos e Hwf) in Hv. apply (InR_pos e Hwf). repeat split; try tauto; lia.
    + exfalso. pose proof Wa as (_ & A2 & _). pose proof Hb as (_ & B2 & _).
      destruct (succ_exists e Hwf (zf fl) (rend a) (rend b) A2 B2) as (w & F & Ww & Hp); [lia|].
      assert (Iw : InR d w b) by (apply (InR_pos e Hwf); repeat split; try tauto; try (eapply (InB_mono e); eauto); try apply Tb; lia).
      assert (Ie : InR d (rend a) b) by (apply (InR_pos e Hwf); repeat split; try tauto; try apply Tb; lia).
      apply in_split in Ha. destruct Ha as (m1 & m2 & ->).
      eapply (canonical_gap e Hwf fl m1 a m2 w); auto.
      destruct Hm as [Hm|Hm]; [now left|right]. apply (one_book_in e Hwf b); auto.
Qed.
Lemma contains_ok : forall fl l x, Forall (wf_range d (zf fl)) (items l) -> Forall (wf_range d (zf fl)) (ref_list x) ->
  mergeable e fl (items l) -> mergeable e fl (ref_list x) ->
  exists b, l_contains e l x fl = Ok b /\
    (b = true <-> forall v, InB d (zf fl) v -> InL d v (ref_list x) -> InL d v (items l)).
Proof.
  intros fl l x Hl Hx Ml Mx.
  assert (Tx : Forall wft (ref_list x)) by (eapply Forall_impl; [|exact Hx]; intros; eapply (wf_range_mono e); eauto).
  assert (Tl : Forall wft (items l)) by (eapply Forall_impl; [|exact Hl]; intros; eapply (wf_range_mono e); eauto).
  unfold l_contains. rewrite ref_ranges_ok by auto. cbn [bind].
  destruct (merged_ok fl (copy_list l)) as (g & E & (N & Rg & W & M & C & S)); rewrite ?items_copy in *; auto.
  rewrite E. cbn [bind]. eexists. split; [reflexivity|]. rewrite forallb_forall.
  specialize (W (zf fl) Hl).
  assert (Hone : forall b, In b (ref_list x) ->
     (existsb (fun a => contains e a b) (items g) = true <-> forall v, InB d (zf fl) v -> InR d v b -> InL d v (items l))).
  { intros b Hb. rewrite existsb_exists.
    assert (Wb : wf_range d (zf fl) b) by (rewrite Forall_forall in Hx; auto).
    pose proof (canonical_contains fl (items g) b W C Wb (mergeable_in e fl _ b Mx Hb)) as Hcc.
    assert (Hset : (forall v, InB d (zf fl) v -> InR d v b -> InL d v (items g)) <->
                   (forall v, InB d (zf fl) v -> InR d v b -> InL d v (items l))).
    { split; intros H v Hv Hr; apply S; auto. }
    rewrite <- Hset, <- Hcc. split; intros (a & Ha & Hca); exists a; (split; [exact Ha|]).
    - apply (contains_spec e Hwf); auto; [|eapply (wf_range_mono e); eauto].
      rewrite Forall_forall in W. eapply (wf_range_mono e). eauto.
    - apply (contains_spec e Hwf); auto; [|eapply (wf_range_mono e); eauto].
      rewrite Forall_forall in W. eapply (wf_range_mono e). eauto. }
  split.
  - intros H v Hv (b & Hb & Ib). apply (proj1 (Hone b Hb) (H b Hb)); auto.
  - intros H b Hb. apply Hone; auto. intros v Hv Ib. apply H; auto. exists b. auto.
Qed.
Lemma is_disjoint_ok : forall l x, Forall wft (items l) -> Forall wft (ref_list x) ->
  exists b, l_is_disjoint e l x = Ok b /\ (b = true <-> ~ exists v, InL d v (items l) /\ InL d v (ref_list x)).
Proof.
  intros l x Hl Hx. unfold l_is_disjoint. rewrite ref_ranges_ok by auto. cbn [bind]. eexists. split; [reflexivity|].
  rewrite forallb_forall. rewrite Forall_forall in *. split.
  - intros H (v & (a & Ha & Ia) & (b & Hb & Ib)). specialize (H a Ha). rewrite forallb_forall in H. specialize (H b Hb).
    apply (disjoint_spec e Hwf) in H; auto. apply H. exists v. auto.
  - intros H a Ha. apply forallb_forall. intros b Hb. apply (disjoint_spec e Hwf); auto. intros (v & Ia & Ib).
    apply H. exists v. split; [exists a|exists b]; auto.
Qed.

(** ** Range, chapter range and book range *)
Lemma min_from_ok : forall l m, Forall wft (m :: l) -> let r := min_from e m l in
  In r (m :: l) /\ forall x, In x (m :: l) -> rleb e r x = true.
Proof.
  induction l as [|x l IH]; intros m Hw.
  - cbn. split; [now left|]. intros x [<-|[]]. inversion Hw; subst. destruct (rleb_total e Hwf m m); auto.
  - inversion Hw as [|? ? Wm W']; subst. inversion W' as [|? ? Wx W'']; subst. cbn [min_from]. cbn zeta.
    set (k := if rltb e x m then x else m). assert (Wk : wft k) by (subst k; destruct (rltb e x m); auto).
    destruct (IH k) as (H1 & H2); [now constructor|]. cbn zeta in *.
    assert (Wr : wft (min_from e k l)).
    { assert (Wkl : Forall wft (k :: l)) by now constructor. rewrite Forall_forall in Wkl. auto. }
    assert (Hk : rleb e k m = true /\ rleb e k x = true).
    { subst k. unfold rleb. destruct (rltb e x m) eqn:E.
      - rewrite !negb_true_iff. split; [|].
        + rewrite (rltb_pos e Hwf) in * by auto. rewrite orb_true_iff, andb_true_iff in E. rewrite !Z.ltb_lt, Z.eqb_eq in E.
          apply not_true_is_false. rewrite orb_true_iff, andb_true_iff, !Z.ltb_lt, Z.eqb_eq. lia.
        + rewrite (rltb_pos e Hwf) by auto. apply not_true_is_false. rewrite orb_true_iff, andb_true_iff, !Z.ltb_lt, Z.eqb_eq. lia.
      - rewrite E. split; [|reflexivity].
        rewrite (rltb_pos e Hwf) by auto. rewrite negb_true_iff. apply not_true_is_false. rewrite orb_true_iff, andb_true_iff, !Z.ltb_lt, Z.eqb_eq. lia. }
    split.
    + destruct H1 as [H1|H1]; [|right; now right]. rewrite <- H1. subst k. destruct (rltb e x m); [right; now left|now left].
    + intros y Hy. assert (Hky : rleb e (min_from e k l) k = true) by (apply H2; now left).
      destruct Hy as [<-|[<-|Hy]].
      * eapply (rleb_trans e Hwf _ k); try tauto.
      * eapply (rleb_trans e Hwf _ k); try tauto.
      * apply H2. now right.
Qed.
Lemma max_from_ok : forall l m, Forall wft (m :: l) -> let r := max_from e m l in
  In r (m :: l) /\ forall x, In x (m :: l) -> rleb e x r = true.
Proof.
  induction l as [|x l IH]; intros m Hw.
  - cbn. split; [now left|]. intros x [<-|[]]. inversion Hw; subst. destruct (rleb_total e Hwf m m); auto.
  - inversion Hw as [|? ? Wm W']; subst. inversion W' as [|? ? Wx W'']; subst. cbn [max_from]. cbn zeta.
    set (k := if rltb e m x then x else m). assert (Wk : wft k) by (subst k; destruct (rltb e m x); auto).
    destruct (IH k) as (H1 & H2); [now constructor|]. cbn zeta in *.
    assert (Wr : wft (max_from e k l)).
    { assert (Wkl : Forall wft (k :: l)) by now constructor. rewrite Forall_forall in Wkl. auto. }
    assert (Hk : rleb e m k = true /\ rleb e x k = true).
    { subst k. destruct (rltb e m x) eqn:E.
      - rewrite !(rleb_pos e Hwf) by auto.
        rewrite (rltb_pos e Hwf) in E by auto. rewrite orb_true_iff, andb_true_iff in E. rewrite !Z.ltb_lt, Z.eqb_eq in E. lia.
      - split; [rewrite (rleb_pos e Hwf) by auto; lia|]. unfold rleb. now rewrite E. }
    split.
    + destruct H1 as [H1|H1]; [|right; now right]. rewrite <- H1. subst k. destruct (rltb e m x); [right; now left|now left].
    + intros y Hy. assert (Hky : rleb e k (max_from e k l) = true) by (apply H2; now left).
      destruct Hy as [<-|[<-|Hy]].
      * eapply (rleb_trans e Hwf _ k); try tauto.
      * eapply (rleb_trans e Hwf _ k); try tauto.
      * apply H2. now right.
Qed.
Lemma l_min_max : forall l, Forall wft (items l) -> items l <> [] ->
  exists a b, l_min e l = Ok a /\ l_max e l = Ok b /\ In a (items l) /\ In b (items l) /\
    (forall x, In x (items l) -> rleb e a x = true) /\ (forall x, In x (items l) -> rleb e x b = true).
Proof.
  intros l Hw Hne. unfold l_min, l_max. destruct (items l) as [|x xs]; [congruence|].
  destruct (min_from_ok xs x Hw) as (A & A'). destruct (max_from_ok xs x Hw) as (B & B'). do 2 eexists. repeat split; eauto.
Qed.

(** The exact value: from the least start to the end of the range that comes last. *)
Lemma l_range_eq : forall l, Forall wft (items l) -> items l <> [] ->
  exists a b, In a (items l) /\ In b (items l) /\ l_range e l = Ok (R (rstart a) (rend b)) /\
    (forall x, In x (items l) -> rleb e a x = true) /\ (forall x, In x (items l) -> rleb e x b = true).
Proof.
  intros l Hw Hne. destruct (l_min_max l Hw Hne) as (a & b & Ea & Eb & Ia & Ib & Ha & Hb).
  exists a, b. split; [exact Ia|]. split; [exact Ib|]. split; [|auto]. unfold l_range. rewrite Ea, Eb. cbn [bind].
  rewrite Forall_forall in Hw. pose proof (Hw a Ia) as Wa. pose proof (Hw b Ib) as Wb.
  apply new_range_all; [apply Wa|apply Wb|]. specialize (Ha b Ib). apply (rleb_pos e Hwf) in Ha; auto.
  apply (wf_range_pos e Hwf) in Wb. lia.
Qed.
Lemma stagger_max : forall l b, Forall wft l -> staggered d l -> In b l -> (forall x, In x l -> rleb e x b = true) ->
  forall x, In x l -> pos (rend x) <= pos (rend b).
Proof.
  intros l b Hw Hs Hb Hmax x Hx. rewrite Forall_forall in Hw. pose proof (Hw x Hx) as Wx. pose proof (Hw b Hb) as Wb.
  specialize (Hmax x Hx). apply (rleb_pos e Hwf) in Hmax; auto. destruct Hmax as [H|H]; [|lia].
  specialize (Hs x b Hx Hb). rewrite (vlt_pos e Hwf), (vle_pos e Hwf) in Hs.
  apply Hs. repeat split; auto; [apply Wx|apply Wb].
Qed.

(** Least covers whose ends are moved outwards by monotone maps. *)
Lemma cover_gen : forall z (Q : range -> Prop) l a b (f g : verse -> verse),
  Forall (wf_range d z) l -> In a l -> In b l ->
  (forall x, In x l -> pos (rstart a) <= pos (rstart x)) -> (forall x, In x l -> pos (rend x) <= pos (rend b)) ->
  (forall v, InB d z v -> InB d z (f v) /\ pos (f v) <= pos v) ->
  (forall v, InB d z v -> InB d z (g v) /\ pos v <= pos (g v)) ->
  (forall s t, InB d z s -> InB d z t -> Q (R (f s) (g t))) ->
  (forall r s, wf_range d z r -> Q r -> InB d z s -> pos (rstart r) <= pos s <= pos (rend r) ->
     pos (rstart r) <= pos (f s) /\ pos (g s) <= pos (rend r)) ->
  least_cover d z Q l (R (f (rstart a)) (g (rend b))).
Proof.
  intros z Q l a b f g Hw Ia Ib Ha Hb Hf Hg HQ Hout. rewrite Forall_forall in Hw.
  pose proof (Hw a Ia) as Wa. pose proof (Hw b Ib) as Wb. pose proof Wa as (A1 & A2 & _). pose proof Wb as (B1 & B2 & _).
  destruct (Hf _ A1) as (F1 & F2). destruct (Hg _ B2) as (G1 & G2).
  apply (wf_range_pos e Hwf) in Wa, Wb. pose proof (Ha b Ib) as Hab.
  split; [apply (wf_range_pos e Hwf); cbn; repeat split; auto; lia|]. split; [auto|]. split.
  - intros v (x & Hx & Ix). specialize (Ha x Hx). specialize (Hb x Hx). apply (InR_pos e Hwf) in Ix.
    apply (InR_pos e Hwf). cbn. repeat split; try tauto; try (eapply (InB_mono e); eauto); lia.
  - intros r' Wr' Qr' Hc v Hv. apply (InR_pos e Hwf) in Hv. cbn in Hv.
    assert (Is : InR d (rstart a) r') by (apply Hc; exists a; split; [exact Ia|apply (InR_start e Hwf); eapply (wf_range_mono e); eauto]).
    assert (It : InR d (rend b) r') by (apply Hc; exists b; split; [exact Ib|apply (InR_end e Hwf); eapply (wf_range_mono e); eauto]).
    apply (InR_pos e Hwf) in Is, It. apply (InR_pos e Hwf).
    pose proof (Hout r' (rstart a) Wr' Qr' A1 ltac:(lia)). pose proof (Hout r' (rend b) Wr' Qr' B2 ltac:(lia)).
    repeat split; try tauto; lia.
Qed.
Lemma l_range_least : forall z l, Forall (wf_range d z) (items l) -> items l <> [] -> staggered d (items l) ->
  exists r, l_range e l = Ok r /\ least_cover d z (fun _ => True) (items l) r.
Proof.
  intros z l Hz Hne Hs.
  assert (Hw : Forall wft (items l)) by (eapply Forall_impl; [|exact Hz]; intros; eapply (wf_range_mono e); eauto).
  destruct (l_range_eq l Hw Hne) as (a & b & Ia & Ib & E & Ha & Hb). eexists. split; [exact E|].
  apply (cover_gen z (fun _ => True) (items l) a b (fun v => v) (fun v => v)); auto.
  - intros x Hx. specialize (Ha x Hx). rewrite Forall_forall in Hw. apply (rleb_pos e Hwf) in Ha; auto. lia.
  - apply stagger_max; auto.
  - intros; split; [auto|lia].
  - intros; split; [auto|lia].
Qed.

Lemma multi_flag : forall fl, let f := flag_or (eff e fl) MULTIBOOK in
  zero_on e (Some f) = zf fl /\ multi_on e (Some f) = true.
Proof.
  intros fl f. rewrite <- !zero_on_eq, <- multi_on_eq. unfold f. rewrite (stable_or_multi e (eff e fl)).
  destruct (eff e fl) as [m z]. cbn. now rewrite orb_false_r, orb_true_r.
Qed.

Lemma unit_first_pos : forall z v oc, InB d z v -> (oc = None \/ oc = Some (vchap v)) ->
  let u := whole_unit (vbook v) oc in
  InB d z (unit_first d z u) /\ InB d z (unit_last d u) /\ pos (unit_first d z u) <= pos v <= pos (unit_last d u) /\
  (forall w, InB d z w -> (pos (unit_first d z u) <= pos w <= pos (unit_last d u) <-> in_unit u w)).
Proof.
  intros z v oc Hv Hoc u. pose proof (InB_mono e _ _ Hv) as Tv.
  destruct (unit_facts z v oc Tv Hoc) as (Hb & Hok). fold u in Hok.
  assert (Hub : In (unit_book u) (book_order d)) by (unfold u; now rewrite whole_unit_book). clear Hb. rename Hub into Hb.
  pose proof (unit_bounds e Hwf z u Hb Hok) as (F & L & _).
  split; [exact F|]. split; [exact L|].
  assert (Hin : in_unit u v) by (subst u; destruct Hoc as [-> | ->]; cbn; auto).
  split; [apply (in_unit_pos e Hwf z u v Hb Hok Hv); exact Hin|].
  intros w Hw. symmetry. now apply (in_unit_pos e Hwf z u w Hb Hok).
Qed.

(** Whole chapters (oc = Some) or books. *)
Definition whole_q (chaps : bool) (z : bool) : range -> Prop := if chaps then whole_chaps d z else whole_books d z.
Definition unit_at (chaps : bool) (v : verse) : unit_ref := if chaps then chap_at v else book_at v.
Lemma unit_at_whole : forall chaps v, exists oc, (oc = None \/ oc = Some (vchap v)) /\ unit_at chaps v = whole_unit (vbook v) oc.
Proof. intros [] v; [exists (Some (vchap v))|exists None]; auto. Qed.
Lemma units_cover : forall chaps z l a b, Forall (wf_range d z) l -> In a l -> In b l ->
  (forall x, In x l -> pos (rstart a) <= pos (rstart x)) -> (forall x, In x l -> pos (rend x) <= pos (rend b)) ->
  least_cover d z (whole_q chaps z) l
    (R (unit_first d z (unit_at chaps (rstart a))) (unit_last d (unit_at chaps (rend b)))).
Proof.
  intros chaps z l a b Hw Ia Ib Ha Hb.
  apply (cover_gen z (whole_q chaps z) l a b (fun v => unit_first d z (unit_at chaps v)) (fun v => unit_last d (unit_at chaps v))); auto.
  - intros v Hv. destruct (unit_at_whole chaps v) as (oc & Hoc & ->).
    destruct (unit_first_pos z v oc Hv Hoc) as (F & L & P & _). split; [exact F|lia].
  - intros v Hv. destruct (unit_at_whole chaps v) as (oc & Hoc & ->).
    destruct (unit_first_pos z v oc Hv Hoc) as (F & L & P & _). split; [exact L|lia].
  - intros s t _ _. destruct chaps; split; reflexivity.
  - intros r s Wr Qr Hs Hp.
    assert (Hu : exists os ot, (os = None \/ os = Some (vchap (rstart r))) /\ (ot = None \/ ot = Some (vchap (rend r))) /\
       rstart r = unit_first d z (whole_unit (vbook (rstart r)) os) /\ rend r = unit_last d (whole_unit (vbook (rend r)) ot) /\
       (os = None <-> chaps = false) /\ (ot = None <-> chaps = false)).
    { destruct chaps; destruct Qr as (Q1 & Q2).
      - exists (Some (vchap (rstart r))), (Some (vchap (rend r))). do 2 (split; [now right|]). repeat split; auto; discriminate.
      - exists None, None. do 2 (split; [now left|]). repeat split; auto. }
    destruct Hu as (os & ot & Hos & Hot & Q1 & Q2 & O1 & O2).
    destruct (unit_at_whole chaps s) as (oc & Hoc & Eu). rewrite Eu.
    assert (O3 : oc = None <-> chaps = false).
    { destruct chaps; unfold unit_at, chap_at, book_at in Eu; destruct oc; cbn in Eu; split; congruence. }
    destruct (unit_first_pos z s oc Hs Hoc) as (F & L & P & U).
    pose proof Wr as (R1 & R2 & _).
    destruct (unit_first_pos z (rstart r) os R1 Hos) as (F1 & L1 & P1 & U1).
    destruct (unit_first_pos z (rend r) ot R2 Hot) as (F2 & L2 & P2 & U2).
    rewrite <- Q1 in *. rewrite <- Q2 in *.
    split.
    + destruct (Z_le_gt_dec (pos (rstart r)) (pos (unit_first d z (whole_unit (vbook s) oc)))) as [K|K]; [exact K|exfalso].
      assert (In1 : in_unit (whole_unit (vbook s) oc) (rstart r)) by (apply U; auto; lia).
      assert (In2 : in_unit (whole_unit (vbook (rstart r)) os) (unit_first d z (whole_unit (vbook s) oc))).
      { destruct oc as [c|], os as [c'|]; cbn in *;
        try (exfalso; destruct O1, O3; intuition congruence); try congruence;
        destruct Hoc as [?|[= ->]]; try congruence; destruct Hos as [?|[= ->]]; try congruence; destruct In1; split; congruence. }
      apply U1 in In2; auto. lia.
    + destruct (Z_le_gt_dec (pos (unit_last d (whole_unit (vbook s) oc))) (pos (rend r))) as [K|K]; [exact K|exfalso].
      assert (In1 : in_unit (whole_unit (vbook s) oc) (rend r)) by (apply U; auto; lia).
      assert (In2 : in_unit (whole_unit (vbook (rend r)) ot) (unit_last d (whole_unit (vbook s) oc))).
      { destruct oc as [c|], ot as [c'|]; cbn in *;
        try (exfalso; destruct O2, O3; intuition congruence); try congruence;
        destruct Hoc as [?|[= ->]]; try congruence; destruct Hot as [?|[= ->]]; try congruence; destruct In1; split; congruence. }
      apply U2 in In2; auto. lia.
Qed.
Lemma unit_range_value : forall chaps fl a b, InB d true a -> InB d true b -> pos a <= pos b ->
  can_start e fl (unit_at chaps a) ->
  let f := flag_or (eff e fl) MULTIBOOK in let oc v := if chaps then Some (vchap v) else None in
  (s <- first_verse e (vbook a) (oc a) (Some f) ;; t <- last_verse e (vbook b) (oc b) ;; new_range e s t (Some f)) =
  Ok (R (unit_first d (zf fl) (unit_at chaps a)) (unit_last d (unit_at chaps b))).
Proof.
  intros chaps fl a b Ha Hb Hle Hc f oc. destruct (multi_flag fl) as (Zf & Mf). fold f in Zf, Mf.
  assert (Oa : oc a = None \/ oc a = Some (vchap a)) by (subst oc; destruct chaps; auto).
  assert (Ob : oc b = None \/ oc b = Some (vchap b)) by (subst oc; destruct chaps; auto).
  assert (Ua : unit_at chaps a = whole_unit (vbook a) (oc a)) by (subst oc; destruct chaps; auto).
  assert (Ub : unit_at chaps b = whole_unit (vbook b) (oc b)) by (subst oc; destruct chaps; auto).
  destruct (unit_facts (zf fl) a (oc a) Ha Oa) as (B1 & K1).
  destruct (unit_facts (zf fl) b (oc b) Hb Ob) as (B2 & K2). rewrite Ua in *. rewrite Ub.
  assert (Hfv : first_verse e (vbook a) (oc a) (Some f) = Ok (unit_first d (zf fl) (whole_unit (vbook a) (oc a)))).
  { rewrite <- Zf. apply (first_verse_unit e Hwf); auto; [now rewrite Zf|].
    clear - Hc Zf. destruct (oc a); cbn [whole_unit can_start] in *; rewrite Zf; exact Hc. }
  rewrite Hfv. cbn [bind]. rewrite (last_verse_unit e Hwf) by (auto; eapply (whole_unit_ok e); eauto). cbn [bind].
  assert (I1 : InB d true (unit_first d (zf fl) (whole_unit (vbook a) (oc a)))).
  { eapply (InB_mono e). apply (unit_bounds e Hwf (zf fl)); rewrite ?whole_unit_book; auto. }
  assert (I2 : InB d true (unit_last d (whole_unit (vbook b) (oc b)))).
  { eapply (InB_mono e). apply (unit_bounds e Hwf (zf fl)); rewrite ?whole_unit_book; auto. }
  rewrite (new_range_eq e Hwf) by auto. rewrite Mf. cbn [negb andb].
  assert (Hpos : pos (unit_first d (zf fl) (whole_unit (vbook a) (oc a))) <= pos (unit_last d (whole_unit (vbook b) (oc b)))).
  { destruct (unit_first_pos true b (oc b) Hb Ob) as (_ & _ & P & _).
    pose proof (InB_mono e _ _ Ha) as Ta.
    destruct (unit_first_pos true a (oc a) Ta Oa) as (Fa & La & Pa & Ua').
    (* the first verse of [a]'s unit is in the unit of [a], and not after its last verse *)
    destruct (Z_le_gt_dec (pos (unit_first d (zf fl) (whole_unit (vbook a) (oc a)))) (pos b)) as [K|K]; [lia|].
    assert (Hin : in_unit (whole_unit (vbook a) (oc a)) (unit_first d (zf fl) (whole_unit (vbook a) (oc a)))).
    { destruct (oc a); cbn; auto. }
    apply Ua' in Hin; auto.
    assert (Hib : in_unit (whole_unit (vbook a) (oc a)) b) by (apply Ua'; auto; lia).
    assert (Esame : unit_last d (whole_unit (vbook b) (oc b)) = unit_last d (whole_unit (vbook a) (oc a))).
    { subst oc. destruct chaps; cbn in *; [destruct Hib as (-> & ->)|rewrite Hib]; reflexivity. }
    rewrite Esame. lia. }
  destruct (pos _ <? pos _) eqn:E; [apply Z.ltb_lt in E; lia|reflexivity].
Qed.
Lemma r_chap_range_ok : forall r fl, wf_range d (zf fl) r -> can_start e fl (chap_at (rstart r)) ->
  exists c, r_chap_range e r fl = Ok c /\ least_cover d (zf fl) (whole_chaps d (zf fl)) [r] c.
Proof.
  intros r fl Hr Hc. pose proof (wf_range_mono e _ _ Hr) as Tr. eexists. split.
  - apply (unit_range_value true fl (rstart r) (rend r)); auto; try apply Tr. apply (wf_range_pos e Hwf) in Tr. lia.
  - apply (units_cover true (zf fl) [r] r r); auto; try (now left); try (intros x [<-|[]]; lia).
Qed.
Lemma r_book_range_ok : forall r fl, wf_range d (zf fl) r -> can_start e fl (book_at (rstart r)) ->
  exists c, r_book_range e r fl = Ok c /\ least_cover d (zf fl) (whole_books d (zf fl)) [r] c.
Proof.
  intros r fl Hr Hc. pose proof (wf_range_mono e _ _ Hr) as Tr. eexists. split.
  - apply (unit_range_value false fl (rstart r) (rend r)); auto; try apply Tr. apply (wf_range_pos e Hwf) in Tr. lia.
  - apply (units_cover false (zf fl) [r] r r); auto; try (now left); try (intros x [<-|[]]; lia).
Qed.
Lemma l_unit_range_ok : forall chaps l fl, Forall (wf_range d (zf fl)) (items l) -> items l <> [] -> staggered d (items l) ->
  (forall a, In a (items l) -> can_start e fl (unit_at chaps (rstart a))) ->
  exists c, (if chaps then l_chap_range e l fl else l_book_range e l fl) = Ok c /\
            least_cover d (zf fl) (whole_q chaps (zf fl)) (items l) c.
Proof.
  intros chaps l fl Hz Hne Hs Hc.
  assert (Hw : Forall wft (items l)) by (eapply Forall_impl; [|exact Hz]; intros; eapply (wf_range_mono e); eauto).
  destruct (l_min_max l Hw Hne) as (a & b & Ea & Eb & Ia & Ib & Ha & Hb).
  assert (Hmin : forall x, In x (items l) -> pos (rstart a) <= pos (rstart x)).
  { intros x Hx. specialize (Ha x Hx). rewrite Forall_forall in Hw. apply (rleb_pos e Hwf) in Ha; auto. lia. }
  assert (Hmax : forall x, In x (items l) -> pos (rend x) <= pos (rend b)) by (apply stagger_max; auto).
  exists (R (unit_first d (zf fl) (unit_at chaps (rstart a))) (unit_last d (unit_at chaps (rend b)))).
  split; [|apply units_cover; auto].
  rewrite Forall_forall in Hw. pose proof (Hw a Ia) as Wa. pose proof (Hw b Ib) as Wb.
  assert (Hle : pos (rstart a) <= pos (rend b)).
  { specialize (Hmin b Ib). apply (wf_range_pos e Hwf) in Wb. lia. }
  destruct chaps; unfold l_chap_range, l_book_range; rewrite Ea, Eb; cbn [bind].
  - apply (unit_range_value true fl (rstart a) (rend b)); auto; [apply Wa|apply Wb].
  - apply (unit_range_value false fl (rstart a) (rend b)); auto; [apply Wa|apply Wb].
Qed.

(** ** Sums and maps over the items *)
Lemma sumM_ok : forall l (f : range -> res Z) ns, Forall2 (fun r n => f r = Ok n) l ns -> sumM l f = Ok (fold_right Z.add 0 ns).
Proof.
  intros l f ns F. unfold sumM. assert (E : mapM f l = Ok ns); [|now rewrite E].
  induction F as [|r n l ns H F IH]; [reflexivity|]. cbn [mapM]. rewrite H. cbn [bind]. now rewrite IH.
Qed.
End ListOps.
