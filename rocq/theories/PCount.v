(** * PCount: the counts of verses, chapters and books of a range. *)
From Coq Require Import List ZArith Bool Lia Sorted.
From Verif Require Import Base Books Data MVerse MRange Spec PList PCore PNav PVerse PRange PSetOps PRuns PSplit.
Import ListNotations.
Open Scope Z_scope.

Section Count.
Variable e : env.
Notation d := (ed e).
Hypothesis Hwf : wf_data d.
Notation pos := (pos e).
Notation zg := (verse0 (eg e)).

(** ** The fuel of the counts is enough *)
Lemma runs_app_length : forall {A} (same : A -> A -> bool) l m,
  (length (runs same (l ++ m)) <= length (runs same l) + length (runs same m))%nat.
Proof.
  intros A same [|a l] m; [simpl; lia|]. destruct m as [|b m]; [rewrite app_nil_r; lia|].
  cbn [app]. rewrite !runs_length. pose proof (breaks_app same (a :: l) (b :: m)). cbn [app] in H. lia.
Qed.
Lemma runs_flat_map_length : forall {A B} (same : A -> A -> bool) (g : B -> list A) bs,
  (length (runs same (flat_map g bs)) <= fold_right (fun b n => length (runs same (g b)) + n) 0 bs)%nat.
Proof.
  intros A B same g bs. induction bs as [|b bs IH]; simpl; [lia|].
  pose proof (runs_app_length same (g b) (flat_map g bs)). lia.
Qed.
Lemma runs_chap_one : forall z b c, (length (runs same_ch (chap_verses d z b c)) <= 1)%nat.
Proof.
  intros z b c. destruct (chap_verses d z b c) as [|x l] eqn:E; [simpl; lia|].
  rewrite runs_one; [simpl; lia|]. intros v w Hv Hw. rewrite <- E in *.
  apply in_chap_verses in Hv. apply in_chap_verses in Hw. apply same_ch_iff.
  destruct Hv as [-> [-> _]]. destruct Hw as [-> [-> _]]. auto.
Qed.
Lemma runs_book : forall z b, In b (book_order d) ->
  (length (runs same_ch (book_verses d z b)) <= nchaps e b)%nat.
Proof.
  intros z b Hb. unfold book_verses. pose proof (nchaps_eq e Hwf b Hb) as Hn.
  eapply Nat.le_trans; [apply runs_flat_map_length|].
  assert (Hl : length (zrange 1 (num_chaps d b)) = nchaps e b) by (rewrite zrange_length; lia).
  rewrite <- Hl. clear Hl Hn. generalize (zrange 1 (num_chaps d b)). intros cs.
  induction cs as [|c cs IH]; simpl; [lia|].
  pose proof (runs_chap_one z b c). lia.
Qed.
Lemma runs_bible : forall z, (length (runs same_ch (bible_verses d z)) <= sum_nchaps e (book_order d))%nat.
Proof.
  intros z. unfold bible_verses. eapply Nat.le_trans; [apply runs_flat_map_length|].
  assert (H : forall bs, (forall b, In b bs -> In b (book_order d)) ->
    (fold_right (fun b n => length (runs same_ch (book_verses d z b)) + n) 0 bs <= sum_nchaps e bs)%nat).
  { induction bs as [|b bs IH]; intros Hin; [simpl; lia|]. cbn [fold_right sum_nchaps].
    fold (sum_nchaps e bs).
    pose proof (runs_book z b (Hin b (or_introl eq_refl))). specialize (IH (fun x H => Hin x (or_intror H))). lia. }
  apply H. auto.
Qed.
Lemma runs_fuel : forall z l, seg e z l -> (length (runs same_ch l) <= nav_fuel e)%nat.
Proof.
  intros z l [l1 [l3 H]]. pose proof (runs_segment same_ch l1 l l3) as Hs. rewrite <- H in Hs.
  pose proof (runs_bible z) as Hb. destruct (bible_verses d z) as [|v bv] eqn:E.
  - destruct l; [simpl; lia|]. destruct l1; discriminate.
  - rewrite runs_length in Hb. unfold nav_fuel. lia.
Qed.
Lemma breaks_bk_ch : forall l, (breaks same_bk l <= breaks same_ch l)%nat.
Proof.
  induction l as [|a l IH]; [simpl; lia|]. destruct l as [|b l]; [simpl; lia|]. rewrite !breaks_cons.
  destruct (same_bk a b) eqn:E; [lia|]. destruct (same_ch a b) eqn:E'; [|lia].
  apply same_ch_iff in E'. destruct E' as [E' _]. apply same_bk_iff in E'. congruence.
Qed.
Lemma runs_fuel_bk : forall z l, seg e z l -> (length (runs same_bk l) <= nav_fuel e)%nat.
Proof.
  intros z l H. apply runs_fuel in H. destruct l as [|a l]; [simpl; lia|]. rewrite runs_length in *.
  pose proof (breaks_bk_ch (a :: l)). lia.
Qed.

Lemma split_chaps : forall r fl l, verses_of d (split_zero e r fl) r l ->
  exists ps, split_items e (nav_fuel e) r false true None fl = Ok ps /\ Forall2 piece_of ps (runs same_ch l).
Proof.
  intros r fl l Hl. pose proof (split_flags_fits e Hwf r fl l Hl) as Hfit. unfold split_items. cbn [bind].
  set (f := split_flags e r fl) in *.
  destruct (split_all_ok (split_chap1 e f (nav_fuel e)) (runs same_ch) [r] [l]) as [qs [Hq Hq2]].
  - constructor; [destruct Hl as [_ Hl]; exact Hl|constructor].
  - intros p x [<-|[]] Hp.
    apply (split_unit_ok e Hwf same_ch _ same_ch_refl same_ch_sym same_ch_trans (unit_chap e Hwf)); auto.
    pose proof (runs_fuel _ _ (verses_of_seg e _ _ _ Hl)). lia.
  - exists qs. split; [unfold bind in *; now rewrite Hq|]. simpl in Hq2. now rewrite app_nil_r in Hq2.
Qed.
Lemma split_books : forall r fl l, verses_of d (split_zero e r fl) r l ->
  exists ps, split_items e (nav_fuel e) r true false None fl = Ok ps /\ Forall2 piece_of ps (runs same_bk l).
Proof.
  intros r fl l Hl. pose proof (split_flags_fits e Hwf r fl l Hl) as Hfit. unfold split_items. cbn [bind].
  set (f := split_flags e r fl) in *.
  destruct (split_all_ok (split_book1 e f (nav_fuel e)) (runs same_bk) [r] [l]) as [qs [Hq Hq2]].
  - constructor; [destruct Hl as [_ Hl]; exact Hl|constructor].
  - intros p x [<-|[]] Hp.
    apply (split_unit_ok e Hwf same_bk _ same_bk_refl same_bk_sym same_bk_trans (unit_book e Hwf)); auto.
    pose proof (runs_fuel_bk _ _ (verses_of_seg e _ _ _ Hl)). lia.
  - exists qs. split; [unfold bind in *; now rewrite Hq|]. simpl in Hq2. now rewrite app_nil_r in Hq2.
Qed.

(** ** Verses (C11, C07) *)
Lemma follows_chap : forall z a b, follows d z a b -> vbook a = vbook b -> vchap a = vchap b ->
  vverse b = vverse a + 1.
Proof.
  intros z a b Hf Eb Ec. destruct (succ_in e _ _ _ Hf) as [Ha Hb].
  pose proof (proj2 (succ_split e Hwf z a b a Hf Ha)) as Hlt.
  pose proof (InB_mono e _ _ Ha) as Ha'. pose proof (InB_mono e _ _ Hb) as Hb'.
  assert (Hv : vverse a < vverse b).
  { destruct (Z.le_gt_cases (vverse b) (vverse a)) as [H|H]; [|lia].
    assert (pos b <= pos a) by (apply (pos_book e Hwf); auto; lia). lia. }
  set (m := V (vbook a) (vchap a) (vverse a + 1)).
  assert (Hm : InB d z m).
  { apply (in_bible_verses e). apply (in_bible_verses e) in Ha. apply (in_bible_verses e) in Hb.
    destruct Ha as [Ho [Hc Hl]]. destruct Hb as [_ [_ Hl']]. rewrite <- Eb, <- Ec in Hl'.
    split; [assumption|]. split; [assumption|]. cbn [m vbook vchap vverse]. lia. }
  pose proof (InB_mono e _ _ Hm) as Hm'.
  destruct (proj1 (succ_split e Hwf z a b m Hf Hm)) as [_ Hs].
  destruct (Z.eq_dec (vverse b) (vverse a + 1)) as [E|E]; [assumption|]. exfalso.
  assert (Hmb : pos m < pos b).
  { assert (Hmb : pos m <= pos b) by (apply (pos_book e Hwf); cbn [m vbook vchap vverse]; auto; lia).
    destruct (Z.eq_dec (pos m) (pos b)) as [Eq|]; [|lia]. apply (pos_eq e) in Eq; auto.
    exfalso. apply E. rewrite <- Eq. reflexivity. }
  specialize (Hs Hmb). apply (pos_book e Hwf) in Hs; auto. cbn [m vbook vchap vverse] in Hs. lia.
Qed.

Lemma one_chap_length : forall z l a b, seg e z l -> one_chap l -> hd_error l = Some a -> hd_error (rev l) = Some b ->
  Z.of_nat (length l) = vverse b - vverse a + 1.
Proof.
  intros z l. induction l as [|x l IH]; intros a b Hs Ho Ha Hb; [discriminate|].
  injection Ha as ->. destruct l as [|y l].
  - injection Hb as ->. simpl. lia.
  - assert (Hf : follows d z a y) by (apply (seg_follows e z [] a y l); exact Hs).
    destruct (Ho a y) as [E1 E2]; [simpl; auto|simpl; auto|].
    pose proof (follows_chap z a y Hf E1 E2) as Hv.
    assert (Hs' : seg e z (y :: l)) by (apply (seg_app e z [a] (y :: l)) in Hs; apply Hs).
    specialize (IH y b Hs'). 
    assert (Hr : hd_error (rev (y :: l)) = Some b).
    { change (a :: y :: l) with ([a] ++ (y :: l)) in Hb. rewrite rev_app_distr in Hb.
      destruct (rev (y :: l)) eqn:Er; [|exact Hb].
      apply (f_equal (@rev _)) in Er. rewrite rev_involutive in Er. discriminate. }
    assert (Ho' : one_chap (y :: l)) by (intros p q Hp Hq; apply Ho; simpl in *; tauto).
    specialize (IH Ho' eq_refl Hr). cbn [length] in *. lia.
Qed.

Lemma sum_pieces : forall z ps ls, Forall2 piece_of ps ls -> Forall one_chap ls -> Forall (seg e z) ls ->
  forall acc, fold_left (fun n x => n + (vverse (rend x) - vverse (rstart x) + 1)) ps acc
              = acc + Z.of_nat (length (concat ls)).
Proof.
  intros z ps ls H. induction H as [|p x ps ls [Hh Ht] Hps IH]; intros Ho Hs acc.
  - simpl. lia.
  - inversion Ho; inversion Hs; subst. cbn [fold_left]. rewrite IH by assumption.
    cbn [concat]. rewrite app_length. rewrite Nat2Z.inj_add.
    rewrite (one_chap_length z x (rstart p) (rend p)) by assumption. lia.
Qed.

Lemma runs_segs : forall same z l, seg e z l -> Forall (seg e z) (runs same l).
Proof.
  intros same z l H. apply Forall_forall. intros x Hx. rewrite <- (runs_concat same l) in H.
  apply in_split in Hx. destruct Hx as [l1 [l2 E]]. rewrite E, concat_app in H. cbn [concat] in H.
  apply seg_app in H. destruct H as [_ H]. now apply seg_app in H.
Qed.
Lemma runs_one_chap : forall l, Forall one_chap (runs same_ch l).
Proof.
  intros l. apply Forall_forall. intros x Hx a b Ha Hb. apply same_ch_iff.
  exact (runs_same same_ch same_ch_refl same_ch_sym same_ch_trans l x Hx a b Ha Hb).
Qed.

Lemma verse_count_spec : forall r fl l, verses_of d (split_zero e r None) r l ->
  verse_count e r fl = Ok (zlen l).
Proof.
  intros r fl l Hl. unfold verse_count. destruct (split_chaps r None l Hl) as [ps [Hps Hf2]]. rewrite Hps.
  cbn [bind]. f_equal. rewrite (sum_pieces (split_zero e r None) ps (runs same_ch l) Hf2).
  - rewrite runs_concat. reflexivity.
  - apply runs_one_chap.
  - apply runs_segs. eapply verses_of_seg; eauto.
Qed.

Lemma verses_of_length : forall z r l i j, verses_of d z r l -> at_pos (bible_verses d z) i (rstart r) ->
  at_pos (bible_verses d z) j (rend r) -> zlen l = Z.of_nat j - Z.of_nat i + 1.
Proof.
  intros z r l i j [[l1 [l3 H]] [Hh Ht]] Hi Hj. destruct (hd_in _ _ Hh) as [lh Eh]. destruct (hd_rev_in _ _ Ht) as [lt Et].
  assert (Ei : i = length l1).
  { eapply (pos_inj e Hwf z); [exact Hi|]. unfold at_pos. rewrite H, Eh. rewrite nth_error_app2 by lia.
    now rewrite Nat.sub_diag. }
  assert (Ej : j = (length l1 + length lt)%nat).
  { eapply (pos_inj e Hwf z); [exact Hj|]. unfold at_pos. rewrite H, Et. rewrite nth_error_app2 by lia.
    rewrite <- app_assoc, nth_error_app2 by lia.
    replace (length l1 + length lt - length l1 - length lt)%nat with 0%nat by lia. reflexivity. }
  subst i j. unfold zlen. rewrite Et, app_length. simpl. lia.
Qed.

Lemma verse_difference : forall v w fl i j,
  let z := zg || (vverse v =? 0) || (vverse w =? 0) in
  at_pos (bible_verses d z) i v -> at_pos (bible_verses d z) j w ->
  multi_on e None = true \/ vbook v = vbook w ->
  subtract_verse e v w fl = Ok (Z.of_nat i - Z.of_nat j).
Proof.
  intros v w fl i j z Hi Hj Hm.
  assert (Hv : InB d z v) by (apply InB_pos; eauto). assert (Hw : InB d z w) by (apply InB_pos; eauto).
  pose proof (InB_mono e _ _ Hv) as Hv'. pose proof (InB_mono e _ _ Hw) as Hw'.
  unfold subtract_verse. rewrite (new_range_eq e Hwf) by assumption.
  assert (negb (multi_on e None) && negb (book_eqb (vbook v) (vbook w)) = false) as ->.
  { destruct Hm as [->| ->]; [reflexivity|]. rewrite book_eqb_refl. apply andb_false_r. }
  cbn [bind]. pose proof (bible_mono_nth e Hwf z i j v w Hi Hj) as Hij.
  rewrite (vltb_pos_eq e Hwf) by assumption.
  assert (Hgen : forall lo hi i j, at_pos (bible_verses d z) i lo -> at_pos (bible_verses d z) j hi ->
    InB d z lo -> InB d z hi -> pos lo <= pos hi -> split_zero e (R lo hi) None = z ->
    verse_count e (R lo hi) None = Ok (Z.of_nat j - Z.of_nat i + 1)).
  { intros lo hi i' j' Hlo Hhi Hlo' Hhi' Hp Hz.
    assert (Hr : wf_range d z (R lo hi)) by (apply (wf_range_pos e Hwf); auto).
    destruct (verses_of_exists e Hwf z _ Hr) as [l Hl].
    rewrite (verse_count_spec (R lo hi) None l); [|now rewrite Hz].
    f_equal. eapply verses_of_length; eauto. }
  destruct (Z.ltb_spec (pos w) (pos v)) as [Hlt|Hge].
  - rewrite (Hgen w v j i); auto; [|lia|].
    + cbn [bind]. destruct (Z.ltb_spec (pos v) (pos w)); [lia|]. f_equal. lia.
    + unfold split_zero. cbn [rstart rend]. unfold z. rewrite <- !orb_assoc. f_equal. apply orb_comm.
  - rewrite (Hgen v w i j); auto.
    cbn [bind]. destruct (Z.ltb_spec (pos v) (pos w)); f_equal; [lia|].
    assert (i = j).
    { assert (pos v = pos w) by lia. apply (pos_eq e) in H0; auto. subst w. eapply (pos_inj e Hwf z); eauto. }
    lia.
Qed.

(** ** Units: chapters and books (C14) *)
Section Units.
Context {K : Type}.
Variable key : verse -> K.
Variable same : verse -> verse -> bool.
Hypothesis same_key : forall a b, same a b = true <-> key a = key b.
Hypothesis convex : forall a b c, InB d true a -> InB d true b -> InB d true c ->
  pos a <= pos b <= pos c -> key a = key c -> key b = key a.

Lemma same_refl' : forall a, same a a = true.
Proof. intros. now apply same_key. Qed.
Lemma same_sym' : forall a b, same a b = same b a.
Proof. intros. apply bool_iff_eq. rewrite !same_key. split; congruence. Qed.
Lemma same_trans' : forall a b c, same a b = true -> same b c = true -> same a c = true.
Proof. intros a b c. rewrite !same_key. congruence. Qed.

Definition key_of (p : range) : K := key (rstart p).

(** Runs: border verses of neighbouring runs have different keys. *)
Lemma run_keys : forall l x a, In x (runs same l) -> hd_error x = Some a -> forall v, In v x -> key v = key a.
Proof.
  intros l x a Hx Ha v Hv. destruct (hd_in _ _ Ha) as [y E]. apply same_key.
  apply (runs_same same same_refl' same_sym' same_trans' l x Hx); auto. rewrite E. simpl. auto.
Qed.

Lemma run_before : forall z l ls1 x ls2 a v, seg e z l -> runs same l = ls1 ++ x :: ls2 -> hd_error x = Some a ->
  In v (concat ls1) -> key v <> key a.
Proof.
  intros z l ls1 x ls2 a v Hs E Ha Hv Hk. destruct ls1 as [|p ls1 _] using rev_ind; [destruct Hv|].
  rewrite <- app_assoc in E. simpl in E. destruct (runs_break same l ls1 p x ls2 E) as [u [w [Hu [Hw Huw]]]].
  rewrite Ha in Hw. injection Hw as <-.
  assert (El : l = (concat (ls1 ++ [p])) ++ x ++ concat ls2).
  { rewrite <- (runs_concat same l), E. rewrite !concat_app. cbn [concat]. rewrite app_nil_r, <- app_assoc. reflexivity. }
  destruct (hd_in _ _ Ha) as [x' Ex]. destruct (hd_rev_in _ _ Hu) as [p' Ep].
  assert (Hul : In u (concat (ls1 ++ [p]))).
  { rewrite concat_app. cbn [concat]. rewrite app_nil_r, Ep. rewrite !in_app_iff. simpl. auto. }
  assert (Hvu : pos v <= pos u).
  { rewrite concat_app in Hv. cbn [concat] in Hv. rewrite app_nil_r, Ep, app_assoc in Hv.
    apply in_app_or in Hv. destruct Hv as [Hv|[->|[]]]; [|lia].
    assert (Hseg : seg e z ((concat ls1 ++ p') ++ [u] ++ x ++ concat ls2)).
    { rewrite El in Hs. rewrite concat_app in Hs. cbn [concat] in Hs. rewrite app_nil_r, Ep, <- !app_assoc in Hs.
      rewrite <- !app_assoc. exact Hs. }
    pose proof (seg_lt e Hwf z _ _ v u Hseg Hv ltac:(simpl; auto)). lia. }
  assert (Hua : pos u < pos a).
  { rewrite El in Hs. apply (seg_lt e Hwf z _ _ u a Hs Hul). rewrite Ex. simpl. auto. }
  assert (HB : forall y, In y l -> InB d true y) by (intros y Hy; eapply (seg_in_true e); eauto).
  assert (key u = key v).
  { apply (convex v u a); auto; [| | |lia]; apply HB; rewrite El; rewrite !in_app_iff; auto.
    rewrite Ex. simpl. auto. }
  assert (same u a = true) by (apply same_key; congruence). congruence.
Qed.

Lemma run_after : forall z l ls1 x ls2 a v, seg e z l -> runs same l = ls1 ++ x :: ls2 -> hd_error x = Some a ->
  In v (concat ls2) -> key v <> key a.
Proof.
  intros z l ls1 x ls2 a v Hs E Ha Hv Hk. apply in_concat in Hv. destruct Hv as [y [Hy Hv]].
  apply in_split in Hy. destruct Hy as [m1 [m2 ->]].
  assert (Hyne : exists b y', y = b :: y') by (destruct y; [destruct Hv|eauto]).
  destruct Hyne as [b [y' ->]].
  assert (E' : runs same l = (ls1 ++ x :: m1) ++ (b :: y') :: m2) by (rewrite E, <- app_assoc; reflexivity).
  assert (Hax : In a (concat (ls1 ++ x :: m1))).
  { destruct (hd_in _ _ Ha) as [x' ->]. rewrite concat_app. simpl. rewrite !in_app_iff. simpl. auto. }
  apply (run_before z l _ (b :: y') m2 b a Hs E' eq_refl Hax).
  assert (Hkb : key v = key b).
  { apply (run_keys l (b :: y') b); auto. rewrite E'. apply in_or_app. simpl. auto. }
  congruence.
Qed.

Lemma runs_nodup : forall z l ps, seg e z l -> Forall2 piece_of ps (runs same l) -> NoDup (map key_of ps).
Proof.
  intros z l ps Hs H2. assert (Hg : forall ls1 ls2 ps2, runs same l = ls1 ++ ls2 -> Forall2 piece_of ps2 ls2 ->
    NoDup (map key_of ps2)).
  { intros ls1 ls2 ps2 E F2. revert ls1 E. induction F2 as [|p x ps2 ls2 [Hh Ht] F2 IH]; intros ls1 E; [constructor|].
    cbn [map]. constructor.
    - intros Hin. apply in_map_iff in Hin. destruct Hin as [q [Hq Hin]].
      apply in_split in Hin. destruct Hin as [q1 [q2 ->]].
      apply Forall2_app_inv_l in F2. destruct F2 as [x1 [x2 [F1 [F2 ->]]]].
      inversion F2 as [|q' y q2' x2' [Hh' _] F2' EE1 EE2]. subst.
      apply (run_after z l ls1 x (x1 ++ y :: x2') (rstart p) (rstart q) Hs E Hh); [|exact Hq].
      rewrite concat_app. cbn [concat]. destruct (hd_in _ _ Hh') as [y' ->]. rewrite !in_app_iff. simpl. auto.
    - apply (IH (ls1 ++ [x])). rewrite E, <- app_assoc. reflexivity. }
  apply (Hg [] (runs same l) ps eq_refl H2).
Qed.

(** The keys of the pieces are the keys of the verses. *)
Lemma runs_keys : forall l ps k, Forall2 piece_of ps (runs same l) ->
  (In k (map key_of ps) <-> exists v, In v l /\ key v = k).
Proof.
  intros l ps k H2. rewrite in_map_iff. split.
  - intros [p [<- Hp]]. apply in_split in Hp. destruct Hp as [p1 [p2 ->]].
    apply Forall2_app_inv_l in H2. destruct H2 as [x1 [x2 [F1 [F2 E]]]].
    inversion F2 as [|q y q2 x2' [Hh _] F2' EE1 EE2]. subst. exists (rstart p). split; [|reflexivity].
    rewrite <- (runs_concat same l), E, concat_app. cbn [concat]. destruct (hd_in _ _ Hh) as [y' ->].
    rewrite !in_app_iff. simpl. auto.
  - intros [v [Hv <-]]. rewrite <- (runs_concat same l) in Hv. apply in_concat in Hv. destruct Hv as [x [Hx Hv]].
    assert (Hx' := Hx). apply in_split in Hx. destruct Hx as [x1 [x2 E]]. rewrite E in H2.
    apply Forall2_app_inv_r in H2. destruct H2 as [p1 [p2 [F1 [F2 ->]]]].
    inversion F2 as [|p y p2' x2' [Hh _] F2' EE1 EE2]. subst. exists p. split; [|apply in_elt].
    unfold key_of. symmetry. eapply run_keys; eauto.
Qed.

(** Whole units. *)
Variable is_whole : range -> res bool.
Hypothesis whole_spec : forall a b, InB d zg a -> InB d zg b -> pos a <= pos b -> key a = key b ->
  exists w, is_whole (R a b) = Ok w /\
    (w = true <-> forall v, InB d zg v -> key v = key a -> pos a <= pos v <= pos b).

Lemma count_filter : forall (W : range -> bool) ps, ps <> [] ->
  (forall p, In p ps -> is_whole p = Ok (W p)) ->
  (forall p1 p p2, ps = p1 ++ p :: p2 -> p1 <> [] -> p2 <> [] -> W p = true) ->
  count_pieces true is_whole ps = Ok (zlen (filter W ps)).
Proof.
  intros W ps Hne HW Hmid. unfold count_pieces. destruct ps as [|x xs]; [congruence|].
  rewrite (HW x) by (simpl; auto). cbn [bind]. unfold last_opt.
  destruct xs as [|y ys _] using rev_ind.
  - cbn [rev filter]. destruct (W x); reflexivity.
  - rewrite rev_app_distr. cbn [rev app]. rewrite (HW y) by (simpl; rewrite in_app_iff; simpl; auto). cbn [bind].
    assert (Hys : filter W ys = ys).
    { apply filter_all. intros p Hp. apply in_split in Hp. destruct Hp as [p1 [p2 ->]].
      apply (Hmid (x :: p1) p (p2 ++ [y])); [|discriminate|destruct p2; discriminate].
      simpl. rewrite <- app_assoc. reflexivity. }
    cbn [filter]. rewrite filter_app, Hys. cbn [filter]. unfold zlen.
    destruct (W x); destruct (W y); rewrite ?app_nil_r; cbn [length]; rewrite ?app_length; cbn [length]; f_equal; lia.
Qed.

Lemma count_whole_spec : forall r l ps, verses_of d zg r l -> Forall2 piece_of ps (runs same l) ->
  exists n, count_pieces true is_whole ps = Ok n /\
  counted (fun k => (exists v, InB d zg v /\ key v = k) /\ forall v, InB d zg v -> key v = k -> InR d v r) n.
Proof.
  intros r l ps Hl H2. pose proof (verses_of_seg e _ _ _ Hl) as Hs.
  assert (HB : forall y, In y l -> InB d zg y) by (intros y Hy; eapply (seg_in e); eauto).
  pose (W := fun p => match is_whole p with Ok w => w | _ => false end).
  (* each piece *)
  assert (Hp : forall p1 p p2, ps = p1 ++ p :: p2 ->
    exists ls1 x ls2, runs same l = ls1 ++ x :: ls2 /\ Forall2 piece_of p1 ls1 /\ Forall2 piece_of p2 ls2 /\ piece_of p x).
  { intros p1 p p2 ->. apply Forall2_app_inv_l in H2. destruct H2 as [x1 [x2 [F1 [F2 E]]]].
    inversion F2 as [|q y q2 x2' Hq F2' EE1 EE2]. subst. exists x1, y, x2'. auto. }
  assert (Hpiece : forall p1 p p2, ps = p1 ++ p :: p2 ->
    is_whole p = Ok (W p) /\ In (rstart p) l /\ In (rend p) l /\
    (W p = true <-> forall v, InB d zg v -> key v = key_of p -> InR d v r)).
  { intros p1 p p2 E. destruct (Hp p1 p p2 E) as [ls1 [x [ls2 [Er [F1 [F2 [Hh Ht]]]]]]].
    destruct (hd_in _ _ Hh) as [xh Exh]. destruct (hd_rev_in _ _ Ht) as [xt Ext].
    assert (El : l = concat ls1 ++ x ++ concat ls2).
    { rewrite <- (runs_concat same l), Er, concat_app. reflexivity. }
    assert (Hxs : In (rstart p) x) by (rewrite Exh; simpl; auto).
    assert (Hxt : In (rend p) x) by (rewrite Ext; apply in_or_app; simpl; auto).
    assert (Hlx : forall y, In y x -> In y l) by (intros y Hy; rewrite El, !in_app_iff; auto).
    assert (Hsegx : seg e zg x).
    { rewrite El in Hs. apply seg_app in Hs. destruct Hs as [_ Hs]. now apply seg_app in Hs. }
    assert (Hxin : In x (runs same l)) by (rewrite Er; apply in_elt).
    assert (Hkey : key (rstart p) = key (rend p)).
    { symmetry. eapply run_keys; eauto. }
    assert (Hpp : pos (rstart p) <= pos (rend p)).
    { apply (seg_between e Hwf zg x (rstart p) (rend p) (rend p) Hsegx Hh Ht); auto. }
    destruct p as [a b]. cbn [rstart rend] in *.
    destruct (whole_spec a b (HB _ (Hlx _ Hxs)) (HB _ (Hlx _ Hxt)) Hpp Hkey) as [w [Hw Hww]].
    assert (EW : W (R a b) = w) by (unfold W; now rewrite Hw). rewrite EW.
    split; [assumption|]. split; [auto|]. split; [auto|]. rewrite Hww. unfold key_of. cbn [rstart].
    split; intros H v Hv Hk.
    - specialize (H v Hv Hk). apply (verses_of_In e Hwf zg r l v Hl). apply Hlx.
      apply (seg_between e Hwf zg x a b v Hsegx Hh Ht Hv). assumption.
    - assert (Hvl : In v l) by (apply (verses_of_In e Hwf zg r l v Hl); auto).
      apply (seg_between e Hwf zg x a b v Hsegx Hh Ht Hv).
      rewrite El in Hvl. apply in_app_or in Hvl. destruct Hvl as [Hvl|Hvl].
      { exfalso. apply (run_before zg l ls1 x ls2 a v Hs Er Hh Hvl Hk). }
      apply in_app_or in Hvl. destruct Hvl as [Hvl|Hvl]; [assumption|].
      exfalso. apply (run_after zg l ls1 x ls2 a v Hs Er Hh Hvl Hk). }
  assert (Hmid : forall p1 p p2, ps = p1 ++ p :: p2 -> p1 <> [] -> p2 <> [] -> W p = true).
  { intros p1 p p2 E Hn1 Hn2. destruct (Hpiece p1 p p2 E) as [_ [_ [_ HWp]]]. apply HWp. clear HWp.
    destruct (Hp p1 p p2 E) as [ls1 [x [ls2 [Er [F1 [F2 [Hh Ht]]]]]]].
    assert (Hu : exists u, In u (concat ls1)).
    { destruct F1 as [|q y p1' ls1' [Hq _] F1']; [congruence|]. exists (rstart q).
      destruct (hd_in _ _ Hq) as [y' ->]. simpl. auto. }
    assert (Hu' : exists u, In u (concat ls2)).
    { destruct F2 as [|q y p2' ls2' [Hq _] F2']; [congruence|]. exists (rstart q).
      destruct (hd_in _ _ Hq) as [y' ->]. simpl. auto. }
    destruct Hu as [u Hu]. destruct Hu' as [u' Hu'].
    assert (El : l = concat ls1 ++ x ++ concat ls2).
    { rewrite <- (runs_concat same l), Er, concat_app. reflexivity. }
    assert (Hsx : In (rstart p) x) by (destruct (hd_in _ _ Hh) as [y' ->]; simpl; auto).
    intros v Hv Hk. unfold key_of in Hk.
    pose proof (run_before zg l ls1 x ls2 (rstart p) u Hs Er Hh Hu) as Hku.
    pose proof (run_after zg l ls1 x ls2 (rstart p) u' Hs Er Hh Hu') as Hku'.
    assert (Hul : In u l) by (rewrite El, !in_app_iff; auto).
    assert (Hul' : In u' l) by (rewrite El, !in_app_iff; auto).
    assert (Hsl : In (rstart p) l) by (rewrite El, !in_app_iff; auto).
    assert (Hlt1 : pos u < pos (rstart p)).
    { rewrite El in Hs. apply (seg_lt e Hwf zg _ _ u _ Hs Hu). rewrite in_app_iff. auto. }
    assert (Hlt2 : pos (rstart p) < pos u').
    { rewrite El, app_assoc in Hs. apply (seg_lt e Hwf zg _ _ _ u' Hs); auto. rewrite in_app_iff. auto. }
    assert (HT : forall y, In y l -> InB d true y) by (intros y Hy; apply (InB_mono e zg); auto).
    pose proof (InB_mono e _ _ Hv) as HvT.
    apply (verses_of_In e Hwf zg r l v Hl). destruct Hl as [_ [Hlh Hlt]].
    apply (seg_between e Hwf zg l _ _ v Hs Hlh Hlt Hv).
    pose proof (proj1 (seg_between e Hwf zg l _ _ u Hs Hlh Hlt (HB _ Hul)) Hul).
    pose proof (proj1 (seg_between e Hwf zg l _ _ u' Hs Hlh Hlt (HB _ Hul')) Hul').
    split.
    - destruct (Z.le_gt_cases (pos v) (pos u)) as [Hc|Hc]; [|lia]. exfalso. apply Hku.
      rewrite <- Hk. apply (convex v u (rstart p)); auto. lia.
    - destruct (Z.le_gt_cases (pos u') (pos v)) as [Hc|Hc]; [|lia]. exfalso. apply Hku'.
      apply (convex (rstart p) u' v); auto. lia. }
  assert (Hne : ps <> []).
  { intros Eps. subst ps. apply Forall2_len in H2. symmetry in H2. apply length_zero_iff_nil in H2.
    apply runs_nil in H2. rename H2 into Hnil. destruct Hl as [_ [Hh _]]. rewrite Hnil in Hh. discriminate. }
  exists (zlen (filter W ps)). split.
  - apply count_filter; auto. intros p Hin. apply in_split in Hin. destruct Hin as [p1 [p2 E]].
    now apply (Hpiece p1 p p2).
  - exists (map key_of (filter W ps)). split; [|split].
    + pose proof (runs_nodup zg l ps Hs H2) as Hnd. clear - Hnd. induction ps as [|p ps IH]; [constructor|].
      cbn [map] in Hnd. inversion Hnd; subst. simpl. destruct (W p); [|auto]. simpl. constructor; [|auto].
      intros Hin. apply H1. apply in_map_iff in Hin. destruct Hin as [q [<- Hq]]. apply filter_In in Hq.
      apply in_map. tauto.
    + intros k. rewrite in_map_iff. split.
      * intros [p [<- Hin]]. apply filter_In in Hin. destruct Hin as [Hin HW].
        apply in_split in Hin. destruct Hin as [p1 [p2 E]]. destruct (Hpiece p1 p p2 E) as [_ [H1 [_ H3]]].
        split; [exists (rstart p); auto|]. now apply H3.
      * intros [[v [Hv <-]] Hall]. assert (Hvl : In v l) by (apply (verses_of_In e Hwf zg r l v Hl); auto).
        assert (Hk : In (key v) (map key_of ps)) by (apply (runs_keys l ps _ H2); eauto).
        apply in_map_iff in Hk. destruct Hk as [p [Hk Hin]]. exists p. split; [assumption|].
        apply filter_In. split; [assumption|]. apply in_split in Hin. destruct Hin as [p1 [p2 E]].
        apply (Hpiece p1 p p2 E). intros w Hw Hkw. apply Hall; congruence.
    + unfold zlen. now rewrite map_length.
Qed.
End Units.

(** Chapters. *)
Definition ch_key (v : verse) : book * Z := (vbook v, vchap v).
Lemma ch_same : forall a b, same_ch a b = true <-> ch_key a = ch_key b.
Proof. intros. rewrite same_ch_iff. unfold ch_key. split; [intros [-> ->]; auto|intros H; now injection H]. Qed.
Lemma ch_convex : forall a b c, InB d true a -> InB d true b -> InB d true c ->
  pos a <= pos b <= pos c -> ch_key a = ch_key c -> ch_key b = ch_key a.
Proof.
  intros a b c Ha Hb Hc Hp Hk. unfold ch_key in *. injection Hk as Hbk Hck.
  pose proof (same_book_between e Hwf a b c Ha Hb Hc Hp Hbk) as E. f_equal; [assumption|].
  destruct Hp as [H1 H2]. apply (pos_book e Hwf) in H1; auto. apply (pos_book e Hwf) in H2; auto; [|congruence]. lia.
Qed.
Lemma bk_same : forall a b, same_bk a b = true <-> vbook a = vbook b.
Proof. apply same_bk_iff. Qed.
Lemma bk_convex : forall a b c, InB d true a -> InB d true b -> InB d true c ->
  pos a <= pos b <= pos c -> vbook a = vbook c -> vbook b = vbook a.
Proof. intros. eapply same_book_between; eauto. Qed.

Lemma first_verse_in : forall b c, In b (book_order d) -> 1 <= c <= num_chaps d b ->
  first_verse e b (Some c) None = Ok (V b c (first_num d zg b c)) /\ InB d zg (V b c (first_num d zg b c)).
Proof.
  intros b c Hb Hc. pose proof (first_le_last e Hwf zg b c Hb Hc) as Hl.
  unfold first_verse. rewrite (min_in e Hwf) by assumption. cbn [bind]. split.
  - destruct (table_of e Hwf b Hb) as [l Hl']. eapply new_verse_ok; eauto. split; [assumption|].
    change (verse0 (eff e None)) with zg. lia.
  - apply (in_bible_verses e). split; [assumption|]. cbn. split; [assumption|]. lia.
Qed.

Lemma whole_chap_spec : forall a b, InB d zg a -> InB d zg b -> pos a <= pos b -> ch_key a = ch_key b ->
  exists w, is_whole_chap e (R a b) None = Ok w /\
    (w = true <-> forall v, InB d zg v -> ch_key v = ch_key a -> pos a <= pos v <= pos b).
Proof.
  intros a b Ha Hb Hp Hk. injection Hk as Hbk Hck. pose proof (InB_book e _ _ Ha) as Ho.
  pose proof (InB_legal e _ _ Ha) as [Hc Hl]. pose proof (InB_legal e _ _ Hb) as [Hc' Hl'].
  destruct (first_verse_in (vbook a) (vchap a) Ho Hc) as [Hf HfB].
  destruct (last_verse_in e Hwf (vbook a) (vchap a) Ho Hc) as [Hla HlB].
  unfold is_whole_chap. cbn [rstart rend]. rewrite <- Hbk, book_eqb_refl. unfold andM. cbn [bind].
  rewrite Hf. cbn [bind]. rewrite Hla. cbn [bind].
  set (f := V (vbook a) (vchap a) (first_num d zg (vbook a) (vchap a))) in *.
  set (la := V (vbook a) (vchap a) (last_num d (vbook a) (vchap a))) in *.
  exists (verse_eqb a f && verse_eqb b la). split; [destruct (verse_eqb a f); reflexivity|].
  rewrite andb_true_iff, !verse_eqb_eq. split.
  - intros [Ea Eb] v Hv Hkv. unfold ch_key in Hkv. injection Hkv as E1 E2.
    pose proof (InB_legal e _ _ Hv) as [_ Hn]. rewrite E1, E2 in Hn.
    assert (pos a = pos f) as -> by congruence. assert (pos b = pos la) as -> by congruence.
    split; apply (pos_book e Hwf); cbn [f la vbook vchap vverse]; auto; try (eapply InB_mono; eauto); right; split; auto; lia.
  - intros H. assert (Hlaz : InB d zg la) by (apply (InB_false e); assumption).
    pose proof (H f HfB eq_refl) as H1. pose proof (H la Hlaz eq_refl) as H2.
    split; apply (pos_eq e); try (eapply InB_mono; eassumption).
    + assert (pos f <= pos a); [|lia]. apply (pos_book e Hwf); cbn [f vbook vchap vverse]; auto; try (eapply InB_mono; eassumption).
      right. split; auto. lia.
    + assert (pos b <= pos la); [|lia]. apply (pos_book e Hwf); cbn [la vbook vchap vverse]; auto; try (eapply InB_mono; eassumption).
      right. split; auto. rewrite Hbk, Hck. lia.
Qed.

Lemma first_verse_book : forall b, In b (book_order d) ->
  first_verse e b None None = Ok (V b 1 (first_num d zg b 1)).
Proof.
  intros b Hb. pose proof (num_chaps_pos e Hwf b Hb). unfold first_verse. rewrite (min_chap_in e Hwf b Hb).
  apply (first_verse_in b 1 Hb). lia.
Qed.

Lemma whole_book_spec : forall a b, InB d zg a -> InB d zg b -> pos a <= pos b -> vbook a = vbook b ->
  exists w, is_whole_book e (R a b) None = Ok w /\
    (w = true <-> forall v, InB d zg v -> vbook v = vbook a -> pos a <= pos v <= pos b).
Proof.
  intros a b Ha Hb Hp Hbk. pose proof (InB_book e _ _ Ha) as Ho.
  pose proof (num_chaps_pos e Hwf _ Ho) as Hnc.
  destruct (first_verse_in (vbook a) 1 Ho ltac:(lia)) as [_ HfB].
  destruct (last_verse_in e Hwf (vbook a) (num_chaps d (vbook a)) Ho ltac:(lia)) as [_ HlB].
  unfold is_whole_book. cbn [rstart rend]. rewrite <- Hbk, book_eqb_refl. unfold andM. cbn [bind].
  rewrite (first_verse_book _ Ho). cbn [bind]. rewrite (last_verse_book e Hwf _ Ho). cbn [bind].
  set (f := V (vbook a) 1 (first_num d zg (vbook a) 1)) in *.
  set (la := V (vbook a) (num_chaps d (vbook a)) (last_num d (vbook a) (num_chaps d (vbook a)))) in *.
  exists (verse_eqb a f && verse_eqb b la). split; [destruct (verse_eqb a f); reflexivity|].
  assert (Hin : forall v, InB d zg v -> vbook v = vbook a -> pos f <= pos v <= pos la).
  { intros v Hv Hkv. pose proof (InB_legal e _ _ Hv) as [Hc Hn]. rewrite Hkv in *.
    assert (HfT : InB d true f) by (eapply InB_mono; eauto). assert (HlT : InB d true la) by (eapply InB_mono; eauto).
    pose proof (InB_mono e _ _ Hv) as HvT.
    split; apply (pos_book e Hwf); cbn [f la vbook vchap vverse]; auto.
    - destruct (Z.eq_dec (vchap v) 1) as [E|E]; [|lia]. rewrite E in Hn. lia.
    - destruct (Z.eq_dec (vchap v) (num_chaps d (vbook a))) as [E|E]; [|lia]. rewrite E in Hn. lia. }
  rewrite andb_true_iff, !verse_eqb_eq. split.
  - intros [Ea Eb] v Hv Hkv.
    assert (pos a = pos f) as -> by congruence. assert (pos b = pos la) as -> by congruence. apply Hin; auto.
  - intros H. assert (Hlaz : InB d zg la) by (apply (InB_false e); assumption).
    pose proof (H f HfB eq_refl) as H1. pose proof (H la Hlaz eq_refl) as H2.
    pose proof (Hin a Ha eq_refl) as H3. pose proof (Hin b Hb (eq_sym Hbk)) as H4.
    split; apply (pos_eq e); try (eapply InB_mono; eassumption); lia.
Qed.

(** Some verse of a unit in the range (any universe) iff some verse of the split universe. *)
Lemma zero_universe : forall z r v, wf_range d z r -> InR d v r ->
  exists w, InR d w r /\ InB d z w /\ vbook w = vbook v /\ vchap w = vchap v.
Proof.
  intros z r v Hr Hv. pose proof (proj1 (InR_pos e Hwf v r) Hv) as [HvB [HsB [HtB Hp]]].
  destruct z; [exists v; auto|].
  destruct (Z.eq_dec (vverse v) 0) as [E0|E0].
  - exists (V (vbook v) (vchap v) 1). cbn.
    pose proof (InB_legal e _ _ HvB) as [Hc Hn]. pose proof (InB_book e _ _ HvB) as Hb.
    assert (H1 : InB d false (V (vbook v) (vchap v) 1)).
    { apply (in_bible_verses e). split; [assumption|]. cbn. split; [assumption|]. unfold first_num. cbn [andb].
      pose proof (last_num_pos e Hwf _ _ Hb Hc). lia. }
    assert (H1' : InB d true (V (vbook v) (vchap v) 1)) by (eapply InB_mono; eauto).
    split; [|auto]. apply (InR_pos e Hwf). split; [assumption|]. split; [assumption|]. split; [assumption|].
    assert (pos v <= pos (V (vbook v) (vchap v) 1)) by (apply (pos_book e Hwf); cbn; auto; right; split; auto; lia).
    split; [lia|].
    (* the end is not verse 0, so it is not v *)
    destruct (Z.le_gt_cases (pos (V (vbook v) (vchap v) 1)) (pos (rend r))) as [|Hgt]; [assumption|]. exfalso.
    assert (Ek : ch_key (rend r) = ch_key v).
    { apply (ch_convex v (rend r) (V (vbook v) (vchap v) 1)); auto. lia. }
    injection Ek as Eb Ec.
    assert (Hvr : vverse (rend r) < 1).
    { destruct (Z.le_gt_cases 1 (vverse (rend r))); [|lia].
      assert (pos (V (vbook v) (vchap v) 1) <= pos (rend r)); [|lia].
      apply (pos_book e Hwf); cbn; auto. }
    destruct Hr as [_ [Ht _]]. apply (InB_legal e) in Ht. destruct Ht as [_ Ht]. unfold first_num in Ht. cbn in Ht. lia.
  - exists v. split; [assumption|]. split; [|auto].
    apply (in_bible_verses e). apply (in_bible_verses e) in HvB. destruct HvB as [Hb [Hc Hn]].
    split; [assumption|]. split; [assumption|]. unfold first_num in *. cbn [andb] in *.
    destruct (zmem (vchap v) (verse_0s d (vbook v))); lia.
Qed.

Lemma split_zero_wf : forall r fl, wf_range d true r -> wf_range d (split_zero e r fl) r.
Proof.
  intros r fl Hr. apply (wf_range_pos e Hwf) in Hr. destruct Hr as [Hs [Ht Hp]]. apply (wf_range_pos e Hwf).
  assert (H : forall v, InB d true v -> (vverse v = 0 -> split_zero e r fl = true) -> InB d (split_zero e r fl) v).
  { intros v Hv Hz. destruct (split_zero e r fl) eqn:E; [assumption|].
    apply (in_bible_verses e). apply (in_bible_verses e) in Hv. destruct Hv as [Hb [Hc Hn]].
    split; [assumption|]. split; [assumption|]. unfold first_num in *. cbn [andb] in *.
    destruct (zmem (vchap v) (verse_0s d (vbook v))); [|lia].
    destruct (Z.eq_dec (vverse v) 0) as [E0|E0]; [|lia]. specialize (Hz E0). discriminate. }
  split; [|split]; [apply H|apply H|]; auto; intros E0; unfold split_zero; rewrite E0; cbn; rewrite ?orb_true_r; reflexivity.
Qed.

Lemma chap_count_spec : forall r fl, wf_range d true r ->
  exists n, r_chap_count e r false fl = Ok n /\ counted (touches_chap d r) n.
Proof.
  intros r fl Hr. pose proof (split_zero_wf r None Hr) as Hz.
  destruct (verses_of_exists e Hwf _ r Hz) as [l Hl].
  destruct (split_chaps r None l Hl) as [ps [Hps H2]]. unfold r_chap_count. rewrite Hps. cbn [bind count_pieces].
  exists (zlen ps). split; [reflexivity|]. exists (map (key_of ch_key) ps). split; [|split].
  - eapply (runs_nodup ch_key same_ch ch_same ch_convex); eauto. eapply verses_of_seg; eauto.
  - intros [b c]. rewrite (runs_keys ch_key same_ch ch_same l ps _ H2). unfold touches_chap, ch_key. cbn [fst snd]. split.
    + intros [v [Hv E]]. injection E as E1 E2. exists v. split; [|auto]. now apply (verses_of_In e Hwf _ r l v Hl) in Hv.
    + intros [v [Hv [E1 E2]]]. destruct (zero_universe _ r v Hz Hv) as [w [Hw [HwB [E3 E4]]]].
      exists w. split; [apply (verses_of_In e Hwf _ r l w Hl); auto|]. congruence.
  - unfold zlen. now rewrite map_length.
Qed.
Lemma book_count_spec : forall r fl, wf_range d true r ->
  exists n, r_book_count e r false fl = Ok n /\ counted (touches_book d r) n.
Proof.
  intros r fl Hr. pose proof (split_zero_wf r None Hr) as Hz.
  destruct (verses_of_exists e Hwf _ r Hz) as [l Hl].
  destruct (split_books r None l Hl) as [ps [Hps H2]]. unfold r_book_count. rewrite Hps. cbn [bind count_pieces].
  exists (zlen ps). split; [reflexivity|]. exists (map (key_of vbook) ps). split; [|split].
  - eapply (runs_nodup vbook same_bk bk_same bk_convex); eauto. eapply verses_of_seg; eauto.
  - intros b. rewrite (runs_keys vbook same_bk bk_same l ps _ H2). unfold touches_book. split.
    + intros [v [Hv E]]. exists v. split; [|auto]. now apply (verses_of_In e Hwf _ r l v Hl) in Hv.
    + intros [v [Hv E1]]. destruct (zero_universe _ r v Hz Hv) as [w [Hw [HwB [E3 E4]]]].
      exists w. split; [apply (verses_of_In e Hwf _ r l w Hl); auto|]. congruence.
  - unfold zlen. now rewrite map_length.
Qed.

Lemma split_zero_global : forall r, wf_range d zg r -> split_zero e r None = zg.
Proof.
  intros r [Hs [Ht _]]. unfold split_zero. change (zero_on e None) with zg. destruct zg eqn:E; [reflexivity|].
  apply (InB_legal e) in Hs. apply (InB_legal e) in Ht. destruct Hs as [_ Hs]. destruct Ht as [_ Ht].
  unfold first_num in *. cbn in *. destruct (Z.eqb_spec (vverse (rstart r)) 0); [lia|].
  destruct (Z.eqb_spec (vverse (rend r)) 0); [lia|]. reflexivity.
Qed.

Lemma chap_count_whole_spec : forall r fl, wf_range d zg r ->
  exists n, r_chap_count e r true fl = Ok n /\ counted (covers_chap d zg r) n.
Proof.
  intros r fl Hr. destruct (verses_of_exists e Hwf _ r Hr) as [l Hl].
  assert (Hl' : verses_of d (split_zero e r None) r l) by (now rewrite split_zero_global).
  destruct (split_chaps r None l Hl') as [ps [Hps H2]]. unfold r_chap_count. rewrite Hps. cbn [bind].
  destruct (count_whole_spec ch_key same_ch ch_same ch_convex (fun x => is_whole_chap e x None) whole_chap_spec r l ps Hl H2) as [n [Hn [ks [Hk1 [Hk2 Hk3]]]]].
  exists n. split; [assumption|]. exists ks. split; [assumption|]. split; [|assumption].
  intros [b c]. rewrite Hk2. unfold covers_chap. cbn [fst snd]. split.
  - intros [[v [Hv E]] H]. unfold ch_key in E. injection E as <- <-. pose proof (InB_legal e _ _ Hv) as [Hc _].
    pose proof (InB_book e _ _ Hv) as Hb. split; [assumption|]. split; [assumption|]. intros w Hw.
    apply in_chap_verses in Hw. destruct Hw as [E1 [E2 E3]]. apply H.
    + apply (in_bible_verses e). rewrite E1, E2. split; [assumption|]. split; [assumption|]. tauto.
    + unfold ch_key. congruence.
  - intros [Hb [Hc H]]. split.
    + exists (V b c (first_num d zg b c)). split; [now apply first_verse_in|reflexivity].
    + intros v Hv E. unfold ch_key in E. injection E as <- <-. apply H. apply in_chap_verses.
      apply (InB_legal e) in Hv. destruct Hv. auto.
Qed.
Lemma book_count_whole_spec : forall r fl, wf_range d zg r ->
  exists n, r_book_count e r true fl = Ok n /\ counted (covers_book d zg r) n.
Proof.
  intros r fl Hr. destruct (verses_of_exists e Hwf _ r Hr) as [l Hl].
  assert (Hl' : verses_of d (split_zero e r None) r l) by (now rewrite split_zero_global).
  destruct (split_books r None l Hl') as [ps [Hps H2]]. unfold r_book_count. rewrite Hps. cbn [bind].
  destruct (count_whole_spec vbook same_bk bk_same bk_convex (fun x => is_whole_book e x None) whole_book_spec r l ps Hl H2) as [n [Hn [ks [Hk1 [Hk2 Hk3]]]]].
  exists n. split; [assumption|]. exists ks. split; [assumption|]. split; [|assumption].
  intros b. rewrite Hk2. unfold covers_book. split.
  - intros [[v [Hv <-]] H]. split; [now apply (InB_book e) in Hv|]. intros w Hw.
    apply (in_book_verses e) in Hw. destruct Hw as [E1 E2]. apply H; [|assumption].
    apply (in_bible_verses e). rewrite E1. split; [now apply (InB_book e) in Hv|assumption].
  - intros [Hb H]. pose proof (num_chaps_pos e Hwf b Hb). split.
    + exists (V b 1 (first_num d zg b 1)). split; [apply first_verse_in; auto; lia|reflexivity].
    + intros v Hv <-. apply H. apply (in_book_verses e). split; [reflexivity|]. now apply (InB_legal e) in Hv.
Qed.

End Count.
