(** * PCount2: the counts of whole chapters and books of every legal range. *)
From Coq Require Import List ZArith Bool Lia.
From Verif Require Import Base Books Data MVerse MRange Spec PList PCore PNav PVerse PRange PSetOps PRuns PSplit PCount.
Import ListNotations.
Open Scope Z_scope.

(** Only the first and the last piece are looked at. *)
Lemma count_ends : forall g g' ps, (forall x xs, ps = x :: xs -> g x = g' x) -> (forall x xs, ps = xs ++ [x] -> g x = g' x) ->
  count_pieces true g ps = count_pieces true g' ps.
Proof.
  intros g g' ps H1 H2. unfold count_pieces. destruct ps as [|x xs]; [reflexivity|]. rewrite (H1 x xs eq_refl). unfold last_opt.
  destruct xs as [|y ys _] using rev_ind; [reflexivity|]. rewrite rev_app_distr. cbn [rev app]. rewrite (H2 y (x :: ys) eq_refl). reflexivity.
Qed.

Section Count2.
Variable e : env.
Notation d := (ed e).
Hypothesis Hwf : wf_data d.
Notation pos := (pos e).
Notation zg := (verse0 (eg e)).

Section Units.
Variable K : Type.
Variable key : verse -> K.
Variable keqb : K -> K -> bool.
Hypothesis keqb_spec : forall a b, keqb a b = true <-> a = b.
Variable same : verse -> verse -> bool.
Hypothesis same_key : forall a b, same a b = true <-> key a = key b.
Hypothesis convex : forall a b c, InB d true a -> InB d true b -> InB d true c -> pos a <= pos b <= pos c -> key a = key c -> key b = key a.
Variable is_whole : range -> res bool.
Hypothesis whole_ends : forall a b, InB d true a -> InB d true b -> key a = key b -> exists f la,
  InB d zg f /\ InB d zg la /\ key f = key a /\ key la = key a /\ (forall v, InB d zg v -> key v = key a -> pos f <= pos v) /\ (forall v, InB d true v -> key v = key a -> pos v <= pos la) /\
  is_whole (R a b) = Ok (verse_eqb a f && verse_eqb b la).

(** The unit [k] counts in a range with the verses of universe [z]. *)
Definition counts (z : bool) (r : range) (k : K) : Prop :=
  (exists v, InB d z v /\ InR d v r /\ key v = k) /\
  (k = key (rstart r) \/ k = key (rend r) -> (forall v, InB d zg v -> key v = k -> InR d v r) /\
     (forall v, InB d z v -> key v = k -> InR d v r -> exists u, InB d zg u /\ key u = k /\ pos u <= pos v)).

Lemma count_whole_exact : forall z r l ps, (zg = true -> z = true) -> verses_of d z r l -> Forall2 piece_of ps (runs same l) ->
  exists n, count_pieces true is_whole ps = Ok n /\ counted (counts z r) n.
Proof.
  intros z r l ps Hz Hl H2. pose proof (verses_of_seg e _ _ _ Hl) as Hs.
  assert (HB : forall y, In y l -> InB d z y) by (intros y Hy; eapply (seg_in e); eauto).
  assert (HT : forall y, In y l -> InB d true y) by (intros y Hy; apply (InB_mono e z); auto).
  assert (Hg : forall v, InB d zg v -> InB d z v).
  { intros v Hv. destruct z; [eapply (InB_mono e); eauto|]. destruct zg; [discriminate (Hz eq_refl)|exact Hv]. }
  pose (W := fun p => match is_whole p with Ok w => w | _ => false end).
  pose (W' := fun p => if keqb (key_of key p) (key (rstart r)) || keqb (key_of key p) (key (rend r)) then W p else true).
  assert (Hp : forall p1 p p2, ps = p1 ++ p :: p2 ->
    exists ls1 x ls2, runs same l = ls1 ++ x :: ls2 /\ Forall2 piece_of p1 ls1 /\ Forall2 piece_of p2 ls2 /\ piece_of p x).
  { intros p1 p p2 ->. apply Forall2_app_inv_l in H2. destruct H2 as [x1 [x2 [F1 [F2 E]]]].
    inversion F2 as [|q y q2 x2' Hq F2' EE1 EE2]. subst. exists x1, y, x2'. auto. }
  assert (Hpiece : forall p1 p p2, ps = p1 ++ p :: p2 ->
    is_whole p = Ok (W p) /\ In (rstart p) l /\ In (rend p) l /\ key (rstart p) = key (rend p) /\
    (W p = true <-> (forall v, InB d zg v -> key v = key_of key p -> InR d v r) /\
     (forall v, InB d z v -> key v = key_of key p -> InR d v r -> exists u, InB d zg u /\ key u = key_of key p /\ pos u <= pos v))).
  { intros p1 p p2 E. destruct (Hp p1 p p2 E) as [ls1 [x [ls2 [Er [F1 [F2 [Hh Ht]]]]]]].
    destruct (hd_in _ _ Hh) as [xh Exh]. destruct (hd_rev_in _ _ Ht) as [xt Ext].
    assert (El : l = concat ls1 ++ x ++ concat ls2).
    { rewrite <- (runs_concat same l), Er, concat_app. reflexivity. }
    assert (Hxs : In (rstart p) x) by (rewrite Exh; simpl; auto).
    assert (Hxt : In (rend p) x) by (rewrite Ext; apply in_or_app; simpl; auto).
    assert (Hlx : forall y, In y x -> In y l) by (intros y Hy; rewrite El, !in_app_iff; auto).
    assert (Hsegx : seg e z x).
    { rewrite El in Hs. apply seg_app in Hs. destruct Hs as [_ Hs']. now apply seg_app in Hs'. }
    assert (Hxin : In x (runs same l)) by (rewrite Er; apply in_elt).
    assert (Hkey : key (rstart p) = key (rend p)).
    { symmetry. eapply (run_keys key same same_key); eauto. }
    assert (Hx : forall v, InB d z v -> key v = key (rstart p) -> (InR d v r <-> pos (rstart p) <= pos v <= pos (rend p))).
    { intros v Hv Hk. rewrite <- (seg_between e Hwf z x (rstart p) (rend p) v Hsegx Hh Ht Hv). split.
      - intros HR. assert (Hvl : In v l) by (apply (verses_of_In e Hwf z r l v Hl); auto). rewrite El in Hvl. apply in_app_or in Hvl. destruct Hvl as [Hvl|Hvl].
        { exfalso. exact (run_before e Hwf key same same_key convex z l ls1 x ls2 _ v Hs Er Hh Hvl Hk). }
        apply in_app_or in Hvl. destruct Hvl as [Hvl|Hvl]; [assumption|].
        exfalso. exact (run_after e Hwf key same same_key convex z l ls1 x ls2 _ v Hs Er Hh Hvl Hk).
      - intros Hvx. apply Hlx in Hvx. now apply (verses_of_In e Hwf z r l v Hl) in Hvx. }
    assert (Hpp : pos (rstart p) <= pos (rend p)).
    { apply (seg_between e Hwf z x (rstart p) (rend p) (rend p) Hsegx Hh Ht); auto. }
    destruct p as [a b]. cbn [rstart rend] in *. unfold key_of. cbn [rstart].
    destruct (whole_ends a b (HT _ (Hlx _ Hxs)) (HT _ (Hlx _ Hxt)) Hkey) as (f & la & Hf & Hla & Kf & Kla & Hff & Hll & Hw).
    assert (EW : W (R a b) = verse_eqb a f && verse_eqb b la) by (unfold W; now rewrite Hw). rewrite EW.
    split; [assumption|]. split; [auto|]. split; [auto|]. split; [auto|]. rewrite andb_true_iff, !verse_eqb_eq. split.
    - intros (-> & ->). split.
      + intros v Hv Hk. apply (Hx v (Hg _ Hv) Hk). split; [now apply Hff|apply Hll; auto; now apply (InB_mono e zg)].
      + intros v Hv Hk HR. apply (Hx v Hv Hk) in HR. exists f. split; [exact Hf|]. split; [exact Kf|lia].
    - intros (H & H'). pose proof (HB _ (Hlx _ Hxs)) as Hsz. pose proof (HB _ (Hlx _ Hxt)) as Htz.
      assert (B1 : pos a <= pos f <= pos b) by (apply (Hx f (Hg _ Hf) Kf), (H f Hf Kf)).
      assert (B2 : pos a <= pos la <= pos b) by (apply (Hx la (Hg _ Hla) Kla), (H la Hla Kla)).
      destruct (H' a Hsz eq_refl (proj2 (Hx a Hsz eq_refl) ltac:(lia))) as (u & Hu & Ku & Pu).
      pose proof (Hff u Hu Ku) as Fu.
      assert (Ea : a = f) by (apply (pos_eq e); [apply (InB_mono e z); auto|apply (InB_mono e zg); auto|lia]).
      split; [exact Ea|].
      assert (Hb0 : pos b <= pos la) by (apply Hll; [apply (InB_mono e z); auto|congruence]).
      apply (pos_eq e); [apply (InB_mono e z); auto|apply (InB_mono e zg); auto|lia]. }
  assert (Hne : ps <> []).
  { intros Eps. subst ps. apply Forall2_len in H2. symmetry in H2. apply length_zero_iff_nil in H2.
    apply runs_nil in H2. rename H2 into Hnil. destruct Hl as [_ [Hh _]]. rewrite Hnil in Hh. discriminate. }
  assert (Hfirst : forall p p2, ps = p :: p2 -> key_of key p = key (rstart r)).
  { intros p p2 E. destruct (Hp [] p p2 E) as [ls1 [x [ls2 [Er [F1 [F2 [Hh Ht]]]]]]]. inversion F1; subst ls1. cbn [app] in Er.
    destruct (hd_in _ _ Hh) as [xh Exh]. destruct Hl as (_ & Hlh & _). rewrite <- (runs_concat same l), Er, Exh in Hlh. cbn in Hlh. injection Hlh as Hlh. unfold key_of. now rewrite Hlh. }
  assert (Hlast : forall p p1, ps = p1 ++ [p] -> key_of key p = key (rend r)).
  { intros p p1 E. destruct (Hpiece p1 p [] E) as (_ & _ & _ & Ek & _). destruct (Hp p1 p [] E) as [ls1 [x [ls2 [Er [F1 [F2 [Hh Ht]]]]]]]. inversion F2; subst ls2.
    destruct (hd_rev_in _ _ Ht) as [xt Ext]. destruct Hl as (_ & _ & Hlt). rewrite <- (runs_concat same l), Er, concat_app, Ext in Hlt. cbn [concat] in Hlt. rewrite app_nil_r, app_assoc, rev_app_distr in Hlt. cbn in Hlt. injection Hlt as Hlt.
    unfold key_of. now rewrite Ek, Hlt. }
  assert (KE : forall k k', k = k' -> keqb k k' = true) by (intros k k' E; now apply keqb_spec).
  exists (zlen (filter W' ps)). split.
  - rewrite (count_ends is_whole (fun p => Ok (W' p))).
    + apply count_filter; auto. intros p1 p p2 E N1 N2. unfold W'. 
      assert (Hnd : NoDup (map (key_of key) ps)) by (eapply (runs_nodup e Hwf key same same_key convex); eauto).
      destruct p1 as [|q p1]; [congruence|]. destruct (exists_last N2) as (p2' & q' & E2).
      assert (A : key_of key p <> key (rstart r)).
      { rewrite <- (Hfirst q (p1 ++ p :: p2) E). intros A. rewrite E in Hnd. cbn [map app] in Hnd. inversion Hnd as [|? ? N _]; subst. apply N. rewrite <- A, map_app. apply in_or_app. right. now left. }
      assert (B : key_of key p <> key (rend r)).
      { rewrite <- (Hlast q' ((q :: p1) ++ p :: p2')) by (rewrite E, E2, <- app_assoc; reflexivity). intros B. rewrite E, E2, map_app in Hnd.
        apply NoDup_remove_2 in Hnd. apply Hnd. apply in_or_app. right. rewrite B. change (In (key_of key q') (map (key_of key) (p2' ++ [q']))). apply in_map, in_or_app. right. now left. }
      destruct (keqb (key_of key p) (key (rstart r))) eqn:E3; [apply keqb_spec in E3; contradiction|]. destruct (keqb (key_of key p) (key (rend r))) eqn:E4; [apply keqb_spec in E4; contradiction|]. reflexivity.
    + intros x xs E. unfold W'. rewrite (KE _ _ (Hfirst x xs E)). cbn [orb]. apply (Hpiece [] x xs E).
    + intros x xs E. unfold W'. rewrite (KE _ _ (Hlast x xs E)), orb_true_r. apply (Hpiece xs x [] E).
  - exists (map (key_of key) (filter W' ps)). split; [|split].
    + pose proof (runs_nodup e Hwf key same same_key convex z l ps Hs H2) as Hnd. clear - Hnd. induction ps as [|p ps IH]; [constructor|].
      cbn [map] in Hnd. inversion Hnd; subst. simpl. destruct (W' p); [|auto]. simpl. constructor; [|auto].
      intros Hin. apply H1. apply in_map_iff in Hin. destruct Hin as [q [<- Hq]]. apply filter_In in Hq.
      apply in_map. tauto.
    + intros k. rewrite in_map_iff. split.
      * intros [p [<- Hin]]. apply filter_In in Hin. destruct Hin as [Hin HW].
        apply in_split in Hin. destruct Hin as [p1 [p2 E]]. destruct (Hpiece p1 p p2 E) as (_ & H1 & _ & _ & H3).
        split; [exists (rstart p); split; [auto|]; split; [|reflexivity]; now apply (verses_of_In e Hwf z r l _ Hl) in H1|].
        intros Hk. apply H3. unfold W' in HW. assert (Eo : keqb (key_of key p) (key (rstart r)) || keqb (key_of key p) (key (rend r)) = true).
        { apply orb_true_iff. destruct Hk as [Hk|Hk]; [left|right]; now apply KE. }
        now rewrite Eo in HW.
      * intros [[v [Hv [HR <-]]] Hall]. assert (Hvl : In v l) by (apply (verses_of_In e Hwf z r l v Hl); auto).
        assert (Hk : In (key v) (map (key_of key) ps)) by (apply (runs_keys key same same_key l ps _ H2); eauto).
        apply in_map_iff in Hk. destruct Hk as [p [Hk Hin]]. exists p. split; [assumption|].
        apply filter_In. split; [assumption|]. apply in_split in Hin. destruct Hin as [p1 [p2 E]].
        unfold W'. destruct (keqb (key_of key p) (key (rstart r)) || keqb (key_of key p) (key (rend r))) eqn:Eo; [|reflexivity].
        apply (Hpiece p1 p p2 E). rewrite Hk. apply Hall. apply orb_true_iff in Eo. destruct Eo as [Eo|Eo]; apply keqb_spec in Eo; rewrite <- Hk; auto.
    + unfold zlen. now rewrite map_length.
Qed.
End Units.

Definition ch_eqb (a b : book * Z) : bool := book_eqb (fst a) (fst b) && (snd a =? snd b).
Lemma ch_eqb_spec : forall a b, ch_eqb a b = true <-> a = b.
Proof.
  intros [a c] [b c']. unfold ch_eqb. cbn [fst snd]. rewrite andb_true_iff, book_eqb_eq, Z.eqb_eq. split; [intros (-> & ->); reflexivity|intros [= -> ->]; auto].
Qed.
Lemma chap_ends : forall a b, InB d true a -> InB d true b -> ch_key a = ch_key b -> exists f la,
  InB d zg f /\ InB d zg la /\ ch_key f = ch_key a /\ ch_key la = ch_key a /\ (forall v, InB d zg v -> ch_key v = ch_key a -> pos f <= pos v) /\
  (forall v, InB d true v -> ch_key v = ch_key a -> pos v <= pos la) /\
  is_whole_chap e (R a b) None = Ok (verse_eqb a f && verse_eqb b la).
Proof.
  intros a b Ha Hb Hk. injection Hk as Hbk Hck. pose proof (InB_book e _ _ Ha) as Ho.
  pose proof (InB_legal e _ _ Ha) as [Hc Hl]. pose proof (InB_legal e _ _ Hb) as [Hc' Hl'].
  destruct (first_verse_in e Hwf (vbook a) (vchap a) Ho Hc) as [Hf HfB].
  destruct (last_verse_in e Hwf (vbook a) (vchap a) Ho Hc) as [Hla HlB].
  exists (V (vbook a) (vchap a) (first_num d zg (vbook a) (vchap a))), (V (vbook a) (vchap a) (last_num d (vbook a) (vchap a))).
  split; [exact HfB|]. split; [apply (InB_false e); exact HlB|]. split; [reflexivity|]. split; [reflexivity|]. split; [|split].
  - intros v Hv Hkv. injection Hkv as E1 E2. pose proof (InB_legal e _ _ Hv) as [_ Hn]. rewrite E1, E2 in Hn.
    apply (pos_book e Hwf); cbn [vbook vchap vverse]; auto; try (eapply InB_mono; eauto). right. split; auto. lia.
  - intros v Hv Hkv. injection Hkv as E1 E2. pose proof (InB_legal e _ _ Hv) as [_ Hn]. rewrite E1, E2 in Hn.
    apply (pos_book e Hwf); cbn [vbook vchap vverse]; auto; try (eapply InB_mono; eauto). right. split; auto. lia.
  - unfold is_whole_chap. cbn [rstart rend]. rewrite <- Hbk, book_eqb_refl. unfold andM. cbn [bind].
    rewrite Hf. cbn [bind]. rewrite Hla. cbn [bind]. now destruct (verse_eqb a _).
Qed.
Lemma book_ends : forall a b, InB d true a -> InB d true b -> vbook a = vbook b -> exists f la,
  InB d zg f /\ InB d zg la /\ vbook f = vbook a /\ vbook la = vbook a /\ (forall v, InB d zg v -> vbook v = vbook a -> pos f <= pos v) /\
  (forall v, InB d true v -> vbook v = vbook a -> pos v <= pos la) /\
  is_whole_book e (R a b) None = Ok (verse_eqb a f && verse_eqb b la).
Proof.
  intros a b Ha Hb Hbk. pose proof (InB_book e _ _ Ha) as Ho. pose proof (num_chaps_pos e Hwf _ Ho) as Hnc.
  destruct (first_verse_in e Hwf (vbook a) 1 Ho ltac:(lia)) as [_ HfB].
  destruct (last_verse_in e Hwf (vbook a) (num_chaps d (vbook a)) Ho ltac:(lia)) as [_ HlB].
  exists (V (vbook a) 1 (first_num d zg (vbook a) 1)), (V (vbook a) (num_chaps d (vbook a)) (last_num d (vbook a) (num_chaps d (vbook a)))).
  split; [exact HfB|]. split; [apply (InB_false e); exact HlB|]. split; [reflexivity|]. split; [reflexivity|]. split; [|split].
  - intros v Hv Hkv. pose proof (InB_legal e _ _ Hv) as [Hc Hn]. rewrite Hkv in *.
    apply (pos_book e Hwf); cbn [vbook vchap vverse]; auto; try (eapply InB_mono; eauto). destruct (Z.eq_dec (vchap v) 1) as [E|E]; [|lia]. rewrite E in Hn. lia.
  - intros v Hv Hkv. pose proof (InB_legal e _ _ Hv) as [Hc Hn]. rewrite Hkv in *.
    apply (pos_book e Hwf); cbn [vbook vchap vverse]; auto; try (eapply InB_mono; eauto). destruct (Z.eq_dec (vchap v) (num_chaps d (vbook a))) as [E|E]; [|lia]. rewrite E in Hn. lia.
  - unfold is_whole_book. cbn [rstart rend]. rewrite <- Hbk, book_eqb_refl. unfold andM. cbn [bind].
    rewrite (first_verse_book e Hwf _ Ho). cbn [bind]. rewrite (last_verse_book e Hwf _ Ho). cbn [bind]. now destruct (verse_eqb a _).
Qed.
Lemma split_zero_more : forall r, zg = true -> split_zero e r None = true.
Proof. intros r H. unfold split_zero. change (zero_on e None) with zg. now rewrite H. Qed.
Lemma chap_whole_exact : forall r fl, wf_range d true r ->
  exists n, r_chap_count e r true fl = Ok n /\ counted (counts _ ch_key (split_zero e r None) r) n.
Proof.
  intros r fl Hr. pose proof (split_zero_wf e Hwf r None Hr) as Hz. destruct (verses_of_exists e Hwf _ r Hz) as [l Hl].
  destruct (split_chaps e Hwf r None l Hl) as [ps [Hps H2]]. unfold r_chap_count. rewrite Hps. cbn [bind].
  exact (count_whole_exact _ ch_key ch_eqb ch_eqb_spec same_ch ch_same (ch_convex e Hwf) _ chap_ends _ r l ps (split_zero_more r) Hl H2).
Qed.
Lemma book_whole_exact : forall r fl, wf_range d true r ->
  exists n, r_book_count e r true fl = Ok n /\ counted (counts _ vbook (split_zero e r None) r) n.
Proof.
  intros r fl Hr. pose proof (split_zero_wf e Hwf r None Hr) as Hz. destruct (verses_of_exists e Hwf _ r Hz) as [l Hl].
  destruct (split_books e Hwf r None l Hl) as [ps [Hps H2]]. unfold r_book_count. rewrite Hps. cbn [bind].
  exact (count_whole_exact _ vbook book_eqb book_eqb_eq same_bk bk_same (bk_convex e Hwf) _ book_ends _ r l ps (split_zero_more r) Hl H2).
Qed.
End Count2.
