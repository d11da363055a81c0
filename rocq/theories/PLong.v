(** * PLong: in a reading, every token is the longest text of its terminal at its place. *)
From Coq Require Import List ZArith NArith Bool Ascii Lia.
From Verif Require Import Base Books Chars Regex Data MVerse MRange MSeq MList MParse SpecParse PList PLex.
Import ListNotations.
Open Scope Z_scope.

Definition sep_or_end (d : bibledata) (r : str) : Prop := r = [] \/ exists c r', r = c :: r' /\ is_sep d c.

Lemma prefix_cases : forall A (x s y z : list A), x ++ s = y ++ z -> (length y <= length x)%nat \/ exists y', y' <> [] /\ y = x ++ y' /\ s = y' ++ z.
Proof.
  induction x as [|a x IH]; intros s y z E.
  - cbn in E. destruct y as [|b y]; [left; cbn; lia|]. right. exists (b :: y). split; [discriminate|auto].
  - destruct y as [|b y]; [left; cbn; lia|]. cbn in E. inv E. destruct (IH _ _ _ H1) as [L|(y' & N & E1 & E2)].
    + left. cbn. lia.
    + right. exists y'. subst. auto.
Qed.
Lemma prefix_of : forall A (q r y z : list A), q ++ r = y ++ z -> (exists t, q = y ++ t) \/ exists c r' y', r = c :: r' /\ y = q ++ c :: y'.
Proof.
  induction q as [|a q IH]; intros r y z E.
  - cbn in E. destruct y as [|b y]; [left; exists []; auto|]. right. exists b, (y ++ z), y. split; [exact E|reflexivity].
  - destruct y as [|b y]; [left; eexists; reflexivity|]. cbn in E. inv E. destruct (IH _ _ _ H1) as [(t & ->)|(c & r' & y' & E1 & E2)].
    + left. exists t. auto.
    + right. subst. exists c, r', y'. split; reflexivity.
Qed.
Lemma name_chars : forall d x c, good_seps d -> in_term d TName x -> In c x -> ~ is_sep d c.
Proof.
  intros d x c G T I. apply (term_nosep d TName x G eq_refl) in T. unfold nosep in T. rewrite Forall_forall in T. apply sep_kind_none. auto.
Qed.
Lemma longest_name : forall d x q r, good_seps d -> in_term d TName x -> Forall (fun c => is_space c = true \/ is_digit c = true) q -> sep_or_end d r ->
  longest d TName x (q ++ r).
Proof.
  intros d x q r G T Q R y z E I. destruct (prefix_cases _ _ _ _ _ E) as [L|(y' & N & E1 & E2)]; auto. exfalso.
  destruct (prefix_of _ _ _ _ _ E2) as [(t & ->)|(c & r' & y2 & E3 & E4)].
  - destruct (exists_last N) as (y2 & a & E5). assert (A : is_ws a = false /\ is_digit a = false /\ is_space a = false).
    { destruct I as (c' & m & z' & E0 & _ & _ & H1 & H2 & _). rewrite E1, E5, app_assoc in E0. change (c' :: m ++ [z']) with ((c' :: m) ++ [z']) in E0.
      apply app_inj_tail in E0. destruct E0 as (_ & <-). repeat split; auto. destruct (is_ws a) eqn:W; auto. apply ws_space in W. congruence. }
    rewrite E5 in Q. apply Forall_app in Q. destruct Q as (Q & _). apply Forall_app in Q. destruct Q as (_ & Q). inv Q. intuition congruence.
  - destruct R as [->|(c' & r2 & -> & S)]; [discriminate|]. inv E3. apply (name_chars d (x ++ q ++ c :: y2) c G I); auto.
    apply in_or_app. right. apply in_or_app. right. now left.
Qed.
Lemma longest_num : forall d x w r, good_seps d -> white w -> sep_or_end d r -> longest d TNum x (w ++ r).
Proof.
  intros d x w r G W R y z E (_ & D). destruct (prefix_cases _ _ _ _ _ E) as [L|(y' & N & E1 & E2)]; auto. exfalso.
  destruct y' as [|a y']; [congruence|]. rewrite E1 in D. apply Forall_app in D. destruct D as (_ & D). inv D.
  destruct w as [|b w].
  - cbn in E2. destruct R as [->|(c & r' & -> & S)]; [discriminate|]. inv E2. apply (gs_punct d G) in S. apply digit_word in H1. intuition congruence.
  - cbn in E2. inv E2. inv W. apply digit_not_ws in H1. congruence.
Qed.
Lemma longest_sep : forall d k x s, sep_term k = true -> in_term d k x -> longest d k x s.
Proof.
  intros d k x s K T y z E I. assert (L : forall u, in_term d k u -> length u = 1%nat).
  { intros u U. destruct k; try discriminate; cbn in U; try (now subst). destruct U; now subst. }
  rewrite (L y I), (L x T). auto.
Qed.
Lemma spaces_digits : forall w, white w -> Forall (fun c => is_space c = true \/ is_digit c = true) w.
Proof. intros w W. eapply Forall_impl; [|exact W]. intros c H. left. now apply ws_space. Qed.

Lemma seg_longest : forall d a i s1 w r b, good_seps d -> seg_kind d a -> spells d i s1 a -> white w -> sep_or_end d r -> spells_longest d (w ++ r) b ->
  spells_longest d (s1 ++ w ++ r) (a ++ b).
Proof.
  intros d a i s1 w r b G K H W R B.
  assert (WR : forall w', white w' -> white (w' ++ w)) by (intros w' W'; now apply Forall_app).
  assert (SW : forall w' s t, white w' -> spells_longest d s t -> spells_longest d (w' ++ s) t).
  { intros w' s t W' S. inv S; [constructor; now apply Forall_app|]. rewrite app_assoc. constructor; auto. now apply Forall_app. }
  destruct K as [|[k x j] K|[k x j] K|[k x j] [k' y j'] K K'].
  - apply spells_nil in H. cbn [app]. auto.
  - cbn in K. subst k. apply spells_gap in H. destruct H as (w0 & s' & -> & W0 & I & -> & H). apply spells_nil in H. rewrite <- !app_assoc.
    cbn [app]. constructor; auto. rewrite app_assoc. apply longest_num; auto.
  - cbn in K. subst k. apply spells_gap in H. destruct H as (w0 & s' & -> & W0 & I & -> & H). apply spells_nil in H. rewrite <- !app_assoc.
    cbn [app]. constructor; auto. rewrite app_assoc. apply longest_name; auto. apply spaces_digits. auto.
  - cbn in K, K'. subst k k'. apply spells_gap in H. destruct H as (w0 & s' & -> & W0 & I & -> & H).
    apply spells_gap in H. destruct H as (w2 & s0 & -> & W2 & I2 & -> & H). apply spells_nil in H. rewrite <- !app_assoc. cbn [app].
    constructor; auto.
    + replace (w2 ++ y ++ s0 ++ w ++ r) with ((w2 ++ y ++ s0 ++ w) ++ r) by (now rewrite <- !app_assoc). apply longest_name; auto.
      destruct I2 as (_ & D). repeat (apply Forall_app; split); try now apply spaces_digits. eapply Forall_impl; [|exact D]. auto.
    + constructor; auto. rewrite app_assoc. apply longest_num; auto.
Qed.
Lemma sparse_longest : forall d ts, good_seps d -> sparse d ts -> forall i s, spells d i s ts -> spells_longest d s ts.
Proof.
  intros d ts G P. induction P as [a K|a [k x j] b K T P IH]; intros i s H.
  - assert (E := seg_longest d a i s [] [] [] G K H (Forall_nil _) (or_introl eq_refl)). rewrite !app_nil_r in E. apply E. constructor. constructor.
  - destruct (spells_app_inv d a i s _ H) as (s1 & s2 & E & H1 & H2). apply spells_gap in H2. destruct H2 as (w & s' & E2 & W & I & J & H2).
    subst s s2. destruct (sep_term_kind d k x G T I) as (c & -> & C). cbn [app]. eapply seg_longest; eauto.
    + right. exists c, s'. split; auto. destruct (sep_kind d c) eqn:Q; [|discriminate]. unfold is_sep, sep_kind in *.
      destruct (Ascii.eqb_spec c (range_sep d)); [tauto|]. destruct (Ascii.eqb_spec c (major_list_sep d)); [tauto|].
      destruct (Ascii.eqb_spec c (minor_list_sep d)); [tauto|]. destruct (Ascii.eqb_spec c (verse_sep_std d)); [tauto|].
      destruct (Ascii.eqb_spec c (verse_sep_alt d)); [tauto|]. discriminate.
    + change (c :: s') with ([c] ++ s'). constructor; eauto. now apply longest_sep.
Qed.
Lemma reads_longest : forall d s t, good_seps d -> reads d s t -> exists ts, spells d 0 s ts /\ g_list ts t /\ spells_longest d s ts.
Proof.
  intros d s t G (ts & S & L). exists ts. repeat split; auto. eapply sparse_longest; eauto. eapply sparse_list; eauto.
Qed.
