(** * PRecall: lemmas on what the parser remembers. *)
From Coq Require Import List ZArith NArith Bool Ascii String Lia.
From Verif Require Import Base Books Chars Regex Data DefaultData MVerse MRange MSeq MList MStr MParse MWorld Spec SpecList SpecName SpecParse SpecMean
  SpecRecall PList PCore PNav PVerse PRange PDefault PSetOps PRuns PSplit PCount PUnit PUnit2 PLex PParse PParse2 PWorld.
Import ListNotations.
Import Spec.
Open Scope Z_scope.
Open Scope list_scope.

(** ** The context is determined *)
Lemma m_single_unique : forall e fl c a r c1 r' c1', m_single e fl c a r c1 -> m_single e fl c a r' c1' -> r = r' /\ c1 = c1'.
Proof.
  intros e fl c a r c1 r' c1' (k & u & S & M & _ & _ & ->) (k' & u' & S' & M' & _ & _ & ->).
  pose proof (says_unique _ _ _ _ S S') as <-. destruct (means_unique _ _ _ _ _ _ _ M M') as (<- & <-). auto.
Qed.
Lemma single_left_unique : forall d c a c1 c2, single_left d c a c1 -> single_left d c a c2 -> c1 = c2.
Proof.
  intros d c a c1 c2 [k u c' S M|N] [k' u' c'' S' M'|N']; auto.
  - pose proof (says_unique _ _ _ _ S S') as <-. now destruct (means_unique _ _ _ _ _ _ _ M M').
  - exfalso. eapply N'; eauto.
  - exfalso. eapply N; eauto.
Qed.
Lemma ref_left_unique : forall e fl c x c1 c2, ref_left e fl c x c1 -> ref_left e fl c x c2 -> c1 = c2.
Proof.
  intros e fl c x c1 c2 [a c' H|a s b c' N H|a r c0 s b c' M H] H2; inversion H2; subst; eauto using single_left_unique.
  - exfalso. eapply N; eauto.
  - exfalso. match goal with X : forall r c1, ~ _ |- _ => eapply X; eauto end.
  - match goal with X : m_single e fl c a _ _ |- _ => destruct (m_single_unique _ _ _ _ _ _ _ _ M X) as (_ & <-) end. eauto using single_left_unique.
Qed.
Section Unique.
Variable e : env.
Hypothesis Hwf : wf_data (ed e).
Variable fl : option flag.
Lemma rest_left_unique : forall tr c l c1, rest_left e fl tr c l c1 -> forall c2, rest_left e fl tr c l c2 -> c1 = c2.
Proof.
  intros tr c l c1 H. induction H as [c|c s x l c' N H|c s x r c0 l c' M H IH]; intros c2 H2; inversion H2; subst; auto.
  - eauto using ref_left_unique.
  - exfalso. eapply N; eauto.
  - exfalso. match goal with X : forall r c1, ~ _ |- _ => eapply X; eauto end.
  - match goal with X : m_ref e fl _ x _ _ |- _ => destruct (m_ref_unique _ _ _ _ _ _ _ _ Hwf M X) as (_ & <-) end. auto.
Qed.
Lemma tree_left_unique : forall c t c1 c2, tree_left e fl c t c1 -> tree_left e fl c t c2 -> c1 = c2.
Proof.
  intros c t c1 c2 [c' N H|r c0 c' M H] [c'' N' H'|r' c0' c'' M' H'].
  - eauto using ref_left_unique.
  - exfalso. eapply N; eauto.
  - exfalso. eapply N'; eauto.
  - destruct (m_ref_unique _ _ _ _ _ _ _ _ Hwf M M') as (_ & <-). eauto using rest_left_unique.
Qed.
(** An accepted text. *)
Lemma m_rest_left : forall tr c l rs c', m_rest e fl c l rs c' -> rest_left e fl tr c l (match tr with Some s => after_sep s c' | None => c' end).
Proof. intros tr c l rs c' H. induction H; [constructor|]. eapply L_go; eauto. Qed.
Lemma m_tree_left : forall c t gs c', m_tree e fl c t gs c' -> tree_left e fl c t c'.
Proof. intros c t gs c' (r & c1 & rs & c2 & M & R & _ & ->). eapply L_later; eauto. eapply m_rest_left; eauto. Qed.
End Unique.

(** ** The transformer *)
Section Left.
Variable e : env.
Variable fl : option flag.
Notation d := (ed e).
Notation f := (eff e fl).
Hypothesis Hwf : wf_data d.
Hypothesis Hnl : names_listed d.
Lemma t_single_left : forall st a, sane d st -> single_left d (ctx_of st) a (ctx_of (fst (t_single e f st a))).
Proof.
  intros st a S.
  assert (NB : ts_book st = None -> name_of a = None -> single_left d (ctx_of st) a (ctx_of st)).
  { intros B N. apply L_stays. intros k u c' Sa M. unfold ctx_of in M. rewrite B in M. inversion Sa; subst; try discriminate; inversion M; subst; discriminate. }
  assert (UN : forall n, name_of a = Some n -> (forall b, ~ named d n b) -> single_left d (ctx_of st) a (ctx_of st)).
  { intros n N U. apply L_stays. intros k u c' Sa _. inversion Sa; subst; cbn in N; try discriminate; injection N as ->; eapply U; eauto. }
  destruct a as [n|n m|n c s v|c s v|m]; cbn [t_single].
  - pose proof (tok_book_spec e n) as T. destruct (tok_book d n) as [b|x]; [|destruct T as (-> & T); eapply UN; eauto; reflexivity].
    cbn [fst]. eapply L_meant; [constructor; exact T|]. cbn. constructor.
  - pose proof (tok_book_spec e n) as T. destruct (tok_book d n) as [b|x]; [|destruct T as (-> & T); eapply UN; eauto; reflexivity].
    pose proof (named_listed e Hnl n b T) as Hb. destruct (chap_count e b =? 1) eqn:C; cbn [fst].
    + apply (one_chap_spec e Hwf) in C; auto. rewrite (min_chap_in e Hwf b Hb). eapply L_meant; [constructor; exact T|]. cbn. now constructor.
    + assert (C' : ~ one_chap_book d b) by (intros X; apply (one_chap_spec e Hwf) in X; auto; congruence). eapply L_meant; [constructor; exact T|]. cbn. now constructor.
  - pose proof (tok_book_spec e n) as T. destruct (tok_book d n) as [b|x]; [|destruct T as (-> & T); eapply UN; eauto; reflexivity].
    cbn [fst]. eapply L_meant; [constructor; exact T|]. cbn. constructor.
  - destruct (ts_book st) as [b|] eqn:B; [|now apply NB]. cbn [fst]. eapply L_meant; [constructor|]. cbn. constructor. now rewrite ctx_of_book.
  - destruct (ts_book st) as [b|] eqn:B; [|now apply NB]. pose proof (proj1 S b B) as Hb. destruct (chap_count e b =? 1) eqn:C.
    + rewrite orb_true_r. apply (one_chap_spec e Hwf) in C; auto. rewrite (min_chap_in e Hwf b Hb). cbn [fst]. eapply L_meant; [constructor|].
      unfold ctx_of at 1. rewrite B. destruct (ts_vl st) eqn:V.
      * destruct (proj2 S V) as (b' & c & _ & ->). cbn. now constructor.
      * cbn. now constructor.
    + assert (C' : ~ one_chap_book d b) by (intros X; apply (one_chap_spec e Hwf) in X; auto; congruence). rewrite orb_false_r. destruct (ts_vl st) eqn:V.
      * destruct (proj2 S V) as (b' & c & B' & E). rewrite E. cbn [fst]. eapply L_meant; [constructor|]. unfold ctx_of. rewrite B, V, E. now constructor.
      * cbn [fst]. eapply L_meant; [constructor|]. unfold ctx_of. rewrite B, V. now constructor.
Qed.
Lemma single_stuck : forall c a ts, single_blamed e fl c a ts -> forall r c1, ~ m_single e fl c a r c1.
Proof.
  intros c a ts [n N U|K U] r c1; [|apply U]. intros (k & u & Sa & _). inversion Sa; subst; cbn in N; try discriminate; injection N as ->; eapply U; eauto.
Qed.
Lemma ref_stuck : forall c x ts, ref_blamed e fl c x ts -> forall r c1, ~ m_ref e fl c x r c1.
Proof.
  intros c x ts H r c1 M. inversion H; subst; inversion M; subst.
  - eapply single_stuck; eauto.
  - eapply single_stuck; eauto.
  - match goal with X : m_single e fl c a _ _, Y : m_single e fl c a _ _ |- _ => destruct (m_single_unique _ _ _ _ _ _ _ _ X Y) as (<- & <-) end. eapply single_stuck; eauto.
  - repeat match goal with X : m_single e fl ?c0 ?a _ _, Y : m_single e fl ?c0 ?a _ _ |- _ => destruct (m_single_unique _ _ _ _ _ _ _ _ X Y) as (<- & <-); clear Y end.
    match goal with X : forall r, ~ joined _ _ _ _ r |- _ => eapply X; eauto end.
Qed.
Lemma t_ref_left : forall st x, sane d st ->
  match t_ref e f st x with
  | (st', Ok r) => m_ref e fl (ctx_of st) x r (ctx_of st')
  | (st', Err _) => (forall r c1, ~ m_ref e fl (ctx_of st) x r c1) /\ ref_left e fl (ctx_of st) x (ctx_of st')
  end.
Proof.
  intros st x S. pose proof (t_ref_spec e fl Hwf Hnl st x S) as H. destruct (t_ref e f st x) as (st', [r|z]) eqn:E; destruct H as (S' & H); [exact H|].
  destruct H as (ts & i & j & B & _). split; [eapply ref_stuck; eauto|]. destruct x as [a|a s b]; cbn [t_ref] in E.
  - apply L_one. pose proof (t_single_left st a S) as L. now rewrite E in L.
  - pose proof (t_single_left st a S) as L. pose proof (t_single_spec e fl Hwf Hnl st a S) as T. destruct (t_single e f st a) as (st1, [r1|z1]); destruct T as (S1 & T); cbn [fst] in L.
    + pose proof (t_single_left st1 b S1) as L1. destruct (t_single e f st1 b) as (st2, q). cbn [fst] in L1. apply (L_right e fl _ a r1 (ctx_of st1)); auto.
      destruct q; injection E as <- _; exact L1.
    + injection E as <- _. apply L_left; auto. destruct T as (ts' & i' & j' & B' & _). eapply single_stuck; eauto.
Qed.
Definition with_trail (tr : option token) (st : tstate) : tstate := match tr with Some s => t_sep st s | None => st end.
Lemma t_rests_left : forall tr l st, sane d st ->
  rest_left e fl tr (ctx_of st) l (ctx_of (match t_rests e f st l with (st', Ok _) => with_trail tr st' | (st', Err _) => st' end)).
Proof.
  intros tr. induction l as [|(s, x) l IH]; intros st S; cbn [t_rests].
  - unfold with_trail. assert (E : ctx_of (match tr with Some s => t_sep st s | None => st end) = match tr with Some s => after_sep s (ctx_of st) | None => ctx_of st end).
    { destruct tr as [s|]; auto. now apply (t_sep_spec e). }
    rewrite E. constructor.
  - destruct (t_sep_spec e st s S) as (S1 & E1). pose proof (t_ref_left (t_sep st s) x S1) as H. pose proof (t_ref_spec e fl Hwf Hnl (t_sep st s) x S1) as H'.
    rewrite E1 in H. destruct (t_ref e f (t_sep st s) x) as (st1, [r|z]).
    + destruct H' as (S2 & _). specialize (IH st1 S2). destruct (t_rests e f st1 l) as (st2, [cs|z]); cbn [bind]; eapply L_go; eauto.
    + destruct H as (N & L). apply L_stop; auto.
Qed.
Lemma t_children_left : forall st t, sane d st -> tree_left e fl (ctx_of st) t (ctx_of (fst (t_children e f st t))).
Proof.
  intros st t S. unfold t_children. pose proof (t_ref_left st (t_first t) S) as H. pose proof (t_ref_spec e fl Hwf Hnl st (t_first t) S) as H'.
  destruct (t_ref e f st (t_first t)) as (st1, [r|z]).
  - destruct H' as (S1 & _). pose proof (t_rests_left (t_trail t) (t_rest t) st1 S1) as R. eapply L_later; eauto.
    destruct (t_rests e f st1 (t_rest t)) as (st2, [cs|z]); auto. unfold with_trail in R. destruct (t_trail t); exact R.
  - destruct H as (N & L). now apply L_first.
Qed.
Lemma parse_left : forall st s t, good_seps d -> sane d st -> reads d s t -> tree_left e fl (ctx_of st) t (ctx_of (fst (parse e fl st s))).
Proof.
  intros st s t G S R. apply (read_complete _ _ _ G) in R. unfold parse. rewrite R. pose proof (t_children_left st t S) as H.
  destruct (t_children e f st t); exact H.
Qed.
End Left.

(** ** Histories *)
Lemma act_reading : forall w a fl s, coherent w -> reading a fl s -> the_transformer (act w a) = fst (parse (env_of w) fl (the_transformer w) s).
Proof.
  intros w a fl s C H. assert (E : forall fl st, parse (env_of w) (Some (eff (env_of w) fl)) st s = parse (env_of w) fl st s) by (intros; unfold parse; now rewrite eff_eff).
  destruct H; cbn [act]; rewrite ?w_range_fst, ?w_verse_fst, ?w_list_fst, w_parse_trans, ?E by auto; reflexivity.
Qed.
Lemma act_setting : forall w a, setting a -> the_transformer (act w a) = the_transformer w.
Proof.
  intros w a H. destruct a; try reflexivity; try (exfalso; eapply H; constructor). cbn [act]. now rewrite assign_fst.
Qed.
(** The part of [sane] that does not depend on the data. *)
Definition shaped (st : tstate) : Prop := ts_vl st = true -> exists b c, ts_book st = Some b /\ ts_chap st = Some c.
Lemma sane_shaped : forall d st, sane d st <-> shaped st /\ forall b, ctx_book (ctx_of st) = Some b -> In b (book_order d).
Proof. intros d st. unfold sane, shaped. rewrite ctx_of_book. tauto. Qed.
