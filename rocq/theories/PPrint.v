(** * PPrint: what [BibleRangeList.str] shows of each range, in terms of SpecMean. *)
From Coq Require Import List ZArith Bool Ascii Lia.
From Verif Require Import Base Books Chars Regex Data MVerse MRange MSeq MList MStr MParse Spec SpecList SpecParse SpecMean
  PList PCore PNav PVerse PRange PSetOps PRuns PSplit PCount PUnit PUnit2 PRegroup.
Import ListNotations.
Import Spec.
Open Scope Z_scope.

Lemma bool_is_eq : forall x y P, bool_is x P -> bool_is y P -> x = y.
Proof.
  intros x y P (a & -> & Ha) (b & -> & Hb). f_equal. destruct a, b; auto.
  - symmetry. apply Hb, Ha. reflexivity.
  - apply Ha, Hb. reflexivity.
Qed.

Section Print.
Variable e : env.
Notation d := (ed e).
Notation zg := (verse0 (eg e)).
Hypothesis Hwf : wf_data d.
Variable fl : option flag.
Hypothesis Hfl : zero_on e fl = zg.
Notation pos := (pos e).


(** The answers of the tests of a range, and how they depend on each other. *)
Record tests (x : range) (sb sc eb ec wb wc : bool) : Prop := {
  t_sb : forall f, f = fl \/ f = None -> spans_start_book e x f = Ok sb;
  t_sc : forall f, f = fl \/ f = None -> spans_start_chap e x f = Ok sc;
  t_eb : forall f, f = fl \/ f = None -> spans_end_book e x f = Ok eb;
  t_ec : forall f, f = fl \/ f = None -> spans_end_chap e x f = Ok ec;
  t_wb : forall f, f = fl \/ f = None -> is_whole_book e x f = Ok wb;
  t_wc : forall f, f = fl \/ f = None -> is_whole_chap e x f = Ok wc;
  p_sb : sb = true <-> opens_with d zg (book_at (rstart x)) x;
  p_sc : sc = true <-> opens_with d zg (chap_at (rstart x)) x;
  p_eb : eb = true <-> closes_with d zg (book_at (rend x)) x;
  p_ec : ec = true <-> closes_with d zg (chap_at (rend x)) x;
  p_wb : wb = true <-> is_unit e zg (book_at (rstart x)) x;
  p_wc : wc = true <-> is_unit e zg (chap_at (rstart x)) x }.

Lemma tests_at : zero_on e fl = zg -> forall x, wf_range d true x -> exists sb sc eb ec wb wc, tests x sb sc eb ec wb wc.
Proof.
  intros Hzf x Hx. pose proof Hx as (Rs & Re & _).
  pose proof (range_can_start_none e Hwf x Hx) as (C1 & C2 & C3 & C4).
  assert (D : forall f u, f = fl \/ f = None -> can_start e None u -> can_start e f u).
  { intros f u Hf. unfold can_start. assert (E : zero_on e f = zg) by (destruct Hf; subst; [exact Hzf|reflexivity]).
    rewrite E. unfold zero_on, arg_given. auto. }
  assert (Z : forall f, f = fl \/ f = None -> zero_on e f = zg) by (intros f [->| ->]; [exact Hzf|reflexivity]).
  assert (Ev : forall (test : option flag -> res bool) P, (forall f, f = fl \/ f = None -> bool_is (test f) P) ->
            exists b, (forall f, f = fl \/ f = None -> test f = Ok b) /\ (b = true <-> P)).
  { intros test P H. destruct (H None (or_intror eq_refl)) as (b & E & Hb). exists b. split; auto.
    intros f Hf. rewrite <- E. eapply bool_is_eq; [exact (H f Hf)|]. exists b. auto. }
  destruct (Ev (spans_start_book e x) _ (fun f Hf => eq_ind _ (fun z => bool_is _ (opens_with d z _ x)) (opens_eval e Hwf x None f Hx (or_introl eq_refl) (D f _ Hf C2)) _ (Z f Hf))) as (sb & E1 & P1).
  destruct (Ev (spans_start_chap e x) _ (fun f Hf => eq_ind _ (fun z => bool_is _ (opens_with d z _ x)) (opens_eval e Hwf x (Some (vchap (rstart x))) f Hx (or_intror eq_refl) (D f _ Hf C1)) _ (Z f Hf))) as (sc & E2 & P2).
  destruct (Ev (spans_end_book e x) _ (fun f Hf => eq_ind _ (fun z => bool_is _ (closes_with d z _ x)) (closes_eval e Hwf x None f Hx (or_introl eq_refl) (D f _ Hf C4)) _ (Z f Hf))) as (eb & E3 & P3).
  destruct (Ev (spans_end_chap e x) _ (fun f Hf => eq_ind _ (fun z => bool_is _ (closes_with d z _ x)) (closes_eval e Hwf x (Some (vchap (rend x))) f Hx (or_intror eq_refl) (D f _ Hf C3)) _ (Z f Hf))) as (ec & E4 & P4).
  destruct (Ev (is_whole_book e x) _ (fun f Hf => eq_ind _ (fun z => bool_is _ (is_unit e z _ x)) (whole_eval e Hwf x None f Hx (or_introl eq_refl) (D f _ Hf C2)) _ (Z f Hf))) as (wb & E5 & P5).
  destruct (Ev (is_whole_chap e x) _ (fun f Hf => eq_ind _ (fun z => bool_is _ (is_unit e z _ x)) (whole_eval e Hwf x (Some (vchap (rstart x))) f Hx (or_intror eq_refl) (D f _ Hf C1)) _ (Z f Hf))) as (wc & E6 & P6).
  exists sb, sc, eb, ec, wb, wc. constructor; auto.
Qed.
Lemma tests_exist : forall x, wf_range d true x -> exists sb sc eb ec wb wc, tests x sb sc eb ec wb wc.
Proof. exact (tests_at Hfl). Qed.

Notation one b := (num_chaps d b = 1).
Record rules (x : range) (sb sc eb ec wb wc : bool) : Prop := {
  r_sb_sc : sb = true -> sc = true;
  r_eb_ec : eb = true -> ec = true;
  r_sc_sb : one (vbook (rstart x)) -> sc = true -> sb = true;
  r_ec_eb : one (vbook (rend x)) -> ec = true -> eb = true;
  r_sc_ec : vbook (rstart x) = vbook (rend x) -> vchap (rstart x) = vchap (rend x) -> sc = true -> ec = true /\ wc = true;
  r_ec_sc : vbook (rstart x) = vbook (rend x) -> vchap (rstart x) = vchap (rend x) -> ec = true -> sc = true;
  r_sb_eb : vbook (rstart x) = vbook (rend x) -> sb = true -> eb = true /\ wb = true;
  r_eb_sb : vbook (rstart x) = vbook (rend x) -> eb = true -> sb = true;
  r_wb : wb = true -> sb = true /\ eb = true /\ rend x = unit_last d (book_at (rstart x)) /\ vbook (rstart x) = vbook (rend x);
  r_wc : wc = true -> sc = true /\ ec = true /\ rend x = unit_last d (chap_at (rstart x)) /\
           vbook (rstart x) = vbook (rend x) /\ vchap (rstart x) = vchap (rend x) }.

Lemma in_unit_le : forall z oc v, InB d z v -> (oc = None \/ oc = Some (vchap v)) ->
  pos (unit_first d z (whole_unit (vbook v) oc)) <= pos v <= pos (unit_last d (whole_unit (vbook v) oc)).
Proof.
  intros z oc v Hv Hoc. assert (Ht : InB d true v) by (now apply (InB_mono e z)).
  destruct (unit_facts e Hwf z v oc Ht Hoc) as (Hb & Hok & _ & _).
  apply (in_unit_pos e Hwf z); auto. destruct Hoc; subst; cbn; auto.
Qed.

Lemma one_unit_last : forall b, one b -> unit_last d (UBook b) = unit_last d (UChap b 1).
Proof. intros b H. cbn. now rewrite H. Qed.
Lemma one_chap_is : forall z v, InB d z v -> one (vbook v) -> vchap v = 1.
Proof. intros z v Hv H. apply (InB_legal e) in Hv. unfold legal in Hv. lia. Qed.
Lemma wf_true : forall z x, wf_range d z x -> wf_range d true x.
Proof. intros z x (A & B & C). repeat split; auto; now apply (InB_mono e z). Qed.

Lemma rules_hold : forall x sb sc eb ec wb wc, wf_range d zg x -> tests x sb sc eb ec wb wc -> rules x sb sc eb ec wb wc.
Proof.
  intros x sb sc eb ec wb wc Hz T. pose proof (wf_true _ _ Hz) as Hx. pose proof Hz as (Zs & Ze & _). pose proof Hx as (Rs & Re & Hle).
  destruct T as [_ _ _ _ _ _ Psb Psc Peb Pec Pwb Pwc].
  pose proof (unit_facts e Hwf zg _ _ Rs (or_introl eq_refl)) as (Bs & _ & Fb & Lb).
  pose proof (unit_facts e Hwf zg _ _ Rs (or_intror eq_refl)) as (_ & _ & Fc & Lc).
  pose proof (unit_facts e Hwf zg _ _ Re (or_introl eq_refl)) as (Be & _ & Fb' & Lb').
  pose proof (unit_facts e Hwf zg _ _ Re (or_intror eq_refl)) as (_ & _ & Fc' & Lc').
  pose proof (in_unit_le zg None _ Zs (or_introl eq_refl)) as Ib. pose proof (in_unit_le zg _ _ Zs (or_intror eq_refl)) as Ic.
  pose proof (in_unit_le zg None _ Ze (or_introl eq_refl)) as Ib'. pose proof (in_unit_le zg _ _ Ze (or_intror eq_refl)) as Ic'.
  cbn [whole_unit unit_book] in *. fold (book_at (rstart x)) in *. fold (chap_at (rstart x)) in *. fold (book_at (rend x)) in *. fold (chap_at (rend x)) in *.
  apply (vle_pos e Hwf) in Hle. destruct Hle as (_ & _ & Hle).
  unfold opens_with, closes_with, is_unit in *. rewrite (vle_pos e Hwf) in *.
  assert (Eb : vbook (rstart x) = vbook (rend x) -> book_at (rend x) = book_at (rstart x)) by (intros E; unfold book_at; now rewrite E).
  assert (Ec : vbook (rstart x) = vbook (rend x) -> vchap (rstart x) = vchap (rend x) -> chap_at (rend x) = chap_at (rstart x)) by (intros E E'; unfold chap_at; now rewrite E, E').
  assert (SbSc : sb = true -> sc = true).
  { intros H. apply Psb in H. pose proof (opens_book_chap e Hwf zg x Hx) as O. unfold opens_with in O. rewrite !(vle_pos e Hwf) in O. apply Psc, O, H. }
  assert (Wb : wb = true -> sb = true /\ eb = true /\ rend x = unit_last d (book_at (rstart x)) /\ vbook (rstart x) = vbook (rend x)).
  { intros H. apply Pwb in H. destruct H as (E1 & E2 & E3). rewrite Psb, Peb, (Eb E1).
    repeat split; auto; try (rewrite <- E3; auto; lia). rewrite <- E2. lia. }
  assert (Wc : wc = true -> sc = true /\ ec = true /\ rend x = unit_last d (chap_at (rstart x)) /\ vbook (rstart x) = vbook (rend x) /\ vchap (rstart x) = vchap (rend x)).
  { intros H. apply Pwc in H. destruct H as (E1 & E2 & E3). assert (E4 : vchap (rstart x) = vchap (rend x)) by (now rewrite E3). rewrite Psc, Pec, (Ec E1 E4).
    repeat split; auto; try (rewrite <- E3; auto; lia). rewrite <- E2. lia. }
  constructor; auto.
  - intros H. apply Pec. apply Peb in H. destruct H as (H1 & H2 & H3 & H4).
    assert (E : rend x = unit_last d (chap_at (rend x))).
    { apply (pos_eq e); auto. assert (C : vchap (rend x) = num_chaps d (vbook (rend x))) by now rewrite H1. rewrite H1 at 1. unfold book_at, chap_at. cbn. rewrite C. reflexivity. }
    split; [exact E|]. repeat split; auto.
    assert (F : pos (unit_first d zg (book_at (rend x))) <= pos (unit_first d zg (chap_at (rend x)))).
    { pose proof (unit_facts e Hwf zg _ _ Re (or_intror eq_refl)) as (_ & Uk & _ & _).
      apply (in_unit_pos e Hwf zg (book_at (rend x))); cbn; auto. exact (proj1 (unit_bounds e Hwf zg (chap_at (rend x)) Be Uk)). }
    lia.
  - intros H1 H. apply Psc in H. apply Psb. pose proof (one_chap_is _ _ Rs H1) as C. unfold chap_at, book_at in *. rewrite C in H.
    rewrite (one_unit_last _ H1). exact H.
  - intros H1 H. apply Pec in H. apply Peb. pose proof (one_chap_is _ _ Re H1) as C. unfold chap_at, book_at in *. rewrite C in H.
    rewrite (one_unit_last _ H1). exact H.
  - intros E1 E2 H. assert (W : wc = true); [|split; auto; now apply Wc in W]. apply Pwc. split; auto. apply Psc in H. destruct H as (H1 & H2 & H3 & H4). split; auto.
    rewrite (Ec E1 E2) in *. apply (pos_eq e); auto. lia.
  - intros E1 E2 H. apply Psc. apply Pec in H. rewrite (Ec E1 E2) in H. destruct H as (H1 & H2 & H3 & H4).
    split; [apply (pos_eq e); auto; lia|]. repeat split; auto. rewrite <- H1. lia.
  - intros E1 H. assert (W : wb = true); [|split; auto; now apply Wb in W]. apply Pwb. split; auto. apply Psb in H. destruct H as (H1 & H2 & H3 & H4). split; auto.
    rewrite (Eb E1) in *. apply (pos_eq e); auto. lia.
  - intros E1 H. apply Psb. apply Peb in H. rewrite (Eb E1) in H. destruct H as (H1 & H2 & H3 & H4).
    split; [apply (pos_eq e); auto; lia|]. repeat split; auto. rewrite <- H1. lia.
Qed.

(** The rules that hold also for ranges with verses 0 that the flags do not know. *)
Record rules1 (x : range) (sb sc eb ec wb wc : bool) : Prop := {
  q_sb_sc : sb = true -> sc = true;
  q_eb_ec : eb = true -> ec = true;
  q_sc_sb : one (vbook (rstart x)) -> sc = true -> sb = true;
  q_ec_eb : one (vbook (rend x)) -> ec = true -> eb = true;
  q_sc_ec : vbook (rstart x) = vbook (rend x) -> vchap (rstart x) = vchap (rend x) -> sc = true -> ec = true /\ wc = true;
  q_sb_eb : vbook (rstart x) = vbook (rend x) -> sb = true -> eb = true /\ wb = true;
  q_wb : wb = true -> sb = true /\ eb = true /\ rend x = unit_last d (book_at (rstart x)) /\ vbook (rstart x) = vbook (rend x);
  q_wc : wc = true -> sc = true /\ ec = true /\ rend x = unit_last d (chap_at (rstart x)) /\
           vbook (rstart x) = vbook (rend x) /\ vchap (rstart x) = vchap (rend x) }.
Lemma rules1_hold : forall x sb sc eb ec wb wc, wf_range d true x -> tests x sb sc eb ec wb wc -> rules1 x sb sc eb ec wb wc.
Proof.
  intros x sb sc eb ec wb wc Hx T. pose proof Hx as (Rs & Re & Hle).
  destruct T as [_ _ _ _ _ _ Psb Psc Peb Pec Pwb Pwc].
  pose proof (unit_facts e Hwf zg _ _ Rs (or_introl eq_refl)) as (Bs & _ & Fb & Lb).
  pose proof (unit_facts e Hwf zg _ _ Rs (or_intror eq_refl)) as (_ & _ & Fc & Lc).
  pose proof (unit_facts e Hwf zg _ _ Re (or_introl eq_refl)) as (Be & _ & Fb' & Lb').
  pose proof (unit_facts e Hwf zg _ _ Re (or_intror eq_refl)) as (_ & _ & Fc' & Lc').
  pose proof (in_unit_le true None _ Re (or_introl eq_refl)) as (_ & Ib'). pose proof (in_unit_le true _ _ Re (or_intror eq_refl)) as (_ & Ic').
  cbn [whole_unit unit_book] in *. fold (book_at (rstart x)) in *. fold (chap_at (rstart x)) in *. fold (book_at (rend x)) in *. fold (chap_at (rend x)) in *.
  apply (vle_pos e Hwf) in Hle. destruct Hle as (_ & _ & Hle).
  unfold opens_with, closes_with, is_unit in *. rewrite (vle_pos e Hwf) in *.
  assert (Eb : vbook (rstart x) = vbook (rend x) -> book_at (rend x) = book_at (rstart x)) by (intros E; unfold book_at; now rewrite E).
  assert (Ec : vbook (rstart x) = vbook (rend x) -> vchap (rstart x) = vchap (rend x) -> chap_at (rend x) = chap_at (rstart x)) by (intros E E'; unfold chap_at; now rewrite E, E').
  assert (SbSc : sb = true -> sc = true).
  { intros H. apply Psb in H. pose proof (opens_book_chap e Hwf zg x Hx) as O. unfold opens_with in O. rewrite !(vle_pos e Hwf) in O. apply Psc, O, H. }
  assert (Wb : wb = true -> sb = true /\ eb = true /\ rend x = unit_last d (book_at (rstart x)) /\ vbook (rstart x) = vbook (rend x)).
  { intros H. apply Pwb in H. destruct H as (E1 & E2 & E3). rewrite Psb, Peb, (Eb E1).
    repeat split; auto; try (rewrite <- E3; auto; lia). rewrite <- E2. lia. }
  assert (Wc : wc = true -> sc = true /\ ec = true /\ rend x = unit_last d (chap_at (rstart x)) /\ vbook (rstart x) = vbook (rend x) /\ vchap (rstart x) = vchap (rend x)).
  { intros H. apply Pwc in H. destruct H as (E1 & E2 & E3). assert (E4 : vchap (rstart x) = vchap (rend x)) by (now rewrite E3). rewrite Psc, Pec, (Ec E1 E4).
    repeat split; auto; try (rewrite <- E3; auto; lia). rewrite <- E2. lia. }
  constructor; auto.
  - intros H. apply Pec. apply Peb in H. destruct H as (H1 & H2 & H3 & H4).
    assert (E : rend x = unit_last d (chap_at (rend x))).
    { apply (pos_eq e); auto. assert (C : vchap (rend x) = num_chaps d (vbook (rend x))) by now rewrite H1. rewrite H1 at 1. unfold book_at, chap_at. cbn. rewrite C. reflexivity. }
    split; [exact E|]. repeat split; auto.
    assert (F : pos (unit_first d zg (book_at (rend x))) <= pos (unit_first d zg (chap_at (rend x)))).
    { pose proof (unit_facts e Hwf zg _ _ Re (or_intror eq_refl)) as (_ & Uk & _ & _).
      apply (in_unit_pos e Hwf zg (book_at (rend x))); cbn; auto. exact (proj1 (unit_bounds e Hwf zg (chap_at (rend x)) Be Uk)). }
    lia.
  - intros H1 H. apply Psc in H. apply Psb. pose proof (one_chap_is _ _ Rs H1) as C. unfold chap_at, book_at in *. rewrite C in H.
    rewrite (one_unit_last _ H1). exact H.
  - intros H1 H. apply Pec in H. apply Peb. pose proof (one_chap_is _ _ Re H1) as C. unfold chap_at, book_at in *. rewrite C in H.
    rewrite (one_unit_last _ H1). exact H.
  - intros E1 E2 H. assert (W : wc = true); [|split; auto; now apply Wc in W]. apply Pwc. split; auto. apply Psc in H. destruct H as (H1 & H2 & H3 & H4). split; auto.
    rewrite (Ec E1 E2) in *. apply (pos_eq e); auto. lia.
  - intros E1 H. assert (W : wb = true); [|split; auto; now apply Wb in W]. apply Pwb. split; auto. apply Psb in H. destruct H as (H1 & H2 & H3 & H4). split; auto.
    rewrite (Eb E1) in *. apply (pos_eq e); auto. lia.
Qed.

(** ** What the parts of a verse say *)
Definition is_one (b : book) : bool := num_chaps d b =? 1.
Definition cnt (v : verse) (p : parts) : content :=
  match p_book p, p_chap p && negb (is_one (vbook v)), p_verse p with
  | true, false, false => KBook (vbook v)
  | true, true, false => KBookNum (vbook v) (vchap v)
  | true, false, true => KBookNum (vbook v) (vverse v)
  | true, true, true => KFull (vbook v) (vchap v) (vverse v)
  | false, true, true => KChapVerse (vchap v) (vverse v)
  | false, true, false => KNum (vchap v)
  | false, false, _ => KNum (vverse v)
  end.
Definition vis (v : verse) (p : parts) : Prop := p_book p || (p_chap p && negb (is_one (vbook v))) || p_verse p = true.
Definition uv (v : verse) : unit_ref := UVerse (vbook v) (vchap v) (vverse v).
Lemma one_dec : forall b, one b /\ is_one b = true \/ ~ one b /\ is_one b = false.
Proof. intros b. unfold is_one. destruct (Z.eqb_spec (num_chaps d b) 1); auto. Qed.
Lemma uv_eq : forall v, V (vbook v) (vchap v) (vverse v) = v.
Proof. now intros []. Qed.

Lemma m_full : forall z c v, InB d z v -> means d c (cnt v P_FULL_REF) (uv v) (InChap (vbook v) (vchap v)).
Proof.
  intros z c v Hv. unfold cnt, uv. cbn. destruct (one_dec (vbook v)) as [(O & ->)|(O & ->)]; cbn.
  - rewrite (one_chap_is _ _ Hv O). now constructor.
  - constructor.
Qed.
Lemma m_chap_verse : forall z c v, InB d z v -> ctx_book c = Some (vbook v) ->
  exists c', means d c (cnt v P_CHAP_VERSE) (uv v) c' /\ ctx_book c' = Some (vbook v) /\ (~ one (vbook v) -> c' = InChap (vbook v) (vchap v)).
Proof.
  intros z c v Hv Hc. unfold cnt, uv. cbn. destruct (one_dec (vbook v)) as [(O & ->)|(O & ->)]; cbn.
  - rewrite (one_chap_is _ _ Hv O). destruct c as [|b|b h]; [discriminate| |]; injection Hc as ->; eexists; split; try (constructor; auto); cbn; auto; intros; contradiction.
  - eexists. split; [now constructor|]. auto.
Qed.
Lemma m_verse : forall z c v, InB d z v -> ctx_book c = Some (vbook v) -> (~ one (vbook v) -> c = InChap (vbook v) (vchap v)) ->
  exists c', means d c (cnt v P_VERSE) (uv v) c' /\ ctx_book c' = Some (vbook v) /\ (~ one (vbook v) -> c' = InChap (vbook v) (vchap v)).
Proof.
  intros z c v Hv Hc H. unfold cnt, uv. cbn. destruct (one_dec (vbook v)) as [(O & _)|(O & _)]; cbn.
  - rewrite (one_chap_is _ _ Hv O). destruct c as [|b|b h]; [discriminate| |]; injection Hc as ->; eexists; split; try (constructor; auto); cbn; auto; intros; contradiction.
  - rewrite (H O). eexists. split; [now constructor|]. auto.
Qed.
Lemma m_book : forall c v, means d c (cnt v P_BOOK) (book_at v) (InBook (vbook v)).
Proof. intros c v. unfold cnt. cbn. constructor. Qed.
Lemma m_book_chap : forall c v, ~ one (vbook v) -> means d c (cnt v P_BOOK_CHAP) (chap_at v) (InBook (vbook v)).
Proof. intros c v O. unfold cnt. cbn. destruct (one_dec (vbook v)) as [(O' & _)|(_ & ->)]; [contradiction|]. now constructor. Qed.
Lemma m_chap : forall v, ~ one (vbook v) -> means d (InBook (vbook v)) (cnt v P_CHAP) (chap_at v) (InBook (vbook v)).
Proof. intros v O. unfold cnt. cbn. destruct (one_dec (vbook v)) as [(O' & _)|(_ & ->)]; [contradiction|]. now constructor. Qed.
Lemma vis_chap : forall v p, ~ one (vbook v) -> p_chap p = true -> vis v p.
Proof. intros v p O H. unfold vis. destruct (one_dec (vbook v)) as [(O' & _)|(_ & ->)]; [contradiction|]. rewrite H. now rewrite orb_true_r. Qed.
Lemma vis_verse : forall v p, p_verse p = true -> vis v p.
Proof. intros v p H. unfold vis. now rewrite H, orb_true_r. Qed.
Lemma vis_book : forall v p, p_book p = true -> vis v p.
Proof. intros v p H. unfold vis. now rewrite H. Qed.

(** ** The state of the printer, and the context of the reader *)
Definition ctx_in (st : pstate) (c : ctx) : ctx := if str_eqb (ps_sep st) [major_list_sep d] then leave_chap c else c.
Definition Raw (st : pstate) (c : ctx) : Prop :=
  match ps_book st with
  | None => True
  | Some b => ctx_book c = Some b /\
      (~ one b -> (ps_vl st = false -> c = InBook b) /\ (ps_vl st = true -> forall h, ps_chap st = Some h -> c = InChap b h))
  end.
Definition mid (x : range) (sc : bool) (st : pstate) (c : ctx) : Prop :=
  ps_book st = Some (vbook (rstart x)) /\ ctx_book c = Some (vbook (rstart x)) /\
  (forall h, ps_chap st = Some h -> h = vchap (rstart x)) /\
  (~ one (vbook (rstart x)) -> (ps_vl st = false -> c = InBook (vbook (rstart x))) /\
     (ps_vl st = true -> ps_chap st = Some (vchap (rstart x)) -> c = InChap (vbook (rstart x)) (vchap (rstart x)))) /\
  (ps_vl st = false -> sc = true).

(** [many]: whether ranges over several books are allowed. *)
Context {many : bool}.
Definition okr (x : range) : Prop := wf_range d zg x /\ (many = true \/ vbook (rstart x) = vbook (rend x)).
Definition force_ok (force : bool) : Prop := force = true -> forall b, In b (book_order d) -> ~ one b -> first_num d zg b 1 = 1.
Definition single_unit_range (x : range) (wb wc : bool) : bool := wb || (wc || is_single_verse x).

Lemma str_eqb_eq : forall s t, str_eqb s t = true <-> s = t.
Proof. intros s t. unfold str_eqb. destruct (list_eq_dec ascii_dec s t); split; congruence. Qed.
Lemma leave_in : forall c b, ctx_book c = Some b -> leave_chap c = InBook b.
Proof. intros [|b'|b' h] b H; cbn in *; congruence. Qed.
Lemma leave_book : forall c, ctx_book (leave_chap c) = ctx_book c.
Proof. now intros []. Qed.
Lemma ctx_in_book : forall st c, ctx_book (ctx_in st c) = ctx_book c.
Proof. intros st c. unfold ctx_in. destruct (str_eqb _ _); auto using leave_book. Qed.
Lemma chap_count_one : forall b, In b (book_order d) -> (chap_count e b =? 1) = is_one b.
Proof. intros b Hb. unfold is_one. now rewrite (proj1 (book_count_ok e Hwf b None Hb)). Qed.

Lemma end_ok : forall x st c sb sc eb ec wb wc, okr x -> tests x sb sc eb ec wb wc -> mid x sc st c ->
  exists oq st2, pick_end e fl st x = Ok (oq, st2) /\ ps_sep st2 = ps_sep st /\ ps_first st2 = ps_first st /\ ps_dual st2 = ps_dual st /\
    match oq with
    | None => ps_dual st = false /\ single_unit_range x wb wc = true /\ st2 = st /\ Raw st2 c
    | Some q => vis (rend x) q /\ exists u c2, means d c (cnt (rend x) q) u c2 /\ unit_ok d zg u /\ unit_book u = vbook (rend x) /\
                unit_last d u = rend x /\ Raw st2 c2
    end.
Proof.
  intros x st c sb sc eb ec wb wc (Hx & Hm) T (M1 & M2 & M3 & M4 & M5). pose proof (rules_hold _ _ _ _ _ _ _ Hx T) as Ru.
  pose proof Hx as (Zs & Ze & _). pose proof (InB_book e _ _ Ze) as Be. pose proof (InB_legal e _ _ Ze) as Le.
  unfold pick_end. rewrite (t_wb _ _ _ _ _ _ _ T), (t_wc _ _ _ _ _ _ _ T) by auto.
  assert (ES : (if ps_dual st then Ok false else orM (Ok wb) (orM (Ok wc) (Ok (is_single_verse x)))) =
               Ok (negb (ps_dual st) && single_unit_range x wb wc)).
  { unfold single_unit_range. destruct (ps_dual st), wb, wc; reflexivity. }
  rewrite ES. cbn [bind]. clear ES. destruct (negb (ps_dual st) && single_unit_range x wb wc) eqn:Es.
  { apply andb_true_iff in Es. destruct Es as (Ed & Es). apply negb_true_iff in Ed.
    exists None, st. repeat (split; [reflexivity|]). split; [auto|]. split; [auto|]. split; [auto|].
    unfold Raw. rewrite M1. split; auto. intros O. destruct (M4 O) as (A & B). split; auto. intros V h Hh. pose proof (M3 _ Hh) as ->. auto. }
  rewrite (t_eb _ _ _ _ _ _ _ T) by auto. cbn [bind]. rewrite M1.
  destruct eb.
  { do 2 eexists. do 4 (split; [reflexivity|]). split; [now apply vis_book|]. exists (book_at (rend x)). eexists. split; [apply m_book|].
    split; [exact I|]. split; [reflexivity|]. split; [symmetry; exact (proj1 (proj1 (p_eb _ _ _ _ _ _ _ T) eq_refl))|]. unfold Raw. cbn. auto. split; auto. intros _. split; [auto|discriminate]. }
  set (vl := ps_vl st && book_eqb (vbook (rend x)) (vbook (rstart x))).
  assert (EE : (if vl then Ok false else spans_end_chap e x fl) = Ok (negb vl && ec)).
  { rewrite (t_ec _ _ _ _ _ _ _ T) by auto. destruct vl; reflexivity. }
  rewrite EE. cbn [bind]. clear EE. destruct (negb vl && ec) eqn:Ee.
  - apply andb_true_iff in Ee. destruct Ee as (Ev & Ee). apply negb_true_iff in Ev. subst ec.
    assert (O : ~ one (vbook (rend x))). { intros O. pose proof (r_ec_eb _ _ _ _ _ _ _ Ru O eq_refl). discriminate. }
    cbn [obook_eqb]. destruct (book_eqb (vbook (rstart x)) (vbook (rend x))) eqn:Eb.
    + apply book_eqb_eq in Eb. assert (V : ps_vl st = false).
      { unfold vl in Ev. rewrite Eb in Ev. rewrite (proj2 (book_eqb_eq _ _) eq_refl), andb_true_r in Ev. exact Ev. }
      do 2 eexists. do 4 (split; [reflexivity|]). split; [now apply vis_chap|]. rewrite Eb in M4. destruct (M4 O) as (A & _). rewrite (A V).
      do 2 eexists. split; [apply m_chap; auto|]. split; [cbn; apply Le|]. split; [reflexivity|].
      split; [symmetry; exact (proj1 (proj1 (p_ec _ _ _ _ _ _ _ T) eq_refl))|]. unfold Raw. cbn. split; auto. intros _. split; [auto|discriminate].
    + do 2 eexists. do 4 (split; [reflexivity|]). split; [now apply vis_chap|].
      do 2 eexists. split; [apply m_book_chap; auto|]. split; [cbn; apply Le|]. split; [reflexivity|].
      split; [symmetry; exact (proj1 (proj1 (p_ec _ _ _ _ _ _ _ T) eq_refl))|]. unfold Raw. cbn. split; auto. intros _. split; [auto|discriminate].
  - cbn [obook_eqb]. destruct (book_eqb (vbook (rstart x)) (vbook (rend x))) eqn:Eb.
    + apply book_eqb_eq in Eb. destruct (oz_eqb (ps_chap st) (vchap (rend x))) eqn:Eh.
      * apply (oz_eqb_eq) in Eh. pose proof (M3 _ Eh) as Ec.
        assert (A : ~ one (vbook (rend x)) -> c = InChap (vbook (rend x)) (vchap (rend x))).
        { intros O. rewrite <- Eb in O. destruct (M4 O) as (A & B). rewrite <- Eb, Ec. apply B; [|congruence].
          destruct (ps_vl st) eqn:V; auto. exfalso. unfold vl in Ee. cbn in Ee. subst ec.
          destruct (r_sc_ec _ _ _ _ _ _ _ Ru Eb (eq_sym Ec) (M5 eq_refl)). discriminate. }
        rewrite Eb in M2. destruct (m_verse _ c _ Ze M2 A) as (c2 & Hm2 & Hc2 & Ho).
        do 2 eexists. do 4 (split; [reflexivity|]). split; [now apply vis_verse|]. exists (uv (rend x)), c2. split; [exact Hm2|].
        split; [exact Le|]. split; [reflexivity|]. split; [apply uv_eq|]. unfold Raw. cbn. split; auto. intros O. split; [discriminate|]. intros _ h [= <-]. auto.
      * rewrite Eb in M2. destruct (m_chap_verse _ c _ Ze M2) as (c2 & Hm2 & Hc2 & Ho).
        do 2 eexists. do 4 (split; [reflexivity|]). split; [now apply vis_verse|]. exists (uv (rend x)), c2. split; [exact Hm2|].
        split; [exact Le|]. split; [reflexivity|]. split; [apply uv_eq|]. unfold Raw. cbn. split; auto. intros O. split; [discriminate|]. intros _ h [= <-]. auto.
    + do 2 eexists. do 4 (split; [reflexivity|]). split; [now apply vis_book|]. do 2 eexists. split; [apply (m_full _ c _ Ze)|].
      split; [exact Le|]. split; [reflexivity|]. split; [apply uv_eq|]. unfold Raw. cbn. split; auto. intros O. split; [discriminate|]. intros _ h [= <-]. auto.
Qed.

Lemma unit_whole : forall x sb sc eb ec wb wc u, okr x -> tests x sb sc eb ec wb wc -> single_unit_range x wb wc = true ->
  (u = book_at (rstart x) /\ sb = true) \/ (u = chap_at (rstart x) /\ sc = true /\ sb = false) -> unit_last d u = rend x.
Proof.
  intros x sb sc eb ec wb wc u (Hx & _) T Hs Hu. pose proof (rules_hold _ _ _ _ _ _ _ Hx T) as Ru.
  unfold single_unit_range in Hs. destruct wb.
  { destruct (r_wb _ _ _ _ _ _ _ Ru eq_refl) as (A & _ & B & _). destruct Hu as [(-> & _)|(-> & _ & N)]; [auto|congruence]. }
  destruct wc.
  { destruct (r_wc _ _ _ _ _ _ _ Ru eq_refl) as (A & _ & B & Eb & Ec). destruct Hu as [(-> & N)|(-> & _ & N)]; [|auto].
    destruct (r_sb_eb _ _ _ _ _ _ _ Ru Eb N). discriminate. }
  cbn in Hs. unfold is_single_verse in Hs. apply verse_eqb_eq in Hs.
  destruct Hu as [(-> & N)|(-> & N & _)].
  - destruct (r_sb_eb _ _ _ _ _ _ _ Ru (f_equal vbook Hs) N). discriminate.
  - destruct (r_sc_ec _ _ _ _ _ _ _ Ru (f_equal vbook Hs) (f_equal vchap Hs) N). discriminate.
Qed.
Lemma single_verse_last : forall x wb wc, single_unit_range x wb wc = true -> wb = false -> wc = false -> unit_last d (uv (rstart x)) = rend x.
Proof.
  intros x wb wc H -> ->. cbn in H. unfold is_single_verse in H. apply verse_eqb_eq in H. rewrite <- H. apply uv_eq.
Qed.

Lemma start_ok : forall force pg st c x sb sc eb ec wb wc, okr x -> tests x sb sc eb ec wb wc -> Raw st (ctx_in st c) -> force_ok force ->
  exists p st1 u c1, (q <- pick_start e pg fl st x ;; force_start e force x q) = Ok (p, st1) /\
    vis (rstart x) p /\ (ps_book st = None -> p_book p = true) /\ ps_first st1 = ps_first st /\ (pg = true -> ps_sep st1 = ps_sep st) /\
    (pg = false -> ps_dual st1 = ps_dual st) /\
    means d (ctx_in st1 c) (cnt (rstart x) p) u c1 /\ unit_ok d zg u /\ unit_book u = vbook (rstart x) /\ unit_first d zg u = rstart x /\
    mid x sc st1 c1 /\ (ps_dual st1 = false -> single_unit_range x wb wc = true -> unit_last d u = rend x).
Proof.
  intros force pg st c x sb sc eb ec wb wc Ho T HR Hf. pose proof Ho as (Hx & Hm). pose proof (rules_hold _ _ _ _ _ _ _ Hx T) as Ru.
  pose proof Hx as (Zs & Ze & _). pose proof (InB_book e _ _ Zs) as Bs. pose proof (InB_legal e _ _ Zs) as Ls.
  pose proof (wf_true _ _ Hx) as Hxt.
  unfold pick_start. rewrite (t_sb _ _ _ _ _ _ _ T) by auto. cbn [bind].
  assert (EF : forall q, force_start e force x q =
     Ok (if force && negb (p_verse (fst q)) && negb ec then (P (p_book (fst q)) (p_chap (fst q)) true,
            PS (ps_book (snd q)) (ps_chap (snd q)) true (ps_sep (snd q)) (ps_dual (snd q)) (ps_first (snd q))) else q)).
  { intros (p, s). unfold force_start. cbn [fst snd]. rewrite (t_ec _ _ _ _ _ _ _ T) by auto. destruct (force && negb (p_verse p)); cbn [notM bind andb]; [|reflexivity]. destruct ec; reflexivity. }
  destruct sb.
  { (* the whole book *)
    cbn [bind]. rewrite EF. cbn [fst snd p_verse P_BOOK negb p_book p_chap ps_book ps_chap ps_sep ps_dual ps_first].
    pose proof (proj1 (proj1 (p_sb _ _ _ _ _ _ _ T) eq_refl)) as Es.
    destruct (force && true && negb ec) eqn:Ef.
    - apply andb_true_iff in Ef. destruct Ef as (Ef & Ee). rewrite andb_true_r in Ef. apply negb_true_iff in Ee.
      assert (Nsing : single_unit_range x wb wc = true -> False).
      { intros H. unfold single_unit_range in H. destruct wb; [destruct (r_wb _ _ _ _ _ _ _ Ru eq_refl) as (_ & A & _); apply (r_eb_ec _ _ _ _ _ _ _ Ru) in A; congruence|].
        destruct wc; [destruct (r_wc _ _ _ _ _ _ _ Ru eq_refl) as (_ & A & _); congruence|]. cbn in H. unfold is_single_verse in H. apply verse_eqb_eq in H.
        destruct (r_sb_eb _ _ _ _ _ _ _ Ru (f_equal vbook H) eq_refl). discriminate. }
      destruct (one_dec (vbook (rstart x))) as [(O & E1)|(O & E1)].
      + do 2 eexists. exists (uv (rstart x)), (InChap (vbook (rstart x)) 1). split; [reflexivity|]. split; [reflexivity|]. split; [reflexivity|]. split; [reflexivity|].
        split; [now destruct pg|]. split; [reflexivity|]. split.
        { unfold cnt, uv. cbn. rewrite (one_chap_is _ _ Zs O). now constructor. }
        split; [exact Ls|]. split; [reflexivity|]. split; [apply uv_eq|]. split; [|intros; exfalso; auto].
        repeat split; cbn; auto; try discriminate; try (intros; contradiction).
      + pose proof (Hf Ef _ Bs O) as F1. do 2 eexists. exists (UChap (vbook (rstart x)) 1), (InBook (vbook (rstart x))). split; [reflexivity|]. split; [reflexivity|]. split; [reflexivity|]. split; [reflexivity|].
        split; [now destruct pg|]. split; [reflexivity|]. split.
        { unfold cnt. cbn. rewrite Es. cbn. rewrite F1. now constructor. }
        split; [cbn; pose proof (num_chaps_pos e Hwf _ Bs); lia|]. split; [reflexivity|]. split; [exact (eq_sym Es)|]. split; [|intros; exfalso; auto].
        repeat split; cbn; auto; try discriminate.
    - do 2 eexists. exists (book_at (rstart x)), (InBook (vbook (rstart x))). split; [reflexivity|]. split; [reflexivity|]. split; [reflexivity|]. split; [reflexivity|].
      split; [now intros ->|]. split; [reflexivity|]. split; [apply m_book|]. split; [exact I|]. split; [reflexivity|]. split; [auto|].
      split; [|intros _ H; eapply unit_whole; eauto].
      repeat split; cbn; auto; try discriminate. intros _. now apply (r_sb_sc _ _ _ _ _ _ _ Ru). }
  rewrite (t_sc _ _ _ _ _ _ _ T) by auto. cbn [bind]. destruct sc.
  { (* the whole chapter *)
    assert (O : ~ one (vbook (rstart x))). { intros O. pose proof (r_sc_sb _ _ _ _ _ _ _ Ru O eq_refl). discriminate. }
    pose proof (proj1 (proj1 (p_sc _ _ _ _ _ _ _ T) eq_refl)) as Es.
    assert (Nsing : ec = false -> single_unit_range x wb wc = true -> False).
    { intros Ee H. unfold single_unit_range in H. destruct wb; [destruct (r_wb _ _ _ _ _ _ _ Ru eq_refl) as (_ & A & _); apply (r_eb_ec _ _ _ _ _ _ _ Ru) in A; congruence|].
      destruct wc; [destruct (r_wc _ _ _ _ _ _ _ Ru eq_refl) as (_ & A & _); congruence|]. cbn in H. unfold is_single_verse in H. apply verse_eqb_eq in H.
      destruct (r_sc_ec _ _ _ _ _ _ _ Ru (f_equal vbook H) (f_equal vchap H) eq_refl). discriminate. }
    set (Q := if obook_eqb _ _ then _ else _).
    assert (HQ : exists p vl sep dual, Q = Ok (p, (vl, sep, dual)) /\ (pg = true -> sep = ps_sep st) /\ (pg = false -> dual = ps_dual st) /\ (ps_book st = None -> p_book p = true) /\
       let c1 := if str_eqb sep [major_list_sep d] then leave_chap c else c in
       ((p = P_BOOK_CHAP /\ vl = false) \/ (p = P_CHAP /\ vl = false /\ c1 = InBook (vbook (rstart x))) \/
        (p = P_CHAP_VERSE /\ vl = true /\ dual = true /\ ctx_book c1 = Some (vbook (rstart x))))).
    { subst Q. destruct (obook_eqb (ps_book st) (vbook (rstart x))) eqn:Eb.
      2:{ do 4 eexists. split; [reflexivity|]. split; [now intros ->|]. split; [auto|]. split; [auto|]. left. auto. }
      apply obook_eqb_eq in Eb. unfold Raw in HR. rewrite Eb in HR. destruct HR as (Hc & HR). destruct (HR O) as (R1 & _). rewrite Eb.
      rewrite ctx_in_book in Hc. unfold ctx_in in R1.
      destruct pg; cbn [negb].
      - destruct (ps_vl st) eqn:Ev; destruct (str_eqb (ps_sep st) [major_list_sep d]) eqn:Em.
        + do 4 eexists. split; [reflexivity|]. split; [auto|]. split; [auto|]. split; [discriminate|]. right. left. split; [auto|]. split; [auto|]. rewrite Em. now apply leave_in.
        + do 4 eexists. split; [reflexivity|]. split; [auto|]. split; [discriminate|]. split; [discriminate|]. right. right. split; [auto|]. split; [auto|]. split; [auto|]. rewrite Em. auto.
        + do 4 eexists. split; [reflexivity|]. split; [auto|]. split; [auto|]. split; [discriminate|]. right. left. split; [auto|]. split; [auto|]. rewrite Em. now apply leave_in.
        + rewrite (t_ec _ _ _ _ _ _ _ T) by auto. cbn [bind]. destruct ec.
          * do 4 eexists. split; [reflexivity|]. split; [auto|]. split; [auto|]. split; [discriminate|]. right. left. split; [auto|]. split; [auto|]. rewrite Em. auto.
          * do 4 eexists. split; [reflexivity|]. split; [auto|]. split; [discriminate|]. split; [discriminate|]. right. right. split; [auto|]. split; [auto|]. split; [auto|]. rewrite Em. auto.
      - assert (EM : str_eqb [major_list_sep d] [major_list_sep d] = true) by now apply str_eqb_eq.
        destruct (ps_vl st); (do 4 eexists; split; [reflexivity|]; split; [discriminate|]; split; [auto|]; split; [discriminate|]; right; left; split; [auto|]; split; [auto|]; rewrite EM; now apply leave_in). }
    destruct HQ as (p & vl & sep & dual & EQ & Hsep & Hdual & Hbk & Hcase). rewrite EQ. clear Q EQ. cbn [bind]. rewrite EF. cbn [fst snd ps_book ps_chap ps_sep ps_dual ps_first].
    cbv zeta in Hcase.
    destruct Hcase as [(-> & ->)|[(-> & -> & Hc1)|(-> & -> & -> & Hc1)]].
    - cbn [p_verse P_BOOK_CHAP negb p_book p_chap]. destruct (force && true && negb ec) eqn:Ef.
      + apply andb_true_iff in Ef. destruct Ef as (Ef & Ee). apply negb_true_iff in Ee.
        do 2 eexists. exists (uv (rstart x)). eexists. split; [reflexivity|]. split; [reflexivity|]. split; [auto|]. split; [reflexivity|].
        split; [exact Hsep|]. split; [exact Hdual|]. split; [exact (m_full _ _ _ Zs)|]. split; [exact Ls|]. split; [reflexivity|]. split; [apply uv_eq|].
        split; [|intros; exfalso; auto]. repeat split; cbn; auto; try discriminate. intros h [= <-]. auto.
      + do 2 eexists. exists (chap_at (rstart x)). eexists. split; [reflexivity|]. split; [reflexivity|]. split; [auto|]. split; [reflexivity|].
        split; [exact Hsep|]. split; [exact Hdual|]. split; [now apply m_book_chap|]. split; [cbn; apply Ls|]. split; [reflexivity|]. split; [auto|].
        split; [|intros _ H; eapply unit_whole; eauto]. repeat split; cbn; auto; try discriminate. intros h [= <-]. auto.
    - cbn [p_verse P_CHAP negb p_book p_chap]. destruct (force && true && negb ec) eqn:Ef.
      + apply andb_true_iff in Ef. destruct Ef as (Ef & Ee). apply negb_true_iff in Ee.
        assert (Hcb : ctx_book (if str_eqb sep [major_list_sep d] then leave_chap c else c) = Some (vbook (rstart x))) by now rewrite Hc1.
        destruct (m_chap_verse _ _ _ Zs Hcb) as (c2 & Hm2 & Hc2 & Ho2).
        do 2 eexists. exists (uv (rstart x)), c2. split; [reflexivity|]. split; [now apply vis_verse|]. split; [auto|]. split; [reflexivity|].
        split; [exact Hsep|]. split; [exact Hdual|]. split; [exact Hm2|]. split; [exact Ls|]. split; [reflexivity|]. split; [apply uv_eq|].
        split; [|intros; exfalso; auto]. repeat split; cbn; auto; try discriminate. intros h [= <-]. auto.
      + do 2 eexists. exists (chap_at (rstart x)). eexists. split; [reflexivity|]. split; [now apply vis_chap|]. split; [auto|]. split; [reflexivity|].
        split; [exact Hsep|]. split; [exact Hdual|]. unfold ctx_in. cbn [ps_sep]. rewrite Hc1. split; [now apply m_chap|]. split; [cbn; apply Ls|]. split; [reflexivity|]. split; [auto|].
        split; [|intros _ H; eapply unit_whole; eauto]. repeat split; cbn; auto; try discriminate. intros h [= <-]. auto.
    - cbn [p_verse P_CHAP_VERSE negb]. rewrite andb_false_r. cbn [andb].
      destruct (m_chap_verse _ _ _ Zs Hc1) as (c2 & Hm2 & Hc2 & Ho2).
      do 2 eexists. exists (uv (rstart x)), c2. split; [reflexivity|]. split; [now apply vis_verse|]. split; [auto|]. split; [reflexivity|].
      split; [exact Hsep|]. split; [exact Hdual|]. split; [exact Hm2|]. split; [exact Ls|]. split; [reflexivity|]. split; [apply uv_eq|].
      split; [|intros; discriminate]. repeat split; cbn; auto; try discriminate. intros h [= <-]. auto. }
  (* single verses *)
  assert (Hlast : single_unit_range x wb wc = true -> unit_last d (uv (rstart x)) = rend x).
  { intros H. apply (single_verse_last x wb wc H).
    - destruct wb; auto. destruct (r_wb _ _ _ _ _ _ _ Ru eq_refl) as (A & _). discriminate.
    - destruct wc; auto. destruct (r_wc _ _ _ _ _ _ _ Ru eq_refl) as (A & _). discriminate. }
  set (Q := if obook_eqb _ _ then _ else _).
  assert (HQ : exists p sep, Q = Ok (p, sep) /\ (pg = true -> sep = ps_sep st) /\ (ps_book st = None -> p_book p = true) /\ p_verse p = true /\
     let c1 := if str_eqb sep [major_list_sep d] then leave_chap c else c in
     exists c2, means d c1 (cnt (rstart x) p) (uv (rstart x)) c2 /\ ctx_book c2 = Some (vbook (rstart x)) /\ (~ one (vbook (rstart x)) -> c2 = InChap (vbook (rstart x)) (vchap (rstart x)))).
  { subst Q. destruct (obook_eqb (ps_book st) (vbook (rstart x))) eqn:Eb.
    2:{ do 2 eexists. split; [reflexivity|]. split; [now intros ->|]. split; [reflexivity|]. split; [reflexivity|]. cbv zeta. eexists. split; [exact (m_full _ _ _ Zs)|]. auto. }
    apply obook_eqb_eq in Eb. unfold Raw in HR. rewrite Eb in HR. destruct HR as (Hc & HR). rewrite Eb.
    assert (CV : forall sep, ctx_book (if str_eqb sep [major_list_sep d] then leave_chap c else c) = Some (vbook (rstart x))).
    { intros sep. rewrite ctx_in_book in Hc. destruct (str_eqb sep _); [rewrite leave_book|]; auto. }
    assert (CVok : forall sep, (pg = true -> sep = ps_sep st) -> exists p sep', Ok (P_CHAP_VERSE, sep) = Ok (p, sep') /\ (pg = true -> sep' = ps_sep st) /\ (Some (vbook (rstart x)) = None -> p_book p = true) /\ p_verse p = true /\
       let c1 := if str_eqb sep' [major_list_sep d] then leave_chap c else c in
       exists c2, means d c1 (cnt (rstart x) p) (uv (rstart x)) c2 /\ ctx_book c2 = Some (vbook (rstart x)) /\ (~ one (vbook (rstart x)) -> c2 = InChap (vbook (rstart x)) (vchap (rstart x)))).
    { intros sep Hs. do 2 eexists. split; [reflexivity|]. split; [auto|]. split; [discriminate|]. split; [reflexivity|]. cbv zeta. apply (m_chap_verse _ _ _ Zs (CV sep)). }
    destruct (ps_vl st && oz_eqb (ps_chap st) (vchap (rstart x))) eqn:Ev.
    2:{ apply CVok. now intros ->. }
    apply andb_true_iff in Ev. destruct Ev as (Ev & Eh). apply oz_eqb_eq in Eh.
    destruct (chap_count_spec e Hwf x fl Hxt) as (n & -> & _). cbn [bind]. destruct (n >? 1).
    - apply CVok. now intros ->.
    - do 2 eexists. split; [reflexivity|]. split; [auto|]. split; [discriminate|]. split; [reflexivity|]. cbv zeta. fold (ctx_in st c).
      apply (m_verse _ _ _ Zs Hc). intros O. destruct (HR O) as (_ & R2). auto. }
  destruct HQ as (p & sep & EQ & Hsep & Hbk & Hpv & c2 & Hm2 & Hc2 & Ho2). rewrite EQ. clear Q EQ. cbn [bind]. rewrite EF. cbn [fst snd ps_book ps_chap ps_sep ps_dual ps_first].
  rewrite Hpv. cbn [negb]. rewrite andb_false_r. cbn [andb].
  do 2 eexists. exists (uv (rstart x)), c2. split; [reflexivity|]. split; [now apply vis_verse|]. split; [auto|]. split; [reflexivity|].
  split; [exact Hsep|]. split; [auto|]. split; [exact Hm2|]. split; [exact Ls|]. split; [reflexivity|]. split; [apply uv_eq|].
  split; [|auto]. repeat split; cbn; auto; try discriminate. intros h [= <-]. auto.
Qed.

(** ** Without [preserve_groups] a group ends where [regroup] ends it *)
Definition continued (st : pstate) (x : range) : Prop :=
  ps_book st = Some (vbook (rstart x)) /\ ps_chap st = Some (vchap (rstart x)) /\ ps_vl st = true.
Lemma start_regroup : forall force st x sb sc eb ec wb wc p st1, okr x -> tests x sb sc eb ec wb wc ->
  str_eqb (ps_sep st) [major_list_sep d] = false ->
  (q <- pick_start e false fl st x ;; force_start e force x q) = Ok (p, st1) ->
  ps_book st1 = Some (vbook (rstart x)) /\ ps_chap st1 = (if sb then None else Some (vchap (rstart x))) /\
  ps_vl st1 = (if sc then force && negb ec else true) /\ ps_dual st1 = ps_dual st /\
  (str_eqb (ps_sep st1) [major_list_sep d] = false <->
     continued st x /\ ~ opens_with d zg (chap_at (rstart x)) x /\ ~ multi_chap x).
Proof.
  intros force st x sb sc eb ec wb wc p st1 Ho T Hsep. pose proof Ho as (Hx & _). pose proof (rules_hold _ _ _ _ _ _ _ Hx T) as Ru.
  pose proof (wf_true _ _ Hx) as Hxt. unfold pick_start. rewrite (t_sb _ _ _ _ _ _ _ T) by auto. cbn [bind].
  assert (EM : str_eqb [major_list_sep d] [major_list_sep d] = true) by now apply str_eqb_eq.
  assert (EF : forall q, force_start e force x q =
     Ok (if force && negb (p_verse (fst q)) && negb ec then (P (p_book (fst q)) (p_chap (fst q)) true,
            PS (ps_book (snd q)) (ps_chap (snd q)) true (ps_sep (snd q)) (ps_dual (snd q)) (ps_first (snd q))) else q)).
  { intros (p', s). unfold force_start. cbn [fst snd]. rewrite (t_ec _ _ _ _ _ _ _ T) by auto. destruct (force && negb (p_verse p')); cbn [notM bind andb]; [|reflexivity]. destruct ec; reflexivity. }
  destruct sb.
  { pose proof (r_sb_sc _ _ _ _ _ _ _ Ru eq_refl) as ->. cbn [bind]. rewrite EF. cbn [fst snd p_verse P_BOOK negb]. rewrite andb_true_r.
    intros H. assert (N : ~ (true = false)) by discriminate.
    destruct (force && negb ec); injection H as <- <-; cbn; rewrite EM; (do 4 (split; [reflexivity|])); (split; [discriminate|]);
      intros (_ & A & _); exfalso; apply A, (p_sc _ _ _ _ _ _ _ T); reflexivity. }
  rewrite (t_sc _ _ _ _ _ _ _ T) by auto. cbn [bind]. destruct sc.
  { cbn [negb]. set (Q := if obook_eqb _ _ then _ else _).
    assert (HQ : exists p, Q = Ok (p, (false, [major_list_sep d], ps_dual st)) /\ p_verse p = false).
    { subst Q. destruct (obook_eqb _ _); [destruct (ps_vl st)|]; eexists; split; reflexivity. }
    destruct HQ as (p' & -> & Hp). cbn [bind]. rewrite EF. cbn [fst snd]. rewrite Hp. cbn [negb]. rewrite andb_true_r. cbn [ps_book ps_chap ps_sep ps_dual ps_first].
    intros H. destruct (force && negb ec); injection H as <- <-; cbn; rewrite EM; (do 4 (split; [reflexivity|])); (split; [discriminate|]);
      intros (_ & A & _); exfalso; apply A, (p_sc _ _ _ _ _ _ _ T); reflexivity. }
  assert (No : ~ opens_with d zg (chap_at (rstart x)) x).
  { intros A. apply (p_sc _ _ _ _ _ _ _ T) in A. discriminate. }
  set (Q := if obook_eqb _ _ then _ else _).
  assert (HQ : exists p sep, Q = Ok (p, sep) /\ p_verse p = true /\ (str_eqb sep [major_list_sep d] = false <-> continued st x /\ ~ multi_chap x)).
  { subst Q. unfold continued. destruct (obook_eqb (ps_book st) (vbook (rstart x))) eqn:Eb.
    2:{ do 2 eexists. split; [reflexivity|]. split; [reflexivity|]. rewrite EM. split; [discriminate|]. intros ((A & _) & _). apply obook_eqb_eq in A. congruence. }
    apply obook_eqb_eq in Eb. destruct (ps_vl st && oz_eqb (ps_chap st) (vchap (rstart x))) eqn:Ev.
    2:{ do 2 eexists. split; [reflexivity|]. split; [reflexivity|]. rewrite EM. split; [discriminate|]. intros ((_ & A & B) & _). apply oz_eqb_eq in A. rewrite A, B in Ev. discriminate. }
    apply andb_true_iff in Ev. destruct Ev as (Ev & Eh). apply oz_eqb_eq in Eh.
    destruct (chap_pieces e Hwf x Hxt) as (ps & Eps & _ & _ & Hps). unfold r_chap_count. rewrite Eps. cbn [bind count_pieces].
    rewrite Z.gtb_ltb. destruct (1 <? zlen ps) eqn:En.
    - do 2 eexists. split; [reflexivity|]. split; [reflexivity|]. rewrite EM. split; [discriminate|]. intros (_ & A). exfalso. apply A, Hps. now apply Z.ltb_lt.
    - do 2 eexists. split; [reflexivity|]. split; [reflexivity|]. split; auto. intros _. split; auto. intros A. apply Hps in A. apply Z.ltb_ge in En. lia. }
  destruct HQ as (p' & sep & -> & Hp & Hs). cbn [bind]. rewrite EF. cbn [fst snd]. rewrite Hp. cbn [negb]. rewrite andb_false_r. cbn [andb].
  intros H. injection H as <- <-. cbn. do 4 (split; [reflexivity|]). tauto.
Qed.

Definition after_item (x : range) (st : pstate) : Prop :=
  ps_book st = Some (vbook (rend x)) /\ (ps_chap st = None \/ ps_chap st = Some (vchap (rend x))) /\
  (open_after e fl x <-> ps_chap st = Some (vchap (rend x)) /\ ps_vl st = true).
Lemma end_regroup : forall force st1 x sb sc eb ec wb wc oq st2, okr x -> tests x sb sc eb ec wb wc ->
  ps_book st1 = Some (vbook (rstart x)) -> ps_chap st1 = (if sb then None else Some (vchap (rstart x))) ->
  ps_vl st1 = (if sc then force && negb ec else true) -> ps_dual st1 = false ->
  pick_end e fl st1 x = Ok (oq, st2) -> after_item x st2 /\ ps_dual st2 = false.
Proof.
  intros force st1 x sb sc eb ec wb wc oq st2 Ho T Hb Hc Hv Hd. pose proof Ho as (Hx & _). pose proof (rules_hold _ _ _ _ _ _ _ Hx T) as Ru.
  unfold pick_end. rewrite (t_wb _ _ _ _ _ _ _ T), (t_wc _ _ _ _ _ _ _ T), (t_eb _ _ _ _ _ _ _ T) by auto. rewrite Hd.
  assert (ES : orM (Ok wb) (orM (Ok wc) (Ok (is_single_verse x))) = Ok (single_unit_range x wb wc)).
  { unfold single_unit_range. destruct wb, wc; reflexivity. }
  rewrite ES. cbn [bind]. clear ES.
  assert (Op : open_after e fl x <-> ~ eb = true /\ ~ (ec = true /\ (vbook (rstart x) <> vbook (rend x) \/ sc = true))).
  { unfold open_after. cbv zeta. rewrite Hfl. rewrite <- (p_eb _ _ _ _ _ _ _ T), <- (p_ec _ _ _ _ _ _ _ T), <- (p_sc _ _ _ _ _ _ _ T). tauto. }
  unfold after_item. rewrite Op. clear Op.
  destruct (single_unit_range x wb wc) eqn:Es.
  - intros H. injection H as <- <-. rewrite Hb, Hc, Hv. split; [|auto].
    unfold single_unit_range in Es. destruct wb.
    { destruct (r_wb _ _ _ _ _ _ _ Ru eq_refl) as (-> & -> & _ & E). rewrite E. split; auto. split; auto. split; [tauto|]. intros (A & _). discriminate. }
    destruct wc.
    { destruct (r_wc _ _ _ _ _ _ _ Ru eq_refl) as (-> & -> & _ & E & E'). rewrite E, E'. cbn [negb]. rewrite andb_false_r. split; auto.
      split; [destruct sb; auto|]. split; [tauto|]. intros (_ & A). discriminate. }
    cbn in Es. unfold is_single_verse in Es. apply verse_eqb_eq in Es.
    pose proof (f_equal vbook Es) as E. pose proof (f_equal vchap Es) as E'.
    destruct sc; [destruct (r_sc_ec _ _ _ _ _ _ _ Ru E E' eq_refl); discriminate|].
    destruct sb; [pose proof (r_sb_sc _ _ _ _ _ _ _ Ru eq_refl); discriminate|].
    destruct ec; [pose proof (r_ec_sc _ _ _ _ _ _ _ Ru E E' eq_refl); discriminate|].
    destruct eb; [pose proof (r_eb_ec _ _ _ _ _ _ _ Ru eq_refl); discriminate|].
    rewrite E, E'. split; auto. split; auto. split; auto. intros _. split; [discriminate|]. intros (A & _). discriminate.
  - destruct eb.
    { intros H. injection H as <- <-. cbn. split; auto. split; auto. split; auto. split; [tauto|]. intros (A & _). discriminate. }
    rewrite Hb, Hv. cbn [obook_eqb]. rewrite (t_ec _ _ _ _ _ _ _ T) by auto.
    set (vl := (if sc then force && negb ec else true) && book_eqb (vbook (rend x)) (vbook (rstart x))).
    assert (EE : (if vl then Ok false else Ok ec) = Ok (negb vl && ec)) by (destruct vl; reflexivity).
    rewrite EE. cbn [bind]. clear EE.
    assert (Key : negb vl && ec = true <-> ec = true /\ (vbook (rstart x) <> vbook (rend x) \/ sc = true)).
    { subst vl. destruct ec; [|rewrite andb_false_r; split; [discriminate|tauto]]. cbn [negb]. rewrite andb_false_r, andb_true_r.
      destruct (book_eqb (vbook (rend x)) (vbook (rstart x))) eqn:Eb.
      - apply book_eqb_eq in Eb. destruct sc; cbn; split; auto; try discriminate. intros (_ & [A|A]); [symmetry in Eb; contradiction|discriminate].
      - rewrite andb_false_r. cbn. split; auto. intros _. split; auto. left. intros A. symmetry in A. apply book_eqb_eq in A. congruence. }
    destruct (negb vl && ec) eqn:Ee.
    + intros H. injection H as <- <-. cbn. split; auto. split; auto. split; auto. split; [|intros (_ & A); discriminate]. intros (_ & A). exfalso. apply A, Key. reflexivity.
    + intros H. injection H as <- <-. cbn. split; auto. split; auto. split; auto. split; auto. intros _. split; [discriminate|]. intros A. apply Key in A. discriminate.
Qed.
End Print.
