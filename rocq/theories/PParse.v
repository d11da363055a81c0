(** * PParse: the transformer gives the meaning of SpecMean, or blames what SpecMean blames. *)
From Coq Require Import List ZArith Bool Ascii Lia.
From Verif Require Import Base Books Chars Regex Data MVerse MRange MSeq MList MParse Spec SpecName SpecParse SpecMean PList PCore PNav PVerse PRange PUnit PUnit2 PLex PName.
Import ListNotations.
Open Scope Z_scope.

Definition spanned (ts : list token) (i j : Z) : Prop :=
  exists a z, hd_error ts = Some a /\ hd_error (rev ts) = Some z /\ i = tpos a /\ j = tend z.

Lemma spanned_single : forall a, spanned (toks a) (s_pos a) (s_end a).
Proof. intros [n|n m|n c s v|c s v|m]; cbn; unfold spanned; cbn; eauto 10. Qed.
Lemma spanned_dual : forall a s b, spanned (toks a ++ s :: toks b) (s_pos a) (s_end b).
Proof.
  intros a s b. destruct (spanned_single a) as (a1 & z1 & A1 & _ & -> & _). destruct (spanned_single b) as (a2 & z2 & _ & Z2 & _ & ->).
  exists a1, z2. repeat split.
  - destruct (toks a); [discriminate|]. exact A1.
  - rewrite rev_app_distr. cbn [rev]. destruct (rev (toks b)); [discriminate|]. exact Z2.
Qed.

Definition sane (d : bibledata) (st : tstate) : Prop :=
  (forall b, ts_book st = Some b -> In b (book_order d)) /\
  (ts_vl st = true -> exists b c, ts_book st = Some b /\ ts_chap st = Some c).
Definition ctx_of (st : tstate) : ctx :=
  match ts_book st with
  | None => NoBook
  | Some b => if ts_vl st then match ts_chap st with Some c => InChap b c | None => InBook b end else InBook b
  end.

(** ** Meanings are unique *)
Lemma says_unique : forall d a k k', says d a k -> says d a k' -> k = k'.
Proof. intros d a k k' H H'. inversion H; subst; inversion H'; subst; unfold named in *; try congruence. Qed.
Lemma means_unique : forall d c k u c1 u' c1', means d c k u c1 -> means d c k u' c1' -> u = u' /\ c1 = c1'.
Proof. intros d c k u c1 u' c1' H H'. inversion H; subst; inversion H'; subst; auto; try contradiction; cbn in *; split; congruence. Qed.
Lemma unit_span_unique : forall e fl u r r', unit_span e fl u r -> unit_span e fl u r' -> r = r'.
Proof. intros e fl u r r' (_ & _ & ->) (_ & _ & ->). reflexivity. Qed.
Lemma m_single_unique : forall e fl c a r c1 r' c1', m_single e fl c a r c1 -> m_single e fl c a r' c1' -> r = r' /\ c1 = c1'.
Proof.
  intros e fl c a r c1 r' c1' (k & u & S & M & U) (k' & u' & S' & M' & U'). pose proof (says_unique _ _ _ _ S S') as <-.
  destruct (means_unique _ _ _ _ _ _ _ M M') as (<- & <-). split; auto. eapply unit_span_unique; eauto.
Qed.
Lemma joined_unique : forall e fl s t r r', wf_data (ed e) -> joined e fl s t r -> joined e fl s t r' -> r = r'.
Proof.
  intros e fl s t r r' Hwf (_ & [(A & ->)|(A & ->)]) (_ & [(B & ->)|(B & ->)]); auto; exfalso.
  - apply (vle_pos e Hwf) in A. apply (vlt_pos e Hwf) in B. lia.
  - apply (vlt_pos e Hwf) in A. apply (vle_pos e Hwf) in B. lia.
Qed.
Lemma m_ref_unique : forall e fl c x r c1 r' c1', wf_data (ed e) -> m_ref e fl c x r c1 -> m_ref e fl c x r' c1' -> r = r' /\ c1 = c1'.
Proof.
  intros e fl c x r c1 r' c1' Hwf H H'. inversion H; subst; inversion H'; subst.
  - eapply m_single_unique; eauto.
  - repeat match goal with A : m_single e fl ?c ?a _ _, B : m_single e fl ?c ?a _ _ |- _ =>
      destruct (m_single_unique _ _ _ _ _ _ _ _ A B) as (-> & ->); clear A end.
    split; auto. eapply joined_unique; eauto.
Qed.
Lemma m_rest_unique : forall e fl c l rs c1, wf_data (ed e) -> m_rest e fl c l rs c1 -> forall rs' c1', m_rest e fl c l rs' c1' -> rs = rs' /\ c1 = c1'.
Proof.
  intros e fl c l rs c1 Hwf H. induction H as [c|c s x r c1 l rs c' R H IH]; intros rs' c1' H'; inversion H' as [|? ? ? r2 c2 ? rs2 ? R2 H2]; subst; auto.
  destruct (m_ref_unique _ _ _ _ _ _ _ _ Hwf R R2) as (-> & ->). destruct (IH _ _ H2) as (-> & ->). auto.
Qed.
Lemma m_tree_unique : forall e fl c t gs c1 gs' c1', wf_data (ed e) -> m_tree e fl c t gs c1 -> m_tree e fl c t gs' c1' -> gs = gs' /\ c1 = c1'.
Proof.
  intros e fl c t gs c1 gs' c1' Hwf (r & a & rs & b & R & S & -> & ->) (r' & a' & rs' & b' & R' & S' & -> & ->).
  destruct (m_ref_unique _ _ _ _ _ _ _ _ Hwf R R') as (-> & ->). destruct (m_rest_unique _ _ _ _ _ _ Hwf S _ _ S') as (-> & ->). auto.
Qed.

(** ** Flags *)
Lemma zero_eff : forall e fl, zero_on e (Some (eff e fl)) = zero_on e fl.
Proof. intros [d [[] []]] [[[] []]|]; reflexivity. Qed.
Lemma multi_eff : forall e fl, multi_on e (Some (eff e fl)) = multi_on e fl.
Proof. intros [d [[] []]] [[[] []]|]; reflexivity. Qed.
Lemma eff_eff : forall e fl, eff e (Some (eff e fl)) = eff e fl.
Proof. intros [d [[] []]] [[[] []]|]; reflexivity. Qed.
Lemma can_start_eff : forall e fl u, can_start e (Some (eff e fl)) u <-> can_start e fl u.
Proof. intros e fl u. unfold can_start. destruct u; rewrite ?zero_eff; tauto. Qed.
Lemma unit_span_eff : forall e fl u r, unit_span e (Some (eff e fl)) u r <-> unit_span e fl u r.
Proof. intros e fl u r. unfold unit_span. now rewrite can_start_eff, zero_eff. Qed.

Section Parse.
Variable e : env.
Variable fl : option flag.
Notation d := (ed e).
Notation f := (eff e fl).
Hypothesis Hwf : wf_data d.
Hypothesis Hnl : names_listed d.

Lemma from_str_listed : forall s b, from_str d s = Some b -> In b (book_order d).
Proof. intros s b H. apply from_str_first in H. destruct H as (_ & _ & _ & (n & N & _) & _). eapply Hnl; eauto. Qed.
Lemma named_listed : forall n b, named d n b -> In b (book_order d).
Proof. intros n b H. exact (from_str_listed _ _ H). Qed.
Lemma tok_book_spec : forall n, match tok_book d n with
  | Ok b => named d n b
  | Err x => x = ParseErr (tpos n) (tend n) /\ forall b, ~ named d n b end.
Proof.
  intros n. unfold tok_book, named. destruct (from_str d (ttext n)); auto. split; auto. discriminate.
Qed.
Lemma one_chap_spec : forall b, In b (book_order d) -> (chap_count e b =? 1) = true <-> one_chap_book d b.
Proof.
  intros b Hb. unfold chap_count. rewrite (min_chap_in e Hwf b Hb), max_chap_eq. unfold one_chap_book. rewrite Z.eqb_eq. lia.
Qed.
Lemma make_spec : forall i j a u, books_listed d a -> first_unit a = Some u -> second_unit a = Some u ->
  match blame i j (new_range_pos e a (Some f)) with
  | Ok r => unit_span e fl u r
  | Err x => x = ParseErr i j /\ forall r, ~ unit_span e fl u r end.
Proof.
  intros i j a u L U1 U2. assert (I : In (unit_book u) (book_order d)) by (eapply first_unit_listed; eauto).
  destruct (ok_dec e (zero_on e (Some f)) u) as [O|O].
  2:{ rewrite (new_range_pos_bad e Hwf) by (auto; left; rewrite U1; exact O). cbn. split; auto. intros r (O' & _). rewrite <- zero_eff in O'. contradiction. }
  destruct (unit_bounds e Hwf _ u I O) as (F & T & P).
  assert (V : vle d (unit_first d (zero_on e (Some f)) u) (unit_last d u)).
  { apply (vle_pos e Hwf). repeat split; auto; eapply InB_mono; eauto. }
  destruct (startable_dec e (Some f) u) as [S|S].
  - destruct (new_range_pos_units e Hwf a (Some f) u u L U1 U2 O O) as (N & _). rewrite N by auto. unfold build. rewrite book_eqb_refl, andb_false_r. cbn.
    rewrite <- unit_span_eff. split; auto.
  - destruct (new_range_pos_cannot e Hwf a (Some f) u u L U1 U2 O O) as (N & _). rewrite N by auto. cbn. split; auto. intros r (_ & S' & _). apply S. now apply can_start_eff.
Qed.
Lemma pb_listed : forall b c v, In b (book_order d) -> books_listed d (PB b c v).
Proof. intros b c v H. split; auto. discriminate. Qed.

(** ** One reference *)
Lemma t_single_spec : forall st a, sane d st ->
  let (st', q) := t_single e f st a in
  sane d st' /\
  match q with
  | Ok r => m_single e fl (ctx_of st) a r (ctx_of st')
  | Err x => exists ts i j, single_blamed e fl (ctx_of st) a ts /\ spanned ts i j /\ x = ParseErr i j
  end.
Proof.
  intros st a S.
  assert (BN : forall n st0, name_of a = Some n -> (forall b, ~ named d n b) -> sane d st0 ->
    sane d st0 /\ (exists ts i j, single_blamed e fl (ctx_of st) a ts /\ spanned ts i j /\ ParseErr (tpos n) (tend n) = ParseErr i j)).
  { intros n st0 N U S0. split; auto. exists [n], (tpos n), (tend n). split; [now apply B_name|]. split; auto. exists n, n. cbn. auto. }
  assert (MK : forall st0 k u, says d a k -> known_name d a -> means d (ctx_of st) k u (ctx_of st0) -> sane d st0 -> forall pa,
     books_listed d pa -> first_unit pa = Some u -> second_unit pa = Some u ->
     sane d st0 /\ match blame (s_pos a) (s_end a) (new_range_pos e pa (Some f)) with
                   | Ok r => m_single e fl (ctx_of st) a r (ctx_of st0)
                   | Err x => exists ts i j, single_blamed e fl (ctx_of st) a ts /\ spanned ts i j /\ x = ParseErr i j end).
  { intros st0 k u Sa K M S0 pa L U1 U2. split; auto. pose proof (make_spec (s_pos a) (s_end a) pa u L U1 U2) as H.
    destruct (blame (s_pos a) (s_end a) (new_range_pos e pa (Some f))) as [r|x].
    - exists k, u. auto.
    - destruct H as (-> & H). exists (toks a), (s_pos a), (s_end a). split; [|split; [apply spanned_single|reflexivity]].
      apply B_ref; auto. intros r c' (k' & u' & S' & M' & U'). pose proof (says_unique _ _ _ _ Sa S') as <-.
      destruct (means_unique _ _ _ _ _ _ _ M M') as (<- & _). eapply H; eauto. }
  assert (NB : ts_book st = None -> name_of a = None ->
     sane d st /\ (exists ts i j, single_blamed e fl (ctx_of st) a ts /\ spanned ts i j /\ ParseErr (s_pos a) (s_end a) = ParseErr i j)).
  { intros B N. split; auto. exists (toks a), (s_pos a), (s_end a). split; [|split; [apply spanned_single|reflexivity]]. apply B_ref.
    - intros n E. congruence.
    - intros r c' (k & u & Sa & M & _). unfold ctx_of in M. rewrite B in M. inversion Sa; subst; try discriminate; inversion M; subst; discriminate. }
  destruct a as [n|n m|n c s v|c s v|m]; cbn [t_single].
  - pose proof (tok_book_spec n) as T. destruct (tok_book d n) as [b|x]; [|destruct T as (-> & T); now apply BN].
    pose proof (named_listed n b T) as Hb. eapply MK; try reflexivity; auto using pb_listed.
    + constructor. exact T.
    + intros n' E. inv E. eauto.
    + cbn. constructor.
    + split; cbn; [intros x X; now inv X|discriminate].
  - pose proof (tok_book_spec n) as T. destruct (tok_book d n) as [b|x]; [|destruct T as (-> & T); now apply BN].
    pose proof (named_listed n b T) as Hb. destruct (chap_count e b =? 1) eqn:C.
    + apply one_chap_spec in C; auto. rewrite (min_chap_in e Hwf b Hb). eapply MK; try reflexivity; auto using pb_listed.
      * constructor. exact T.
      * intros n' E. inv E. eauto.
      * cbn. now constructor.
      * split; cbn; [intros x X; now inv X|eauto].
    + assert (C' : ~ one_chap_book d b) by (intros X; apply one_chap_spec in X; auto; congruence). eapply MK; try reflexivity; auto using pb_listed.
      * constructor. exact T.
      * intros n' E. inv E. eauto.
      * cbn. now constructor.
      * split; cbn; [intros x X; now inv X|discriminate].
  - pose proof (tok_book_spec n) as T. destruct (tok_book d n) as [b|x]; [|destruct T as (-> & T); now apply BN].
    pose proof (named_listed n b T) as Hb. eapply MK; try reflexivity; auto using pb_listed.
    + constructor. exact T.
    + intros n' E. inv E. eauto.
    + cbn. constructor.
    + split; cbn; [intros x X; now inv X|eauto].
  - destruct (ts_book st) as [b|] eqn:B; [|now apply NB]. pose proof (proj1 S b B) as Hb. eapply MK; try reflexivity; auto using pb_listed.
    + constructor.
    + intros n' E. discriminate.
    + cbn. constructor. unfold ctx_of. rewrite B. destruct (ts_vl st); [destruct (ts_chap st)|]; reflexivity.
    + split; cbn; [intros x X; now inv X|eauto].
  - destruct (ts_book st) as [b|] eqn:B; [|now apply NB]. pose proof (proj1 S b B) as Hb. destruct (chap_count e b =? 1) eqn:C.
    + rewrite orb_true_r. apply one_chap_spec in C; auto. rewrite (min_chap_in e Hwf b Hb). eapply MK; try reflexivity; auto using pb_listed.
      * constructor.
      * intros n' E. discriminate.
      * unfold ctx_of at 1. rewrite B. destruct (ts_vl st) eqn:V.
        -- destruct (proj2 S V) as (b' & c & _ & ->). cbn. now constructor.
        -- cbn. now constructor.
      * split; cbn; [intros x X; now inv X|eauto].
    + assert (C' : ~ one_chap_book d b) by (intros X; apply one_chap_spec in X; auto; congruence). rewrite orb_false_r. destruct (ts_vl st) eqn:V.
      * destruct (proj2 S V) as (b' & c & B' & E). rewrite E. rewrite B in B'. inv B'. eapply MK; try reflexivity; auto using pb_listed.
        -- constructor.
        -- intros n' X. discriminate.
        -- unfold ctx_of. rewrite B, V, E. now constructor.
      * eapply MK; try reflexivity; auto using pb_listed.
        -- constructor.
        -- intros n' X. discriminate.
        -- unfold ctx_of. rewrite B, V. now constructor.
Qed.

(** ** References and lists *)
Lemma unit_span_legal : forall c a r c', (forall b, ctx_book c = Some b -> In b (book_order d)) -> m_single e fl c a r c' ->
  wf_range d (zero_on e fl) r.
Proof.
  intros c a r c' Hc (k & u & Sa & M & O & _ & ->). assert (I : In (unit_book u) (book_order d)).
  { assert (N : forall n b, named d n b -> In b (book_order d)) by apply named_listed. inversion Sa; subst; inversion M; subst; cbn; eauto. }
  destruct (unit_bounds e Hwf _ u I O) as (F & T & P). split; [exact F|split; [exact T|]]. cbn. apply (vle_pos e Hwf). repeat split; auto; eapply InB_mono; eauto.
Qed.
Lemma ctx_of_book : forall st, ctx_book (ctx_of st) = ts_book st.
Proof. intros st. unfold ctx_of. destruct (ts_book st); auto. destruct (ts_vl st); auto. destruct (ts_chap st); auto. Qed.
Lemma sane_listed : forall st b, sane d st -> ctx_book (ctx_of st) = Some b -> In b (book_order d).
Proof. intros st b S H. rewrite ctx_of_book in H. now apply S. Qed.
Lemma dual_spec : forall i j r1 r2, wf_range d (zero_on e fl) r1 -> wf_range d (zero_on e fl) r2 ->
  let s := rstart r1 in let t := rend r2 in
  match blame i j (new_range_pos e (PA (vbook s) (Some (vchap s)) (Some (vverse s)) (Some (vbook t)) (Some (vchap t)) (Some (vverse t))) (Some f)) with
  | Ok r => joined e fl s t r
  | Err x => x = ParseErr i j /\ forall r, ~ joined e fl s t r end.
Proof.
  intros i j r1 r2 (A1 & _ & _) (_ & A2 & _) s t. fold s in A1. fold t in A2.
  set (a := PA (vbook s) (Some (vchap s)) (Some (vverse s)) (Some (vbook t)) (Some (vchap t)) (Some (vverse t))).
  pose proof (InB_book e _ s A1) as I1. pose proof (InB_legal e _ s A1) as L1. pose proof (InB_book e _ t A2) as I2. pose proof (InB_legal e _ t A2) as L2.
  assert (Ha : books_listed d a) by (split; cbn; [auto|intros b E; now inv E]).
  assert (U1 : first_unit a = Some (UVerse (vbook s) (vchap s) (vverse s))) by reflexivity.
  assert (U2 : second_unit a = Some (UVerse (vbook t) (vchap t) (vverse t))) by reflexivity.
  rewrite <- zero_eff in L1, L2.
  assert (EV : forall v, V (vbook v) (vchap v) (vverse v) = v) by now intros [].
  destruct (new_range_pos_units e Hwf a (Some f) _ _ Ha U1 U2 L1 L2) as (N1 & N2). cbn [unit_first unit_last] in N1, N2. rewrite !EV in N1, N2.
  unfold build in N1, N2. cbn [unit_book unit_first unit_last] in N1, N2. rewrite !EV in N1, N2. rewrite multi_eff in N1, N2.
  assert (P1 : InB d true s) by (eapply InB_mono; eauto). assert (P2 : InB d true t) by (eapply InB_mono; eauto).
  destruct (Z.le_gt_cases (pos e s) (pos e t)) as [Hle|Hgt].
  - assert (Hv : vle d s t) by (apply (vle_pos e Hwf); auto). rewrite N1 by (cbn; auto).
    destruct (multi_on e fl) eqn:M; cbn [negb andb].
    + cbn. split; auto.
    + destruct (book_eqb (vbook s) (vbook t)) eqn:B; cbn.
      * apply book_eqb_eq in B. split; auto.
      * split; auto. intros r ([X|X] & _); [congruence|]. apply book_eqb_eq in X. congruence.
  - assert (Hv : vlt d t s) by (apply (vlt_pos e Hwf); repeat split; auto; lia). rewrite N2 by (cbn; auto).
    destruct (multi_on e fl) eqn:M; cbn [negb andb].
    + cbn. split; auto.
    + destruct (book_eqb (vbook t) (vbook s)) eqn:B; cbn.
      * apply book_eqb_eq in B. split; auto.
      * split; auto. intros r ([X|X] & _); [congruence|]. symmetry in X. apply book_eqb_eq in X. congruence.
Qed.
Lemma t_ref_spec : forall st x, sane d st ->
  let (st', q) := t_ref e f st x in
  sane d st' /\
  match q with
  | Ok r => m_ref e fl (ctx_of st) x r (ctx_of st')
  | Err z => exists ts i j, ref_blamed e fl (ctx_of st) x ts /\ spanned ts i j /\ z = ParseErr i j
  end.
Proof.
  intros st [a|a s b] S; cbn [t_ref].
  - pose proof (t_single_spec st a S) as H. destruct (t_single e f st a) as (st', [r|z]); destruct H as (S' & H); split; auto.
    + now constructor.
    + destruct H as (ts & i & j & B & P & E). exists ts, i, j. split; auto. now constructor.
  - pose proof (t_single_spec st a S) as H. destruct (t_single e f st a) as (st1, [r1|z]); destruct H as (S1 & H).
    2:{ split; auto. destruct H as (ts & i & j & B & P & E). exists ts, i, j. split; auto. now apply B_left. }
    pose proof (t_single_spec st1 b S1) as H'. destruct (t_single e f st1 b) as (st2, [r2|z]); destruct H' as (S2 & H').
    2:{ split; auto. destruct H' as (ts & i & j & B & P & E). exists ts, i, j. split; auto. eapply B_right; eauto. }
    split; auto. pose proof (unit_span_legal _ _ _ _ (fun b0 => sane_listed st b0 S) H) as W1.
    pose proof (unit_span_legal _ _ _ _ (fun b0 => sane_listed st1 b0 S1) H') as W2.
    pose proof (dual_spec (s_pos a) (s_end b) r1 r2 W1 W2) as D. cbv zeta in D.
    destruct (blame (s_pos a) (s_end b) _) as [r|z].
    + eapply M_two; eauto.
    + destruct D as (-> & D). exists (toks a ++ s :: toks b), (s_pos a), (s_end b). split; [eapply B_both; eauto|]. split; auto. apply spanned_dual.
Qed.
Lemma t_sep_spec : forall st s, sane d st -> sane d (t_sep st s) /\ ctx_of (t_sep st s) = after_sep s (ctx_of st).
Proof.
  intros st s (S1 & S2). unfold t_sep, after_sep. destruct (tk s); try (split; [split; auto|reflexivity]).
  split.
  - split; cbn; auto. discriminate.
  - unfold ctx_of. cbn. destruct (ts_book st); auto. destruct (ts_vl st); auto. destruct (ts_chap st); auto.
Qed.
(** The children that belong to the ranges. *)
Definition rest_children (rs : list (term * range)) : list child :=
  flat_map (fun x => [match fst x with TMajor => CMajor | _ => CMinor end; CRange (snd x)]) rs.
Inductive rest_blamed : ctx -> list (token * ref_node) -> list token -> Prop :=
| Rest_bl c l rs c2 s x l' ts : m_rest e fl c l rs c2 -> ref_blamed e fl (after_sep s c2) x ts -> rest_blamed c (l ++ (s, x) :: l') ts.
Lemma t_rests_spec : forall l st, sane d st ->
  let (st', q) := t_rests e f st l in
  sane d st' /\
  match q with
  | Ok cs => exists rs, m_rest e fl (ctx_of st) l rs (ctx_of st') /\ cs = rest_children rs
  | Err z => exists ts i j, rest_blamed (ctx_of st) l ts /\ spanned ts i j /\ z = ParseErr i j
  end.
Proof.
  induction l as [|(s, x) l IH]; intros st S; cbn [t_rests].
  - split; auto. exists []. split; [constructor|reflexivity].
  - destruct (t_sep_spec st s S) as (S1 & E1). pose proof (t_ref_spec (t_sep st s) x S1) as H. rewrite E1 in H.
    destruct (t_ref e f (t_sep st s) x) as (st1, [r|z]); destruct H as (S2 & H).
    + specialize (IH st1 S2). destruct (t_rests e f st1 l) as (st2, q). destruct IH as (S3 & IH). split; auto. destruct q as [cs|z]; cbn [bind].
      * destruct IH as (rs & M & ->). exists ((tk s, r) :: rs). split; [econstructor; eauto|]. unfold sep_child. reflexivity.
      * destruct IH as (ts & i & j & B & P & ->). exists ts, i, j. split; auto. inversion B as [c0 l0 rs c2 s0 x0 l' ts0 M RB' Q1 Q2]; subst.
        apply (Rest_bl _ ((s, x) :: l0) ((tk s, r) :: rs) c2 s0 x0 l' ts); auto. econstructor; eauto.
    + split; auto. destruct H as (ts & i & j & B & P & ->). exists ts, i, j. split; auto. apply (Rest_bl _ [] [] (ctx_of st) s x l ts); auto. constructor.
Qed.
Lemma ref_list_spec : forall rs done cur r, ref_list done (cur ++ [r]) (rest_children rs) =
  done ++ match groups_of r rs with g :: gs => (cur ++ g) :: gs | [] => [] end.
Proof.
  assert (FL : forall done cur (r : range), flush done (cur ++ [r]) = done ++ [cur ++ [r]]) by (intros done [|x cur] r; reflexivity).
  induction rs as [|(k, r') rs IH]; intros done cur r.
  - cbn. apply FL.
  - assert (NE : exists g gs, groups_of r' rs = g :: gs).
    { destruct rs as [|(k', r2) rs]; cbn; [eauto|]. destruct k', (groups_of r2 rs); eauto. }
    destruct NE as (g & gs & NE). change (rest_children ((k, r') :: rs)) with ((match k with TMajor => CMajor | _ => CMinor end) :: CRange r' :: rest_children rs).
    cbn [groups_of]. rewrite NE. assert (MI : forall d0 c0, ref_list d0 c0 (CMinor :: CRange r' :: rest_children rs) = ref_list d0 (c0 ++ [r']) (rest_children rs)) by reflexivity.
    assert (MA : forall d0 c0, ref_list d0 c0 (CMajor :: CRange r' :: rest_children rs) = ref_list (flush d0 c0) ([] ++ [r']) (rest_children rs)) by reflexivity.
    destruct k; rewrite ?MI, ?MA, IH, NE; rewrite <- ?app_assoc; try reflexivity. rewrite FL. rewrite <- app_assoc. reflexivity.
Qed.
Lemma ref_list_trail : forall cs done cur s, (tk s = TMajor \/ tk s = TMinor) -> ref_list done cur (cs ++ [sep_child s]) = ref_list done cur cs.
Proof.
  induction cs as [|c cs IH]; intros done cur s Hs.
  - unfold sep_child. cbn. destruct Hs as [->| ->]; cbn; auto.
  - cbn [app]. destruct c; cbn [ref_list]; auto.
Qed.
Lemma groups_of_cons : forall rs r, exists g gs, groups_of r rs = g :: gs.
Proof. intros [|(k, r') rs] r; cbn; [eauto|]. destruct k, (groups_of r' rs); eauto. Qed.

Definition trail_ok (t : tree) : Prop := match t_trail t with Some s => tk s = TMajor \/ tk s = TMinor | None => True end.
Lemma t_children_spec : forall st t, sane d st -> trail_ok t ->
  let (st', q) := t_children e f st t in
  sane d st' /\
  match q with
  | Ok cs => m_tree e fl (ctx_of st) t (ref_list [] [] cs) (ctx_of st')
  | Err z => exists ts i j, tree_blamed e fl (ctx_of st) t ts /\ spanned ts i j /\ z = ParseErr i j
  end.
Proof.
  intros st t S T. unfold t_children. pose proof (t_ref_spec st (t_first t) S) as H. destruct (t_ref e f st (t_first t)) as (st1, [r|z]); destruct H as (S1 & H).
  2:{ split; auto. destruct H as (ts & i & j & B & P & ->). exists ts, i, j. split; auto. now apply B_first. }
  pose proof (t_rests_spec (t_rest t) st1 S1) as H2. destruct (t_rests e f st1 (t_rest t)) as (st2, [cs|z]); destruct H2 as (S2 & H2).
  2:{ split; auto. destruct H2 as (ts & i & j & B & P & ->). exists ts, i, j. split; auto. inversion B as [c0 l rs c2 s x l' ts0 M RB' Q1 Q2]; subst. symmetry in Q2. eapply B_later; eauto. }
  destruct H2 as (rs & M & ->).
  assert (G : ref_list [] [] (CRange r :: rest_children rs) = groups_of r rs).
  { cbn [ref_list]. rewrite (ref_list_spec rs [] [] r). destruct (groups_of_cons rs r) as (g & gs & ->). reflexivity. }
  destruct (t_trail t) as [s|] eqn:Et.
  - destruct (t_sep_spec st2 s S2) as (S3 & E3). split; auto. exists r, (ctx_of st1), rs, (ctx_of st2). split; auto. split; auto. split; [|now rewrite Et].
    change (CRange r :: rest_children rs ++ [sep_child s]) with ((CRange r :: rest_children rs) ++ [sep_child s]).
    unfold trail_ok in T. rewrite Et in T. rewrite ref_list_trail by auto. exact G.
  - split; auto. exists r, (ctx_of st1), rs, (ctx_of st2). rewrite Et. auto.
Qed.
Lemma reads_trail : forall s t, reads d s t -> trail_ok t.
Proof.
  intros s t (ts & _ & G). destruct G as [l x m r tr _ R]. unfold trail_ok. cbn. induction R as [|s' Hs|s' l' x' m r tr Hs Hr R IH]; auto.
Qed.

Theorem parse_spec : forall st s, sane d st -> good_seps d ->
  let (st', q) := parse e fl st s in
  sane d st' /\
  match q with
  | Ok gs => exists t, reads d s t /\ m_tree e fl (ctx_of st) t gs (ctx_of st')
  | Err z => (z = SyntaxErr /\ st' = st /\ forall t, ~ reads d s t) \/
             (exists t ts i j, reads d s t /\ tree_blamed e fl (ctx_of st) t ts /\ spanned ts i j /\ z = ParseErr i j)
  end.
Proof.
  intros st s S G. unfold parse. destruct (read d s) as [t|] eqn:R.
  - apply read_sound in R. pose proof (t_children_spec st t S (reads_trail s t R)) as H. destruct (t_children e f st t) as (st', [cs|z]); destruct H as (S' & H); cbn [bind]; split; auto.
    + eauto.
    + right. destruct H as (ts & i & j & H). exists t, ts, i, j. tauto.
  - split; auto. left. repeat split; auto. intros t H. apply read_complete in H; auto. congruence.
Qed.
End Parse.
