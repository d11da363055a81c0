(** * PShow: the texts of SpecShow are the texts of the model. *)
From Coq Require Import List ZArith NArith Bool Ascii Lia.
From Verif Require Import Base Books Chars Regex Data MVerse MRange MSeq MList MStr MParse Spec SpecList SpecParse SpecMean SpecShow
  PList PCore PNav PVerse PRange PSetOps PRuns PSplit PCount PUnit PUnit2 PRegroup PLex PPrint PText.
Import ListNotations.
Import Spec.
Open Scope Z_scope.

(** ** Numbers *)
Lemma digit_char_of : forall n, (n < 10)%N -> digit_of (digit_char n) (Z.of_N n).
Proof.
  intros n H. unfold digit_of, digit_char. rewrite N_ascii_embedding by lia. lia.
Qed.
Lemma dec_fuel_digits : forall f n, (n < 2 ^ N.of_nat f)%N -> digits (Z.of_N n) (dec_fuel f n).
Proof.
  induction f as [|f IH]; intros n H.
  - cbn in H. assert (n = 0%N) by lia. subst n. cbn. apply D_one. apply (digit_char_of 0). lia.
  - cbn [dec_fuel]. destruct (N.ltb_spec n 10) as [L|L].
    + apply D_one. now apply digit_char_of.
    + assert (L2 : (n / 10 < 2 ^ N.of_nat f)%N).
      { rewrite Nat2N.inj_succ, N.pow_succ_r' in H. apply N.div_lt_upper_bound; lia. }
      pose proof (N.mod_lt n 10) as M. assert (E : Z.of_N n = 10 * Z.of_N (n / 10) + Z.of_N (n mod 10)).
      { pose proof (N.div_mod n 10). lia. }
      assert (P : (1 <= n / 10)%N) by (apply N.div_le_lower_bound; lia).
      rewrite E. apply D_more; [now apply IH|lia|]. apply digit_char_of. lia.
Qed.
Lemma int_str_digits : forall z, 0 <= z -> digits z (int_str z).
Proof.
  intros z H. unfold int_str. destruct (Z.ltb_spec z 0); [lia|]. rewrite <- (Z2N.id z) at 1 by auto. apply dec_fuel_digits.
  destruct (Z.to_N z) as [|p]; [cbn; lia|]. unfold N.size_nat.
  induction p as [p IH|p IH|]; cbn [Pos.size_nat]; rewrite ?Nat2N.inj_succ, ?N.pow_succ_r'; try lia.
Qed.
Lemma digit_of_fun : forall c c' k k', digit_of c k -> digit_of c' k' -> k = k' -> c = c'.
Proof.
  intros c c' k k' (A & _) (B & _) ->. assert (E : N_of_ascii c = N_of_ascii c') by lia.
  rewrite <- (ascii_N_embedding c), <- (ascii_N_embedding c'). now rewrite E.
Qed.
Lemma digits_pos : forall n s, digits n s -> 0 <= n.
Proof. intros n s H. induction H as [c k (_ & K)|n s c k _ _ P (_ & K)]; lia. Qed.
Lemma digits_fun : forall n s, digits n s -> forall t, digits n t -> s = t.
Proof.
  intros n s H. induction H as [c k K|n s c k H IH P K].
  - intros t T. inversion T as [c' k' K' E1 E2|n' s' c' k' H' P' K' E1 E2]; subst.
    + f_equal. eapply digit_of_fun; eauto.
    + exfalso. destruct K as (_ & K), K' as (_ & K'). lia.
  - intros t T. remember (10 * n + k) as m eqn:Em. destruct T as [c' k' K'|n' s' c' k' H' P' K'].
    + exfalso. destruct K as (_ & K), K' as (_ & K'). lia.
    + pose proof K as (_ & B). pose proof K' as (_ & B'). assert (N : n = n') by lia. assert (k = k') by lia. subst n' k'.
      f_equal; [now apply IH|]. f_equal. eapply digit_of_fun; eauto.
Qed.

(** ** The text is determined *)
Section Fun.
Variable e : env.
Notation d := (ed e).
Lemma called_fun : forall lk b s t, called d lk b s -> called d lk b t -> s = t.
Proof. intros lk b s t (n & E & ->) (m & F & ->). rewrite E in F. injection F as <-. reflexivity. Qed.
Lemma printed_fun : forall lk v sh s t, printed d lk v sh s -> printed d lk v sh t -> s = t.
Proof.
  intros lk v sh s t (n & c & w & N & C & W & ->) (n' & c' & w' & N' & C' & W' & ->).
  rewrite (called_fun _ _ _ _ N N'), (digits_fun _ _ C _ C'), (digits_fun _ _ W _ W'). reflexivity.
Qed.
Lemma start_shown_fun : forall force x s t, start_shown e force x s -> start_shown e force x t -> s = t.
Proof. intros force x s t [] []; auto; exfalso; tauto. Qed.
Lemma end_shown_fun : forall dual vs x s t, end_shown e dual vs x s -> end_shown e dual vs x t -> s = t.
Proof.
  intros dual vs x s t [D A|A B|A B C D|A B C D F|A B C D|A B C D F|A B C D F]
    [D' A'|A' B'|A' B' C' D'|A' B' C' D' F'|A' B' C' D'|A' B' C' D' F'|A' B' C' D' F']; auto; exfalso;
    try (destruct A; try congruence; tauto); try (destruct A'; try congruence; tauto); try tauto; try congruence;
    try (specialize (C' C); congruence); try (specialize (C C'); congruence).
Qed.
Lemma ref_written_fun : forall lk x sh osh s t, ref_written e lk x sh osh s -> ref_written e lk x sh osh t -> s = t.
Proof.
  intros lk x sh [sh'|] s t; cbn.
  - intros (a & b & A & B & ->) (a' & b' & A' & B' & ->). now rewrite (printed_fun _ _ _ _ _ A A'), (printed_fun _ _ _ _ _ B B').
  - apply printed_fun.
Qed.
Lemma range_written_fun : forall lk force x s t, range_written e lk force x s -> range_written e lk force x t -> s = t.
Proof.
  intros lk force x s t [sh osh A B N C|sh a A B N C E] [sh' osh' A' B' N' C'|sh' a' A' B' N' C' E'];
  pose proof (start_shown_fun _ _ _ _ A A') as <-; pose proof (end_shown_fun _ _ _ _ _ B B') as EB; try (exfalso; (now apply N) || (now apply N')).
  - subst osh'. eapply ref_written_fun; eauto.
  - rewrite E, E'. now rewrite (printed_fun _ _ _ _ _ C C').
Qed.
Lemma forced_fun : forall force x sh s t, forced e force x sh s -> forced e force x sh t -> s = t.
Proof. intros force x sh s t [[|]|] [[|]|]; auto; exfalso; try congruence; tauto. Qed.
Lemma opens_up : wf_data d -> forall x, wf_range d true x -> opens_book e x -> opens_chap e x.
Proof. intros W x Hx. now apply (opens_book_chap e W). Qed.
Lemma start_item_fun : wf_data d -> forall pg force new c x s m u s' m' u', wf_range d true x ->
  start_item e pg force new c x s m u -> start_item e pg force new c x s' m' u' -> s = s' /\ m = m' /\ u = u'.
Proof.
  intros W pg force new c x s m u s' m' u' Hx H H'. pose proof (opens_up W x Hx) as Up.
  destruct H as [s A B|s A B C D|s A B C D E|A B C D E F|A B|A B C|A B C];
  destruct H' as [s' A' B'|s' A' B' C' D'|s' A' B' C' D' E'|A' B' C' D' E' F'|A' B'|A' B' C'|A' B' C'];
  try (exfalso; tauto); auto; try (split; [eapply forced_fun; eassumption|auto]);
  try (exfalso; subst c; cbn in *; congruence); try (exfalso; intuition congruence).
Qed.
Lemma items_written_fun : wf_data d -> forall lk pg force first dual c l s, Forall (fun p => wf_range d true (snd p)) l ->
  items_written e lk pg force first dual c l s -> forall t, items_written e lk pg force first dual c l t -> s = t.
Proof.
  intros W lk pg force first dual c l s F H. induction H as [|first dual c m x l c0 new sh major dual1 osh body out -> -> S E R I IH]; intros t T.
  - now inversion T.
  - inversion T as [|first' dual' c' m' x' l' c0' new' sh' major' dual1' osh' body' out' N' C' S' E' R' I' X1 X2 X3 X4 X5]. subst. clear T.
    inversion F as [|? ? Fx Fl]; subst. cbn in Fx.
    destruct (start_item_fun W _ _ _ _ _ _ _ _ _ _ _ Fx S S') as (<- & <- & <-).
    pose proof (end_shown_fun _ _ _ _ _ E E') as <-. pose proof (ref_written_fun _ _ _ _ _ _ R R') as <-. rewrite (IH Fl _ I'). reflexivity.
Qed.
End Fun.

(** ** The texts of verses *)
Section Text.
Variable e : env.
Notation d := (ed e).
Notation z := (verse0 (eg e)).
Hypothesis Hwf : wf_data d.
Hypothesis Htidy : tidy d.
Variable lk : look.
Notation ns := (lk_nospace lk).

Definition shown_of (one : bool) (p : parts) : option shown :=
  match p_book p, p_chap p && negb one, p_verse p with
  | true, false, false => Some ShBook
  | true, true, false => Some ShBookChap
  | true, false, true => Some ShBookVerse
  | true, true, true => Some ShFull
  | false, true, false => Some ShChap
  | false, false, true => Some ShVerse
  | false, true, true => Some ShChapVerse
  | false, false, false => None
  end.
Lemma compact_eq : forall s, compact ns s = if ns then remove_spaces s else s.
Proof. intros s. unfold compact. destruct ns; reflexivity. Qed.
Lemma trimmed_tight : forall s, trimmed s -> tight ns (if ns then remove_spaces s else s).
Proof.
  intros s ((c & t & E & H) & (t' & c' & E' & H')). assert (K : forall c, is_space c = false -> Ascii.eqb c space = false).
  { intros k Hk. destruct (Ascii.eqb_spec k space) as [->|]; auto. }
  destruct ns.
  - split; [|split].
    + exists c, (remove_spaces t). split; auto. rewrite E. unfold remove_spaces. cbn [filter]. now rewrite (K c H).
    + exists (remove_spaces t'), c'. split; auto. rewrite E', remove_app. f_equal. unfold remove_spaces. cbn [filter]. now rewrite (K c' H').
    + intros _. apply remove_no_space.
  - split; [|split]; eauto. discriminate.
Qed.
Lemma name_of_book : forall b, In b (book_order d) -> called d lk b (compact ns (book_name d (lk_abbrev lk) b)) /\
  tight ns (if ns then remove_spaces (book_name d (lk_abbrev lk) b) else book_name d (lk_abbrev lk) b).
Proof.
  intros b Hb. destruct (Htidy b Hb) as (n & E & T & A). unfold book_name. rewrite E. split.
  - exists n. auto.
  - apply trimmed_tight. now destruct (lk_abbrev lk).
Qed.
Lemma blank_gap : blank ns = gap ns.
Proof. unfold blank, gap. destruct ns; reflexivity. Qed.
Lemma compact_app : forall n a b, compact n (a ++ b) = compact n a ++ compact n b.
Proof. intros [|] a b; [apply filter_app|reflexivity]. Qed.
Lemma compact_tight : forall s, tight ns s -> compact ns s = s.
Proof. intros s (_ & _ & H). rewrite compact_eq. destruct ns; auto. now apply remove_none, H. Qed.
Lemma compact_none : forall s, ns = true -> ~ In space (compact ns s).
Proof. intros s H. rewrite compact_eq, H. apply remove_no_space. Qed.
Lemma spaced_parts : forall a b, tight ns (compact ns a) -> tight ns (compact ns b) -> spaced ns (a ++ [space] ++ b) = compact ns a ++ blank ns ++ compact ns b.
Proof.
  intros a b A B. unfold compact, blank in *. destruct ns; cbn [spaced].
  - now rewrite !remove_app.
  - now apply (spaced_gap false).
Qed.
Lemma spaced_first : forall a, tight ns (compact ns a) -> spaced ns (a ++ [space]) = compact ns a.
Proof. intros a A. rewrite compact_eq in *. now apply (book_only lk). Qed.
Lemma spaced_last : forall b, tight ns (compact ns b) -> spaced ns (space :: b) = compact ns b.
Proof.
  intros b B. unfold compact in *. destruct ns; cbn [spaced]; [reflexivity|]. now apply (spaced_lead false).
Qed.
Lemma spaced_all : forall b, tight ns (compact ns b) -> spaced ns b = compact ns b.
Proof. intros b B. unfold compact in *. destruct ns; cbn [spaced]; [reflexivity|]. now apply (spaced_tight false). Qed.
Lemma tight_sep : forall a c b, tight ns a -> tight ns b -> compact ns (a ++ [c] ++ b) = a ++ compact ns [c] ++ b /\ tight ns (compact ns (a ++ [c] ++ b)).
Proof.
  intros a c b A B. assert (E : compact ns (a ++ [c] ++ b) = a ++ compact ns [c] ++ b) by (rewrite !compact_app, !(compact_tight a), !(compact_tight b) by auto; reflexivity).
  split; auto. rewrite E. apply tight_mid; auto. apply compact_none.
Qed.
Lemma verse_written : forall zz v p sh, InB d zz v -> shown_of (single_chap d (vbook v)) p = Some sh ->
  printed d lk v sh (verse_str e lk v p) /\ tight ns (verse_str e lk v p).
Proof.
  intros zz v p sh Hv Hp. pose proof (InB_book e _ _ Hv) as Hb. pose proof (InB_legal e _ _ Hv) as Hl.
  destruct (name_of_book _ Hb) as (Nm & Tn). assert (Hc : 0 <= vchap v /\ 0 <= vverse v).
  { revert Hl. unfold legal, first_num. destruct (_ && _); lia. }
  destruct Hc as (Hc & Hv0). rewrite <- compact_eq in Tn.
  assert (Tc := tight_digits ns _ Hc). assert (Tv := tight_digits ns _ Hv0).
  set (sep := if lk_alt lk then verse_sep_alt d else verse_sep_std d).
  destruct (tight_sep _ sep _ Tc Tv) as (Ecv & Tcv).
  assert (Ec := compact_tight _ Tc). assert (Ev := compact_tight _ Tv). set (name := book_name d (lk_abbrev lk) (vbook v)) in *.
  set (cs := int_str (vchap v)) in *. set (vs := int_str (vverse v)) in *.
  assert (Tg : forall s, tight ns s -> tight ns (compact ns name ++ blank ns ++ s)).
  { intros s Hs. apply tight_mid; auto. rewrite blank_gap. apply gap_no. }
  assert (G : exists t, verse_str e lk v p = t /\ tight ns t /\ t = match sh with
      | ShBook => compact ns name | ShBookChap => compact ns name ++ blank ns ++ cs | ShBookVerse => compact ns name ++ blank ns ++ vs
      | ShFull => compact ns name ++ blank ns ++ cs ++ compact ns [sep] ++ vs | ShChap => cs | ShVerse => vs | ShChapVerse => cs ++ compact ns [sep] ++ vs end).
  { unfold verse_str. rewrite (chap_count_one e Hwf _ Hb). change (is_one e (vbook v)) with (single_chap d (vbook v)).
    unfold shown_of in Hp. destruct p as [pb pc pv]. cbn [p_book p_chap p_verse] in *.
    assert (PC : forall one : bool, (if one then P pb false pv else P pb pc pv) = P pb (pc && negb one) pv) by (intros []; cbn; now rewrite ?andb_false_r, ?andb_true_r).
    rewrite PC. cbn [p_book p_chap p_verse]. fold name cs vs sep.
    destruct pb, (pc && negb (single_chap d (vbook v))), pv; try discriminate; injection Hp as <-; cbn [andb app]; eexists.
    - split; [exact (spaced_parts name (cs ++ [sep] ++ vs) Tn Tcv)|]. rewrite Ecv. split; [apply Tg; now rewrite <- Ecv|reflexivity].
    - rewrite app_nil_r. split; [refine (spaced_parts name cs Tn _); now rewrite Ec|]. rewrite Ec. split; [now apply Tg|reflexivity].
    - split; [refine (spaced_parts name vs Tn _); now rewrite Ev|]. rewrite Ev. split; [now apply Tg|reflexivity].
    - split; [exact (spaced_first name Tn)|]. auto.
    - split; [exact (spaced_last (cs ++ [sep] ++ vs) Tcv)|]. split; auto.
    - rewrite app_nil_r. split; [refine (spaced_last cs _); now rewrite Ec|]. now rewrite Ec.
    - split; [refine (spaced_last vs _); now rewrite Ev|]. now rewrite Ev. }
  destruct G as (t & -> & Ht & E). split; auto. exists (compact ns name), cs, vs. split; [exact Nm|]. split; [now apply int_str_digits|]. split; [now apply int_str_digits|]. exact E.
Qed.
End Text.

Lemma unit_eq_dec : forall u v : unit_ref, {u = v} + {u <> v}.
Proof. decide equality; try apply Z.eq_dec; decide equality. Defined.
(** ** Ranges *)
Section Print.
Variable e : env.
Notation d := (ed e).
Notation z := (verse0 (eg e)).
Hypothesis Hwf : wf_data d.
Hypothesis Htidy : tidy d.
Variable fl : option flag.
Hypothesis Hfl : zero_on e fl = z.
Variable lk : look.
Notation ns := (lk_nospace lk).

Lemma unit_all : forall x sb sc eb ec wb wc, tests e fl x sb sc eb ec wb wc ->
  (wb || (wc || is_single_verse x) = true <-> lone_unit e x).
Proof.
  intros x sb sc eb ec wb wc T. unfold lone_unit, all_of.
  assert (A : forall u b, (b = true <-> is_unit e z u x) -> unit_book u = vbook (rstart x) -> (b = true <-> x = R (unit_first d z u) (unit_last d u))).
  { intros u b Hb Hu. rewrite Hb. unfold is_unit. destruct x as [s t]. cbn [rstart rend] in *. split.
    - intros (_ & -> & ->). reflexivity.
    - intros [= -> ->]. split; auto. destruct u; reflexivity. }
  rewrite !orb_true_iff, (A _ _ (p_wb _ _ _ _ _ _ _ _ _ T) eq_refl), (A _ _ (p_wc _ _ _ _ _ _ _ _ _ T) eq_refl).
  unfold is_single_verse. rewrite verse_eqb_eq. reflexivity.
Qed.
Lemma shown_full : forall b, shown_of (single_chap d b) P_FULL_REF = Some (full_ref d b).
Proof. intros b. unfold full_ref. destruct (single_chap d b); reflexivity. Qed.
Lemma shown_cv : forall b, shown_of (single_chap d b) P_CHAP_VERSE = Some (chap_verse d b).
Proof. intros b. unfold chap_verse. destruct (single_chap d b); reflexivity. Qed.
Lemma shown_v : forall b, shown_of (single_chap d b) P_VERSE = Some ShVerse.
Proof. intros b. destruct (single_chap d b); reflexivity. Qed.
Lemma not_single : forall b, ~ (num_chaps d b = 1) -> single_chap d b = false.
Proof. intros b H. unfold single_chap. now apply Z.eqb_neq. Qed.
Lemma is_single : forall b, single_chap d b = true -> num_chaps d b = 1.
Proof. intros b H. now apply Z.eqb_eq. Qed.
Lemma book_eqb_spec : forall a b, book_eqb a b = true /\ a = b \/ book_eqb a b = false /\ a <> b.
Proof. intros a b. destruct (book_eqb a b) eqn:E; [left|right]; split; auto; [now apply book_eqb_eq|]. intros H. apply book_eqb_eq in H. congruence. Qed.

Lemma verse_nothing : forall v, verse_str e lk v (P false false false) = [].
Proof. intros v. unfold verse_str. destruct (_ =? 1); cbn; destruct ns; reflexivity. Qed.
Lemma spaced_trailing : forall a c, tight ns a -> spaced ns (a ++ [c]) = a ++ trailing ns c.
Proof.
  intros a c T. unfold trailing. destruct ns; cbn [spaced].
  - rewrite remove_app. rewrite remove_none by (now apply T). reflexivity.
  - destruct (is_space c) eqn:C; [|apply (spaced_tight false); apply tight_app; auto; now apply tight_char].
    rewrite app_nil_r. destruct T as ((k & t & E & H) & (t' & k' & E' & H') & _). unfold strip, rstrip.
    assert (L : lstrip (a ++ [c]) = a ++ [c]) by (rewrite E; cbn; now rewrite H).
    rewrite L, rev_app_distr. cbn. rewrite C, E', rev_app_distr. cbn. rewrite H'. cbn. now rewrite rev_involutive.
Qed.
Lemma range_text_ok : forall force x, wf_range d true x ->
  exists s, range_str e lk force x fl = Ok s /\ range_written e lk force x s.
Proof.
  intros force x Hx. destruct (tests_at e Hwf fl Hfl x Hx) as (sb & sc & eb & ec & wb & wc & T).
  pose proof (rules1_hold e Hwf fl x _ _ _ _ _ _ Hx T) as Ru. pose proof Hx as (Zs & Ze & _).
  pose proof (unit_all _ _ _ _ _ _ _ T) as Pu.
  pose proof (p_sb _ _ _ _ _ _ _ _ _ T) as Psb. pose proof (p_sc _ _ _ _ _ _ _ _ _ T) as Psc. pose proof (p_eb _ _ _ _ _ _ _ _ _ T) as Peb. pose proof (p_ec _ _ _ _ _ _ _ _ _ T) as Pec.
  fold (opens_book e x) in Psb. fold (opens_chap e x) in Psc. fold (closes_book e x) in Peb. fold (closes_chap e x) in Pec.
  unfold range_str. rewrite (t_sb _ _ _ _ _ _ _ _ _ T), (t_sc _ _ _ _ _ _ _ _ _ T), (t_ec _ _ _ _ _ _ _ _ _ T None) by auto. cbn [bind].
  set (Q := if sb then _ else _).
  assert (HQ : exists p sh, Q = Ok (p, has_verse sh) /\ start_shown e force x sh /\ shown_of (single_chap d (vbook (rstart x))) p = Some sh /\ (has_verse sh = false -> sc = true)).
  { subst Q. destruct sb.
    - exists P_BOOK, ShBook. split; [reflexivity|]. split; [constructor; tauto|]. split; [now destruct (single_chap _ _)|]. intros _. now apply (q_sb_sc _ _ _ _ _ _ _ _ Ru).
    - assert (Nb : ~ opens_book e x) by (intros H; apply Psb in H; discriminate). destruct sc.
      + assert (O : ~ (num_chaps d (vbook (rstart x)) = 1)). { intros O. pose proof (q_sc_sb _ _ _ _ _ _ _ _ Ru O eq_refl). discriminate. }
        assert (E : (if force then Ok ec else Ok true) = Ok (negb force || ec)) by (now destruct force). rewrite E. cbn [bind].
        destruct (negb force || ec) eqn:Ef.
        * exists P_BOOK_CHAP, ShBookChap. split; [reflexivity|]. split; [|split; [|auto]].
          -- apply St_chap; auto; [now apply Psc|]. destruct force; [right; apply Pec; exact Ef|now left].
          -- now rewrite (not_single _ O).
        * apply orb_false_iff in Ef. destruct Ef as (Ef & Ec). apply negb_false_iff in Ef.
          exists P_FULL_REF, (full_ref d (vbook (rstart x))). split; [unfold full_ref; rewrite (not_single _ O); reflexivity|]. split; [|split; [apply shown_full|auto]].
          apply St_full; auto. intros (_ & [A|A]); [congruence|]. apply Pec in A. congruence.
      + exists P_FULL_REF, (full_ref d (vbook (rstart x))). split; [unfold full_ref; destruct (single_chap _ _); reflexivity|]. split; [|split; [apply shown_full|]].
        * apply St_full; auto. intros (A & _). apply Psc in A. congruence.
        * unfold full_ref. destruct (single_chap _ _); discriminate. }
  destruct HQ as (p & sh & EQ & Hs & Hp & Hvs). rewrite EQ. clear Q EQ. cbn [bind fst snd].
  rewrite (t_wb _ _ _ _ _ _ _ _ _ T), (t_wc _ _ _ _ _ _ _ _ _ T) by auto.
  assert (ES : orM (Ok wb) (orM (Ok wc) (Ok (is_single_verse x))) = Ok (wb || (wc || is_single_verse x))) by (destruct wb, wc; reflexivity).
  rewrite ES. clear ES. cbn [bind].
  destruct (verse_written e Hwf Htidy lk _ _ _ _ Zs Hp) as (W1 & T1).
  destruct (wb || (wc || is_single_verse x)) eqn:Es.
  { eexists. split; [reflexivity|]. eapply (R_plain _ _ _ _ _ sh None); [auto|apply En_none; auto; tauto|intros (? & _); discriminate|]. cbn. now rewrite (spaced_tight _ _ T1). }
  assert (Ns : ~ lone_unit e x) by (intros H; apply Pu in H; discriminate).
  rewrite (t_eb _ _ _ _ _ _ _ _ _ T) by auto. cbn [bind].
  set (vl := has_verse sh && book_eqb (vbook (rend x)) (vbook (rstart x))).
  assert (EE : (if vl then Ok false else spans_end_chap e x fl) = Ok (negb vl && ec)) by (rewrite (t_ec _ _ _ _ _ _ _ _ _ T) by auto; destruct vl; reflexivity).
  rewrite EE. clear EE. cbn [bind].
  destruct (eb && book_eqb (vbook (rstart x)) (vbook (rend x))) eqn:Dg.
  { apply andb_true_iff in Dg. destruct Dg as (-> & Eq). rewrite Eq. cbn [bind p_chap p_verse P_BOOK andb]. apply book_eqb_eq in Eq.
    rewrite verse_nothing, app_nil_r. eexists. split; [reflexivity|]. apply (R_dangling _ _ _ _ _ sh (verse_str e lk (rstart x) p)); auto.
    - apply En_book; tauto.
    - now apply spaced_trailing. }
  assert (Nd : eb = true -> vbook (rstart x) <> vbook (rend x)).
  { intros -> E. cbn in Dg. apply book_eqb_eq in E. congruence. }
  assert (HE : exists q0 sh2, (if eb then Ok P_BOOK else Ok (if negb vl && ec then P_BOOK_CHAP else P_FULL_REF)) = Ok q0 /\
     end_shown e false (has_verse sh) x (Some sh2) /\
     shown_of (single_chap d (vbook (rend x))) (if book_eqb (vbook (rstart x)) (vbook (rend x)) then P false (p_chap q0 && negb (vchap (rstart x) =? vchap (rend x))) (p_verse q0) else q0) = Some sh2).
  { destruct eb.
    - exists P_BOOK, ShBook. split; [reflexivity|]. split; [apply En_book; tauto|].
      destruct (book_eqb_spec (vbook (rstart x)) (vbook (rend x))) as [(-> & E)|(-> & E)]; [|now destruct (single_chap _ _)].
      now apply Nd in E.
    - assert (Nb : ~ closes_book e x) by (intros H; apply Peb in H; discriminate).
      unfold vl. destruct (book_eqb_spec (vbook (rstart x)) (vbook (rend x))) as [(Eq & E)|(Eq & E)].
      + rewrite E, (proj2 (book_eqb_eq _ _) eq_refl), andb_true_r. rewrite <- E. destruct (has_verse sh) eqn:V; cbn [negb andb].
        * exists P_FULL_REF. cbn [p_chap p_verse P_FULL_REF andb]. destruct (Z.eqb_spec (vchap (rstart x)) (vchap (rend x))) as [Ec|Ec].
          -- exists ShVerse. split; [reflexivity|]. split; [apply En_verse; auto|]. now destruct (single_chap _ _).
          -- exists ShChapVerse. split; [reflexivity|]. split; [apply En_chap_verse; auto|].
             assert (O : single_chap d (vbook (rstart x)) = false).
             { destruct (single_chap _ _) eqn:O; auto. apply is_single in O. pose proof (one_chap_is e _ _ Zs O). rewrite E in O. pose proof (one_chap_is e _ _ Ze O). lia. }
             now rewrite O.
        * pose proof (Hvs eq_refl) as ->. assert (Nc : vchap (rstart x) <> vchap (rend x)).
          { intros C. destruct (q_sc_ec _ _ _ _ _ _ _ _ Ru E C eq_refl) as (_ & ->). rewrite orb_true_r in Es. discriminate. }
          assert (O : single_chap d (vbook (rstart x)) = false).
          { destruct (single_chap _ _) eqn:O; auto. apply is_single in O. pose proof (one_chap_is e _ _ Zs O). rewrite E in O. pose proof (one_chap_is e _ _ Ze O). lia. }
          destruct ec.
          -- exists P_BOOK_CHAP, ShChap. cbn [p_chap p_verse P_BOOK_CHAP andb]. rewrite (proj2 (Z.eqb_neq _ _) Nc), O. split; [reflexivity|]. split; [apply En_chap; auto; tauto|reflexivity].
          -- exists P_FULL_REF, ShChapVerse. cbn [p_chap p_verse P_FULL_REF andb]. rewrite (proj2 (Z.eqb_neq _ _) Nc), O. split; [reflexivity|]. split; [apply En_chap_verse; auto|reflexivity].
             intros H. apply Pec in H. discriminate.
      + assert (B : book_eqb (vbook (rend x)) (vbook (rstart x)) = false).
        { destruct (book_eqb_spec (vbook (rend x)) (vbook (rstart x))) as [(_ & F)|(-> & _)]; auto. congruence. }
        rewrite B, Eq, andb_false_r. cbn [negb andb]. destruct ec.
        * exists P_BOOK_CHAP, ShBookChap. split; [reflexivity|]. split; [apply En_other_chap; auto; tauto|].
          assert (O : ~ (num_chaps d (vbook (rend x)) = 1)). { intros O. pose proof (q_ec_eb _ _ _ _ _ _ _ _ Ru O eq_refl). discriminate. }
          now rewrite (not_single _ O).
        * exists P_FULL_REF, (full_ref d (vbook (rend x))). split; [reflexivity|]. split; [|apply shown_full]. apply En_full; auto. intros H. apply Pec in H. discriminate. }
  destruct HE as (q0 & sh2 & -> & He & Hq). cbn [bind].
  destruct (verse_written e Hwf Htidy lk _ _ _ _ Ze Hq) as (W2 & T2).
  eexists. split; [reflexivity|]. apply (R_plain _ _ _ _ _ sh (Some sh2)); auto.
  - intros (Eb & E). injection Eb as ->. assert (C : closes_book e x) by (inversion He as [| | | |A1 A2 A3 A4 A5| |]; auto; unfold full_ref in A5; destruct (single_chap d (vbook (rend x))); discriminate A5).
    apply Peb in C. now apply Nd in C.
  - cbn. do 2 eexists. split; [exact W1|]. split; [exact W2|]. destruct (tight_sep lk _ (range_sep d) _ T1 T2) as (E & Tt).
    rewrite <- E. now apply spaced_all.
Qed.

(** ** Lists *)
Definition sep_char (major : bool) : ascii := if major then major_list_sep d else minor_list_sep d.
Definition tracks (st : pstate) (c : ctx) : Prop :=
  ps_book st = ctx_book c /\
  match c with InChap b h => ps_vl st = true /\ ps_chap st = Some h | _ => ps_vl st = false end.
Definition sep_ok (st : pstate) (major : bool) : Prop := ps_first st = true \/ ps_sep st = [sep_char major].
Lemma major_eqb : forall m, str_eqb [sep_char m] [major_list_sep d] = true <-> m = true \/ one_sep e.
Proof.
  intros m. unfold one_sep. rewrite str_eqb_eq. destruct m; cbn; split; auto.
  - intros E. injection E as E. auto.
  - intros [E|E]; [discriminate|congruence].
Qed.
Lemma one_rule : forall x, wf_range d true x -> vbook (rstart x) = vbook (rend x) -> vchap (rstart x) <> vchap (rend x) -> single_chap d (vbook (rstart x)) = false.
Proof.
  intros x (Zs & Ze & _) E C. destruct (single_chap _ _) eqn:O; auto. apply is_single in O. pose proof (one_chap_is e _ _ Zs O). rewrite E in O. pose proof (one_chap_is e _ _ Ze O). lia.
Qed.
Definition mid_state (x : range) (sb : bool) (sh : shown) (st : pstate) : Prop :=
  ps_book st = Some (vbook (rstart x)) /\ ps_chap st = (if sb then None else Some (vchap (rstart x))) /\ ps_vl st = has_verse sh.

Lemma start_text : forall pg force new st c x sb sc eb ec wb wc, wf_range d true x -> tests e fl x sb sc eb ec wb wc ->
  tracks st c -> sep_ok st new -> (c = NoBook <-> ps_first st = true) -> (pg = false -> new = false) -> (new = true -> c = leave_chap c) ->
  exists p st1 sh major dual1, (q <- pick_start e pg fl st x ;; force_start e force x q) = Ok (p, st1) /\ start_item e pg force new c x sh major dual1 /\ shown_of (single_chap d (vbook (rstart x))) p = Some sh /\ mid_state x sb sh st1 /\ ps_first st1 = ps_first st /\ ps_dual st1 = ps_dual st || dual1 /\ sep_ok st1 major /\ (has_verse sh = false -> sc = true) /\ (sb = true -> has_verse sh = true -> ec = false).
Proof.
  intros pg force new st c x sb sc eb ec wb wc Hx T (Fb & Fv) Hse Hfi Hpg Hnew. pose proof (rules1_hold e Hwf fl x _ _ _ _ _ _ Hx T) as Ru. pose proof Hx as (Zs & Ze & _).
  pose proof (p_sb _ _ _ _ _ _ _ _ _ T) as Psb. pose proof (p_sc _ _ _ _ _ _ _ _ _ T) as Psc. pose proof (p_ec _ _ _ _ _ _ _ _ _ T) as Pec.
  fold (opens_book e x) in Psb. fold (opens_chap e x) in Psc. fold (closes_chap e x) in Pec.
  assert (EF : forall q, force_start e force x q =
     Ok (if force && negb (p_verse (fst q)) && negb ec then (P (p_book (fst q)) (p_chap (fst q)) true,
            PS (ps_book (snd q)) (ps_chap (snd q)) true (ps_sep (snd q)) (ps_dual (snd q)) (ps_first (snd q))) else q)).
  { intros (p', s). unfold force_start. cbn [fst snd]. rewrite (t_ec _ _ _ _ _ _ _ _ _ T) by auto. destruct (force && negb (p_verse p')); cbn [notM bind andb]; [|reflexivity]. destruct ec; reflexivity. }
  (* the separator when the beginning of a group is written *)
  assert (S1 : forall b h v u, sep_ok (PS b h v (if pg then ps_sep st else [major_list_sep d]) u (ps_first st)) (new || negb pg)).
  { intros b h v u. unfold sep_ok in *. cbn [ps_first ps_sep]. destruct Hse as [E|E]; [now left|right]. rewrite E. destruct pg; cbn; [now rewrite orb_false_r|]. now rewrite orb_true_r. }
  (* forced verses: the state and the parts *)
  assert (FO : forall p sh, p_verse p = false -> shown_of (single_chap d (vbook (rstart x))) p = Some sh ->
     has_verse sh = false /\ exists sh', forced e force x sh sh' /\
       (if force && true && negb ec then shown_of (single_chap d (vbook (rstart x))) (P (p_book p) (p_chap p) true) = Some sh' /\ has_verse sh' = true /\ ec = false
      else sh' = sh)).
  { intros p sh Hp Hs. assert (A : has_verse sh = false /\ (shown_of (single_chap d (vbook (rstart x))) (P (p_book p) (p_chap p) true) = Some (with_verse sh) /\ has_verse (with_verse sh) = true)).
    { unfold shown_of in *. cbn [p_book p_chap p_verse] in *. rewrite Hp in Hs. destruct (p_book p), (p_chap p && _); try discriminate; injection Hs as <-; auto. }
    destruct A as (A1 & A2 & A3). split; auto. destruct (force && true && negb ec) eqn:Ef.
    - apply andb_true_iff in Ef. destruct Ef as (Ef & Ee). rewrite andb_true_r in Ef. apply negb_true_iff in Ee.
      exists (with_verse sh). split; auto. apply F_yes; auto. intros H. apply Pec in H. congruence.
    - exists sh. split; auto. apply F_no. rewrite andb_true_r in Ef. apply andb_false_iff in Ef. destruct Ef as [Ef|Ef]; auto. right. apply Pec. now destruct ec. }
  unfold pick_start. rewrite (t_sb _ _ _ _ _ _ _ _ _ T) by auto. cbn [bind]. destruct sb.
  { cbn [bind]. rewrite EF. cbn [fst snd].
    assert (Hs : shown_of (single_chap d (vbook (rstart x))) P_BOOK = Some ShBook) by (now destruct (single_chap _ _)).
    destruct (FO P_BOOK ShBook eq_refl Hs) as (_ & sh' & Ff & Hf). change (negb (p_verse P_BOOK)) with true.
    pose proof (q_sb_sc _ _ _ _ _ _ _ _ Ru eq_refl) as Esc.
    destruct (force && true && negb ec).
    - destruct Hf as (Hf1 & Hf2 & Hf3). do 2 eexists. exists sh', (new || negb pg), false. split; [reflexivity|]. split; [apply I_book; [now apply Psb|exact Ff]|]. split; [exact Hf1|].
      cbn [ps_book ps_chap ps_sep ps_dual ps_first]. split; [repeat split; cbn; auto|]. split; [reflexivity|]. split; [now rewrite orb_false_r|]. split; [apply S1|]. auto.
    - subst sh'. do 2 eexists. exists ShBook, (new || negb pg), false. split; [reflexivity|]. split; [apply I_book; [now apply Psb|exact Ff]|]. split; [exact Hs|].
      split; [repeat split; cbn; auto|]. split; [reflexivity|]. split; [now rewrite orb_false_r|]. split; [apply S1|]. split; [auto|discriminate]. }
  assert (Nb : ~ opens_book e x) by (intros H; apply Psb in H; discriminate).
  rewrite (t_sc _ _ _ _ _ _ _ _ _ T) by auto. cbn [bind].
  assert (Sm : obook_eqb (ps_book st) (vbook (rstart x)) = true /\ ctx_book c = Some (vbook (rstart x)) \/ obook_eqb (ps_book st) (vbook (rstart x)) = false /\ ctx_book c <> Some (vbook (rstart x))).
  { rewrite Fb. destruct (obook_eqb _ _) eqn:E; [left|right]; split; auto; [now apply obook_eqb_eq|]. intros H. apply obook_eqb_eq in H. congruence. }
  destruct sc.
  { assert (O : single_chap d (vbook (rstart x)) = false).
    { apply not_single. intros O. pose proof (q_sc_sb _ _ _ _ _ _ _ _ Ru O eq_refl). discriminate. }
    set (Q := if obook_eqb _ _ then _ else _).
    assert (HQ : (exists p sh major, Q = Ok (p, (false, (if pg then ps_sep st else [major_list_sep d]), ps_dual st)) /\ p_verse p = false /\ shown_of (single_chap d (vbook (rstart x))) p = Some sh /\ major = new || negb pg /\
       (forall sh', forced e force x sh sh' -> start_item e pg force new c x sh' major false)) \/
        (Q = Ok (P_CHAP_VERSE, (true, ps_sep st, true)) /\ pg = true /\ new = false /\ start_item e pg force new c x ShChapVerse false true)).
    { subst Q. destruct Sm as [(-> & Sm)|(-> & Sm)].
      2:{ left. do 3 eexists. split; [reflexivity|]. split; [reflexivity|]. split; [now rewrite O|]. split; [reflexivity|]. intros sh' F'. apply I_other_chap; auto. now apply Psc. }
      assert (Ch : (pg = false \/ new = true \/ one_sep e \/ (c = InBook (vbook (rstart x)) /\ closes_chap e x)) ->
         exists p sh major, Ok (P_CHAP, (false, (if pg then ps_sep st else [major_list_sep d]), ps_dual st)) = Ok (p, (false, (if pg then ps_sep st else [major_list_sep d]), ps_dual st)) /\ p_verse p = false /\ shown_of (single_chap d (vbook (rstart x))) p = Some sh /\ major = new || negb pg /\
       (forall sh', forced e force x sh sh' -> start_item e pg force new c x sh' major false)).
      { intros H. exists P_CHAP, ShChap, (new || negb pg). split; [reflexivity|]. split; [reflexivity|]. split; [now rewrite O|]. split; [reflexivity|]. intros sh' F'. apply I_chap; auto. now apply Psc. }
      destruct pg; cbn [negb].
      2:{ left. destruct (Ch (or_introl eq_refl)) as (p & sh & major & HH). exists p, sh, major. destruct (ps_vl st); exact HH. }
      assert (Sn : str_eqb (ps_sep st) [major_list_sep d] = true <-> new = true \/ one_sep e).
      { destruct Hse as [E|E]; [|rewrite E; apply major_eqb]. apply Hfi in E. subst c. cbn in Sm. discriminate. }
      destruct (str_eqb (ps_sep st) [major_list_sep d]).
      { left. destruct (Ch (or_intror (match proj1 Sn eq_refl with or_introl a => or_introl a | or_intror a => or_intror (or_introl a) end))) as (p & sh & major & HH). exists p, sh, major. destruct (ps_vl st); exact HH. }
      assert (Nn : new = false) by (destruct new; auto; discriminate (proj2 Sn (or_introl eq_refl))). subst new.
      assert (No : ~ one_sep e) by (intros H; discriminate (proj2 Sn (or_intror H))).
      assert (CV : ~ (c = InBook (vbook (rstart x)) /\ closes_chap e x) -> start_item e true force false c x ShChapVerse false true).
      { intros H. apply I_chap_verses; auto. now apply Psc. }
      rewrite (t_ec _ _ _ _ _ _ _ _ _ T) by auto.
      destruct c as [|b|b h]; [discriminate| |]; injection Sm as ->; cbn in Fv.
      - rewrite Fv. cbn [bind]. destruct ec.
        + left. destruct (Ch (or_intror (or_intror (or_intror (conj eq_refl (proj1 Pec eq_refl)))))) as (p & sh & major & HH). exists p, sh, major. exact HH.
        + right. split; [reflexivity|]. split; [reflexivity|]. split; [reflexivity|]. apply CV. intros (_ & H). apply Pec in H. discriminate.
      - destruct Fv as (-> & _). right. split; [reflexivity|]. split; [reflexivity|]. split; [reflexivity|]. apply CV. intros (H & _). discriminate. }
    destruct HQ as [(p & sh & major & EQ & Hp & Hs & Hm & Hi)|(EQ & Epg & Enew & Hi)]; rewrite EQ; clear Q EQ; cbn [bind]; rewrite EF; cbn [fst snd].
    - destruct (FO p sh Hp Hs) as (Hv & sh' & Ff & Hf). rewrite Hp. change (negb false) with true. subst major.
      destruct (force && true && negb ec).
      + destruct Hf as (Hf1 & Hf2 & Hf3). do 2 eexists. exists sh', (new || negb pg), false. split; [reflexivity|]. split; [auto|]. split; [exact Hf1|].
        cbn [ps_book ps_chap ps_sep ps_dual ps_first]. split; [repeat split; cbn; auto|]. split; [reflexivity|]. split; [now rewrite orb_false_r|]. split; [apply S1|]. auto.
      + subst sh'. do 2 eexists. exists sh, (new || negb pg), false. split; [reflexivity|]. split; [auto|]. split; [exact Hs|].
        split; [repeat split; cbn; auto|]. split; [reflexivity|]. split; [now rewrite orb_false_r|]. split; [apply S1|]. split; [auto|discriminate].
    - cbn [p_verse P_CHAP_VERSE negb]. rewrite andb_false_r. cbn [andb]. do 2 eexists. exists ShChapVerse, false, true. split; [reflexivity|]. split; [exact Hi|]. split; [now rewrite O|].
      split; [repeat split; cbn; auto|]. split; [reflexivity|]. split; [now rewrite orb_true_r|]. split; [subst new; exact Hse|]. split; discriminate. }
  assert (Nc : ~ opens_chap e x) by (intros H; apply Psc in H; discriminate).
  set (Q := if obook_eqb _ _ then _ else _).
  assert (HQ : exists p sep sh major, Q = Ok (p, sep) /\ p_verse p = true /\ shown_of (single_chap d (vbook (rstart x))) p = Some sh /\ has_verse sh = true /\
       start_item e pg force new c x sh major false /\ (forall b h v u, sep_ok (PS b h v sep u (ps_first st)) major)).
  { subst Q. destruct Sm as [(-> & Sm)|(-> & Sm)].
    2:{ exists P_FULL_REF. eexists. exists (full_ref d (vbook (rstart x))). eexists. split; [reflexivity|]. split; [reflexivity|]. split; [apply shown_full|]. split; [unfold full_ref; now destruct (single_chap _ _)|].
        split; [apply I_full; auto|]. intros. apply S1. }
    assert (CV : ~ (c = InChap (vbook (rstart x)) (vchap (rstart x)) /\ chap_at (rstart x) = chap_at (rend x)) -> exists p sep sh major,
       Ok (P_CHAP_VERSE, if pg then ps_sep st else [major_list_sep d]) = Ok (p, sep) /\ p_verse p = true /\ shown_of (single_chap d (vbook (rstart x))) p = Some sh /\ has_verse sh = true /\
       start_item e pg force new c x sh major false /\ (forall b h v u, sep_ok (PS b h v sep u (ps_first st)) major)).
    { intros H. exists P_CHAP_VERSE. eexists. exists (chap_verse d (vbook (rstart x))). eexists. split; [reflexivity|]. split; [reflexivity|]. split; [apply shown_cv|]. split; [unfold chap_verse; now destruct (single_chap _ _)|].
      split; [apply I_chap_verse; auto|]. intros. apply S1. }
    destruct (ps_vl st && oz_eqb (ps_chap st) (vchap (rstart x))) eqn:Ev.
    2:{ apply CV. intros (-> & _). destruct Fv as (F1 & F2). rewrite F1, F2 in Ev. cbn in Ev. rewrite Z.eqb_refl in Ev. discriminate. }
    apply andb_true_iff in Ev. destruct Ev as (Ev & Eh). apply oz_eqb_eq in Eh.
    destruct c as [|b|b h]; [discriminate|cbn in Fv; congruence|]. injection Sm as ->. destruct Fv as (_ & F2). assert (h = vchap (rstart x)) by congruence. subst h. clear F2.
    destruct (chap_pieces e Hwf x Hx) as (ps & Eps & _ & _ & Hps). unfold r_chap_count. rewrite Eps. cbn [bind count_pieces].
    rewrite Z.gtb_ltb. destruct (1 <? zlen ps) eqn:En.
    - apply CV. intros (_ & A). apply Z.ltb_lt, Hps in En. unfold multi_chap in En. congruence.
    - exists P_VERSE. eexists. exists ShVerse, false. split; [reflexivity|]. split; [reflexivity|]. split; [apply shown_v|]. split; [reflexivity|]. split.
      + apply I_verse; auto. apply Z.ltb_ge in En. destruct (unit_eq_dec (chap_at (rstart x)) (chap_at (rend x))) as [E|E]; auto. exfalso. assert (1 < zlen ps) by (apply Hps; unfold multi_chap; congruence). lia.
      + intros b' h' v u. destruct new; [discriminate (Hnew eq_refl)|]. destruct Hse as [E|E]; [left|right]; auto. }
  destruct HQ as (p & sep & sh & major & EQ & Hp & Hs & Hv & Hi & Hsp). rewrite EQ. clear Q EQ. cbn [bind]. rewrite EF. cbn [fst snd]. rewrite Hp. cbn [negb]. rewrite andb_false_r. cbn [andb].
  do 2 eexists. exists sh, major, false. split; [reflexivity|]. split; [exact Hi|]. split; [exact Hs|]. split; [repeat split; cbn; auto|]. split; [reflexivity|].
  split; [now rewrite orb_false_r|]. split; [apply Hsp|]. split; [congruence|discriminate].
Qed.

Lemma end_text : forall x sh st1 sb sc eb ec wb wc, wf_range d true x -> tests e fl x sb sc eb ec wb wc -> mid_state x sb sh st1 ->
  (has_verse sh = false -> sc = true) -> (sb = true -> has_verse sh = true -> ec = false) ->
  exists oq st2 osh, pick_end e fl st1 x = Ok (oq, st2) /\ end_shown e (ps_dual st1) (has_verse sh) x osh /\
    match oq, osh with
    | None, None => True
    | Some q, Some sh2 => shown_of (single_chap d (vbook (rend x))) q = Some sh2
    | _, _ => False
    end /\
    tracks st2 (left_by_ref x sh osh) /\ ps_sep st2 = ps_sep st1 /\ ps_first st2 = ps_first st1 /\ ps_dual st2 = ps_dual st1.
Proof.
  intros x sh st1 sb sc eb ec wb wc Hx T (Mb & Mc & Mv) Hvs Hsv. pose proof (rules1_hold e Hwf fl x _ _ _ _ _ _ Hx T) as Ru. pose proof Hx as (Zs & Ze & _).
  pose proof (unit_all _ _ _ _ _ _ _ T) as Pu.
  pose proof (p_eb _ _ _ _ _ _ _ _ _ T) as Peb. pose proof (p_ec _ _ _ _ _ _ _ _ _ T) as Pec.
  fold (closes_book e x) in Peb. fold (closes_chap e x) in Pec.
  unfold pick_end. rewrite (t_wb _ _ _ _ _ _ _ _ _ T), (t_wc _ _ _ _ _ _ _ _ _ T) by auto.
  assert (ES : (if ps_dual st1 then Ok false else orM (Ok wb) (orM (Ok wc) (Ok (is_single_verse x)))) = Ok (negb (ps_dual st1) && (wb || (wc || is_single_verse x)))).
  { destruct (ps_dual st1), wb, wc; reflexivity. }
  rewrite ES. clear ES. cbn [bind]. destruct (negb (ps_dual st1) && (wb || (wc || is_single_verse x))) eqn:Es.
  { apply andb_true_iff in Es. destruct Es as (Ed & Es). apply negb_true_iff in Ed.
    exists None, st1, None. split; [reflexivity|]. split; [apply En_none; tauto|]. split; [exact I|]. split; [|auto].
    cbn [left_by_ref]. unfold left_by, tracks. rewrite Mb, Mv, Mc. destruct (has_verse sh) eqn:V; cbn; auto. split; auto. split; auto.
    destruct sb; auto. exfalso. assert (N := Hsv eq_refl eq_refl). assert (Eb : eb = true); [|apply (q_eb_ec _ _ _ _ _ _ _ _ Ru) in Eb; congruence].
    apply (q_sb_eb _ _ _ _ _ _ _ _ Ru); auto. destruct wb; [now apply (q_wb _ _ _ _ _ _ _ _ Ru)|]. destruct wc; [now apply (q_wc _ _ _ _ _ _ _ _ Ru)|].
    cbn in Es. unfold is_single_verse in Es. apply verse_eqb_eq in Es. now rewrite Es. }
  assert (Du : ps_dual st1 = true \/ ~ lone_unit e x).
  { apply andb_false_iff in Es. destruct Es as [Es|Es]; [left; now apply negb_false_iff|right]. intros H. apply Pu in H. congruence. }
  assert (One : forall v, single_chap d (vbook v) = false -> shown_of (single_chap d (vbook v)) P_CHAP = Some ShChap /\ shown_of (single_chap d (vbook v)) P_BOOK_CHAP = Some ShBookChap /\ shown_of (single_chap d (vbook v)) P_CHAP_VERSE = Some ShChapVerse).
  { intros v ->. auto. }
  rewrite (t_eb _ _ _ _ _ _ _ _ _ T) by auto. cbn [bind]. rewrite Mb, Mv. destruct eb.
  { do 2 eexists. exists (Some ShBook). split; [reflexivity|]. split; [apply En_book; tauto|]. split; [now destruct (single_chap _ _)|]. repeat split. }
  assert (Nb : ~ closes_book e x) by (intros H; apply Peb in H; discriminate).
  set (vl := has_verse sh && book_eqb (vbook (rend x)) (vbook (rstart x))).
  assert (EE : (if vl then Ok false else spans_end_chap e x fl) = Ok (negb vl && ec)) by (rewrite (t_ec _ _ _ _ _ _ _ _ _ T) by auto; destruct vl; reflexivity).
  rewrite EE. clear EE. cbn [bind obook_eqb].
  assert (O : ec = true -> single_chap d (vbook (rend x)) = false).
  { intros ->. apply not_single. intros O. pose proof (q_ec_eb _ _ _ _ _ _ _ _ Ru O eq_refl). discriminate. }
  unfold vl. clear vl. destruct (book_eqb_spec (vbook (rstart x)) (vbook (rend x))) as [(Eq & E)|(Eq & E)].
  - assert (Sb : sb = false) by (destruct sb; auto; destruct (q_sb_eb _ _ _ _ _ _ _ _ Ru E eq_refl); discriminate). subst sb.
    rewrite Eq, Mc. cbn [oz_eqb]. replace (book_eqb (vbook (rend x)) (vbook (rstart x))) with true by (symmetry; apply book_eqb_eq; auto). rewrite andb_true_r.
    destruct (negb (has_verse sh) && ec) eqn:Ev.
    + apply andb_true_iff in Ev. destruct Ev as (Ev & ->). apply negb_true_iff in Ev. do 2 eexists. exists (Some ShChap). split; [reflexivity|]. split; [apply En_chap; auto; tauto|].
      split; [now apply One, O|]. repeat split.
    + assert (Cv : closes_chap e x -> has_verse sh = true).
      { intros H. apply Pec in H. subst ec. rewrite andb_true_r in Ev. now apply negb_false_iff. }
      destruct (Z.eqb_spec (vchap (rstart x)) (vchap (rend x))) as [C|C].
      * do 2 eexists. exists (Some ShVerse). split; [reflexivity|]. split; [apply En_verse; auto|]. split; [apply shown_v|]. repeat split.
      * do 2 eexists. exists (Some ShChapVerse). split; [reflexivity|]. split; [apply En_chap_verse; auto|]. split; [apply One; rewrite <- E; now apply one_rule|]. repeat split.
  - rewrite Eq. assert (B : book_eqb (vbook (rend x)) (vbook (rstart x)) = false).
    { destruct (book_eqb_spec (vbook (rend x)) (vbook (rstart x))) as [(_ & F)|(-> & _)]; auto. congruence. }
    rewrite B, andb_false_r. cbn [negb andb]. destruct ec.
    + do 2 eexists. exists (Some ShBookChap). split; [reflexivity|]. split; [apply En_other_chap; auto; tauto|]. split; [now apply One, O|]. repeat split.
    + do 2 eexists. exists (Some (full_ref d (vbook (rend x)))). split; [reflexivity|]. split; [apply En_full; auto; intros H; apply Pec in H; discriminate|].
      split; [apply shown_full|]. unfold full_ref. destruct (single_chap _ _); repeat split.
Qed.

Lemma spaced_leading : forall c b, tight ns (compact ns b) -> spaced ns ([c] ++ [space] ++ b) = leading ns c ++ compact ns b.
Proof.
  intros c b T. destruct (is_space c) eqn:C.
  - unfold leading, compact in *. destruct ns; cbn [spaced].
    + now rewrite !remove_app.
    + rewrite C. destruct T as (A & B & _). cbn [app]. unfold strip. cbn [lstrip]. rewrite C. change (is_space space) with true. cbv iota.
      change (strip b = b). now apply strip_ends.
  - assert (Tc : tight ns (compact ns [c])) by (rewrite (compact_tight lk); now apply tight_char). rewrite (spaced_parts lk _ _ Tc T), app_assoc.
    f_equal. unfold leading, blank, compact. destruct ns; [now rewrite app_nil_r|]. now rewrite C.
Qed.
Lemma item_text : forall pg force new st c x, wf_range d true x ->
  tracks st c -> sep_ok st new -> (c = NoBook <-> ps_first st = true) -> (pg = false -> new = false) -> (new = true -> c = leave_chap c) ->
  exists out st' sh major dual1 osh body, show_item e lk force pg fl st x = Ok (out, st') /\
    start_item e pg force new c x sh major dual1 /\ end_shown e (ps_dual st || dual1) (has_verse sh) x osh /\ ref_written e lk x sh osh body /\
    out = (if ps_first st then [] else leading ns (sep_char major)) ++ body /\
    tracks st' (left_by_ref x sh osh) /\ ps_sep st' = [sep_char false] /\ ps_first st' = false /\ ps_dual st' = ps_dual st || dual1.
Proof.
  intros pg force new st c x Hx Ht Hs Hf Hp Hn. pose proof Hx as (Zs & Ze & _).
  destruct (tests_at e Hwf fl Hfl x Hx) as (sb & sc & eb & ec & wb & wc & T).
  destruct (start_text pg force new st c x _ _ _ _ _ _ Hx T Ht Hs Hf Hp Hn) as (p & st1 & sh & major & dual1 & E1 & I1 & S1 & M1 & F1 & D1 & P1 & V1 & V2).
  destruct (end_text x sh st1 _ _ _ _ _ _ Hx T M1 V1 V2) as (oq & st2 & osh & E2 & I2 & S2 & T2 & P2 & F2 & D2).
  destruct (verse_written e Hwf Htidy lk _ _ _ _ Zs S1) as (W1 & T1). rewrite D1 in I2.
  set (raw := verse_str e lk (rstart x) p ++ match oq with None => [] | Some q => [range_sep d] ++ verse_str e lk (rend x) q end).
  assert (HB : ref_written e lk x sh osh (compact ns raw) /\ tight ns (compact ns raw)).
  { unfold raw. destruct oq as [q|], osh as [sh2|]; try contradiction.
    - destruct (verse_written e Hwf Htidy lk _ _ _ _ Ze S2) as (W2 & T3). destruct (tight_sep lk _ (range_sep d) _ T1 T3) as (E & Tt). split; auto.
      cbn. do 2 eexists. split; [exact W1|]. split; [exact W2|]. exact E.
    - rewrite app_nil_r, (compact_tight lk _ T1). split; auto. }
  destruct HB as (HB & TB).
  exists ((if ps_first st then [] else leading ns (sep_char major)) ++ compact ns raw). eexists. exists sh, major, dual1, osh, (compact ns raw).
  split; [|split; [exact I1|split; [exact I2|split; [exact HB|split; [reflexivity|]]]]].
  - unfold show_item. destruct (pick_start e pg fl st x) as [[p0 st0]|] eqn:EP; [|discriminate]. cbn [bind].
    change ((_ <- Ok (p0, st0) ;; _) = Ok (p, st1)) with (force_start e force x (p0, st0) = Ok (p, st1)) in E1. rewrite E1. cbn [bind]. rewrite E2. cbn [bind].
    match goal with |- Ok (spaced _ (?a ++ [space] ++ ?b ++ ?c), ?st3) = _ => change (b ++ c) with raw; set (st3' := st3) end.
    f_equal. f_equal. rewrite F2, F1, P2. destruct (ps_first st) eqn:Fi.
    + exact (spaced_last lk _ TB).
    + destruct P1 as [P1|P1]; [congruence|]. rewrite P1. now apply spaced_leading.
  - split; [|split; [reflexivity|split; [reflexivity|exact (eq_trans D2 D1)]]]. exact T2.
Qed.

Lemma group_text : forall pg force l st c first m, Forall (wf_range d true) l -> tracks st (if pg && m then leave_chap c else c) -> ps_first st = first -> (c = NoBook <-> first = true) ->
  sep_ok st (pg && m) ->
  exists out st' c', show_group e lk force pg fl st l = Ok (out, st') /\
    (l = [] -> out = [] /\ st' = st) /\
    (l <> [] -> tracks st' c' /\ ps_first st' = false /\ c' <> NoBook /\ ps_sep st' = [sep_char false] /\
      forall rest out2, items_written e lk pg force false (ps_dual st') c' rest out2 ->
        items_written e lk pg force first (ps_dual st) c
          ((match l with [] => [] | x :: l' => (m, x) :: map (pair false) l' end) ++ rest) (out ++ out2)).
Proof.
  intros pg force l. induction l as [|x l IH]; intros st c first m Hl Ht Hfi Hc Hs.
  - exists [], st, NoBook. split; [reflexivity|]. split; [auto|]. intros H. now destruct H.
  - inversion Hl as [|? ? Hx Hl']; subst. set (new := pg && m) in *. set (c0 := if new then leave_chap c else c) in *.
    assert (Hc0 : c0 = NoBook <-> ps_first st = true).
    { rewrite <- Hc. unfold c0. destruct new; [|reflexivity]. destruct c; cbn; split; intros; congruence. }
    destruct (item_text pg force new st c0 x Hx Ht Hs Hc0) as (o & st1 & sh & major & dual1 & osh & body & E1 & I1 & I2 & R1 & Eo & T1 & P1 & F1 & D1).
    { unfold new. now intros ->. } { unfold c0. intros ->. now destruct c. }
    assert (Nb : left_by_ref x sh osh <> NoBook) by (unfold left_by_ref, left_by; destruct osh as [s2|]; [destruct (has_verse s2)|destruct (has_verse sh)]; discriminate).
    assert (K : forall rest out2, items_written e lk pg force false (ps_dual st1) (left_by_ref x sh osh) rest out2 ->
       items_written e lk pg force (ps_first st) (ps_dual st) c ((m, x) :: rest) (o ++ out2)).
    { intros rest out2 H. rewrite Eo, <- app_assoc. eapply W_cons; [reflexivity|reflexivity|exact I1|exact I2|exact R1|]. rewrite <- D1. exact H. }
    destruct (IH st1 (left_by_ref x sh osh) false false Hl') as (out & st' & c' & E2 & G1 & G2); auto.
    { now rewrite andb_false_r. } { split; [intros H; now apply Nb in H|discriminate]. } { right. now rewrite andb_false_r. }
    cbn [show_group]. rewrite E1. cbn [bind fst snd]. rewrite E2. cbn [bind fst snd].
    destruct l as [|y l].
    + destruct (G1 eq_refl) as (-> & ->). exists (o ++ []), st1, (left_by_ref x sh osh). split; [reflexivity|]. split; [discriminate|]. intros _.
      do 4 (split; [assumption|]). intros rest out2 H. rewrite app_nil_r. cbn [map app]. now apply K.
    + destruct (G2 ltac:(discriminate)) as (A1 & A2 & A3 & A4 & A5). exists (o ++ out), st', c'. split; [reflexivity|]. split; [discriminate|]. intros _.
      do 4 (split; [assumption|]). intros rest out2 H. rewrite <- app_assoc. cbn [map app]. apply K. exact (A5 _ _ H).
Qed.

Lemma tracks_leave : forall st c b, tracks st c -> tracks (PS (ps_book st) (ps_chap st) false b (ps_dual st) (ps_first st)) (leave_chap c).
Proof. intros st c b (A & B). split; [cbn; now rewrite leave_book|]. destruct c; cbn in *; auto. Qed.
Lemma groups_text : forall (pg force : bool) g st c first, Forall (Forall (wf_range d true)) g ->
  tracks st (if pg then leave_chap c else c) -> ps_first st = first -> (c = NoBook <-> first = true) -> sep_ok st pg ->
  exists out, show_groups e lk force pg fl st g = Ok out /\ items_written e lk pg force first (ps_dual st) c (marked g) out.
Proof.
  intros pg force g. induction g as [|l g IH]; intros st c first Hg Ht Hfi Hc Hs.
  - exists []. split; [reflexivity|constructor].
  - inversion Hg as [|? ? Hl Hg']; subst. cbn [show_groups].
    destruct (group_text pg force l st c (ps_first st) true Hl) as (out & st' & c' & E1 & G1 & G2); auto; try (now rewrite andb_true_r).
    rewrite E1. cbn [bind fst snd]. unfold marked. cbn [map concat]. fold (marked g).
    destruct l as [|x l].
    + destruct (G1 eq_refl) as (-> & ->). destruct (IH (end_group e pg st) c (ps_first st) Hg') as (o2 & E2 & W2); auto.
      * unfold end_group. destruct pg; auto. apply (tracks_leave _ _ [major_list_sep d]) in Ht. now destruct c.
      * now destruct pg.
      * unfold end_group. destruct pg; auto. unfold sep_ok in *. cbn. auto.
      * rewrite E2. cbn [bind app]. exists o2. split; auto. replace (ps_dual st) with (ps_dual (end_group e pg st)) by (now destruct pg). exact W2.
    + destruct (G2 ltac:(discriminate)) as (A1 & A2 & A3 & A4 & A5). destruct (IH (end_group e pg st') c' false Hg') as (o2 & E2 & W2).
      * unfold end_group. destruct pg; auto. now apply tracks_leave.
      * now destruct pg.
      * split; [intros H; now apply A3 in H|discriminate].
      * unfold end_group. destruct pg; right; auto.
      * rewrite E2. cbn [bind]. exists (out ++ o2). split; auto. apply A5. replace (ps_dual st') with (ps_dual (end_group e pg st')) by (now destruct pg). exact W2.
Qed.
Lemma list_text_ok : forall pg force g, Forall (Forall (wf_range d true)) g ->
  exists s, list_str e lk pg force g fl = Ok s /\ list_written e lk pg force g s.
Proof.
  intros pg force g Hg. apply (groups_text pg force g ps_init NoBook true Hg).
  - destruct pg; split; reflexivity.
  - reflexivity.
  - tauto.
  - now left.
Qed.
Lemma marked_all : forall (Q : range -> Prop) g, Forall (Forall Q) g -> Forall (fun p => Q (snd p)) (marked g).
Proof.
  intros Q g H. unfold marked. induction H as [|l g Hl _ IH]; cbn [map concat]; [constructor|]. apply Forall_app. split; auto.
  destruct Hl as [|x l Hx Hl]; constructor; auto. apply Forall_map. eapply Forall_impl; [|exact Hl]. auto.
Qed.
Lemma list_text_iff : forall pg force g s, Forall (Forall (wf_range d true)) g ->
  (list_str e lk pg force g fl = Ok s <-> list_written e lk pg force g s).
Proof.
  intros pg force g s Hg. destruct (list_text_ok pg force g Hg) as (t & E & W). split; intros H.
  - rewrite E in H. injection H as <-. exact W.
  - rewrite E. f_equal. eapply (items_written_fun e Hwf); [|exact W|exact H].
    apply (marked_all (wf_range d true)). eapply Forall_impl; [|exact Hg]. intros l. apply Forall_impl. intros x. apply (wf_true e).
Qed.
Lemma range_text_iff : forall force x s, wf_range d true x -> (range_str e lk force x fl = Ok s <-> range_written e lk force x s).
Proof.
  intros force x s Hx. destruct (range_text_ok force x Hx) as (t & E & W). split; intros H.
  - rewrite E in H. injection H as <-. exact W.
  - rewrite E. f_equal. eapply range_written_fun; eauto.
Qed.
End Print.
