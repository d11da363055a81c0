(** * PText: texts of verses and their tokens. *)
From Coq Require Import List ZArith NArith Bool Ascii Lia.
From Verif Require Import Base Books Chars Regex Data MVerse MRange MSeq MList MStr MParse Spec SpecList SpecName SpecParse SpecMean
  PList PCore PNav PVerse PRange PSetOps PRuns PSplit PCount PUnit PUnit2 PRegroup PLex PPrint.
Import ListNotations.
Import Spec.
Open Scope Z_scope.

(** ** Numbers *)
Lemma digit_char_ok : forall n, (n < 10)%N -> is_digit (digit_char n) = true /\ digit_val (digit_char n) = n.
Proof.
  intros n H. assert (A : In n (map N.of_nat (List.seq 0 10))).
  { apply in_map_iff. exists (N.to_nat n). split; [apply N2Nat.id|]. apply in_seq. lia. }
  cbn in A. repeat (destruct A as [<-|A]; [split; reflexivity|]). destruct A.
Qed.
Lemma undec_snoc : forall s c, undec (s ++ [c]) = (10 * undec s + digit_val c)%N.
Proof. intros s c. unfold undec. now rewrite fold_left_app. Qed.
Lemma dec_fuel_ok : forall f n, (n < 2 ^ N.of_nat f)%N ->
  dec_fuel f n <> [] /\ Forall (fun c => is_digit c = true) (dec_fuel f n) /\ undec (dec_fuel f n) = n.
Proof.
  induction f as [|f IH]; intros n H.
  - cbn in H. assert (n = 0%N) by lia. subst n. cbn. repeat split; try discriminate. constructor; auto.
  - cbn [dec_fuel]. destruct (N.ltb_spec n 10) as [L|L].
    + destruct (digit_char_ok n L) as (A & B). repeat split; [discriminate|auto|]. unfold undec. cbn [fold_left]. rewrite B. lia.
    + assert (L2 : (n / 10 < 2 ^ N.of_nat f)%N).
      { rewrite Nat2N.inj_succ, N.pow_succ_r' in H. apply N.div_lt_upper_bound; lia. }
      destruct (IH _ L2) as (A & B & C). pose proof (N.mod_lt n 10) as M. destruct (digit_char_ok (n mod 10)) as (D1 & D2); [lia|].
      split; [now destruct (dec_fuel f (n / 10))|]. split.
      * apply Forall_app. split; auto.
      * rewrite undec_snoc, C, D2. pose proof (N.div_mod n 10). lia.
Qed.
Lemma dec_ok : forall n, dec n <> [] /\ Forall (fun c => is_digit c = true) (dec n) /\ undec (dec n) = n.
Proof.
  intros n. apply dec_fuel_ok. destruct n as [|p]; [cbn; lia|]. unfold N.size_nat.
  induction p as [p IH|p IH|]; cbn [Pos.size_nat]; rewrite ?Nat2N.inj_succ, ?N.pow_succ_r'; try lia.
Qed.
Lemma int_str_ok : forall z, 0 <= z -> int_str z <> [] /\ Forall (fun c => is_digit c = true) (int_str z) /\ Z.of_N (undec (int_str z)) = z.
Proof.
  intros z H. unfold int_str. destruct (Z.ltb_spec z 0); [lia|]. destruct (dec_ok (Z.to_N z)) as (A & B & C). rewrite C. repeat split; auto. lia.
Qed.

(** ** White space *)
Definition tight (ns : bool) (s : str) : Prop :=
  (exists c t, s = c :: t /\ is_space c = false) /\ (exists t c, s = t ++ [c] /\ is_space c = false) /\ (ns = true -> ~ In space s).
Lemma strip_ends : forall s, (exists c t, s = c :: t /\ is_space c = false) -> (exists t c, s = t ++ [c] /\ is_space c = false) -> strip s = s.
Proof.
  intros s (c & t & E & H) (t' & c' & E' & H'). unfold strip, rstrip. assert (L : lstrip s = s) by (rewrite E; cbn; now rewrite H).
  rewrite L, E', rev_app_distr. cbn. rewrite H'. cbn. now rewrite rev_involutive.
Qed.
Lemma remove_none : forall s, ~ In space s -> remove_spaces s = s.
Proof.
  induction s as [|c s IH]; intros H; auto. unfold remove_spaces. cbn [filter]. fold (remove_spaces s).
  destruct (Ascii.eqb_spec c space) as [->|_]; [exfalso; apply H; now left|].
  cbn [negb]. rewrite IH; auto. intros A. apply H. now right.
Qed.
Lemma remove_app : forall a b, remove_spaces (a ++ b) = remove_spaces a ++ remove_spaces b.
Proof. intros. apply filter_app. Qed.
Lemma spaced_tight : forall ns s, tight ns s -> spaced ns s = s.
Proof. intros [|] s (A & B & C); cbn [spaced]; [apply remove_none; auto|apply strip_ends; auto]. Qed.
Lemma spaced_lead : forall ns s, tight ns s -> spaced ns (space :: s) = s.
Proof.
  intros [|] s (A & B & C); cbn [spaced].
  - change (remove_spaces (space :: s)) with (remove_spaces s). apply remove_none; auto.
  - change (strip (space :: s)) with (strip s). now apply strip_ends.
Qed.
Lemma spaced_trail : forall ns s, tight ns s -> spaced ns (s ++ [space]) = s.
Proof.
  intros [|] s T; pose proof T as (A & B & C); cbn [spaced]; [rewrite remove_app, remove_none by auto; cbn; now rewrite app_nil_r|].
  destruct A as (c & t & E & H). destruct B as (t' & c' & E' & H'). unfold strip, rstrip.
  assert (L : lstrip (s ++ [space]) = s ++ [space]) by (rewrite E; cbn; now rewrite H).
  rewrite L, rev_app_distr. cbn. rewrite E', rev_app_distr. cbn. rewrite H'. cbn. now rewrite rev_involutive.
Qed.
Definition gap (ns : bool) : str := if ns then [] else [space].
Lemma gap_no : forall ns, ns = true -> ~ In space (gap ns).
Proof. intros ns ->. auto. Qed.
Lemma tight_mid : forall ns a w b, tight ns a -> (ns = true -> ~ In space w) -> tight ns b -> tight ns (a ++ w ++ b).
Proof.
  intros ns a w b (A & _ & C) W (_ & B & D). split; [|split].
  - destruct A as (c & t & -> & H). exists c. eexists. split; [reflexivity|auto].
  - destruct B as (t & c & -> & H). exists (a ++ w ++ t), c. split; auto. now rewrite <- !app_assoc.
  - intros H X. apply in_app_or in X. destruct X as [X|X]; [now apply (C H)|]. apply in_app_or in X. destruct X as [X|X]; [now apply (W H)|now apply (D H)].
Qed.
Lemma tight_app : forall ns a b, tight ns a -> tight ns b -> tight ns (a ++ b).
Proof. intros ns a b A B. apply (tight_mid ns a [] b A); auto. Qed.
Lemma spaced_gap : forall ns a b, tight ns a -> tight ns b -> spaced ns (a ++ [space] ++ b) = a ++ gap ns ++ b.
Proof.
  intros [|] a b A B.
  - cbn [spaced gap]. rewrite !remove_app. destruct A as (_ & _ & A), B as (_ & _ & B). rewrite (remove_none a), (remove_none b) by auto. reflexivity.
  - apply (spaced_tight false). apply tight_mid; auto. discriminate.
Qed.
Lemma digit_no_space : forall c, is_digit c = true -> is_space c = false.
Proof. intros c H. apply word_not_space, digit_word, H. Qed.
Lemma tight_all : forall ns s, s <> [] -> Forall (fun c => is_space c = false) s -> tight ns s.
Proof.
  intros ns s N F. split; [|split].
  - destruct s as [|c t]; [contradiction|]. exists c, t. split; auto. now inversion F.
  - destruct s as [|c t] using rev_ind; [contradiction|]. exists t, c. split; auto. apply Forall_app in F. destruct F as (_ & F). now inversion F.
  - intros _ X. rewrite Forall_forall in F. apply F in X. discriminate.
Qed.
Lemma tight_digits : forall ns z, 0 <= z -> tight ns (int_str z).
Proof.
  intros ns z H. destruct (int_str_ok z H) as (A & B & _). apply tight_all; auto. eapply Forall_impl; [|exact B]. apply digit_no_space.
Qed.
Lemma tight_char : forall ns c, is_space c = false -> tight ns [c].
Proof. intros ns c H. apply tight_all; [discriminate|auto]. Qed.

(** ** Tokens without positions *)
Definition erase (t : token) : term * str := (tk t, ttext t).
Inductive sp (d : bibledata) : str -> list (term * str) -> Prop :=
| SpE_end : sp d [] []
| SpE_gap w s l : white w -> sp d s l -> sp d (w ++ s) l
| SpE_tok k x s l : in_term d k x -> sp d s l -> sp d (x ++ s) ((k, x) :: l).
Lemma sp_app : forall d s l t m, sp d s l -> sp d t m -> sp d (s ++ t) (l ++ m).
Proof.
  intros d s l t m H H'. induction H; cbn [app]; auto; rewrite <- app_assoc; [apply SpE_gap|apply SpE_tok]; auto.
Qed.
Lemma sp_tok : forall d k x, in_term d k x -> sp d x [(k, x)].
Proof. intros d k x H. rewrite <- (app_nil_r x) at 1. apply SpE_tok; auto. constructor. Qed.
Lemma white_gap : forall ns, white (gap ns).
Proof. intros [|]; unfold gap, white; auto. Qed.
Lemma sp_spells : forall d s l, sp d s l -> forall i, exists ts, spells d i s ts /\ map erase ts = l.
Proof.
  intros d s l H. induction H as [|w s l W H IH|k x s l X H IH]; intros i.
  - exists []. split; auto. apply Sp_end. constructor.
  - destruct (IH (i + zlen w)) as (ts & A & B). exists ts. split; auto. now apply spells_white.
  - destruct (IH (i + zlen x)) as (ts & A & B). exists (Tok k x i :: ts). split; [now apply spells_head|]. cbn. now rewrite B.
Qed.
Lemma erase_app : forall ts l m, map erase ts = l ++ m -> exists ts1 ts2, ts = ts1 ++ ts2 /\ map erase ts1 = l /\ map erase ts2 = m.
Proof. intros ts l m H. apply map_eq_app in H. destruct H as (a & b & -> & A & B). eauto. Qed.
Lemma erase_cons : forall ts k x m, map erase ts = (k, x) :: m -> exists i ts', ts = Tok k x i :: ts' /\ map erase ts' = m.
Proof. intros [|[k' x' i] ts] k x m H; [discriminate|]. cbn in H. injection H as -> -> H. eauto. Qed.
Lemma erase_nil : forall ts, map erase ts = [] -> ts = [].
Proof. now intros [|]. Qed.

(** ** Verses *)
Section Text.
Variable e : env.
Notation d := (ed e).
Hypothesis Hwf : wf_data d.
Hypothesis Hsep : good_seps d.
Variable lk : look.
Notation ns := (lk_nospace lk).

(** The name that is printed can be read, and it is a name of the book. *)
Definition shown_name (b : book) : str := if ns then remove_spaces (book_name d (lk_abbrev lk) b) else book_name d (lk_abbrev lk) b.
Definition readable (b : book) : Prop := in_term d TName (shown_name b) /\ from_str d (shown_name b) = Some b.

Lemma name_tight : forall x, in_term d TName x -> tight false x.
Proof.
  intros x (c & m & z & -> & A & _ & _ & C & _). split; [|split; [|discriminate]].
  - exists c, (m ++ [z]). split; auto. now apply word_not_space.
  - exists (c :: m), z. auto.
Qed.
Lemma remove_no_space : forall s, ~ In space (remove_spaces s).
Proof. intros s H. apply filter_In in H. destruct H as (_ & H). now rewrite Ascii.eqb_refl in H. Qed.
Lemma shown_tight : forall b, in_term d TName (shown_name b) -> tight ns (shown_name b).
Proof.
  intros b H. destruct (name_tight _ H) as (A & B & _). split; [|split]; auto. intros E. unfold shown_name. rewrite E. apply remove_no_space.
Qed.
Definition vsep : ascii := if lk_alt lk then verse_sep_alt d else verse_sep_std d.
Lemma vsep_term : in_term d TVerse [vsep].
Proof. unfold vsep. cbn. destruct (lk_alt lk); auto. Qed.
Lemma vsep_space : is_space vsep = false.
Proof. apply (gs_punct _ Hsep). unfold vsep, is_sep. destruct (lk_alt lk); auto. Qed.

Lemma book_nums : forall name nums, tight ns (if ns then remove_spaces name else name) -> tight ns nums ->
  spaced ns (name ++ [space] ++ nums) = (if ns then remove_spaces name else name) ++ gap ns ++ nums.
Proof.
  intros name nums A B. destruct ns.
  - cbn [spaced gap]. rewrite !remove_app. cbn [app]. rewrite (remove_none nums) by (now apply B). reflexivity.
  - now apply spaced_gap.
Qed.
Lemma book_only : forall name, tight ns (if ns then remove_spaces name else name) ->
  spaced ns (name ++ [space]) = (if ns then remove_spaces name else name).
Proof.
  intros name A. destruct ns.
  - cbn [spaced]. rewrite remove_app. cbn. now rewrite app_nil_r.
  - now apply spaced_trail.
Qed.

Lemma num_tok : forall z, 0 <= z -> in_term d TNum (int_str z).
Proof. intros z H. destruct (int_str_ok z H) as (A & B & _). split; auto. Qed.
Lemma num_val : forall z i, 0 <= z -> tok_num (Tok TNum (int_str z) i) = z.
Proof. intros z i H. unfold tok_num. cbn. now apply int_str_ok. Qed.

Lemma says_full : forall x b c v i j s k, from_str d x = Some b -> 0 <= c -> 0 <= v ->
  says d (SFull (Tok TName x i) (Tok TNum (int_str c) j) s (Tok TNum (int_str v) k)) (KFull b c v).
Proof.
  intros x b c v i j s k H C V. assert (A := Says_full d (Tok TName x i) (Tok TNum (int_str c) j) s (Tok TNum (int_str v) k) b H).
  now rewrite !num_val in A by auto.
Qed.
Lemma says_book_num : forall x b c i j, from_str d x = Some b -> 0 <= c ->
  says d (SBookNum (Tok TName x i) (Tok TNum (int_str c) j)) (KBookNum b c).
Proof.
  intros x b c i j H C. assert (A := Says_book_num d (Tok TName x i) (Tok TNum (int_str c) j) b H). now rewrite !num_val in A by auto.
Qed.
Lemma says_chap_verse : forall c v i s k, 0 <= c -> 0 <= v ->
  says d (SChapVerse (Tok TNum (int_str c) i) s (Tok TNum (int_str v) k)) (KChapVerse c v).
Proof.
  intros c v i s k C V. assert (A := Says_chap_verse d (Tok TNum (int_str c) i) s (Tok TNum (int_str v) k)). now rewrite !num_val in A by auto.
Qed.
Lemma says_num : forall c i, 0 <= c -> says d (SNum (Tok TNum (int_str c) i)) (KNum c).
Proof. intros c i C. assert (A := Says_num d (Tok TNum (int_str c) i)). now rewrite !num_val in A by auto. Qed.

Lemma verse_text_sp : forall z v p, InB d z v -> vis e v p -> (p_book p = true -> readable (vbook v)) ->
  exists l, sp d (verse_str e lk v p) l /\ tight ns (verse_str e lk v p) /\
    forall ts, map erase ts = l -> exists a, g_single ts a /\ says d a (cnt e v p).
Proof.
  intros z v p Hv Hvis Hname. pose proof (InB_book e _ _ Hv) as Hb. pose proof (InB_legal e _ _ Hv) as (Hc & Hn).
  assert (C0 : 0 <= vchap v) by lia.
  assert (V0 : 0 <= vverse v) by (revert Hn; unfold first_num; destruct (_ && _); lia).
  pose proof (num_tok _ C0) as TC. pose proof (num_tok _ V0) as TV. pose proof (tight_digits ns _ C0) as GC. pose proof (tight_digits ns _ V0) as GV.
  assert (GCV : tight ns (int_str (vchap v) ++ [vsep] ++ int_str (vverse v))).
  { apply tight_app; auto. apply tight_app; auto. apply tight_char, vsep_space. }
  assert (SCV : sp d (int_str (vchap v) ++ [vsep] ++ int_str (vverse v)) [(TNum, int_str (vchap v)); (TVerse, [vsep]); (TNum, int_str (vverse v))]).
  { apply SpE_tok; auto. apply SpE_tok; [apply vsep_term|]. now apply sp_tok. }
  unfold verse_str. rewrite (chap_count_one e Hwf _ Hb). unfold vis in Hvis. unfold cnt.
  assert (EP : (if is_one e (vbook v) then P (p_book p) false (p_verse p) else p) = P (p_book p) (p_chap p && negb (is_one e (vbook v))) (p_verse p)).
  { destruct p as [pb pc pv]. cbn. destruct (is_one e (vbook v)); cbn; [now rewrite andb_false_r|now rewrite andb_true_r]. }
  rewrite EP. cbn [p_book p_chap p_verse]. destruct (p_book p).
  - destruct (Hname eq_refl) as (Hname1 & Hname2). pose proof (shown_tight _ Hname1) as GN. unfold shown_name in *.
    destruct (p_chap p && negb (is_one e (vbook v))), (p_verse p); cbn [andb].
    + fold vsep. rewrite book_nums by auto. eexists. split.
      { apply SpE_tok; [exact Hname1|]. apply SpE_gap; [apply white_gap|]. exact SCV. }
      split; [apply tight_mid; auto; apply gap_no|]. intros ts H.
      repeat (apply erase_cons in H; let i := fresh in let ts' := fresh in destruct H as (i & ts' & -> & H)). apply erase_nil in H. subst. eexists. split; [now constructor|]. now (apply says_full || apply says_book_num || apply says_chap_verse || apply says_num).
    + cbn [app]. rewrite app_nil_r. rewrite (book_nums _ (int_str (vchap v))) by auto. eexists. split.
      { apply SpE_tok; [exact Hname1|]. apply SpE_gap; [apply white_gap|]. apply sp_tok. exact TC. }
      split; [apply tight_mid; auto; apply gap_no|]. intros ts H.
      repeat (apply erase_cons in H; let i := fresh in let ts' := fresh in destruct H as (i & ts' & -> & H)). apply erase_nil in H. subst. eexists. split; [now constructor|]. now (apply says_full || apply says_book_num || apply says_chap_verse || apply says_num).
    + cbn [app]. rewrite (book_nums _ (int_str (vverse v))) by auto. eexists. split.
      { apply SpE_tok; [exact Hname1|]. apply SpE_gap; [apply white_gap|]. apply sp_tok. exact TV. }
      split; [apply tight_mid; auto; apply gap_no|]. intros ts H.
      repeat (apply erase_cons in H; let i := fresh in let ts' := fresh in destruct H as (i & ts' & -> & H)). apply erase_nil in H. subst. eexists. split; [now constructor|]. now (apply says_full || apply says_book_num || apply says_chap_verse || apply says_num).
    + cbn [app]. rewrite book_only by auto. eexists. split; [apply sp_tok; exact Hname1|]. split; [auto|]. intros ts H.
      repeat (apply erase_cons in H; let i := fresh in let ts' := fresh in destruct H as (i & ts' & -> & H)). apply erase_nil in H. subst. eexists. split; now constructor.
  - destruct (p_chap p && negb (is_one e (vbook v))), (p_verse p); cbn [andb app]; try discriminate.
    + fold vsep. rewrite spaced_lead by exact GCV. eexists. split; [exact SCV|]. split; [exact GCV|]. intros ts H.
      repeat (apply erase_cons in H; let i := fresh in let ts' := fresh in destruct H as (i & ts' & -> & H)). apply erase_nil in H. subst. eexists. split; [now constructor|]. now (apply says_full || apply says_book_num || apply says_chap_verse || apply says_num).
    + rewrite app_nil_r. rewrite spaced_lead by exact GC. eexists. split; [apply sp_tok; exact TC|]. split; [exact GC|]. intros ts H.
      repeat (apply erase_cons in H; let i := fresh in let ts' := fresh in destruct H as (i & ts' & -> & H)). apply erase_nil in H. subst. eexists. split; [now constructor|]. now (apply says_full || apply says_book_num || apply says_chap_verse || apply says_num).
    + rewrite spaced_lead by exact GV. eexists. split; [apply sp_tok; exact TV|]. split; [exact GV|]. intros ts H.
      repeat (apply erase_cons in H; let i := fresh in let ts' := fresh in destruct H as (i & ts' & -> & H)). apply erase_nil in H. subst. eexists. split; [now constructor|]. now (apply says_full || apply says_book_num || apply says_chap_verse || apply says_num).
Qed.
End Text.
