(** * PropAlike: what does not matter in a text (C74). *)
From Coq Require Import List ZArith NArith Bool Ascii String Lia.
From Verif Require Import Base Books Chars Regex Data DefaultData MVerse MRange MSeq MList MParse Spec SpecParse SpecName PLex PName PropParse SpecAlike PAlike.
Import ListNotations.
Open Scope Z_scope.
Open Scope list_scope.

Lemma parse_reads : forall e fl st s t, good_seps (ed e) -> reads (ed e) s t ->
  parse e fl st s = (fst (t_children e (eff e fl) st t), cs <- snd (t_children e (eff e fl) st t) ;; Ok (ref_list [] [] cs)).
Proof. intros e fl st s t G H. apply (C38_reading_found _ _ _ G) in H. unfold parse. rewrite H. now destruct (t_children e (eff e fl) st t). Qed.
Lemma parse_not : forall e fl st s, good_seps (ed e) -> (forall t, ~ reads (ed e) s t) -> parse e fl st s = (st, Err SyntaxErr).
Proof. intros e fl st s G H. unfold parse. destruct (read (ed e) s) as [t|] eqn:E; [|reflexivity]. apply (C38_reading_found _ _ _ G) in E. destruct (H _ E). Qed.
Lemma reading_dec : forall d s, good_seps d -> (exists t, reads d s t) \/ forall t, ~ reads d s t.
Proof.
  intros d s G. destruct (read d s) as [t|] eqn:E; [left; exists t; now apply (C38_reading_found _ _ _ G)|]. right. intros t H. apply (C38_reading_found _ _ _ G) in H. congruence.
Qed.
(** Texts whose tokens are related. *)
Lemma parse_rel : forall (R : token -> token -> Prop) e fl st s s' ts us t, good_seps (ed e) ->
  (forall t u, R t u -> tk t = tk u) -> (forall t u, R t u -> tk t = TName -> from_str (ed e) (ttext t) = from_str (ed e) (ttext u)) ->
  (forall t u, R t u -> tk t = TNum -> tok_num t = tok_num u) ->
  spells (ed e) 0 s ts -> g_list ts t -> spells (ed e) 0 s' us -> Forall2 R ts us ->
  run_rel R (parse e fl st s) (parse e fl st s').
Proof.
  intros R e fl st s s' ts us t G Rk Rn Rz S L S' F. destruct (g_list_rel R Rk ts us t F L) as (u & L' & TR).
  rewrite (parse_reads e fl st s t G (ex_intro _ ts (conj S L))), (parse_reads e fl st s' u G (ex_intro _ us (conj S' L'))).
  destruct (t_children_rel R e (eff e fl) Rn Rz ts st t u L TR) as (E1 & E2 & E3). rewrite <- E1. apply run_same.
  destruct E2 as [(cs & -> & ->)|(x & y & x' & y' & R1 & R2 & -> & ->)]; [left; eexists; split; reflexivity|right]. exists x, y, x', y'. auto.
Qed.

(** ** Letter case *)
Theorem C74_letter_case : forall e fl st s t, good_seps (ed e) -> same_letters s t -> parse e fl st s = parse e fl st t.
Proof.
  intros e fl st s t G H.
  assert (K : forall s t, same_letters s t -> (exists x, reads (ed e) s x) -> parse e fl st s = parse e fl st t).
  { clear s t H. intros s t H (x & ts & S & L). destruct (same_spells _ _ _ _ G S _ H) as (us & S' & F).
    destruct (parse_rel recased e fl st s t ts us x G) as (E1 & E2 & _); try assumption.
    - intros a b (A & _). exact A.
    - intros a b (_ & _ & A & _) _. now apply C39_letter_case.
    - intros a b (_ & _ & _ & A) K. unfold tok_num. rewrite A; [reflexivity|congruence].
    - destruct (parse e fl st s) as [p q], (parse e fl st t) as [p' q']. cbn [fst snd] in *. subst p'. f_equal.
      destruct E2 as [(g & -> & ->)|(a & b & a' & b' & (_ & Ra & _) & (_ & Rb & Lb & _) & -> & ->)]; [reflexivity|]. unfold tend. now rewrite Ra, Rb, (same_len _ _ Lb). }
  destruct (reading_dec (ed e) s G) as [Rs|Ns]; [now apply K|]. destruct (reading_dec (ed e) t G) as [Rt|Nt]; [symmetry; apply K; [now apply same_sym|exact Rt]|].
  now rewrite !parse_not.
Qed.
Theorem C74_letter_case_all : forall e fl st s t, good_seps (ed e) -> same_letters s t ->
  list_from_str e fl st s = list_from_str e fl st t /\ range_from_str e fl st s = range_from_str e fl st t /\ verse_from_str e fl st s = verse_from_str e fl st t.
Proof.
  intros e fl st s t G H. unfold range_from_str, verse_from_str, list_from_str. rewrite !(C74_letter_case e _ st s t G H). auto.
Qed.

(** ** White space at the ends and next to separators *)
Theorem C74_white_space : forall e fl st a w b, good_seps (ed e) -> white w -> beside_sep (ed e) a b ->
  parse e fl st (a ++ w ++ b) = (fst (parse e fl st (a ++ b)), moved (zlen a) w (snd (parse e fl st (a ++ b)))).
Proof.
  intros e fl st a w b G W B.
  destruct (reading_dec (ed e) (a ++ b) G) as [(t & ts & S & L)|N].
  - destruct (put_white _ _ _ _ _ G W B S) as (us & S' & F). destruct (parse_rel (moves (zlen a) w) e fl st (a ++ b) (a ++ w ++ b) ts us t G) as (E1 & E2 & E3); try assumption.
    + intros x y (A & _). exact A.
    + intros x y (_ & A & _) _. now rewrite A.
    + intros x y (_ & A & _) _. unfold tok_num. now rewrite A.
    + destruct (parse e fl st (a ++ b)) as [p q] eqn:Ep, (parse e fl st (a ++ w ++ b)) as [p' q'] eqn:Ep'. cbn [fst snd] in *. subst p'. f_equal.
      destruct E2 as [(g & -> & ->)|(x & y & x' & y' & (_ & _ & R1 & _) & (_ & _ & _ & R2) & -> & ->)]; [reflexivity|cbn [moved]; now rewrite R1, R2].
  - rewrite (parse_not _ _ _ _ G N). cbn [fst snd moved]. apply parse_not; [exact G|]. intros t (ts & S & L). destruct (no_white _ _ _ _ _ G W B S) as (us & S' & F).
    destruct (g_list_rel (fun t u => tk t = tk u) (fun t u H => H) ts us t F L) as (u & L' & _). apply (N u). exists us. auto.
Qed.
Theorem C74_white_space_all : forall e fl st a w b, good_seps (ed e) -> white w -> beside_sep (ed e) a b ->
  list_from_str e fl st (a ++ w ++ b) = (fst (list_from_str e fl st (a ++ b)), moved (zlen a) w (snd (list_from_str e fl st (a ++ b)))) /\
  range_from_str e fl st (a ++ w ++ b) = (fst (range_from_str e fl st (a ++ b)), moved (zlen a) w (snd (range_from_str e fl st (a ++ b)))) /\
  verse_from_str e fl st (a ++ w ++ b) = (fst (verse_from_str e fl st (a ++ b)), moved (zlen a) w (snd (verse_from_str e fl st (a ++ b)))).
Proof.
  intros e fl st a w b G W B. unfold range_from_str, verse_from_str, list_from_str. rewrite !(C74_white_space e _ st a w b G W B).
  split; [|split].
  - destruct (parse e (Some (eff e fl)) st (a ++ b)) as [p [g|x]]; [reflexivity|]. now destruct x.
  - destruct (parse e _ st (a ++ b)) as [p [g|x]]; cbn [fst snd moved bind]; [|now destruct x]. f_equal. now destruct (items (list_of_groups g)) as [|r [|r' l]].
  - destruct (parse e _ st (a ++ b)) as [p [g|x]]; cbn [fst snd moved bind]; [|now destruct x]. f_equal. destruct (items (list_of_groups g)) as [|r [|r' l]]; try reflexivity. now destruct (is_single_verse r).
Qed.

(** ** Tokens with the same meaning *)
Lemma val_alike : forall d t u, alike d t u -> tk t = TNum -> tok_num t = tok_num u.
Proof. intros d t u (_ & H) K. rewrite K in H. destruct H as (n & S1 & S2). unfold tok_num. now rewrite (stands_val _ _ S1), (stands_val _ _ S2). Qed.
Lemma book_alike : forall d t u, alike d t u -> tk t = TName -> from_str d (ttext t) = from_str d (ttext u).
Proof.
  intros d t u (_ & H) K. rewrite K in H. destruct (from_str d (ttext t)) as [b|] eqn:E.
  - symmetry. exact (proj1 (H b) E).
  - destruct (from_str d (ttext u)) as [b|] eqn:E'; [|reflexivity]. apply (proj2 (H b)) in E'. congruence.
Qed.
Lemma by_index : forall (Q : token -> token -> Prop) ts us, List.length ts = List.length us ->
  (forall i t u, nth_error ts i = Some t -> nth_error us i = Some u -> Q t u) -> Forall2 Q ts us.
Proof.
  intros Q. induction ts as [|t ts IH]; intros [|u us] L H; try discriminate; constructor; [now apply (H 0%nat)|]. apply IH; [now injection L|]. intros i. apply (H (S i)).
Qed.
Lemma at_index : forall (Q : token -> token -> Prop) ts us, Forall2 Q ts us -> forall i t u, nth_error ts i = Some t -> nth_error us i = Some u -> Q t u.
Proof. induction 1 as [|t u ts us H F IH]; intros [|i] a b E1 E2; cbn in E1, E2; try discriminate; [congruence|eauto]. Qed.
Lemma parse_alike : forall e fl st s s' ts us t, good_seps (ed e) -> spells (ed e) 0 s ts -> g_list ts t -> spells (ed e) 0 s' us -> Forall2 (alike (ed e)) ts us ->
  run_rel (fun t u => alike (ed e) t u /\ exists i, nth_error ts i = Some t /\ nth_error us i = Some u) (parse e fl st s) (parse e fl st s').
Proof.
  intros e fl st s s' ts us t G S L S' F. apply (parse_rel _ e fl st s s' ts us t G); try assumption.
  - intros a b ((A & _) & _). exact A.
  - intros a b (A & _). exact (book_alike (ed e) a b A).
  - intros a b (A & _). exact (val_alike (ed e) a b A).
  - apply by_index; [clear - F; induction F; cbn; congruence|]. intros i a b E1 E2. split; [exact (at_index _ _ _ F i a b E1 E2)|]. exists i. auto.
Qed.
Lemma outcome_of : forall {A} d ts us (q r : res A), out_rel (fun t u => alike d t u /\ exists i, nth_error ts i = Some t /\ nth_error us i = Some u) q r -> same_outcome ts us q r.
Proof.
  intros A d ts us q r [(a & -> & ->)|(t & u & t' & u' & (_ & i & A1 & A2) & (_ & j & B1 & B2) & -> & ->)]; [now left|right]. exists i, j, t, u, t', u'. auto 10.
Qed.
Theorem C74_same_tokens : forall e fl st s s' ts us t, good_seps (ed e) ->
  spells (ed e) 0 s ts -> g_list ts t -> spells (ed e) 0 s' us -> Forall2 (alike (ed e)) ts us ->
  fst (parse e fl st s) = fst (parse e fl st s') /\ same_outcome ts us (snd (parse e fl st s)) (snd (parse e fl st s')).
Proof.
  intros e fl st s s' ts us t G S L S' F. destruct (parse_alike e fl st s s' ts us t G S L S' F) as (A & B & _). split; [exact A|]. exact (outcome_of _ _ _ _ _ B).
Qed.
Theorem C74_same_tokens_all : forall e fl st s s' ts us t, good_seps (ed e) ->
  spells (ed e) 0 s ts -> g_list ts t -> spells (ed e) 0 s' us -> Forall2 (alike (ed e)) ts us ->
  (fst (list_from_str e fl st s) = fst (list_from_str e fl st s') /\ same_outcome ts us (snd (list_from_str e fl st s)) (snd (list_from_str e fl st s'))) /\
  (fst (range_from_str e fl st s) = fst (range_from_str e fl st s') /\ same_outcome ts us (snd (range_from_str e fl st s)) (snd (range_from_str e fl st s'))) /\
  (fst (verse_from_str e fl st s) = fst (verse_from_str e fl st s') /\ same_outcome ts us (snd (verse_from_str e fl st s)) (snd (verse_from_str e fl st s'))).
Proof.
  intros e fl st s s' ts us t G S L S' F. unfold range_from_str, verse_from_str, list_from_str.
  assert (K : forall fl (A : Type) (k : list (list range) -> res A),
    fst (let (p, q) := parse e fl st s in (p, g <- q ;; k g)) = fst (let (p, q) := parse e fl st s' in (p, g <- q ;; k g)) /\
    same_outcome ts us (snd (let (p, q) := parse e fl st s in (p, g <- q ;; k g))) (snd (let (p, q) := parse e fl st s' in (p, g <- q ;; k g)))).
  { clear fl. intros fl A k. destruct (C74_same_tokens e fl st s s' ts us t G S L S' F) as (E & O). destruct (parse e fl st s) as [p q], (parse e fl st s') as [p' q']. cbn [fst snd] in *. split; [exact E|].
    destruct O as [<-|(i & j & a & b & a' & b' & A1 & A2 & B1 & B2 & -> & ->)]; [now left|right]. exists i, j, a, b, a', b'. auto 10. }
  split; [|split].
  - exact (K (Some (eff e fl)) rlist (fun g => Ok (list_of_groups g))).
  - pose proof (K (Some (eff e (Some (eff e fl)))) range (fun g => match items (list_of_groups g) with [r] => Ok r | _ => Err InvalidRef end)) as H.
    destruct (parse e _ st s) as [p [x|x]], (parse e _ st s') as [p' [x'|x']]; exact H.
  - pose proof (K (Some (eff e fl)) verse (fun g => match items (list_of_groups g) with [r] => if is_single_verse r then Ok (rstart r) else Err InvalidRef | _ => Err InvalidRef end)) as H.
    destruct (parse e _ st s) as [p [x|x]], (parse e _ st s') as [p' [x'|x']]; exact H.
Qed.
(** Texts of digits: the number of a text is unique, zeros in front do not matter, and every number token has one. *)
Theorem C74_numbers : (forall s n m, stands s n -> stands s m -> n = m) /\ (forall s n, stands s n -> stands ("0"%char :: s) n) /\
  (forall d x, in_term d TNum x -> exists n, 0 <= n /\ stands x n).
Proof.
  split; [|split].
  - intros s n m H K. now rewrite <- (stands_val _ _ H), <- (stands_val _ _ K).
  - intros s n. induction 1 as [|s n c k S IH E L]; [|apply (St_more ("0"%char :: s) n c k IH E L)]. apply (St_more [] 0 "0"%char 0 St_nil eq_refl). lia.
  - intros d x (_ & F). exists (Z.of_N (undec x)). split; [lia|now apply val_stands].
Qed.

Definition E := mkEnv default_data ALL.
Definition good_text (s : string) : res (list (list (Z * Z * Z * Z))) :=
  g <- snd (parse E None ts_init (s2l s)) ;; Ok (map (map (fun r => (vchap (rstart r), vverse (rstart r), vchap (rend r), vverse (rend r)))) g).
Definition J1 := [Tok TName (s2l "1 John") 0; Tok TNum (s2l "2") 7; Tok TVerse (s2l ":") 8; Tok TNum (s2l "3") 9].
Definition J2 := [Tok TName (s2l "I JOH") 1; Tok TNum (s2l "002") 6; Tok TVerse (s2l ".") 10; Tok TNum (s2l "03") 11].
Example C74_ex :
  good_text "1 John 2:3-4, 7; jude" = Ok [[(2, 3, 2, 4); (2, 7, 2, 7)]; [(1, 1, 1, 25)]] /\
  good_text " i jOh002 .03- 4 ,07 ;  JUDE ; " = good_text "1 John 2:3-4, 7; jude" /\
  same_letters (s2l "1 John 2:3; nobody 4") (s2l "1 JOHN 2:3; NObody 4") /\
  snd (parse E None ts_init (s2l "1 JOHN 2:3; NObody 4")) = Err (ParseErr 12 18) /\
  beside_sep default_data (s2l "1 John 2:3;") (s2l "nobody 4") /\ white (s2l "  ") /\
  snd (parse E None ts_init (s2l "1 John 2:3;  nobody 4")) = Err (ParseErr 13 19) /\ snd (parse E None ts_init (s2l "1 John 2:3;nobody 4")) = Err (ParseErr 11 17) /\
  spells default_data 0 (s2l "1 John 2:3") J1 /\ spells default_data 0 (s2l " I JOH002 .03") J2 /\
  (exists t, g_list J1 t) /\ Forall2 (alike default_data) J1 J2.
Proof.
  split; [vm_compute; reflexivity|]. split; [vm_compute; reflexivity|]. split; [vm_compute; reflexivity|]. split; [vm_compute; reflexivity|].
  split; [right; right; left; exists ";"%char, (s2l "1 John 2:3"); split; [reflexivity|unfold is_sep; vm_compute; tauto]|].
  split; [apply Forall_cons; [reflexivity|]; apply Forall_cons; [reflexivity|constructor]|].
  split; [vm_compute; reflexivity|]. split; [vm_compute; reflexivity|].
  split; [apply lex_sound; vm_compute; reflexivity|]. split; [apply lex_sound; vm_compute; reflexivity|]. split; [eexists; apply p_list_spec; vm_compute; reflexivity|].
  assert (N : forall a b i j, Z.of_N (undec a) = Z.of_N (undec b) -> Forall (fun c => is_digit c = true) a -> Forall (fun c => is_digit c = true) b -> alike default_data (Tok TNum a i) (Tok TNum b j)).
  { intros a b i j V Fa Fb. split; [reflexivity|]. exists (Z.of_N (undec a)). split; [now apply val_stands|]. cbn [ttext]. rewrite V. now apply val_stands. }
  assert (D : forall s, forallb is_digit s = true -> Forall (fun c => is_digit c = true) s) by (intros s H; apply Forall_forall; exact (proj1 (forallb_forall _ _) H)).
  apply Forall2_cons; [split; [reflexivity|]; intros b; cbn [ttext]; replace (from_str default_data (s2l "I JOH")) with (from_str default_data (s2l "1 John")) by (vm_compute; reflexivity); tauto|].
  apply Forall2_cons; [apply N; try apply D; vm_compute; reflexivity|]. apply Forall2_cons; [split; [reflexivity|exact I]|].
  apply Forall2_cons; [apply N; try apply D; vm_compute; reflexivity|constructor].
Qed.
