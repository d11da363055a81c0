(** * PropParse: theorems on book names, the grammar, parsing and its errors (C37, C38, C39, C46). *)
From Coq Require Import List ZArith Bool Ascii String Lia.
From Verif Require Import Base Books Chars Regex Data DefaultData MVerse MRange MSeq MList MParse Spec SpecName SpecParse SpecMean
  PList PCore PNav PVerse PRange PDefault PUnit PUnit2 PSort PLex PLong PName PParse PParse2.
Import ListNotations.
Open Scope Z_scope.
Open Scope list_scope.

(** The default data meet the hypotheses used below. *)
Lemma default_seps : good_seps default_data.
Proof.
  constructor; try (vm_compute; discriminate).
  - intros c [->|[->|[->|[->| ->]]]]; vm_compute; auto.
  - intros c [->| ->]; vm_compute; repeat split; discriminate.
Qed.
Lemma default_names_listed : names_listed default_data.
Proof. intros b n H. destruct b; vm_compute in H; try discriminate; vm_compute; tauto. Qed.

(** ** C38 *)
Theorem C38_reading_unique : forall d s t t', good_seps d -> reads d s t -> reads d s t' -> t = t'.
Proof. exact reads_unique. Qed.
Theorem C38_reading_found : forall d s t, good_seps d -> (read d s = Some t <-> reads d s t).
Proof. intros d s t G. split; [apply read_sound|now apply read_complete]. Qed.
(** The tokens of a reading are also unique, and each of them is the longest match of its terminal, so that
    a lexer that takes longest matches finds the same reading. *)
Theorem C38_tokens_unique : forall d s t ts ts', good_seps d -> spells d 0 s ts -> g_list ts t -> spells d 0 s ts' -> g_list ts' t -> ts = ts'.
Proof.
  intros d s t ts ts' G S L S' L'. apply (lex_complete_at d ts G (sparse_list d ts t L)) in S. apply (lex_complete_at d ts' G (sparse_list d ts' t L')) in S'. congruence.
Qed.
Theorem C38_longest_match : forall d s t, good_seps d -> reads d s t ->
  exists ts, spells d 0 s ts /\ g_list ts t /\ spells_longest d s ts.
Proof. exact reads_longest. Qed.
Example C38_ex : good_seps default_data /\
  (exists t, reads default_data (s2l " 1  John 2:3 - 4.5; Jude,7 ;") t /\
     t_first t = Two (SFull (Tok TName (s2l "1  John") 1) (Tok TNum (s2l "2") 9) (Tok TVerse (s2l ":") 10) (Tok TNum (s2l "3") 11))
                     (Tok TRange (s2l "-") 13)
                     (SChapVerse (Tok TNum (s2l "4") 15) (Tok TVerse (s2l ".") 16) (Tok TNum (s2l "5") 17)) /\
     map snd (t_rest t) = [One (SBook (Tok TName (s2l "Jude") 20)); One (SNum (Tok TNum (s2l "7") 25))] /\
     t_trail t = Some (Tok TMajor (s2l ";") 27)) /\
  (forall t, ~ reads default_data (s2l "Mark 2 3") t).
Proof.
  split; [exact default_seps|]. split.
  - eexists. split; [apply read_sound; vm_compute; reflexivity|]. vm_compute. auto.
  - intros t H. apply (read_complete _ _ _ default_seps) in H. vm_compute in H. discriminate.
Qed.
(** With equal separators the grammar is ambiguous. *)
Example C38_needs_good_seps : exists d s t t', reads d s t /\ reads d s t' /\ t <> t'.
Proof.
  set (d := mkData (book_order default_data) (order default_data) (max_verses default_data) (verse_0s default_data) (names default_data)
              "-"%char "-"%char ","%char ":"%char "."%char). exists d, (s2l "1-2").
  exists (Tree (Two (SNum (Tok TNum (s2l "1") 0)) (Tok TRange (s2l "-") 1) (SNum (Tok TNum (s2l "2") 2))) [] None).
  exists (Tree (One (SNum (Tok TNum (s2l "1") 0))) [(Tok TMajor (s2l "-") 1, One (SNum (Tok TNum (s2l "2") 2)))] None).
  assert (N1 : in_term d TNum (s2l "1")) by (split; [discriminate|repeat constructor]).
  assert (N2 : in_term d TNum (s2l "2")) by (split; [discriminate|repeat constructor]).
  assert (N3 : in_term d TRange (s2l "-")) by reflexivity.
  assert (N4 : in_term d TMajor (s2l "-")) by reflexivity.
  assert (W : white []) by constructor.
  split; [|split; [|discriminate]].
  - exists [Tok TNum (s2l "1") 0; Tok TRange (s2l "-") 1; Tok TNum (s2l "2") 2]. split.
    + apply (Sp_tok d 0 [] TNum (s2l "1") (s2l "-2") _ W N1). apply (Sp_tok d 1 [] TRange (s2l "-") (s2l "2") _ W N3). apply (Sp_tok d 2 [] TNum (s2l "2") [] _ W N2). now constructor.
    + apply (G_list [_; _; _] _ [] [] None); [|constructor]. apply (G_two [_] [_]); try constructor; reflexivity.
  - exists [Tok TNum (s2l "1") 0; Tok TMajor (s2l "-") 1; Tok TNum (s2l "2") 2]. split.
    + apply (Sp_tok d 0 [] TNum (s2l "1") (s2l "-2") _ W N1). apply (Sp_tok d 1 [] TMajor (s2l "-") (s2l "2") _ W N4). apply (Sp_tok d 2 [] TNum (s2l "2") [] _ W N2). now constructor.
    + apply (G_list [_]); [constructor; constructor; reflexivity|]. apply (G_more _ [_] _ [] [] None); [now left|constructor; constructor; reflexivity|constructor].
Qed.

(** ** C39 *)
(** The accepted names of a book: SpecName.names_book. *)
Theorem C39_name_of : forall d s b, from_str d s = Some b <->
  exists l r, all_books = l ++ b :: r /\ (exists n, names d b = Some n /\ names_book n (strip s)) /\
  forall x, In x l -> ~ exists n, names d x = Some n /\ names_book n (strip s).
Proof. exact from_str_first. Qed.
Theorem C39_no_name : forall d s, from_str d s = None <-> forall b n, names d b = Some n -> ~ names_book n (strip s).
Proof. exact from_str_none. Qed.
Theorem C39_one_book : forall s b b' n n', names default_data b = Some n -> names default_data b' = Some n' ->
  names_book n s -> names_book n' s -> b = b'.
Proof.
  intros s b b' n n' N N' H H'. apply (name_one_book default_data s b b' default_apart); apply name_matches_spec; eauto.
Qed.
Theorem C39_denotes : forall s b, from_str default_data s = Some b <-> exists n, names default_data b = Some n /\ names_book n (strip s).
Proof. intros s b. apply from_str_only, default_apart. Qed.
Theorem C39_letter_case : forall d s t, same_letters s t -> from_str d s = from_str d t.
Proof. exact from_str_ci. Qed.
Theorem C39_white_space : forall d w s u, Forall (fun c => is_space c = true) w -> Forall (fun c => is_space c = true) u ->
  from_str d (w ++ s ++ u) = from_str d s.
Proof. exact from_str_white. Qed.
(** A title names its book, whatever the data. *)
Lemma title_written : forall t, written (title_pieces t) t.
Proof.
  induction t as [|c t IH]; [constructor|]. cbn. destruct (Ascii.eqb c space) eqn:E.
  - apply Ascii.eqb_eq in E. subst. apply (W_gap1 [space]); [discriminate|repeat constructor|exact IH].
  - now constructor.
Qed.
Theorem C39_title : forall n, names_book n (n_title n).
Proof.
  intros n. left.
  assert (K : forall t : str, exists k, (n_min n <= k)%nat /\ firstn k t = t).
  { intros t. exists (n_min n + List.length t)%nat. split; [lia|]. apply firstn_all2. lia. }
  assert (D : (exists c r t', In (c, r) romans /\ n_title n = c :: space :: t') \/ forall c r t', In (c, r) romans -> n_title n <> c :: space :: t').
  { destruct (n_title n) as [|c [|x t]]; [right; discriminate|right; discriminate|]. destruct (ascii_dec x space) as [->|Nx].
    - destruct (in_dec ascii_dec c (map fst romans)) as [I|I].
      + left. apply in_map_iff in I. destruct I as ((c', r) & <- & I). exists c', r, t. split; [exact I|reflexivity].
      + right. intros c0 r t' I' E. inversion E; subst. apply I. now apply (in_map fst) in I'.
    - right. intros c0 r t' I' E. inversion E; subst. contradiction. }
  destruct D as [(c & r & t & I & E)|N].
  - rewrite E. destruct (K t) as (k & Hk & F). exists [Letter c; Gap0], t, k. split; [econstructor; eauto|]. split; auto. rewrite F.
    cbn. constructor; auto. apply (W_gap0 [space]); [repeat constructor|apply title_written].
  - destruct (K (n_title n)) as (k & Hk & F). exists [], (n_title n), k. split; [now constructor|]. split; auto. rewrite F. apply title_written.
Qed.
Definition own_names (d : bibledata) : bool :=
  forallb (fun b => match names d b with
                    | None => true
                    | Some n => match from_str d (n_title n), from_str d (n_abbrev n) with
                                | Some x, Some y => book_eqb x b && book_eqb y b
                                | _, _ => false
                                end
                    end) all_books.
Theorem C39_own_names : forall b n, names default_data b = Some n ->
  from_str default_data (n_title n) = Some b /\ from_str default_data (n_abbrev n) = Some b.
Proof.
  assert (H : own_names default_data = true) by (vm_compute; reflexivity).
  intros b n N. unfold own_names in H. rewrite forallb_forall in H. specialize (H b (all_books_in b)). rewrite N in H.
  destruct (from_str default_data (n_title n)) as [x|]; [|discriminate]. destruct (from_str default_data (n_abbrev n)) as [y|]; [|discriminate].
  apply andb_prop in H. destruct H as (H1 & H2). apply book_eqb_eq in H1, H2. now subst.
Qed.
Theorem C39_all_named : forall b, In b (book_order default_data) <-> exists n, names default_data b = Some n.
Proof.
  intros b. split; [|intros (n & H); eapply default_names_listed; eauto]. intros H. destruct (names default_data b) as [n|] eqn:E; [eauto|].
  exfalso. destruct b; vm_compute in E; try discriminate; vm_compute in H; tauto.
Qed.
Theorem C39_raises : forall d s,
  (forall b, from_str_raise d s = Ok b <-> from_str d s = Some b) /\
  ((forall b n, names d b = Some n -> ~ names_book n (strip s)) <-> from_str_raise d s = Err InvalidRef) /\
  (forall x, from_str_raise d s = Err x -> x = InvalidRef).
Proof.
  intros d s. rewrite <- C39_no_name. unfold from_str_raise. destruct (from_str d s) as [b|]; split; try split; try split; try congruence; intros; congruence.
Qed.
(** [BibleVerse(name, chap, verse)] is [BibleVerse(book, chap, verse)] for the book with that name. *)
Theorem C39_verse : forall e s c v fl,
  (forall b, from_str (ed e) s = Some b -> new_verse_named e s c v fl = new_verse e b c v fl) /\
  ((forall b n, names (ed e) b = Some n -> ~ names_book n (strip s)) -> new_verse_named e s c v fl = Err InvalidRef).
Proof.
  intros e s c v fl. unfold new_verse_named, from_str_raise. split; [intros b ->; reflexivity|]. intros H. apply C39_no_name in H. now rewrite H.
Qed.
Example C39_ex :
  from_str default_data (s2l " 1JOHN ") = Some IJn /\ from_str default_data (s2l "I  jo") = Some IJn /\
  from_str default_data (s2l "IJohn") = None /\ from_str default_data (s2l "Song") = Some Song /\
  from_str default_data (s2l "Ju") = None /\ from_str default_data (s2l "Jud") = None /\ from_str default_data (s2l "Jude") = Some Jude /\
  same_letters (s2l "mArK") (s2l "MaRk").
Proof. vm_compute. auto 10. Qed.

(** ** C46 *)
(** A text is rejected as unreadable exactly when it has no reading; otherwise the error gives the part of the
    text that is the book name, the reference or the range to blame (SpecMean). *)
Theorem C46_error_partial : forall e fl st s x, wf_data (ed e) -> names_listed (ed e) -> good_seps (ed e) -> sane (ed e) st ->
  (snd (parse e fl st s) = Err x <->
   (x = SyntaxErr /\ forall t, ~ reads (ed e) s t) \/
   (exists t ts i j, reads (ed e) s t /\ tree_blamed e fl (ctx_of st) t ts /\ part_of (ed e) s i j ts /\ x = ParseErr i j)).
Proof. intros e fl st s x W N G S. now apply parse_err. Qed.
Theorem C46_result : forall e fl st s gs, wf_data (ed e) -> names_listed (ed e) -> good_seps (ed e) -> sane (ed e) st ->
  (snd (parse e fl st s) = Ok gs <-> exists t c', reads (ed e) s t /\ m_tree e fl (ctx_of st) t gs c').
Proof. intros e fl st s gs W N G S. now apply parse_ok. Qed.
Theorem C46_next_state : forall e fl st s gs t c', wf_data (ed e) -> names_listed (ed e) -> good_seps (ed e) -> sane (ed e) st ->
  reads (ed e) s t -> m_tree e fl (ctx_of st) t gs c' -> ctx_of (fst (parse e fl st s)) = c'.
Proof. intros e fl st s gs t c' W N G S. now apply parse_next. Qed.
(** The specification of blame is meaningful: what is blamed means nothing, and only one part is blamed. *)
Theorem C46_blamed_means_nothing : forall e fl c t ts, wf_data (ed e) -> tree_blamed e fl c t ts -> forall gs c', ~ m_tree e fl c t gs c'.
Proof. exact tree_blamed_none. Qed.
Theorem C46_blame_unique : forall e fl c t ts ts', wf_data (ed e) -> tree_blamed e fl c t ts -> tree_blamed e fl c t ts' -> ts = ts'.
Proof. exact tree_blamed_unique. Qed.
Theorem C46_meaning_unique : forall e fl c t gs c1 gs' c1', wf_data (ed e) -> m_tree e fl c t gs c1 -> m_tree e fl c t gs' c1' -> gs = gs' /\ c1 = c1'.
Proof. exact m_tree_unique. Qed.
Example C46_ex :
  sane default_data ts_init /\ names_listed default_data /\
  snd (parse (denv NONE) None ts_init (s2l "Mark 2; Foo 3")) = Err (ParseErr 8 11) /\
  snd (parse (denv NONE) None ts_init (s2l "Mark 2; Luke 25 : 3 , 4")) = Err (ParseErr 8 19) /\
  snd (parse (denv NONE) None ts_init (s2l "Mark 2-30 ")) = Err (ParseErr 7 9) /\
  snd (parse (denv NONE) None ts_init (s2l "Mark 2 - Luke 3")) = Err (ParseErr 0 15) /\
  snd (parse (denv NONE) None ts_init (s2l "2:3")) = Err (ParseErr 0 3) /\
  snd (parse (denv NONE) None ts_init (s2l "Mark 2;;")) = Err SyntaxErr /\
  snd (parse (denv NONE) None ts_init (s2l "Mark 2:3,5-3:1;4")) =
    Ok [[R (V Mark 2 3) (V Mark 2 3); R (V Mark 2 5) (V Mark 3 1)]; [R (V Mark 4 1) (V Mark 4 41)]].
Proof. split; [apply sane_init|]. split; [exact default_names_listed|]. vm_compute. auto 10. Qed.

(** The constructors from strings. *)
Lemma list_of_groups_id : forall gs, Forall (fun g => g <> []) gs -> list_of_groups gs = gs.
Proof.
  intros gs F. unfold list_of_groups.
  assert (A : forall acc, fold_left (fun g grp => g_append_group grp g) gs acc = acc ++ gs).
  { induction F as [|g gs Hg F IH]; intros acc; cbn [fold_left].
    - now rewrite app_nil_r.
    - rewrite IH. rewrite (append_group_eq g acc Hg). now rewrite <- app_assoc. }
  apply A.
Qed.
Lemma groups_of_full : forall rs r, Forall (fun g => g <> []) (groups_of r rs).
Proof.
  induction rs as [|(k, r') rs IH]; intros r; cbn.
  - repeat constructor. discriminate.
  - specialize (IH r'). destruct (groups_of r' rs) as [|g gs] eqn:E.
    + destruct k; repeat constructor; discriminate.
    + inversion IH; subst. destruct k; constructor; auto; discriminate.
Qed.
Theorem C46_list_from_str : forall e fl st s, wf_data (ed e) -> names_listed (ed e) -> good_seps (ed e) -> sane (ed e) st ->
  list_from_str e fl st s = parse e fl st s.
Proof.
  intros e fl st s W N G S. unfold list_from_str. assert (E : parse e (Some (eff e fl)) st s = parse e fl st s) by (unfold parse; now rewrite eff_eff). rewrite E.
  pose proof (parse_spec e fl W N st s S G) as H. destruct (parse e fl st s) as (st', [gs|x]); auto. destruct H as (_ & t & _ & (r & c1 & rs & c2 & _ & _ & -> & _)). cbn [bind].
  now rewrite list_of_groups_id by apply groups_of_full.
Qed.
Theorem C46_range_from_str : forall e fl st s, wf_data (ed e) -> names_listed (ed e) -> good_seps (ed e) -> sane (ed e) st ->
  fst (range_from_str e fl st s) = fst (parse e fl st s) /\
  (forall x, snd (parse e fl st s) = Err x -> snd (range_from_str e fl st s) = Err x) /\
  (forall r, snd (range_from_str e fl st s) = Ok r <-> snd (parse e fl st s) = Ok [[r]]) /\
  (forall gs, snd (parse e fl st s) = Ok gs -> (List.length (List.concat gs) > 1)%nat -> snd (range_from_str e fl st s) = Err InvalidRef).
Proof.
  intros e fl st s W N G S. unfold range_from_str. rewrite C46_list_from_str by auto.
  assert (E : parse e (Some (eff e fl)) st s = parse e fl st s) by (unfold parse; now rewrite eff_eff). rewrite E.
  pose proof (parse_spec e fl W N st s S G) as H. destruct (parse e fl st s) as (st', [gs|x]); cbn [fst snd bind].
  - destruct H as (_ & t & _ & (r0 & c1 & rs & c2 & _ & _ & -> & _)). split; auto. split; [discriminate|]. pose proof (groups_of_full rs r0) as F. unfold items. split.
    + intros r. destruct (groups_of r0 rs) as [|[|a g] gs]; cbn.
      * split; discriminate.
      * inversion F as [|? ? X]. contradiction.
      * destruct g as [|b g]; cbn.
        -- destruct gs as [|[|b g] gs]; cbn; [|inversion F as [|? ? _ F']; inversion F' as [|? ? X]; contradiction|].
           ++ split; congruence.
           ++ split; discriminate.
        -- split; discriminate.
    + intros gs E1 L. inversion E1; subst. destruct (List.concat (groups_of r0 rs)) as [|a [|b l]]; cbn in L; try lia. reflexivity.
  - split; auto. split; [intros x0 X; injection X as ->; reflexivity|]. split; [split; discriminate|discriminate].
Qed.
Theorem C46_verse_from_str : forall e fl st s, wf_data (ed e) -> names_listed (ed e) -> good_seps (ed e) -> sane (ed e) st ->
  fst (verse_from_str e fl st s) = fst (parse e fl st s) /\
  (forall x, snd (parse e fl st s) = Err x -> snd (verse_from_str e fl st s) = Err x) /\
  (forall v, snd (verse_from_str e fl st s) = Ok v <-> snd (parse e fl st s) = Ok [[R v v]]) /\
  (forall gs, snd (parse e fl st s) = Ok gs -> (forall v, gs <> [[R v v]]) -> snd (verse_from_str e fl st s) = Err InvalidRef).
Proof.
  intros e fl st s W N G S. unfold verse_from_str. rewrite C46_list_from_str by auto.
  pose proof (parse_spec e fl W N st s S G) as H. destruct (parse e fl st s) as (st', [gs|x]); cbn [fst snd bind].
  2:{ split; auto. split; [intros x0 X; injection X as ->; reflexivity|]. split; [split; discriminate|discriminate]. }
  destruct H as (_ & t & _ & (r0 & c1 & rs & c2 & _ & _ & -> & _)). split; auto. split; [discriminate|]. pose proof (groups_of_full rs r0) as F. unfold items.
  assert (SV : forall r, is_single_verse r = true <-> exists v, r = R v v).
  { intros [a b]. unfold is_single_verse. cbn. rewrite verse_eqb_eq. split; [intros ->; eauto|intros (v & E); congruence]. }
  assert (C : (exists r, groups_of r0 rs = [[r]]) \/ exists a b l, List.concat (groups_of r0 rs) = a :: b :: l).
  { destruct (groups_of r0 rs) as [|[|a [|b g]] gs] eqn:Eg.
    - exfalso. destruct rs as [|(k, r') rs]; cbn in Eg; [discriminate|]. destruct k, (groups_of r' rs); discriminate.
    - inversion F as [|? ? X]. contradiction.
    - destruct gs as [|[|b g] gs]; [eauto|inversion F as [|? ? _ F']; inversion F' as [|? ? X]; contradiction|]. right. cbn. eauto.
    - right. cbn. eauto. }
  destruct C as [(r & Eg)|(a & b & l & Eg)].
  - rewrite Eg. cbn. split.
    + intros v. destruct (is_single_verse r) eqn:Es.
      * apply SV in Es. destruct Es as (v' & ->). cbn. split; congruence.
      * split; [discriminate|]. intros H. inversion H; subst. assert (is_single_verse (R v v) = true) by (apply SV; eauto). congruence.
    + intros gs E Hn. inversion E; subst. destruct (is_single_verse r) eqn:Es; auto. apply SV in Es. destruct Es as (v' & ->). exfalso. eapply Hn; eauto.
  - rewrite Eg. split; [|reflexivity]. intros v. split; [discriminate|]. intros H. inversion H as [H']. rewrite H' in Eg. discriminate.
Qed.
Example C46_constructors_ex :
  snd (range_from_str (denv NONE) None ts_init (s2l "Mark 2:3-5")) = Ok (R (V Mark 2 3) (V Mark 2 5)) /\
  snd (range_from_str (denv NONE) None ts_init (s2l "Mark 2:3,5")) = Err InvalidRef /\
  snd (verse_from_str (denv NONE) None ts_init (s2l "Mark 2:3")) = Ok (V Mark 2 3) /\
  snd (verse_from_str (denv NONE) None ts_init (s2l "Mark 2:3-4")) = Err InvalidRef /\
  snd (verse_from_str (denv NONE) None ts_init (s2l "Mark 2:300")) = Err (ParseErr 0 10) /\
  new_verse_named (denv NONE) (s2l "mar") 2 3 None = Ok (V Mark 2 3) /\ new_verse_named (denv NONE) (s2l "ma") 2 3 None = Err InvalidRef.
Proof. vm_compute. auto 10. Qed.
(** The full claim fails for the constructors of verses and ranges: they also reject a readable text with
    InvalidReferenceError, which gives no position. *)
Theorem C46_constructors_refuted : exists e s t, reads (ed e) s t /\
  snd (range_from_str e None ts_init s) = Err InvalidRef /\ snd (verse_from_str e None ts_init s) = Err InvalidRef.
Proof.
  exists (denv NONE), (s2l "Mark 2:3,5"). destruct (read default_data (s2l "Mark 2:3,5")) as [t|] eqn:E; [|vm_compute in E; discriminate].
  exists t. split; [now apply read_sound|]. vm_compute. auto.
Qed.

(** ** C37 *)
(** A history of parses: global flags, flags and text of each. *)
Definition history := list (flag * option flag * str).
Fixpoint after (d : bibledata) (h : history) (st : tstate) : tstate :=
  match h with
  | [] => st
  | (g, fl, s) :: h' => after d h' (fst (parse (mkEnv d g) fl st s))
  end.
Lemma after_sane : forall d h st, wf_data d -> names_listed d -> good_seps d -> sane d st -> sane d (after d h st).
Proof.
  intros d h. induction h as [|((g, fl), s) h IH]; intros st W N G S; cbn; auto. apply IH; auto. now apply (parse_sane (mkEnv d g) fl W N G).
Qed.
Definition C37_statement : Prop := forall d g fl s h h', wf_data d -> names_listed d -> good_seps d ->
  snd (parse (mkEnv d g) fl (after d h ts_init) s) = snd (parse (mkEnv d g) fl (after d h' ts_init) s).
Theorem C37_refuted : exists d g fl s h h', wf_data d /\ names_listed d /\ good_seps d /\
  snd (parse (mkEnv d g) fl (after d h ts_init) s) = Err (ParseErr 0 1) /\
  snd (parse (mkEnv d g) fl (after d h' ts_init) s) = Ok [[R (V Mark 2 5) (V Mark 2 5)]].
Proof.
  exists default_data, NONE, None, (s2l "5"), [], [(NONE, None, s2l "Mark 2:3")].
  split; [exact default_wf|]. split; [exact default_names_listed|]. split; [exact default_seps|]. vm_compute. auto.
Qed.
(** Even a parse that failed leaves its book behind. *)
Theorem C37_failed_parse_refuted : exists h s, 
  snd (parse (denv NONE) None ts_init h) = Err (ParseErr 0 8) /\
  snd (parse (denv NONE) None (after default_data [(NONE, None, h)] ts_init) s) = Ok [[R (V Mark 3 1) (V Mark 3 35)]].
Proof. exists (s2l "Mark 200"), (s2l "3"). vm_compute. auto. Qed.
(** It holds for texts whose first reference names its book, and for texts without a reading. *)
Theorem C37_partial : forall d g fl s h h', wf_data d -> names_listed d -> good_seps d ->
  (forall t, reads d s t -> names_its_book t) ->
  snd (parse (mkEnv d g) fl (after d h ts_init) s) = snd (parse (mkEnv d g) fl (after d h' ts_init) s).
Proof.
  intros d g fl s h h' W N G H.
  assert (S1 : sane d (after d h ts_init)) by (apply after_sane; auto using sane_init).
  assert (S2 : sane d (after d h' ts_init)) by (apply after_sane; auto using sane_init).
  destruct (read d s) as [t|] eqn:R.
  - apply read_sound in R. apply (parse_named (mkEnv d g) fl W N G _ _ s t S1 S2 R). now apply H.
  - unfold parse. cbn [ed]. now rewrite R.
Qed.
(** In general the result depends on the history only through the book, and the chapter after a verse. *)
Theorem C37_context : forall d g fl s h h', wf_data d -> names_listed d -> good_seps d ->
  ctx_of (after d h ts_init) = ctx_of (after d h' ts_init) ->
  snd (parse (mkEnv d g) fl (after d h ts_init) s) = snd (parse (mkEnv d g) fl (after d h' ts_init) s).
Proof.
  intros d g fl s h h' W N G H. apply parse_ctx; auto; apply after_sane; auto using sane_init.
Qed.
Example C37_ex : (forall t, reads default_data (s2l "Mark 2:3, 5") t -> names_its_book t) /\
  snd (parse (denv NONE) None (after default_data [(NONE, None, s2l "Luke 3:4"); (VERSE_0, None, s2l "7;Foo")] ts_init) (s2l "Mark 2:3, 5")) =
  Ok [[R (V Mark 2 3) (V Mark 2 3); R (V Mark 2 5) (V Mark 2 5)]].
Proof.
  split; [|vm_compute; reflexivity]. intros t H. apply (read_complete _ _ _ default_seps) in H. vm_compute in H. injection H as <-. vm_compute. discriminate.
Qed.
