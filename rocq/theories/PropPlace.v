(** * PropPlace: where syntax errors are found (C85, C86). *)
From Coq Require Import List ZArith Bool Ascii String Lia.
From Verif Require Import Base Books Chars Regex Data DefaultData MVerse MRange MSeq MList MParse MDigits MPlace Spec SpecName SpecParse SpecMean SpecDigits SpecPlace
  PGroup PList PCore PNav PVerse PRange PDefault PUnit PUnit2 PSort PLex PLong PName PParse PParse2 PropParse PDigits PPlace.
Import ListNotations.
Open Scope Z_scope.
Open Scope list_scope.

(** ** C85 *)
(** The position is that of Lark's contract. *)
Theorem C85_place : forall d s p, good_seps d -> (error_at d s p <-> p = error_pos d s).
Proof. exact error_pos_at. Qed.
(** A text with a reading is parsed as before; a text without one gives its position and leaves the transformer as it is. *)
Theorem C85_parse : forall e fl st s, good_seps (ed e) ->
  (forall t, reads (ed e) s t -> parse_p e fl st s = parse e fl st s) /\
  ((forall t, ~ reads (ed e) s t) -> exists p, error_at (ed e) s p /\ parse_p e fl st s = (st, Err (ParseErr p (p + 1)))).
Proof.
  intros e fl st s G. unfold parse_p, parse. split.
  - intros t R. now rewrite (read_complete _ _ t G R).
  - intros N. destruct (read (ed e) s) as [t|] eqn:E; [apply read_sound in E; destruct (N t E)|]. exists (error_pos (ed e) s). split; auto. now apply error_pos_at.
Qed.
(** Up to the error, the text is a list of references, or is one when a number follows. *)
Theorem C85_before : forall d s p, error_at d s p -> exists a b, s = a ++ b /\ (p = zlen a \/ p = -1 /\ b = []) /\
  ((exists t, reads d a t) \/ exists t, reads d (a ++ ["1"%char]) t).
Proof.
  intros d s p (n & R & _ & ->). destruct (reaches_readable d s n R) as (a & b & -> & <- & Q). exists a, b. split; auto. split; auto.
  destruct (zlen a =? zlen (a ++ b)) eqn:E; auto. right. split; auto. apply Z.eqb_eq in E. rewrite zlen_app' in E. destruct b; auto. rewrite zlen_cons' in E. unfold zlen in E. lia.
Qed.
(** The error is at the end of the text, or at a character that is not white space. *)
Theorem C85_char : forall d s p, good_seps d -> error_at d s p -> p = -1 \/ 0 <= p < zlen s /\ exists c, znth s p = Some c /\ is_ws c = false.
Proof.
  intros d s p G (n & R & M & ->). destruct (greatest_not_ws d s n G R M) as (B & W). destruct (n =? zlen s) eqn:E; auto. right. apply Z.eqb_neq in E. split; [lia|]. apply W. lia.
Qed.
(** The position is -1 exactly if the text is unfinished: a number makes it readable. *)
Theorem C85_unfinished : forall d s p, good_seps d -> (forall t, ~ reads d s t) -> error_at d s p ->
  (p = -1 <-> exists t, reads d (s ++ ["1"%char]) t).
Proof.
  intros d s p G N E. split.
  - intros ->. destruct (C85_before d s _ E) as (a & b & -> & [Q|(_ & ->)] & [(t & R)|R]); try (unfold zlen in Q; lia); rewrite app_nil_r in *; auto. destruct (N t R).
  - intros (t & R). apply readable_one_reaches in R; auto. destruct E as (n & (ts & r & S & V & En) & M & ->). apply M in R. assert (n = zlen s) as -> by (unfold zlen in *; lia). now rewrite Z.eqb_refl.
Qed.
(** The errors of the constructors of lists from strings. *)
Definition perr (s : string) : res (list (list range)) := snd (parse_p (denv NONE) None ts_init (s2l s)).
Example C85_ex :
  perr "Gen 1:2:3" = Err (ParseErr 7 8) /\ perr "Gen;;" = Err (ParseErr 4 5) /\ perr "Gen 1 2" = Err (ParseErr 6 7) /\ perr "Gen 1-2-3" = Err (ParseErr 7 8) /\
  perr "G" = Err (ParseErr 0 1) /\ perr "Gen 1:2 - G" = Err (ParseErr 10 11) /\ perr "Gen 1:2  $" = Err (ParseErr 9 10) /\
  perr "Gen 1:" = Err (ParseErr (-1) 0) /\ perr "Gen 1 - " = Err (ParseErr (-1) 0) /\ perr "  " = Err (ParseErr (-1) 0) /\
  perr "Mark 2; Foo 3" = Err (ParseErr 8 11).
Proof. vm_compute. auto 20. Qed.
Example C85_contract_ex : error_at default_data (s2l "Gen 1:2:3") 7.
Proof. apply C85_place; [exact default_seps|]. vm_compute. reflexivity. Qed.

(** ** C86 *)
(** The error of a readable text delimits a book name, a reference or a range of its reading, whatever the tables and what
    is remembered. *)
Definition spans {A} (ts : list token) (q : tstate * res A) : Prop :=
  forall x, snd q = Err x -> exists p l r y i j, ts = p ++ l ++ r /\ g_ref l y /\ spanned l i j /\ x = ParseErr i j.
Lemma spans_app : forall A B p ts r (q : tstate * res A) (q' : tstate * res B), spans ts q -> (forall x, snd q' = Err x -> snd q = Err x) -> spans (p ++ ts ++ r) q'.
Proof.
  intros A B p ts r q q' S E x X. destruct (S x (E x X)) as (p1 & l & r1 & y & i & j & -> & G & Q). exists (p ++ p1), l, (r1 ++ r), y, i, j. split; auto. now rewrite <- !app_assoc.
Qed.
Lemma single_whole : forall e f st a x, known e a = true -> snd (t_single e f st a) = Err x -> x = ParseErr (s_pos a) (s_end a).
Proof.
  intros e f st a x. unfold known. destruct a as [n|n m|n c s v|c s v|m]; cbn [name_of t_single].
  - destruct (tok_book (ed e) n); [|discriminate]. intros _ H. now apply blame_err in H.
  - destruct (tok_book (ed e) n); [|discriminate]. intros _. destruct (chap_count e a =? 1); intros H; now apply blame_err in H.
  - destruct (tok_book (ed e) n); [|discriminate]. intros _ H. now apply blame_err in H.
  - destruct (ts_book st); intros _ H; [now apply blame_err in H|now injection H as <-].
  - destruct (ts_book st) as [b|]; [|intros _ H; now injection H as <-]. intros _.
    destruct (ts_vl st || (chap_count e b =? 1)); [|intros H; now apply blame_err in H].
    destruct (chap_count e b =? 1); [intros H; now apply blame_err in H|].
    destruct (ts_chap st); intros H; [now apply blame_err in H|now injection H as <-].
Qed.
Lemma single_spans : forall e f st a, g_single (toks a) a -> spans (toks a) (t_single e f st a).
Proof.
  intros e f st a G.
  assert (Whole : forall x, x = ParseErr (s_pos a) (s_end a) -> exists p l r y i j, toks a = p ++ l ++ r /\ g_ref l y /\ spanned l i j /\ x = ParseErr i j).
  { intros x ->. exists [], (toks a), [], (One a), (s_pos a), (s_end a). split; [now rewrite app_nil_r|]. split; [now constructor|]. split; auto. apply spanned_single. }
  destruct (known e a) eqn:K.
  - intros x X. apply Whole. exact (single_whole e f st a x K X).
  - destruct (single_unknown e f st a K) as (n & l & E & X). intros x Y. rewrite X in Y. injection Y as <-. exists [], [n], l, (One (SBook n)), (tpos n), (tend n). rewrite E.
    split; auto. split; [|split; [exists n, n; cbn; auto|reflexivity]]. constructor. constructor. destruct G; cbn [toks] in E; injection E as <- _; auto; discriminate.
Qed.
Lemma ref_spans : forall e f st x, g_ref (ref_toks x) x -> spans (ref_toks x) (t_ref e f st x).
Proof.
  intros e f st x G. pose proof G as G0. inversion G as [l a Ga|l m a s b Ga S Gb]; subst; cbn [ref_toks] in *.
  - cbn [t_ref]. now apply single_spans.
  - assert (La : l = toks a) by (destruct Ga; reflexivity). assert (Lb : m = toks b) by (destruct Gb; reflexivity). subst l m.
    cbn [t_ref]. pose proof (single_spans e f st a Ga) as Sa. destruct (t_single e f st a) as (st1, [r1|z]) eqn:E1.
    + pose proof (single_spans e f st1 b Gb) as Sb. destruct (t_single e f st1 b) as (st2, [r2|z]) eqn:E2.
      * intros x X. cbn [snd] in X. apply blame_err in X. subst x. exists [], (toks a ++ s :: toks b), [], (Two a s b), (s_pos a), (s_end b).
        split; [now rewrite app_nil_r|]. split; auto. split; auto. apply spanned_dual.
      * replace (toks a ++ s :: toks b) with ((toks a ++ [s]) ++ toks b ++ []) by (rewrite app_nil_r, <- app_assoc; reflexivity). eapply spans_app; [exact Sb|auto].
    + apply (spans_app _ _ [] (toks a) (s :: toks b) _ _ Sa). auto.
Qed.
Lemma rests_spans : forall e f l st, Forall (fun p => list_sep (fst p) /\ g_ref (ref_toks (snd p)) (snd p)) l -> spans (rest_toks l) (t_rests e f st l).
Proof.
  intros e f. induction l as [|(s, x) l IH]; intros st F; [intros y Y; discriminate|]. inversion F as [|? ? (_ & Gx) F']; subst. cbn [fst snd] in Gx. cbn [t_rests].
  change (rest_toks ((s, x) :: l)) with (s :: ref_toks x ++ rest_toks l).
  pose proof (ref_spans e f (t_sep st s) x Gx) as Sx. destruct (t_ref e f (t_sep st s) x) as (st1, [r|z]) eqn:E.
  - specialize (IH st1 F'). destruct (t_rests e f st1 l) as (st2, q) eqn:E2.
    replace (s :: ref_toks x ++ rest_toks l) with ((s :: ref_toks x) ++ rest_toks l ++ []) by (rewrite app_nil_r; reflexivity).
    eapply spans_app; [exact IH|]. intros y Y. cbn [snd] in *. destruct q; cbn [bind] in Y; [discriminate|]. injection Y as <-. reflexivity.
  - apply (spans_app _ _ [s] (ref_toks x) (rest_toks l) _ _ Sx). intros y Y. cbn [snd] in *. injection Y as <-. reflexivity.
Qed.
Lemma children_spans : forall e f st t ts, g_list ts t -> spans ts (t_children e f st t).
Proof.
  intros e f st t ts G. destruct (g_list_toks ts t G) as (-> & Gf & F). unfold tree_toks, t_children. set (tr := match t_trail t with Some s => [s] | None => [] end).
  pose proof (ref_spans e f st (t_first t) Gf) as Sx. destruct (t_ref e f st (t_first t)) as (st1, [r|z]) eqn:E.
  - pose proof (rests_spans e f (t_rest t) st1 (proj1 F)) as Sr. destruct (t_rests e f st1 (t_rest t)) as (st2, [cs|z]) eqn:E2.
    + intros y Y. destruct (t_trail t); discriminate.
    + eapply spans_app; [exact Sr|auto].
  - apply (spans_app _ _ [] (ref_toks (t_first t)) _ _ _ Sx). intros y Y. cbn [snd] in *. injection Y as <-. reflexivity.
Qed.
Theorem C86_text : forall e fl st s x, good_seps (ed e) -> snd (parse_p e fl st s) = Err x ->
  (exists ts t p l r y i j, spells (ed e) 0 s ts /\ g_list ts t /\ ts = p ++ l ++ r /\ g_ref l y /\ part_of (ed e) s i j l /\ x = ParseErr i j) \/
  (exists p, (forall t, ~ reads (ed e) s t) /\ error_at (ed e) s p /\ x = ParseErr p (p + 1)).
Proof.
  intros e fl st s x G E. destruct (C85_parse e fl st s G) as (P1 & P2). destruct (read (ed e) s) as [t|] eqn:R.
  - left. pose proof (read_sound _ _ _ R) as (ts & Sp & Gt). rewrite (P1 t) in E by (exists ts; auto). unfold parse in E. rewrite R in E.
    pose proof (children_spans e (eff e fl) st t ts Gt) as C. destruct (t_children e (eff e fl) st t) as (st', [cs|z]); [discriminate|]. cbn [snd bind] in E. injection E as <-.
    destruct (C z eq_refl) as (p & l & r & y & i & j & -> & Gy & Q & ->). exists (p ++ l ++ r), t, p, l, r, y, i, j. repeat (split; [assumption || reflexivity|]). split; auto.
    eapply spanned_part; eauto.
  - right. assert (Q : forall t, ~ reads (ed e) s t) by (intros t Rt; rewrite (read_complete _ _ t G Rt) in R; discriminate).
    destruct (P2 Q) as (p & A & Ep). rewrite Ep in E. cbn [snd] in E. injection E as <-. exists p. auto.
Qed.
(** Every error lies in the text, but that of an unfinished text. *)
Theorem C86_partial : forall e fl st s x, good_seps (ed e) -> snd (parse_p e fl st s) = Err x ->
  (exists i j, x = ParseErr i j /\ 0 <= i < j /\ j <= zlen s) \/
  (x = ParseErr (-1) 0 /\ (forall t, ~ reads (ed e) s t) /\ exists t, reads (ed e) (s ++ ["1"%char]) t).
Proof.
  intros e fl st s x G E. destruct (C86_text e fl st s x G E) as [(ts & t & p & l & r & y & i & j & _ & _ & _ & Gy & Q & ->)|(p & Q & A & ->)].
  - left. exists i, j. split; auto. destruct (g_ref_cons l y Gy) as (t1 & l' & ->). destruct Q as (a & z & b & -> & Ea & Ez & Sp & _). rewrite !zlen_app'.
    assert (0 < zlen z).
    { destruct z as [|c z]; [|rewrite zlen_cons'; unfold zlen; lia]. exfalso. destruct t1 as [k x0 j0]. apply spells_gap in Sp. destruct Sp as (w & s' & E0 & _ & T & _).
      symmetry in E0. apply app_eq_nil in E0. destruct E0 as (_ & E0). apply app_eq_nil in E0. destruct E0 as (-> & _). now apply term_nonempty in T. }
    unfold zlen in *. lia.
  - destruct (C85_char _ _ _ G A) as [->|(B & _)].
    + right. split; auto. split; auto. now apply (C85_unfinished (ed e) s (-1) G Q A).
    + left. exists p, (p + 1). split; auto. lia.
Qed.
(** The positions of an unfinished text are -1 and 0; the piece of the text that the message shows is empty. *)
Theorem C86_refuted : exists e fl st s i j, wf_data (ed e) /\ good_seps (ed e) /\ names_listed (ed e) /\ sane (ed e) st /\
  s <> [] /\ snd (parse_p e fl st s) = Err (ParseErr i j) /\ i < 0.
Proof.
  exists (denv NONE), None, ts_init, (s2l "Gen 1:"), (-1), 0. split; [exact default_wf|]. split; [exact default_seps|]. split; [exact default_names_listed|]. split; [apply sane_init|].
  split; [discriminate|]. split; [|lia]. vm_compute. reflexivity.
Qed.
Example C86_ex : snd (parse_p (denv NONE) None ts_init (s2l "Mark 2; Luke 25 : 3 , 4")) = Err (ParseErr 8 19) /\ perr "Mark 2; ;" = Err (ParseErr 8 9) /\ perr "" = Err (ParseErr (-1) 0).
Proof. vm_compute. auto. Qed.
