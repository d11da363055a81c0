(** * PropDigits: theorems on texts with numbers that are too long for [int()] (C80). *)
From Coq Require Import List ZArith NArith Bool Ascii String Lia.
From Verif Require Import Base Books Chars Regex Data DefaultData MVerse MRange MSeq MList MParse MDigits Spec SpecName SpecParse SpecMean SpecDigits.
From Verif Require Import PCore PLex PName PParse PParse2 PDefault PDigits PropParse PropWorld.
Import ListNotations.
Open Scope list_scope.
Open Scope Z_scope.

(** ** C80 *)
(** With a limit, ValueError is raised exactly if a number is too long and no error is found before its end; otherwise
    everything is as without a limit: the result, the exception and its positions, and what the transformer remembers. *)
Theorem C80_exact : forall lim e fl st s t ts, read (ed e) s = Some t -> spells (ed e) 0 s ts -> g_list ts t ->
  (snd (parse_l lim e fl st s) = Err ValueErr <-> long_first lim ts (snd (parse e fl st s))) /\
  (~ long_first lim ts (snd (parse e fl st s)) -> parse_l lim e fl st s = parse e fl st s).
Proof.
  intros lim e fl st s t ts R _ G. destruct (g_list_toks _ _ G) as (-> & _). pose proof (parse_exact lim e fl st s) as E. rewrite R in E.
  destruct E as (E1 & E2). split; [|exact E2]. split; [|exact E1]. intros V.
  destruct (long_first_dec _ lim (tree_toks t) (snd (parse e fl st s))) as [L|L]; [exact L|]. exfalso. rewrite (E2 L) in V.
  destruct (C46_no_other_exception _ _ _ _ _ V) as [X|(i & j & X)]; discriminate.
Qed.
Theorem C80_unreadable : forall lim e fl st s, read (ed e) s = None -> parse_l lim e fl st s = (st, Err SyntaxErr).
Proof. intros lim e fl st s R. pose proof (parse_exact lim e fl st s) as E. rewrite R in E. destruct E as (-> & E). exact E. Qed.
(** In particular numbers of up to [lim] digits are read as without a limit. *)
Theorem C80_short : forall lim e fl st s,
  (forall t ts m, spells (ed e) 0 s ts -> g_list ts t -> In m ts -> tk m = TNum -> lim = 0%N \/ (List.length (ttext m) <= N.to_nat lim)%nat) ->
  parse_l lim e fl st s = parse e fl st s.
Proof.
  intros lim e fl st s H. pose proof (parse_exact lim e fl st s) as E. destruct (read (ed e) s) as [t|] eqn:R; [|exact (proj1 E)].
  destruct (read_toks _ _ _ R) as (S & G). apply (proj2 E). intros (m & I & (K & L & N) & _).
  destruct (H t _ m S G I K); [contradiction|lia].
Qed.
Theorem C80_exceptions : forall lim e fl st s x, snd (parse_l lim e fl st s) = Err x ->
  x = SyntaxErr \/ x = ValueErr \/ exists i j, x = ParseErr i j.
Proof.
  intros lim e fl st s x X. pose proof (parse_exact lim e fl st s) as E. destruct (read (ed e) s) as [t|].
  - destruct (long_first_dec _ lim (tree_toks t) (snd (parse e fl st s))) as [L|L].
    + apply (proj1 E) in L. right. left. congruence.
    + rewrite (proj2 E L) in X. destruct (C46_no_other_exception _ _ _ _ _ X) as [?|?]; auto.
  - destruct E as (E & E'). rewrite E, E' in X. left. cbn in X. congruence.
Qed.
(** A ValueError leaves what the references and separators before the reference with the number leave, those without
    such numbers. *)
Theorem C80_state : forall lim e fl st s t, read (ed e) s = Some t -> snd (parse_l lim e fl st s) = Err ValueErr ->
  exists p a q m, events t = p ++ ERef a :: q /\ In m (toks a) /\ too_long lim m /\
    (forall x k, In x p -> In k (event_toks x) -> ~ too_long lim k) /\ fst (parse_l lim e fl st s) = leaves e fl st p.
Proof.
  intros lim e fl st s t R V. pose proof (parse_state lim e fl st s t R) as S. destruct (parse_l lim e fl st s) as (st', q). cbn [snd fst] in *. subst q.
  destruct S as (p & a & q & m & E & F & I & L & ->). exists p, a, q, m. repeat (split; [assumption|]). split; [|reflexivity].
  intros x k Ix Ik. rewrite Forall_forall in F. exact (F x Ix k Ik).
Qed.
(** It is again a state in which the theorems about reading apply. *)
Theorem C80_sane : forall lim e fl st s, wf_data (ed e) -> names_listed (ed e) -> good_seps (ed e) -> sane (ed e) st ->
  sane (ed e) (fst (parse_l lim e fl st s)).
Proof.
  intros lim e fl st s W N G S. destruct (read (ed e) s) as [t|] eqn:R.
  - pose proof (parse_exact lim e fl st s) as E. rewrite R in E.
    destruct (long_first_dec _ lim (tree_toks t) (snd (parse e fl st s))) as [L|L].
    + destruct (C80_state lim e fl st s t R (proj1 E L)) as (p & a & q & m & _ & _ & _ & _ & ->). unfold leaves.
      clear - W N S. revert st S. induction p as [|x p IH]; intros st S; cbn [fold_left]; [exact S|]. apply IH. destruct x as [b|s].
      * pose proof (t_single_spec e fl W N st b S) as H. destruct (t_single e (eff e fl) st b) as (st', [r|y]); cbn [fst]; apply H.
      * exact (proj1 (t_sep_spec e st s S)).
    + rewrite (proj2 E L). now apply parse_sane.
  - now rewrite C80_unreadable.
Qed.
(** The constructors from strings pass the ValueError on, and are else those without a limit. *)
Theorem C80_constructors : forall lim e fl st s,
  (snd (parse_l lim e fl st s) = Err ValueErr ->
     let st' := fst (parse_l lim e fl st s) in
     list_from_str_l lim e fl st s = (st', Err ValueErr) /\ range_from_str_l lim e fl st s = (st', Err ValueErr) /\
     verse_from_str_l lim e fl st s = (st', Err ValueErr)) /\
  (snd (parse_l lim e fl st s) <> Err ValueErr ->
     list_from_str_l lim e fl st s = list_from_str e fl st s /\ range_from_str_l lim e fl st s = range_from_str e fl st s /\
     verse_from_str_l lim e fl st s = verse_from_str e fl st s).
Proof.
  intros lim e fl st s.
  assert (P : forall f, eff e f = eff e fl -> parse_l lim e f st s = parse_l lim e fl st s /\ parse e f st s = parse e fl st s).
  { intros f E. unfold parse_l, parse. now rewrite E. }
  unfold range_from_str_l, range_from_str, verse_from_str_l, verse_from_str, list_from_str_l, list_from_str.
  rewrite !eff_eff. destruct (P (Some (eff e fl)) (eff_eff e fl)) as (-> & ->).
  split.
  - intros V. destruct (parse_l lim e fl st s) as (st', q). cbn [snd fst] in *. subst q. auto.
  - intros V. assert (E : parse_l lim e fl st s = parse e fl st s); [|rewrite E; auto].
    pose proof (parse_exact lim e fl st s) as E. destruct (read (ed e) s) as [t|]; [|exact (proj1 E)].
    apply (proj2 E). intros L. apply V. exact (proj1 E L).
Qed.
Theorem C80_no_limit : forall e fl st s, parse_l 0 e fl st s = parse e fl st s /\ list_from_str_l 0 e fl st s = list_from_str e fl st s /\
  range_from_str_l 0 e fl st s = range_from_str e fl st s /\ verse_from_str_l 0 e fl st s = verse_from_str e fl st s.
Proof.
  intros e fl st s. assert (E : parse_l 0 e fl st s = parse e fl st s) by (apply C80_short; auto). split; [exact E|].
  apply (proj2 (C80_constructors 0 e fl st s)). rewrite E. intros V. destruct (C46_no_other_exception _ _ _ _ _ V) as [X|(i & j & X)]; discriminate.
Qed.

(** Limits as small as these are not possible in Python (the least is 640), but the model has any. *)
Definition parse3 s := parse_l 3 (denv NONE) None ts_init (s2l s).
Example C80_ex :
  (* a good text, and one with a wrong book before the number *)
  snd (parse3 "Psalms 119:176; 02:003") = snd (parse (denv NONE) None ts_init (s2l "Psalms 119:176; 02:003")) /\
  snd (parse3 "Psalms 119:176; 02:003") = Ok [[R (V Psa 119 176) (V Psa 119 176)]; [R (V Psa 2 3) (V Psa 2 3)]] /\
  snd (parse3 "Foo 0001") = Err (ParseErr 0 3) /\ snd (parse3 "Mark 2; Foo 3:0004") = Err (ParseErr 8 11) /\
  snd (parse3 "Mark 99; Luke 0001") = Err (ParseErr 0 7) /\ snd (parse3 "Mark 0001;;") = Err SyntaxErr /\
  (* a number before the error, or in the reference that is wrong *)
  parse3 "Mark 2:3; Luke 0001; Foo 3" = (TS (Some Mark) (Some 2) false, Err ValueErr) /\
  parse3 "Mark 99:0004" = (ts_init, Err ValueErr) /\ parse3 "0004:1" = (ts_init, Err ValueErr) /\
  parse3 "Mark 2:3-0004" = (TS (Some Mark) (Some 2) true, Err ValueErr) /\
  snd (parse (denv NONE) None ts_init (s2l "Mark 99:0004")) = Err (ParseErr 0 12) /\
  snd (parse (denv NONE) None ts_init (s2l "Mark 2:3-0004")) = Ok [[R (V Mark 2 3) (V Mark 2 4)]] /\
  snd (verse_from_str_l 3 (denv NONE) None ts_init (s2l "Mark 2:0003")) = Err ValueErr /\
  snd (range_from_str_l 3 (denv NONE) None ts_init (s2l "Mark 2:0003")) = Err ValueErr /\
  snd (list_from_str_l 4 (denv NONE) None ts_init (s2l "Mark 2:0003")) = Ok [[R (V Mark 2 3) (V Mark 2 3)]].
Proof. vm_compute. repeat (split; [reflexivity|]). reflexivity. Qed.

(** ** C46 under a limit: another exception escapes *)
(** Whatever the limit, there is a text of a reference that is accepted without a limit and raises ValueError with it. *)
Definition zeros (n : N) : str := List.repeat "0"%char (N.to_nat n).
Lemma undec_zeros : forall n, Z.of_N (undec (zeros n ++ ["1"%char])) = 1.
Proof.
  intros n. unfold zeros. assert (H : forall k, undec (List.repeat "0"%char k ++ ["1"%char]) = 1%N); [|now rewrite H].
  intros k. unfold undec. induction k as [|k IH]; [reflexivity|exact IH].
Qed.
Lemma long_reading : forall n, let x := zeros n ++ ["1"%char] in
  read default_data (s2l "Mark " ++ x) = Some (Tree (One (SBookNum (Tok TName (s2l "Mark") 0) (Tok TNum x 5))) [] None) /\
  spells default_data 0 (s2l "Mark " ++ x) [Tok TName (s2l "Mark") 0; Tok TNum x 5] /\
  g_list [Tok TName (s2l "Mark") 0; Tok TNum x 5] (Tree (One (SBookNum (Tok TName (s2l "Mark") 0) (Tok TNum x 5))) [] None).
Proof.
  intros n x.
  assert (S : spells default_data 0 (s2l "Mark " ++ x) [Tok TName (s2l "Mark") 0; Tok TNum x 5]).
  { change (s2l "Mark " ++ x) with ([] ++ s2l "Mark" ++ [" "%char] ++ x).
    rewrite <- (app_nil_r x) at 1. apply (Sp_tok default_data 0 [] TName (s2l "Mark") ([" "%char] ++ x ++ []) [Tok TNum x 5]).
    - constructor.
    - apply is_name_spec. reflexivity.
    - apply (Sp_tok default_data 4 [" "%char] TNum x [] []).
      + constructor; [reflexivity|constructor].
      + split; [unfold x; destruct (zeros n); discriminate|]. apply Forall_app. split; [|constructor; [reflexivity|constructor]].
        unfold zeros. induction (N.to_nat n) as [|k IH]; constructor; auto.
      + constructor. constructor. }
  assert (G : g_list [Tok TName (s2l "Mark") 0; Tok TNum x 5] (Tree (One (SBookNum (Tok TName (s2l "Mark") 0) (Tok TNum x 5))) [] None)).
  { set (l := [_; _]). rewrite <- (app_nil_r l). constructor; [|constructor]. constructor. constructor; reflexivity. }
  split; [|auto]. apply read_complete; [exact default_seps|]. exists [Tok TName (s2l "Mark") 0; Tok TNum x 5]. auto.
Qed.
Theorem C80_every_limit : forall lim, lim <> 0%N -> let s := s2l "Mark " ++ zeros lim ++ ["1"%char] in
  snd (parse (denv NONE) None ts_init s) = Ok [[R (V Mark 1 1) (V Mark 1 45)]] /\
  parse_l lim (denv NONE) None ts_init s = (ts_init, Err ValueErr).
Proof.
  intros lim L s. destruct (long_reading lim) as (Rd & S & G). fold s in Rd, S.
  assert (P : snd (parse (denv NONE) None ts_init s) = Ok [[R (V Mark 1 1) (V Mark 1 45)]]).
  { unfold parse. cbn [ed denv]. change (ed (denv NONE)) with default_data. rewrite Rd. unfold t_children. cbn [t_first t_ref t_single t_rest t_trail].
    set (m := Tok TNum (zeros lim ++ ["1"%char]) 5). assert (M : tok_num m = 1) by apply undec_zeros. rewrite M.
    assert (B : tok_book (ed (denv NONE)) (Tok TName (s2l "Mark") 0) = Ok Mark) by (vm_compute; reflexivity). rewrite B.
    assert (C : (chap_count (denv NONE) Mark =? 1) = false) by (vm_compute; reflexivity). rewrite C.
    assert (X : new_range_pos (denv NONE) (PB Mark (Some 1) None) (Some (eff (denv NONE) None)) = Ok (R (V Mark 1 1) (V Mark 1 45))) by (vm_compute; reflexivity).
    rewrite X. reflexivity. }
  split; [exact P|].
  assert (V : snd (parse_l lim (denv NONE) None ts_init s) = Err ValueErr).
  { apply (C80_exact lim (denv NONE) None ts_init s _ _ Rd S G). rewrite P. eexists. split; [right; left; reflexivity|]. split; [|discriminate].
    split; [reflexivity|]. split; [exact L|]. cbn [ttext]. rewrite app_length. unfold zeros. rewrite repeat_length. cbn [List.length]. lia. }
  destruct (C80_state lim (denv NONE) None ts_init s _ Rd V) as (p & a & q & m & E & _ & _ & _ & F).
  cbn [events ref_events rest_events t_first t_rest t_trail app] in E.
  assert (p = []) as ->.
  { destruct p as [|y p]; [reflexivity|]. injection E as _ E. destruct p; discriminate. }
  unfold leaves in F. cbn [fold_left] in F. destruct (parse_l lim (denv NONE) None ts_init s) as (st', v). cbn [fst snd] in F, V. now rewrite F, V.
Qed.
Theorem C46_digits_refuted : exists e s t, reads (ed e) s t /\
  snd (list_from_str_l 4300 e None ts_init s) = Err ValueErr /\ snd (range_from_str_l 4300 e None ts_init s) = Err ValueErr /\
  snd (verse_from_str_l 4300 e None ts_init s) = Err ValueErr.
Proof.
  exists (denv NONE), (s2l "Mark 1:1" ++ zeros 4300).
  destruct (read default_data (s2l "Mark 1:1" ++ zeros 4300)) as [t|] eqn:E; [|vm_compute in E; discriminate].
  exists t. split; [now apply read_sound|]. vm_compute. auto.
Qed.
