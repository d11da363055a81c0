(** * PAlike: reading texts that differ in what does not matter. *)
From Coq Require Import List ZArith NArith Bool Ascii Lia.
From Verif Require Import Base Books Chars Regex Data MVerse MRange MSeq MList MParse SpecParse SpecName PLex PName SpecAlike.
Import ListNotations.
Open Scope Z_scope.
Open Scope list_scope.

(** ** Trees *)
Section Trees.
Variable R : token -> token -> Prop.
Inductive single_rel : single -> single -> Prop :=
| Q_book n n' : R n n' -> single_rel (SBook n) (SBook n')
| Q_book_num n m n' m' : R n n' -> R m m' -> single_rel (SBookNum n m) (SBookNum n' m')
| Q_full n c s v n' c' s' v' : R n n' -> R c c' -> R v v' -> single_rel (SFull n c s v) (SFull n' c' s' v')
| Q_chap_verse c s v c' s' v' : R c c' -> R v v' -> single_rel (SChapVerse c s v) (SChapVerse c' s' v')
| Q_num m m' : R m m' -> single_rel (SNum m) (SNum m').
Inductive ref_rel : ref_node -> ref_node -> Prop :=
| Q_one a b : single_rel a b -> ref_rel (One a) (One b)
| Q_two a s b a' s' b' : single_rel a a' -> single_rel b b' -> ref_rel (Two a s b) (Two a' s' b').
Definition rest_rel (p q : token * ref_node) : Prop := tk (fst p) = tk (fst q) /\ ref_rel (snd p) (snd q).
Definition opt_rel (p q : option token) : Prop :=
  match p, q with None, None => True | Some s, Some t => tk s = tk t | _, _ => False end.
Definition tree_rel (t u : tree) : Prop :=
  ref_rel (t_first t) (t_first u) /\ Forall2 rest_rel (t_rest t) (t_rest u) /\ opt_rel (t_trail t) (t_trail u).
Hypothesis Rk : forall t u, R t u -> tk t = tk u.

Lemma g_single_rel : forall ts us a, Forall2 R ts us -> g_single ts a -> exists b, g_single us b /\ single_rel a b.
Proof.
  intros ts us a F G. inversion G; subst; repeat match goal with H : Forall2 R (_ :: _) _ |- _ => inversion H; clear H; subst | H : Forall2 R [] _ |- _ => inversion H; clear H; subst end;
    repeat match goal with H : R ?x ?y |- _ => match goal with K : tk x = tk y |- _ => fail 1 | _ => pose proof (Rk _ _ H) end end;
    eexists; (split; [|constructor; eassumption]); constructor; congruence.
Qed.
Lemma g_ref_rel : forall ts us a, Forall2 R ts us -> g_ref ts a -> exists b, g_ref us b /\ ref_rel a b.
Proof.
  intros ts us a F G. inversion G as [l x Hx|l m x s y Hx Hs Hy]; subst.
  - destruct (g_single_rel _ _ _ F Hx) as (b & Gb & Rb). exists (One b). split; constructor; auto.
  - apply Forall2_app_inv_l in F. destruct F as (l' & r' & F1 & F2 & ->). inversion F2 as [|? s' ? m' Rs F3]; subst.
    destruct (g_single_rel _ _ _ F1 Hx) as (b & Gb & Rb). destruct (g_single_rel _ _ _ F3 Hy) as (b' & Gb' & Rb').
    exists (Two b s' b'). split; constructor; auto. rewrite <- (Rk _ _ Rs). exact Hs.
Qed.
Lemma g_rest_rel : forall ts r t, g_rest ts r t -> forall us, Forall2 R ts us -> exists r' t', g_rest us r' t' /\ Forall2 rest_rel r r' /\ opt_rel t t'.
Proof.
  induction 1 as [|s Hs|s l x m r t Hs Hx Hm IH]; intros us F.
  - inversion F; subst. exists [], None. split; [constructor|]. split; [constructor|exact I].
  - inversion F as [|? s' ? us' Rs F']; subst. inversion F'; subst. exists [], (Some s'). pose proof (Rk _ _ Rs) as E. split; [constructor; now rewrite <- E|]. split; [constructor|exact E].
  - inversion F as [|? s' ? us' Rs F']; subst. apply Forall2_app_inv_l in F'. destruct F' as (l' & m' & F1 & F2 & ->).
    destruct (g_ref_rel _ _ _ F1 Hx) as (x' & Gx & Rx). destruct (IH _ F2) as (r' & t' & Gr & Rr & Rt). pose proof (Rk _ _ Rs) as E.
    exists ((s', x') :: r'), t'. split; [constructor; auto; now rewrite <- E|]. split; [|exact Rt]. constructor; auto. split; auto.
Qed.
Lemma g_list_rel : forall ts us t, Forall2 R ts us -> g_list ts t -> exists u, g_list us u /\ tree_rel t u.
Proof.
  intros ts us t F G. inversion G as [l x m r tr Hx Hr]; subst. apply Forall2_app_inv_l in F. destruct F as (l' & m' & F1 & F2 & ->).
  destruct (g_ref_rel _ _ _ F1 Hx) as (x' & Gx & Rx). destruct (g_rest_rel _ _ _ Hr _ F2) as (r' & t' & Gr & Rr & Rt).
  exists (Tree x' r' t'). split; [now constructor|]. repeat split; auto.
Qed.

(** ** The transformer *)
Variable e : env.
Variable f : flag.
Hypothesis Rn : forall t u, R t u -> tk t = TName -> from_str (ed e) (ttext t) = from_str (ed e) (ttext u).
Hypothesis Rz : forall t u, R t u -> tk t = TNum -> tok_num t = tok_num u.
Definition out_rel {A} (q r : res A) : Prop :=
  (exists a, q = Ok a /\ r = Ok a) \/ exists t u t' u', R t t' /\ R u u' /\ q = Err (ParseErr (tpos t) (tend u)) /\ r = Err (ParseErr (tpos t') (tend u')).
Definition run_rel {A} (p q : tstate * res A) : Prop := fst p = fst q /\ out_rel (snd p) (snd q) /\ (forall a, snd p = Ok a -> snd q = Ok a).
Lemma run_same : forall {A} st (q r : res A), out_rel q r -> run_rel (st, q) (st, r).
Proof. intros A st q r H. split; [reflexivity|]. split; [exact H|]. cbn. intros a ->. destruct H as [(b & E & ->)|(t & u & t' & u' & _ & _ & E & _)]; [now rewrite E|discriminate]. Qed.
Lemma run_ok : forall {A} st (a : A), run_rel (st, Ok a) (st, Ok a).
Proof. intros A st a. apply run_same. left. eauto. Qed.

(** Kinds of the tokens of a reference. *)
Definition kinds (a : single) : Prop :=
  match a with
  | SBook n => tk n = TName
  | SBookNum n m => tk n = TName /\ tk m = TNum
  | SFull n c _ v => tk n = TName /\ tk c = TNum /\ tk v = TNum
  | SChapVerse c _ v => tk c = TNum /\ tk v = TNum
  | SNum m => tk m = TNum
  end.
Lemma g_kinds : forall ts a, g_single ts a -> kinds a.
Proof. intros ts a G. inversion G; cbn; auto. Qed.
Lemma ends_rel : forall a b, single_rel a b -> exists t u t' u', R t t' /\ R u u' /\ s_pos a = tpos t /\ s_end a = tend u /\ s_pos b = tpos t' /\ s_end b = tend u'.
Proof. intros a b H. inversion H; subst; cbn; do 4 eexists; repeat split; eauto. Qed.
Lemma blame_rel : forall {A} a b a' b' (m : res A), single_rel a b -> single_rel a' b' -> out_rel (blame (s_pos a) (s_end a') m) (blame (s_pos b) (s_end b') m).
Proof.
  intros A a b a' b' [x|x] H H'; [left; exists x; auto|]. right. destruct (ends_rel _ _ H) as (t & _ & t' & _ & R1 & _ & E1 & _ & E2 & _). destruct (ends_rel _ _ H') as (_ & u & _ & u' & _ & R2 & _ & E3 & _ & E4).
  cbn [blame]. rewrite E1, E2, E3, E4. exists t, u, t', u'. auto.
Qed.
Lemma here_rel : forall {A} a b, single_rel a b -> @out_rel A (Err (ParseErr (s_pos a) (s_end a))) (Err (ParseErr (s_pos b) (s_end b))).
Proof. intros A a b H. exact (blame_rel a b a b (Err InvalidRef) H H). Qed.
Lemma book_rel : forall n n', R n n' -> tk n = TName ->
  (exists b, tok_book (ed e) n = Ok b /\ tok_book (ed e) n' = Ok b) \/
  (exists x x', tok_book (ed e) n = Err x /\ tok_book (ed e) n' = Err x' /\ forall A, @out_rel A (Err x) (Err x')).
Proof.
  intros n n' H K. unfold tok_book. rewrite <- (Rn _ _ H K). destruct (from_str (ed e) (ttext n)) as [b|]; [left; eauto|right].
  do 2 eexists. split; [reflexivity|]. split; [reflexivity|]. intros A. right. exists n, n, n', n'. auto.
Qed.
Lemma t_single_rel : forall st a b, single_rel a b -> kinds a -> run_rel (t_single e f st a) (t_single e f st b).
Proof.
  intros st a b H K. pose proof (fun A m => @blame_rel A a b a b m H H) as B. pose proof (fun A => @here_rel A a b H) as E.
  destruct H as [n n' Hn|n m n' m' Hn Hm|n c s v n' c' s' v' Hn Hc Hv|c s v c' s' v' Hc Hv|m m' Hm]; cbn [kinds t_single] in *.
  - destruct (book_rel _ _ Hn K) as [(b & -> & ->)|(x & x' & -> & -> & X)]; apply run_same; auto.
  - destruct K as (K1 & K2). rewrite <- (Rz _ _ Hm K2). destruct (book_rel _ _ Hn K1) as [(b & -> & ->)|(x & x' & -> & -> & X)]; [|apply run_same; auto].
    destruct (chap_count e b =? 1); apply run_same; auto.
  - destruct K as (K1 & K2 & K3). rewrite <- (Rz _ _ Hc K2), <- (Rz _ _ Hv K3). destruct (book_rel _ _ Hn K1) as [(b & -> & ->)|(x & x' & -> & -> & X)]; apply run_same; auto.
  - destruct K as (K2 & K3). rewrite <- (Rz _ _ Hc K2), <- (Rz _ _ Hv K3). destruct (ts_book st); apply run_same; auto.
  - rewrite <- (Rz _ _ Hm K). destruct (ts_book st) as [b|]; [|apply run_same; auto].
    destruct (ts_vl st || (chap_count e b =? 1)); [|apply run_same; auto]. destruct (chap_count e b =? 1); [apply run_same; auto|]. destruct (ts_chap st); apply run_same; auto.
Qed.
Lemma run_err : forall {A B} (p q : tstate * res A) st st' x y, run_rel p q -> p = (st, Err x) -> q = (st', y) ->
  exists x', q = (st, Err x') /\ @out_rel B (Err x) (Err x').
Proof.
  intros A B p q st st' x y (E1 & O & _) -> ->. cbn in E1, O. subst st'. destruct O as [(a & K & _)|(t & u & t' & u' & R1 & R2 & [= ->] & ->)].
  - discriminate.
  - eexists. split; [reflexivity|]. right. exists t, u, t', u'. auto.
Qed.
Definition ref_kinds (x : ref_node) : Prop := match x with One a => kinds a | Two a _ b => kinds a /\ kinds b end.
Lemma g_ref_kinds : forall ts x, g_ref ts x -> ref_kinds x.
Proof. intros ts x G. inversion G; cbn; eauto using g_kinds. Qed.
Lemma t_ref_rel : forall st x y, ref_rel x y -> ref_kinds x -> run_rel (t_ref e f st x) (t_ref e f st y).
Proof.
  intros st x y [a b H|a s b a' s' b' Ha Hb] K; cbn [t_ref ref_kinds] in *; [now apply t_single_rel|]. destruct K as (Ka & Kb).
  pose proof (t_single_rel st a a' Ha Ka) as T1. destruct (t_single e f st a) as [st1 [r1|x1]] eqn:E1; destruct (t_single e f st a') as [st1' q1] eqn:E1'.
  2:{ destruct (run_err (B := range) _ _ _ _ _ _ T1 eq_refl eq_refl) as (x' & [= -> ->] & O). now apply run_same. }
  pose proof T1 as (F1 & _ & O1). cbn in F1, O1. subst st1'. rewrite (O1 _ eq_refl).
  pose proof (t_single_rel st1 b b' Hb Kb) as T2. destruct (t_single e f st1 b) as [st2 [r2|x2]] eqn:E2; destruct (t_single e f st1 b') as [st2' q2] eqn:E2'.
  2:{ destruct (run_err (B := range) _ _ _ _ _ _ T2 eq_refl eq_refl) as (x' & [= -> ->] & O). now apply run_same. }
  pose proof T2 as (F2 & _ & O2). cbn in F2, O2. subst st2'. rewrite (O2 _ eq_refl). cbv zeta. apply run_same. now apply blame_rel.
Qed.
Lemma g_rest_kinds : forall ts r t, g_rest ts r t -> Forall (fun p => ref_kinds (snd p)) r.
Proof. induction 1; constructor; auto. cbn. eapply g_ref_kinds; eauto. Qed.
Lemma t_rests_rel : forall l l', Forall2 rest_rel l l' -> Forall (fun p => ref_kinds (snd p)) l -> forall st, run_rel (t_rests e f st l) (t_rests e f st l').
Proof.
  induction 1 as [|[s x] [s' x'] l l' (Es & Hx) F IH]; intros K st; cbn [t_rests]; [apply run_ok|].
  cbn [fst snd] in *. inversion K as [|? ? K1 K2]; subst. cbn [snd] in K1.
  assert (Et : t_sep st s = t_sep st s' /\ sep_child s = sep_child s') by (unfold t_sep, sep_child; rewrite Es; auto). destruct Et as (-> & ->).
  pose proof (t_ref_rel (t_sep st s') x x' Hx K1) as T1. destruct (t_ref e f (t_sep st s') x) as [st1 [r1|x1]] eqn:E1; destruct (t_ref e f (t_sep st s') x') as [st1' q1] eqn:E1'.
  2:{ destruct (run_err (B := list child) _ _ _ _ _ _ T1 eq_refl eq_refl) as (x2 & [= -> ->] & O). now apply run_same. }
  pose proof T1 as (F1 & _ & O1). cbn in F1, O1. subst st1'. rewrite (O1 _ eq_refl).
  pose proof (IH K2 st1) as T2. destruct (t_rests e f st1 l) as [st2 [r2|x2]] eqn:E2; destruct (t_rests e f st1 l') as [st2' q2] eqn:E2'.
  - destruct T2 as (F2 & _ & O2). cbn in F2, O2. subst st2'. rewrite (O2 _ eq_refl). apply run_ok.
  - destruct (run_err (B := list child) _ _ _ _ _ _ T2 eq_refl eq_refl) as (x3 & [= -> ->] & O). cbn [bind]. now apply run_same.
Qed.
Lemma t_children_rel : forall ts st t u, g_list ts t -> tree_rel t u -> run_rel (t_children e f st t) (t_children e f st u).
Proof.
  intros ts st t u G (H1 & H2 & H3). unfold t_children.
  assert (K : ref_kinds (t_first t) /\ Forall (fun p => ref_kinds (snd p)) (t_rest t)).
  { inversion G as [l x m r tr Hx Hr]; subst. cbn. split; [eapply g_ref_kinds; eauto|eapply g_rest_kinds; eauto]. }
  destruct K as (K1 & K2).
  pose proof (t_ref_rel st _ _ H1 K1) as T1. destruct (t_ref e f st (t_first t)) as [st1 [r1|x1]] eqn:E1; destruct (t_ref e f st (t_first u)) as [st1' q1] eqn:E1'.
  2:{ destruct (run_err (B := list child) _ _ _ _ _ _ T1 eq_refl eq_refl) as (x2 & [= -> ->] & O). now apply run_same. }
  pose proof T1 as (F1 & _ & O1). cbn in F1, O1. subst st1'. rewrite (O1 _ eq_refl).
  pose proof (t_rests_rel _ _ H2 K2 st1) as T2. destruct (t_rests e f st1 (t_rest t)) as [st2 [r2|x2]] eqn:E2; destruct (t_rests e f st1 (t_rest u)) as [st2' q2] eqn:E2'.
  2:{ destruct (run_err (B := list child) _ _ _ _ _ _ T2 eq_refl eq_refl) as (x3 & [= -> ->] & O). now apply run_same. }
  destruct T2 as (F2 & _ & O2). cbn in F2, O2. subst st2'. rewrite (O2 _ eq_refl).
  destruct (t_trail t) as [s|], (t_trail u) as [s'|]; cbn in H3; try contradiction; [|apply run_ok].
  assert (Et : t_sep st2 s = t_sep st2 s' /\ sep_child s = sep_child s') by (unfold t_sep, sep_child; rewrite H3; auto). destruct Et as (-> & ->). apply run_ok.
Qed.
End Trees.

(** ** Letter case *)
Lemma case_char : forall c x, lower c = lower x ->
  (c = x \/ (is_word c = true /\ is_word x = true)) /\ is_word c = is_word x /\ is_digit c = is_digit x /\ is_space c = is_space x /\ is_ws c = is_ws x /\ (is_digit c = true -> c = x).
Proof.
  assert (T : forallb (fun n => forallb (fun m =>
      let c := ascii_of_nat n in let x := ascii_of_nat m in
      negb (Ascii.eqb (lower c) (lower x)) || Nat.eqb n m ||
      (is_word c && is_word x && negb (is_digit c) && negb (is_digit x) && negb (is_space c) && negb (is_space x) && negb (is_ws c) && negb (is_ws x))) (List.seq 0 256)) (List.seq 0 256) = true) by (vm_compute; reflexivity).
  intros c x E. rewrite forallb_forall in T.
  assert (I : forall a, In (nat_of_ascii a) (List.seq 0 256)) by (intros a; apply in_seq; pose proof (nat_ascii_bounded a); lia).
  pose proof (T _ (I c)) as Tc. cbv beta in Tc. rewrite forallb_forall in Tc. pose proof (Tc _ (I x)) as Tx. cbv beta zeta in Tx. rewrite !ascii_nat_embedding in Tx. clear T Tc.
  rewrite E, Ascii.eqb_refl in Tx. cbn [negb orb] in Tx. apply Bool.orb_true_iff in Tx. destruct Tx as [Tx|Tx].
  - apply Nat.eqb_eq in Tx. assert (c = x) by (rewrite <- (ascii_nat_embedding c), <- (ascii_nat_embedding x); now rewrite Tx). subst x. repeat split; auto.
  - rewrite !Bool.andb_true_iff, !Bool.negb_true_iff in Tx. destruct Tx as (((((((A & B) & C) & D) & F) & G) & H) & J). rewrite A, B, C, D, F, G, H, J. repeat split; auto. discriminate.
Qed.
Lemma case_sep : forall d c x, good_seps d -> lower c = lower x -> is_sep d c -> c = x.
Proof.
  intros d c x G E S. destruct (gs_punct d G c S) as (W & _). destruct (case_char c x E) as ([->|(K & _)] & _); [reflexivity|congruence].
Qed.
Lemma same_split : forall (a b s' : str), same_letters (a ++ b) s' -> exists a' b', s' = a' ++ b' /\ same_letters a a' /\ same_letters b b'.
Proof.
  unfold same_letters. intros a b s' H. rewrite map_app in H. symmetry in H. apply map_eq_app in H. destruct H as (a' & b' & -> & H1 & H2). exists a', b'. auto.
Qed.
Lemma same_len : forall a b, same_letters a b -> zlen a = zlen b.
Proof. unfold same_letters, zlen. intros a b H. rewrite <- (map_length lower a), H, map_length. reflexivity. Qed.
Lemma same_all : forall (P : ascii -> Prop), (forall c x, lower c = lower x -> P c -> P x) -> forall a b, same_letters a b -> Forall P a -> Forall P b.
Proof.
  unfold same_letters. intros P HP. induction a as [|c a IH]; intros [|x b] H F; try discriminate; [constructor|]. cbn in H. inversion F; subst. constructor; [eapply HP; [|eassumption]; congruence|]. apply IH; [congruence|assumption].
Qed.
Lemma same_white : forall a b, same_letters a b -> white a -> white b.
Proof. apply (same_all (fun c => is_ws c = true)). intros c x E H. destruct (case_char c x E) as (_ & _ & _ & _ & K & _). congruence. Qed.
Lemma same_digits : forall a b, same_letters a b -> Forall (fun c => is_digit c = true) a -> a = b.
Proof.
  unfold same_letters. induction a as [|c a IH]; intros [|x b] H F; try discriminate; [reflexivity|]. cbn in H. inversion F; subst. destruct (case_char c x ltac:(congruence)) as (_ & _ & _ & _ & _ & K). rewrite (K ltac:(assumption)). f_equal. apply IH; [congruence|assumption].
Qed.
Lemma same_sym : forall a b, same_letters a b -> same_letters b a.
Proof. unfold same_letters. auto. Qed.
Lemma same_one : forall c x, same_letters [c] x -> exists y, x = [y] /\ lower c = lower y.
Proof. unfold same_letters. intros c [|y [|z x]] H; try discriminate. exists y. cbn in H. split; congruence. Qed.
Lemma same_term : forall d k x y, good_seps d -> same_letters x y -> in_term d k x -> in_term d k y /\ (k <> TName -> x = y).
Proof.
  intros d k x y G H T. assert (S : forall c, is_sep d c -> x = [c] -> x = y).
  { intros c Sc ->. destruct (same_one _ _ H) as (z & -> & E). now rewrite (case_sep d c z G E Sc). }
  destruct k; cbn [in_term] in *.
  - split; [|congruence]. destruct T as (c & m & z & -> & W & F & D & P & Z). change (c :: m ++ [z]) with ([c] ++ m ++ [z]) in H.
    apply same_split in H. destruct H as (c' & r & -> & Hc & H). apply same_split in H. destruct H as (m' & z' & -> & Hm & Hz).
    destruct (same_one _ _ Hc) as (c1 & -> & Ec). destruct (same_one _ _ Hz) as (z1 & -> & Ez). exists c1, m', z1.
    destruct (case_char _ _ Ec) as (_ & Wc & _). destruct (case_char _ _ Ez) as (Kz & _ & Dz & Pz & _). split; [reflexivity|]. split; [congruence|]. split.
    + refine (same_all (fun y => is_word y = true \/ is_space y = true) _ m m' Hm F). intros a b E. destruct (case_char a b E) as (_ & -> & _ & -> & _). auto.
    + split; [congruence|]. split; [congruence|]. intros Sz. apply Z. rewrite <- (case_sep d z1 z G (eq_sym Ez) Sz). exact Sz.
  - destruct T as (N & F). rewrite <- (same_digits _ _ H F). auto.
  - assert (x = y) by (eapply S; [|eassumption]; unfold is_sep; tauto). subst y. auto.
  - assert (x = y) by (eapply S; [|eassumption]; unfold is_sep; tauto). subst y. auto.
  - assert (x = y) by (eapply S; [|eassumption]; unfold is_sep; tauto). subst y. auto.
  - assert (x = y) by (destruct T as [T|T]; eapply S; try eassumption; unfold is_sep; tauto). subst y. auto.
Qed.
(** Tokens that differ in letter case only. *)
Definition recased (t u : token) : Prop := tk t = tk u /\ tpos t = tpos u /\ same_letters (ttext t) (ttext u) /\ (tk t <> TName -> ttext t = ttext u).
Lemma same_spells : forall d i s ts, good_seps d -> spells d i s ts -> forall s', same_letters s s' -> exists us, spells d i s' us /\ Forall2 recased ts us.
Proof.
  intros d i s ts G. induction 1 as [i w W|i w k x s ts W T S IH]; intros s' H.
  - exists []. split; [constructor; eapply same_white; eauto|constructor].
  - apply same_split in H. destruct H as (w' & r & -> & Hw & H). apply same_split in H. destruct H as (x' & t' & -> & Hx & Ht).
    destruct (IH _ Ht) as (us & Su & Fu). destruct (same_term d k x x' G Hx T) as (T' & E). exists (Tok k x' (i + zlen w') :: us). split.
    + constructor; [eapply same_white; eauto|exact T'|]. now rewrite <- (same_len _ _ Hw), <- (same_len _ _ Hx).
    + constructor; [|exact Fu]. split; [reflexivity|]. split; [cbn; now rewrite (same_len _ _ Hw)|]. split; [exact Hx|exact E].
Qed.

(** ** Numbers *)
Lemma stands_val : forall s n, stands s n -> Z.of_N (undec s) = n.
Proof.
  induction 1 as [|s n c k S IH E L]; [reflexivity|]. unfold undec in *. rewrite fold_left_app. cbn [fold_left]. unfold digit_val, code. remember (fold_left _ s 0%N) as m. clear Heqm. lia.
Qed.
Lemma val_stands : forall s, Forall (fun c => is_digit c = true) s -> stands s (Z.of_N (undec s)).
Proof.
  intros s. induction s as [|c s IH] using rev_ind; intros F; [constructor|]. apply Forall_app in F. destruct F as (F & Fc). inversion Fc as [|? ? D _]; subst.
  assert (K : (48 <= code c <= 57)%N). { unfold is_digit, between in D. apply Bool.andb_true_iff in D. rewrite !N.leb_le in D. exact D. }
  replace (Z.of_N (undec (s ++ [c]))) with (10 * Z.of_N (undec s) + Z.of_N (digit_val c)).
  2:{ unfold undec. rewrite fold_left_app. cbn [fold_left]. lia. }
  constructor; auto; unfold digit_val, code in *; lia.
Qed.

(** ** White space *)
Lemma zlen_app : forall (a b : str), zlen (a ++ b) = zlen a + zlen b.
Proof. intros a b. unfold zlen. rewrite app_length. lia. Qed.
Lemma zlen_nn : forall (a : str), 0 <= zlen a.
Proof. intros a. unfold zlen. lia. Qed.
Lemma zlen_nil : zlen (@nil ascii) = 0.
Proof. reflexivity. Qed.
Lemma ws_space : forall c, is_ws c = true -> is_space c = true /\ is_word c = false /\ is_digit c = false.
Proof.
  assert (T : forallb (fun n => let c := ascii_of_nat n in negb (is_ws c) || (is_space c && negb (is_word c) && negb (is_digit c))) (List.seq 0 256) = true) by (vm_compute; reflexivity).
  intros c W. rewrite forallb_forall in T. pose proof (T (nat_of_ascii c)) as Tc. cbv beta zeta in Tc. rewrite ascii_nat_embedding, W in Tc. cbn [negb orb] in Tc.
  rewrite !Bool.andb_true_iff, !Bool.negb_true_iff in Tc. assert (I : In (nat_of_ascii c) (List.seq 0 256)) by (apply in_seq; pose proof (nat_ascii_bounded c); lia). specialize (Tc I). tauto.
Qed.
Lemma sep_alone : forall d k x c, good_seps d -> in_term d k x -> In c x -> is_sep d c -> x = [c].
Proof.
  intros d k x c G T I S. destruct (gs_punct d G c S) as (W & P). destruct k; cbn [in_term] in T.
  - exfalso. destruct T as (y & m & z & -> & Wy & F & _ & _ & Z). destruct I as [->|I]; [congruence|]. apply in_app_iff in I. destruct I as [I|[->|[]]]; [|contradiction]. rewrite Forall_forall in F. destruct (F _ I); congruence.
  - exfalso. destruct T as (_ & F). rewrite Forall_forall in F. specialize (F _ I). unfold is_word in W. rewrite F in W. discriminate.
  - subst x. destruct I as [->|[]]. reflexivity.
  - subst x. destruct I as [->|[]]. reflexivity.
  - subst x. destruct I as [->|[]]. reflexivity.
  - destruct T as [-> | ->]; destruct I as [->|[]]; reflexivity.
Qed.
(** A token begins and ends with a character that is not white. *)
Lemma term_ends : forall d k x, good_seps d -> in_term d k x -> x <> [] /\ (forall a r, x = a :: r -> is_ws a = false) /\ (forall a r, x = r ++ [a] -> is_ws a = false).
Proof.
  intros d k x G T.
  assert (S : forall c, is_sep d c -> x = [c] -> x <> [] /\ (forall a r, x = a :: r -> is_ws a = false) /\ (forall a r, x = r ++ [a] -> is_ws a = false)).
  { intros c Sc ->. destruct (gs_punct d G c Sc) as (_ & P). assert (N : is_ws c = false) by (destruct (is_ws c) eqn:E; [destruct (ws_space c E); congruence|reflexivity]).
    split; [discriminate|]. split; intros a r E; [|change [c] with ([] ++ [c]) in E; apply app_inj_tail in E]; [injection E as <- <-; exact N|destruct E as (_ & <-); exact N]. }
  destruct k; cbn [in_term] in T.
  - destruct T as (c & m & z & -> & W & F & D & P & Z). split; [discriminate|]. split; intros a r E.
    + injection E as <- _. destruct (is_ws c) eqn:K; [destruct (ws_space c K) as (_ & ? & _); congruence|reflexivity].
    + change (c :: m ++ [z]) with ((c :: m) ++ [z]) in E. apply app_inj_tail in E. destruct E as (_ & <-). destruct (is_ws z) eqn:K; [destruct (ws_space z K); congruence|reflexivity].
  - destruct T as (N & F). rewrite Forall_forall in F. split; [exact N|].
    assert (K : forall a, In a x -> is_ws a = false) by (intros a I; specialize (F _ I); destruct (is_ws a) eqn:E; [destruct (ws_space a E) as (_ & _ & ?); congruence|reflexivity]).
    split; intros a r E; apply K; subst x; [now left|apply in_app_iff; right; now left].
  - eapply S; [|eassumption]; unfold is_sep; tauto.
  - eapply S; [|eassumption]; unfold is_sep; tauto.
  - eapply S; [|eassumption]; unfold is_sep; tauto.
  - destruct T as [T|T]; eapply S; try eassumption; unfold is_sep; tauto.
Qed.
Lemma spells_at : forall d i j s ts, spells d i s ts -> i = j -> spells d j s ts.
Proof. intros d i j s ts H <-. exact H. Qed.
Lemma white_app : forall a b, white (a ++ b) <-> white a /\ white b.
Proof. intros a b. apply Forall_app. Qed.
Lemma spells_white : forall d i w ts, good_seps d -> spells d i w ts -> white w -> ts = [].
Proof.
  intros d i w ts G H W. destruct H as [i w _|i w k x s ts _ T _]; [reflexivity|]. exfalso. apply white_app in W. destruct W as (_ & W). apply white_app in W. destruct W as (W & _).
  destruct (term_ends d k x G T) as (N & F & _). destruct x as [|c x]; [congruence|]. inversion W; subst. rewrite (F c x eq_refl) in *. discriminate.
Qed.
Lemma spells_split : forall d i s ts, good_seps d -> spells d i s ts -> forall a b, s = a ++ b -> beside_sep d a b ->
  exists us vs, ts = us ++ vs /\ spells d i a us /\ spells d (i + zlen a) b vs.
Proof.
  intros d i s ts G. induction 1 as [i w W|i w k x s ts W T S IH]; intros a b E B.
  - subst w. apply white_app in W. exists [], []. split; [reflexivity|]. split; constructor; tauto.
  - apply app_eq_app in E. destruct E as (l & [(E1 & E2)|(E1 & E2)]).
    + (* within the white space *)
      exists [], (Tok k x (i + zlen w) :: ts). split; [reflexivity|]. subst w b. apply white_app in W. split; [constructor; tauto|].
      rewrite zlen_app. replace (i + (zlen a + zlen l)) with ((i + zlen a) + zlen l) by lia. constructor; [tauto|exact T|]. eapply spells_at; [exact S|rewrite zlen_app; lia].
    + subst a. apply app_eq_app in E2. destruct E2 as (m & [(E1 & E2)|(E1 & E2)]).
      * (* within the token *)
        assert (Cases : l = [] \/ m = [] \/ (l <> [] /\ m <> [])) by (destruct l, m; auto; right; right; split; discriminate).
        destruct Cases as [->|[->|(Nl & Nm)]].
        -- cbn in E1. subst m b. rewrite app_nil_r. exists [], (Tok k x (i + zlen w) :: ts). split; [reflexivity|]. split; [now constructor|].
           replace (i + zlen w) with (i + zlen w + zlen (@nil ascii)) at 2 by (rewrite zlen_nil; lia). apply (Sp_tok d (i + zlen w) [] k x s ts); [constructor|exact T|]. eapply spells_at; [exact S|rewrite zlen_nil; lia].
        -- rewrite app_nil_r in E1. subst x. cbn in E2. subst b. exists [Tok k l (i + zlen w)], ts. split; [reflexivity|]. split.
           ++ replace (w ++ l) with (w ++ l ++ []) by (now rewrite app_nil_r). constructor; auto. constructor. constructor.
           ++ eapply spells_at; [exact S|rewrite zlen_app; lia].
        -- exfalso. subst x b. destruct (term_ends d k _ G T) as (_ & Fs & Fe). destruct B as [B|[B|[(c & y & B & Sc)|(c & y & B & Sc)]]].
           ++ apply white_app in B. destruct B as (_ & B). destruct l as [|c l]; [congruence|]. inversion B; subst. pose proof (Fs c (l ++ m) eq_refl). congruence.
           ++ apply white_app in B. destruct B as (B & _). destruct (exists_last Nm) as (m' & c & ->). apply Forall_app in B. destruct B as (_ & B). inversion B; subst. pose proof (Fe c (l ++ m') (app_assoc _ _ _)). congruence.
           ++ destruct (exists_last Nl) as (l' & c' & ->). rewrite app_assoc in B. apply app_inj_tail in B. destruct B as (_ & ->).
              assert (X : (l' ++ [c]) ++ m = [c]) by (eapply sep_alone; eauto; apply in_app_iff; left; apply in_app_iff; right; now left).
              destruct l' as [|? [|? ?]]; cbn in X; try discriminate. injection X as Xm. congruence.
           ++ destruct m as [|c' m]; [congruence|]. cbn in B. injection B as -> _.
              assert (X : l ++ c :: m = [c]) by (eapply sep_alone; eauto; apply in_app_iff; right; now left).
              destruct l as [|? [|? ?]]; cbn in X; try discriminate. congruence.
      * (* after the token *)
        subst l. assert (B' : beside_sep d m b).
        { destruct B as [B|[B|[(c & y & B & Sc)|B]]].
          - left. rewrite !white_app in B. tauto.
          - right. now left.
          - destruct m as [|c' m] using rev_ind; [left; constructor|]. right. right. left. exists c', m. rewrite !app_assoc in B. apply app_inj_tail in B. destruct B as (_ & ->). auto.
          - right. right. now right. }
        destruct (IH _ _ E2 B') as (us & vs & -> & Su & Sv). exists (Tok k x (i + zlen w) :: us), vs. split; [reflexivity|]. split.
        -- constructor; auto.
        -- eapply spells_at; [exact Sv|rewrite !zlen_app; lia].
Qed.
Lemma white_spells : forall d i w s ts, white w -> spells d (i + zlen w) s ts -> spells d i (w ++ s) ts.
Proof.
  intros d i w s ts W H. remember (i + zlen w) as j. revert Heqj. destruct H as [j u U|j u k x s ts U T S]; intros ->; [constructor; now apply white_app|].
  rewrite app_assoc. replace (i + zlen w + zlen u) with (i + zlen (w ++ u)) by (rewrite zlen_app; lia). constructor; auto; [now apply white_app|]. eapply spells_at; [exact S|rewrite zlen_app; lia].
Qed.
Lemma spells_app : forall d i a us b vs, spells d i a us -> spells d (i + zlen a) b vs -> spells d i (a ++ b) (us ++ vs).
Proof.
  intros d i a us b vs. induction 1 as [i w W|i w k x s ts W T S IH]; intros Hb; [now apply white_spells|].
  rewrite <- !app_assoc. cbn. constructor; auto. apply IH. eapply spells_at; [exact Hb|rewrite !zlen_app; lia].
Qed.
Definition later (n : Z) (t : token) : token := Tok (tk t) (ttext t) (tpos t + n).
Lemma spells_later : forall d i s ts n, spells d i s ts -> spells d (i + n) s (map (later n) ts).
Proof.
  intros d i s ts n. induction 1 as [i w W|i w k x s ts W T S IH]; [now constructor|]. cbn [map]. unfold later at 1. cbn [tk ttext tpos].
  replace (i + zlen w + n) with (i + n + zlen w) by lia. constructor; auto. eapply spells_at; [exact IH|lia].
Qed.
Lemma spells_within : forall d i s ts, good_seps d -> spells d i s ts -> Forall (fun t => i <= tpos t /\ tpos t < tend t /\ tend t <= i + zlen s) ts.
Proof.
  intros d i s ts G. induction 1 as [i w W|i w k x s ts W T S IH]; [constructor|].
  assert (N : 1 <= zlen x) by (destruct (term_ends d k x G T) as (N & _); unfold zlen; destruct x; [congruence|cbn [List.length]; lia]).
  pose proof (zlen_nn w). pose proof (zlen_nn s). constructor; [unfold tend; cbn [tpos ttext]; rewrite !zlen_app; lia|].
  eapply Forall_impl; [|exact IH]. cbn beta. intros t. rewrite !zlen_app. lia.
Qed.
(** The tokens of a text with [w] put into it at position [n]. *)
Definition moves (n : Z) (w : str) (t u : token) : Prop :=
  tk t = tk u /\ ttext t = ttext u /\ tpos u = (if tpos t <? n then tpos t else tpos t + zlen w) /\ tend u = (if tend t <=? n then tend t else tend t + zlen w).
Lemma put_white : forall d a w b ts, good_seps d -> white w -> beside_sep d a b -> spells d 0 (a ++ b) ts ->
  exists us, spells d 0 (a ++ w ++ b) us /\ Forall2 (moves (zlen a) w) ts us.
Proof.
  intros d a w b ts G W B H. destruct (spells_split d 0 _ _ G H a b eq_refl B) as (us & vs & -> & Su & Sv).
  exists (us ++ map (later (zlen w)) vs). split.
  - apply spells_app; [exact Su|]. apply white_spells; [exact W|]. now apply spells_later.
  - pose proof (spells_within _ _ _ _ G Su) as Fu. pose proof (spells_within _ _ _ _ G Sv) as Fv. apply Forall2_app.
    + clear - Fu. induction Fu as [|t us (A & B & C) F IH]; constructor; [|exact IH]. repeat split; auto; [destruct (Z.ltb_spec (tpos t) (zlen a))|destruct (Z.leb_spec (tend t) (zlen a))]; lia.
    + clear - Fv. induction Fv as [|t vs (A & B & C) F IH]; cbn [map]; constructor; [|exact IH]. unfold moves, later, tend in *. cbn [tk ttext tpos]. repeat split; auto; [destruct (Z.ltb_spec (tpos t) (zlen a))|destruct (Z.leb_spec (tpos t + zlen (ttext t)) (zlen a))]; lia.
Qed.
Lemma drop_white : forall d a w b ts, good_seps d -> white w -> beside_sep d a b -> spells d 0 (a ++ w ++ b) ts -> exists us vs,
  ts = us ++ vs /\ spells d 0 a us /\ spells d (zlen a + zlen w) b vs.
Proof.
  intros d a w b ts G W B H.
  assert (D : (beside_sep d a (w ++ b) /\ beside_sep d w b) \/ (beside_sep d (a ++ w) b /\ beside_sep d a w)).
  { destruct B as [B|[B|[B|B]]].
    - left. split; left; assumption.
    - right. split; right; left; assumption.
    - left. split; [right; right; now left|now left].
    - right. split; [right; right; now right|right; now left]. }
  destruct D as [(D1 & D2)|(D1 & D2)].
  - destruct (spells_split d 0 _ _ G H a (w ++ b) eq_refl D1) as (us & vs & -> & Su & Sv). destruct (spells_split d _ _ _ G Sv w b eq_refl D2) as (xs & ys & -> & Sx & Sy).
    rewrite (spells_white _ _ _ _ G Sx W) in *. exists us, ys. split; [reflexivity|]. split; [exact Su|]. eapply spells_at; [exact Sy|lia].
  - rewrite app_assoc in H. destruct (spells_split d 0 _ _ G H (a ++ w) b eq_refl D1) as (us & vs & -> & Su & Sv). destruct (spells_split d _ _ _ G Su a w eq_refl D2) as (xs & ys & -> & Sx & Sy).
    rewrite (spells_white _ _ _ _ G Sy W) in *. exists xs, vs. split; [now rewrite app_nil_r|]. split; [exact Sx|]. eapply spells_at; [exact Sv|rewrite zlen_app; lia].
Qed.
Lemma no_white : forall d a w b ts, good_seps d -> white w -> beside_sep d a b -> spells d 0 (a ++ w ++ b) ts ->
  exists us, spells d 0 (a ++ b) us /\ Forall2 (fun t u => tk t = tk u) ts us.
Proof.
  intros d a w b ts G W B H. destruct (drop_white _ _ _ _ _ G W B H) as (us & vs & -> & Su & Sv). exists (us ++ map (later (- zlen w)) vs). split.
  - apply spells_app; [exact Su|]. eapply spells_at; [apply spells_later; exact Sv|lia].
  - apply Forall2_app; [|]; [clear; induction us; constructor; auto|clear; induction vs; cbn; constructor; auto].
Qed.
