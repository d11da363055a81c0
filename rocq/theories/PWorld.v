(** * PWorld: lemmas on the state of the package. *)
From Coq Require Import List ZArith NArith Bool Ascii String Lia.
From Verif Require Import Base Books Chars Regex Data DefaultData MVerse MRange MSeq MList MStr MParse MWorld Spec SpecList SpecName SpecParse SpecMean
  PList PCore PVerse PDefault PLex PParse PParse2.
Import ListNotations.
Import Spec.
Open Scope Z_scope.
Open Scope list_scope.

(** ** The transformer after a reference that names its book *)
Definition sim (st st' : tstate) : Prop :=
  ts_book st = ts_book st' /\ ts_vl st = ts_vl st' /\ (ts_vl st = true -> ts_chap st = ts_chap st').
Lemma sim_refl : forall st, sim st st.
Proof. repeat split. Qed.
Section Sim.
Variable e : env.
Variable f : flag.
Ltac sim_now := intros; unfold sim; cbn; repeat match goal with |- _ /\ _ => split end; auto; try (intros; discriminate); try (intros; congruence).
Lemma t_single_sim : forall st st' a, sim st st' ->
  snd (t_single e f st a) = snd (t_single e f st' a) /\ sim (fst (t_single e f st a)) (fst (t_single e f st' a)).
Proof.
  intros st st' a (B & L & C). destruct a as [n|n m|n c x v|c x v|m]; cbn [t_single].
  - destruct (tok_book (ed e) n); sim_now.
  - destruct (tok_book (ed e) n); [|sim_now]. destruct (chap_count e a =? 1); sim_now.
  - destruct (tok_book (ed e) n); sim_now.
  - rewrite <- B. destruct (ts_book st) eqn:Bk; sim_now.
  - rewrite <- B, <- L. destruct (ts_book st) as [b|] eqn:Bk; [|sim_now].
    destruct (chap_count e b =? 1); rewrite ?orb_true_r, ?orb_false_r.
    + sim_now.
    + destruct (ts_vl st) eqn:V; [|sim_now]. pose proof (C eq_refl) as C1. rewrite C1. destruct (ts_chap st') eqn:C2; sim_now.
Qed.
Lemma t_single_fresh : forall st st' a, name_of a <> None ->
  snd (t_single e f st a) = snd (t_single e f st' a) /\
  (forall r, snd (t_single e f st a) = Ok r -> sim (fst (t_single e f st a)) (fst (t_single e f st' a))).
Proof.
  intros st st' a N. destruct a as [n|n m|n c x v|c x v|m]; cbn in N; try contradiction; cbn [t_single].
  - destruct (tok_book (ed e) n); [|split; [reflexivity|discriminate]]. split; [reflexivity|]. sim_now.
  - destruct (tok_book (ed e) n); [|split; [reflexivity|discriminate]]. destruct (chap_count e a =? 1); split; try reflexivity; sim_now.
  - destruct (tok_book (ed e) n); [|split; [reflexivity|discriminate]]. split; [reflexivity|]. sim_now.
Qed.
Definition agree {A} (p q : tstate * res A) : Prop := snd p = snd q /\ (forall a, snd p = Ok a -> sim (fst p) (fst q)).
Lemma t_ref_rest : forall p q s b, agree p q ->
  agree (match p with (st, Err x) => (st, Err x) | (st, Ok r1) =>
           match t_single e f st b with (st, Err x) => (st, Err x) | (st, Ok r2) => (st, blame (s_pos s) (s_end b)
             (new_range_pos e (PA (vbook (rstart r1)) (Some (vchap (rstart r1))) (Some (vverse (rstart r1)))
                                  (Some (vbook (rend r2))) (Some (vchap (rend r2))) (Some (vverse (rend r2)))) (Some f))) end end)
        (match q with (st, Err x) => (st, Err x) | (st, Ok r1) =>
           match t_single e f st b with (st, Err x) => (st, Err x) | (st, Ok r2) => (st, blame (s_pos s) (s_end b)
             (new_range_pos e (PA (vbook (rstart r1)) (Some (vchap (rstart r1))) (Some (vverse (rstart r1)))
                                  (Some (vbook (rend r2))) (Some (vchap (rend r2))) (Some (vverse (rend r2)))) (Some f))) end end).
Proof.
  intros (st, [r|x]) (st', q') s b (E & H); cbn [snd fst] in E, H; subst q'; [|split; cbn; [reflexivity|discriminate]].
  specialize (H r eq_refl). destruct (t_single_sim st st' b H) as (E & S). destruct (t_single e f st b) as (st1, [r2|x]), (t_single e f st' b) as (st1', q1); cbn [snd fst] in E, S; subst q1.
  - split; cbn; auto.
  - split; cbn; [reflexivity|discriminate].
Qed.
Lemma t_ref_sim : forall st st' x, sim st st' -> agree (t_ref e f st x) (t_ref e f st' x).
Proof.
  intros st st' x S. destruct x as [a|a s b]; cbn [t_ref].
  - destruct (t_single_sim st st' a S) as (A & B). split; auto.
  - apply (t_ref_rest _ _ a b). destruct (t_single_sim st st' a S) as (A & B). split; auto.
Qed.
Lemma t_ref_fresh : forall st st' x, name_of (match x with One a => a | Two a _ _ => a end) <> None -> agree (t_ref e f st x) (t_ref e f st' x).
Proof.
  intros st st' x N. destruct x as [a|a s b]; cbn [t_ref].
  - exact (t_single_fresh st st' a N).
  - apply (t_ref_rest _ _ a b). exact (t_single_fresh st st' a N).
Qed.
Lemma t_sep_sim : forall st st' s, sim st st' -> sim (t_sep st s) (t_sep st' s).
Proof. intros st st' s (B & L & C). unfold t_sep. destruct (tk s); sim_now. Qed.
Lemma t_rests_sim : forall l st st', sim st st' -> agree (t_rests e f st l) (t_rests e f st' l).
Proof.
  induction l as [|(s, x) l IH]; intros st st' S; cbn [t_rests].
  - split; cbn; auto.
  - destruct (t_ref_sim _ _ x (t_sep_sim st st' s S)) as (A & B).
    destruct (t_ref e f (t_sep st s) x) as (st1, [r|y]), (t_ref e f (t_sep st' s) x) as (st1', q); cbn [snd fst] in A, B; subst q; [|split; cbn; [reflexivity|discriminate]].
    destruct (IH st1 st1' (B r eq_refl)) as (C & D). destruct (t_rests e f st1 l) as (st2, q), (t_rests e f st1' l) as (st2', q'); cbn [snd fst] in C, D; subst q'.
    split; cbn [snd fst]; auto. intros a Ha. destruct q; [eauto|discriminate].
Qed.
Lemma t_children_agree : forall st st' t, agree (t_ref e f st (t_first t)) (t_ref e f st' (t_first t)) -> agree (t_children e f st t) (t_children e f st' t).
Proof.
  intros st st' t (A & B). unfold t_children.
  destruct (t_ref e f st (t_first t)) as (st1, [r|y]), (t_ref e f st' (t_first t)) as (st1', q); cbn [snd fst] in A, B; subst q; [|split; [reflexivity|discriminate]].
  destruct (t_rests_sim (t_rest t) st1 st1' (B r eq_refl)) as (C & D).
  destruct (t_rests e f st1 (t_rest t)) as (st2, [cs|y]), (t_rests e f st1' (t_rest t)) as (st2', q'); cbn [snd fst] in C, D; subst q'; [|split; [reflexivity|discriminate]].
  specialize (D cs eq_refl). destruct (t_trail t); split; cbn [fst snd]; auto using t_sep_sim.
Qed.
Lemma t_children_fresh : forall st st' t, names_its_book t -> agree (t_children e f st t) (t_children e f st' t).
Proof. intros st st' t N. apply t_children_agree. now apply t_ref_fresh. Qed.
Lemma t_children_sim : forall st st' t, sim st st' -> agree (t_children e f st t) (t_children e f st' t).
Proof. intros st st' t S. apply t_children_agree. now apply t_ref_sim. Qed.
(** Errors of the transformer. *)
Lemma t_single_exn : forall st a x, snd (t_single e f st a) = Err x -> exists i j, x = ParseErr i j.
Proof.
  intros st a x. assert (M : forall i j c (y : exn), blame i j (new_range_pos e c (Some f)) = Err y -> exists i j, y = ParseErr i j).
  { intros i j c y. unfold blame. destruct (new_range_pos e c (Some f)); [discriminate|]. intros H. injection H as <-. eauto. }
  assert (T : forall n y, tok_book (ed e) n = Err y -> exists i j, y = ParseErr i j).
  { intros n y. unfold tok_book. destruct (from_str (ed e) (ttext n)); [discriminate|]. intros H. injection H as <-. eauto. }
  destruct a as [n|n m|n c s v|c s v|m]; cbn [t_single].
  - destruct (tok_book (ed e) n) eqn:E; cbn [snd]; [apply M|]. intros H. injection H as <-. eauto.
  - destruct (tok_book (ed e) n) eqn:E; cbn [snd]; [destruct (chap_count e a =? 1); cbn [snd]; apply M|]. intros H. injection H as <-. eauto.
  - destruct (tok_book (ed e) n) eqn:E; cbn [snd]; [apply M|]. intros H. injection H as <-. eauto.
  - destruct (ts_book st); cbn [snd]; [apply M|]. intros H. injection H as <-. eauto.
  - destruct (ts_book st); cbn [snd]; [|intros H; injection H as <-; eauto]. destruct (ts_vl st || (chap_count e b =? 1)); cbn [snd]; [|apply M].
    destruct (chap_count e b =? 1); cbn [snd]; [apply M|]. destruct (ts_chap st); cbn [snd]; [apply M|]. intros H. injection H as <-. eauto.
Qed.
Lemma t_ref_exn : forall st a x, snd (t_ref e f st a) = Err x -> exists i j, x = ParseErr i j.
Proof.
  intros st [a|a s b] x; cbn [t_ref]; [apply t_single_exn|].
  pose proof (t_single_exn st a) as H. destruct (t_single e f st a) as (st1, [r|y]); cbn in *; [|apply H].
  pose proof (t_single_exn st1 b) as H1. destruct (t_single e f st1 b) as (st2, [r2|y]); cbn in *; [|apply H1].
  unfold blame. destruct (new_range_pos e _ _); [discriminate|]. intros E. injection E as <-. eauto.
Qed.
Lemma t_rests_exn : forall l st x, snd (t_rests e f st l) = Err x -> exists i j, x = ParseErr i j.
Proof.
  induction l as [|(s, a) l IH]; intros st x; cbn [t_rests]; [discriminate|].
  pose proof (t_ref_exn (t_sep st s) a) as H. destruct (t_ref e f (t_sep st s) a) as (st1, [r|y]); cbn in *; [|intros X; injection X as ->; now apply H].
  pose proof (IH st1) as H1. destruct (t_rests e f st1 l) as (st2, [cs|y]); cbn in *; [discriminate|intros X; injection X as ->; now apply H1].
Qed.
Lemma t_children_exn : forall st t x, snd (t_children e f st t) = Err x -> exists i j, x = ParseErr i j.
Proof.
  intros st t x. unfold t_children. pose proof (t_ref_exn st (t_first t)) as H. destruct (t_ref e f st (t_first t)) as (st1, [r|y]); cbn in *; [|intros X; injection X as ->; now apply H].
  pose proof (t_rests_exn (t_rest t) st1) as H1. destruct (t_rests e f st1 (t_rest t)) as (st2, [cs|y]); cbn in *; [|intros X; injection X as ->; now apply H1]. destruct (t_trail t); discriminate.
Qed.
Lemma t_single_init : forall a r, snd (t_single e f ts_init a) = Ok r -> name_of a <> None.
Proof. intros a r. destruct a; cbn; try discriminate. Qed.
Lemma t_children_init : forall t cs, snd (t_children e f ts_init t) = Ok cs -> names_its_book t.
Proof.
  intros t cs. unfold t_children, names_its_book, first_single. destruct (t_first t) as [a|a s b]; cbn [t_ref];
    pose proof (t_single_init a) as H; destruct (t_single e f ts_init a) as (st1, [r|y]); cbn in *; try discriminate; intros _; eauto.
Qed.
End Sim.

(** Any two states. *)
Lemma parse_any : forall e fl st st' s, (forall t, read (ed e) s = Some t -> names_its_book t) ->
  snd (parse e fl st s) = snd (parse e fl st' s).
Proof.
  intros e fl st st' s N. unfold parse. destruct (read (ed e) s) as [t|] eqn:R; [|reflexivity].
  destruct (t_children_fresh e (eff e fl) st st' t (N t eq_refl)) as (H & _).
  destruct (t_children e (eff e fl) st t), (t_children e (eff e fl) st' t). cbn in *. now rewrite H.
Qed.
Lemma parse_same : forall e fl st st' s, sim st st' -> snd (parse e fl st s) = snd (parse e fl st' s).
Proof.
  intros e fl st st' s S. unfold parse. destruct (read (ed e) s) as [t|] eqn:R; [|reflexivity].
  destruct (t_children_sim e (eff e fl) st st' t S) as (H & _).
  destruct (t_children e (eff e fl) st t), (t_children e (eff e fl) st' t). cbn in *. now rewrite H.
Qed.
Lemma parse_init : forall e fl s gs, snd (parse e fl ts_init s) = Ok gs -> forall t, read (ed e) s = Some t -> names_its_book t.
Proof.
  intros e fl s gs H t R. unfold parse in H. rewrite R in H. pose proof (t_children_init e (eff e fl) t) as N.
  destruct (t_children e (eff e fl) ts_init t) as (st, [cs|y]); cbn in *; [eauto|discriminate].
Qed.
Lemma parse_accepted : forall e fl s gs st, snd (parse e fl ts_init s) = Ok gs -> snd (parse e fl st s) = Ok gs.
Proof. intros e fl s gs st H. rewrite <- H. apply parse_any. eapply parse_init; eauto. Qed.
(** A text that is accepted by an unused parser leaves the same context in every state. *)
Lemma parse_leaves : forall e fl s gs st, snd (parse e fl ts_init s) = Ok gs -> sim (fst (parse e fl st s)) (fst (parse e fl ts_init s)).
Proof.
  intros e fl s gs st H. pose proof (parse_init e fl s gs H) as N. unfold parse in *. destruct (read (ed e) s) as [t|] eqn:R; [|discriminate].
  destruct (t_children_fresh e (eff e fl) st ts_init t (N t eq_refl)) as (E & K).
  destruct (t_children e (eff e fl) st t) as (st1, q), (t_children e (eff e fl) ts_init t) as (st2, q2). cbn in *. subst q2.
  destruct q as [cs|]; [|discriminate]. eauto.
Qed.
Lemma parse_syntax : forall e fl st s, snd (parse e fl st s) = Err SyntaxErr <-> read (ed e) s = None.
Proof.
  intros e fl st s. unfold parse. destruct (read (ed e) s) as [t|]; [|cbn; tauto].
  pose proof (t_children_exn e (eff e fl) st t) as N. destruct (t_children e (eff e fl) st t) as (st', [cs|y]); cbn in *; [split; discriminate|].
  split; [|discriminate]. intros H. injection H as ->. destruct (N _ eq_refl) as (i & j & X). discriminate.
Qed.

(** ** The attributes *)
Record coherent (w : world) : Prop := {
  co_abbrev : forall b, a_abbrev w b = option_map n_abbrev (w_name_data w b);
  co_title : forall b, a_title w b = option_map n_title (w_name_data w b);
  co_regex : forall b, a_regex w b = option_map book_regex (w_name_data w b);
  co_max : forall b, a_max_verses w b = w_max_verses w b;
  co_zeros : forall b, a_verse_0s w b = match w_verse_0s w b with Some l => l | None => [] end;
  co_parser : w_parser w = None \/ w_parser w = Some (w_seps w) }.

Lemma blank_coherent : coherent blank_world.
Proof. constructor; cbn; auto. Qed.
(** What parsing leaves alone. *)
Definition kept (w w' : world) : Prop :=
  w_seps w' = w_seps w /\ w_book_order w' = w_book_order w /\ w_name_data w' = w_name_data w /\ w_max_verses w' = w_max_verses w /\
  w_verse_0s w' = w_verse_0s w /\ a_order w' = a_order w /\ a_abbrev w' = a_abbrev w /\ a_title w' = a_title w /\ a_regex w' = a_regex w /\
  a_max_verses w' = a_max_verses w /\ a_verse_0s w' = a_verse_0s w /\ w_flags w' = w_flags w.
Lemma kept_refl : forall w, kept w w.
Proof. intros w. repeat split. Qed.
Lemma w_parse_kept : forall w fl s, kept w (fst (w_parse w fl s)) /\ (coherent w -> w_parser (fst (w_parse w fl s)) = Some (w_seps w)).
Proof.
  intros w fl s. unfold w_parse, the_parser. destruct (w_parser w) as [p|] eqn:P.
  - destruct (read (grammar_data w p) s) as [t|].
    + destruct (t_children _ _ _ t) as (st, q). cbn [fst]. split; [repeat split|]. intros C. cbn. destruct (co_parser w C); congruence.
    + cbn [fst]. split; [repeat split|]. intros C. destruct (co_parser w C); congruence.
  - destruct (read _ s) as [t|].
    + destruct (t_children _ _ _ t) as (st, q). cbn [fst]. split; [repeat split|]. reflexivity.
    + cbn [fst]. split; [repeat split|]. reflexivity.
Qed.
Lemma w_list_fst : forall w fl s, fst (w_list_from_str w fl s) = fst (w_parse w (Some (eff (env_of w) fl)) s).
Proof. intros w fl s. unfold w_list_from_str. destruct (w_parse w _ s); reflexivity. Qed.
Lemma w_range_fst : forall w fl s, fst (w_range_from_str w fl s) = fst (w_list_from_str w (Some (eff (env_of w) fl)) s).
Proof. intros w fl s. unfold w_range_from_str. destruct (w_list_from_str w _ s); reflexivity. Qed.
Lemma w_verse_fst : forall w fl s, fst (w_verse_from_str w fl s) = fst (w_list_from_str w fl s).
Proof. intros w fl s. unfold w_verse_from_str. destruct (w_list_from_str w _ s); reflexivity. Qed.
Lemma kept_coherent : forall w w', coherent w -> kept w w' -> w_parser w' = Some (w_seps w) -> coherent w'.
Proof.
  intros w w' [] (A & B & C & D & E & F & G & H & I & J & K & L) P. constructor; intros; rewrite ?A, ?C, ?D, ?E, ?G, ?H, ?I, ?J, ?K; auto.
Qed.
Lemma read_act : forall w a, (exists fl s, a = ListFromStr fl s \/ a = RangeFromStr fl s \/ a = VerseFromStr fl s) -> exists fl s, act w a = fst (w_parse w fl s).
Proof.
  intros w a (fl & s & [Ea|[Ea|Ea]]); subst a; cbn [act]; rewrite ?w_range_fst, ?w_verse_fst, ?w_list_fst; eauto.
Qed.
Lemma assign_fst : forall w l, fst (assign_book_order w l) =
  mkWorld (w_seps w) l (w_name_data w) (w_max_verses w) (w_verse_0s w)
           (order (fst (set_book_order (data_of w) l))) (a_abbrev w) (a_title w) (a_regex w) (a_max_verses w) (a_verse_0s w)
           (w_flags w) (w_parser w) (w_trans w).
Proof. intros w l. unfold assign_book_order. destruct (set_book_order (data_of w) l); reflexivity. Qed.
Lemma act_coherent : forall w a, coherent w -> coherent (act w a).
Proof.
  intros w a C.
  assert (R : (exists fl s, a = ListFromStr fl s \/ a = RangeFromStr fl s \/ a = VerseFromStr fl s) -> coherent (act w a)).
  { intros Ha. destruct (read_act w a Ha) as (fl & s & ->). destruct (w_parse_kept w fl s) as (K & P). exact (kept_coherent w _ C K (P C)). }
  destruct a; try (apply R; eauto 6; fail); clear R; cbn [act]; rewrite ?assign_fst;
    destruct C; constructor; cbn; auto; intros b; try (destruct (t b); reflexivity).
Qed.
Lemma acts_coherent : forall h w, coherent w -> coherent (acts w h).
Proof. induction h as [|a h IH]; intros w C; cbn; auto. apply IH. now apply act_coherent. Qed.
Lemma start_coherent : coherent start_world.
Proof. apply acts_coherent, blank_coherent. Qed.
Lemma acts_app : forall h h' w, acts w (h ++ h') = acts (acts w h) h'.
Proof. intros h h' w. apply fold_left_app. Qed.

(** ** Parsing *)
Lemma grammar_current : forall w, grammar_data w (w_seps w) = data_of w.
Proof. reflexivity. Qed.
Lemma w_parse_eq : forall w fl s, coherent w -> snd (w_parse w fl s) = snd (parse (env_of w) fl (the_transformer w) s).
Proof.
  intros w fl s C. assert (E : exists w1, the_parser w = (w1, w_seps w) /\ data_of w1 = data_of w /\ env_of w1 = env_of w /\ the_transformer w1 = the_transformer w /\ grammar_data w1 (w_seps w) = data_of w).
  { unfold the_parser. destruct (co_parser w C) as [Ep|Ep]; rewrite Ep; eexists; repeat split. }
  destruct E as (w1 & E & D1 & D2 & D3 & D4). unfold w_parse. rewrite E, D4. unfold parse. cbn [ed env_of]. destruct (read (data_of w) s) as [t|]; [|reflexivity].
  cbn [w_trans with_trans]. change (the_transformer (with_trans w1 (the_transformer w1) (eff (env_of w1) fl))) with (the_transformer w1).
  change (env_of (with_trans w1 (the_transformer w1) (eff (env_of w1) fl))) with (env_of w1). rewrite D2, D3.
  change (mkEnv (data_of w) (w_flags w)) with (env_of w).
  destruct (t_children (env_of w) (eff (env_of w) fl) (the_transformer w) t); reflexivity.
Qed.
Lemma w_parse_trans : forall w fl s, coherent w -> the_transformer (fst (w_parse w fl s)) = fst (parse (env_of w) fl (the_transformer w) s).
Proof.
  intros w fl s C. assert (E : exists w1, the_parser w = (w1, w_seps w) /\ env_of w1 = env_of w /\ the_transformer w1 = the_transformer w /\ grammar_data w1 (w_seps w) = data_of w).
  { unfold the_parser. destruct (co_parser w C) as [Ep|Ep]; rewrite Ep; eexists; repeat split. }
  destruct E as (w1 & E & D2 & D3 & D4). unfold w_parse. rewrite E, D4. unfold parse. cbn [ed env_of]. destruct (read (data_of w) s) as [t|]; [|exact D3].
  cbn [w_trans with_trans]. change (the_transformer (with_trans w1 (the_transformer w1) (eff (env_of w1) fl))) with (the_transformer w1).
  change (env_of (with_trans w1 (the_transformer w1) (eff (env_of w1) fl))) with (env_of w1). rewrite D2, D3.
  change (mkEnv (data_of w) (w_flags w)) with (env_of w).
  destruct (t_children (env_of w) (eff (env_of w) fl) (the_transformer w) t); reflexivity.
Qed.
Lemma w_list_eq : forall w fl s, coherent w -> snd (w_list_from_str w fl s) = snd (list_from_str (env_of w) fl (the_transformer w) s).
Proof.
  intros w fl s C. unfold w_list_from_str, list_from_str. pose proof (w_parse_eq w (Some (eff (env_of w) fl)) s C) as H.
  destruct (w_parse w _ s), (parse (env_of w) _ _ s). cbn in *. now rewrite H.
Qed.
Lemma w_range_eq : forall w fl s, coherent w -> snd (w_range_from_str w fl s) = snd (range_from_str (env_of w) fl (the_transformer w) s).
Proof.
  intros w fl s C. unfold w_range_from_str, range_from_str. pose proof (w_list_eq w (Some (eff (env_of w) fl)) s C) as H.
  destruct (w_list_from_str w _ s), (list_from_str (env_of w) _ _ s). cbn in *. now rewrite H.
Qed.
Lemma w_verse_eq : forall w fl s, coherent w -> snd (w_verse_from_str w fl s) = snd (verse_from_str (env_of w) fl (the_transformer w) s).
Proof.
  intros w fl s C. unfold w_verse_from_str, verse_from_str. pose proof (w_list_eq w fl s C) as H.
  destruct (w_list_from_str w _ s), (list_from_str (env_of w) _ _ s). cbn in *. now rewrite H.
Qed.
Lemma list_any : forall e fl st st' s, (forall t, read (ed e) s = Some t -> names_its_book t) -> snd (list_from_str e fl st s) = snd (list_from_str e fl st' s).
Proof.
  intros e fl st st' s N. unfold list_from_str. pose proof (parse_any e (Some (eff e fl)) st st' s N) as H.
  destruct (parse e _ st s), (parse e _ st' s). cbn in *. now rewrite H.
Qed.
Lemma range_any : forall e fl st st' s, (forall t, read (ed e) s = Some t -> names_its_book t) -> snd (range_from_str e fl st s) = snd (range_from_str e fl st' s).
Proof.
  intros e fl st st' s N. unfold range_from_str. pose proof (list_any e (Some (eff e fl)) st st' s N) as H.
  destruct (list_from_str e _ st s), (list_from_str e _ st' s). cbn in *. now rewrite H.
Qed.
Lemma verse_any : forall e fl st st' s, (forall t, read (ed e) s = Some t -> names_its_book t) -> snd (verse_from_str e fl st s) = snd (verse_from_str e fl st' s).
Proof.
  intros e fl st st' s N. unfold verse_from_str. pose proof (list_any e fl st st' s N) as H.
  destruct (list_from_str e _ st s), (list_from_str e _ st' s). cbn in *. now rewrite H.
Qed.
Lemma list_init : forall e fl s gs, snd (list_from_str e fl ts_init s) = Ok gs -> forall t, read (ed e) s = Some t -> names_its_book t.
Proof.
  intros e fl s gs H t R. unfold list_from_str in H. pose proof (parse_init e (Some (eff e fl)) s) as P.
  destruct (parse e _ ts_init s) as (st, [g|x]); cbn in *; [eauto|discriminate].
Qed.
Lemma range_init : forall e fl s r, snd (range_from_str e fl ts_init s) = Ok r -> forall t, read (ed e) s = Some t -> names_its_book t.
Proof.
  intros e fl s gs H t R. unfold range_from_str in H. pose proof (list_init e (Some (eff e fl)) s) as P.
  destruct (list_from_str e _ ts_init s) as (st, [g|x]); cbn in *; [eauto|discriminate].
Qed.
Lemma verse_init : forall e fl s r, snd (verse_from_str e fl ts_init s) = Ok r -> forall t, read (ed e) s = Some t -> names_its_book t.
Proof.
  intros e fl s gs H t R. unfold verse_from_str in H. pose proof (list_init e fl s) as P.
  destruct (list_from_str e _ ts_init s) as (st, [g|x]); cbn in *; [eauto|discriminate].
Qed.

(** ** Names *)
Lemma find_ext : forall {A} (p q : A -> bool) l, (forall a, p a = q a) -> find p l = find q l.
Proof. intros A p q l H. induction l as [|a l IH]; cbn; auto. now rewrite H, IH. Qed.
Lemma w_from_str_eq : forall w s, coherent w -> w_from_str w s = from_str (data_of w) s.
Proof.
  intros w s C. unfold w_from_str, from_str. apply find_ext. intros b. rewrite (co_regex w C). unfold name_matches. cbn.
  now destruct (w_name_data w b).
Qed.
Lemma w_book_name_eq : forall w a b, coherent w -> w_book_name w a b = book_name (data_of w) a b.
Proof.
  intros w a b C. unfold w_book_name, book_name. rewrite (co_abbrev w C), (co_title w C). cbn. destruct a, (w_name_data w b); reflexivity.
Qed.

(** ** The latest assignment *)
Section Latest.
Context {A : Type}.
Variable pick : action -> option A.
Variable get : world -> A.
Hypothesis Hget : forall w a, get (act w a) = match pick a with Some x => x | None => get w end.
Lemma get_none : forall h w, Forall (fun a => pick a = None) h -> get (acts w h) = get w.
Proof. induction h as [|a h IH]; intros w H; auto. change (acts w (a :: h)) with (acts (act w a) h). inversion H as [|? ? Ha Hh]; subst. rewrite IH, Hget by auto. now rewrite Ha. Qed.
Lemma get_some : forall h1 a x h2 w, pick a = Some x -> Forall (fun a => pick a = None) h2 -> get (acts w (h1 ++ a :: h2)) = x.
Proof. intros h1 a x h2 w Ha H. rewrite acts_app. change (acts (acts w h1) (a :: h2)) with (acts (act (acts w h1) a) h2). rewrite get_none, Hget by auto. now rewrite Ha. Qed.
End Latest.
Lemma act_reads : forall w a, (exists fl s, a = ListFromStr fl s \/ a = RangeFromStr fl s \/ a = VerseFromStr fl s) -> kept w (act w a).
Proof. intros w a H. destruct (read_act w a H) as (fl & s & ->). apply w_parse_kept. Qed.

(** ** The order of the books *)
Lemma set_order_fields : forall d l, book_order (fst (set_book_order d l)) = l.
Proof. intros d l. unfold set_book_order. destruct (assign_orders 0 l (order d) all_books) as (o, [r|x]); reflexivity. Qed.
Lemma order_assigned : forall w l, NoDup l -> forall b i, a_order (fst (assign_book_order w l)) b = Some i <-> nth_error l i = Some b.
Proof.
  intros w l N b i. destruct (set_order_ok (data_of w) l N) as (d' & E & B & O & _). rewrite assign_fst. cbn [a_order]. rewrite E. cbn [fst]. rewrite <- B. apply O.
Qed.
(** A list with a repetition: [l1] without repetitions, then a book of [l1]. *)
Lemma assign_prefix : forall l1 i o left_ b l2, NoDup left_ -> NoDup l1 -> (forall x, In x l1 -> In x left_) -> In b l1 ->
  exists o', assign_orders i (l1 ++ b :: l2) o left_ = (o', Err KeyErr) /\ o' b = Some (i + List.length l1)%nat /\
    (forall x k, x <> b -> nth_error l1 k = Some x -> o' x = Some (i + k)%nat) /\ (forall x, ~ In x l1 -> o' x = o x).
Proof.
  assert (G : forall l1 i o left_ b l2, NoDup left_ -> NoDup l1 -> (forall x, In x l1 -> In x left_) -> ~ In b left_ \/ In b l1 ->
    exists o', assign_orders i (l1 ++ b :: l2) o left_ = (o', Err KeyErr) /\ o' b = Some (i + List.length l1)%nat /\
    (forall x k, x <> b -> nth_error l1 k = Some x -> o' x = Some (i + k)%nat) /\ (forall x, x <> b -> ~ In x l1 -> o' x = o x)).
  { induction l1 as [|a l1 IH]; intros i o left_ b l2 Hl Hn Hs Hb.
    - destruct Hb as [Hb|[]]. cbn [app assign_orders]. destruct (mem_book b left_) eqn:M; [apply mem_book_in in M; contradiction|].
      eexists. split; [reflexivity|]. unfold set_order. split; [|split].
      + rewrite book_eqb_refl. f_equal. cbn. lia.
      + intros x k _ H. destruct k; discriminate.
      + intros x Hx _. destruct (book_eqb x b) eqn:E; auto. apply book_eqb_eq in E. contradiction.
    - inversion Hn as [|? ? Ha Hn']; subst. cbn [app assign_orders]. destruct (mem_book a left_) eqn:M.
      2:{ exfalso. assert (In a left_) by (apply Hs; now left). apply mem_book_in in H. congruence. }
      destruct (IH (S i) (set_order o a (Some i)) (remove_book a left_) b l2) as (o' & E & B & P & Q).
      { now apply remove_book_nodup. } { assumption. }
      { intros x Hx. rewrite remove_book_in by assumption. split; [apply Hs; now right|]. intros ->. contradiction. }
      { destruct Hb as [Hb|[->|Hb]]; [left|left|now right].
        - rewrite remove_book_in by assumption. tauto.
        - rewrite remove_book_in by assumption. tauto. }
      exists o'. split; [exact E|]. split; [rewrite B; f_equal; cbn; lia|]. split.
      + intros x k Hx Hk. destruct k as [|k]; cbn in Hk.
        * injection Hk as <-. rewrite Q; auto. unfold set_order. rewrite book_eqb_refl. f_equal. lia.
        * rewrite (P x k Hx Hk). f_equal. lia.
      + intros x Hx Hi. rewrite Q; auto; [|intros H; apply Hi; now right]. unfold set_order. destruct (book_eqb x a) eqn:E'; auto.
        apply book_eqb_eq in E'. subst x. exfalso. apply Hi. now left. }
  intros l1 i o left_ b l2 Hl Hn Hs Hb. destruct (G l1 i o left_ b l2 Hl Hn Hs (or_intror Hb)) as (o' & E & B & P & Q).
  exists o'. split; auto. split; auto. split; auto. intros x Hx. apply Q; auto. intros ->. contradiction.
Qed.
