(** * PropRecall: theorems on what the parser remembers (C69). *)
From Coq Require Import List ZArith NArith Bool Ascii String Lia.
From Verif Require Import Base Books Chars Regex Data DefaultData MVerse MRange MSeq MList MStr MParse MWorld Spec SpecList SpecName SpecParse SpecMean
  SpecRecall PList PCore PNav PVerse PRange PDefault PLex PParse PParse2 PropParse PPrint PText PRound PropStr PWorld PropWorld PRecall.
Import ListNotations.
Import Spec.
Open Scope Z_scope.
Open Scope list_scope.

(** The data are sound (distinct punctuation, names of books of the Bible) and the book that is remembered is a book of the Bible. *)
Definition sound_at (h : list action) : Prop :=
  good_data (ed (settings h)) /\ forall c b, remembers h c -> ctx_book c = Some b -> In b (book_order (ed (settings h))).
(** ... whenever a text is read. *)
Definition sound (h : list action) : Prop := forall h1 a h2 fl s, h = h1 ++ a :: h2 -> reading a fl s -> sound_at h1.

Lemma sound_before : forall h a, sound (h ++ [a]) -> sound h.
Proof. intros h a H h1 a1 h2 fl s E R. apply (H h1 a1 (h2 ++ [a]) fl s); auto. rewrite E, <- app_assoc. reflexivity. Qed.
Lemma sound_now : forall h a fl s, sound (h ++ [a]) -> reading a fl s -> sound_at h.
Proof. intros h a fl s H R. exact (H h a [] fl s eq_refl R). Qed.
Lemma acts_snoc : forall h a, acts start_world (h ++ [a]) = act (acts start_world h) a.
Proof. intros h a. now rewrite acts_app. Qed.
Lemma world_coherent : forall h, coherent (acts start_world h).
Proof. intros h. apply acts_coherent, start_coherent. Qed.

(** The context that the model keeps is the one that is remembered. *)
Lemma kept_context : forall h, sound h -> let st := the_transformer (acts start_world h) in
  shaped st /\ remembers h (ctx_of st) /\ forall c, remembers h c -> c = ctx_of st.
Proof.
  intros h. induction h as [|a h IH] using rev_ind; intros H; cbv zeta.
  - split; [discriminate|]. split; [constructor|]. intros c R. inversion R as [E|h a c' R' S E|h a fl s c' R' S N E|h a fl s c' t c'' R' S N L E]; auto; destruct h; discriminate.
  - specialize (IH (sound_before _ _ H)). cbv zeta in IH. destruct IH as (S & R & U). rewrite acts_snoc.
    set (w := acts start_world h) in *. assert (C : coherent w) by apply world_coherent.
    assert (Dec : (exists fl s, reading a fl s) \/ setting a).
    { destruct a; try (left; do 2 eexists; constructor; fail); right; intros fl x X; inversion X. }
    destruct Dec as [(fl & s & Ra)|Sa].
    + destruct (sound_now h a fl s H Ra) as (D & L). fold w in D. pose proof D as [W N G]. fold w in L.
      assert (Sn : sane (ed (settings h)) (the_transformer w)) by (apply sane_shaped; split; auto; intros b Hb; eapply L; eauto).
      rewrite (act_reading w a fl s C Ra). change (env_of w) with (settings h).
      pose proof (parse_sane (settings h) fl W N G _ s Sn) as Sn'. apply sane_shaped in Sn'. split; [apply Sn'|].
      destruct (read (ed (settings h)) s) as [t|] eqn:Rd.
      * pose proof (read_sound _ _ _ Rd) as Rs. pose proof (parse_left (settings h) fl W N _ s t G Sn Rs) as T. split; [eapply Re_read; eauto|].
        intros c Rc. inversion Rc as [E|h0 a0 c' R' S' E|h0 a0 fl0 s0 c' R' S' N' E|h0 a0 fl0 s0 c' t' c'' R' S' N' L' E]; try (destruct h; discriminate); apply app_inj_tail in E; destruct E as (-> & ->).
        -- exfalso. eapply S'; eauto.
        -- assert (X : fl0 = fl /\ s0 = s) by (destruct Ra; inversion S'; auto). destruct X as (-> & ->). exfalso. eapply N'; eauto.
        -- assert (X : fl0 = fl /\ s0 = s) by (destruct Ra; inversion S'; auto). destruct X as (-> & ->). rewrite (U _ R') in L'.
           pose proof (reads_unique _ _ _ _ G Rs N') as <-. eapply tree_left_unique; eauto.
      * assert (Nr : forall t, ~ reads (ed (settings h)) s t) by (intros t X; apply (read_complete _ _ _ G) in X; congruence).
        rewrite (parse_unread _ fl _ s Nr). cbn [fst]. split; [eapply Re_unread; eauto|].
        intros c Rc. inversion Rc as [E|h0 a0 c' R' S' E|h0 a0 fl0 s0 c' R' S' N' E|h0 a0 fl0 s0 c' t' c'' R' S' N' L' E]; try (destruct h; discriminate); apply app_inj_tail in E; destruct E as (-> & ->).
        -- exfalso. eapply S'; eauto.
        -- auto.
        -- assert (X : fl0 = fl /\ s0 = s) by (destruct Ra; inversion S'; auto). destruct X as (-> & ->). exfalso. eapply Nr; eauto.
    + rewrite (act_setting w a Sa). split; auto. split; [now apply Re_setting|].
      intros c Rc. inversion Rc as [E|h0 a0 c' R' S' E|h0 a0 fl0 s0 c' R' S' N' E|h0 a0 fl0 s0 c' t' c'' R' S' N' L' E]; try (destruct h; discriminate); apply app_inj_tail in E; destruct E as (-> & ->); auto;
      exfalso; eapply Sa; eauto.
Qed.

(** ** C69 *)
(** What is remembered is determined by the history. *)
Theorem C69_context : forall h, sound h -> exists c, remembers h c /\ forall c', remembers h c' -> c' = c.
Proof. intros h H. destruct (kept_context h H) as (_ & A & B). eauto. Qed.
(** A text is read as what it means in the remembered context. *)
Definition read_in (e : env) (c : ctx) (fl : option flag) (s : str) (q : res rlist) : Prop :=
  match q with
  | Ok gs => exists t c', reads (ed e) s t /\ m_tree e fl c t gs c'
  | Err x => (x = SyntaxErr /\ forall t, ~ reads (ed e) s t) \/
             (exists t ts i j, reads (ed e) s t /\ tree_blamed e fl c t ts /\ part_of (ed e) s i j ts /\ x = ParseErr i j)
  end.
Lemma list_read : forall e fl st s q, good_data (ed e) -> sane (ed e) st -> snd (list_from_str e fl st s) = q <-> read_in e (ctx_of st) fl s q.
Proof.
  intros e fl st s q [W N G] S. rewrite C46_list_from_str by auto. destruct q as [gs|x]; [now apply C46_result|now apply C46_error_partial].
Qed.
Theorem C69_recall_partial : forall h c fl s q, sound h -> sound_at h -> remembers h c ->
  snd (w_list_from_str (acts start_world h) fl s) = q <-> read_in (settings h) c fl s q.
Proof.
  intros h c fl s q H Hn R. destruct (kept_context h H) as (S & _ & U). rewrite (U c R). destruct Hn as (D & L).
  rewrite (w_list_eq _ _ _ (world_coherent h)). apply list_read; auto. apply sane_shaped. split; auto. intros b Hb. rewrite <- (U c R) in Hb. eauto.
Qed.
(** With the tables of the package, whatever is parsed and whichever punctuation and flags are chosen. *)
Lemma tables_kept : forall h, Forall keeps_tables h -> good_seps (ed (settings h)) -> good_data (ed (settings h)) /\ book_order (ed (settings h)) = default_book_order.
Proof.
  intros h K G.
  assert (L : latest p_order default_book_order h default_book_order /\ latest p_max default_max_verses h default_max_verses /\ latest p_names default_name_data h default_name_data).
  { split; [|split]; apply L_none; eapply Forall_impl; try exact K; intros a (A & B & C & D); auto. }
  destruct L as (L1 & L2 & L3). split.
  - apply (C56_settings h _ _ _ L1 L2 L3); auto.
    + exact default_order_nodup.
    + intros b Hb. destruct default_wf as (_ & H). exact (H b Hb).
    + intros b Hb. destruct (default_name_data b) as [n|] eqn:E; [|contradiction]. exact (default_names_listed b n E).
  - now destruct (C54_order_partial h _ L1 default_order_nodup).
Qed.
Lemma tables_sound : forall h, Forall keeps_tables h -> (forall h1 h2, h = h1 ++ h2 -> good_seps (ed (settings h1))) -> sound h /\ sound_at h.
Proof.
  intros h. induction h as [|a h IH] using rev_ind; intros K G.
  - split; [intros h1 a h2 fl s E; destruct h1; discriminate|]. destruct (tables_kept [] (Forall_nil _) (G [] [] eq_refl)) as (D & _). split; auto.
    intros c b R. inversion R as [E|h a c' R' S E|h a fl s c' R' S N E|h a fl s c' t c'' R' S N L E]; [discriminate|..]; destruct h; discriminate.
  - pose proof K as Ka. apply Forall_app in K. destruct K as (K & _).
    destruct IH as (Sd & Sn); auto. { intros h1 h2 E. apply (G h1 (h2 ++ [a])). rewrite E, <- app_assoc. reflexivity. }
    assert (Sd' : sound (h ++ [a])).
    { intros h1 a1 h2 fl s E R. destruct h2 as [|a2 h2 _] using rev_ind.
      - apply app_inj_tail in E. destruct E as (-> & ->). exact Sn.
      - change (h1 ++ a1 :: h2 ++ [a2]) with (h1 ++ (a1 :: h2) ++ [a2]) in E. rewrite app_assoc in E. apply app_inj_tail in E. destruct E as (-> & _). eapply Sd; eauto. }
    split; auto. destruct (tables_kept (h ++ [a]) Ka (G (h ++ [a]) [] (eq_sym (app_nil_r _)))) as (D & B). split; auto.
    destruct (tables_kept h K (G h [a] eq_refl)) as (D0 & B0). intros c b R Hb. rewrite B, <- B0.
    inversion R as [E|h0 a0 c' R' S' E|h0 a0 fl0 s0 c' R' S' N' E|h0 a0 fl0 s0 c' t' c'' R' S' N' L' E]; try (destruct h; discriminate); apply app_inj_tail in E; destruct E as (-> & ->); try (eapply Sn; eauto; fail).
    destruct (kept_context h Sd) as (Sh & Rm & U). pose proof (U _ R') as ->. destruct (kept_context (h ++ [a]) Sd') as (_ & _ & U'). rewrite (U' c R) in Hb.
    rewrite acts_snoc, (act_reading _ a fl0 s0 (world_coherent h) S') in Hb. destruct D0 as [W N Gs].
    assert (Sa : sane (ed (settings h)) (the_transformer (acts start_world h))) by (apply sane_shaped; split; auto; intros b' Hb'; eapply Sn; eauto).
    pose proof (parse_sane (settings h) fl0 W N Gs _ s0 Sa) as Sa'. exact (sane_listed _ _ _ Sa' Hb).
Qed.
Theorem C69_default : forall h fl s q, Forall keeps_tables h -> (forall h1 h2, h = h1 ++ h2 -> good_seps (ed (settings h1))) ->
  exists c, remembers h c /\ (forall c', remembers h c' -> c' = c) /\
    (snd (w_list_from_str (acts start_world h) fl s) = q <-> read_in (settings h) c fl s q).
Proof.
  intros h fl s q K G. destruct (tables_sound h K G) as (Sd & Sn). destruct (C69_context h Sd) as (c & R & U).
  exists c. split; auto. split; auto. now apply C69_recall_partial.
Qed.
Local Ltac good_marks := constructor; [intros c [->|[->|[->|[->| ->]]]]; vm_compute; auto|vm_compute; discriminate ..|intros c [->| ->]; vm_compute; repeat split; discriminate].
(** A rejected text leaves its book, a setting leaves what is remembered. *)
Example C69_ex : let h := [VerseFromStr None (s2l "Mark 2:3"); ListFromStr None (s2l "Luke 99; Foo"); ListFromStr None (s2l "3;;"); SetFlags ALL] in
  Forall keeps_tables h /\ (forall h1 h2, h = h1 ++ h2 -> good_seps (ed (settings h1))) /\
  remembers h (InBook Luke) /\ remembers [VerseFromStr None (s2l "Mark 2:3")] (InChap Mark 2) /\
  snd (w_list_from_str (acts start_world h) None (s2l "5")) = Ok [[R (V Luke 5 1) (V Luke 5 39)]] /\
  snd (w_list_from_str (acts start_world [VerseFromStr None (s2l "Mark 2:3")]) None (s2l "5")) = Ok [[R (V Mark 2 5) (V Mark 2 5)]].
Proof.
  intros h. assert (K : Forall keeps_tables h) by (repeat (apply Forall_cons; [repeat split|]); apply Forall_nil).
  assert (G : forall h1 h2, h = h1 ++ h2 -> good_seps (ed (settings h1))).
  { intros h1 h2 E. unfold h in E.
    do 4 (destruct h1 as [|? h1]; [good_marks|cbn [app] in E; injection E as <- E]).
    destruct h1; [good_marks|discriminate]. }
  split; [exact K|]. split; [exact G|]. split; [|split].
  - destruct (kept_context h (proj1 (tables_sound h K G))) as (_ & H & _). vm_compute (ctx_of _) in H. exact H.
  - assert (G1 : forall h1 h2, firstn 1 h = h1 ++ h2 -> good_seps (ed (settings h1))) by (intros h1 h2 E; apply (G h1 (h2 ++ skipn 1 h)); rewrite app_assoc, <- E; reflexivity).
    assert (K1 : Forall keeps_tables (firstn 1 h)) by (apply Forall_cons; [repeat split|apply Forall_nil]).
    destruct (kept_context _ (proj1 (tables_sound _ K1 G1))) as (_ & H & _). vm_compute (ctx_of _) in H. exact H.
  - vm_compute. auto.
Qed.
(** After a text that an unused parser accepts, whatever came before it, the next text is read in the context that this
    text leaves; settings may be assigned in between. *)
Theorem C69_next_partial : forall h a fl s t gs c k fp s' q, let h' := h ++ a :: k in
  good_data (ed (settings h)) -> reading a fl s -> reads (ed (settings h)) s t -> m_tree (settings h) fl NoBook t gs c ->
  Forall setting k -> good_data (ed (settings h')) -> (forall b, ctx_book c = Some b -> In b (book_order (ed (settings h')))) ->
  snd (w_list_from_str (acts start_world h') fp s') = q <-> read_in (settings h') c fp s' q.
Proof.
  intros h a fl s t gs c k fp s' q h' D Ra Rs M Hk D' L. pose proof D as [W N G].
  set (w := acts start_world h). assert (C : coherent w) by apply world_coherent.
  set (st0 := fst (parse (settings h) fl ts_init s)).
  assert (E0 : snd (parse (settings h) fl ts_init s) = Ok gs) by (apply (parse_ok _ fl W N G); auto using sane_init; eauto).
  assert (C0 : ctx_of st0 = c) by (apply (parse_next _ fl W N G ts_init s gs t c); auto using sane_init).
  assert (S0 : sane (ed (settings h)) st0) by (apply (parse_sane _ fl W N G); auto using sane_init).
  assert (S1 : sane (ed (settings h')) st0).
  { apply sane_shaped in S0. apply sane_shaped. split; [apply S0|]. rewrite C0. exact L. }
  assert (T : the_transformer (acts start_world h') = fst (parse (settings h) fl (the_transformer w) s)).
  { unfold h'. rewrite acts_app. change (acts (acts start_world h) (a :: k)) with (acts (act w a) k).
    assert (K : forall k w, Forall setting k -> the_transformer (acts w k) = the_transformer w).
    { clear. induction k as [|b k IH]; intros w H; auto. inversion H; subst. change (acts w (b :: k)) with (acts (act w b) k). rewrite IH by auto. now apply act_setting. }
    rewrite K by auto. now apply act_reading. }
  pose proof (parse_leaves (settings h) fl s gs (the_transformer w) E0) as Sm. fold st0 in Sm. rewrite <- T in Sm.
  rewrite (w_list_eq _ _ _ (world_coherent h')). rewrite <- C0. change (env_of (acts start_world h')) with (settings h').
  rewrite <- (list_read _ fp st0 s' q D' S1). unfold list_from_str.
  pose proof (parse_same (settings h') (Some (eff (settings h') fp)) _ _ s' Sm) as P.
  destruct (parse (settings h') _ (the_transformer _) s'), (parse (settings h') _ st0 s'). cbn in *. now rewrite P.
Qed.
Example C69_next_ex : let h := [SetBookOrder [Gen]; VerseFromStr None (s2l "Foo 2"); SetBookOrder default_book_order] in
  let h' := h ++ ListFromStr None (s2l "Jude 3; Mark 4:5") :: [SetFlags MULTIBOOK] in
  snd (list_from_str (settings h) None ts_init (s2l "Jude 3; Mark 4:5")) = Ok [[R (V Jude 1 3) (V Jude 1 3)]; [R (V Mark 4 5) (V Mark 4 5)]] /\
  snd (w_list_from_str (acts start_world h') None (s2l "7-Luke 1")) = Ok [[R (V Mark 4 7) (V Luke 1 80)]].
Proof. vm_compute. auto. Qed.
