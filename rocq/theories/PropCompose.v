(** * PropCompose: texts that are joined with a separator (C89). *)
From Coq Require Import List ZArith NArith Bool Ascii String Lia.
From Verif Require Import Base Books Chars Regex Data DefaultData MVerse MRange MSeq MList MStr MParse Spec SpecList SpecParse SpecName SpecMean PLex PName PDefault PParse PParse2 PPrint PText PRound PropParse PropStr SpecAlike PAlike PropAlike.
Import ListNotations.
Import MParse SpecParse.
Open Scope Z_scope.
Open Scope list_scope.

(** ** Specification *)
Definition a_list (d : bibledata) (s : str) : Prop := exists t, reads d s t.
Definition list_mark (d : bibledata) (c : ascii) : Prop := c = major_list_sep d \/ c = minor_list_sep d.
(** The groups of both lists; around a minor separator the last group of the first and the first group of the second are one group. *)
Definition glued (d : bibledata) (c : ascii) (g h k : list (list range)) : Prop :=
  (c = major_list_sep d -> k = g ++ h) /\
  (c = minor_list_sep d -> exists g' a b h', g = g' ++ [a] /\ h = b :: h' /\ k = g' ++ (a ++ b) :: h').
(** An exception whose positions are moved by [n]. *)
Definition moved_by (n : Z) (x : exn) : exn := match x with ParseErr i j => ParseErr (i + n) (j + n) | _ => x end.

(** ** Tokens *)
Definition list_tok (s : token) : Prop := tk s = TMajor \/ tk s = TMinor.
Lemma single_toks_kind : forall l a s, g_single l a -> In s l -> ~ list_tok s.
Proof. intros l a s G I L. destruct L as [L|L]; inversion G; subst; cbn in I; intuition congruence. Qed.
Lemma ref_toks_kind : forall l x s, g_ref l x -> In s l -> ~ list_tok s.
Proof.
  intros l x s G I. inversion G as [l' a Ga|l' m a s' b Ga Hs Gb]; subst; [eapply single_toks_kind; eauto|].
  apply in_app_iff in I. intros L. destruct I as [I|[->|I]]; [exact (single_toks_kind _ _ _ Ga I L)| |exact (single_toks_kind _ _ _ Gb I L)]. destruct L as [L|L]; congruence.
Qed.
Lemma app_first : forall {A} (P : A -> Prop) l m us s vs, l ++ m = us ++ s :: vs -> (forall x, In x l -> ~ P x) -> P s -> exists us', us = l ++ us' /\ m = us' ++ s :: vs.
Proof.
  intros A P l. induction l as [|x l IH]; intros m us s vs E N Hs; [exists us; auto|]. destruct us as [|u us]; cbn in E; injection E as -> E.
  - exfalso. apply (N s); [now left|exact Hs].
  - destruct (IH m us s vs E) as (us' & -> & ->); auto; [|exists us'; auto]. intros y Iy. apply N. now right.
Qed.
Lemma g_ref_nonempty : forall l x, g_ref l x -> l <> [].
Proof. intros l x G. inversion G as [l' a Ga|l' m a s' b Ga Hs Gb]; subst; [inversion Ga; discriminate|]. now destruct l'. Qed.
Lemma g_rest_cut : forall m r tr, g_rest m r tr -> forall us s vs, m = us ++ s :: vs -> list_tok s ->
  exists r1, g_rest us r1 None /\ ((vs = [] /\ r = r1 /\ tr = Some s) \/ exists l x m' r', vs = l ++ m' /\ g_ref l x /\ g_rest m' r' tr /\ r = r1 ++ (s, x) :: r').
Proof.
  induction 1 as [|s0 Hs|s0 l x m r t Hs Hx Hm IH]; intros us s vs E L.
  - destruct us; discriminate.
  - destruct us as [|u us]; [|destruct us; discriminate]. injection E as -> <-. exists []. split; [constructor|]. left. auto.
  - destruct us as [|u us].
    + injection E as -> <-. exists []. split; [constructor|]. right. exists l, x, m, r. auto.
    + injection E as -> E. destruct (app_first list_tok l m us s vs E) as (us' & -> & Em); auto; [intros y; now apply (ref_toks_kind l x)|].
      destruct (IH us' s vs Em L) as (r1 & G1 & Q). exists ((u, x) :: r1). split; [constructor; auto|].
      destruct Q as [(-> & -> & ->)|(l' & x' & m' & r' & -> & Gx & Gr & ->)]; [left; auto|right; exists l', x', m', r'; auto].
Qed.
Lemma g_list_cut : forall ts t, g_list ts t -> forall us s vs, ts = us ++ s :: vs -> list_tok s ->
  exists x r1, g_list us (Tree x r1 None) /\ ((vs = [] /\ t = Tree x r1 (Some s)) \/ exists y r' tr, g_list vs (Tree y r' tr) /\ t = Tree x (r1 ++ (s, y) :: r') tr).
Proof.
  intros ts t [l x m r tr Hx Hr] us s vs E L. destruct (app_first list_tok l m us s vs E) as (us' & -> & ->); auto; [intros y; now apply (ref_toks_kind l x)|].
  destruct (g_rest_cut _ _ _ Hr us' s vs eq_refl L) as (r1 & G1 & Q). exists x, r1. split; [now constructor|].
  destruct Q as [(-> & -> & ->)|(l' & x' & m' & r' & -> & Gx & Gr & ->)]; [left; auto|right]. exists x', r', tr. split; [now constructor|reflexivity].
Qed.
Lemma g_rest_app : forall m r tr, g_rest m r tr -> tr = None -> forall m' r' tr', g_rest m' r' tr' -> g_rest (m ++ m') (r ++ r') tr'.
Proof.
  induction 1 as [|s0 Hs|s0 l x m r t Hs Hx Hm IH]; intros E m' r' tr' G; [exact G|discriminate|]. cbn [app]. rewrite <- app_assoc. constructor; auto.
Qed.
Lemma g_list_app : forall us x r1 s vs y r2 tr, g_list us (Tree x r1 None) -> list_tok s -> g_list vs (Tree y r2 tr) -> g_list (us ++ s :: vs) (Tree x (r1 ++ (s, y) :: r2) tr).
Proof.
  intros us x r1 s vs y r2 tr G1 L G2. inversion G1 as [l x' m r t Gx Gr]; subst. inversion G2 as [l' y' m' r' t' Gy Gr']; subst. rewrite <- app_assoc. constructor; auto.
  apply (g_rest_app _ _ _ Gr eq_refl). now constructor.
Qed.
Lemma g_list_end : forall us x r1 s, g_list us (Tree x r1 None) -> list_tok s -> g_list (us ++ [s]) (Tree x r1 (Some s)).
Proof.
  intros us x r1 s G1 L. inversion G1 as [l x' m r t Gx Gr]; subst. rewrite <- app_assoc. constructor; auto.
  rewrite <- (app_nil_r r1). apply (g_rest_app _ _ _ Gr eq_refl). now constructor.
Qed.

(** ** Texts *)
Definition mark_tok (d : bibledata) (c : ascii) (i : Z) : token := Tok (if Ascii.eqb c (major_list_sep d) then TMajor else TMinor) [c] i.
Lemma mark_is_sep : forall d c, list_mark d c -> is_sep d c.
Proof. intros d c [->| ->]; unfold is_sep; auto. Qed.
Lemma mark_list_tok : forall d c i, list_tok (mark_tok d c i).
Proof. intros d c i. unfold mark_tok, list_tok. cbn [tk]. destruct (Ascii.eqb c (major_list_sep d)); auto. Qed.
Lemma mark_spells : forall d c i t vs, good_seps d -> list_mark d c -> spells d (i + 1) t vs -> spells d i (c :: t) (mark_tok d c i :: vs).
Proof.
  intros d c i t vs G M S. unfold mark_tok. replace i with (i + zlen (@nil ascii)) at 2 by (rewrite zlen_nil; lia). apply (Sp_tok d i [] _ [c] t vs); [constructor| |].
  - destruct (Ascii.eqb_spec c (major_list_sep d)) as [->|N]; [reflexivity|]. destruct M as [M|M]; [congruence|]. now subst c.
  - eapply spells_at; [exact S|]. unfold zlen. cbn. lia.
Qed.
Lemma mark_inv : forall d c i t ts, good_seps d -> list_mark d c -> spells d i (c :: t) ts -> exists vs, ts = mark_tok d c i :: vs /\ spells d (i + 1) t vs.
Proof.
  intros d c i t ts G M S. pose proof (mark_is_sep _ _ M) as Hs. destruct (gs_punct _ G c Hs) as (Hw & Hp).
  assert (Nw : is_ws c = false) by (destruct (is_ws c) eqn:E; auto; apply ws_space in E; destruct E; congruence).
  inversion S as [i' w W|i' w k x s vs W T S' E1 E2]; subst.
  - inversion W; congruence.
  - destruct w as [|c' w]; [|cbn in E2; injection E2 as -> _; inversion W; congruence]. cbn [app] in E2.
    destruct (term_ends d k x G T) as (Nx & _). destruct x as [|c' x]; [congruence|]. cbn in E2. injection E2 as -> E2.
    assert (X : c :: x = [c]) by (eapply sep_alone; eauto; now left). injection X as ->. cbn [app] in E2. subst s. exists vs. split.
    + f_equal. unfold mark_tok. rewrite zlen_nil. f_equal; [|lia].
      destruct (Ascii.eqb_spec c (major_list_sep d)) as [->|N]; destruct k; cbn [in_term] in T; auto.
      * destruct T as (c0 & m & z & E & A & _). injection E as <- _. congruence.
      * destruct T as (_ & F). inversion F as [|? ? D _]; subst. exfalso. destruct (gs_punct _ G _ Hs) as (A & _). apply digit_word in D. congruence.
      * injection T as T. symmetry in T. destruct (gs_range_major _ G T).
      * injection T as T. destruct (gs_major_minor _ G T).
      * exfalso. destruct (gs_verse _ G (major_list_sep d)) as (_ & A & _); [destruct T as [T|T]; injection T as ->; auto|congruence].
      * destruct T as (c0 & m & z & E & A & _). injection E as <- _. congruence.
      * destruct T as (_ & F). inversion F as [|? ? D _]; subst. exfalso. apply digit_word in D. congruence.
      * injection T as ->. destruct M as [M|M]; [destruct (gs_range_major _ G M)|destruct (gs_range_minor _ G M)].
      * injection T as ->. congruence.
      * exfalso. destruct (gs_verse _ G c) as (_ & A & B); [destruct T as [T|T]; injection T as ->; auto|]. destruct M; congruence.
    + eapply spells_at; [exact S'|]. rewrite zlen_nil. unfold zlen. cbn. lia.
Qed.
Lemma cut_mark : forall d s c t ts, good_seps d -> list_mark d c -> spells d 0 (s ++ c :: t) ts ->
  exists us vs, ts = us ++ mark_tok d c (zlen s) :: vs /\ spells d 0 s us /\ spells d (zlen s + 1) t vs.
Proof.
  intros d s c t ts G M S. destruct (spells_split d 0 _ ts G S s (c :: t) eq_refl) as (us & ws & -> & S1 & S2).
  - right. right. right. exists c, t. split; auto. now apply mark_is_sep.
  - replace (0 + zlen s) with (zlen s) in S2 by lia. destruct (mark_inv _ _ _ _ _ G M S2) as (vs & -> & S3). exists us, vs. auto.
Qed.
Lemma spells_back : forall d i s ts n, spells d (i + n) s ts -> spells d i s (map (later (- n)) ts).
Proof. intros d i s ts n H. apply (spells_later _ _ _ _ (- n)) in H. eapply spells_at; [exact H|lia]. Qed.
Lemma later_kind : forall n ts, map tk (map (later n) ts) = map tk ts.
Proof. intros n ts. rewrite map_map. reflexivity. Qed.
Lemma later_rel : forall n ts, Forall2 (fun a b => b = later n a) ts (map (later n) ts).
Proof. intros n ts. induction ts; constructor; auto. Qed.
Lemma later_tree : forall n ts t, g_list ts t -> exists u, g_list (map (later n) ts) u /\ tree_rel (fun a b => b = later n a) t u.
Proof. intros n ts t G. apply (g_list_rel (fun a b => b = later n a)) with (ts := ts); auto; [intros a b ->; reflexivity|apply later_rel]. Qed.

(** ** The groups *)
Lemma ref_list_done : forall cs done cur, ref_list done cur cs = done ++ ref_list [] cur cs.
Proof.
  induction cs as [|c cs IH]; intros done cur.
  - cbn [ref_list]. unfold flush. destruct cur; [now rewrite app_nil_r|reflexivity].
  - destruct c; cbn [ref_list]; [apply IH| |apply IH]. rewrite IH, (IH (flush [] cur)). unfold flush. destruct cur; cbn [app]; [reflexivity|]. now rewrite <- app_assoc.
Qed.
Lemma ref_list_major : forall cs done cur ds, ref_list done cur (cs ++ CMajor :: ds) = ref_list done cur cs ++ ref_list [] [] ds.
Proof. induction cs as [|[r| |] cs IH]; intros done cur ds; cbn [app ref_list]; [apply ref_list_done|apply IH ..]. Qed.
Lemma ref_list_cur : forall ds a b, b <> [] -> exists g gs, ref_list [] b ds = g :: gs /\ ref_list [] (a ++ b) ds = (a ++ g) :: gs.
Proof.
  induction ds as [|[r| |] ds IH]; intros a b N; cbn [ref_list].
  - exists b, []. unfold flush. destruct b; [congruence|]. split; [reflexivity|]. destruct a; reflexivity.
  - rewrite <- app_assoc. apply IH. destruct b; discriminate.
  - exists b, (ref_list [] [] ds). rewrite (ref_list_done ds (flush [] b)), (ref_list_done ds (flush [] (a ++ b))). unfold flush. destruct b; [congruence|]. split; [reflexivity|]. destruct a; reflexivity.
  - now apply IH.
Qed.
Lemma ref_list_minor : forall cs r ds r2, ref_list [] [] (cs ++ [CRange r]) <> [] /\ exists g' a b h', ref_list [] [] (cs ++ [CRange r]) = g' ++ [a] /\
  ref_list [] [] (CRange r2 :: ds) = b :: h' /\ ref_list [] [] ((cs ++ [CRange r]) ++ CMinor :: CRange r2 :: ds) = g' ++ (a ++ b) :: h'.
Proof.
  assert (K : forall cs done cur r, exists g' a, a <> [] /\ ref_list done cur (cs ++ [CRange r]) = g' ++ [a] /\ forall ds, ref_list done cur ((cs ++ [CRange r]) ++ ds) = ref_list g' a ds).
  { induction cs as [|[q| |] cs IH]; intros done cur r; cbn [app ref_list]; [|apply IH ..].
    exists done, (cur ++ [r]). split; [destruct cur; discriminate|]. split; [|reflexivity]. unfold flush. now destruct (cur ++ [r]) eqn:E; [destruct cur|]. }
  intros cs r ds r2. destruct (K cs [] [] r) as (g' & a & Na & E & F). split; [rewrite E; now destruct g'|].
  destruct (ref_list_cur ds a [r2]) as (b & h' & E1 & E2); [discriminate|]. exists g', a, b, h'. split; [exact E|]. split; [exact E1|].
  rewrite F. cbn [ref_list]. rewrite ref_list_done, E2. reflexivity.
Qed.

(** ** The transformer *)
Lemma t_rests_app : forall e f l m st, t_rests e f st (l ++ m) =
  match t_rests e f st l with (st1, Err z) => (st1, Err z) | (st1, Ok cs) => let (st2, q) := t_rests e f st1 m in (st2, ds <- q ;; Ok (cs ++ ds)) end.
Proof.
  intros e f l m. induction l as [|(s, x) l IH]; intros st; cbn [app t_rests].
  - destruct (t_rests e f st m) as (st2, [ds|z]); reflexivity.
  - destruct (t_ref e f (t_sep st s) x) as (st1, [r|z]); [|reflexivity]. rewrite IH. destruct (t_rests e f st1 l) as (st2, [cs|z]); cbn [bind]; [|reflexivity].
    destruct (t_rests e f st2 m) as (st3, [ds|z]); reflexivity.
Qed.
Lemma t_rests_ends : forall e f l st st' cs, t_rests e f st l = (st', Ok cs) -> cs = [] \/ exists cs' r, cs = cs' ++ [CRange r].
Proof.
  intros e f l. induction l as [|(s, x) l IH]; intros st st' cs E; cbn [t_rests] in E; [injection E as _ <-; auto|].
  destruct (t_ref e f (t_sep st s) x) as (st1, [r|z]); [|discriminate]. destruct (t_rests e f st1 l) as (st2, [ds|z]) eqn:E2; [|discriminate]. cbn [bind] in E. injection E as _ <-.
  right. destruct (IH _ _ _ E2) as [->|(cs' & r' & ->)]; [exists [sep_child s], r|exists (sep_child s :: CRange r :: cs'), r']; reflexivity.
Qed.
(** A tree with a separator at its end, then another tree. *)
Lemma t_children_app : forall e f st x r1 s y r2 tr, t_children e f st (Tree x (r1 ++ (s, y) :: r2) tr) =
  match t_children e f st (Tree x r1 (Some s)) with
  | (st1, Err z) => (st1, Err z)
  | (st1, Ok cs) => let (st2, q) := t_children e f st1 (Tree y r2 tr) in (st2, ds <- q ;; Ok (cs ++ ds))
  end.
Proof.
  intros e f st x r1 s y r2 tr. unfold t_children. cbn [t_first t_rest t_trail]. destruct (t_ref e f st x) as (st1, [r|z]); [|reflexivity]. rewrite t_rests_app.
  destruct (t_rests e f st1 r1) as (st2, [cs|z]); [|reflexivity]. cbn [t_rests]. destruct (t_ref e f (t_sep st2 s) y) as (st3, [r'|z]); [|reflexivity].
  destruct (t_rests e f st3 r2) as (st4, [ds|z]); [|reflexivity]. cbn [bind]. destruct tr as [s'|]; cbn [bind app]; repeat (rewrite <- app_assoc; cbn [app]); reflexivity.
Qed.

Lemma t_children_ends : forall e f st x r1 s st1 cs, t_children e f st (Tree x r1 (Some s)) = (st1, Ok cs) -> exists cs' r, cs = (cs' ++ [CRange r]) ++ [sep_child s].
Proof.
  intros e f st x r1 s st1 cs E. unfold t_children in E. cbn [t_first t_rest t_trail] in E. destruct (t_ref e f st x) as (sa, [r|z]); [|discriminate].
  destruct (t_rests e f sa r1) as (sb, [ds|z]) eqn:Er; [|discriminate]. injection E as _ <-. destruct (t_rests_ends _ _ _ _ _ _ Er) as [->|(cs' & r' & ->)]; [exists [], r|exists (CRange r :: cs'), r']; reflexivity.
Qed.
Lemma t_children_starts : forall e f st t st1 cs, t_children e f st t = (st1, Ok cs) -> exists r cs', cs = CRange r :: cs'.
Proof.
  intros e f st t st1 cs E. unfold t_children in E. destruct (t_ref e f st (t_first t)) as (sa, [r|z]); [|discriminate].
  destruct (t_rests e f sa (t_rest t)) as (sb, [ds|z]) eqn:Er; [|discriminate]. destruct (t_trail t); injection E as _ <-; eauto.
Qed.

(** ** C89 *)
(** Two texts and a separator are a list of references exactly if the first with the separator is one, and the second is one or white space. *)
Theorem C89_readable : forall d s c t, good_seps d -> list_mark d c ->
  (a_list d (s ++ c :: t) <-> a_list d (s ++ [c]) /\ (a_list d t \/ white t)).
Proof.
  intros d s c t G M. split.
  - intros (x & ts & S & L). destruct (cut_mark _ _ _ _ _ G M S) as (us & vs & -> & S1 & S2).
    destruct (g_list_cut _ _ L us _ vs eq_refl (mark_list_tok d c _)) as (x1 & r1 & G1 & Q). split.
    + exists (Tree x1 r1 (Some (mark_tok d c (zlen s)))), (us ++ [mark_tok d c (zlen s)]). split; [|apply g_list_end; auto using mark_list_tok].
      apply spells_app; auto. apply mark_spells; auto. constructor. constructor.
    + destruct Q as [(-> & _)|(y & r' & tr & G2 & _)]; [right|left].
      * now inversion S2.
      * destruct (later_tree (- (zlen s + 1)) _ _ G2) as (u & Gu & _). exists u, (map (later (- (zlen s + 1))) vs). split; [|exact Gu]. apply spells_back. eapply spells_at; [exact S2|lia].
  - intros ((x & ts & S & L) & T). destruct (cut_mark _ _ _ _ _ G M S) as (us & vs & -> & S1 & S2). assert (vs = []) by (eapply spells_white; eauto; constructor). subst vs.
    destruct (g_list_cut _ _ L us _ [] eq_refl (mark_list_tok d c _)) as (x1 & r1 & G1 & _). destruct T as [(y & vs & S3 & L3)|W].
    + destruct (later_tree (zlen s + 1) _ _ L3) as ([y' r' tr] & Gu & _). exists (Tree x1 (r1 ++ (mark_tok d c (zlen s), y') :: r') tr), (us ++ mark_tok d c (zlen s) :: map (later (zlen s + 1)) vs).
      split; [|apply g_list_app; auto using mark_list_tok]. apply spells_app; auto. apply mark_spells; auto. apply (spells_later _ _ _ _ (zlen s + 1)) in S3. eapply spells_at; [exact S3|lia].
    + exists (Tree x1 r1 (Some (mark_tok d c (zlen s)))), (us ++ [mark_tok d c (zlen s)]). split; [|apply g_list_end; auto using mark_list_tok].
      apply spells_app; auto. apply mark_spells; auto. now constructor.
Qed.
(** Reading the two with the separator is reading the first, with the separator, and then the second. *)
Theorem C89_compose : forall e fl st s c t st1 q1 st2 q2, good_seps (ed e) -> list_mark (ed e) c -> a_list (ed e) (s ++ [c]) -> a_list (ed e) t ->
  parse e fl st (s ++ [c]) = (st1, q1) -> parse e fl st1 t = (st2, q2) ->
  match q1, q2 with
  | Err x, _ => parse e fl st (s ++ c :: t) = (st1, Err x)
  | Ok g, Err x => parse e fl st (s ++ c :: t) = (st2, Err (moved_by (zlen s + 1) x))
  | Ok g, Ok h => exists k, parse e fl st (s ++ c :: t) = (st2, Ok k) /\ glued (ed e) c g h k
  end.
Proof.
  intros e fl st s c t st1 q1 st2 q2 G M (x & ts & S & L) (y & vs & S3 & L3) E1 E2.
  destruct (cut_mark _ _ _ _ _ G M S) as (us & vs0 & -> & S1 & S2). assert (vs0 = []) by (eapply spells_white; eauto; constructor). subst vs0.
  set (m := mark_tok (ed e) c (zlen s)) in *. set (n := zlen s + 1) in *.
  destruct (g_list_cut _ _ L us m [] eq_refl (mark_list_tok _ c _)) as (x1 & r1 & G1 & Q). destruct Q as [(_ & ->)|(y0 & r0 & tr0 & G0 & _)]; [|inversion G0 as [l ? ? ? ? Gl Gm Y]; destruct l; [now apply g_ref_nonempty in Gl|discriminate]].
  destruct (later_tree n _ _ L3) as ([y' r' tr] & Gu & Ru).
  assert (Rd : reads (ed e) (s ++ c :: t) (Tree x1 (r1 ++ (m, y') :: r') tr)).
  { exists (us ++ m :: map (later n) vs). split; [|apply g_list_app; auto; apply mark_list_tok]. apply spells_app; auto. apply mark_spells; auto. apply (spells_later _ _ _ _ n) in S3. eapply spells_at; [exact S3|unfold n; lia]. }
  rewrite (parse_reads e fl st _ _ G Rd), t_children_app.
  rewrite (parse_reads e fl st (s ++ [c]) (Tree x1 r1 (Some m)) G) in E1 by (exists (us ++ [m]); auto).
  rewrite (parse_reads e fl st1 t y G) in E2 by (exists vs; auto).
  destruct (t_children e (eff e fl) st (Tree x1 r1 (Some m))) as (sa, [cs|z]) eqn:EA; cbn [fst snd bind] in E1; injection E1 as -> <-; [|reflexivity].
  assert (RR := t_children_rel (fun a b => b = later n a) e (eff e fl) (fun a b (H : b = later n a) _ => eq_sym (f_equal (fun z => from_str (ed e) (ttext z)) H))
    (fun a b (H : b = later n a) _ => eq_sym (f_equal tok_num H)) vs st1 y (Tree y' r' tr) L3 Ru).
  destruct RR as (R1 & R2 & _). destruct (t_children e (eff e fl) st1 (Tree y' r' tr)) as (sb, qb) eqn:EB.
  destruct (t_children e (eff e fl) st1 y) as (sc, qc) eqn:EC. cbn [fst snd] in *. subst sc. injection E2 as <- <-.
  destruct R2 as [(ds & -> & ->)|(a & b & a' & b' & -> & -> & -> & ->)]; cbn [bind].
  - eexists. split; [reflexivity|]. destruct (t_children_ends _ _ _ _ _ _ _ _ EA) as (cs' & r & ->). destruct (t_children_starts _ _ _ _ _ _ EB) as (r2 & ds' & ->).
    rewrite <- (app_assoc (cs' ++ [CRange r]) [sep_child m]). cbn [app]. unfold m, mark_tok, sep_child. cbn [tk]. destruct (Ascii.eqb_spec c (major_list_sep (ed e))) as [->|N].
    + split; [|intros H; destruct (gs_major_minor _ G H)]. intros _. rewrite !ref_list_major. cbn [ref_list]. now rewrite app_nil_r.
    + split; [congruence|]. intros _. destruct (ref_list_minor cs' r ds' r2) as (_ & g' & a & b & h' & F1 & F2 & F3).
      exists g', a, b, h'. split; [|auto]. rewrite <- F1. clear. generalize (@nil (list range)) (@nil range). induction (cs' ++ [CRange r]) as [|[q| |] l IH]; intros u v; cbn [app ref_list]; auto.
  - f_equal. f_equal. unfold later, moved_by, tend. cbn [tpos ttext]. f_equal; lia.
Qed.
(** A separator at the end changes nothing in the result. *)
Theorem C89_trailing : forall e fl st s c, good_seps (ed e) -> list_mark (ed e) c -> a_list (ed e) (s ++ [c]) ->
  snd (parse e fl st (s ++ [c])) = snd (parse e fl st s) /\ a_list (ed e) s.
Proof.
  intros e fl st s c G M (x & ts & S & L). destruct (cut_mark _ _ _ _ _ G M S) as (us & vs0 & -> & S1 & S2). assert (vs0 = []) by (eapply spells_white; eauto; constructor). subst vs0.
  set (m := mark_tok (ed e) c (zlen s)) in *.
  destruct (g_list_cut _ _ L us m [] eq_refl (mark_list_tok _ c _)) as (x1 & r1 & G1 & Q). destruct Q as [(_ & ->)|(y0 & r0 & tr0 & G0 & _)]; [|inversion G0 as [l ? ? ? ? Gl Gm Y]; destruct l; [now apply g_ref_nonempty in Gl|discriminate]].
  assert (R0 : reads (ed e) s (Tree x1 r1 None)) by (exists us; auto). split; [|exists (Tree x1 r1 None); exact R0].
  rewrite (parse_reads e fl st s _ G R0). rewrite (parse_reads e fl st (s ++ [c]) (Tree x1 r1 (Some m)) G) by (exists (us ++ [m]); auto). cbn [snd].
  unfold t_children. cbn [t_first t_rest t_trail]. destruct (t_ref e (eff e fl) st x1) as (sa, [r|z]); [|reflexivity].
  destruct (t_rests e (eff e fl) sa r1) as (sb, [cs|z]); [|reflexivity]. cbn [snd bind]. f_equal. change (CRange r :: cs ++ [sep_child m]) with ((CRange r :: cs) ++ [sep_child m]).
  generalize (CRange r :: cs) (@nil (list range)) (@nil range). unfold sep_child. induction l as [|[q| |] l IH]; intros u v; cbn [app ref_list]; auto. destruct (tk m); reflexivity.
Qed.
(** The texts of two lists, joined with a separator and white space, are read as the groups of both, after every history. *)
Theorem C89_printed_partial : forall e lk lk' force force' fl fl' fp gs hs c w h, good_data (ed e) -> same_zeros e fl -> same_zeros e fl' -> same_zeros e fp -> force_ok e force -> force_ok e force' ->
  gs <> [] -> Forall (fun g => g <> []) gs -> Forall (Forall (printable e fp lk)) gs ->
  hs <> [] -> Forall (fun g => g <> []) hs -> Forall (Forall (printable e fp lk')) hs -> list_mark (ed e) c -> white w ->
  exists s t k, list_str e lk true force gs fl = Ok s /\ list_str e lk' true force' hs fl' = Ok t /\
    snd (list_from_str e fp (after (ed e) h ts_init) (s ++ c :: w ++ t)) = Ok k /\ glued (ed e) c gs hs k.
Proof.
  intros e lk lk' force force' fl fl' fp gs hs c w h D Z1 Z2 Zp F1 F2 N1 E1 P1 N2 E2 P2 M Hw. pose proof D as [W N G].
  destruct (list_round e W G fl Z1 fp Zp lk force gs F1 N1 E1) as (s & Es & Ts).
  { eapply Forall_impl; [|exact P1]. intros g H. eapply Forall_impl; [|exact H]. apply printable_shows. }
  destruct (list_round e W G fl' Z2 fp Zp lk' force' hs F2 N2 E2) as (t & Et & Tt).
  { eapply Forall_impl; [|exact P2]. intros g H. eapply Forall_impl; [|exact H]. apply printable_shows. }
  assert (A1 : a_list (ed e) (s ++ [c])).
  { destruct (Ts NoBook) as ([x r tr] & c' & (us & S & L) & _ & T). cbn [t_trail] in T. subst tr. exists (Tree x r (Some (mark_tok (ed e) c (zlen s)))), (us ++ [mark_tok (ed e) c (zlen s)]).
    split; [|apply g_list_end; auto using mark_list_tok]. apply spells_app; auto. apply mark_spells; auto. constructor. constructor. }
  assert (A2 : a_list (ed e) t) by (destruct (Tt NoBook) as (x & c' & R & _); exists x; exact R).
  set (st := after (ed e) h ts_init). destruct (parse e fp st (s ++ [c])) as (st1, q1) eqn:Q1. destruct (parse e fp st1 t) as (st2, q2) eqn:Q2.
  assert (K1 : q1 = Ok gs).
  { destruct (C89_trailing e fp st s c G M A1) as (X & _). rewrite Q1 in X. cbn [snd] in X. rewrite X. now apply tree_parse. }
  assert (K2 : q2 = Ok hs).
  { assert (H1 : st1 = after (ed e) (h ++ [(eg e, fp, s ++ [c])]) ts_init).
    { assert (AA : forall h1 x y, after (ed e) (h1 ++ [x]) y = after (ed e) [x] (after (ed e) h1 y)) by (induction h1 as [|((g, f), u) h1 IH]; intros x y; [reflexivity|apply IH]).
      rewrite AA. fold st. cbn [after]. destruct e as [d0 g0]. cbn [ed eg] in *. now rewrite Q1. }
    pose proof (tree_parse e fp t hs (h ++ [(eg e, fp, s ++ [c])]) D Tt) as X. rewrite <- H1, Q2 in X. exact X. }
  subst q1 q2. destruct (C89_compose e fp st s c t st1 _ st2 _ G M A1 A2 Q1 Q2) as (k & Ek & Gk). exists s, t, k. split; [exact Es|]. split; [exact Et|]. split; [|exact Gk].
  rewrite C46_list_from_str; auto; [|apply after_sane; auto using sane_init]. fold st.
  replace (s ++ c :: w ++ t) with ((s ++ [c]) ++ w ++ t) by (now rewrite <- app_assoc). rewrite C74_white_space; auto.
  - replace ((s ++ [c]) ++ t) with (s ++ c :: t) by (now rewrite <- app_assoc). now rewrite Ek.
  - right. right. left. exists c, s. split; auto. now apply mark_is_sep.
Qed.
(** [BibleRangeList(str(a) + "; " + str(b))] with the tables of the package. *)
Theorem C89_default : forall f gs hs h, gs <> [] -> Forall (fun g => g <> []) gs -> hs <> [] -> Forall (fun g => g <> []) hs ->
  Forall (Forall (fun x => wf_range default_data (verse0 f) x /\ (multibook f = true \/ one_book_range x))) (gs ++ hs) ->
  exists s t, list_text (denv f) gs = Ok s /\ list_text (denv f) hs = Ok t /\
    snd (list_from_str (denv f) None (after default_data h ts_init) (s ++ s2l "; " ++ t)) = Ok (gs ++ hs).
Proof.
  intros f gs hs h N1 E1 N2 E2 P. apply Forall_app in P. destruct P as (P1 & P2).
  assert (Q : forall l, Forall (Forall (fun x => wf_range default_data (verse0 f) x /\ (multibook f = true \/ one_book_range x))) l -> Forall (Forall (printable (denv f) None plain)) l).
  { intros l H. eapply Forall_impl; [|exact H]. intros g K. eapply Forall_impl; [|exact K]. intros x (A & B). apply default_printable_flags; [reflexivity|]. now apply plain_printable. }
  destruct (C89_printed_partial (denv f) plain plain false false None None None gs hs ";"%char [" "%char] h) as (s & t & k & Es & Et & Ek & (Gk & _)); auto using default_good; try apply default_force; try reflexivity.
  - now left.
  - repeat constructor.
  - exists s, t. split; [exact Es|]. split; [exact Et|]. rewrite (Gk eq_refl) in Ek. exact Ek.
Qed.
(** "Mark 2:3," then "5; Luke 4", and an error in the second part. *)
Example C89_ex : let d := default_data in let e := denv NONE in
  list_mark d ","%char /\ read d (s2l "Mark 2:3,") <> None /\ read d (s2l "5; Luke 4") <> None /\
  parse e None ts_init (s2l "Mark 2:3,") = (TS (Some Mark) (Some 2) true, Ok [[R (V Mark 2 3) (V Mark 2 3)]]) /\
  parse e None (TS (Some Mark) (Some 2) true) (s2l "5; Luke 4") = (TS (Some Luke) (Some 4) false, Ok [[R (V Mark 2 5) (V Mark 2 5)]; [R (V Luke 4 1) (V Luke 4 44)]]) /\
  parse e None ts_init (s2l "Mark 2:3,5; Luke 4") = (TS (Some Luke) (Some 4) false, Ok [[R (V Mark 2 3) (V Mark 2 3); R (V Mark 2 5) (V Mark 2 5)]; [R (V Luke 4 1) (V Luke 4 44)]]) /\
  snd (parse e None (TS (Some Mark) (Some 2) true) (s2l "5; Luke 44")) = Err (ParseErr 3 10) /\
  snd (parse e None ts_init (s2l "Mark 2:3,5; Luke 44")) = Err (ParseErr 12 19) /\
  snd (parse e None ts_init (s2l "Mark 2:3;5; Luke 4")) = Ok [[R (V Mark 2 3) (V Mark 2 3)]; [R (V Mark 5 1) (V Mark 5 43)]; [R (V Luke 4 1) (V Luke 4 44)]] /\
  read d (s2l "Mark 2:3,; Luke 4") = None.
Proof. cbv zeta. split; [now right|]. split; [vm_compute; discriminate|]. split; [vm_compute; discriminate|]. vm_compute. auto 10. Qed.
Example C89_default_ex : let gs := [[R (V Gen 1 2) (V Gen 1 5); R (V Gen 2 4) (V Gen 2 4)]] in let hs := [[R (V Gen 2 7) (V Gen 2 7)]; [R (V Jude 1 3) (V Jude 1 3)]] in
  list_text (denv NONE) gs = Ok (s2l "Genesis 1:2-5, 2:4") /\ list_text (denv NONE) hs = Ok (s2l "Genesis 2:7; Jude 3") /\
  snd (list_from_str (denv NONE) None ts_init (s2l "Genesis 1:2-5, 2:4; Genesis 2:7; Jude 3")) = Ok (gs ++ hs).
Proof. vm_compute. auto. Qed.
