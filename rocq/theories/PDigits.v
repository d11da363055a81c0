(** * PDigits: reading with and without a limit on the digits of [int()]. *)
From Coq Require Import List ZArith NArith Bool Ascii Lia Sorted.
From Verif Require Import Base Books Chars Regex Data MVerse MRange MSeq MList MParse MDigits SpecParse SpecMean SpecDigits PLex PParse PParse2.
Import ListNotations.
Open Scope Z_scope.

Definition longb (lim : N) (m : token) : bool := (0 <? lim)%N && (lim <? N.of_nat (List.length (ttext m)))%N.
Lemma longb_spec : forall lim m, tk m = TNum -> longb lim m = true <-> too_long lim m.
Proof.
  intros lim m K. unfold longb, too_long. rewrite andb_true_iff, !N.ltb_lt. split.
  - intros (A & B). split; [exact K|]. split; lia.
  - intros (_ & A & B). split; lia.
Qed.
Lemma longb_false : forall lim m, tk m = TNum -> longb lim m = false <-> ~ too_long lim m.
Proof. intros lim m K. rewrite <- (longb_spec lim m K). now rewrite not_true_iff_false. Qed.
Lemma too_long_dec : forall lim m, too_long lim m \/ ~ too_long lim m.
Proof.
  intros lim m. destruct (tk m) eqn:K; try (right; intros (X & _); congruence).
  destruct (longb lim m) eqn:E; [left; now apply (longb_spec lim m K)|right; now apply (longb_false lim m K)].
Qed.
Lemma long_first_dec : forall A lim ts (q : res A), long_first lim ts q \/ ~ long_first lim ts q.
Proof.
  intros A lim ts q. induction ts as [|m ts IH]; [right; intros (m & [] & _)|].
  destruct IH as [(k & I & L & H)|N]; [left; exists k; split; [now right|auto]|].
  destruct (too_long_dec lim m) as [L|L].
  - assert (D : (forall i j, q = Err (ParseErr i j) -> tend m <= j) \/ exists i j, q = Err (ParseErr i j) /\ ~ tend m <= j).
    { destruct q as [a|x]; [left; discriminate|]. destruct x as [| |i j| | | | | | | | |]; try (left; discriminate).
      destruct (Z.leb_spec (tend m) j) as [H|H]; [left; intros i' j' E; injection E as <- <-; exact H|right; exists i, j; split; [reflexivity|lia]]. }
    destruct D as [D|(i & j & E & D)]; [left; exists m; split; [now left|auto]|].
    right. intros (k & [<-|I] & Lk & H); [apply D; now apply (H i)|apply N; exists k; auto].
  - right. intros (k & [<-|I] & Lk & H); [auto|apply N; exists k; auto].
Qed.

(** Tokens from left to right. *)
Definition ordered (ts : list token) : Prop := StronglySorted (fun a b => tend a < tend b) ts.
Lemma spells_after : forall d i s ts, spells d i s ts -> Forall (fun m => i < tend m) ts.
Proof.
  intros d i s ts S. induction S as [|i w k x s ts W T S IH]; [constructor|].
  assert (X : 0 < zlen x).
  { assert (x <> []).
    { destruct k; cbn in T; [destruct T as (c & m & z & -> & _)|destruct T as (T & _)|subst|subst|subst|destruct T as [->| ->]]; auto; discriminate. }
    unfold zlen. destruct x; [congruence|cbn [length]; lia]. }
  assert (0 <= zlen w) by (unfold zlen; lia).
  constructor; [unfold tend; cbn [tpos ttext]; lia|]. eapply Forall_impl; [|exact IH]. cbv beta. lia.
Qed.
Lemma spells_ordered : forall d i s ts, spells d i s ts -> ordered ts.
Proof.
  intros d i s ts S. induction S as [|i w k x s ts W T S IH]; constructor; auto.
  pose proof (spells_after _ _ _ _ S) as F. eapply Forall_impl; [|exact F]. cbv beta. unfold tend at 2. cbn [tpos ttext]. lia.
Qed.
Lemma ordered_app : forall a b, ordered (a ++ b) -> ordered a /\ ordered b /\ forall x y, In x a -> In y b -> tend x < tend y.
Proof.
  induction a as [|m a IH]; cbn [app]; intros b O.
  - split; [constructor|]. split; [exact O|]. intros x y [].
  - inversion O as [|? ? O' F]; subst. destruct (IH b O') as (A & B & C). rewrite Forall_app in F. destruct F as (F1 & F2).
    split; [now constructor|]. split; [exact B|]. intros x y [<-|I] J; [|auto]. rewrite Forall_forall in F2. auto.
Qed.

(** ** Parts of the work of the transformer *)
Definition andthen {A B} (q : tstate * res A) (k : tstate -> A -> tstate * res B) : tstate * res B :=
  match q with (st, Err x) => (st, Err x) | (st, Ok r) => k st r end.
Definition exact {A} (lim : N) (ts : list token) (q ql : tstate * res A) : Prop :=
  (long_first lim ts (snd q) -> snd ql = Err ValueErr) /\ (~ long_first lim ts (snd q) -> ql = q).
Definition ends {A} (ts : list token) (q : tstate * res A) : Prop :=
  forall x, snd q = Err x -> exists i m, x = ParseErr i (tend m) /\ In m ts.

Lemma exact_app : forall A B lim a b (q ql : tstate * res A) (k kl : tstate -> A -> tstate * res B),
  ordered (a ++ b) -> exact lim a q ql -> ends a q ->
  (forall st r, q = (st, Ok r) -> exact lim b (k st r) (kl st r) /\ ends b (k st r)) ->
  exact lim (a ++ b) (andthen q k) (andthen ql kl) /\ ends (a ++ b) (andthen q k).
Proof.
  intros A B lim a b q ql k kl O (E1 & E2) N K. destruct (ordered_app _ _ O) as (_ & _ & LT).
  destruct q as (st, [r|x]); cbn [andthen snd] in *.
  - destruct (K st r eq_refl) as ((K1 & K2) & KN). split.
    + destruct (long_first_dec _ lim a (@Ok A r)) as [L|L].
      * assert (LL : long_first lim (a ++ b) (snd (k st r))).
        { destruct L as (m & I & L & _). exists m. split; [apply in_or_app; now left|]. split; [exact L|].
          intros i j E. destruct (KN _ E) as (i' & m' & E' & I'). injection E' as <- ->. specialize (LT _ _ I I'). lia. }
        split; [intros _|contradiction]. specialize (E1 L). destruct ql as (st', [r'|y]); cbn in *; [discriminate|congruence].
      * rewrite (E2 L). cbn [andthen].
        assert (EQ : long_first lim (a ++ b) (snd (k st r)) <-> long_first lim b (snd (k st r))).
        { split; intros (m & I & M & H).
          - apply in_app_or in I. destruct I as [I|I]; [|exists m; auto]. exfalso. apply L. exists m. split; [exact I|]. split; [exact M|discriminate].
          - exists m. split; [apply in_or_app; now right|auto]. }
        split; [intros X; apply K1, EQ, X|intros X; apply K2; intros Y; apply X, EQ, Y].
    + intros x E. destruct (KN _ E) as (i & m & -> & I). exists i, m. split; [reflexivity|apply in_or_app; now right].
  - split; [|intros y Y; injection Y as <-; destruct (N x eq_refl) as (i & m & -> & I); exists i, m; split; [reflexivity|apply in_or_app; now left]].
    destruct (N x eq_refl) as (i & m & -> & I).
    assert (EQ : long_first lim (a ++ b) (@Err B (ParseErr i (tend m))) <-> long_first lim a (@Err A (ParseErr i (tend m)))).
    { split; intros (m' & I' & M & H).
      - exists m'. assert (T : tend m' <= tend m) by (now apply (H i)). split; [|split; [exact M|intros i' j' E'; injection E' as <- <-; exact T]].
        apply in_app_or in I'. destruct I' as [I'|I']; [exact I'|]. specialize (LT _ _ I I'). lia.
      - exists m'. split; [apply in_or_app; now left|]. split; [exact M|]. intros i' j' E'. injection E' as <- <-. now apply (H i). }
    split.
    + intros X. cbn [snd] in X. apply EQ in X. specialize (E1 X). destruct ql as (st', [r'|y]); cbn in *; [discriminate|congruence].
    + intros X. cbn [snd] in X. rewrite (E2 (fun Y => X (proj2 EQ Y))). reflexivity.
Qed.
(** A last step that reads no further token. *)
Lemma exact_post : forall A B lim ts (q ql : tstate * res A) (k : tstate -> A -> tstate * res B),
  exact lim ts q ql -> ends ts q ->
  (forall st r x, q = (st, Ok r) -> snd (k st r) = Err x -> exists i m, x = ParseErr i (tend m) /\ In m ts /\ forall m', In m' ts -> tend m' <= tend m) ->
  exact lim ts (andthen q k) (andthen ql k) /\ ends ts (andthen q k).
Proof.
  intros A B lim ts q ql k (E1 & E2) N K. destruct q as (st, [r|x]); cbn [andthen snd] in *.
  - split.
    + assert (EQ : long_first lim ts (snd (k st r)) <-> long_first lim ts (@Ok A r)).
      { split; intros (m & I & M & H); exists m; (split; [exact I|]; split; [exact M|]); [discriminate|].
        intros i j E. destruct (K _ _ _ eq_refl E) as (i' & m' & E' & I' & T). injection E' as <- ->. auto. }
      split.
      * intros X. apply EQ in X. specialize (E1 X). destruct ql as (st', [r'|y]); cbn in *; [discriminate|congruence].
      * intros X. rewrite (E2 (fun Y => X (proj2 EQ Y))). reflexivity.
    + intros x E. destruct (K _ _ _ eq_refl E) as (i & m & -> & I & _). eauto.
  - destruct (N x eq_refl) as (i & m & -> & I). split.
    + assert (EQ : long_first lim ts (@Err B (ParseErr i (tend m))) <-> long_first lim ts (@Err A (ParseErr i (tend m)))).
      { split; intros (m' & I' & M & H); exists m'; (split; [exact I'|]; split; [exact M|]); intros i' j' E'; injection E' as <- <-; now apply (H i). }
      split.
      * intros X. cbn [snd] in X. apply EQ in X. specialize (E1 X). destruct ql as (st', [r'|y]); cbn in *; [discriminate|congruence].
      * intros X. cbn [snd] in X. rewrite (E2 (fun Y => X (proj2 EQ Y))). reflexivity.
    + intros y Y. injection Y as <-. eauto.
Qed.

Lemma exact_id : forall A lim (q : tstate * res A), exact lim [] q q.
Proof. intros A lim q. split; [intros (m & [] & _)|reflexivity]. Qed.

Section Single.
Variables (lim : N) (e : env) (f : flag).

(** A single reference: too long numbers come before everything but an unknown name. *)
Definition known (a : single) : bool :=
  match name_of a with None => true | Some n => match tok_book (ed e) n with Ok _ => true | Err _ => false end end.
Definition nums (a : single) : list token :=
  match a with SBook _ => [] | SBookNum _ m => [m] | SFull _ c _ v => [c; v] | SChapVerse c _ v => [c; v] | SNum m => [m] end.
Lemma tok_num_l_eq : forall m, tok_num_l lim m = if longb lim m then Err ValueErr else Ok (tok_num m).
Proof. reflexivity. Qed.
Lemma single_l_eq : forall st a, t_single_l lim e f st a = if known a && existsb (longb lim) (nums a) then (st, Err ValueErr) else t_single e f st a.
Proof.
  intros st a. unfold known. destruct a as [n|n m|n c s v|c s v|m]; cbn [name_of nums existsb t_single_l t_single]; rewrite ?tok_num_l_eq.
  - destruct (tok_book (ed e) n); reflexivity.
  - destruct (tok_book (ed e) n); [|reflexivity]. destruct (longb lim m); reflexivity.
  - destruct (tok_book (ed e) n); [|reflexivity]. destruct (longb lim c), (longb lim v); reflexivity.
  - destruct (longb lim c), (longb lim v); reflexivity.
  - destruct (longb lim m); reflexivity.
Qed.
Lemma nums_long : forall a, g_single (toks a) a -> existsb (longb lim) (nums a) = true <-> exists m, In m (toks a) /\ too_long lim m.
Proof.
  assert (NL : forall m k, tk m = k -> k <> TNum -> too_long lim m -> False) by (intros m k <- H (T & _); contradiction).
  intros a G. rewrite existsb_exists.
  inversion G; subst; cbn [nums toks] in *; (split; intros (x & I & Hx); exists x;
    [split; [cbn in I |- *; tauto|apply longb_spec; [|exact Hx]; cbn in I; repeat (destruct I as [<-|I]; [assumption|]); destruct I]
    |assert (K : tk x = TNum) by apply Hx; split; [|now apply (longb_spec lim x K)]; cbn in I |- *;
     repeat (destruct I as [<-|I]; [solve [tauto|exfalso; congruence]|]); destruct I]).
Qed.
Lemma s_end_last : forall a, exists l z, toks a = l ++ [z] /\ s_end a = tend z.
Proof. intros [n|n m|n c s v|c s v|m]; [exists [], n|exists [n], m|exists [n;c;s], v|exists [c;s], v|exists [], m]; auto. Qed.
Lemma last_greatest : forall l z, ordered (l ++ [z]) -> forall m, In m (l ++ [z]) -> tend m <= tend z.
Proof.
  intros l z O m I. destruct (ordered_app _ _ O) as (_ & _ & H). apply in_app_or in I. destruct I as [I|[->|[]]]; [|lia].
  specialize (H m z I (or_introl eq_refl)). lia.
Qed.
Lemma blame_err : forall A i j (m : res A) x, blame i j m = Err x -> x = ParseErr i j.
Proof. intros A i j [a|y] x H; cbn in H; congruence. Qed.
Lemma single_end : forall st a x, known a = true -> snd (t_single e f st a) = Err x -> exists i, x = ParseErr i (s_end a).
Proof.
  intros st a x. unfold known. destruct a as [n|n m|n c s v|c s v|m]; cbn [name_of t_single].
  - destruct (tok_book (ed e) n); [|discriminate]. intros _ H. apply blame_err in H. eauto.
  - destruct (tok_book (ed e) n); [|discriminate]. intros _. destruct (chap_count e a =? 1); intros H; apply blame_err in H; eauto.
  - destruct (tok_book (ed e) n); [|discriminate]. intros _ H. apply blame_err in H. eauto.
  - destruct (ts_book st); intros _ H; [apply blame_err in H|injection H as <-]; eauto.
  - destruct (ts_book st) as [b|]; [|intros _ H; injection H as <-; eauto]. intros _.
    destruct (ts_vl st || (chap_count e b =? 1)); [|intros H; apply blame_err in H; eauto].
    destruct (chap_count e b =? 1); [intros H; apply blame_err in H; eauto|].
    destruct (ts_chap st); intros H; [apply blame_err in H|injection H as <-]; eauto.
Qed.
Lemma single_unknown : forall st a, known a = false -> exists n l, toks a = n :: l /\ snd (t_single e f st a) = Err (ParseErr (tpos n) (tend n)).
Proof.
  intros st a. unfold known. assert (TB : forall n, match tok_book (ed e) n with Ok _ => True | Err x => x = ParseErr (tpos n) (tend n) end) by (intros n; unfold tok_book; destruct (from_str (ed e) (ttext n)); exact I || reflexivity).
  destruct a as [n|n m|n c s v|c s v|m]; cbn [name_of t_single toks]; try discriminate; specialize (TB n);
    (destruct (tok_book (ed e) n); [discriminate|]); intros _; rewrite TB; eauto.
Qed.
Lemma single_exact : forall st a, g_single (toks a) a -> ordered (toks a) ->
  exact lim (toks a) (t_single e f st a) (t_single_l lim e f st a) /\ ends (toks a) (t_single e f st a).
Proof.
  intros st a G O. rewrite single_l_eq. destruct (s_end_last a) as (l & z & T & Z). destruct (known a) eqn:K; cbn [andb].
  - split.
    + destruct (existsb (longb lim) (nums a)) eqn:X; split; auto.
      * intros N. exfalso. apply N. apply (nums_long a G) in X. destruct X as (m & I & L). exists m. split; [exact I|]. split; [exact L|].
        intros i j E. destruct (single_end _ _ _ K E) as (i' & E'). injection E' as <- ->. rewrite Z. apply (last_greatest l z); now rewrite <- T.
      * intros (m & I & L & _). exfalso. apply not_true_iff_false in X. apply X. apply (nums_long a G). eauto.
    + intros x E. destruct (single_end _ _ _ K E) as (i & ->). exists i, z. rewrite Z. split; [reflexivity|]. rewrite T. apply in_or_app. right. now left.
  - destruct (single_unknown st a K) as (n & l' & T' & E). split.
    + split; [|reflexivity]. intros (m & I & L & H). exfalso. specialize (H _ _ E). rewrite T' in I, O. destruct I as [<-|I].
      * destruct L as (L & _). assert (tk n = TName); [|congruence]. unfold known in K.
        clear - G K T'. destruct a; cbn [name_of toks] in *; try discriminate; inversion G; congruence.
      * inversion O as [|? ? _ F]; subst. rewrite Forall_forall in F. specialize (F m I). lia.
    + intros x Ex. rewrite E in Ex. injection Ex as <-. exists (tpos n), n. rewrite T'. split; [reflexivity|now left].
Qed.

Definition ref_toks (x : ref_node) : list token := match x with One a => toks a | Two a s b => toks a ++ s :: toks b end.
Lemma g_ref_toks : forall l x, g_ref l x -> l = ref_toks x.
Proof. intros l x G. inversion G; subst; cbn [ref_toks]; [now apply g_single_toks|]. rewrite <- (g_single_toks l0 a), <- (g_single_toks m b); auto. Qed.
Lemma ends_cons : forall A s ts (q : tstate * res A), ends ts q -> ends (s :: ts) q.
Proof. intros A s ts q E x X. destruct (E x X) as (i & m & H & I). exists i, m. split; [exact H|now right]. Qed.
Lemma exact_cons : forall A s ts (q ql : tstate * res A), tk s <> TNum -> exact lim ts q ql -> exact lim (s :: ts) q ql.
Proof.
  intros A s ts q ql K (E1 & E2).
  assert (EQ : long_first lim (s :: ts) (snd q) <-> long_first lim ts (snd q)).
  { split; intros (m & I & L & H).
    - destruct I as [<-|I]; [destruct L as (L & _); contradiction|]. exists m; auto.
    - exists m. split; [now right|auto]. }
  split; [intros X; apply E1, EQ, X|intros X; apply E2; intros Y; apply X, EQ, Y].
Qed.
Lemma ref_exact : forall x st, g_ref (ref_toks x) x -> ordered (ref_toks x) ->
  exact lim (ref_toks x) (t_ref e f st x) (t_ref_l lim e f st x) /\ ends (ref_toks x) (t_ref e f st x).
Proof.
  intros [a|a s b] st G O; cbn [ref_toks] in *.
  - inversion G; subst. now apply single_exact.
  - inversion G as [|l m a' s' b' Ga Ks Gb Eq]; subst. rewrite (g_single_toks _ _ Ga) in Ga. rewrite (g_single_toks _ _ Gb) in Gb.
    destruct (ordered_app _ _ O) as (Oa & Ob & _). assert (Ob' : ordered (toks b)) by (now inversion Ob).
    destruct (single_exact st a Ga Oa) as (Ea & Na).
    set (k2 := fun (r1 : range) st (r2 : range) => (st, blame (s_pos a) (s_end b)
                     (new_range_pos e (PA (vbook (rstart r1)) (Some (vchap (rstart r1))) (Some (vverse (rstart r1)))
                                          (Some (vbook (rend r2))) (Some (vchap (rend r2))) (Some (vverse (rend r2)))) (Some f))) : tstate * res range).
    change (t_ref e f st (Two a s b)) with (andthen (t_single e f st a) (fun st r1 => andthen (t_single e f st b) (k2 r1))).
    change (t_ref_l lim e f st (Two a s b)) with (andthen (t_single_l lim e f st a) (fun st r1 => andthen (t_single_l lim e f st b) (k2 r1))).
    rewrite Eq. apply exact_app; auto. intros st1 r1 _. destruct (single_exact st1 b Gb Ob') as (Eb & Nb).
    destruct (exact_post _ _ lim (toks b) _ _ (k2 r1) Eb Nb) as (E & N).
    { intros st2 r2 x _ X. unfold k2 in X. cbn [snd] in X. apply blame_err in X. destruct (s_end_last b) as (l2 & z & T & Z).
      exists (s_pos a), z. rewrite <- Z. split; [exact X|]. rewrite T. split; [apply in_or_app; right; now left|]. rewrite Z. apply last_greatest. now rewrite <- T. }
    split; [apply exact_cons; [congruence|exact E]|now apply ends_cons].
Qed.
Fixpoint rest_toks (l : list (token * ref_node)) : list token :=
  match l with [] => [] | (s, x) :: l' => s :: ref_toks x ++ rest_toks l' end.
Definition list_sep (s : token) : Prop := tk s = TMajor \/ tk s = TMinor.
Lemma rests_exact : forall l st, Forall (fun p => list_sep (fst p) /\ g_ref (ref_toks (snd p)) (snd p)) l -> ordered (rest_toks l) ->
  exact lim (rest_toks l) (t_rests e f st l) (t_rests_l lim e f st l) /\ ends (rest_toks l) (t_rests e f st l).
Proof.
  induction l as [|(s, x) l IH]; intros st F O.
  - split; [apply exact_id|intros y Y; discriminate].
  - inversion F as [|? ? (Ks & G) F']; subst. cbn [fst snd rest_toks] in *. inversion O as [|? ? O' _]; subst.
    destruct (ordered_app _ _ O') as (Ox & Ol & _). destruct (ref_exact x (t_sep st s) G Ox) as (Ex & Nx).
    assert (EQ : exact lim (ref_toks x ++ rest_toks l)
        (andthen (t_ref e f (t_sep st s) x) (fun st r => andthen (t_rests e f st l) (fun st cs => (st, Ok (sep_child s :: CRange r :: cs)))))
        (andthen (t_ref_l lim e f (t_sep st s) x) (fun st r => andthen (t_rests_l lim e f st l) (fun st cs => (st, Ok (sep_child s :: CRange r :: cs))))) /\
      ends (ref_toks x ++ rest_toks l)
        (andthen (t_ref e f (t_sep st s) x) (fun st r => andthen (t_rests e f st l) (fun st cs => (st, Ok (sep_child s :: CRange r :: cs)))))).
    { apply exact_app; auto. intros st1 r _. destruct (IH st1 F' Ol) as (El & Nl). apply exact_post; auto. intros st2 r2 y _ Y. discriminate. }
    assert (A1 : t_rests e f st ((s, x) :: l) = andthen (t_ref e f (t_sep st s) x) (fun st r => andthen (t_rests e f st l) (fun st cs => (st, Ok (sep_child s :: CRange r :: cs))))).
    { cbn [t_rests]. destruct (t_ref e f (t_sep st s) x) as (st1, [r|y]); cbn [andthen]; [|reflexivity]. destruct (t_rests e f st1 l) as (st2, [cs|y]); reflexivity. }
    assert (A2 : t_rests_l lim e f st ((s, x) :: l) = andthen (t_ref_l lim e f (t_sep st s) x) (fun st r => andthen (t_rests_l lim e f st l) (fun st cs => (st, Ok (sep_child s :: CRange r :: cs))))).
    { cbn [t_rests_l]. destruct (t_ref_l lim e f (t_sep st s) x) as (st1, [r|y]); cbn [andthen]; [|reflexivity]. destruct (t_rests_l lim e f st1 l) as (st2, [cs|y]); reflexivity. }
    rewrite A1, A2. destruct EQ as (E & N). split; [apply exact_cons; [destruct Ks; congruence|exact E]|now apply ends_cons].
Qed.
Definition tree_toks (t : tree) : list token :=
  ref_toks (t_first t) ++ rest_toks (t_rest t) ++ match t_trail t with Some s => [s] | None => [] end.
Lemma g_rest_toks : forall m l t, g_rest m l t -> m = rest_toks l ++ match t with Some s => [s] | None => [] end /\
  Forall (fun p => list_sep (fst p) /\ g_ref (ref_toks (snd p)) (snd p)) l /\ (forall s, t = Some s -> list_sep s).
Proof.
  intros m l t G. induction G as [|s K|s l x m r t K Gx G (IH1 & IH2 & IH3)]; cbn [rest_toks app].
  - split; [reflexivity|]. split; [constructor|discriminate].
  - split; [reflexivity|]. split; [constructor|]. intros s' E. injection E as <-. exact K.
  - pose proof (g_ref_toks _ _ Gx) as El. subst l. split; [rewrite IH1 at 1; now rewrite <- app_assoc|]. split; [|exact IH3].
    constructor; [cbn [fst snd]; split; auto|exact IH2].
Qed.
Lemma g_list_toks : forall ts t, g_list ts t -> ts = tree_toks t /\ g_ref (ref_toks (t_first t)) (t_first t) /\
  Forall (fun p => list_sep (fst p) /\ g_ref (ref_toks (snd p)) (snd p)) (t_rest t) /\ (forall s, t_trail t = Some s -> list_sep s).
Proof.
  intros ts t G. inversion G as [l x m r t' Gx Gr]; subst. pose proof (g_ref_toks _ _ Gx) as El. subst l.
  destruct (g_rest_toks _ _ _ Gr) as (E & F & T). unfold tree_toks. cbn [t_first t_rest t_trail]. rewrite E. auto.
Qed.
Lemma children_exact : forall ts t st, g_list ts t -> ordered ts ->
  exact lim ts (t_children e f st t) (t_children_l lim e f st t) /\ ends ts (t_children e f st t).
Proof.
  intros ts t st G O. destruct (g_list_toks _ _ G) as (-> & Gf & Gr & Gt). unfold tree_toks in *.
  set (tr := match t_trail t with Some s => [s] | None => [] end) in *.
  set (k := fun (r : range) (st : tstate) cs => match t_trail t with None => (st, Ok (CRange r :: cs)) | Some s => (t_sep st s, Ok (CRange r :: cs ++ [sep_child s])) end).
  change (t_children e f st t) with (andthen (t_ref e f st (t_first t)) (fun st r => andthen (t_rests e f st (t_rest t)) (k r))).
  change (t_children_l lim e f st t) with (andthen (t_ref_l lim e f st (t_first t)) (fun st r => andthen (t_rests_l lim e f st (t_rest t)) (k r))).
  destruct (ordered_app _ _ O) as (Of & O1 & _). destruct (ref_exact (t_first t) st Gf Of) as (Ef & Nf).
  apply exact_app; auto. intros st1 r _. destruct (ordered_app _ _ O1) as (Or & _ & _). destruct (rests_exact (t_rest t) st1 Gr Or) as (Er & Nr).
  apply exact_app; auto. intros st2 cs _. unfold k, tr. destruct (t_trail t) as [s|].
  - split; [|intros y Y; discriminate]. apply exact_cons; [destruct (Gt s eq_refl); congruence|apply exact_id].
  - split; [apply exact_id|intros y Y; discriminate].
Qed.
End Single.

Lemma read_toks : forall d s t, read d s = Some t -> spells d 0 s (tree_toks t) /\ g_list (tree_toks t) t.
Proof. intros d s t R. destruct (read_sound _ _ _ R) as (ts & S & G). destruct (g_list_toks _ _ G) as (-> & _). auto. Qed.

Theorem parse_exact : forall lim e fl st s, match read (ed e) s with
  | None => parse_l lim e fl st s = parse e fl st s /\ parse e fl st s = (st, Err SyntaxErr)
  | Some t => exact lim (tree_toks t) (parse e fl st s) (parse_l lim e fl st s)
  end.
Proof.
  intros lim e fl st s. unfold parse, parse_l. destruct (read (ed e) s) as [t|] eqn:R; [|auto].
  destruct (read_toks _ _ _ R) as (S & G). destruct (children_exact lim e (eff e fl) _ t st G (spells_ordered _ _ _ _ S)) as (E & N).
  destruct (exact_post _ _ lim (tree_toks t) _ _ (fun st cs => (st, Ok (ref_list [] [] cs))) E N) as (E' & _); [intros; discriminate|].
  destruct (t_children e (eff e fl) st t) as (st1, [c1|x1]), (t_children_l lim e (eff e fl) st t) as (st2, [c2|x2]); exact E'.
Qed.

(** ** What is left in the transformer *)
Section State.
Variables (lim : N) (e : env) (fl : option flag).
Let f := eff e fl.
Definition short (x : event) : Prop := forall m, In m (event_toks x) -> ~ too_long lim m.
(** The first reference with a number that is too long, and the state that it finds. *)
Definition stuck (evs : list event) (st st' : tstate) : Prop :=
  exists p a q m, evs = p ++ ERef a :: q /\ Forall short p /\ In m (toks a) /\ too_long lim m /\ st' = leaves e fl st p.
Definition state_ok {A} (evs : list event) (st : tstate) (ql : tstate * res A) : Prop :=
  match ql with
  | (st', Err ValueErr) => stuck evs st st'
  | (st', Ok _) => Forall short evs /\ st' = leaves e fl st evs
  | _ => True
  end.
Lemma leaves_app : forall p q st, leaves e fl st (p ++ q) = leaves e fl (leaves e fl st p) q.
Proof. intros p q st. unfold leaves. apply fold_left_app. Qed.
Lemma state_app : forall A B p q st (ql : tstate * res A) (k : tstate -> A -> tstate * res B),
  state_ok p st ql -> (forall st' r, ql = (st', Ok r) -> state_ok q st' (k st' r)) -> state_ok (p ++ q) st (andthen ql k).
Proof.
  intros A B p q st (st1, [r|x]) k S K; cbn [andthen].
  - destruct S as (F & ->). specialize (K _ r eq_refl). destruct (k (leaves e fl st p) r) as (st2, [r2|x2]); cbn in *.
    + destruct K as (F2 & ->). split; [now apply Forall_app|]. now rewrite leaves_app.
    + destruct x2; auto. destruct K as (p1 & a & q1 & m & -> & F1 & I & L & ->). exists (p ++ p1), a, q1, m.
      rewrite <- app_assoc. split; [reflexivity|]. split; [now apply Forall_app|]. rewrite leaves_app. auto.
  - cbn in S |- *. destruct x; auto. destruct S as (p1 & a & q1 & m & -> & F1 & I & L & ->). exists p1, a, (q1 ++ q), m.
    rewrite <- app_assoc. auto.
Qed.
Lemma state_post : forall A B p st (ql : tstate * res A) (k : tstate -> A -> tstate * res B),
  state_ok p st ql -> (forall st' r, ql = (st', Ok r) -> state_ok [] st' (k st' r)) -> state_ok p st (andthen ql k).
Proof. intros A B p st ql k S K. rewrite <- (app_nil_r p). now apply state_app. Qed.
Lemma blame_state : forall A i j st (m : res A), state_ok [] st (st, blame i j m).
Proof. intros A i j st [a|x]; cbn; auto. Qed.
Lemma single_state : forall st a, g_single (toks a) a -> state_ok [ERef a] st (t_single_l lim e f st a).
Proof.
  intros st a G. rewrite single_l_eq. destruct (known e a) eqn:K; cbn [andb].
  - destruct (existsb (longb lim) (nums a)) eqn:X.
    + apply (nums_long lim a G) in X. destruct X as (m & I & L). exists [], a, [], m. split; [reflexivity|]. split; [constructor|]. auto.
    + pose proof (single_end e f st a) as N. destruct (t_single e f st a) as (st1, [r|x]) eqn:E; cbn.
      * split; [|now fold f; rewrite E]. constructor; [|constructor]. intros m I L. apply not_true_iff_false in X. apply X. apply (nums_long lim a G). eauto.
      * destruct (N x K eq_refl) as (i & ->). exact I.
  - destruct (single_unknown e f st a K) as (n & l & _ & E). destruct (t_single e f st a) as (st1, q). cbn in E. subst q. exact I.
Qed.
Lemma ref_state : forall x st, g_ref (ref_toks x) x -> state_ok (ref_events x) st (t_ref_l lim e f st x).
Proof.
  intros [a|a s b] st G.
  - inversion G; subst. now apply single_state.
  - inversion G as [|l m a' s' b' Ga Ks Gb Eq]; subst. rewrite (g_single_toks _ _ Ga) in Ga. rewrite (g_single_toks _ _ Gb) in Gb.
    cbn [ref_events]. change [ERef a; ERef b] with ([ERef a] ++ [ERef b]).
    set (k2 := fun (r1 : range) st (r2 : range) => (st, blame (s_pos a) (s_end b)
                     (new_range_pos e (PA (vbook (rstart r1)) (Some (vchap (rstart r1))) (Some (vverse (rstart r1)))
                                          (Some (vbook (rend r2))) (Some (vchap (rend r2))) (Some (vverse (rend r2)))) (Some f))) : tstate * res range).
    change (t_ref_l lim e f st (Two a s b)) with (andthen (t_single_l lim e f st a) (fun st r1 => andthen (t_single_l lim e f st b) (k2 r1))).
    apply state_app; [now apply single_state|]. intros st1 r1 _. apply state_post; [now apply single_state|]. intros st2 r2 _. apply blame_state.
Qed.
Lemma sep_state : forall A s evs st (ql : tstate * res A), list_sep s -> state_ok evs (t_sep st s) ql -> state_ok (ESep s :: evs) st ql.
Proof.
  intros A s evs st (st1, [r|x]) K S; cbn in *.
  - destruct S as (F & ->). split; [|reflexivity]. constructor; [|exact F]. intros m [<-|[]] (L & _). destruct K; congruence.
  - destruct x; auto. destruct S as (p & a & q & m & -> & F & I & L & ->). exists (ESep s :: p), a, q, m. split; [reflexivity|]. split; [|auto].
    constructor; [|exact F]. intros m' [<-|[]] (L' & _). destruct K; congruence.
Qed.
Lemma rests_state : forall l st, Forall (fun p => list_sep (fst p) /\ g_ref (ref_toks (snd p)) (snd p)) l -> state_ok (rest_events l) st (t_rests_l lim e f st l).
Proof.
  induction l as [|(s, x) l IH]; intros st F; [cbn; auto|]. inversion F as [|? ? (Ks & G) F']; subst. cbn [fst snd rest_events] in *.
  assert (A2 : t_rests_l lim e f st ((s, x) :: l) = andthen (t_ref_l lim e f (t_sep st s) x) (fun st r => andthen (t_rests_l lim e f st l) (fun st cs => (st, Ok (sep_child s :: CRange r :: cs))))).
  { cbn [t_rests_l]. destruct (t_ref_l lim e f (t_sep st s) x) as (st1, [r|y]); cbn [andthen]; [|reflexivity]. destruct (t_rests_l lim e f st1 l) as (st2, [cs|y]); reflexivity. }
  rewrite A2. apply sep_state; [exact Ks|]. apply state_app; [now apply ref_state|]. intros st1 r _. apply state_post; [now apply IH|]. intros st2 cs _. cbn. auto.
Qed.
Lemma children_state : forall ts t st, g_list ts t -> state_ok (events t) st (t_children_l lim e f st t).
Proof.
  intros ts t st G. destruct (g_list_toks _ _ G) as (_ & Gf & Gr & Gt). unfold events.
  set (k := fun (r : range) (st : tstate) cs => match t_trail t with None => (st, Ok (CRange r :: cs)) | Some s => (t_sep st s, Ok (CRange r :: cs ++ [sep_child s])) end).
  change (t_children_l lim e f st t) with (andthen (t_ref_l lim e f st (t_first t)) (fun st r => andthen (t_rests_l lim e f st (t_rest t)) (k r))).
  apply state_app; [now apply ref_state|]. intros st1 r _. apply state_app; [now apply rests_state|]. intros st2 cs _. unfold k.
  destruct (t_trail t) as [s|]; [apply sep_state; [now apply Gt|]|]; cbn; auto.
Qed.
Theorem parse_state : forall st s t, read (ed e) s = Some t -> state_ok (events t) st (parse_l lim e fl st s).
Proof.
  intros st s t R. destruct (read_toks _ _ _ R) as (_ & G). unfold parse_l. rewrite R. pose proof (children_state _ _ st G) as S. fold f.
  destruct (t_children_l lim e f st t) as (st1, [c|x]); exact S.
Qed.
End State.
