(** * PLex: the reader of MParse finds exactly the readings of the grammar. *)
From Coq Require Import List ZArith NArith Bool Ascii Lia.
From Verif Require Import Base Books Chars Regex Data MVerse MRange MSeq MList MParse SpecParse PList.
Import ListNotations.
Open Scope Z_scope.

Ltac inv H := inversion H; subst; clear H.

Lemma zlen_app' : forall A (a b : list A), zlen (a ++ b) = zlen a + zlen b.
Proof. intros. unfold zlen. rewrite app_length. lia. Qed.
Lemma zlen_cons' : forall A (a : A) b, zlen (a :: b) = zlen b + 1.
Proof. intros. unfold zlen. cbn [length]. lia. Qed.
Lemma zlen_rev : forall A (a : list A), zlen (rev a) = zlen a.
Proof. intros. unfold zlen. now rewrite rev_length. Qed.

(** ** Characters *)
Lemma sep_kind_none : forall d c, sep_kind d c = None <-> ~ is_sep d c.
Proof.
  intros d c. unfold sep_kind, is_sep.
  destruct (Ascii.eqb_spec c (range_sep d)); [split; [discriminate|tauto]|].
  destruct (Ascii.eqb_spec c (major_list_sep d)); [split; [discriminate|tauto]|].
  destruct (Ascii.eqb_spec c (minor_list_sep d)); [split; [discriminate|tauto]|].
  destruct (Ascii.eqb_spec c (verse_sep_std d)); [split; [discriminate|tauto]|].
  destruct (Ascii.eqb_spec c (verse_sep_alt d)); [split; [discriminate|tauto]|]. cbn. tauto.
Qed.
Lemma sep_kind_some : forall d c k, sep_kind d c = Some k -> in_term d k [c].
Proof.
  intros d c k. unfold sep_kind.
  destruct (Ascii.eqb_spec c (range_sep d)); [intros H; inv H; reflexivity|].
  destruct (Ascii.eqb_spec c (major_list_sep d)); [intros H; inv H; reflexivity|].
  destruct (Ascii.eqb_spec c (minor_list_sep d)); [intros H; inv H; reflexivity|].
  destruct (Ascii.eqb_spec c (verse_sep_std d)); [intros H; inv H; cbn; auto|].
  destruct (Ascii.eqb_spec c (verse_sep_alt d)); cbn; [intros H; inv H; cbn; auto|discriminate].
Qed.
Definition sep_term (k : term) : bool := match k with TName | TNum => false | _ => true end.
Lemma sep_kind_term : forall d c k, sep_kind d c = Some k -> sep_term k = true.
Proof.
  intros d c k. unfold sep_kind. repeat (destruct (Ascii.eqb _ _); [intros H; inv H; reflexivity|]).
  cbn. destruct (Ascii.eqb c (verse_sep_alt d)); cbn; [intros H; inv H; reflexivity|discriminate].
Qed.
Lemma sep_term_kind : forall d k x, good_seps d -> sep_term k = true -> in_term d k x -> exists c, x = [c] /\ sep_kind d c = Some k.
Proof.
  intros d k x G K T. destruct G as [G1 G2 G3 G4 G5]. assert (S1 := G5 (verse_sep_std d) (or_introl eq_refl)). assert (S2 := G5 (verse_sep_alt d) (or_intror eq_refl)).
  unfold sep_kind. destruct k; try discriminate; cbn in T.
  - exists (range_sep d). subst. rewrite Ascii.eqb_refl. auto.
  - exists (major_list_sep d). subst. rewrite Ascii.eqb_refl. destruct (Ascii.eqb_spec (major_list_sep d) (range_sep d)); [congruence|auto].
  - exists (minor_list_sep d). subst. rewrite Ascii.eqb_refl. destruct (Ascii.eqb_spec (minor_list_sep d) (range_sep d)); [congruence|].
    destruct (Ascii.eqb_spec (minor_list_sep d) (major_list_sep d)); [congruence|auto].
  - destruct T as [T|T]; subst; eexists; split; try reflexivity.
    + destruct (Ascii.eqb_spec (verse_sep_std d) (range_sep d)); [tauto|]. destruct (Ascii.eqb_spec (verse_sep_std d) (major_list_sep d)); [tauto|].
      destruct (Ascii.eqb_spec (verse_sep_std d) (minor_list_sep d)); [tauto|]. now rewrite Ascii.eqb_refl.
    + destruct (Ascii.eqb_spec (verse_sep_alt d) (range_sep d)); [tauto|]. destruct (Ascii.eqb_spec (verse_sep_alt d) (major_list_sep d)); [tauto|].
      destruct (Ascii.eqb_spec (verse_sep_alt d) (minor_list_sep d)); [tauto|]. rewrite Ascii.eqb_refl. now rewrite Bool.orb_true_r.
Qed.
Lemma ws_space : forall c, is_ws c = true -> is_space c = true.
Proof.
  intros c. unfold is_ws, is_space, between. intros H.
  repeat (apply orb_prop in H; destruct H as [H|H]); repeat (rewrite ?andb_true_iff, ?orb_true_iff, ?N.leb_le, ?N.eqb_eq in * ); lia.
Qed.
Lemma digit_word : forall c, is_digit c = true -> is_word c = true.
Proof. intros c H. unfold is_word. now rewrite H. Qed.
Lemma word_not_space : forall c, is_word c = true -> is_space c = false.
Proof. intros [[] [] [] [] [] [] [] []]; vm_compute; auto. Qed.
Lemma digit_not_ws : forall c, is_digit c = true -> is_ws c = false.
Proof. intros [[] [] [] [] [] [] [] []]; vm_compute; auto. Qed.
Lemma word_not_ws : forall c, is_word c = true -> is_ws c = false.
Proof. intros [[] [] [] [] [] [] [] []]; vm_compute; auto. Qed.

Lemma name_end_spec : forall d z, name_end d z = true <-> is_digit z = false /\ is_space z = false /\ ~ is_sep d z.
Proof.
  intros d z. unfold name_end, is_sep. rewrite negb_true_iff, !orb_false_iff.
  destruct (Ascii.eqb_spec z (range_sep d)), (Ascii.eqb_spec z (major_list_sep d)), (Ascii.eqb_spec z (minor_list_sep d)),
    (Ascii.eqb_spec z (verse_sep_std d)), (Ascii.eqb_spec z (verse_sep_alt d)); intuition congruence.
Qed.
Lemma name_tail_spec : forall d s, name_tail d s = true <-> exists m z, s = m ++ [z] /\
  Forall (fun y => is_word y = true \/ is_space y = true) m /\ is_digit z = false /\ is_space z = false /\ ~ is_sep d z.
Proof.
  intros d. induction s as [|c s IH].
  - split; [discriminate|]. intros (m & z & E & _). destruct m; discriminate.
  - destruct s as [|c' s].
    + cbn [name_tail]. rewrite name_end_spec. split.
      * intros H. exists [], c. repeat split; try tauto. constructor.
      * intros (m & z & E & _ & H). destruct m as [|y m]; [|destruct m; discriminate]. inv E. auto.
    + change (name_tail d (c :: c' :: s)) with ((is_word c || is_space c) && name_tail d (c' :: s)).
      rewrite andb_true_iff, orb_true_iff, IH. split.
      * intros (H1 & m & z & E & F & H). exists (c :: m), z. rewrite E. repeat split; try tauto. now constructor.
      * intros (m & z & E & F & H). destruct m as [|y m]; [discriminate|]. inv E. inv F. eauto 10.
Qed.
Lemma is_name_spec : forall d s, is_name d s = true <-> in_term d TName s.
Proof.
  intros d [|c s]; cbn [is_name in_term].
  - split; [discriminate|]. intros (c & m & z & E & _). discriminate.
  - rewrite andb_true_iff, name_tail_spec. split.
    + intros (H & m & z & E & F). exists c, m, z. rewrite E. tauto.
    + intros (c' & m & z & E & H & F). inv E. split; auto. eauto.
Qed.

(** ** Dropping white space and digits *)
Lemma drop_ws_split : forall s, exists w, s = w ++ drop_ws s /\ white w /\ (forall c t, drop_ws s = c :: t -> is_ws c = false).
Proof.
  induction s as [|c s (w & E & W & H)].
  - exists []. repeat split; [constructor|discriminate].
  - cbn [drop_ws]. destruct (is_ws c) eqn:C.
    + exists (c :: w). rewrite E at 1. repeat split; auto. now constructor.
    + exists []. repeat split; [constructor|]. intros x t X. now inv X.
Qed.
Lemma drop_ws_app : forall w s, white w -> (forall c t, s = c :: t -> is_ws c = false) -> drop_ws (w ++ s) = s.
Proof.
  induction w as [|c w IH]; intros s W H; cbn [app drop_ws].
  - destruct s as [|c t]; auto. cbn. now rewrite (H c t eq_refl).
  - inv W. rewrite H2. auto.
Qed.
Lemma drop_digits_split : forall s, exists w, s = w ++ drop_digits s /\ Forall (fun c => is_digit c = true) w /\ (forall c t, drop_digits s = c :: t -> is_digit c = false).
Proof.
  induction s as [|c s (w & E & W & H)].
  - exists []. repeat split; [constructor|discriminate].
  - cbn [drop_digits]. destruct (is_digit c) eqn:C.
    + exists (c :: w). rewrite E at 1. repeat split; auto.
    + exists []. repeat split; [constructor|]. intros x t X. now inv X.
Qed.
Lemma drop_digits_app : forall w s, Forall (fun c => is_digit c = true) w -> (forall c t, s = c :: t -> is_digit c = false) -> drop_digits (w ++ s) = s.
Proof.
  induction w as [|c w IH]; intros s W H; cbn [app drop_digits].
  - destruct s as [|c t]; auto. cbn. now rewrite (H c t eq_refl).
  - inv W. rewrite H2. auto.
Qed.
Lemma rdrop_ws_app : forall a w, white w -> (forall t c, a = t ++ [c] -> is_ws c = false) -> rev (drop_ws (rev (a ++ w))) = a.
Proof.
  intros a w W H. rewrite rev_app_distr, drop_ws_app; [apply rev_involutive|now apply Forall_rev|].
  intros c t E. apply (H (rev t)). rewrite <- (rev_involutive a), E. reflexivity.
Qed.
Lemma rdrop_ws_split : forall s, exists w, s = rev (drop_ws (rev s)) ++ w /\ white w /\ (forall t c, rev (drop_ws (rev s)) = t ++ [c] -> is_ws c = false).
Proof.
  intros s. destruct (drop_ws_split (rev s)) as (w & E & W & H). exists (rev w). repeat split.
  - rewrite <- rev_app_distr, <- E, rev_involutive. auto.
  - now apply Forall_rev.
  - intros t c X. apply (H c (rev t)). rewrite <- (rev_involutive (drop_ws _)), X, rev_app_distr. reflexivity.
Qed.
Lemma rdrop_digits_app : forall a w, Forall (fun c => is_digit c = true) w -> (forall t c, a = t ++ [c] -> is_digit c = false) -> rev (drop_digits (rev (a ++ w))) = a.
Proof.
  intros a w W H. rewrite rev_app_distr, drop_digits_app; [apply rev_involutive|now apply Forall_rev|].
  intros c t E. apply (H (rev t)). rewrite <- (rev_involutive a), E. reflexivity.
Qed.
Lemma rdrop_digits_split : forall s, exists w, s = rev (drop_digits (rev s)) ++ w /\ Forall (fun c => is_digit c = true) w.
Proof.
  intros s. destruct (drop_digits_split (rev s)) as (w & E & W & H). exists (rev w). split.
  - rewrite <- rev_app_distr, <- E, rev_involutive. auto.
  - now apply Forall_rev.
Qed.
Lemma skipn_app_exact : forall A (a b : list A), skipn (length a) (a ++ b) = b.
Proof. intros. rewrite skipn_app, skipn_all, Nat.sub_diag. reflexivity. Qed.

(** ** Segments *)
Lemma spells_white : forall d i w s ts, white w -> spells d (i + zlen w) s ts -> spells d i (w ++ s) ts.
Proof.
  intros d i w s ts W H. inv H.
  - constructor. now apply Forall_app.
  - rewrite app_assoc. replace (i + zlen w + zlen w0) with (i + zlen (w ++ w0)) by (rewrite zlen_app'; lia).
    constructor; auto; [now apply Forall_app|]. rewrite zlen_app'. now replace (i + (zlen w + zlen w0)) with (i + zlen w + zlen w0) by lia.
Qed.
Lemma spells_one : forall d i k x w, in_term d k x -> white w -> spells d i (x ++ w) [Tok k x i].
Proof.
  intros d i k x w H W. assert (E := Sp_tok d i [] k x w [] (Forall_nil _) H). cbn [app zlen length Z.of_nat] in E.
  change (zlen []) with 0 in E. rewrite Z.add_0_r in E. apply E. now constructor.
Qed.
Lemma spells_head : forall d i k x s ts, in_term d k x -> spells d (i + zlen x) s ts -> spells d i (x ++ s) (Tok k x i :: ts).
Proof.
  intros d i k x s ts H E. assert (F := Sp_tok d i [] k x s ts (Forall_nil _) H). cbn [app] in F. change (zlen []) with 0 in F. rewrite Z.add_0_r in F. auto.
Qed.
Lemma spells_app : forall d i s1 a s2 b, spells d i s1 a -> spells d (i + zlen s1) s2 b -> spells d i (s1 ++ s2) (a ++ b).
Proof.
  intros d i s1 a s2 b H. revert s2 b. induction H as [i w W|i w k x s ts W T H IH]; intros s2 b H2.
  - cbn [app]. now apply spells_white.
  - cbn [app]. rewrite <- !app_assoc. constructor; auto. apply IH. rewrite !zlen_app' in H2. now replace (i + zlen w + zlen x + zlen s) with (i + (zlen w + (zlen x + zlen s))) by lia.
Qed.

Lemma seg_sound : forall d i w ts, seg_tokens d i w = Some ts -> spells d i w ts.
Proof.
  intros d i w ts. unfold seg_tokens. destruct (drop_ws_split w) as (w0 & E & W & _).
  set (a := drop_ws w) in *. destruct (rdrop_ws_split a) as (w1 & E1 & W1 & _). set (b := rev (drop_ws (rev a))) in *.
  replace (i + (zlen w - zlen a)) with (i + zlen w0) by (rewrite E, zlen_app'; lia).
  rewrite E. intros H. apply spells_white; auto. rewrite E1. clearbody a b.
  destruct (rdrop_digits_split b) as (ds & E2 & D). set (u := rev (drop_digits (rev b))) in *. clearbody u.
  assert (Eds : skipn (length u) b = ds) by (rewrite E2; apply skipn_app_exact). rewrite Eds in H.
  destruct b as [|b0 b'].
  - inv H. constructor. auto.
  - destruct u as [|u0 u'].
    + inv H. cbn [app] in E2. rewrite E2. apply spells_one; auto. split; auto. congruence.
    + destruct ds as [|d0 ds'].
      * destruct (is_name d (u0 :: u')) eqn:N; inv H. rewrite E2, app_nil_r. apply spells_one; auto. now apply is_name_spec.
      * destruct (rdrop_ws_split (u0 :: u')) as (w2 & E3 & W2 & _). set (n := rev (drop_ws (rev (u0 :: u')))) in *.
        destruct (is_name d n) eqn:N; inv H. clearbody n. assert (L : i + zlen w0 + zlen (u0 :: u') = i + zlen w0 + zlen n + zlen w2) by (rewrite E3, zlen_app'; lia).
        rewrite L, E2, E3. rewrite <- !app_assoc. apply spells_head; [now apply is_name_spec|]. apply spells_white; auto.
        apply spells_one; auto. split; auto. discriminate.
Qed.

Definition nosep (d : bibledata) (w : str) : Prop := Forall (fun c => sep_kind d c = None) w.
Lemma name_first : forall d x c t, in_term d TName x -> x = c :: t -> is_ws c = false.
Proof. intros d x c t (c' & m & z & E & H & _) X. rewrite X in E. inv E. now apply word_not_ws. Qed.
Lemma name_last : forall d x c t, in_term d TName x -> x = t ++ [c] -> is_ws c = false /\ is_digit c = false.
Proof.
  intros d x c t (c' & m & z & E & _ & _ & H1 & H2 & _) X. rewrite X in E.
  change (c' :: m ++ [z]) with ((c' :: m) ++ [z]) in E. apply app_inj_tail in E. destruct E as (_ & <-). split; auto.
  destruct (is_ws c) eqn:C; auto. apply ws_space in C. congruence.
Qed.
Lemma name_nonempty : forall d x, in_term d TName x -> exists c t, x = c :: t.
Proof. intros d x (c & m & z & E & _). eauto. Qed.
Lemma digits_last : forall x t (c : ascii), Forall (fun c => is_digit c = true) x -> x = t ++ [c] -> is_ws c = false.
Proof. intros x t c F E. subst. apply Forall_app in F. destruct F as (_ & F). inv F. now apply digit_not_ws. Qed.

(** The runs of tokens that occur between separators. *)
Inductive seg_kind (d : bibledata) : list token -> Prop :=
| SK0 : seg_kind d []
| SKnum m : tk m = TNum -> seg_kind d [m]
| SKname n : tk n = TName -> seg_kind d [n]
| SKboth n m : tk n = TName -> tk m = TNum -> seg_kind d [n; m].

Lemma seg_complete_at : forall d i w0 a w1 ts, white w0 -> white w1 ->
  (forall c t, a = c :: t -> is_ws c = false) -> (forall t c, a = t ++ [c] -> is_ws c = false) ->
  (match a with
   | [] => Some []
   | _ =>
       let u := rev (drop_digits (rev a)) in
       let ds := skipn (length u) a in
       match u, ds with
       | [], _ => Some [Tok TNum ds (i + zlen w0)]
       | _, [] => if is_name d u then Some [Tok TName u (i + zlen w0)] else None
       | _, _ =>
           let n := rev (drop_ws (rev u)) in
           if is_name d n then Some [Tok TName n (i + zlen w0); Tok TNum ds (i + zlen w0 + zlen u)] else None
       end
   end) = Some ts -> seg_tokens d i (w0 ++ a ++ w1) = Some ts.
Proof.
  intros d i w0 a w1 ts W0 W1 H1 H2 H. unfold seg_tokens.
  assert (X : drop_ws (w0 ++ a ++ w1) = match a with [] => [] | _ => a ++ w1 end).
  { destruct a as [|c a'].
    - cbn [app]. rewrite <- (app_nil_r (w0 ++ w1)). apply drop_ws_app; [now apply Forall_app|discriminate].
    - apply drop_ws_app; auto. cbn [app]. intros c' t E. inv E. eauto. }
  rewrite X. destruct a as [|c a'].
  - cbn [rev drop_ws]. auto.
  - replace (i + (zlen (w0 ++ (c :: a') ++ w1) - zlen ((c :: a') ++ w1))) with (i + zlen w0) by (rewrite !zlen_app'; lia).
    rewrite (rdrop_ws_app (c :: a') w1) by auto. exact H.
Qed.
Lemma spells_gap : forall d i s k x j b, spells d i s (Tok k x j :: b) -> exists w s', s = w ++ x ++ s' /\ white w /\ in_term d k x /\ j = i + zlen w /\ spells d (j + zlen x) s' b.
Proof. intros d i s k x j b H. inv H. eauto 10. Qed.
Lemma spells_nil : forall d i s, spells d i s [] -> white s.
Proof. intros d i s H. now inv H. Qed.
Lemma seg_complete : forall d i w ts, spells d i w ts -> seg_kind d ts -> seg_tokens d i w = Some ts.
Proof.
  intros d i w ts H K. destruct K as [|[k x j] K|[k x j] K|[k x j] [k' y j'] K K'].
  - apply spells_nil in H. rewrite <- (app_nil_r w). change (w ++ []) with (w ++ [] ++ []). apply seg_complete_at; auto; try constructor; try discriminate.
    intros t c E. destruct t; discriminate.
  - cbn in K. subst k. apply spells_gap in H. destruct H as (w0 & s' & -> & W & (N & D) & -> & H). apply spells_nil in H. apply seg_complete_at; auto.
    + intros c t E. subst x. inv D. now apply digit_not_ws.
    + intros t c E. eapply digits_last; eauto.
    + assert (U : rev (drop_digits (rev x)) = []).
      { change x with ([] ++ x). apply rdrop_digits_app; auto. intros t c E. destruct t; discriminate. }
      destruct x; [congruence|]. cbv zeta. rewrite U. reflexivity.
  - cbn in K. subst k. apply spells_gap in H. destruct H as (w0 & s' & -> & W & I & -> & H). apply spells_nil in H. apply seg_complete_at; auto.
    + intros c t E. eapply name_first; eauto.
    + intros t c E. now apply (name_last d x c t).
    + assert (U : rev (drop_digits (rev x)) = x).
      { rewrite <- (app_nil_r x) at 1. apply rdrop_digits_app; [constructor|]. intros t c E. now apply (name_last d x c t). }
      destruct (name_nonempty d x I) as (c & t & E). cbv zeta. rewrite U, skipn_all. rewrite (proj2 (is_name_spec d x) I).
      rewrite E. reflexivity.
  - cbn in K, K'. subst k k'. apply spells_gap in H. destruct H as (w0 & s' & -> & W & I & -> & H).
    apply spells_gap in H. destruct H as (w & s0 & -> & W2 & (N & D) & -> & H). apply spells_nil in H.
    replace (w0 ++ x ++ w ++ y ++ s0) with (w0 ++ (x ++ w ++ y) ++ s0) by (now rewrite <- !app_assoc).
    destruct (name_nonempty d x I) as (c & t & E). apply seg_complete_at; auto.
    + intros c' t' X. rewrite E in X. inv X. eapply (name_first d (c' :: t)); eauto.
    + intros t' c' X. destruct (exists_last N) as (y' & z & Ey). rewrite Ey in X. rewrite !app_assoc in X. apply app_inj_tail in X. destruct X as (_ & <-).
      eapply digits_last; eauto.
    + assert (U : rev (drop_digits (rev (x ++ w ++ y))) = x ++ w).
      { rewrite app_assoc. apply rdrop_digits_app; auto. intros t' c' X. destruct (list_eq_dec ascii_dec w []) as [->|NW].
        - rewrite app_nil_r in X. now apply (name_last d x c' t').
        - destruct (exists_last NW) as (w' & z & Ew). rewrite Ew, app_assoc in X. apply app_inj_tail in X. destruct X as (_ & <-).
          rewrite Ew in W2. apply Forall_app in W2. destruct W2 as (_ & W2). inv W2.
          destruct (is_digit z) eqn:Q; auto. apply digit_not_ws in Q. congruence. }
      assert (V : rev (drop_ws (rev (x ++ w))) = x) by (apply rdrop_ws_app; auto; intros t' c' X; now apply (name_last d x c' t')).
      cbv zeta. rewrite U, V. rewrite (proj2 (is_name_spec d x) I). rewrite app_assoc, skipn_app_exact, zlen_app', Z.add_assoc.
      destruct y as [|z0 y]; [congruence|]. rewrite E. reflexivity.
Qed.

Lemma term_nosep : forall d k x, good_seps d -> sep_term k = false -> in_term d k x -> nosep d x.
Proof.
  intros d k x G K T. assert (P : forall c, is_word c = true \/ is_space c = true -> sep_kind d c = None).
  { intros c H. apply sep_kind_none. intros S. apply (gs_punct d G) in S. intuition congruence. }
  destruct k; try discriminate.
  - destruct T as (c & m & z & E & H1 & H2 & _ & _ & H3). subst. constructor; [auto|]. apply Forall_app. split.
    + eapply Forall_impl; [|exact H2]. auto.
    + constructor; [|constructor]. now apply sep_kind_none.
  - destruct T as (_ & T). eapply Forall_impl; [|exact T]. intros c H. apply P. left. now apply digit_word.
Qed.
Lemma white_nosep : forall d w, good_seps d -> white w -> nosep d w.
Proof.
  intros d w G W. eapply Forall_impl; [|exact W]. intros c H. apply sep_kind_none. intros S. apply (gs_punct d G) in S. apply ws_space in H. intuition congruence.
Qed.
Lemma seg_nosep : forall d i s ts, good_seps d -> spells d i s ts -> Forall (fun t => sep_term (tk t) = false) ts -> nosep d s.
Proof.
  intros d i s ts G H. induction H as [i w W|i w k x s ts W T H IH]; intros F.
  - now apply white_nosep.
  - inv F. apply Forall_app. split; [now apply white_nosep|]. apply Forall_app. split; [now apply (term_nosep d k x)|apply IH; assumption].
Qed.

(** ** Cutting at separators *)
Lemma cut_nosep : forall d w, nosep d w -> cut_seps d w = (w, []).
Proof. intros d. induction w as [|c w IH]; intros H; auto. inv H. cbn [cut_seps]. rewrite IH by auto. now rewrite H2. Qed.
Lemma cut_at : forall d w c k s, nosep d w -> sep_kind d c = Some k ->
  cut_seps d (w ++ c :: s) = (w, (Tok k [c] (- zlen (c :: s)), fst (cut_seps d s)) :: snd (cut_seps d s)).
Proof.
  intros d. induction w as [|x w IH]; intros c k s H E; cbn [app cut_seps].
  - destruct (cut_seps d s) as (w, l). now rewrite E.
  - inv H. rewrite (IH c k s H3 E), H2. reflexivity.
Qed.
Lemma cut_cases : forall d s, nosep d s \/ exists w c k s', s = w ++ c :: s' /\ nosep d w /\ sep_kind d c = Some k.
Proof.
  intros d. induction s as [|c s IH]; [left; constructor|]. destruct (sep_kind d c) as [k|] eqn:E.
  - right. exists [], c, k, s. repeat split; auto. constructor.
  - destruct IH as [IH|(w & c' & k & s' & E1 & E2 & E3)].
    + left. constructor; auto.
    + right. exists (c :: w), c', k, s'. subst. repeat split; auto. constructor; auto.
Qed.

(** The tokens of a text that begins at [i]. *)
Definition lex_at (d : bibledata) (i : Z) (s : str) : option (list token) :=
  match seg_tokens d i (fst (cut_seps d s)), seps_tokens d (i + zlen s) (snd (cut_seps d s)) with
  | Some ts, Some us => Some (ts ++ us)
  | _, _ => None
  end.
Lemma lex_0 : forall d s, lex d s = lex_at d 0 s.
Proof. intros. unfold lex, lex_at. destruct (cut_seps d s). reflexivity. Qed.
Lemma lex_nosep : forall d i s, nosep d s -> lex_at d i s = seg_tokens d i s.
Proof. intros d i s H. unfold lex_at. rewrite cut_nosep by auto. cbn. destruct (seg_tokens d i s); auto. now rewrite app_nil_r. Qed.
Lemma lex_step : forall d i w c k s, nosep d w -> sep_kind d c = Some k ->
  lex_at d i (w ++ c :: s) =
  match seg_tokens d i w, lex_at d (i + zlen w + 1) s with
  | Some ts, Some us => Some (ts ++ Tok k [c] (i + zlen w) :: us)
  | _, _ => None
  end.
Proof.
  intros d i w c k s H E. unfold lex_at. rewrite (cut_at d w c k s H E). cbn [fst snd seps_tokens].
  replace (i + zlen (w ++ c :: s) + - zlen (c :: s)) with (i + zlen w) by (rewrite zlen_app'; lia).
  replace (i + zlen (w ++ c :: s)) with (i + zlen w + 1 + zlen s) by (rewrite zlen_app', zlen_cons'; lia).
  destruct (seg_tokens d i w); auto. destruct (seg_tokens d (i + zlen w + 1) (fst (cut_seps d s))); auto.
  destruct (seps_tokens d (i + zlen w + 1 + zlen s) (snd (cut_seps d s))); auto.
Qed.

Lemma lex_sound_at : forall d n s i ts, (length s <= n)%nat -> lex_at d i s = Some ts -> spells d i s ts.
Proof.
  intros d. induction n as [|n IH]; intros s i ts L H; destruct (cut_cases d s) as [N|(w & c & k & s' & E & N & K)].
  - rewrite lex_nosep in H by auto. now apply seg_sound.
  - subst. rewrite app_length in L. cbn in L. lia.
  - rewrite lex_nosep in H by auto. now apply seg_sound.
  - subst. rewrite (lex_step d i w c k s' N K) in H. destruct (seg_tokens d i w) as [us|] eqn:E1; [|discriminate].
    destruct (lex_at d (i + zlen w + 1) s') as [vs|] eqn:E2; [|discriminate]. inv H. apply seg_sound in E1.
    apply spells_app; auto. change (c :: s') with ([c] ++ s'). apply spells_head; [now apply sep_kind_some|].
    apply IH; auto. rewrite app_length in L. cbn in L. lia.
Qed.
Lemma lex_sound : forall d s ts, lex d s = Some ts -> spells d 0 s ts.
Proof. intros d s ts H. rewrite lex_0 in H. eapply lex_sound_at; eauto. Qed.

(** Lists of tokens in which only a name and then a number come without a separator between them. *)
Inductive sparse (d : bibledata) : list token -> Prop :=
| SPseg a : seg_kind d a -> sparse d a
| SPsep a t b : seg_kind d a -> sep_term (tk t) = true -> sparse d b -> sparse d (a ++ t :: b).
Lemma spells_app_inv : forall d a i s b, spells d i s (a ++ b) -> exists s1 s2, s = s1 ++ s2 /\ spells d i s1 a /\ spells d (i + zlen s1) s2 b.
Proof.
  intros d. induction a as [|t a IH]; intros i s b H.
  - exists [], s. repeat split; [constructor; constructor|]. change (zlen []) with 0. now rewrite Z.add_0_r.
  - destruct t as [k x j]. cbn [app] in H. apply spells_gap in H. destruct H as (w & s' & -> & W & I & -> & H).
    destruct (IH _ _ _ H) as (s1 & s2 & E & H1 & H2). subst. exists (w ++ x ++ s1), s2. repeat split.
    + now rewrite <- !app_assoc.
    + constructor; auto.
    + rewrite !zlen_app'. now replace (i + (zlen w + (zlen x + zlen s1))) with (i + zlen w + zlen x + zlen s1) by lia.
Qed.
Lemma seg_no_sep : forall d a, seg_kind d a -> Forall (fun t => sep_term (tk t) = false) a.
Proof. intros d a H. inv H; repeat constructor; rewrite ?H0, ?H1; reflexivity. Qed.
Lemma lex_complete_at : forall d ts, good_seps d -> sparse d ts -> forall i s, spells d i s ts -> lex_at d i s = Some ts.
Proof.
  intros d ts G P. induction P as [a K|a [k x j] b K T P IH]; intros i s H.
  - rewrite lex_nosep; [now apply seg_complete|]. eapply seg_nosep; eauto. eapply seg_no_sep; eauto.
  - destruct (spells_app_inv d a i s _ H) as (s1 & s2 & E & H1 & H2). apply spells_gap in H2. destruct H2 as (w & s' & E2 & W & I & J & H2).
    destruct (sep_term_kind d k x G T I) as (c & -> & C). subst s2. subst s.
    rewrite app_assoc. cbn [app]. change (zlen [c]) with 1 in H2.
    assert (S1 : spells d i (s1 ++ w) a) by (rewrite <- (app_nil_r a); apply spells_app; auto; now constructor).
    assert (J' : i + zlen (s1 ++ w) = j) by (rewrite zlen_app'; lia).
    rewrite (lex_step d i (s1 ++ w) c k s'); auto.
    + rewrite (seg_complete d i (s1 ++ w) a S1 K). rewrite J'. now rewrite (IH _ _ H2).
    + eapply seg_nosep; eauto. eapply seg_no_sep; eauto.
Qed.

(** ** The grammar *)
Lemma app_cons_assoc : forall A (a : list A) x b, a ++ x :: b = (a ++ [x]) ++ b.
Proof. intros. rewrite <- app_assoc. reflexivity. Qed.
Lemma sparse_single : forall d l a, g_single l a -> sparse d l /\ forall t b, sep_term (tk t) = true -> sparse d b -> sparse d (l ++ t :: b).
Proof.
  intros d l a H. inv H.
  - split; [constructor; now constructor|]. intros. apply SPsep; auto. now constructor.
  - split; [constructor; now constructor|]. intros. apply SPsep; auto. now constructor.
  - split.
    + change [n; c; s; v] with ([n; c] ++ s :: [v]). apply SPsep; [now constructor|now rewrite H2|]. constructor. now constructor.
    + intros t b T P. change ([n; c; s; v] ++ t :: b) with ([n; c] ++ s :: ([v] ++ t :: b)). apply SPsep; [now constructor|now rewrite H2|].
      apply SPsep; auto. now constructor.
  - split.
    + change [c; s; v] with ([c] ++ s :: [v]). apply SPsep; [now constructor|now rewrite H1|]. constructor. now constructor.
    + intros t b T P. change ([c; s; v] ++ t :: b) with ([c] ++ s :: ([v] ++ t :: b)). apply SPsep; [now constructor|now rewrite H1|].
      apply SPsep; auto. now constructor.
  - split; [constructor; now constructor|]. intros. apply SPsep; auto. now constructor.
Qed.
Lemma sparse_ref : forall d l x, g_ref l x -> sparse d l /\ forall t b, sep_term (tk t) = true -> sparse d b -> sparse d (l ++ t :: b).
Proof.
  intros d l x H. destruct H as [l a H|l m a s b H1 S H2].
  - now apply (sparse_single d l a).
  - destruct (sparse_single d l a H1) as (P1 & Q1). destruct (sparse_single d m b H2) as (P2 & Q2).
    assert (T : sep_term (tk s) = true) by now rewrite S. split; auto.
    intros t c T' P. rewrite <- app_assoc. cbn [app]. apply Q1; auto.
Qed.
Lemma sparse_rest : forall d m r t, g_rest m r t -> forall l x, g_ref l x -> sparse d (l ++ m).
Proof.
  intros d m r t H. induction H as [|s S|s l x m r t S R H IH]; intros l' x' R'.
  - rewrite app_nil_r. now apply (sparse_ref d l' x').
  - apply (sparse_ref d l' x' R'); [destruct S as [S|S]; now rewrite S|]. constructor. constructor.
  - apply (sparse_ref d l' x' R'); [destruct S as [S|S]; now rewrite S|]. eauto.
Qed.

(** What can follow a single reference. *)
Definition stops (r : list token) : Prop := match r with [] => True | t :: _ => tk t = TRange \/ tk t = TMajor \/ tk t = TMinor end.
Lemma p_single_complete : forall l a r, g_single l a -> stops r -> p_single (l ++ r) = Some (a, r).
Proof.
  intros l a r H S. destruct H as [[k x i] K|[k x i] [k' x' i'] K K'|[k x i] [k' x' i'] [k2 x2 i2] [k3 x3 i3] K K' K2 K3|[k' x' i'] [k2 x2 i2] [k3 x3 i3] K' K2 K3|[k x i] K];
    cbn in *; subst; cbn; auto.
  - destruct r as [|[kr xr ir] r]; auto. cbn in S. destruct S as [S|[S|S]]; now subst kr.
  - destruct r as [|[kr xr ir] r]; auto. cbn in S. destruct S as [S|[S|S]]; now subst kr.
  - destruct r as [|[kr xr ir] r]; auto. cbn in S. destruct S as [S|[S|S]]; now subst kr.
Qed.
Lemma p_single_sound : forall ts a r, p_single ts = Some (a, r) -> exists l, ts = l ++ r /\ g_single l a.
Proof.
  intros ts a r H.
  destruct ts as [|[[] x1 i1] ts]; try discriminate;
  destruct ts as [|[[] x2 i2] ts]; cbn in H;
    try (inv H; eexists [_]; split; [reflexivity|constructor; reflexivity]);
  destruct ts as [|[[] x3 i3] ts]; cbn in H;
    try (inv H; eexists [_]; split; [reflexivity|constructor; reflexivity]);
    try (inv H; eexists [_; _]; split; [reflexivity|constructor; reflexivity]);
    try (inv H; eexists [_; _; _]; split; [reflexivity|constructor; reflexivity]);
  destruct ts as [|[[] x4 i4] ts]; cbn in H;
    try (inv H; eexists [_]; split; [reflexivity|constructor; reflexivity]);
    try (inv H; eexists [_; _]; split; [reflexivity|constructor; reflexivity]);
    try (inv H; eexists [_; _; _]; split; [reflexivity|constructor; reflexivity]);
    try (inv H; eexists [_; _; _; _]; split; [reflexivity|constructor; reflexivity]).
Qed.
Definition stops2 (r : list token) : Prop := match r with [] => True | t :: _ => tk t = TMajor \/ tk t = TMinor end.
Lemma stops2_stops : forall r, stops2 r -> stops r.
Proof. destruct r; cbn; tauto. Qed.
Lemma p_ref_complete : forall l x r, g_ref l x -> stops2 r -> p_ref (l ++ r) = Some (x, r).
Proof.
  intros l x r H S. unfold p_ref. destruct H as [l a H|l m a s b H1 K H2].
  - rewrite (p_single_complete l a r H) by now apply stops2_stops. destruct r as [|[k y i] r]; auto. cbn in S. destruct S as [S|S]; now subst k.
  - rewrite <- app_assoc. cbn [app]. destruct s as [k y i]. cbn in K. subst k.
    rewrite (p_single_complete l a (Tok TRange y i :: m ++ r) H1) by (cbn; auto).
    rewrite (p_single_complete m b r H2) by now apply stops2_stops. reflexivity.
Qed.
Lemma p_ref_sound : forall ts x r, p_ref ts = Some (x, r) -> exists l, ts = l ++ r /\ g_ref l x.
Proof.
  intros ts x r. unfold p_ref. destruct (p_single ts) as [(a & q)|] eqn:E; [|discriminate]. apply p_single_sound in E. destruct E as (l & -> & G).
  intros H. assert (D : (exists y i q' b, q = Tok TRange y i :: q' /\ p_single q' = Some (b, r) /\ x = Two a (Tok TRange y i) b) \/ (x = One a /\ q = r)).
  { destruct q as [|[[] y i] q']; try (inv H; auto; fail). left. destruct (p_single q') as [(b & r')|] eqn:E; [|discriminate]. inv H. eauto 10. }
  destruct D as [(y & i & q' & b & -> & E & ->)|(-> & ->)].
  - apply p_single_sound in E. destruct E as (m & -> & G2). exists (l ++ Tok TRange y i :: m). split; [now rewrite <- app_assoc|]. constructor; auto.
  - exists l. split; auto. now constructor.
Qed.
Lemma is_list_sep_spec : forall s, is_list_sep s = true <-> tk s = TMajor \/ tk s = TMinor.
Proof. intros [[] x i]; unfold is_list_sep; cbn; split; intros H; auto; try discriminate; destruct H; discriminate. Qed.
Lemma g_ref_cons : forall l x, g_ref l x -> exists t l', l = t :: l'.
Proof. intros l x [l' a H|l' m a s b H1 K H2]; [inv H|inv H1]; cbn; eauto. Qed.
Lemma g_rest_stops : forall m r t, g_rest m r t -> stops2 m.
Proof. intros m r t H. inv H; cbn; auto. Qed.
Lemma p_rest_complete : forall m r t, g_rest m r t -> forall n, (length m <= n)%nat -> p_rest n m = Some (r, t).
Proof.
  intros m r t H. induction H as [|s S|s l x m r t S R H IH]; intros n L.
  - destruct n; reflexivity.
  - apply is_list_sep_spec in S. destruct n; cbn; now rewrite S.
  - apply is_list_sep_spec in S. destruct (g_ref_cons l x R) as (t0 & l0 & E). destruct n; [cbn in L; lia|]. cbn [p_rest]. rewrite S.
    rewrite (p_ref_complete l x m R (g_rest_stops m r t H)). rewrite IH; [|cbn in L; rewrite app_length in L; lia].
    rewrite E. reflexivity.
Qed.
Lemma p_rest_sound : forall n m r t, p_rest n m = Some (r, t) -> g_rest m r t.
Proof.
  induction n as [|n IH]; intros m r t H; destruct m as [|s m]; cbn [p_rest] in H; try (inv H; constructor; fail); destruct (is_list_sep s) eqn:S; try discriminate;
    apply is_list_sep_spec in S.
  - destruct m; [inv H; now constructor|discriminate].
  - destruct m as [|u m]; [inv H; now constructor|]. destruct (p_ref (u :: m)) as [(x & r')|] eqn:E; [|discriminate]. destruct (p_rest n r') as [(l & t')|] eqn:E2; [|discriminate].
    inv H. apply p_ref_sound in E. destruct E as (l' & -> & G). constructor; auto.
Qed.
Lemma p_list_spec : forall ts t, p_list ts = Some t <-> g_list ts t.
Proof.
  intros ts t. unfold p_list. split.
  - destruct (p_ref ts) as [(x & r)|] eqn:E; [|discriminate]. destruct (p_rest (length r) r) as [(l & t')|] eqn:E2; [|discriminate]. intros H. inv H.
    apply p_ref_sound in E. destruct E as (l' & -> & G). apply p_rest_sound in E2. now constructor.
  - intros H. destruct H as [l x m r t R H]. rewrite (p_ref_complete l x m R (g_rest_stops m r t H)). rewrite (p_rest_complete m r t H); auto.
Qed.
Lemma sparse_list : forall d ts t, g_list ts t -> sparse d ts.
Proof. intros d ts t H. destruct H as [l x m r t R H]. eapply sparse_rest; eauto. Qed.

Theorem read_sound : forall d s t, read d s = Some t -> reads d s t.
Proof.
  intros d s t. unfold read. destruct (lex d s) as [ts|] eqn:E; [|discriminate]. intros H. exists ts. split; [now apply lex_sound|now apply p_list_spec].
Qed.
Theorem read_complete : forall d s t, good_seps d -> reads d s t -> read d s = Some t.
Proof.
  intros d s t G (ts & S & L). unfold read. rewrite lex_0, (lex_complete_at d ts G (sparse_list d ts t L) 0 s S). now apply p_list_spec.
Qed.
Theorem reads_unique : forall d s t t', good_seps d -> reads d s t -> reads d s t' -> t = t'.
Proof. intros d s t t' G H H'. apply read_complete in H, H'; auto. congruence. Qed.
