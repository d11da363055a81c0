(** * PName: book names. *)
From Coq Require Import List ZArith NArith Bool Ascii String Lia.
From Verif Require Import Base Books Chars Regex Data DefaultData MVerse MRange MSeq MList MParse SpecName SpecParse PList PLex.
Import ListNotations.
Open Scope list_scope.

(** ** The matcher *)
Lemma seq_inv : forall a b s, lang (RSeq a b) s <-> exists u v, s = u ++ v /\ lang a u /\ lang b v.
Proof. split; [intros H; inversion H; eauto|intros (u & v & -> & A & B); now constructor]. Qed.
Lemma alt_inv : forall a b s, lang (RAlt a b) s <-> lang a s \/ lang b s.
Proof. split; [intros H; inv H; auto|intros [H|H]; [now apply LAltL|now apply LAltR]]. Qed.
Lemma empty_inv : forall s, lang REmpty s <-> False.
Proof. split; [intros H; inv H|tauto]. Qed.
Lemma eps_inv : forall s, lang REps s <-> s = [].
Proof. split; [intros H; inv H; auto|intros ->; constructor]. Qed.
Lemma nullable_spec : forall r, nullable r = true <-> lang r [].
Proof.
  induction r as [| |c| |a IHa b IHb|a IHa b IHb|a IHa]; cbn [nullable].
  - split; [discriminate|intros H; inv H].
  - split; auto. constructor.
  - split; [discriminate|intros H; inv H].
  - split; [discriminate|intros H; inv H].
  - rewrite andb_true_iff, IHa, IHb. split.
    + intros (A & B). now apply (LSeq a b [] []).
    + intros H. apply seq_inv in H. destruct H as (u & v & E & A & B). symmetry in E. apply app_eq_nil in E. destruct E as (-> & ->). auto.
  - rewrite orb_true_iff, IHa, IHb. split; [intros [A|A]; [now apply LAltL|now apply LAltR]|intros H; inv H; auto].
  - split; auto. constructor.
Qed.
Lemma star_cons : forall a c s, lang (RStar a) (c :: s) -> exists u v, s = u ++ v /\ lang a (c :: u) /\ lang (RStar a) v.
Proof.
  intros a c s H. remember (RStar a) as r eqn:R. remember (c :: s) as x eqn:X. revert c s X. induction H; inv R; intros c' s' X; try discriminate.
  destruct s as [|x u].
  - cbn in X. apply IHlang2; auto.
  - cbn in X. inv X. eauto.
Qed.
Lemma deriv_spec : forall r c s, lang (deriv r c) s <-> lang r (c :: s).
Proof.
  induction r as [| |x| |a IHa b IHb|a IHa b IHb|a IHa]; intros c s; cbn [deriv].
  - rewrite !empty_inv. tauto.
  - rewrite empty_inv, eps_inv. split; [tauto|discriminate].
  - destruct (ci_eqb x c) eqn:E.
    + rewrite eps_inv. split; [intros ->; now constructor|intros H; now inv H].
    + rewrite empty_inv. split; [tauto|intros H; inv H; congruence].
  - destruct (is_space c) eqn:E.
    + rewrite eps_inv. split; [intros ->; now constructor|intros H; now inv H].
    + rewrite empty_inv. split; [tauto|intros H; inv H; congruence].
  - assert (X : lang (RSeq (deriv a c) b) s <-> exists u v, s = u ++ v /\ lang a (c :: u) /\ lang b v).
    { rewrite seq_inv. split; intros (u & v & E & A & B); exists u, v; rewrite IHa in *; auto. }
    destruct (nullable a) eqn:N.
    + rewrite alt_inv, X, IHb, seq_inv. apply nullable_spec in N. split.
      * intros [(u & v & -> & A & B)|B]; [exists (c :: u), v; auto|exists [], (c :: s); auto].
      * intros (u & v & E & A & B). destruct u as [|y u]; cbn in E; [right; now subst|]. inv E. left. eauto.
    + rewrite X, seq_inv. split.
      * intros (u & v & -> & A & B). exists (c :: u), v. auto.
      * intros (u & v & E & A & B). destruct u as [|y u]; cbn in E; [apply nullable_spec in A; congruence|]. inv E. eauto.
  - rewrite !alt_inv, IHa, IHb. tauto.
  - rewrite seq_inv. split.
    + intros (u & v & -> & A & B). rewrite IHa in A. now apply (LStarCons a (c :: u) v).
    + intros H. apply star_cons in H. destruct H as (u & v & E & A & B). exists u, v. rewrite IHa. auto.
Qed.
Theorem fullmatch_spec : forall r s, fullmatch r s = true <-> lang r s.
Proof.
  intros r s. revert r. induction s as [|c s IH]; intros r; cbn [fullmatch]; [apply nullable_spec|]. now rewrite IH, deriv_spec.
Qed.

(** ** The regex of a book *)
Lemma ci_spec : forall a b, ci_eqb a b = true <-> lower a = lower b.
Proof. intros. unfold ci_eqb. apply Ascii.eqb_eq. Qed.
Lemma star_sp : forall s, lang (RStar RSp) s <-> Forall (fun c => is_space c = true) s.
Proof.
  intros s. split.
  - intros H. remember (RStar RSp) as r eqn:R. induction H; inv R; auto. apply Forall_app. split; auto. inv H. auto.
  - induction s as [|c s IH]; intros H; [constructor|]. inv H. apply (LStarCons RSp [c] s); [now constructor|auto].
Qed.
Lemma plus_sp : forall s, lang (RPlus RSp) s <-> s <> [] /\ Forall (fun c => is_space c = true) s.
Proof.
  intros s. unfold RPlus. rewrite seq_inv. split.
  - intros (u & v & -> & A & B). apply star_sp in B. inv A. split; [discriminate|]. constructor; auto.
  - intros (N & F). destruct s as [|c s]; [congruence|]. inv F. exists [c], s. repeat split; [now constructor|now apply star_sp].
Qed.
(** The texts of a piece, followed by [k]. *)
Definition piece_of (sp : piece) (c : ascii) : piece := if Ascii.eqb c space then sp else Letter c.
Definition starts_with (p : list piece) (q : str -> Prop) (s : str) : Prop := exists u v, s = u ++ v /\ written p u /\ q v.
Lemma letter_inv : forall c p s, written (Letter c :: p) s <-> exists x t, s = x :: t /\ lower c = lower x /\ written p t.
Proof. split; [intros H; inversion H; subst; eauto 10|intros (x & t & -> & E & W); now constructor]. Qed.
Lemma gap1_inv : forall p s, written (Gap1 :: p) s <-> exists w t, s = w ++ t /\ w <> [] /\ Forall (fun c => is_space c = true) w /\ written p t.
Proof. split; [intros H; inversion H; subst; eauto 10|intros (w & t & -> & N & F & W); now constructor]. Qed.
Lemma gap0_inv : forall p s, written (Gap0 :: p) s <-> exists w t, s = w ++ t /\ Forall (fun c => is_space c = true) w /\ written p t.
Proof. split; [intros H; inversion H; subst; eauto 10|intros (w & t & -> & F & W); now constructor]. Qed.
Lemma nil_inv : forall s, written [] s <-> s = [].
Proof. split; [intros H; now inv H|intros ->; constructor]. Qed.
Lemma written_app : forall p q s, written (p ++ q) s <-> exists u v, s = u ++ v /\ written p u /\ written q v.
Proof.
  induction p as [|x p IH]; intros q s; cbn [app].
  - split; [intros H; exists [], s; repeat split; auto; constructor|intros (u & v & -> & A & B); apply nil_inv in A; now subst].
  - destruct x as [c| |].
    + rewrite letter_inv. split.
      * intros (x & t & -> & E & W). apply IH in W. destruct W as (u & v & -> & A & B). exists (x :: u), v. repeat split; auto. now constructor.
      * intros (u & v & -> & A & B). apply letter_inv in A. destruct A as (x & t & -> & E & W). exists x, (t ++ v). repeat split; auto. apply IH. eauto.
    + rewrite gap1_inv. split.
      * intros (w & t & -> & N & F & W). apply IH in W. destruct W as (u & v & -> & A & B). exists (w ++ u), v. rewrite <- app_assoc. repeat split; auto. now constructor.
      * intros (u & v & -> & A & B). apply gap1_inv in A. destruct A as (w & t & -> & N & F & W). exists w, (t ++ v). rewrite <- app_assoc. repeat split; auto. apply IH. eauto.
    + rewrite gap0_inv. split.
      * intros (w & t & -> & F & W). apply IH in W. destruct W as (u & v & -> & A & B). exists (w ++ u), v. rewrite <- app_assoc. repeat split; auto. now constructor.
      * intros (u & v & -> & A & B). apply gap0_inv in A. destruct A as (w & t & -> & F & W). exists w, (t ++ v). rewrite <- app_assoc. repeat split; auto. apply IH. eauto.
Qed.
Lemma title_char_spec : forall c s, lang (title_char c) s <-> written (title_pieces [c]) s.
Proof.
  intros c s. unfold title_char, title_pieces. cbn [map]. destruct (Ascii.eqb c space).
  - rewrite plus_sp, gap1_inv. split.
    + intros (N & F). exists s, []. rewrite app_nil_r. repeat split; auto. constructor.
    + intros (w & t & -> & N & F & W). apply nil_inv in W. subst. now rewrite app_nil_r.
  - rewrite letter_inv. split.
    + intros H. inv H. apply ci_spec in H1. exists d, []. repeat split; auto. constructor.
    + intros (x & t & -> & E & W). apply nil_inv in W. subst. constructor. now apply ci_spec.
Qed.
Lemma seq_chars_spec : forall t k s, lang (seq_chars t k) s <-> exists u v, s = u ++ v /\ written (title_pieces t) u /\ lang k v.
Proof.
  induction t as [|c t IH]; intros k s; cbn [seq_chars].
  - split; [intros H; exists [], s; repeat split; auto; constructor|intros (u & v & -> & A & B); apply nil_inv in A; now subst].
  - change (title_pieces (c :: t)) with (title_pieces [c] ++ title_pieces t). rewrite seq_inv. split.
    + intros (u & v & -> & A & B). apply title_char_spec in A. apply IH in B. destruct B as (u' & v' & -> & B & C). exists (u ++ u'), v'. rewrite <- app_assoc.
      repeat split; auto. apply written_app. eauto.
    + intros (u & v & -> & A & B). apply written_app in A. destruct A as (u1 & u2 & -> & A1 & A2). exists u1, (u2 ++ v). rewrite <- app_assoc. repeat split; auto.
      * now apply title_char_spec.
      * apply IH. eauto.
Qed.
Lemma opt_chars_spec : forall t s, lang (opt_chars t) s <-> exists k, written (title_pieces (firstn k t)) s.
Proof.
  induction t as [|c t IH]; intros s; cbn [opt_chars].
  - rewrite eps_inv. split; [intros ->; exists 0%nat; constructor|intros (k & H); rewrite firstn_nil in H; now apply nil_inv in H].
  - unfold ROpt. rewrite alt_inv, eps_inv, seq_inv. split.
    + intros [(u & v & -> & A & B)| ->]; [|exists 0%nat; constructor]. apply IH in B. destruct B as (k & B). exists (S k). cbn [firstn].
      change (title_pieces (c :: firstn k t)) with (title_pieces [c] ++ title_pieces (firstn k t)). apply written_app. exists u, v. rewrite <- title_char_spec. auto.
    + intros (k & H). destruct k as [|k]; [right; now apply nil_inv in H|]. left. cbn [firstn] in H.
      change (title_pieces (c :: firstn k t)) with (title_pieces [c] ++ title_pieces (firstn k t)) in H. apply written_app in H. destruct H as (u & v & -> & A & B).
      exists u, v. rewrite title_char_spec. repeat split; auto. apply IH. eauto.
Qed.
Lemma title_pieces_app : forall a b, title_pieces (a ++ b) = title_pieces a ++ title_pieces b.
Proof. intros. unfold title_pieces. apply map_app. Qed.
Lemma title_body_spec : forall t m s, lang (title_body t m) s <-> exists k, (m <= k)%nat /\ written (title_pieces (firstn k t)) s.
Proof.
  intros t m s. unfold title_body. rewrite seq_chars_spec. split.
  - intros (u & v & -> & A & B). apply opt_chars_spec in B. destruct B as (k & B). exists (m + k)%nat. split; [lia|].
    assert (E : firstn (m + k) t = firstn m t ++ firstn k (skipn m t)).
    { clear. revert t. induction m as [|m IH]; intros t; [reflexivity|]. destruct t as [|c t]; [cbn; now rewrite firstn_nil|]. cbn. now rewrite IH. }
    rewrite E, title_pieces_app. apply written_app. eauto.
  - intros (k & L & H). assert (E : firstn k t = firstn m t ++ firstn (k - m) (skipn m t)).
    { clear H. revert k t L. induction m as [|m IH]; intros k t L; [cbn; now rewrite Nat.sub_0_r|]. destruct k as [|k]; [lia|].
      destruct t as [|c t]; [cbn; now rewrite firstn_nil|]. cbn. rewrite (IH k t) at 1 by lia. reflexivity. }
    rewrite E, title_pieces_app in H. apply written_app in H. destruct H as (u & v & -> & A & B). exists u, v. repeat split; auto. apply opt_chars_spec. eauto.
Qed.
Lemma roman_chars : forall r, (forall c, In c r -> c <> space) -> title_pieces r = map Letter r.
Proof.
  induction r as [|c r IH]; intros H; auto. cbn. destruct (Ascii.eqb_spec c space) as [->|N]; [exfalso; apply (H space); [now left|auto]|].
  f_equal. apply IH. intros x X. apply H. now right.
Qed.
Lemma seq_to_written : forall r k p s, (forall c, In c r -> c <> space) -> (forall v, lang k v <-> written p v) ->
  lang (seq_chars r k) s <-> written (map Letter r ++ p) s.
Proof.
  intros r k p s H K. rewrite seq_chars_spec, written_app, roman_chars by auto. split; intros (u & v & E & A & B); exists u, v; repeat split; auto; now apply K.
Qed.
Lemma num_prefix_spec : forall c r s, (forall c, In c r -> c <> space) ->
  lang (num_prefix c r) s <-> written [Letter c; Gap0] s \/ written (map Letter r ++ [Gap1]) s.
Proof.
  intros c r s H. unfold num_prefix. rewrite alt_inv. rewrite (seq_to_written r (RPlus RSp) [Gap1] s H).
  - rewrite seq_inv, letter_inv. setoid_rewrite gap0_inv. split; (intros [X|X]; [left|now right]).
    + destruct X as (u & v & -> & A & B). inv A. apply star_sp in B. apply ci_spec in H1. exists d, v. repeat split; auto. exists v, []. rewrite app_nil_r. repeat split; auto. constructor.
    + destruct X as (x & t & -> & E & w & t' & -> & F & W). apply nil_inv in W. subst. rewrite app_nil_r. exists [x], w. repeat split.
      * constructor. now apply ci_spec.
      * now apply star_sp.
  - intros v. rewrite plus_sp, gap1_inv. split.
    + intros (N & F). exists v, []. rewrite app_nil_r. repeat split; auto. constructor.
    + intros (w & t & -> & N & F & W). apply nil_inv in W. subst. now rewrite app_nil_r.
Qed.
Lemma title_regex_spec : forall t m s, lang (title_regex t m) s <->
  exists p b k, title_form t p b /\ (m <= k)%nat /\ written (p ++ title_pieces (firstn k b)) s.
Proof.
  intros t m s.
  assert (P : (forall c r t', In (c, r) romans -> t <> c :: space :: t') -> (lang (title_body t m) s <-> exists p b k, title_form t p b /\ (m <= k)%nat /\ written (p ++ title_pieces (firstn k b)) s)).
  { intros N. rewrite title_body_spec. split.
    - intros (k & L & W). exists [], t, k. repeat split; auto. now constructor.
    - intros (p & b & k & T & L & W). inv T; [exfalso; eapply N; eauto|exfalso; eapply N; eauto|]. cbn in W. eauto. }
  assert (Q : forall c r t', In (c, r) romans -> (forall c, In c r -> c <> space) -> t = c :: space :: t' ->
     (lang (RSeq (num_prefix c r) (title_body t' m)) s <-> exists p b k, title_form t p b /\ (m <= k)%nat /\ written (p ++ title_pieces (firstn k b)) s)).
  { intros c r t' I H E. rewrite seq_inv. split.
    - intros (u & v & -> & A & B). apply num_prefix_spec in A; auto. apply title_body_spec in B. destruct B as (k & L & B). subst t.
      destruct A as [A|A]; eexists _, t', k; (split; [|split; [exact L|apply written_app; exists u, v; split; [reflexivity|split; [exact A|exact B]]]]).
      + now apply (TF_digit c r).
      + now apply (TF_roman c r).
    - intros (p & b & k & T & L & W). apply written_app in W. destruct W as (u & v & -> & A & B).
      assert (TT : b = t' /\ (p = [Letter c; Gap0] \/ p = map Letter r ++ [Gap1])).
      { subst t. assert (U : forall c0 r0, In (c0, r0) romans -> c0 = c -> r0 = r).
        { intros c0 r0 I0 ->. cbn in I, I0. destruct I as [I|[I|[I|[]]]]; inv I; destruct I0 as [I0|[I0|[I0|[]]]]; inv I0; auto. }
        inv T; auto; [|exfalso; eapply H0; eauto]. split; auto. right. now rewrite (U _ _ H4 eq_refl). }
      destruct TT as (-> & TT). exists u, v. repeat split.
      + apply num_prefix_spec; auto. destruct TT as [->| ->]; auto.
      + apply title_body_spec. eauto. }
  assert (R : forall c r, In (c, r) romans -> forall x, In x r -> x <> space).
  { intros c r I x X. cbn in I. destruct I as [I|[I|[I|[]]]]; inv I; cbn in X; intuition (subst; discriminate). }
  unfold title_regex. destruct t as [|c1 [|c2 t']]; try (apply P; intros; discriminate).
  destruct (Ascii.eqb_spec c2 space) as [->|N].
  - destruct (Ascii.eqb_spec c1 "1") as [->|N1]; [apply Q; auto; [cbn; auto|now apply (R "1"%char); cbn; auto]|].
    destruct (Ascii.eqb_spec c1 "2") as [->|N2]; [apply Q; auto; [cbn; auto|now apply (R "2"%char); cbn; auto]|].
    destruct (Ascii.eqb_spec c1 "3") as [->|N3]; [apply Q; auto; [cbn; auto|now apply (R "3"%char); cbn; auto]|].
    apply P. intros c r t2 I E. inv E. cbn in I. destruct I as [I|[I|[I|[]]]]; inv I; congruence.
  - apply P. intros c r t2 I E. inv E. congruence.
Qed.
Lemma extra_regex_spec : forall a s, lang (extra_regex a) s <-> written (extra_pieces a) s.
Proof.
  induction a as [|c a IH]; intros s; cbn [extra_regex].
  - rewrite eps_inv. change (extra_pieces []) with (@nil piece). now rewrite nil_inv.
  - change (extra_pieces (c :: a)) with ((if Ascii.eqb c space then Gap0 else Letter c) :: extra_pieces a). rewrite seq_inv. destruct (Ascii.eqb c space).
    + rewrite gap0_inv. split; intros (u & v & E & A & B); exists u, v; rewrite star_sp, IH in *; auto.
    + rewrite letter_inv. split.
      * intros (u & v & -> & A & B). inv A. apply ci_spec in H0. exists d, v. rewrite <- IH. auto.
      * intros (x & t & -> & E & W). exists [x], t. rewrite IH. repeat split; auto. constructor. now apply ci_spec.
Qed.
Theorem book_regex_spec : forall n s, fullmatch (book_regex n) s = true <-> names_book n s.
Proof.
  intros n s. rewrite fullmatch_spec. unfold book_regex, names_book. rewrite <- title_regex_spec. generalize (title_regex (n_title n) (n_min n)). intros r.
  assert (X : forall l r, lang (fold_left (fun r a => RAlt r (extra_regex a)) l r) s <-> lang r s \/ exists a, In a l /\ written (extra_pieces a) s).
  { clear. induction l as [|a l IH]; intros r; cbn [fold_left].
    - split; auto. intros [H|(a & [] & _)]; auto.
    - rewrite IH, alt_inv, extra_regex_spec. split.
      + intros [[H|H]|(a' & I & H)]; eauto; right; [exists a; split; [now left|auto]|exists a'; split; [now right|auto]].
      + intros [H|(a' & [->|I] & H)]; eauto. }
  apply X.
Qed.

(** ** Letter case and white space *)
Lemma lower_space : forall c, is_space (lower c) = is_space c.
Proof. intros [[] [] [] [] [] [] [] []]; vm_compute; reflexivity. Qed.
Lemma lower_ci_space : forall c d, lower c = lower d -> is_space c = is_space d.
Proof. intros c d H. rewrite <- (lower_space c), <- (lower_space d). now rewrite H. Qed.
Lemma spaces_ci : forall w u, map lower w = map lower u -> Forall (fun c => is_space c = true) w -> Forall (fun c => is_space c = true) u.
Proof.
  induction w as [|c w IH]; intros [|d u] E F; try discriminate; auto. cbn in E. inv E. inv F. constructor; auto. now rewrite <- (lower_ci_space c d H0).
Qed.
Lemma map_lower_app : forall a b u, map lower (a ++ b) = map lower u -> exists a' b', u = a' ++ b' /\ map lower a = map lower a' /\ map lower b = map lower b'.
Proof.
  induction a as [|c a IH]; intros b u E; [exists [], u; auto|]. destruct u as [|d u]; [discriminate|]. cbn in E. inv E.
  destruct (IH _ _ H1) as (a' & b' & -> & E1 & E2). exists (d :: a'), b'. cbn. repeat split; auto. now f_equal.
Qed.
Lemma written_ci : forall p s, written p s -> forall t, same_letters s t -> written p t.
Proof.
  unfold same_letters. intros p s H. induction H as [|c x p s E W IH|w p s N F W IH|w p s F W IH]; intros t S.
  - destruct t; [constructor|discriminate].
  - destruct t as [|y t]; [discriminate|]. cbn in S. inv S. constructor; auto. congruence.
  - apply map_lower_app in S. destruct S as (a & b & -> & E1 & E2). constructor; auto; [|now apply (spaces_ci w)]. intros ->. destruct w; [congruence|discriminate].
  - apply map_lower_app in S. destruct S as (a & b & -> & E1 & E2). constructor; auto. now apply (spaces_ci w).
Qed.
Lemma names_book_ci : forall n s t, same_letters s t -> names_book n s -> names_book n t.
Proof.
  intros n s t S [(p & b & k & T & L & W)|(a & I & W)]; [left; exists p, b, k|right; exists a]; repeat split; auto; eapply written_ci; eauto.
Qed.
Lemma fullmatch_ci : forall n s t, same_letters s t -> fullmatch (book_regex n) s = fullmatch (book_regex n) t.
Proof.
  intros n s t S. apply eq_true_iff_eq. rewrite !book_regex_spec. split; apply names_book_ci; auto. now symmetry.
Qed.
Lemma lstrip_ci : forall s t, same_letters s t -> same_letters (lstrip s) (lstrip t).
Proof.
  induction s as [|c s IH]; intros [|d t] E; try discriminate; auto. unfold same_letters in *. cbn in E. inv E. cbn [lstrip]. rewrite (lower_ci_space c d H0).
  destruct (is_space d); auto. cbn. now rewrite H0, H1.
Qed.
Lemma rev_ci : forall s t, same_letters s t -> same_letters (rev s) (rev t).
Proof. unfold same_letters. intros s t E. now rewrite !map_rev, E. Qed.
Lemma strip_ci : forall s t, same_letters s t -> same_letters (strip s) (strip t).
Proof. intros s t E. unfold strip, rstrip. apply rev_ci, lstrip_ci, rev_ci, lstrip_ci, E. Qed.
Lemma find_ext : forall A (f g : A -> bool) l, (forall x, f x = g x) -> find f l = find g l.
Proof. intros A f g l H. induction l as [|a l IH]; auto. cbn. rewrite H, IH. reflexivity. Qed.
Theorem from_str_ci : forall d s t, same_letters s t -> from_str d s = from_str d t.
Proof.
  intros d s t E. unfold from_str. apply find_ext. intros b. unfold name_matches. destruct (names d b); auto. apply fullmatch_ci. now apply strip_ci.
Qed.
Lemma lstrip_app : forall w s, Forall (fun c => is_space c = true) w -> lstrip (w ++ s) = lstrip s.
Proof. induction w as [|c w IH]; intros s F; auto. inv F. cbn. rewrite H1. auto. Qed.
Lemma lstrip_app2 : forall s w, Forall (fun c => is_space c = true) w -> lstrip (s ++ w) = lstrip s ++ w \/ lstrip (s ++ w) = [] /\ lstrip s = [].
Proof.
  induction s as [|c s IH]; intros w F; cbn [app lstrip].
  - right. split; auto. rewrite <- (app_nil_r w). now rewrite lstrip_app.
  - destruct (is_space c); auto.
Qed.
Lemma strip_white : forall w s u, Forall (fun c => is_space c = true) w -> Forall (fun c => is_space c = true) u -> strip (w ++ s ++ u) = strip s.
Proof.
  intros w s u W U. unfold strip, rstrip. rewrite lstrip_app by auto. destruct (lstrip_app2 s u U) as [->|(-> & ->)]; auto.
  rewrite rev_app_distr, lstrip_app; auto. now apply Forall_rev.
Qed.
Theorem from_str_white : forall d w s u, Forall (fun c => is_space c = true) w -> Forall (fun c => is_space c = true) u -> from_str d (w ++ s ++ u) = from_str d s.
Proof. intros d w s u W U. unfold from_str. now rewrite strip_white. Qed.

(** ** Names of different books *)
(** A text as letters, each with the knowledge whether white space comes before it. *)
Fixpoint shape (g : bool) (s : str) : list (bool * ascii) * bool :=
  match s with
  | [] => ([], g)
  | c :: s' => if is_space c then shape true s' else let (l, e) := shape false s' in ((g, lower c) :: l, e)
  end.
(** White space before a letter: none, some, unknown. *)
Inductive gap := GNone | GSome | GAny.
Definition gap_more (g h : gap) : gap := match g, h with GSome, _ | _, GSome => GSome | GNone, GNone => GNone | _, _ => GAny end.
Fixpoint outline (g : gap) (p : list piece) : list (gap * ascii) * gap :=
  match p with
  | [] => ([], g)
  | Letter c :: p' => let (l, e) := outline GNone p' in ((g, lower c) :: l, e)
  | Gap1 :: p' => outline (gap_more g GSome) p'
  | Gap0 :: p' => outline (gap_more g GAny) p'
  end.
Definition admits (g : gap) (b : bool) : bool := match g with GNone => negb b | GSome => b | GAny => true end.
Definition fits (o : list (gap * ascii) * gap) (s : list (bool * ascii) * bool) : Prop :=
  Forall2 (fun x y => admits (fst x) (fst y) = true /\ snd x = snd y) (fst o) (fst s) /\ admits (snd o) (snd s) = true.
Definition letters_ok (p : list piece) : bool := forallb (fun x => match x with Letter c => negb (is_space c) | _ => true end) p.
Lemma shape_spaces : forall w g s, Forall (fun c => is_space c = true) w -> w <> [] -> shape g (w ++ s) = shape true s.
Proof.
  induction w as [|c w IH]; intros g s F N; [congruence|]. inv F. cbn [app shape]. rewrite H1. destruct w as [|d w]; auto. apply IH; auto. discriminate.
Qed.
Lemma outline_fits : forall p s, written p s -> letters_ok p = true -> forall g b, admits g b = true -> fits (outline g p) (shape b s).
Proof.
  intros p s H. induction H as [|c x p s E W IH|w p s N F W IH|w p s F W IH]; intros L g b A; cbn [letters_ok forallb] in L.
  - split; auto. constructor.
  - apply andb_prop in L. destruct L as (L1 & L2). apply negb_true_iff in L1. rewrite (lower_ci_space c x E) in L1. cbn [outline shape]. rewrite L1.
    specialize (IH L2 GNone false eq_refl). destruct (outline GNone p) as (l, e), (shape false s) as (l', e'). destruct IH as (IH1 & IH2). split; auto.
    cbn [fst] in *. constructor; auto.
  - rewrite shape_spaces by auto. cbn [outline]. apply IH; auto. destruct g; reflexivity.
  - cbn [outline]. destruct w as [|y w].
    + cbn [app]. apply IH; auto. destruct g, b; auto; discriminate.
    + rewrite shape_spaces by (auto; discriminate). apply IH; auto. destruct g; reflexivity.
Qed.
Definition gaps_meet (g h : gap) : bool := match g, h with GNone, GSome | GSome, GNone => false | _, _ => true end.
Fixpoint all2 {A B} (f : A -> B -> bool) (a : list A) (b : list B) : bool :=
  match a, b with [], [] => true | x :: a', y :: b' => if f x y then all2 f a' b' else false | _, _ => false end.
Definition outlines_meet (o q : list (gap * ascii) * gap) : bool :=
  all2 (fun x y => if Ascii.eqb (snd x) (snd y) then gaps_meet (fst x) (fst y) else false) (fst o) (fst q) && gaps_meet (snd o) (snd q).
Lemma admits_meet : forall g h b, admits g b = true -> admits h b = true -> gaps_meet g h = true.
Proof. intros [] [] []; cbn; auto. Qed.
Lemma fits_meet : forall o q s, fits o s -> fits q s -> outlines_meet o q = true.
Proof.
  intros (l, e) (l', e') (s, es) (F1 & A1) (F2 & A2). unfold outlines_meet. cbn [fst snd] in *. rewrite (admits_meet _ _ _ A1 A2), andb_true_r.
  revert l' F2. induction F1 as [|x y l s (H1 & H2) F1 IH]; intros l' F2.
  - inversion F2. reflexivity.
  - inversion F2 as [|x' y' l2 s2 (H3 & H4) F3]; subst. cbn [all2].
    replace (snd x) with (snd x') by congruence. rewrite Ascii.eqb_refl, (admits_meet _ _ _ H1 H3). auto.
Qed.

(** The ways of writing the names of a book. *)
Definition num_forms (t : str) : list (list piece * str) :=
  match t with
  | c1 :: c2 :: t' =>
      if Ascii.eqb c2 space then
        match find (fun x => Ascii.eqb c1 (fst x)) romans with
        | Some (c, r) => [([Letter c; Gap0], t'); (map Letter r ++ [Gap1], t')]
        | None => [([], t)]
        end
      else [([], t)]
  | _ => [([], t)]
  end.
Definition forms (n : name_entry) : list (list piece) :=
  flat_map (fun x => map (fun k => fst x ++ title_pieces (firstn k (snd x))) (List.seq (n_min n) (S (List.length (snd x))))) (num_forms (n_title n)) ++
  map extra_pieces (n_extra n).
Lemma title_form_num : forall t p b, title_form t p b -> In (p, b) (num_forms t).
Proof.
  intros t p b H. destruct H as [c r t I|c r t I|t N]; cbn [num_forms].
  - rewrite Ascii.eqb_refl. cbn in I. destruct I as [I|[I|[I|[]]]]; inv I; cbn; auto.
  - rewrite Ascii.eqb_refl. cbn in I. destruct I as [I|[I|[I|[]]]]; inv I; cbn; auto.
  - destruct t as [|c1 [|c2 t]]; cbn [num_forms]; try (now left). destruct (Ascii.eqb_spec c2 space) as [->|X]; [|now left].
    destruct (find (fun x => Ascii.eqb c1 (fst x)) romans) as [(c, r)|] eqn:F; [|now left]. exfalso. apply find_some in F. destruct F as (F1 & F2).
    cbn [fst] in F2. apply Ascii.eqb_eq in F2. subst. now apply (N c r t F1).
Qed.
Lemma names_forms : forall n s, names_book n s -> exists p, In p (forms n) /\ written p s.
Proof.
  intros n s [(p & b & k & T & L & W)|(a & I & W)].
  - set (k' := Nat.min k (n_min n + List.length b)%nat). assert (E : firstn k b = firstn k' b).
    { unfold k'. destruct (Nat.le_ge_cases k (n_min n + List.length b)) as [H|H].
      - now rewrite Nat.min_l.
      - rewrite Nat.min_r by auto. now rewrite !firstn_all2 by lia. }
    exists (p ++ title_pieces (firstn k' b)). rewrite <- E. split; auto. apply in_or_app. left. apply in_flat_map. exists (p, b). split; [now apply title_form_num|].
    apply in_map_iff. exists k'. cbn [fst snd]. rewrite E. split; auto. apply in_seq. unfold k'. lia.
  - exists (extra_pieces a). split; auto. apply in_or_app. right. now apply in_map.
Qed.
Definition outlines (d : bibledata) (b : book) : list (list (gap * ascii) * gap) :=
  match names d b with None => [] | Some n => map (outline GNone) (forms n) end.
Definition forms_ok (d : bibledata) (b : book) : bool :=
  match names d b with None => true | Some n => forallb letters_ok (forms n) end.
(** A text that begins with white space is none of these; the others fit an outline. *)
Lemma name_outline : forall d s b, forms_ok d b = true -> name_matches d s b = true -> exists o, In o (outlines d b) /\ fits o (shape false s).
Proof.
  intros d s b K M. unfold name_matches, outlines, forms_ok in *. destruct (names d b) as [n|]; [|discriminate]. apply book_regex_spec in M.
  apply names_forms in M. destruct M as (p & I & W). exists (outline GNone p). split; [now apply in_map|]. apply outline_fits; auto.
  rewrite forallb_forall in K. auto.
Qed.
Definition apart (d : bibledata) (b b' : book) : bool :=
  forallb (fun o => forallb (fun q => negb (outlines_meet o q)) (outlines d b')) (outlines d b).
Lemma apart_spec : forall d b b' s, forms_ok d b = true -> forms_ok d b' = true -> apart d b b' = true -> name_matches d s b = true -> name_matches d s b' = true -> False.
Proof.
  intros d b b' s K K' A M M'. destruct (name_outline d s b K M) as (o & I & F). destruct (name_outline d s b' K' M') as (q & J & F').
  unfold apart in A. rewrite forallb_forall in A. specialize (A o I). rewrite forallb_forall in A. specialize (A q J). rewrite (fits_meet o q _ F F') in A. discriminate.
Qed.
Fixpoint all_apart (ls : list (list (list (gap * ascii) * gap))) : bool :=
  match ls with
  | [] => true
  | l :: ls' => forallb (fun o => forallb (fun l' => forallb (fun q => negb (outlines_meet o q)) l') ls') l && all_apart ls'
  end.
Definition names_apart (d : bibledata) : bool := forallb (forms_ok d) all_books && all_apart (map (outlines d) all_books).

Lemma all_apart_spec : forall d s l, forallb (forms_ok d) l = true -> all_apart (map (outlines d) l) = true ->
  forall b b', In b l -> In b' l -> name_matches d s b = true -> name_matches d s b' = true -> b = b'.
Proof.
  intros d s. assert (X : forall b l b', forms_ok d b = true -> forallb (forms_ok d) l = true ->
    forallb (fun o => forallb (fun l' => forallb (fun q => negb (outlines_meet o q)) l') (map (outlines d) l)) (outlines d b) = true -> In b' l ->
    name_matches d s b = true -> name_matches d s b' = true -> False).
  { intros b l b' K KL A I M M'. rewrite forallb_forall in KL. destruct (name_outline d s b K M) as (o & I1 & F). destruct (name_outline d s b' (KL b' I) M') as (q & J & F').
    rewrite forallb_forall in A. specialize (A o I1). rewrite forallb_forall in A. specialize (A (outlines d b') (in_map _ _ _ I)). rewrite forallb_forall in A.
    specialize (A q J). rewrite (fits_meet o q _ F F') in A. discriminate. }
  induction l as [|x l IH]; intros K A b b' I I' M M'; [destruct I|].
  cbn [forallb map all_apart] in K, A. apply andb_prop in K. destruct K as (K1 & K2). apply andb_prop in A. destruct A as (A1 & A2).
  destruct I as [->|I], I' as [->|I']; auto.
  - exfalso. exact (X b l b' K1 K2 A1 I' M M').
  - exfalso. exact (X b' l b K1 K2 A1 I M' M).
Qed.
Theorem name_one_book : forall d s b b', names_apart d = true -> name_matches d s b = true -> name_matches d s b' = true -> b = b'.
Proof.
  intros d s b b' A M M'. unfold names_apart in A. apply andb_prop in A. destruct A as (A1 & A2).
  apply (all_apart_spec d s all_books A1 A2 b b'); auto using all_books_in.
Qed.
Lemma name_matches_spec : forall d s b, name_matches d s b = true <-> exists n, names d b = Some n /\ names_book n s.
Proof.
  intros d s b. unfold name_matches. destruct (names d b) as [n|].
  - rewrite book_regex_spec. split; [eauto|intros (m & E & H); now inv E].
  - split; [discriminate|intros (m & E & _); discriminate].
Qed.
(** The first book that has the name. *)
Theorem from_str_first : forall d s b, from_str d s = Some b <->
  exists l r, all_books = l ++ b :: r /\ (exists n, names d b = Some n /\ names_book n (strip s)) /\
  forall x, In x l -> ~ exists n, names d x = Some n /\ names_book n (strip s).
Proof.
  intros d s b. unfold from_str. generalize all_books. intros bs. split.
  - induction bs as [|x bs IH]; [discriminate|]. cbn [find]. destruct (name_matches d (strip s) x) eqn:M.
    + intros E. inv E. exists [], bs. split; [reflexivity|split; [now apply name_matches_spec|intros y []]].
    + intros E. destruct (IH E) as (l & r & -> & H1 & H2). exists (x :: l), r. split; [reflexivity|split; auto].
      intros y [->|I]; auto. intros N. apply name_matches_spec in N. congruence.
  - intros (l & r & -> & H1 & H2). induction l as [|x l IH]; cbn [app find].
    + apply name_matches_spec in H1. now rewrite H1.
    + destruct (name_matches d (strip s) x) eqn:M; [|apply IH; intros y I; apply H2; now right].
      exfalso. apply (H2 x); [now left|]. now apply name_matches_spec.
Qed.
Theorem from_str_none : forall d s, from_str d s = None <-> forall b n, names d b = Some n -> ~ names_book n (strip s).
Proof.
  intros d s. unfold from_str. split.
  - intros H b n E N. assert (M := find_none _ _ H b (all_books_in b)). assert (M' : name_matches d (strip s) b = true) by (apply name_matches_spec; eauto). congruence.
  - intros H. destruct (find (name_matches d (strip s)) all_books) as [b|] eqn:F; auto. apply find_some in F. destruct F as (_ & F).
    apply name_matches_spec in F. destruct F as (n & E & N). exfalso. eapply H; eauto.
Qed.
Theorem from_str_only : forall d s b, names_apart d = true -> (from_str d s = Some b <-> exists n, names d b = Some n /\ names_book n (strip s)).
Proof.
  intros d s b A. split.
  - intros H. apply from_str_first in H. destruct H as (l & r & _ & H & _). exact H.
  - intros H. apply name_matches_spec in H. unfold from_str. destruct (find (name_matches d (strip s)) all_books) as [b'|] eqn:F.
    + apply find_some in F. destruct F as (_ & F). f_equal. eapply name_one_book; eauto.
    + assert (M := find_none _ _ F b (all_books_in b)). congruence.
Qed.
Lemma default_apart : names_apart default_data = true.
Proof. vm_compute. reflexivity. Qed.
