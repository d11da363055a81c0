(** * PPlace: proofs about the positions of syntax errors. *)
From Coq Require Import List ZArith NArith Bool Ascii Lia.
From Verif Require Import Base Books Chars Regex Data MVerse MRange MSeq MList MParse MStr MPlace SpecParse SpecPlace PGroup PList PLex PLong.
Import ListNotations.
Open Scope Z_scope.

(** ** Places and rules *)
Fixpoint run (q : place) (ts : list token) : option place :=
  match ts with [] => Some q | t :: ts' => match step q (tk t) with Some q' => run q' ts' | None => None end end.
Lemma run_app : forall ts us q, run q (ts ++ us) = match run q ts with Some q' => run q' us | None => None end.
Proof. induction ts as [|t ts IH]; intros us q; cbn [run app]; auto. destruct (step q (tk t)); auto. Qed.
Lemma run_kinds : forall ts us q, map tk ts = map tk us -> run q ts = run q us.
Proof.
  induction ts as [|t ts IH]; intros [|u us] q E; try discriminate; auto. cbn [map] in E. injection E as E1 E2. cbn [run]. rewrite E1.
  destruct (step q (tk u)); auto.
Qed.
Definition closed (q : place) : Prop := match q with PName _ | PNum _ | PDone _ => True | _ => False end.
Definition dual (q : place) : bool := match q with PStart u | PName u | PNum u | PSep u | PDone u => u end.

Lemma run_single : forall l a u, g_single l a -> exists q, run (PStart u) l = Some q /\ closed q /\ dual q = u.
Proof.
  intros l a u G. destruct G; cbn [run]; repeat (match goal with H : tk _ = _ |- _ => rewrite H; clear H end; cbn [step]); eexists; (split; [reflexivity|split; exact I || reflexivity]).
Qed.
Lemma run_ref : forall l x, g_ref l x -> exists q, run (PStart false) l = Some q /\ closed q.
Proof.
  intros l x G. destruct G as [l a G|l m a s b G S H].
  - destruct (run_single l a false G) as (q & E & C & _). eauto.
  - destruct (run_single l a false G) as (q & E & C & D). destruct (run_single m b true H) as (q2 & E2 & C2 & D2). exists q2. split; auto.
    rewrite run_app, E. cbn [run]. rewrite S. destruct q; cbn in C, D; try contradiction; subst; cbn [step]; auto.
Qed.
Lemma run_rest : forall m r t, g_rest m r t -> forall q, closed q -> run q m <> None.
Proof.
  induction 1 as [|s S|s l x m r t S G H IH]; intros q C.
  - discriminate.
  - cbn [run]. destruct S as [-> | ->], q; cbn in C; try contradiction; cbn [step]; discriminate.
  - cbn [run]. destruct (run_ref l x G) as (q2 & E2 & C2).
    assert (X : step q (tk s) = Some (PStart false)) by (destruct S as [-> | ->], q; cbn in C; try contradiction; reflexivity).
    rewrite X, run_app, E2. auto.
Qed.
Lemma viable_run : forall ts, viable ts -> run (PStart false) ts <> None.
Proof.
  intros ts (more & t & G). inv G. destruct (run_ref l x H0) as (q & E & C). pose proof (run_rest m r t0 H1 q C) as N.
  assert (M : run (PStart false) (ts ++ more) <> None) by (rewrite <- H, run_app, E; exact N).
  intros Z. apply M. rewrite run_app, Z. reflexivity.
Qed.

(** What has been read of a single reference. *)
Inductive begun : place -> list token -> Prop :=
| B_start u : begun (PStart u) []
| B_name u n : tk n = TName -> begun (PName u) [n]
| B_num u m : tk m = TNum -> begun (PNum u) [m]
| B_nnum u n m : tk n = TName -> tk m = TNum -> begun (PNum u) [n; m]
| B_sep u m s : tk m = TNum -> tk s = TVerse -> begun (PSep u) [m; s]
| B_nsep u n m s : tk n = TName -> tk m = TNum -> tk s = TVerse -> begun (PSep u) [n; m; s]
| B_done u m s v : tk m = TNum -> tk s = TVerse -> tk v = TNum -> begun (PDone u) [m; s; v]
| B_ndone u n m s v : tk n = TName -> tk m = TNum -> tk s = TVerse -> tk v = TNum -> begun (PDone u) [n; m; s; v].
(** What may stand before a reference. *)
Definition opener (pre : list token) : Prop :=
  pre = [] \/ exists l x m r s, g_ref l x /\ g_rest m r None /\ (tk s = TMajor \/ tk s = TMinor) /\ pre = (l ++ m) ++ [s].
Definition half (u : bool) (h : list token) : Prop :=
  if u then exists l a s, g_single l a /\ tk s = TRange /\ h = l ++ [s] else h = [].
Definition been (q : place) (ts : list token) : Prop :=
  exists pre h part, opener pre /\ half (dual q) h /\ begun q part /\ ts = pre ++ h ++ part.

Lemma begun_closed : forall q part, begun q part -> closed q -> exists a, g_single part a.
Proof.
  intros q part B C. destruct B; cbn in C; try contradiction; eexists.
  - apply G_book; auto.
  - apply G_num; auto.
  - apply G_book_num; auto.
  - apply G_chap_verse; auto.
  - apply G_full; auto.
Qed.
Lemma half_ref : forall u h part a, half u h -> g_single part a -> exists x, g_ref (h ++ part) x.
Proof.
  intros [|] h part a H G; cbn in H.
  - destruct H as (l & b & s & G1 & S & ->). rewrite <- app_assoc. cbn [app]. eexists. now apply (G_two l part b s a).
  - subst. eexists. apply G_one. exact G.
Qed.
Lemma rest_snoc : forall m r t, g_rest m r t -> t = None -> forall s l x, tk s = TMajor \/ tk s = TMinor -> g_ref l x -> exists r', g_rest (m ++ s :: l) r' None.
Proof.
  induction 1 as [|s0 S0|s0 l0 x0 m r t S0 G0 R IH]; intros N s l x S G.
  - cbn [app]. eexists. rewrite <- (app_nil_r l). apply (G_more s l x [] [] None S G G_end).
  - discriminate.
  - destruct (IH N s l x S G) as (r' & R'). eexists. cbn [app]. rewrite <- app_assoc. apply (G_more s0 l0 x0 _ r' None S0 G0 R').
Qed.
Lemma opener_ref : forall pre l x, opener pre -> g_ref l x -> exists l1 x1 m r, g_ref l1 x1 /\ g_rest m r None /\ pre ++ l = l1 ++ m.
Proof.
  intros pre l x [->|(l1 & x1 & m & r & s & G1 & R & S & ->)] G.
  - exists l, x, [], []. split; auto. split; [constructor|]. now rewrite app_nil_r.
  - destruct (rest_snoc m r None R eq_refl s l x S G) as (r' & R'). exists l1, x1, (m ++ s :: l), r'. split; auto. split; auto.
    rewrite <- !app_assoc. reflexivity.
Qed.
Lemma been_step : forall q t q' ts, been q ts -> step q (tk t) = Some q' -> been q' (ts ++ [t]).
Proof.
  intros q t q' ts (pre & h & part & O & H & B & ->) S. unfold been.
  assert (Close : closed q -> (tk t = TMajor \/ tk t = TMinor) -> q' = PStart false -> been q' ((pre ++ h ++ part) ++ [t])).
  { intros C K ->. destruct (begun_closed q part B C) as (a & Ga). destruct (half_ref _ h part a H Ga) as (x & Gx).
    destruct (opener_ref pre (h ++ part) x O Gx) as (l1 & x1 & m & r & G1 & R & E).
    exists ((l1 ++ m) ++ [t]), [], []. split; [right; exists l1, x1, m, r, t; auto|]. split; [reflexivity|]. split; [constructor|]. rewrite E, app_nil_r. reflexivity. }
  assert (Dual : closed q -> dual q = false -> tk t = TRange -> q' = PStart true -> been q' ((pre ++ h ++ part) ++ [t])).
  { intros C D K ->. destruct (begun_closed q part B C) as (a & Ga). rewrite D in H. cbn in H. subst h.
    exists pre, (part ++ [t]), []. split; auto. split; [exists part, a, t; auto|]. split; [constructor|]. cbn [app]. now rewrite app_nil_r, app_assoc. }
  assert (Go : dual q' = dual q -> begun q' (part ++ [t]) -> been q' ((pre ++ h ++ part) ++ [t])).
  { intros D B'. exists pre, h, (part ++ [t]). rewrite D. split; auto. split; auto. split; auto. now rewrite <- !app_assoc. }
  fold (been q' ((pre ++ h ++ part) ++ [t])).
  destruct (tk t) eqn:K, q; cbn [step] in S; try discriminate;
    try (destruct dual0; try discriminate); inv S; try (apply Dual; auto; exact I); try (apply Close; auto; exact I);
    (apply Go; [reflexivity|]; inv B; cbn [app]; constructor; auto).
Qed.
Lemma been_run : forall ts q pre q', been q pre -> run q ts = Some q' -> been q' (pre ++ ts).
Proof.
  induction ts as [|t ts IH]; intros q pre q' B E; cbn [run] in E.
  - inv E. now rewrite app_nil_r.
  - destruct (step q (tk t)) as [q1|] eqn:S; [|discriminate]. replace (pre ++ t :: ts) with ((pre ++ [t]) ++ ts) by now rewrite <- app_assoc.
    apply (IH q1); auto. now apply (been_step q).
Qed.
Lemma been_start : been (PStart false) [].
Proof. exists [], [], []. split; [now left|]. split; [reflexivity|]. split; [constructor|reflexivity]. Qed.
(** Nothing, or a number, completes a reference. *)
Lemma been_end : forall q ts m, been q ts -> tk m = TNum ->
  (closed q /\ exists t, g_list ts t) \/ (~ closed q /\ exists t, g_list (ts ++ [m]) t).
Proof.
  intros q ts m (pre & h & part & O & H & B & ->) K.
  assert (End : forall part' a, g_single part' a -> exists t, g_list (pre ++ h ++ part') t).
  { intros part' a Ga. destruct (half_ref _ h part' a H Ga) as (x & Gx). destruct (opener_ref pre _ x O Gx) as (l1 & x1 & m1 & r & G1 & R & E).
    rewrite E. eexists. apply (G_list l1 x1 m1 r None G1 R). }
  rewrite <- !app_assoc.
  destruct q; try (left; split; [exact I|]; destruct (begun_closed _ part B I) as (a & Ga); exact (End part a Ga));
    (right; split; [tauto|]; inv B; cbn [app]).
  - apply (End [m] (SNum m)). now constructor.
  - apply (End [m0; s; m] (SChapVerse m0 s m)). now constructor.
  - apply (End [n; m0; s; m] (SFull n m0 s m)). now constructor.
Qed.
Lemma run_viable : forall ts, run (PStart false) ts <> None <-> viable ts.
Proof.
  intros ts. split; [|apply viable_run]. intros N. destruct (run (PStart false) ts) as [q|] eqn:E; [|congruence].
  pose proof (been_run ts _ [] q been_start E) as B. cbn [app] in B.
  destruct (been_end q ts (Tok TNum [] 0) B eq_refl) as [(_ & t & G)|(_ & t & G)].
  - exists [], t. now rewrite app_nil_r.
  - exists [Tok TNum [] 0], t. exact G.
Qed.

(** ** Matches *)
Lemma is_term_spec : forall d k x, is_term d k x = true <-> in_term d k x.
Proof.
  intros d k x. assert (Q : forall a b, str_eqb a b = true <-> a = b) by (intros a b; unfold str_eqb; destruct (list_eq_dec ascii_dec a b); split; congruence).
  destruct k; cbn [is_term in_term].
  - apply is_name_spec.
  - destruct x as [|c x]; [split; [discriminate|tauto]|]. rewrite forallb_forall, Forall_forall. split; [intros H; split; [discriminate|auto]|tauto].
  - apply Q.
  - apply Q.
  - apply Q.
  - rewrite orb_true_iff, !Q. reflexivity.
Qed.
Lemma term_nonempty : forall d k x, in_term d k x -> x <> [].
Proof.
  intros d k x H ->. destruct k; cbn in H; try discriminate.
  - destruct H as (c & m & z & E & _). discriminate.
  - tauto.
  - destruct H; discriminate.
Qed.
Lemma term_first : forall d k x c t, good_seps d -> in_term d k x -> x = c :: t -> is_ws c = false.
Proof.
  intros d k x c t G H ->. assert (S : forall c, is_sep d c -> is_ws c = false).
  { intros b B. apply (gs_punct d G) in B. destruct (is_ws b) eqn:W; auto. apply ws_space in W. intuition congruence. }
  unfold is_sep in S. destruct k; cbn [in_term] in H.
  - now apply (name_first d (c :: t) c t).
  - destruct H as (_ & F). inv F. now apply digit_not_ws.
  - inv H. apply S. auto.
  - inv H. apply S. auto.
  - inv H. apply S. auto.
  - destruct H as [H|H]; inv H; apply S; auto.
Qed.
Lemma find_rev_seq : forall (P : nat -> bool) n,
  match find P (rev (List.seq 1 n)) with
  | Some m => (1 <= m <= n)%nat /\ P m = true /\ (forall k, (m < k <= n)%nat -> P k = false)
  | None => forall k, (1 <= k <= n)%nat -> P k = false
  end.
Proof.
  intros P n. induction n as [|n IH]; [cbn; intros; lia|]. rewrite seq_S, rev_app_distr. cbn [rev app find]. change (1 + n)%nat with (S n).
  destruct (P (S n)) eqn:E.
  - split; [lia|]. split; auto. intros; lia.
  - destruct (find P (rev (List.seq 1 n))) as [m|].
    + destruct IH as (A & B & C). split; [lia|]. split; auto. intros k K. destruct (Nat.eq_dec k (S n)) as [->|]; auto. apply C. lia.
    + intros k K. destruct (Nat.eq_dec k (S n)) as [->|]; auto. apply IH. lia.
Qed.
Lemma match_term_some : forall d k s n, match_term d k s = Some n -> exists x r, s = x ++ r /\ n = length x /\ in_term d k x /\ longest d k x r /\ skipn n s = r.
Proof.
  intros d k s n E. unfold match_term in E. pose proof (find_rev_seq (fun n => is_term d k (firstn n s)) (length s)) as F. rewrite E in F. destruct F as (A & B & C).
  exists (firstn n s), (skipn n s). rewrite firstn_skipn. split; auto. assert (L : length (firstn n s) = n) by (rewrite firstn_length; lia). split; auto.
  split; [now apply is_term_spec|]. split; auto. intros y z Ey Iy. rewrite L. destruct (Nat.le_gt_cases (length y) n) as [|Gt]; auto. exfalso.
  rewrite firstn_skipn in Ey. assert (Y : firstn (length y) s = y) by (rewrite Ey, firstn_app, Nat.sub_diag, firstn_all; cbn [firstn]; now rewrite app_nil_r).
  assert (X : is_term d k (firstn (length y) s) = false) by (apply C; split; [lia|rewrite Ey, app_length; lia]). rewrite Y in X. apply is_term_spec in Iy. congruence.
Qed.
Lemma match_term_longest : forall d k x r, in_term d k x -> longest d k x r -> match_term d k (x ++ r) = Some (length x).
Proof.
  intros d k x r T L. unfold match_term. pose proof (find_rev_seq (fun n => is_term d k (firstn n (x ++ r))) (length (x ++ r))) as F.
  assert (X : is_term d k (firstn (length x) (x ++ r)) = true) by (rewrite firstn_app, Nat.sub_diag, firstn_all; cbn [firstn]; rewrite app_nil_r; now apply is_term_spec).
  assert (N : (1 <= length x <= length (x ++ r))%nat) by (rewrite app_length; apply term_nonempty in T; destruct x; [congruence|cbn [length]; lia]).
  destruct (find _ _) as [m|].
  - destruct F as (A & B & C). f_equal. destruct (Nat.lt_trichotomy m (length x)) as [Lt|[Eq|Gt]]; auto.
    + rewrite C in X by lia. discriminate.
    + apply is_term_spec in B. pose proof (L (firstn m (x ++ r)) (skipn m (x ++ r)) ltac:(now rewrite firstn_skipn) B) as Q. rewrite firstn_length in Q. lia.
  - rewrite F in X by exact N. discriminate.
Qed.

(** ** How far the matches reach *)
Lemma max_ge : forall j l, j <= fold_right Z.max j l /\ forall y, In y l -> y <= fold_right Z.max j l.
Proof. intros j l. induction l as [|a l (A & B)]; cbn [fold_right]; [split; [lia|intros y []]|]. split; [lia|]. intros y [<-|Y]; [lia|]. specialize (B y Y). lia. Qed.
Lemma max_in : forall j l, fold_right Z.max j l = j \/ In (fold_right Z.max j l) l.
Proof. intros j l. induction l as [|a l IH]; cbn [fold_right]; auto. destruct (Z.max_spec a (fold_right Z.max j l)) as [(L & ->)|(L & ->)]; [|right; now left]. destruct IH as [E|I]; [now left|right; now right]. Qed.

Lemma scans_white : forall d w s ts r, white w -> scans d s ts r -> scans d (w ++ s) ts r.
Proof.
  intros d w s ts r W S. destruct S as [w0 r W0|w0 k x i s ts r W0 T L S]; rewrite app_assoc; constructor; auto; apply Forall_app; auto.
Qed.
Lemma scans_len : forall d s ts r, scans d s ts r -> zlen r <= zlen s.
Proof. induction 1; rewrite ?zlen_app' in *; unfold zlen in *; lia. Qed.
Lemma far_step : forall d n q i s, far d (S n) q i s =
  fold_right Z.max (i + (zlen s - zlen (drop_ws s))) (map (fun k =>
    match step q k, match_term d k (drop_ws s) with
    | Some q', Some m => far d n q' (i + (zlen s - zlen (drop_ws s)) + Z.of_nat m) (skipn m (drop_ws s))
    | _, _ => i + (zlen s - zlen (drop_ws s))
    end) all_terms).
Proof. reflexivity. Qed.
Lemma far_sound : forall d n q i s, exists ts r, scans d s ts r /\ run q ts <> None /\ far d n q i s = i + zlen s - zlen r.
Proof.
  induction n as [|n IH]; intros q i s; destruct (drop_ws_split s) as (w & E & W & _).
  - exists [], (drop_ws s). split; [rewrite E at 1; now constructor|]. split; [discriminate|]. cbn [far]. lia.
  - rewrite far_step. set (a := drop_ws s) in *. set (j := i + (zlen s - zlen a)).
    assert (Base : exists ts r, scans d s ts r /\ run q ts <> None /\ j = i + zlen s - zlen r).
    { exists [], a. split; [rewrite E; now constructor|]. split; [discriminate|]. unfold j. lia. }
    match goal with |- context [fold_right Z.max j ?l] => destruct (max_in j l) as [->|I]; [exact Base|revert I; generalize (fold_right Z.max j l)] end.
    intros v I. apply in_map_iff in I. destruct I as (k & <- & _). destruct (step q k) as [q'|] eqn:S; [|exact Base]. destruct (match_term d k a) as [m|] eqn:M; [|exact Base].
    apply match_term_some in M. destruct M as (x & r & Ea & Em & T & L & Er). rewrite Er.
    destruct (IH q' (j + Z.of_nat m) r) as (ts & r' & Sc & R & F). exists (Tok k x 0 :: ts), r'. split.
    + rewrite E, Ea. constructor; auto.
    + split; [cbn [run tk]; rewrite S; exact R|]. rewrite F. unfold j. rewrite Ea, zlen_app'. rewrite Em. unfold zlen. lia.
Qed.
Lemma far_max : forall d ts s r, good_seps d -> scans d s ts r -> forall n q i, (length s <= n)%nat -> run q ts <> None -> i + zlen s - zlen r <= far d n q i s.
Proof.
  intros d ts s r G S. induction S as [w r W|w k x p s ts r W T L S IH]; intros n q i N R.
  - destruct (drop_ws_split (w ++ r)) as (w2 & E & W2 & F).
    assert (Q : zlen (drop_ws (w ++ r)) <= zlen r).
    { clear - W. induction w as [|c w IH]; cbn [app].
      - destruct (drop_ws_split r) as (v & E & _). rewrite E at 2. rewrite zlen_app'. unfold zlen. lia.
      - inv W. cbn [drop_ws]. rewrite H1. auto. }
    destruct n; [cbn [far]; lia|]. rewrite far_step. match goal with |- context [fold_right Z.max ?j ?l] => pose proof (proj1 (max_ge j l)) end. lia.
  - pose proof (term_nonempty d k x T) as Ne. destruct n as [|n]; [rewrite !app_length in N; destruct x; [congruence|cbn [length] in N; lia]|].
    assert (Dr : drop_ws (w ++ x ++ s) = x ++ s) by (apply drop_ws_app; auto; intros c t Ec; destruct x as [|b x]; [congruence|]; cbn [app] in Ec; inv Ec; now apply (term_first d k (c :: x) c x)).
    rewrite far_step, Dr. cbn [run tk] in R. destruct (step q k) as [q'|] eqn:Sq; [|congruence].
    assert (In k all_terms) as Ik by (destruct k; cbn; auto 10).
    match goal with |- context [fold_right Z.max ?j (map ?f all_terms)] => pose proof (proj2 (max_ge j (map f all_terms)) (f k) (in_map f _ _ Ik)) as M end.
    cbv beta in M. rewrite Sq, (match_term_longest d k x s T L), skipn_app_exact in M.
    assert (N' : (length s <= n)%nat) by (rewrite !app_length in N; destruct x; [congruence|cbn [length] in N; lia]).
    match type of M with far d n q' ?i' s <= _ => pose proof (IH n q' i' N' R) as K end.
    eapply Z.le_trans; [|exact M]. eapply Z.le_trans; [|exact K]. rewrite !zlen_app'. unfold zlen. lia.
Qed.
Lemma far_reaches : forall d s, reaches d s (far d (length s) (PStart false) 0 s).
Proof.
  intros d s. destruct (far_sound d (length s) (PStart false) 0 s) as (ts & r & S & R & E). exists ts, r. split; auto. split; [now apply run_viable|]. lia.
Qed.
Lemma far_greatest : forall d s m, good_seps d -> reaches d s m -> m <= far d (length s) (PStart false) 0 s.
Proof.
  intros d s m G (ts & r & S & V & E). apply run_viable in V. pose proof (far_max d ts s r G S (length s) (PStart false) 0 (le_n _) V). lia.
Qed.
Lemma error_pos_at : forall d s p, good_seps d -> (error_at d s p <-> p = error_pos d s).
Proof.
  intros d s p G. unfold error_pos. split.
  - intros (n & R & M & ->). assert (n = far d (length s) (PStart false) 0 s) as ->; auto.
    pose proof (M _ (far_reaches d s)). pose proof (far_greatest d s n G R). lia.
  - intros ->. exists (far d (length s) (PStart false) 0 s). split; [apply far_reaches|]. split; auto. intros m. now apply far_greatest.
Qed.

(** ** The text before the error *)
Lemma scans_prefix : forall d s ts r, scans d s ts r -> forall i, exists a ts', s = a ++ r /\ map tk ts' = map tk ts /\ spells d i a ts'.
Proof.
  intros d s ts r S. induction S as [w r W|w k x p s ts r W T L S IH]; intros i.
  - exists w, []. split; auto. split; auto. now constructor.
  - destruct (IH (i + zlen w + zlen x)) as (a & ts' & -> & K & Sp). exists (w ++ x ++ a), (Tok k x (i + zlen w) :: ts'). rewrite <- !app_assoc. split; auto.
    split; [cbn [map tk]; now rewrite K|]. now constructor.
Qed.
Definition one : ascii := "1"%char.
Lemma spells_one_end : forall d a ts, spells d 0 a ts -> spells d 0 (a ++ [one]) (ts ++ [Tok TNum [one] (0 + zlen a)]).
Proof.
  intros d a ts S. apply spells_app; auto. rewrite <- (app_nil_r [one]) at 1. apply spells_head.
  - split; [discriminate|]. repeat constructor.
  - constructor. constructor.
Qed.
Lemma reaches_readable : forall d s n, reaches d s n -> exists a r, s = a ++ r /\ zlen a = n /\ ((exists t, reads d a t) \/ exists t, reads d (a ++ [one]) t).
Proof.
  intros d s n (ts & r & S & V & E). destruct (scans_prefix d s ts r S 0) as (a & ts' & -> & K & Sp). exists a, r. split; auto. split; [rewrite zlen_app' in E; lia|].
  apply run_viable in V. rewrite <- (run_kinds ts' ts _ K) in V. destruct (run (PStart false) ts') as [q|] eqn:R; [|congruence].
  pose proof (been_run ts' _ [] q been_start R) as B. cbn [app] in B.
  destruct (been_end q ts' (Tok TNum [one] (0 + zlen a)) B eq_refl) as [(_ & t & G)|(_ & t & G)].
  - left. exists t, ts'. auto.
  - right. exists t, (ts' ++ [Tok TNum [one] (0 + zlen a)]). split; auto. now apply spells_one_end.
Qed.
(** An error that is not at the end is not at white space. *)
Lemma scans_more : forall d s ts c r, scans d s ts (c :: r) -> is_ws c = true -> scans d s ts r.
Proof.
  intros d s ts c r S W. remember (c :: r) as cr eqn:E. revert E. induction S as [w r0 W0|w k x p s ts r0 W0 T L S IH]; intros E.
  - subst. replace (w ++ c :: r) with ((w ++ [c]) ++ r) by now rewrite <- app_assoc. constructor. apply Forall_app. split; auto.
  - constructor; auto.
Qed.
Lemma greatest_not_ws : forall d s n, good_seps d -> reaches d s n -> (forall m, reaches d s m -> m <= n) -> 0 <= n <= zlen s /\ (n < zlen s -> exists c, znth s n = Some c /\ is_ws c = false).
Proof.
  intros d s n G R M. destruct R as (ts & r & S & V & E). pose proof (scans_len d s ts r S). split; [unfold zlen in *; lia|]. intros Lt.
  destruct (scans_prefix d s ts r S 0) as (a & _ & -> & _). destruct r as [|c r]; [rewrite app_nil_r in *; unfold zlen in *; cbn [length] in *; lia|].
  exists c. split.
  - rewrite zlen_app' in E. assert (n = zlen a) as -> by lia. unfold znth, zlen. destruct (Z.of_nat (length a) <? 0) eqn:Q; [apply Z.ltb_lt in Q; lia|].
    rewrite Nat2Z.id, nth_error_app2 by auto. now rewrite Nat.sub_diag.
  - destruct (is_ws c) eqn:W; auto. exfalso. assert (R : reaches d (a ++ c :: r) (n + 1)).
    { exists ts, r. split; [now apply (scans_more d _ ts c r)|]. split; auto. rewrite zlen_app', zlen_cons' in *. lia. }
    apply M in R. lia.
Qed.
(** A text that a digit completes is scanned to its end. *)
Lemma longest_shorter : forall d k x s t, longest d k x (s ++ t) -> longest d k x s.
Proof. intros d k x s t L y z E. apply (L y (z ++ t)). rewrite app_assoc, E. now rewrite <- app_assoc. Qed.
Lemma scans_cut : forall d u ts, good_seps d -> spells_longest d u ts -> forall s, u = s ++ [one] -> exists ts' tl, scans d s ts' [] /\ map tk ts = map tk ts' ++ tl.
Proof.
  intros d u ts G S. induction S as [w W|w k x i s0 ts W T L S IH]; intros s E.
  - exfalso. subst w. apply Forall_app in W. destruct W as (_ & W). inv W. discriminate.
  - destruct s0 as [|c0 s0 _] using rev_ind.
    + rewrite app_nil_r in E. assert (Nx : x <> []) by (eapply term_nonempty; eauto). destruct (exists_last Nx) as (x' & c & ->). rewrite app_assoc in E. apply app_inj_tail in E. destruct E as (<- & ->).
      assert (K : k = TNum).
      { destruct k; auto; exfalso.
        - apply (name_last d _ one x') in T; auto. destruct T. discriminate.
        - cbn in T. destruct x' as [|? [|? ?]]; try discriminate. cbn in T. inv T. assert (Q : is_sep d one) by (unfold is_sep; auto). apply (gs_punct d G) in Q. destruct Q. discriminate.
        - cbn in T. destruct x' as [|? [|? ?]]; try discriminate. cbn in T. inv T. assert (Q : is_sep d one) by (unfold is_sep; auto). apply (gs_punct d G) in Q. destruct Q. discriminate.
        - cbn in T. destruct x' as [|? [|? ?]]; try discriminate. cbn in T. inv T. assert (Q : is_sep d one) by (unfold is_sep; auto). apply (gs_punct d G) in Q. destruct Q. discriminate.
        - assert (Q : is_sep d one).
          { cbn in T. destruct x' as [|? [|? ?]]; cbn in T; destruct T as [T|T]; inv T; unfold is_sep; auto 6. }
          apply (gs_punct d G) in Q. destruct Q. discriminate. }
      subst k. destruct x' as [|b x'].
      * exists [], (TNum :: map tk ts). split; auto. constructor. exact W.
      * exists [Tok TNum (b :: x') 0], (map tk ts). split; auto. replace (w ++ b :: x') with (w ++ (b :: x') ++ []) by now rewrite app_nil_r. constructor; auto.
        -- destruct T as (_ & T). split; [discriminate|]. now apply Forall_app in T.
        -- intros y z Ey _. apply (f_equal (@length _)) in Ey. rewrite !app_length in Ey. cbn [length] in *. lia.
        -- rewrite <- (app_nil_l (@nil ascii)) at 1. constructor. constructor.
    + rewrite !app_assoc in E. apply app_inj_tail in E. destruct E as (<- & ->). destruct (IH s0 eq_refl) as (ts' & tl & S' & K). exists (Tok k x 0 :: ts'), tl. split.
      * rewrite <- app_assoc. constructor; auto. now apply longest_shorter in L.
      * cbn [map tk]. now rewrite K.
Qed.
Lemma run_prefix : forall ts us tl q, map tk us = map tk ts ++ tl -> run q us <> None -> run q ts <> None.
Proof.
  induction ts as [|t ts IH]; intros us tl q E R; [discriminate|]. destruct us as [|u us]; [discriminate|]. cbn [map app] in E. injection E as E1 E2. cbn [run] in *. rewrite <- E1. destruct (step q (tk u)); [|congruence]. now apply (IH us tl).
Qed.
Lemma readable_one_reaches : forall d s t, good_seps d -> reads d (s ++ [one]) t -> reaches d s (zlen s).
Proof.
  intros d s t G R. destruct (reads_longest d _ t G R) as (ts & _ & Gl & S). destruct (scans_cut d _ ts G S s eq_refl) as (ts' & tl & S' & K).
  exists ts', []. split; auto. split; [|unfold zlen; cbn [length]; lia]. apply run_viable. apply (run_prefix ts' ts tl); auto. apply viable_run. exists [], t. now rewrite app_nil_r.
Qed.
