(** * PSort2: sorting items of which some cannot be compared (MSort.v). *)
From Coq Require Import List ZArith Bool Arith Lia Permutation.
From Verif Require Import Base MSeq MGroup MSort SpecGroup PSort PGroup PGroup2 PGroup4 PGroup5.
Import ListNotations.

Section SortX.
Context {A : Type}.
Notation gl := (glist A).
Variable le : A -> A -> res bool.
(** The comparison as a total function: where it raises the value does not matter. *)
Definition totalized (x y : A) : bool := match le x y with Ok b => b | Err _ => false end.
Variable leb : A -> A -> bool.
Hypothesis agree : forall x y b, le x y = Ok b -> leb x y = b.

(** A pair of values of [l] that cannot be compared. *)
Definition clash (s : gl) (l : list nat) (q : exn) : Prop :=
  exists a b x y, In a l /\ In b l /\ n_val s a = Some x /\ n_val s b = Some y /\ le x y = Err q.

Lemma merge_x_ok : forall n fa la fb lb (s t : gl) f g, merge_x le n fa la fb lb s = (t, Ok (f, g)) -> merge_sublists leb n fa la fb lb s = Ok (f, g, t).
Proof.
  induction n as [|n IH]; intros fa la fb lb s t f g E; destruct fa as [a|], fb as [b|]; cbn in E |- *; try congruence.
  destruct (value s a) as [x|]; cbn in *; [|discriminate]. destruct (value s b) as [y|]; cbn in *; [|discriminate].
  destruct (le x y) as [c|] eqn:El; cbn in *; [|discriminate]. rewrite (agree _ _ _ El). destruct c.
  - destruct (merge_x le n (n_next s a) la (Some b) lb s) as (u & [(f', g')|]) eqn:Em; cbn in *; [|discriminate]. apply IH in Em. rewrite Em. cbn.
    destruct f' as [c|]; cbn in *; [|discriminate]. congruence.
  - destruct (merge_x le n (Some a) la (n_next s b) lb s) as (u & [(f', g')|]) eqn:Em; cbn in *; [|discriminate]. apply IH in Em. rewrite Em. cbn.
    destruct f' as [c|]; cbn in *; [|discriminate]. congruence.
Qed.
Lemma merge_sort_x_ok : forall n first cl (s t : gl) f g, merge_sort_x le n first cl s = (t, Ok (f, g)) -> merge_sort_nodes leb n first cl s = Ok (f, g, t).
Proof.
  induction n as [|n IH]; intros first cl s t f g E; destruct first as [a|]; cbn in E |- *; try congruence; destruct (n_next s a) as [b|] eqn:En; try congruence.
  destruct (split_nodes a cl s) as [(fb, u)|]; cbn in *; [|discriminate].
  destruct (merge_sort_x le n (Some a) false u) as (t1 & [(f1, l1)|]) eqn:E1; cbn in *; [|discriminate]. apply IH in E1. rewrite E1. cbn.
  destruct (merge_sort_x le n fb false t1) as (t2 & [(f2, l2)|]) eqn:E2; cbn in *; [|discriminate]. apply IH in E2. rewrite E2. cbn.
  now apply merge_x_ok.
Qed.

(** A merge that raises has changed nothing, and raises what a comparison raised. *)
Lemma merge_x_err : forall n la lb (s : gl) ea eb f g u, fw (n_next s) la None -> fw (n_next s) lb None -> merge_sublists leb n (entry la None) ea (entry lb None) eb s = Ok (f, g, u) ->
  forall t q, merge_x le n (entry la None) ea (entry lb None) eb s = (t, Err q) -> t = s /\ clash s (la ++ lb) q.
Proof.
  induction n as [|n IH]; intros la lb s ea eb f g u Fa Fb Hs t q E.
  - destruct la as [|a la]; [cbn in E; destruct lb; discriminate|]. destruct lb as [|b lb]; [cbn in E; discriminate|]. cbn in Hs. discriminate.
  - destruct la as [|a la]; [cbn in E; destruct lb; discriminate|]. destruct lb as [|b lb]; [cbn in E; discriminate|].
    cbn [entry merge_sublists merge_x] in *.
    destruct (value s a) as [x|] eqn:Ex; cbn [bind look] in *; [|discriminate]. destruct (value s b) as [y|] eqn:Ey; cbn [bind look] in *; [|discriminate].
    unfold value in Ex, Ey. destruct (n_val s a) as [x'|] eqn:Ex'; cbn in Ex; [|discriminate]. destruct (n_val s b) as [y'|] eqn:Ey'; cbn in Ey; [|discriminate]. inv Ex. inv Ey.
    destruct (le x y) as [c|q'] eqn:El; cbn [look] in E.
    2:{ inv E. split; auto. exists a, b, x, y. rewrite !in_app_iff. cbn. tauto. }
    rewrite (agree _ _ _ El) in Hs. destruct Fa as (Ea & Fa). destruct Fb as (Eb & Fb).
    destruct c.
    + rewrite Ea in *. destruct (merge_sublists leb n (entry la None) ea (Some b) eb s) as [((f', g'), u')|] eqn:Em; cbn [bind] in Hs; [|discriminate].
      destruct (merge_x le n (entry la None) ea (Some b) eb s) as (w & [(f2, g2)|q2]) eqn:Ex2; cbn [after] in E.
      * pose proof (merge_x_ok _ _ _ _ _ _ _ _ _ Ex2) as X. rewrite Em in X. inv X. cbn [fst snd] in *. destruct f2 as [c|]; cbn in Hs, E; discriminate.
      * inv E. destruct (IH la (b :: lb) s ea eb _ _ _ Fa (conj Eb Fb) Em _ _ Ex2) as (-> & (a' & b' & x' & y' & I1 & I2 & H)). split; auto.
        exists a', b', x', y'. cbn. tauto.
    + rewrite Eb in *. destruct (merge_sublists leb n (Some a) ea (entry lb None) eb s) as [((f', g'), u')|] eqn:Em; cbn [bind] in Hs; [|discriminate].
      destruct (merge_x le n (Some a) ea (entry lb None) eb s) as (w & [(f2, g2)|q2]) eqn:Ex2; cbn [after] in E.
      * pose proof (merge_x_ok _ _ _ _ _ _ _ _ _ Ex2) as X. rewrite Em in X. inv X. cbn [fst snd] in *. destruct f2 as [c|]; cbn in Hs, E; discriminate.
      * inv E. destruct (IH (a :: la) lb s ea eb _ _ _ (conj Ea Fa) Fb Em _ _ Ex2) as (-> & (a' & b' & x' & y' & I1 & I2 & H)). split; auto.
        exists a', b', x', y'. rewrite !in_app_iff in *. cbn in *. tauto.
Qed.

(** What a sort leaves as it is, whether it raises or not. *)
Definition keeps (s t : gl) : Prop :=
  g_first t = g_first s /\ g_last t = g_last s /\ g_fhead t = g_fhead s /\ g_lhead t = g_lhead s /\ g_gcnt t = g_gcnt s /\
  forall a, (n_head t a = n_head s a /\ n_nh t a = n_nh s a) \/ (n_head t a = false /\ n_nh t a = None).
Lemma keeps_refl : forall s, keeps s s.
Proof. intros s. do 5 (split; [reflexivity|]). auto. Qed.
Lemma keeps_trans : forall s t u, keeps s t -> keeps t u -> keeps s u.
Proof.
  intros s t u (A1 & A2 & A3 & A4 & A5 & A6) (B1 & B2 & B3 & B4 & B5 & B6). do 5 (split; [congruence|]).
  intros a. destruct (B6 a) as [(H1 & H2)|H]; [|auto]. rewrite H1, H2. apply A6.
Qed.
Lemma keeps_next : forall s a p, keeps s (set_next a p s).
Proof. intros. do 5 (split; [reflexivity|]). cbn. auto. Qed.
Lemma keeps_prev : forall s a p, keeps s (set_prev a p s).
Proof. intros. do 5 (split; [reflexivity|]). cbn. auto. Qed.
Lemma keeps_clear : forall cl a s, keeps s (clear_if cl a s).
Proof.
  intros [|] a s; [|apply keeps_refl]. do 5 (split; [reflexivity|]). intros b. cbn. unfold upd. destruct (b =? a)%nat; auto.
Qed.
Lemma split_loop_keeps : forall n cl slow fast s q t, split_loop n cl slow fast s = Ok (q, t) -> keeps s t.
Proof.
  induction n as [|n IH]; intros cl slow fast s q t E; destruct fast as [f|]; cbn in E; try discriminate; try (inv E; apply keeps_refl).
  destruct (n_next (clear_if cl f s) f) as [f'|].
  - destruct (deref _) as [c|]; cbn in E; [|discriminate]. apply IH in E. eapply keeps_trans; [apply (keeps_clear cl f)|].
    eapply keeps_trans; [apply (keeps_clear cl f')|]. exact E.
  - apply IH in E. eapply keeps_trans; [apply (keeps_clear cl f)|]. exact E.
Qed.
Lemma split_nodes_keeps : forall a cl s q t, split_nodes a cl s = Ok (q, t) -> keeps s t.
Proof.
  intros a cl s q t E. unfold split_nodes in E. destruct (split_loop _ _ _ _ _) as [(sl, u)|] eqn:El; cbn in E; [|discriminate].
  destruct (deref _) as [c|]; cbn in E; [|discriminate]. inv E. apply split_loop_keeps in El.
  eapply keeps_trans; [apply (keeps_clear cl a)|]. eapply keeps_trans; [exact El|].
  eapply keeps_trans; [apply keeps_next|apply keeps_prev].
Qed.
Lemma merge_x_keeps : forall n fa la fb lb (s t : gl) q, merge_x le n fa la fb lb s = (t, q) -> keeps s t.
Proof.
  induction n as [|n IH]; intros fa la fb lb s t q E; destruct fa as [a|], fb as [b|]; cbn in E; try (inv E; apply keeps_refl).
  destruct (value s a) as [x|]; cbn in E; [|inv E; apply keeps_refl]. destruct (value s b) as [y|]; cbn in E; [|inv E; apply keeps_refl].
  destruct (le x y) as [[|]|]; cbn in E; [| |inv E; apply keeps_refl].
  - destruct (merge_x le n (n_next s a) la (Some b) lb s) as (u & [(f', g')|]) eqn:Em; cbn in E; [|inv E; now apply IH in Em].
    apply IH in Em. eapply keeps_trans; [exact Em|]. destruct f' as [c|]; cbn in E; inv E; [|apply keeps_next].
    eapply keeps_trans; [apply keeps_next|]. eapply keeps_trans; [apply keeps_prev|apply keeps_prev].
  - destruct (merge_x le n (Some a) la (n_next s b) lb s) as (u & [(f', g')|]) eqn:Em; cbn in E; [|inv E; now apply IH in Em].
    apply IH in Em. eapply keeps_trans; [exact Em|]. destruct f' as [c|]; cbn in E; inv E; [|apply keeps_next].
    eapply keeps_trans; [apply keeps_next|]. eapply keeps_trans; [apply keeps_prev|apply keeps_prev].
Qed.
Lemma merge_sort_x_keeps : forall n first cl (s t : gl) q, merge_sort_x le n first cl s = (t, q) -> keeps s t.
Proof.
  induction n as [|n IH]; intros first cl s t q E; destruct first as [a|]; cbn in E; try (inv E; apply keeps_refl);
    destruct (n_next s a) as [b|] eqn:En; try (inv E; apply keeps_refl).
  destruct (split_nodes a cl s) as [(fb, u)|] eqn:Es; cbn in E; [|inv E; apply keeps_refl]. apply split_nodes_keeps in Es.
  eapply keeps_trans; [exact Es|].
  destruct (merge_sort_x le n (Some a) false u) as (t1 & [(f1, l1)|]) eqn:E1; cbn in E; [|inv E; now apply IH in E1].
  apply IH in E1. eapply keeps_trans; [exact E1|].
  destruct (merge_sort_x le n fb false t1) as (t2 & [(f2, l2)|]) eqn:E2; cbn in E; [|inv E; now apply IH in E2].
  apply IH in E2. eapply keeps_trans; [exact E2|]. now apply merge_x_keeps in E.
Qed.

(** A sort that raises leaves a chain of the first half that begins with the first node, and one of the second half that ends
    with the last node. *)
Lemma merge_sort_x_err : forall n l (s : gl) cl, fw (n_next s) l None -> bw (n_prev s) None l -> NoDup l -> (length l <= fresh s)%nat ->
  set_value s l -> (length l <= n)%nat -> forall t q, merge_sort_x le n (entry l None) cl s = (t, Err q) ->
  let k := Nat.div2 (S (length l)) in
  (2 <= length l)%nat /\ clash s l q /\ quiet s t /\ frame l s t /\ (cl = true -> forall a, In a l -> n_head t a = false) /\
  (exists a l0 m, l = a :: l0 /\ fw (n_next t) (a :: m) None /\ NoDup (a :: m) /\ incl (a :: m) (firstn k l)) /\
  (exists z l0 m, l = l0 ++ [z] /\ bw (n_prev t) None (m ++ [z]) /\ NoDup (m ++ [z]) /\ incl (m ++ [z]) (skipn k l)).
Proof.
  induction n as [|n IH]; intros l s cl F B N Hl V Hn t q E k.
  - destruct l; [|cbn in Hn; lia]. cbn in E. discriminate.
  - destruct l as [|a [|b l]]; [cbn in E; discriminate|cbn in E; destruct F as (En & _); rewrite En in E; cbn in E; discriminate|].
    set (L := a :: b :: l) in *. 
    destruct (split_nodes_rep s a b l cl F B N Hl) as (u & Es & F1 & B1 & F2 & B2 & Q & Fr & Dh).
    destruct (half_bounds a b l) as (Hb1 & Hb2).
    change (a :: b :: l) with L in Es, F1, B1, F2, B2, Fr, Dh, Hb1, Hb2.
    change (Nat.div2 (S (length L))) with k in Es, F1, B1, F2, B2, Hb1, Hb2.
    assert (Ens : n_next s a = Some b) by apply F.
    unfold L at 1 in E. cbn [merge_sort_x entry] in E. rewrite Ens, Es in E. cbn [look fst snd] in E.
    pose proof (firstn_skipn k L) as EL. pose proof N as N0. pose proof V as V0. rewrite <- EL in N, V. apply nodup_app in N. destruct N as (N1 & N2 & Hd).
    apply Forall_app in V. destruct V as (V1 & V2).
    pose proof Q as Q0. destruct Q as (Q1 & Q2 & Q3 & Q4 & Q5).
    assert (Hk1 : (length (firstn k L) = k)%nat) by (rewrite firstn_length; lia).
    assert (Hk2 : (length (skipn k L) = length L - k)%nat) by (apply skipn_length).
    assert (Hfa : Some a = entry (firstn k L) None) by (unfold L; destruct k; [lia|reflexivity]).
    assert (Ha : exists l1, firstn k L = a :: l1) by (unfold L; destruct k; [lia|eexists; reflexivity]).
    destruct Ha as (l1 & Ha).
    assert (Hz : exists z l2, skipn k L = l2 ++ [z]).
    { destruct (exists_last (l := skipn k L)) as (l2 & z & H); [intros H; rewrite H in Hk2; cbn [length] in Hk2; lia|]. exists z, l2. exact H. }
    destruct Hz as (z & l2 & Hz).
    assert (ELz : L = (firstn k L ++ l2) ++ [z]) by (rewrite <- app_assoc, <- Hz; auto).
    assert (In1 : forall x, In x (firstn k L) -> In x L) by (intros x Hx; rewrite <- EL; apply in_app_iff; auto).
    assert (In2 : forall x, In x (skipn k L) -> In x L) by (intros x Hx; rewrite <- EL; apply in_app_iff; auto).
    split; [unfold L; cbn; lia|].
    rewrite Hfa in E. destruct (merge_sort_x le n (entry (firstn k L) None) false u) as (t1 & [(f1, e1)|q1]) eqn:E1; cbn [after] in E.
    + pose proof (merge_sort_x_ok _ _ _ _ _ _ _ E1) as E1'.
      destruct (merge_sort_rep leb n (firstn k L) u false F1 B1 N1) as (t1' & X1 & F3 & B3 & (R1 & R2 & R3 & R4 & R5) & Fr1 & _).
      { rewrite Q3. lia. } { now apply (set_value_ext s). } { lia. }
      rewrite E1' in X1. injection X1 as -> -> <-.
      set (m1 := merge_sort (nleb leb (n_val u)) n (firstn k L)) in *.
      assert (P1 : Permutation m1 (firstn k L)).
      { unfold m1. clear. generalize (nleb leb (n_val u)) as f. intros f. generalize (firstn k L) as z. revert n. induction n as [|n IH]; intros z; auto.
        destruct z as [|c [|d z]]; auto. cbn [merge_sort]. rewrite merge_perm, !IH, firstn_skipn. reflexivity. }
      assert (F2' : fw (n_next t1) (skipn k L) None).
      { eapply fw_ext; [|exact F2]. intros x Hx. apply Fr1. intros H. now apply (Hd x). }
      assert (B2' : bw (n_prev t1) None (skipn k L)).
      { eapply bw_ext; [|exact B2]. intros x Hx. apply Fr1. intros H. now apply (Hd x). }
      assert (Hla : exists m, fw (n_next t1) (a :: m) None /\ NoDup (a :: m) /\ incl (a :: m) (firstn k L)).
      { assert (Hi : In a m1) by (apply (Permutation_in _ (Permutation_sym P1)); rewrite Ha; now left).
        apply in_split in Hi. destruct Hi as (p & m & Ep). exists m. rewrite Ep in F3. apply fw_app in F3. destruct F3 as (_ & F3).
        split; [exact F3|]. assert (Nm : NoDup m1) by (eapply Permutation_NoDup; [symmetry; exact P1|auto]). rewrite Ep in Nm. apply nodup_app in Nm.
        split; [tauto|]. intros x Hx. apply (Permutation_in _ P1). rewrite Ep. apply in_app_iff. auto. }
      destruct Hla as (ma & Hma1 & Hma2 & Hma3).
      destruct (merge_sort_x le n (entry (skipn k L) None) false t1) as (t2 & [(f2, e2)|q2]) eqn:E2; cbn [fst snd after] in *.
      * pose proof (merge_sort_x_ok _ _ _ _ _ _ _ E2) as E2'.
        destruct (merge_sort_rep leb n (skipn k L) t1 false) as (t2' & X2 & F4 & B4 & (S1 & S2 & S3 & S4 & S5) & Fr2 & _); auto.
        { rewrite R3, Q3. lia. } { apply (set_value_ext s); auto. congruence. } { lia. }
        rewrite E2' in X2. injection X2 as -> -> <-. set (m2 := merge_sort (nleb leb (n_val t1)) n (skipn k L)) in *.
        assert (P2 : Permutation m2 (skipn k L)).
        { unfold m2. clear. generalize (nleb leb (n_val t1)) as f. intros f. generalize (skipn k L) as z. revert n. induction n as [|n IH]; intros z; auto.
          destruct z as [|c [|d z]]; auto. cbn [merge_sort]. rewrite merge_perm, !IH, firstn_skipn. reflexivity. }
        assert (PL : Permutation (m1 ++ m2) L) by (rewrite P1, P2, EL; reflexivity).
        assert (F3' : fw (n_next t2) m1 None).
        { eapply fw_ext; [|exact F3]. intros x Hx. apply Fr2. intros H. apply (Hd x); auto. now apply (Permutation_in _ P1). }
        assert (B3' : bw (n_prev t2) None m1).
        { eapply bw_ext; [|exact B3]. intros x Hx. apply Fr2. intros H. apply (Hd x); auto. now apply (Permutation_in _ P1). }
        destruct (merge_rep leb (fresh t2) m1 m2 t2 None None (exit None m1) (exit None m2)) as (w & ee & p & E3 & _); auto.
        { eapply Permutation_NoDup; [symmetry; exact PL|]. rewrite <- EL. apply nodup_app. auto. }
        { eapply Forall_forall. intros x Hx. apply (Permutation_in _ P1) in Hx. rewrite S1, R1, Q1. unfold set_value in V1. rewrite Forall_forall in V1. auto. }
        { eapply Forall_forall. intros x Hx. apply (Permutation_in _ P2) in Hx. rewrite S1, R1, Q1. unfold set_value in V2. rewrite Forall_forall in V2. auto. }
        { rewrite (Permutation_length PL), S3, R3, Q3. auto. }
        destruct (merge_x_err _ _ _ _ _ _ _ _ _ F3' F4 E3 _ _ E) as (-> & (a' & b' & x' & y' & I1 & I2 & I3 & I4 & I5)).
        split; [|split; [|split; [|split; [|split]]]].
        -- exists a', b', x', y'. split; [now apply (Permutation_in _ PL)|]. split; [now apply (Permutation_in _ PL)|].
           rewrite S1, R1, Q1 in *. auto.
        -- repeat split; try congruence. auto.
        -- intros x Hx. destruct (Fr2 x) as (-> & ->); [auto|]. destruct (Fr1 x) as (-> & ->); [auto|]. now apply Fr.
        -- intros Hc x Hx. apply S5, R5. auto.
        -- exists a, (b :: l), ma. split; [reflexivity|]. split; [|auto].
           eapply fw_ext; [|exact Hma1]. intros x Hx. apply Fr2. intros H. apply (Hd x); auto.
        -- assert (Hi : In z m2) by (apply (Permutation_in _ (Permutation_sym P2)); rewrite Hz; apply in_app_iff; cbn; auto).
           apply in_split in Hi. destruct Hi as (m & p' & Ep). exists z, (firstn k L ++ l2), m. split; [exact ELz|].
           assert (Nm : NoDup m2) by (eapply Permutation_NoDup; [symmetry; exact P2|auto]). replace (m ++ z :: p') with ((m ++ [z]) ++ p') in Ep by (rewrite <- app_assoc; reflexivity).
           rewrite Ep in B4, Nm. apply bw_app in B4. apply nodup_app in Nm. split; [tauto|]. split; [tauto|].
           intros x Hx. apply (Permutation_in _ P2). rewrite Ep. apply in_app_iff. auto.
      * inv E. destruct (IH (skipn k L) t1 false) with (t := t) (q := q) as (_ & (a' & b' & x' & y' & I1 & I2 & I3 & I4 & I5) & (S1 & S2 & S3 & S4 & S5) & Fr2 & _ & _ & (z' & l0 & m & Ez & Bz & Nz & Iz)); auto.
        { rewrite R3, Q3. lia. } { apply (set_value_ext s); auto. congruence. } { lia. }
        split; [|split; [|split; [|split; [|split]]]].
        -- exists a', b', x', y'. rewrite R1, Q1 in *. auto.
        -- repeat split; try congruence. auto.
        -- intros x Hx. destruct (Fr2 x) as (-> & ->); [auto|]. destruct (Fr1 x) as (-> & ->); [auto|]. now apply Fr.
        -- intros Hc x Hx. apply S5, R5. auto.
        -- exists a, (b :: l), ma. split; [reflexivity|]. split; [|auto].
           eapply fw_ext; [|exact Hma1]. intros x Hx. apply Fr2. intros H. apply (Hd x); auto.
        -- rewrite Hz in Ez. apply app_inj_tail in Ez. destruct Ez as (-> & ->). exists z', (firstn k L ++ l0), m. split; [exact ELz|]. split; auto. split; auto.
           intros x Hx. apply Iz in Hx. rewrite <- (firstn_skipn (Nat.div2 (S (length (skipn k L)))) (skipn k L)). apply in_app_iff. auto.
    + inv E. destruct (IH (firstn k L) u false F1 B1 N1) with (t := t) (q := q) as (_ & (a' & b' & x' & y' & I1 & I2 & I3 & I4 & I5) & (R1 & R2 & R3 & R4 & R5) & Fr1 & _ & (a2 & l0 & m & Ea & Fm & Nm & Im) & _); auto.
      { rewrite Q3. lia. } { now apply (set_value_ext s). } { lia. }
      split; [|split; [|split; [|split; [|split]]]].
      * exists a', b', x', y'. rewrite Q1 in *. auto.
      * repeat split; try congruence. auto.
      * intros x Hx. destruct (Fr1 x) as (-> & ->); [auto|]. now apply Fr.
      * intros Hc x Hx. apply R5. auto.
      * rewrite Ha in Ea. inv Ea. exists a2, (b :: l), m. split; [reflexivity|]. split; auto. split; auto.
        intros x Hx. apply Im in Hx. rewrite <- (firstn_skipn (Nat.div2 (S (length (firstn k L)))) (firstn k L)). apply in_app_iff. auto.
      * exists z, (firstn k L ++ l2), l2. rewrite <- Hz. split; [exact ELz|]. split; [|split; [auto|apply incl_refl]].
        eapply bw_ext; [|exact B2]. intros x Hx. apply Fr1. intros H. now apply (Hd x).
Qed.
End SortX.

Lemma incl_rest : forall {B} (l m : list B), NoDup l -> incl l m -> exists r, Permutation (l ++ r) m.
Proof.
  intros B l. induction l as [|a l IH]; intros m N I; [exists m; reflexivity|]. inv N.
  destruct (in_split a m) as (m1 & m2 & ->); [apply I; now left|].
  destruct (IH (m1 ++ m2)) as (r & P); auto.
  - intros x Hx. assert (X : In x (m1 ++ a :: m2)) by (apply I; now right). rewrite in_app_iff in *. cbn in X. destruct X as [X|[X|X]]; auto. subst. contradiction.
  - exists r. cbn. rewrite P. apply Permutation_middle.
Qed.

Section SortList.
Context {A : Type}.
Notation gl := (glist A).

(** Nodes with the values of a sublist. *)
Lemma F2_pick : forall (v : nat -> option A) ns xs, Forall2 (fun a x => v a = Some x) ns xs -> forall l, incl l ns -> exists ys, Forall2 (fun a x => v a = Some x) l ys.
Proof.
  intros v ns xs H l. induction l as [|a l IH]; intros I; [exists []; constructor|].
  destruct IH as (ys & Hy); [intros x Hx; apply I; now right|].
  assert (X : exists x, v a = Some x).
  { assert (Ha : In a ns) by (apply I; now left). clear - H Ha. induction H; [contradiction|]. destruct Ha as [->|Ha]; eauto. }
  destruct X as (x & Hx). exists (x :: ys). constructor; auto.
Qed.
Lemma F2_same : forall (v : nat -> option A) l xs ys, Forall2 (fun a x => v a = Some x) l xs -> Forall2 (fun a x => v a = Some x) l ys -> xs = ys.
Proof.
  intros v l xs ys H. revert ys. induction H as [|a x l xs Hx H IH]; intros ys H2; inv H2; auto. f_equal; [congruence|auto].
Qed.
Lemma F2_perm : forall (v : nat -> option A) l m, Permutation l m -> forall xs ys, Forall2 (fun a x => v a = Some x) l xs -> Forall2 (fun a x => v a = Some x) m ys -> Permutation xs ys.
Proof.
  intros v l m P. induction P; intros xs ys H1 H2.
  - inv H1. inv H2. constructor.
  - inv H1. inv H2. assert (y = y0) by congruence. subst. constructor. auto.
  - inversion H1 as [|? y1 ? zs A1 A2]; subst. inversion A2 as [|? x1 ? us A3 A4]; subst.
    inversion H2 as [|? x2 ? ws B1 B2]; subst. inversion B2 as [|? y2 ? ts B3 B4]; subst.
    assert (y1 = y2) by congruence. assert (x1 = x2) by congruence. assert (us = ts) by exact (F2_same v _ _ _ A4 B4). subst. constructor.
  - destruct (F2_pick v _ _ H1 l') as (zs & Hz).
    { intros x Hx. apply (Permutation_in _ (Permutation_sym P1)). exact Hx. }
    transitivity zs; eauto.
Qed.

(** The list of which a sort has left such chains. *)
Lemma torn_rep : forall (s u : gl) ns g, rep s ns g -> let xs := items g in let k := Nat.div2 (S (length xs)) in let l := concat ns in
  keeps s u -> quiet s u -> (forall a, In a l -> n_head u a = false) ->
  (exists a l0 m, l = a :: l0 /\ fw (n_next u) (a :: m) None /\ NoDup (a :: m) /\ incl (a :: m) (firstn (Nat.div2 (S (length l))) l)) ->
  (exists z l0 m, l = l0 ++ [z] /\ bw (n_prev u) None (m ++ [z]) /\ NoDup (m ++ [z]) /\ incl (m ++ [z]) (skipn (Nat.div2 (S (length l))) l)) ->
  exists front back r1 r2, g_iter u = Ok front /\ g_reversed u = Ok (rev back) /\
     front <> [] /\ back <> [] /\ hd_error front = hd_error xs /\ hd_error (rev back) = hd_error (rev xs) /\
     Permutation (front ++ r1) (firstn k xs) /\ Permutation (back ++ r2) (skipn k xs) /\
     g_cnt u = g_cnt s /\ g_gcnt u = g_gcnt s /\ to_nested_lists u = Err GroupViewErr /\
     forall a, In a (concat ns) -> view_iter (Some a) u = Err GroupViewErr.
Proof.
  intros s u ns g R xs k l (K1 & K2 & K3 & K4 & K5 & K6) (Q1 & Q2 & Q3 & Q4 & Q5) Dh (a & l0 & m & Ea & Fm & Nm & Im) (z & l0' & m' & Ez & Bm & Nm' & Im').
  unfold l in *. clear l. pose proof R as (L & G & V). pose proof (concat_F2 _ _ _ V) as F2. fold (items g) in F2. fold xs in F2. pose proof (linked_len _ _ L) as Hn.
    assert (Hlen : length (concat ns) = length xs) by (eapply Forall2_length; eauto). rewrite Hlen in *. fold k in Im, Im'.
    destruct (incl_rest _ _ Nm Im) as (r & Pr). destruct (incl_rest _ _ Nm' Im') as (r' & Pr').
    assert (Hsub : forall x, In x (firstn k (concat ns)) \/ In x (skipn k (concat ns)) -> In x (concat ns)).
    { intros x Hx. rewrite <- (firstn_skipn k (concat ns)). now apply in_app_iff. }
    destruct (F2_pick _ _ _ F2 (a :: m)) as (front & Hf). { intros x Hx. apply Hsub. auto. }
    destruct (F2_pick _ _ _ F2 r) as (r1 & Hr1). { intros x Hx. apply Hsub. left. apply (Permutation_in _ Pr). apply in_app_iff. auto. }
    destruct (F2_pick _ _ _ F2 (m' ++ [z])) as (back & Hb). { intros x Hx. apply Hsub. auto. }
    destruct (F2_pick _ _ _ F2 r') as (r2 & Hr2). { intros x Hx. apply Hsub. right. apply (Permutation_in _ Pr'). apply in_app_iff. auto. }
    assert (Bd : forall l', NoDup l' -> incl l' (concat ns) -> (length l' <= fresh u)%nat).
    { intros l' N' I'. rewrite Q3. apply nodup_bound; auto. pose proof (k_lt _ _ L) as H. rewrite Forall_forall in *. intros x Hx. apply H. auto. }
    assert (Lm : (length (a :: m) <= fresh u)%nat) by (apply Bd; auto; intros x Hx; apply Hsub; auto).
    assert (Lm' : (length (m' ++ [z]) <= fresh u)%nat) by (apply Bd; auto; intros x Hx; apply Hsub; auto).
    exists front, back, r1, r2.
    split.
    { unfold g_iter, node_iter. rewrite K1, (k_first _ _ L), Ea. cbn [entry]. change (Some a) with (entry (a :: m) None). rewrite trail_fw; auto. cbn [bind].
      apply values_F2. rewrite Q1. exact Hf. }
    split.
    { unfold g_reversed. rewrite K2, (k_last _ _ L), Ez, exit_snoc. replace (Some z) with (exit None (m' ++ [z])) by apply exit_snoc. rewrite trail_bw; auto. cbn [bind].
      apply values_F2. rewrite Q1. now apply F2_rev. }
    assert (Hne : front <> []) by (intros ->; inv Hf).
    assert (Hnb : back <> []) by (intros ->; apply Forall2_length in Hb; rewrite app_length in Hb; cbn in Hb; lia).
    split; auto. split; auto. split.
    { rewrite Ea in F2. inv F2. inv Hf. cbn. congruence. }
    split.
    { rewrite Ez in F2. apply F2_rev in F2. apply F2_rev in Hb. rewrite rev_app_distr in F2, Hb. cbn [rev app] in F2, Hb. inversion F2; subst. inversion Hb; subst. cbn. congruence. }
    split. { eapply F2_perm; [exact Pr|apply Forall2_app; eauto|]. apply F2_firstn. exact F2. }
    split. { eapply F2_perm; [exact Pr'|apply Forall2_app; eauto|]. apply F2_skipn. exact F2. }
    split; [exact Q4|]. split; [exact K5|].
    assert (Hgone : forall c, In c (concat ns) -> view_iter (Some c) u = Err GroupViewErr).
    { intros c Hc. unfold view_iter, view_nodes, check_view. cbn [deref bind]. rewrite Dh by auto. reflexivity. }
    split; [|exact Hgone].
    unfold to_nested_lists, group_heads. rewrite K3, (k_fhead _ _ G).
    destruct ns as [|[|c p] ns']; [discriminate|exfalso; pose proof (k_ne _ _ G) as X; inv X; congruence|].
    cbn [concat app] in Ea. injection Ea as -> _. cbn [heads map entry hd_error].
    assert (Hh : n_head s a = true) by (pose proof (k_head _ _ G) as X; inv X; unfold headed in *; tauto).
    assert (Hin : In a (concat ((a :: p) :: ns'))) by now left.
    destruct (K6 a) as [(X & _)|(_ & X)]; [rewrite Dh, Hh in X by auto; discriminate|].
    assert (Et : trail (n_nh u) (fresh u) (entry (heads ((a :: p) :: ns')) None) = Ok [a]).
    { replace (entry (heads ((a :: p) :: ns')) None) with (Some a) by reflexivity. destruct (fresh u) as [|n]; [cbn in Lm; lia|]. cbn. rewrite X. destruct n; reflexivity. }
    rewrite Et. cbn [bind mapM]. rewrite Hgone by auto. reflexivity.
Qed.


Variable le : A -> A -> res bool.
Variable leb : A -> A -> bool.
Hypothesis agree : forall x y b, le x y = Ok b -> leb x y = b.

Lemma sort_x_rep : forall (s : gl) ns g, rep s ns g -> let xs := items g in let k := Nat.div2 (S (length xs)) in
  (exists t, sort_x le s = (t, Ok tt) /\ sort leb s = Ok t) \/
  (exists t q front back r1 r2, sort_x le s = (t, Err q) /\ (exists x y, In x xs /\ In y xs /\ le x y = Err q) /\ (2 <= length xs)%nat /\
     g_iter t = Ok front /\ g_reversed t = Ok (rev back) /\
     front <> [] /\ back <> [] /\ hd_error front = hd_error xs /\ hd_error (rev back) = hd_error (rev xs) /\
     Permutation (front ++ r1) (firstn k xs) /\ Permutation (back ++ r2) (skipn k xs) /\
     g_cnt t = g_cnt s /\ g_gcnt t = g_gcnt s /\ to_nested_lists t = Err GroupViewErr /\
     forall a, In a (concat ns) -> view_iter (Some a) t = Err GroupViewErr).
Proof.
  intros s ns g R xs k. pose proof R as (L & G & V). pose proof (concat_F2 _ _ _ V) as F2. fold (items g) in F2. fold xs in F2. pose proof (linked_len _ _ L) as Hn.
  assert (Sv : set_value s (concat ns)).
  { clear - F2. induction F2; constructor; eauto. }
  unfold sort_x. rewrite (k_first _ _ L).
  destruct (merge_sort_x le (fresh s) (entry (concat ns) None) true s) as (u & [(f, l)|q]) eqn:E; cbn [after].
  - left. pose proof (merge_sort_x_ok le leb agree _ _ _ _ _ _ _ E) as E'. destruct (sort_rep leb s ns g R) as (t & Et & _).
    exists t. split; [|exact Et]. unfold sort in Et. rewrite (k_first _ _ L), E' in Et. cbn [bind] in Et. cbn [fst snd]. rewrite Et. reflexivity.
  - right. pose proof (merge_sort_x_keeps _ _ _ _ _ _ _ E) as (K1 & K2 & K3 & K4 & K5 & K6).
    destruct (merge_sort_x_err le leb agree _ _ _ _ (k_next _ _ L) (k_prev _ _ L) (k_nodup _ _ L) Hn Sv Hn _ _ E)
      as (H2 & (a1 & b1 & x1 & y1 & I1 & I2 & I3 & I4 & I5) & Q & Fr & Dh & Ha & Hz).
    pose proof (merge_sort_x_keeps _ _ _ _ _ _ _ E) as K.
    destruct (torn_rep s u ns g R K Q (Dh eq_refl) Ha Hz) as (front & back & r1 & r2 & T).
    assert (Hlen : length (concat ns) = length xs) by (eapply Forall2_length; eauto).
    assert (Hval : forall c, In c (concat ns) -> exists x, n_val s c = Some x /\ In x xs).
    { clear - F2. intros c Hc. induction F2; [contradiction|]. destruct Hc as [->|Hc]; [exists y; split; cbn; auto|]. destruct (IHF2 Hc) as (w & H1 & H2). exists w. cbn. auto. }
    exists u, q, front, back, r1, r2. split; [reflexivity|]. split.
    { destruct (Hval _ I1) as (x1' & Hx1 & Hi1). destruct (Hval _ I2) as (y1' & Hy1 & Hi2). exists x1, y1.
      rewrite I3 in Hx1. rewrite I4 in Hy1. inv Hx1. inv Hy1. auto. }
    split; [rewrite <- Hlen; exact H2|exact T].
Qed.

(** A sort that raises nothing has compared items of all kinds. *)
Variable K : Type.
Variable kind : A -> K.
Hypothesis kinds : forall x y b, le x y = Ok b -> kind x = kind y.
Definition one_kind (s : gl) (l : list nat) : Prop :=
  forall a b x y, In a l -> In b l -> n_val s a = Some x -> n_val s b = Some y -> kind x = kind y.
Lemma merge_sort_x_kinds : forall n l (s : gl) cl, fw (n_next s) l None -> bw (n_prev s) None l -> NoDup l -> (length l <= fresh s)%nat ->
  set_value s l -> (length l <= n)%nat -> forall t f g, merge_sort_x le n (entry l None) cl s = (t, Ok (f, g)) -> one_kind s l.
Proof.
  induction n as [|n IH]; intros l s cl F B N Hl V Hn t f g E.
  - destruct l; [|cbn in Hn; lia]. intros a b x y [].
  - destruct l as [|a [|b l]]; [intros a b x y []|intros c d x y [<-|[]] [<-|[]] Hx Hy; congruence|].
    set (L := a :: b :: l) in *. set (k := Nat.div2 (S (length L))).
    destruct (split_nodes_rep s a b l cl F B N Hl) as (u & Es & F1 & B1 & F2 & B2 & Q & Fr & Dh).
    destruct (half_bounds a b l) as (Hb1 & Hb2).
    change (a :: b :: l) with L in Es, F1, B1, F2, B2, Fr, Dh, Hb1, Hb2.
    change (Nat.div2 (S (length L))) with k in Es, F1, B1, F2, B2, Hb1, Hb2.
    assert (Ens : n_next s a = Some b) by apply F.
    unfold L at 1 in E. cbn [merge_sort_x entry] in E. rewrite Ens, Es in E. cbn [look fst snd] in E.
    pose proof (firstn_skipn k L) as EL. rewrite <- EL in N, V. apply nodup_app in N. destruct N as (N1 & N2 & Hd).
    apply Forall_app in V. destruct V as (V1 & V2).
    destruct Q as (Q1 & Q2 & Q3 & Q4 & Q5).
    assert (Hk1 : (length (firstn k L) = k)%nat) by (rewrite firstn_length; lia).
    assert (Hk2 : (length (skipn k L) = length L - k)%nat) by (apply skipn_length).
    assert (Hfa : Some a = entry (firstn k L) None) by (unfold L; destruct k; [lia|reflexivity]).
    rewrite Hfa in E. destruct (merge_sort_x le n (entry (firstn k L) None) false u) as (t1 & [(f1, e1)|q1]) eqn:E1; cbn [after] in E; [|discriminate].
    pose proof (merge_sort_x_ok le leb agree _ _ _ _ _ _ _ E1) as E1'.
    destruct (merge_sort_rep leb n (firstn k L) u false F1 B1 N1) as (t1' & X1 & F3 & B3 & (R1 & R2 & R3 & R4 & R5) & Fr1 & _).
    { rewrite Q3. lia. } { now apply (set_value_ext s). } { lia. }
    assert (O1 : one_kind s (firstn k L)).
    { assert (X : one_kind u (firstn k L)). { eapply (IH _ u false F1 B1 N1); eauto. { rewrite Q3. lia. } { now apply (set_value_ext s). } { lia. } }
      unfold one_kind in *. now rewrite Q1 in X. }
    rewrite E1' in X1. injection X1 as -> -> <-.
    set (m1 := merge_sort (nleb leb (n_val u)) n (firstn k L)) in *.
    assert (P1 : Permutation m1 (firstn k L)).
    { unfold m1. clear. generalize (nleb leb (n_val u)) as f. intros f. generalize (firstn k L) as z. revert n. induction n as [|n IH]; intros z; auto.
      destruct z as [|c [|d z]]; auto. cbn [merge_sort]. rewrite merge_perm, !IH, firstn_skipn. reflexivity. }
    assert (F2' : fw (n_next t1) (skipn k L) None).
    { eapply fw_ext; [|exact F2]. intros x Hx. apply Fr1. intros H. now apply (Hd x). }
    assert (B2' : bw (n_prev t1) None (skipn k L)).
    { eapply bw_ext; [|exact B2]. intros x Hx. apply Fr1. intros H. now apply (Hd x). }
    destruct (merge_sort_x le n (entry (skipn k L) None) false t1) as (t2 & [(f2, e2)|q2]) eqn:E2; cbn [fst snd after] in *; [|discriminate].
    pose proof (merge_sort_x_ok le leb agree _ _ _ _ _ _ _ E2) as E2'.
    assert (V2' : set_value t1 (skipn k L)) by (apply (set_value_ext s); auto; congruence).
    assert (O2 : one_kind s (skipn k L)).
    { assert (X : one_kind t1 (skipn k L)). { eapply (IH _ t1 false F2' B2' N2); eauto. { rewrite R3, Q3. lia. } { lia. } }
      unfold one_kind in *. now rewrite R1, Q1 in X. }
    destruct (merge_sort_rep leb n (skipn k L) t1 false) as (t2' & X2 & F4 & B4 & (S1 & S2 & S3 & S4 & S5) & Fr2 & _); auto.
    { rewrite R3, Q3. lia. } { lia. }
    rewrite E2' in X2. injection X2 as -> -> <-. set (m2 := merge_sort (nleb leb (n_val t1)) n (skipn k L)) in *.
    assert (P2 : Permutation m2 (skipn k L)).
    { unfold m2. clear. generalize (nleb leb (n_val t1)) as f. intros f. generalize (skipn k L) as z. revert n. induction n as [|n IH]; intros z; auto.
      destruct z as [|c [|d z]]; auto. cbn [merge_sort]. rewrite merge_perm, !IH, firstn_skipn. reflexivity. }
    assert (Hx : exists c d x y, In c (firstn k L) /\ In d (skipn k L) /\ n_val s c = Some x /\ n_val s d = Some y /\ kind x = kind y).
    { assert (E' : merge_x le (fresh t2) (entry m1 None) (exit None m1) (entry m2 None) (exit None m2) t2 = (t, Ok (f, g))) by exact E.
      clear E E1 E1' E2 E2'. rename E' into E. clearbody m1 m2. destruct m1 as [|c m1']; [apply Permutation_length in P1; cbn in P1; lia|].
      destruct m2 as [|d m2']; [apply Permutation_length in P2; rewrite Hk2 in P2; change (@length nat []) with O in P2; lia|].
      exists c, d. cbn [entry] in E. destruct (fresh t2) as [|n']; cbn [merge_x] in E; [discriminate|].
      unfold value in E. rewrite S1, R1, Q1 in E. destruct (n_val s c) as [x|] eqn:Ex; cbn [bind look] in E; [|discriminate].
      destruct (n_val s d) as [y|] eqn:Ey; cbn [bind look] in E; [|discriminate].
      destruct (le x y) as [bb|] eqn:El; cbn [look] in E; [|discriminate]. exists x, y.
      split; [apply (Permutation_in _ P1); now left|]. split; [apply (Permutation_in _ P2); now left|]. split; auto. split; auto. eapply kinds; eauto. }
    destruct Hx as (c & d & x & y & Hc & Hdd & Ex & Ey & Ek).
    intros a1 b1 x1 y1 I1 I2 H1 H2. rewrite <- EL in I1, I2. apply in_app_iff in I1. apply in_app_iff in I2.
    destruct I1 as [I1|I1], I2 as [I2|I2].
    + eapply O1; [exact I1|exact I2|auto|auto].
    + rewrite (O1 a1 c x1 x), Ek; auto. eapply O2; [exact Hdd|exact I2|auto|auto].
    + rewrite (O2 a1 d x1 y), <- Ek; auto. eapply O1; [exact Hc|exact I2|auto|auto].
    + eapply O2; [exact I1|exact I2|auto|auto].
Qed.
Lemma sort_x_kinds : forall (s : gl) ns g t, rep s ns g -> sort_x le s = (t, Ok tt) -> forall x y, In x (items g) -> In y (items g) -> kind x = kind y.
Proof.
  intros s ns g t R E x y Hx Hy. pose proof R as (L & G & V). pose proof (concat_F2 _ _ _ V) as F2. fold (items g) in F2. pose proof (linked_len _ _ L) as Hn.
  assert (Sv : set_value s (concat ns)).
  { clear - F2. induction F2; constructor; eauto. }
  unfold sort_x in E. rewrite (k_first _ _ L) in E.
  destruct (merge_sort_x le (fresh s) (entry (concat ns) None) true s) as (u & [(f, l)|q]) eqn:Em; cbn [after] in E; [|discriminate].
  pose proof (merge_sort_x_kinds _ _ _ _ (k_next _ _ L) (k_prev _ _ L) (k_nodup _ _ L) Hn Sv Hn _ _ _ Em) as O.
  assert (Hv : forall z, In z (items g) -> exists a, In a (concat ns) /\ n_val s a = Some z).
  { clear - F2. intros z Hz. induction F2; [contradiction|]. destruct Hz as [->|Hz]; [exists x; cbn; auto|]. destruct (IHF2 Hz) as (c & H1 & H2). exists c. cbn. auto. }
  destruct (Hv x Hx) as (a & Ia & Va). destruct (Hv y Hy) as (b & Ib & Vb). exact (O a b x y Ia Ib Va Vb).
Qed.
End SortList.
