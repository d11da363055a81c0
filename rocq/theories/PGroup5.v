(** * PGroup5: the merge sort on nodes (util.py 563-629). *)
From Coq Require Import List ZArith Bool Arith Lia Permutation.
From Verif Require Import Base MSeq MGroup SpecGroup PSort PGroup PGroup2 PGroup4.
Import ListNotations.

(** The sorts of related lists are related. *)
Section SortPar.
Context {B C : Type}.
Variable lb : B -> B -> bool.
Variable lc : C -> C -> bool.
Variable R : B -> C -> Prop.
Hypothesis agree : forall a b x y, R a x -> R b y -> lb a b = lc x y.
Lemma merge_par : forall l1 m1 l2 m2, Forall2 R l1 m1 -> Forall2 R l2 m2 -> Forall2 R (merge_lists lb l1 l2) (merge_lists lc m1 m2).
Proof.
  intros l1 m1 l2 m2 H1. revert l2 m2. induction H1 as [|a x l1 m1 Ha H1 IH1]; intros l2 m2 H2; [exact H2|].
  induction H2 as [|b y l2 m2 Hb H2 IH2]; [constructor; auto|].
  rewrite !merge_cons, (agree a b x y) by auto. destruct (lc x y).
  - constructor; auto.
  - constructor; auto.
Qed.
Lemma sort_par : forall n l m, Forall2 R l m -> Forall2 R (merge_sort lb n l) (merge_sort lc n m).
Proof.
  induction n as [|n IH]; intros l m H; auto. cbn [merge_sort]. destruct H as [|a x l m Ha H]; [constructor|].
  destruct H as [|b y l m Hb H]; [constructor; auto|].
  assert (E : length l = length m) by (eapply Forall2_length; eauto). cbn [length]. rewrite E.
  apply merge_par; apply IH; [apply F2_firstn|apply F2_skipn]; repeat (constructor; auto).
Qed.
End SortPar.
Lemma sort_fuel : forall {B} (leb : B -> B -> bool) n m l, (length l <= n)%nat -> (length l <= m)%nat -> merge_sort leb n l = merge_sort leb m l.
Proof.
  intros B leb. induction n as [|n IH]; intros m l Hn Hm.
  - destruct l; [|cbn in Hn; lia]. destruct m; reflexivity.
  - destruct l as [|a [|b l]]; [destruct m; reflexivity|destruct m; [cbn in Hm; lia|reflexivity]|].
    destruct m as [|m]; [cbn in Hm; lia|]. cbn [merge_sort].
    destruct (half_bounds a b l) as (H1 & H2). set (k := Nat.div2 (S (length (a :: b :: l)))) in *.
    rewrite (IH m (firstn k _)), (IH m (skipn k _)); auto; rewrite ?firstn_length, ?skipn_length; lia.
Qed.

Section Sorting.
Context {A : Type}.
Notation gl := (glist A).
Variable leb : A -> A -> bool.

(** The order of nodes by their values. *)
Definition nleb (v : nat -> option A) (a b : nat) : bool :=
  match v a, v b with Some x, Some y => leb x y | _, _ => false end.
Definition set_value (s : gl) (l : list nat) : Prop := Forall (fun a => exists x, n_val s a = Some x) l.

(** What sorting leaves as it is. *)
Definition quiet (s t : gl) : Prop :=
  n_val t = n_val s /\ n_par t = n_par s /\ fresh t = fresh s /\ g_cnt t = g_cnt s /\
  (forall a, n_head s a = false -> n_head t a = false).
Lemma quiet_refl : forall s, quiet s s.
Proof. intros s. repeat split; auto. Qed.
Lemma quiet_trans : forall s t u, quiet s t -> quiet t u -> quiet s u.
Proof. intros s t u (A1 & A2 & A3 & A4 & A5) (B1 & B2 & B3 & B4 & B5). repeat split; try congruence. auto. Qed.
Definition frame (l : list nat) (s t : gl) : Prop := forall a, ~ In a l -> n_next t a = n_next s a /\ n_prev t a = n_prev s a.

(** util.py 592-600. *)
Lemma split_loop_rep : forall n F (s : gl) cl slow R, fw (n_next s) (slow :: R ++ F) None -> (length F <= length (R ++ F))%nat -> (length F <= n)%nat ->
  exists t slow', split_loop n cl slow (entry F None) s = Ok (slow', t) /\
    nth_error (slow :: R ++ F) (Nat.div2 (length F)) = Some slow' /\
    quiet s t /\ n_next t = n_next s /\ n_prev t = n_prev s /\ (cl = true -> forall a, In a F -> n_head t a = false).
Proof.
  intros n. induction n as [n IH] using lt_wf_ind. intros F s cl slow R Hf Hl Hn.
  destruct F as [|f F].
  - exists s, slow. destruct n; cbn; split; auto; repeat split; auto; intros _ a [].
  - destruct n as [|n]; [cbn in Hn; lia|]. cbn [entry split_loop].
    set (s1 := clear_if cl f s).
    assert (H1 : quiet s s1 /\ n_next s1 = n_next s /\ n_prev s1 = n_prev s /\ (cl = true -> n_head s1 f = false)).
    { unfold s1, clear_if. destruct cl; [|split; [apply quiet_refl|repeat split; discriminate]]. repeat split; cbn.
      - intros a H. unfold upd. destruct (a =? f)%nat; auto.
      - intros _. apply upd_eq. }
    clearbody s1. destruct H1 as (Q1 & E1 & P1 & D1).
    assert (Ef : n_next s1 f = entry F None).
    { rewrite E1. change (slow :: R ++ f :: F) with ((slow :: R) ++ f :: F) in Hf. apply fw_app in Hf. destruct Hf as (_ & E & _). exact E. }
    rewrite Ef. destruct F as [|f' F].
    + cbn [entry]. destruct n; exists s1, slow; cbn; split; auto; repeat split; auto; try apply Q1; try (intros Hc a [->|[]]; auto).
    + cbn [entry]. set (s2 := clear_if cl f' s1).
      assert (H2 : quiet s1 s2 /\ n_next s2 = n_next s1 /\ n_prev s2 = n_prev s1 /\ (cl = true -> n_head s2 f' = false)).
      { unfold s2, clear_if. destruct cl; [|split; [apply quiet_refl|repeat split; discriminate]]. repeat split; cbn.
        - intros a H. unfold upd. destruct (a =? f')%nat; auto.
        - intros _. apply upd_eq. }
      clearbody s2. destruct H2 as (Q2 & E2 & P2 & D2).
      assert (Es : exists s' R', R ++ f :: f' :: F = s' :: R' ++ F /\ (length F <= length (R' ++ F))%nat).
      { destruct R as [|r R].
        - exists f, [f']. split; auto. cbn. lia.
        - exists r, (R ++ [f; f']). rewrite <- !app_assoc. split; auto. rewrite !app_length. lia. }
      destruct Es as (sl & R' & ER & HR). rewrite ER in *. destruct Hf as (Esl & Hf). cbn [entry] in Esl.
      rewrite E2, E1, Esl. cbn [deref bind].
      assert (Ef' : n_next s f' = entry F None).
      { assert (X : fw (n_next s) (R ++ f :: f' :: F) None) by (rewrite ER; exact Hf). apply fw_app in X. destruct X as (_ & _ & X & _). exact X. }
      rewrite Ef'. destruct (IH n) with (F := F) (s := s2) (cl := cl) (slow := sl) (R := R') as (t & slow' & E & Hnth & Q & En & Ep & Dh); auto.
      { rewrite E2, E1. exact Hf. }
      { cbn in Hn. lia. }
      exists t, slow'. split; auto. split; [exact Hnth|]. split; [|split; [congruence|split; [congruence|]]].
      * eapply quiet_trans; [exact Q1|]. eapply quiet_trans; eauto.
      * intros Hc a [->|[->|Ha]]; auto.
        -- apply Q, Q2. auto.
        -- apply Q. auto.
Qed.

(** util.py 584-605. *)
Lemma split_nodes_rep : forall (s : gl) a b l cl, let L := a :: b :: l in let k := Nat.div2 (S (length L)) in
  fw (n_next s) L None -> bw (n_prev s) None L -> NoDup L -> (length L <= fresh s)%nat ->
  exists t, split_nodes a cl s = Ok (entry (skipn k L) None, t) /\
    fw (n_next t) (firstn k L) None /\ bw (n_prev t) None (firstn k L) /\ fw (n_next t) (skipn k L) None /\ bw (n_prev t) None (skipn k L) /\
    quiet s t /\ frame L s t /\ (cl = true -> forall x, In x L -> n_head t x = false).
Proof.
  intros s a b l cl L k F B N Hn. unfold split_nodes.
  set (s1 := clear_if cl a s).
  assert (H1 : quiet s s1 /\ n_next s1 = n_next s /\ n_prev s1 = n_prev s /\ (cl = true -> n_head s1 a = false)).
  { unfold s1, clear_if. destruct cl; [|split; [apply quiet_refl|repeat split; discriminate]]. repeat split; cbn.
    - intros c H. unfold upd. destruct (c =? a)%nat; auto.
    - intros _. apply upd_eq. }
  clearbody s1. destruct H1 as (Q1 & E1 & P1 & D1).
  assert (Ea : n_next s1 a = Some b) by (rewrite E1; apply F). rewrite Ea.
  destruct (split_loop_rep (fresh s1) (b :: l) s1 cl a []) as (u & slow & E & Hnth & Q & En & Ep & Dh).
  { cbn [app]. rewrite E1. exact F. }
  { auto. }
  { destruct Q1 as (_ & _ & -> & _). unfold L in Hn. cbn in *. lia. }
  cbn [entry] in E. rewrite E. cbn [bind fst snd app] in *. change (a :: b :: l) with L in Hnth.
  assert (Hk : k = S (Nat.div2 (length (b :: l)))) by reflexivity.
  destruct (half_bounds a b l) as (Hb1 & Hb2). change (length (a :: b :: l)) with (length L) in Hb1, Hb2. change (Nat.div2 (S (length L))) with k in Hb1, Hb2.
  destruct (nth_error_split L _ Hnth) as (l1 & l2 & EL & Hl1).
  assert (El2 : exists c l2', l2 = c :: l2').
  { destruct l2; eauto. exfalso. rewrite EL, app_length in Hb2. cbn [length] in Hb2. lia. }
  destruct El2 as (c & l2' & ->).
  assert (E4 : firstn k L = l1 ++ [slow] /\ skipn k L = c :: l2').
  { assert (Hkk : k = length (l1 ++ [slow])) by (rewrite Hk, app_length, Hl1; cbn [length]; rewrite Nat.add_comm; reflexivity). rewrite Hkk, EL.
    replace (l1 ++ slow :: c :: l2') with ((l1 ++ [slow]) ++ c :: l2') by (rewrite <- app_assoc; reflexivity).
    apply fs_app. }
  destruct E4 as (Efi & Esk). rewrite Efi, Esk. clearbody k.
  rewrite EL in F, B, N. apply fw_app in F. destruct F as (F1 & Es & F2). apply bw_app in B. destruct B as (B1 & Eb & B2).
  assert (Ens : n_next u slow = Some c) by (rewrite En, E1; exact Es). rewrite Ens. cbn [deref bind entry]. eexists. split; [reflexivity|].
  assert (Hc1 : ~ In slow l1 /\ ~ In slow (c :: l2')) by (apply NoDup_remove_2 in N; rewrite in_app_iff in N; tauto).
  apply nodup_app in N. destruct N as (N1 & N2 & Hd). inv N2. inv H2.
  cbn [set_prev set_next n_next n_prev]. rewrite En, E1, Ep, P1. destruct Hc1 as (Hs1 & Hs2).
  split; [|split; [|split; [|split; [|split; [|split]]]]].
  - apply fw_app. split.
    + eapply fw_ext; [|exact F1]. intros x Hx. rewrite upd_neq; auto. intros ->. contradiction.
    + cbn. rewrite upd_eq. auto.
  - apply bw_app. split.
    + eapply bw_ext; [|exact B1]. intros x Hx. rewrite upd_neq; auto. intros ->. apply (Hd c Hx). right. now left.
    + cbn. rewrite upd_neq; auto. intros ->. apply H1. now left.
  - eapply fw_ext; [|exact F2]. intros x Hx. rewrite upd_neq; auto. intros ->. contradiction.
  - destruct B2 as (B2 & B3). cbn [bw]. split; [apply upd_eq|]. eapply bw_ext; [|exact B3]. intros x Hx. rewrite upd_neq; auto. intros ->. contradiction.
  - eapply quiet_trans; [exact Q1|]. destruct Q as (A1 & A2 & A3 & A4 & A5). repeat split; cbn; auto.
  - intros x Hx. rewrite EL, in_app_iff in Hx. cbn in Hx. cbn [set_prev set_next n_next n_prev]. rewrite En, E1, Ep, P1. rewrite !upd_neq; auto; intros ->; tauto.
  - intros Hc x Hx. cbn [set_prev set_next n_head]. destruct Hx as [<-|Hx]; auto. apply Q. auto.
Qed.

Lemma some_value : forall (s : gl) a l, set_value s (a :: l) -> (exists x, n_val s a = Some x) /\ set_value s l.
Proof. intros s a l H. inv H. auto. Qed.
Lemma set_value_ext : forall (s t : gl) l, n_val t = n_val s -> set_value s l -> set_value t l.
Proof. unfold set_value. intros s t l ->. auto. Qed.

(** util.py 607-629. *)
Lemma merge_rep : forall n la lb (s : gl) pa pb ea eb, let v := n_val s in
  fw (n_next s) la None -> bw (n_prev s) pa la -> fw (n_next s) lb None -> bw (n_prev s) pb lb ->
  NoDup (la ++ lb) -> set_value s la -> set_value s lb -> (length (la ++ lb) <= n)%nat ->
  (la <> [] -> ea = exit None la) -> (lb <> [] -> eb = exit None lb) ->
  let m := merge_lists (nleb v) la lb in
  exists t ee p, merge_sublists leb n (entry la None) ea (entry lb None) eb s = Ok (entry m None, ee, t) /\ (m <> [] -> ee = exit None m) /\
    fw (n_next t) m None /\ bw (n_prev t) p m /\ (la <> [] -> lb <> [] -> p = None) /\ quiet s t /\ frame (la ++ lb) s t.
Proof.
  induction n as [|n IH]; intros la lb s pa pb ea eb v Fa Ba Fb Bb N Va Vb Hn Ha Hb m.
  - destruct la; [|cbn in Hn; lia]. destruct lb; [|cbn in Hn; lia]. exists s, eb, None. cbn. repeat split; auto.
  - destruct la as [|a la].
    + exists s, eb, pb. unfold m. cbn [merge_lists merge_sublists entry app]. repeat split; auto. all: try (intros; congruence).
    + destruct lb as [|b lb].
      * exists s, ea, pa. unfold m. rewrite merge_nil_r. cbn [merge_sublists entry]. repeat split; auto; try apply Ba; try apply Fa. all: try (intros; congruence).
      * cbn [merge_sublists entry]. apply some_value in Va. destruct Va as ((x & Ex) & Va). apply some_value in Vb. destruct Vb as ((y & Ey) & Vb).
        unfold value at 1. rewrite Ex. cbn [bind]. unfold value at 1. rewrite Ey. cbn [bind].
        assert (Hnl : nleb v a b = leb x y) by (unfold nleb, v; now rewrite Ex, Ey). unfold m. rewrite merge_cons, Hnl. clear m.
        destruct Fa as (Ea & Fa). destruct Ba as (Eb & Ba). destruct Fb as (Eb' & Fb). destruct Bb as (Ec & Bb).
        pose proof N as N0. cbn [app] in N. apply NoDup_cons_iff in N. destruct N as (Hna & N). destruct (leb x y) eqn:El.
        -- rewrite Ea. destruct (IH la (b :: lb) s (Some a) pb ea eb) as (t & ee & p & E & H3 & H4 & H5 & H6 & H7 & H8); auto; try (split; auto).
           { constructor; eauto. }
           { cbn in Hn |- *. lia. }
           { intros H. rewrite Ha by discriminate. cbn [exit]. now apply exit_any. }
           cbn [entry] in E. rewrite E. cbn [bind]. remember (merge_lists (nleb (n_val s)) la (b :: lb)) as mm eqn:Em.
           assert (Pm : Permutation mm (la ++ b :: lb)) by (rewrite Em; apply merge_perm).
           symmetry in Em. destruct mm as [|c mm]; [apply Permutation_nil in Pm; destruct la; discriminate|]. cbn [entry deref bind].
           assert (Nm : NoDup (c :: mm)) by (eapply Permutation_NoDup; [symmetry; exact Pm|auto]).
           assert (Ham : ~ In a (c :: mm)) by (intros H; apply (Permutation_in _ Pm) in H; contradiction).
           eexists _, ee, None. split; [unfold v; rewrite ?Em; reflexivity|]. unfold v. rewrite ?Em. split; [|split; [|split; [|split; [|split]]]].
           ++ intros _. rewrite H3 by discriminate. cbn [exit]. reflexivity.
           ++ cbn [set_next set_prev n_next]. split; [apply upd_eq|]. apply (fw_ext (n_next t)); [|exact H4]. intros z Hz. rewrite upd_neq; auto. intros ->. contradiction.
           ++ cbn [set_next set_prev n_prev]. destruct H5 as (H5 & H5'). inv Nm. cbn [bw]. split; [apply upd_eq|]. split.
              ** rewrite upd_neq, upd_eq; auto. intros ->. apply Ham. now left.
              ** eapply bw_ext; [|exact H5']. intros z Hz. rewrite !upd_neq; auto; intros ->; [contradiction|apply Ham; now right].
           ++ auto.
           ++ destruct H7 as (A1 & A2 & A3 & A4 & A5). repeat split; cbn; auto.
           ++ intros z Hz. cbn [set_next set_prev n_next n_prev]. cbn in Hz.
              assert (Hzm : z <> c). { intros ->. apply Hz. right. apply (Permutation_in _ Pm). now left. }
              rewrite !upd_neq by auto. apply H8. tauto.
        -- rewrite Eb'. destruct (IH (a :: la) lb s pa (Some b) ea eb) as (t & ee & p & E & H3 & H4 & H5 & H6 & H7 & H8); auto; try (split; auto).
           { change (a :: la ++ b :: lb) with ((a :: la) ++ b :: lb) in N0. now apply NoDup_remove_1 in N0. }
           { constructor; eauto. }
           { rewrite app_length in *. cbn in Hn |- *. lia. }
           { intros H. rewrite Hb by discriminate. cbn [exit]. now apply exit_any. }
           cbn [entry] in E. rewrite E. cbn [bind]. remember (merge_lists (nleb (n_val s)) (a :: la) lb) as mm eqn:Em.
           assert (Pm : Permutation mm ((a :: la) ++ lb)) by (rewrite Em; apply merge_perm).
           symmetry in Em. destruct mm as [|c mm]; [apply Permutation_nil in Pm; discriminate|]. cbn [entry deref bind].
           change (a :: la ++ b :: lb) with ((a :: la) ++ b :: lb) in N0. pose proof (NoDup_remove_2 _ _ _ N0) as Hbn. apply NoDup_remove_1 in N0.
           assert (Nm : NoDup (c :: mm)) by (eapply Permutation_NoDup; [symmetry; exact Pm|auto]).
           assert (Ham : ~ In b (c :: mm)) by (intros H; apply (Permutation_in _ Pm) in H; contradiction).
           eexists _, ee, None. split; [unfold v; rewrite ?Em; reflexivity|]. unfold v. rewrite ?Em. split; [|split; [|split; [|split; [|split]]]].
           ++ intros _. rewrite H3 by discriminate. cbn [exit]. reflexivity.
           ++ cbn [set_next set_prev n_next]. split; [apply upd_eq|]. apply (fw_ext (n_next t)); [|exact H4]. intros z Hz. rewrite upd_neq; auto. intros ->. contradiction.
           ++ cbn [set_next set_prev n_prev]. destruct H5 as (H5 & H5'). inv Nm. cbn [bw]. split; [apply upd_eq|]. split.
              ** rewrite upd_neq, upd_eq; auto. intros ->. apply Ham. now left.
              ** eapply bw_ext; [|exact H5']. intros z Hz. rewrite !upd_neq; auto; intros ->; [contradiction|apply Ham; now right].
           ++ auto.
           ++ destruct H7 as (A1 & A2 & A3 & A4 & A5). repeat split; cbn; auto.
           ++ intros z Hz. cbn [set_next set_prev n_next n_prev]. rewrite in_app_iff in Hz. cbn in Hz.
              assert (Hzm : z <> c). { intros ->. apply Hz. assert (X : In c ((a :: la) ++ lb)) by (apply (Permutation_in _ Pm); now left). apply in_app_iff in X. cbn in X. tauto. }
              rewrite !upd_neq by (auto; intros ->; tauto). apply H8. rewrite in_app_iff. cbn. tauto.
Qed.

(** util.py 569-582. *)
Lemma merge_sort_rep : forall n l (s : gl) cl, fw (n_next s) l None -> bw (n_prev s) None l -> NoDup l -> (length l <= fresh s)%nat ->
  set_value s l -> (length l <= n)%nat ->
  let m := merge_sort (nleb (n_val s)) n l in
  exists t, merge_sort_nodes leb n (entry l None) cl s = Ok (entry m None, exit None m, t) /\
    fw (n_next t) m None /\ bw (n_prev t) None m /\ quiet s t /\ frame l s t /\
    (cl = true -> (2 <= length l)%nat -> forall a, In a l -> n_head t a = false).
Proof.
  induction n as [|n IH]; intros l s cl F B N Hl V Hn m.
  - destruct l; [|cbn in Hn; lia]. exists s. cbn. repeat split; auto. lia.
  - destruct l as [|a [|b l]].
    + exists s. unfold m. cbn. repeat split; auto. lia.
    + exists s. unfold m. cbn [merge_sort merge_sort_nodes entry exit]. destruct F as (En & _). rewrite En. cbn [entry]. repeat split; auto; try apply B.
      intros _ H. cbn [length] in H. lia.
    + set (L := a :: b :: l) in *. set (k := Nat.div2 (S (length L))) in *.
      destruct (split_nodes_rep s a b l cl F B N Hl) as (u & E & F1 & B1 & F2 & B2 & Q & Fr & Dh).
      destruct (half_bounds a b l) as (Hb1 & Hb2).
      change (a :: b :: l) with L in E, F1, B1, F2, B2, Fr, Dh, Hb1, Hb2.
      change (Nat.div2 (S (length L))) with k in E, F1, B1, F2, B2, Hb1, Hb2.
      assert (Em : m = merge_lists (nleb (n_val s)) (merge_sort (nleb (n_val s)) n (firstn k L)) (merge_sort (nleb (n_val s)) n (skipn k L))) by reflexivity.
      assert (Ens : n_next s a = Some b) by apply F.
      unfold L at 1. cbn [merge_sort_nodes entry]. rewrite Ens, E. cbn [bind fst snd].
      pose proof (firstn_skipn k L) as EL. rewrite <- EL in N, V. apply nodup_app in N. destruct N as (N1 & N2 & Hd).
      apply Forall_app in V. destruct V as (V1 & V2).
      destruct Q as (Q1 & Q2 & Q3 & Q4 & Q5).
      assert (Hk1 : (length (firstn k L) = k)%nat) by (rewrite firstn_length; lia).
      assert (Hk2 : (length (skipn k L) = length L - k)%nat) by (apply skipn_length).
      assert (Hfa : Some a = entry (firstn k L) None) by (unfold L; destruct k; [lia|reflexivity]).
      destruct (IH (firstn k L) u false F1 B1 N1) as (t1 & E1 & F3 & B3 & (R1 & R2 & R3 & R4 & R5) & Fr1 & _).
      { rewrite Q3. lia. } { now apply (set_value_ext s). } { lia. }
      rewrite Hfa, E1. cbn [bind].
      set (m1 := merge_sort (nleb (n_val u)) n (firstn k L)) in *.
      destruct (IH (skipn k L) t1 false) as (t2 & E2 & F4 & B4 & (S1 & S2 & S3 & S4 & S5) & Fr2 & _).
      { eapply fw_ext; [|exact F2]. intros x Hx. apply Fr1. intros H. now apply (Hd x). }
      { eapply bw_ext; [|exact B2]. intros x Hx. apply Fr1. intros H. now apply (Hd x). }
      { auto. } { rewrite R3, Q3. lia. } { apply (set_value_ext s); auto. congruence. } { lia. }
      rewrite E2. cbn [bind]. set (m2 := merge_sort (nleb (n_val t1)) n (skipn k L)) in *.
      assert (P1 : Permutation m1 (firstn k L)).
      { unfold m1. clear. generalize (nleb (n_val u)) as f. intros f. generalize (firstn k L) as z. revert n. induction n as [|n IH]; intros z; auto.
        destruct z as [|c [|d z]]; auto. cbn [merge_sort]. rewrite merge_perm, !IH, firstn_skipn. reflexivity. }
      assert (P2 : Permutation m2 (skipn k L)).
      { unfold m2. clear. generalize (nleb (n_val t1)) as f. intros f. generalize (skipn k L) as z. revert n. induction n as [|n IH]; intros z; auto.
        destruct z as [|c [|d z]]; auto. cbn [merge_sort]. rewrite merge_perm, !IH, firstn_skipn. reflexivity. }
      assert (PL : Permutation (m1 ++ m2) L) by (rewrite P1, P2, EL; reflexivity).
      destruct (merge_rep (fresh t2) m1 m2 t2 None None (exit None m1) (exit None m2)) as (t & ee & p & E3 & H3 & H4 & H5 & H6 & H7 & H8); auto.
      { eapply fw_ext; [|exact F3]. intros x Hx. apply Fr2. intros H. apply (Hd x); auto. now apply (Permutation_in _ P1). }
      { eapply bw_ext; [|exact B3]. intros x Hx. apply Fr2. intros H. apply (Hd x); auto. now apply (Permutation_in _ P1). }
      { eapply Permutation_NoDup; [symmetry; exact PL|]. rewrite <- EL. apply nodup_app. auto. }
      { eapply Forall_forall. intros x Hx. apply (Permutation_in _ P1) in Hx. rewrite S1, R1, Q1. unfold set_value in V1. rewrite Forall_forall in V1. auto. }
      { eapply Forall_forall. intros x Hx. apply (Permutation_in _ P2) in Hx. rewrite S1, R1, Q1. unfold set_value in V2. rewrite Forall_forall in V2. auto. }
      { rewrite (Permutation_length PL), S3, R3, Q3. auto. }
      assert (Em' : merge_lists (nleb (n_val t2)) m1 m2 = m).
      { rewrite Em. unfold m1, m2. rewrite S1, R1, Q1. reflexivity. }
      rewrite Em' in *. assert (Hm1 : m1 <> []) by (intros H; rewrite H in P1; apply Permutation_length in P1; cbn in P1; lia).
      assert (Hm2 : m2 <> []) by (intros H; rewrite H in P2; apply Permutation_length in P2; rewrite Hk2 in P2; change (@length nat []) with O in P2; lia).
      exists t. rewrite E3. rewrite H3.
      2:{ intros H. rewrite <- Em' in H. pose proof (merge_perm (nleb (n_val t2)) m1 m2) as X. rewrite H in X. apply Permutation_nil in X. destruct m1; [contradiction|discriminate]. }
      split; auto. split; auto. split; [rewrite <- H6; auto|]. split; [|split].
      * destruct H7 as (A1 & A2 & A3 & A4 & A5). repeat split; try congruence. auto.
      * intros x Hx. assert (X : ~ In x (firstn k L) /\ ~ In x (skipn k L)) by (rewrite <- EL, in_app_iff in Hx; tauto).
        destruct (H8 x) as (-> & ->). { intros H. apply Hx. now apply (Permutation_in _ PL). }
        destruct (Fr2 x) as (-> & ->); [tauto|]. destruct (Fr1 x) as (-> & ->); [tauto|]. now apply Fr.
      * intros Hc _ x Hx. apply H7. apply S5, R5. auto.
Qed.

(** util.py 563-567. *)
Lemma sort_rep : forall (s : gl) ns g, rep s ns g ->
  exists t, sort leb s = Ok t /\ rep t (one_group (sort_items (nleb (n_val s)) (concat ns))) (one_group (sort_items leb (items g))) /\ kept s t.
Proof.
  intros s ns g (L & G & V). pose proof (concat_F2 _ _ _ V) as F2. pose proof (linked_len _ _ L) as Hn.
  assert (Sv : set_value s (concat ns)).
  { clear - F2. induction F2; constructor; eauto. }
  unfold sort. rewrite (k_first _ _ L).
  destruct (merge_sort_rep (fresh s) (concat ns) s true (k_next _ _ L) (k_prev _ _ L) (k_nodup _ _ L) Hn Sv Hn)
    as (u & E & F & B & (Q1 & Q2 & Q3 & Q4 & Q5) & Fr & Dh).
  assert (Em : merge_sort (nleb (n_val s)) (fresh s) (concat ns) = sort_items (nleb (n_val s)) (concat ns)) by (apply sort_fuel; auto).
  rewrite Em in *. rewrite E. cbn [bind]. set (m := sort_items (nleb (n_val s)) (concat ns)) in *.
  assert (P : Permutation m (concat ns)).
  { unfold m, sort_items. generalize (nleb (n_val s)) as f. intros f. generalize (length (concat ns)) as n. generalize (concat ns) as z. clear. intros z n. revert z. induction n as [|n IH]; intros z; auto.
    destruct z as [|c [|d z]]; auto. cbn [merge_sort]. rewrite merge_perm, !IH, firstn_skipn. reflexivity. }
  assert (Hin : forall (Q : nat -> Prop), Forall Q (concat ns) -> Forall Q m).
  { intros Q H. rewrite Forall_forall in *. intros x Hx. apply H. now apply (Permutation_in _ P). }
  destruct (setup_rep (set_last (exit None m) (set_first (entry m None) u)) m) as (t & Et & Lt & Gt & Vt & K).
  - constructor; cbn; auto.
    + eapply Permutation_NoDup; [symmetry; exact P|apply L].
    + rewrite Q3. apply Hin, L.
    + rewrite Q4, (k_cnt _ _ L). unfold zlen. now rewrite (Permutation_length P).
    + rewrite Q2. apply Hin, L.
  - cbn. rewrite Forall_forall. intros x Hx. assert (H2 : (2 <= length (concat ns))%nat).
    { rewrite <- (Permutation_length P). destruct m as [|y [|z m']]; cbn in Hx |- *; try contradiction; lia. }
    apply Dh; auto. apply (Permutation_in _ P). destruct m; [contradiction|now right].
  - intros Hm. rewrite Hm in P. apply Permutation_nil in P. rewrite P in E. cbn [entry] in E.
    assert (Eu : u = s) by (destruct (fresh s); cbn in E; congruence). rewrite Eu. rewrite (nil_groups s ns G P) in G.
    clear - G. destruct G. constructor; cbn in *; auto.
  - exists t. split; auto. split; [|destruct K; split; cbn in *; congruence]. split; [now rewrite concat_one_group|]. split; auto.
    apply one_group_F2. rewrite Vt. cbn. rewrite Q1. unfold m, sort_items. rewrite (Forall2_length F2). apply sort_par; auto.
    intros a b x y Hx Hy. unfold nleb. now rewrite Hx, Hy.
Qed.
End Sorting.
