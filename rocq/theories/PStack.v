(** * PStack: how deep the calls of a sort nest (MStack.v). *)
From Coq Require Import List ZArith Bool Arith Lia Permutation Sorted.
From Verif Require Import Base MSeq MGroup MSort MStack SpecStack SpecGroup PSort PGroup PGroup2 PGroup4 PGroup5 PSort2.
Import ListNotations.
Open Scope nat_scope.

Lemma frames_nil_r : forall {B} (leb : B -> B -> bool) cmp l, merge_frames leb cmp l [] = 1.
Proof. intros B leb cmp [|a l]; reflexivity. Qed.
Lemma frames_cons : forall {B} (leb : B -> B -> bool) cmp a l b m, merge_frames leb cmp (a :: l) (b :: m) =
  S (Nat.max (cmp a b) (if leb a b then merge_frames leb cmp l (b :: m) else merge_frames leb cmp (a :: l) m)).
Proof. intros. reflexivity. Qed.
Lemma frames_pos : forall {B} (leb : B -> B -> bool) cmp l m, 1 <= merge_frames leb cmp l m.
Proof. intros B leb cmp [|a l] [|b m]; rewrite ?frames_cons, ?frames_nil_r; try lia; cbn; lia. Qed.

Section Merge.
Context {A : Type}.
Notation gl := (glist A).
Variable leb : A -> A -> bool.
Variable cmp : A -> A -> nat.
(** The calls that comparing two nodes nests. *)
Definition ncmp (v : nat -> option A) (a b : nat) : nat := match v a, v b with Some x, Some y => cmp x y | _, _ => 0 end.

Lemma merge_k_exact : forall n la lb (s : gl) ea eb f g u, fw (n_next s) la None -> fw (n_next s) lb None ->
  merge_sublists leb n (entry la None) ea (entry lb None) eb s = Ok (f, g, u) -> forall room,
  let need := merge_frames (nleb leb (n_val s)) (ncmp (n_val s)) la lb in
  (need <= room -> merge_k leb cmp room (entry la None) ea (entry lb None) eb s = (u, Ok (f, g))) /\
  (room < need -> merge_k leb cmp room (entry la None) ea (entry lb None) eb s = (s, Err RecErr)).
Proof.
  induction n as [|n IH]; intros la lb s ea eb f g u Fa Fb Hs room need; (destruct room as [|r];
    [split; [intros H; pose proof (frames_pos (nleb leb (n_val s)) (ncmp (n_val s)) la lb); unfold need in H; lia|reflexivity]|]).
  - destruct la as [|a la]; [cbn in *; inv Hs; split; [reflexivity|unfold need; cbn; lia]|].
    destruct lb as [|b lb]; [cbn in *; inv Hs; split; [reflexivity|unfold need; cbn; lia]|]. cbn in Hs. discriminate.
  - destruct la as [|a la]; [cbn in *; inv Hs; split; [reflexivity|unfold need; cbn; lia]|].
    destruct lb as [|b lb]; [cbn in *; inv Hs; split; [reflexivity|unfold need; cbn; lia]|].
    cbn [entry merge_sublists merge_k] in *. unfold need. rewrite frames_cons. clear need.
    destruct (value s a) as [x|] eqn:Ex; cbn [bind look] in *; [|discriminate]. destruct (value s b) as [y|] eqn:Ey; cbn [bind look] in *; [|discriminate].
    unfold value in Ex, Ey. destruct (n_val s a) as [x'|] eqn:Ex'; cbn in Ex; [|discriminate]. destruct (n_val s b) as [y'|] eqn:Ey'; cbn in Ey; [|discriminate]. inv Ex. inv Ey.
    assert (En : nleb leb (n_val s) a b = leb x y) by (unfold nleb; now rewrite Ex', Ey').
    assert (Ec : ncmp (n_val s) a b = cmp x y) by (unfold ncmp; now rewrite Ex', Ey').
    rewrite En, Ec. destruct (r <? cmp x y) eqn:Er; cbn [look].
    { apply Nat.ltb_lt in Er. split; [intros H; exfalso; lia|reflexivity]. }
    apply Nat.ltb_ge in Er. destruct Fa as (Ea & Fa). destruct Fb as (Eb & Fb). destruct (leb x y).
    + rewrite Ea in *. destruct (merge_sublists leb n (entry la None) ea (Some b) eb s) as [((f', g'), u')|] eqn:Em; cbn [bind] in Hs; [|discriminate].
      destruct (IH la (b :: lb) s ea eb _ _ _ Fa (conj Eb Fb) Em r) as (H1 & H2). cbn [entry] in H1, H2. split; intros H.
      * rewrite H1 by lia. cbn [after fst snd]. destruct f' as [c|]; cbn in *; [|discriminate]. congruence.
      * rewrite H2 by lia. reflexivity.
    + rewrite Eb in *. destruct (merge_sublists leb n (Some a) ea (entry lb None) eb s) as [((f', g'), u')|] eqn:Em; cbn [bind] in Hs; [|discriminate].
      destruct (IH (a :: la) lb s ea eb _ _ _ (conj Ea Fa) Fb Em r) as (H1 & H2). cbn [entry] in H1, H2. split; intros H.
      * rewrite H1 by lia. cbn [after fst snd]. destruct f' as [c|]; cbn in *; [|discriminate]. congruence.
      * rewrite H2 by lia. reflexivity.
Qed.

Lemma merge_k_keeps : forall room fa la fb lb (s t : gl) q, merge_k leb cmp room fa la fb lb s = (t, q) -> keeps s t.
Proof.
  induction room as [|n IH]; intros fa la fb lb s t q E; [cbn in E; inv E; apply keeps_refl|]. destruct fa as [a|], fb as [b|]; cbn [merge_k] in E; try (inv E; apply keeps_refl).
  destruct (value s a) as [x|]; cbn [bind look] in E; [|inv E; apply keeps_refl]. destruct (value s b) as [y|]; cbn [bind look] in E; [|inv E; apply keeps_refl].
  destruct (n <? cmp x y); cbn [look] in E; [inv E; apply keeps_refl|].
  destruct (leb x y); cbn in E.
  - destruct (merge_k leb cmp n (n_next s a) la (Some b) lb s) as (u & [(f', g')|]) eqn:Em; cbn in E; [|inv E; now apply IH in Em].
    apply IH in Em. eapply keeps_trans; [exact Em|]. destruct f' as [c|]; cbn in E; inv E; [|apply keeps_next].
    eapply keeps_trans; [apply keeps_next|]. eapply keeps_trans; [apply keeps_prev|apply keeps_prev].
  - destruct (merge_k leb cmp n (Some a) la (n_next s b) lb s) as (u & [(f', g')|]) eqn:Em; cbn in E; [|inv E; now apply IH in Em].
    apply IH in Em. eapply keeps_trans; [exact Em|]. destruct f' as [c|]; cbn in E; inv E; [|apply keeps_next].
    eapply keeps_trans; [apply keeps_next|]. eapply keeps_trans; [apply keeps_prev|apply keeps_prev].
Qed.
Lemma merge_sort_k_keeps : forall room first cl (s t : gl) q, merge_sort_k leb cmp room first cl s = (t, q) -> keeps s t.
Proof.
  induction room as [|n IH]; intros first cl s t q E; [cbn in E; inv E; apply keeps_refl|]. destruct first as [a|]; cbn [merge_sort_k] in E; try (inv E; apply keeps_refl);
    destruct (n_next s a) as [b|] eqn:En; try (inv E; apply keeps_refl).
  destruct (n <? (if cl then 2 else 1)); [inv E; apply keeps_refl|].
  destruct (split_nodes a cl s) as [(fb, u)|] eqn:Es; cbn [look fst snd] in E; [|inv E; apply keeps_refl]. apply split_nodes_keeps in Es.
  eapply keeps_trans; [exact Es|].
  destruct (merge_sort_k leb cmp n (Some a) false u) as (t1 & [(f1, l1)|]) eqn:E1; cbn [after fst snd] in E; [|inv E; now apply IH in E1].
  apply IH in E1. eapply keeps_trans; [exact E1|].
  destruct (merge_sort_k leb cmp n fb false t1) as (t2 & [(f2, l2)|]) eqn:E2; cbn [after fst snd] in E; [|inv E; now apply IH in E2].
  apply IH in E2. eapply keeps_trans; [exact E2|]. now apply merge_k_keeps in E.
Qed.

Lemma sort_perm_n : forall (f : nat -> nat -> bool) n z, Permutation (merge_sort f n z) z.
Proof.
  intros f n. induction n as [|n IH]; intros z; auto.
  destruct z as [|c [|d z]]; auto. cbn [merge_sort]. rewrite merge_perm, !IH, firstn_skipn. reflexivity.
Qed.

(** A sort with too little room leaves everything, or a chain of the first half that begins with the first node and one of the second
    half that ends with the last node. *)
Definition left_over (room : nat) (l : list nat) (cl : bool) (s t : gl) : Prop :=
  let k := Nat.div2 (S (length l)) in
  (t = s /\ room < if cl then 3 else 2) \/
  (2 <= length l /\ quiet s t /\ frame l s t /\ (cl = true -> forall a, In a l -> n_head t a = false) /\
   (exists a l0 m, l = a :: l0 /\ fw (n_next t) (a :: m) None /\ NoDup (a :: m) /\ incl (a :: m) (firstn k l)) /\
   (exists z l0 m, l = l0 ++ [z] /\ bw (n_prev t) None (m ++ [z]) /\ NoDup (m ++ [z]) /\ incl (m ++ [z]) (skipn k l))).
Lemma left_over_frame : forall room l (s t : gl), left_over room l false s t -> quiet s t /\ frame l s t.
Proof. intros room l s t [(-> & _)|(_ & Q & F & _)]; [split; [apply quiet_refl|intros a _; auto]|auto]. Qed.
Lemma left_over_front : forall room a l0 (s t : gl), fw (n_next s) (a :: l0) None -> NoDup (a :: l0) -> left_over room (a :: l0) false s t ->
  exists m, fw (n_next t) (a :: m) None /\ NoDup (a :: m) /\ incl (a :: m) (a :: l0).
Proof.
  intros room a l0 s t F N [(-> & _)|(_ & _ & _ & _ & (a' & l1 & m & E & Fm & Nm & Im) & _)].
  - exists l0. split; auto. split; auto. apply incl_refl.
  - injection E as <- <-. exists m. split; auto. split; auto. intros x Hx. apply Im in Hx.
    rewrite <- (firstn_skipn (Nat.div2 (S (length (a :: l0)))) (a :: l0)). apply in_app_iff. auto.
Qed.
Lemma left_over_back : forall room z l0 (s t : gl), bw (n_prev s) None (l0 ++ [z]) -> NoDup (l0 ++ [z]) -> left_over room (l0 ++ [z]) false s t ->
  exists m, bw (n_prev t) None (m ++ [z]) /\ NoDup (m ++ [z]) /\ incl (m ++ [z]) (l0 ++ [z]).
Proof.
  intros room z l0 s t F N [(-> & _)|(_ & _ & _ & _ & _ & (z' & l1 & m & E & Fm & Nm & Im))].
  - exists l0. split; auto. split; auto. apply incl_refl.
  - apply app_inj_tail in E. destruct E as (<- & <-). exists m. split; auto. split; auto. intros x Hx. apply Im in Hx.
    rewrite <- (firstn_skipn (Nat.div2 (S (length (l0 ++ [z])))) (l0 ++ [z])). apply in_app_iff. auto.
Qed.
(** A chain from the node [a], or to the node [z], in a sublist with other links. *)
Lemma front_of : forall (nx : nat -> option nat) m1 l a, Permutation m1 l -> NoDup l -> In a l -> fw nx m1 None ->
  exists m, fw nx (a :: m) None /\ NoDup (a :: m) /\ incl (a :: m) l.
Proof.
  intros nx m1 l a P N Ha F. assert (Hi : In a m1) by (apply (Permutation_in _ (Permutation_sym P)); auto).
  apply in_split in Hi. destruct Hi as (p & m & Ep). exists m. rewrite Ep in F. apply fw_app in F. destruct F as (_ & F).
  split; [exact F|]. assert (Nm : NoDup m1) by (eapply Permutation_NoDup; [symmetry; exact P|auto]). rewrite Ep in Nm. apply nodup_app in Nm.
  split; [tauto|]. intros x Hx. apply (Permutation_in _ P). rewrite Ep. apply in_app_iff. auto.
Qed.
Lemma back_of : forall (pv : nat -> option nat) m1 l z, Permutation m1 l -> NoDup l -> In z l -> bw pv None m1 ->
  exists m, bw pv None (m ++ [z]) /\ NoDup (m ++ [z]) /\ incl (m ++ [z]) l.
Proof.
  intros pv m1 l z P N Hz B. assert (Hi : In z m1) by (apply (Permutation_in _ (Permutation_sym P)); auto).
  apply in_split in Hi. destruct Hi as (m & p & Ep). exists m. replace (m ++ z :: p) with ((m ++ [z]) ++ p) in Ep by (rewrite <- app_assoc; reflexivity).
  assert (Nm : NoDup m1) by (eapply Permutation_NoDup; [symmetry; exact P|auto]). rewrite Ep in B, Nm. apply bw_app in B. apply nodup_app in Nm.
  split; [tauto|]. split; [tauto|]. intros x Hx. apply (Permutation_in _ P). rewrite Ep. apply in_app_iff. auto.
Qed.

Lemma merge_sort_k_exact : forall n l (s : gl) cl, fw (n_next s) l None -> bw (n_prev s) None l -> NoDup l -> length l <= fresh s ->
  set_value s l -> length l <= n -> forall f g u, merge_sort_nodes leb n (entry l None) cl s = Ok (f, g, u) -> forall room,
  let need := sort_frames (nleb leb (n_val s)) (ncmp (n_val s)) n cl l in
  (need <= room -> merge_sort_k leb cmp room (entry l None) cl s = (u, Ok (f, g))) /\
  (room < need -> exists t, merge_sort_k leb cmp room (entry l None) cl s = (t, Err RecErr) /\ left_over room l cl s t).
Proof.
  induction n as [|n IH]; intros l s cl F B N Hl V Hn f g u E room need; (destruct room as [|r];
    [split; [intros H; exfalso; unfold need in H; destruct l as [|? [|? ?]]; cbn in H; lia|intros _; exists s; split; [reflexivity|left; split; [reflexivity|destruct cl; lia]]]|]).
  - destruct l; [|cbn in Hn; lia]. cbn in *. split; [intros; congruence|unfold need; lia].
  - destruct l as [|a [|b l]]; [cbn in *; split; [intros; congruence|unfold need; lia]| |].
    { destruct F as (En & _). cbn [entry] in En. cbn [merge_sort_nodes merge_sort_k entry] in E |- *. rewrite En in E |- *. split; [intros; congruence|unfold need; cbn; lia]. }
    set (L := a :: b :: l) in *. set (k := Nat.div2 (S (length L))) in *.
    assert (Eneed : need = S (Nat.max (if cl then 2 else 1) (Nat.max (sort_frames (nleb leb (n_val s)) (ncmp (n_val s)) n false (firstn k L))
      (Nat.max (sort_frames (nleb leb (n_val s)) (ncmp (n_val s)) n false (skipn k L))
        (merge_frames (nleb leb (n_val s)) (ncmp (n_val s)) (merge_sort (nleb leb (n_val s)) n (firstn k L)) (merge_sort (nleb leb (n_val s)) n (skipn k L))))))) by reflexivity.
    clearbody need.
    destruct (split_nodes_rep s a b l cl F B N Hl) as (u0 & Es & F1 & B1 & F2 & B2 & Q & Fr & Dh).
    destruct (half_bounds a b l) as (Hb1 & Hb2).
    change (a :: b :: l) with L in Es, F1, B1, F2, B2, Fr, Dh, Hb1, Hb2.
    change (Nat.div2 (S (length L))) with k in Es, F1, B1, F2, B2, Hb1, Hb2.
    assert (Ens : n_next s a = Some b) by apply F.
    unfold L at 1 in E. unfold L at 1 2. cbn [merge_sort_nodes merge_sort_k entry] in *. rewrite Ens in *. rewrite Es in *. cbn [bind look fst snd] in *.
    pose proof (firstn_skipn k L) as EL. pose proof N as N0. pose proof V as V0. rewrite <- EL in N, V. apply nodup_app in N. destruct N as (N1 & N2 & Hd).
    apply Forall_app in V. destruct V as (V1 & V2).
    pose proof Q as Q0. destruct Q as (Q1 & Q2 & Q3 & Q4 & Q5).
    assert (Hk1 : (length (firstn k L) = k)%nat) by (rewrite firstn_length; lia).
    assert (Hk2 : (length (skipn k L) = length L - k)%nat) by (apply skipn_length).
    assert (Hfa : Some a = entry (firstn k L) None) by (unfold L; destruct k; [lia|reflexivity]).
    assert (Ha : exists l1, firstn k L = a :: l1) by (unfold L; destruct k; [lia|eexists; reflexivity]).
    destruct Ha as (l1 & Ha).
    assert (Hz : exists z l2, skipn k L = l2 ++ [z]).
    { destruct (exists_last (l := skipn k L)) as (l2 & z & H); [intros H; rewrite H in Hk2; cbn [length] in Hk2; lia|]. exists z, l2. exact H. }
    destruct Hz as (z & l2 & Hz).
    assert (ELz : L = (firstn k L ++ l2) ++ [z]) by (rewrite <- app_assoc, <- Hz; auto).
    assert (In1 : forall x, In x (firstn k L) -> In x L) by (intros x Hx; rewrite <- EL; apply in_app_iff; auto).
    assert (In2 : forall x, In x (skipn k L) -> In x L) by (intros x Hx; rewrite <- EL; apply in_app_iff; auto).
    destruct (r <? (if cl then 2 else 1)) eqn:Er.
    { apply Nat.ltb_lt in Er. split; [intros H; exfalso; lia|]. intros _. exists s. split; [reflexivity|left; split; [reflexivity|destruct cl; lia]]. }
    apply Nat.ltb_ge in Er. rewrite Hfa in *.
    assert (Hl1 : length (firstn k L) <= fresh u0) by (rewrite Q3; lia).
    assert (Hv1 : set_value u0 (firstn k L)) by now apply (set_value_ext s).
    assert (Hn1 : length (firstn k L) <= n) by lia.
    destruct (merge_sort_rep leb n (firstn k L) u0 false F1 B1 N1 Hl1 Hv1 Hn1) as (t1 & X1 & F3 & B3 & (R1 & R2 & R3 & R4 & R5) & Fr1 & _).
    destruct (IH (firstn k L) u0 false F1 B1 N1 Hl1 Hv1 Hn1 _ _ _ X1 r) as (G1 & G1'). rewrite X1 in E. cbn [bind] in E. rewrite Q1 in *.
    set (m1 := merge_sort (nleb leb (n_val s)) n (firstn k L)) in *.
    assert (P1 : Permutation m1 (firstn k L)) by apply sort_perm_n.
    destruct (le_lt_dec (sort_frames (nleb leb (n_val s)) (ncmp (n_val s)) n false (firstn k L)) r) as [Hr1|Hr1].
    2:{ split; [intros H; exfalso; lia|]. intros _. destruct (G1' Hr1) as (t & Et & Lo). exists t. rewrite Et. split; [reflexivity|]. right.
        destruct (left_over_frame _ _ _ _ Lo) as ((S1 & S2 & S3 & S4 & S5) & Fr2).
        split; [unfold L; cbn; lia|]. split; [repeat split; try congruence; auto|]. split; [|split; [|split]].
        - intros x Hx. destruct (Fr2 x) as (-> & ->); [auto|]. now apply Fr.
        - intros Hc x Hx. apply S5. auto.
        - rewrite Ha in Lo, F1, N1. destruct (left_over_front _ _ _ _ _ F1 N1 Lo) as (m & M1 & M2 & M3). exists a, (b :: l), m. split; [reflexivity|]. fold k. rewrite Ha. auto.
        - exists z, (firstn k L ++ l2), l2. fold k. rewrite <- Hz. split; [exact ELz|]. split; [|split; [auto|apply incl_refl]].
          eapply bw_ext; [|exact B2]. intros x Hx. apply Fr2. intros H. now apply (Hd x). }
    rewrite (G1 Hr1). cbn [after fst snd].
    assert (F2' : fw (n_next t1) (skipn k L) None).
    { eapply fw_ext; [|exact F2]. intros x Hx. apply Fr1. intros H. now apply (Hd x). }
    assert (B2' : bw (n_prev t1) None (skipn k L)).
    { eapply bw_ext; [|exact B2]. intros x Hx. apply Fr1. intros H. now apply (Hd x). }
    assert (Hia : In a (firstn k L)) by (rewrite Ha; now left).
    assert (Hiz : In z (skipn k L)) by (rewrite Hz; apply in_app_iff; cbn; auto).
    destruct (front_of (n_next t1) m1 (firstn k L) a P1 N1 Hia F3) as (ma & Hma1 & Hma2 & Hma3).
    assert (Hl2 : length (skipn k L) <= fresh t1) by (rewrite R3, Q3; lia).
    assert (Hv2 : set_value t1 (skipn k L)) by (apply (set_value_ext s); auto; congruence).
    assert (Hn2 : length (skipn k L) <= n) by lia.
    destruct (merge_sort_rep leb n (skipn k L) t1 false F2' B2' N2 Hl2 Hv2 Hn2) as (t2 & X2 & F4 & B4 & (S1 & S2 & S3 & S4 & S5) & Fr2 & _).
    destruct (IH (skipn k L) t1 false F2' B2' N2 Hl2 Hv2 Hn2 _ _ _ X2 r) as (G2 & G2'). rewrite X2 in E. cbn [bind] in E. rewrite R1 in *.
    set (m2 := merge_sort (nleb leb (n_val s)) n (skipn k L)) in *.
    assert (P2 : Permutation m2 (skipn k L)) by apply sort_perm_n.
    destruct (le_lt_dec (sort_frames (nleb leb (n_val s)) (ncmp (n_val s)) n false (skipn k L)) r) as [Hr2|Hr2].
    2:{ split; [intros H; exfalso; lia|]. intros _. destruct (G2' Hr2) as (t & Et & Lo). exists t. rewrite Et. split; [reflexivity|]. right.
        destruct (left_over_frame _ _ _ _ Lo) as ((T1 & T2 & T3 & T4 & T5) & Fr3).
        split; [unfold L; cbn; lia|]. split; [repeat split; try congruence; auto|]. split; [|split; [|split]].
        - intros x Hx. destruct (Fr3 x) as (-> & ->); [auto|]. destruct (Fr1 x) as (-> & ->); [auto|]. now apply Fr.
        - intros Hc x Hx. apply T5, R5. auto.
        - exists a, (b :: l), ma. split; [reflexivity|]. split; [|auto].
          eapply fw_ext; [|exact Hma1]. intros x Hx. apply Fr3. intros H. apply (Hd x); auto.
        - rewrite Hz in Lo, B2', N2. destruct (left_over_back _ _ _ _ _ B2' N2 Lo) as (m & M1 & M2 & M3). exists z, (firstn k L ++ l2), m. split; [exact ELz|]. fold k. rewrite Hz. auto. }
    rewrite (G2 Hr2). cbn [after fst snd].
    assert (F3' : fw (n_next t2) m1 None).
    { eapply fw_ext; [|exact F3]. intros x Hx. apply Fr2. intros H. apply (Hd x); auto. now apply (Permutation_in _ P1). }
    destruct (merge_k_exact (fresh t2) m1 m2 t2 (exit None m1) (exit None m2) f g u F3' F4 E r) as (G3 & G3').
    rewrite S1 in *. split.
    + intros H. rewrite G3 by lia. reflexivity.
    + intros H. rewrite G3' by lia. exists t2. split; [reflexivity|]. right.
      split; [unfold L; cbn; lia|]. split; [repeat split; try congruence; auto|]. split; [|split; [|split]].
      * intros x Hx. destruct (Fr2 x) as (-> & ->); [auto|]. destruct (Fr1 x) as (-> & ->); [auto|]. now apply Fr.
      * intros Hc x Hx. apply S5, R5. auto.
      * exists a, (b :: l), ma. split; [reflexivity|]. split; [|auto].
        eapply fw_ext; [|exact Hma1]. intros x Hx. apply Fr2. intros Hi. apply (Hd x); auto.
      * destruct (back_of (n_prev t2) m2 (skipn k L) z P2 N2 Hiz B4) as (m & M1 & M2 & M3). exists z, (firstn k L ++ l2), m. split; [exact ELz|]. auto.
Qed.
End Merge.

(** The frames depend on the comparisons only. *)
Section FramesPar.
Context {B C : Type}.
Variables (lb : B -> B -> bool) (lc : C -> C -> bool) (cb : B -> B -> nat) (cc : C -> C -> nat) (R : B -> C -> Prop).
Hypothesis agree : forall a b x y, R a x -> R b y -> lb a b = lc x y.
Hypothesis agree' : forall a b x y, R a x -> R b y -> cb a b = cc x y.
Lemma merge_frames_par : forall l1 m1 l2 m2, Forall2 R l1 m1 -> Forall2 R l2 m2 -> merge_frames lb cb l1 l2 = merge_frames lc cc m1 m2.
Proof.
  intros l1 m1 l2 m2 H1. revert l2 m2. induction H1 as [|a x l1 m1 Ha H1 IH1]; intros l2 m2 H2; [reflexivity|].
  induction H2 as [|b y l2 m2 Hb H2 IH2]; [reflexivity|].
  rewrite !frames_cons, (agree a b x y), (agree' a b x y) by auto. destruct (lc x y); [|now rewrite IH2].
  rewrite (IH1 (b :: l2) (y :: m2)); auto.
Qed.
Lemma sort_frames_par : forall n cl l m, Forall2 R l m -> sort_frames lb cb n cl l = sort_frames lc cc n cl m.
Proof.
  induction n as [|n IH]; intros cl l m H; auto. cbn [sort_frames]. destruct H as [|a x l m Ha H]; [reflexivity|].
  destruct H as [|b y l m Hb H]; [reflexivity|].
  assert (E : length l = length m) by (eapply Forall2_length; eauto). cbn [length]. rewrite E.
  assert (HL : Forall2 R (a :: b :: l) (x :: y :: m)) by (constructor; auto).
  do 2 f_equal. f_equal; [apply IH; now apply F2_firstn|]. f_equal; [apply IH; now apply F2_skipn|].
  apply merge_frames_par; apply (sort_par lb lc R agree); [now apply F2_firstn|now apply F2_skipn].
Qed.
End FramesPar.
Lemma sort_frames_fuel : forall {B} (leb : B -> B -> bool) cmp n m cl l, length l <= n -> length l <= m -> sort_frames leb cmp n cl l = sort_frames leb cmp m cl l.
Proof.
  intros B leb cmp. induction n as [|n IH]; intros m cl l Hn Hm.
  - destruct l; [|cbn in Hn; lia]. destruct m; reflexivity.
  - destruct l as [|a [|b l]]; [destruct m; reflexivity|destruct m; [cbn in Hm; lia|reflexivity]|].
    destruct m as [|m]; [cbn in Hm; lia|]. cbn [sort_frames].
    destruct (half_bounds a b l) as (H1 & H2). set (k := Nat.div2 (S (length (a :: b :: l)))) in *.
    assert (length (firstn k (a :: b :: l)) <= n /\ length (firstn k (a :: b :: l)) <= m /\ length (skipn k (a :: b :: l)) <= n /\ length (skipn k (a :: b :: l)) <= m) as (L1 & L2 & L3 & L4)
      by (rewrite firstn_length, skipn_length; lia).
    rewrite (IH m false (firstn k _)), (IH m false (skipn k _)) by auto. rewrite (sort_fuel leb n m (firstn k _)), (sort_fuel leb n m (skipn k _)) by auto. reflexivity.
Qed.

Section SortK.
Context {A : Type}.
Notation gl := (glist A).
Variable leb : A -> A -> bool.
Variable cmp : A -> A -> nat.

Lemma sort_k_rep : forall (s : gl) ns g, rep s ns g -> forall room, let xs := items g in let k := Nat.div2 (S (length xs)) in let need := stack_need leb cmp xs in
  (need <= room -> exists t, sort_k leb cmp room s = (t, Ok tt) /\ sort leb s = Ok t) /\
  (room < need -> exists t, sort_k leb cmp room s = (t, Err RecErr) /\
     ((t = s /\ room < 3) \/
      exists front back r1 r2, 2 <= length xs /\ 3 <= room /\ g_iter t = Ok front /\ g_reversed t = Ok (rev back) /\
       front <> [] /\ back <> [] /\ hd_error front = hd_error xs /\ hd_error (rev back) = hd_error (rev xs) /\
       Permutation (front ++ r1) (firstn k xs) /\ Permutation (back ++ r2) (skipn k xs) /\
       g_cnt t = g_cnt s /\ g_gcnt t = g_gcnt s /\ to_nested_lists t = Err GroupViewErr /\
       forall a, In a (concat ns) -> view_iter (Some a) t = Err GroupViewErr)).
Proof.
  intros s ns g R room xs k need. pose proof R as (L & G & V). pose proof (concat_F2 _ _ _ V) as F2. fold (items g) in F2. fold xs in F2. pose proof (linked_len _ _ L) as Hn.
  assert (Sv : set_value s (concat ns)).
  { clear - F2. induction F2; constructor; eauto. }
  destruct (merge_sort_rep leb (fresh s) (concat ns) s true (k_next _ _ L) (k_prev _ _ L) (k_nodup _ _ L) Hn Sv Hn) as (u & E & _).
  destruct (merge_sort_k_exact leb cmp (fresh s) (concat ns) s true (k_next _ _ L) (k_prev _ _ L) (k_nodup _ _ L) Hn Sv Hn _ _ _ E room) as (H1 & H2).
  assert (Hlen : length (concat ns) = length xs) by (eapply Forall2_length; eauto).
  assert (Ef : sort_frames (nleb leb (n_val s)) (ncmp cmp (n_val s)) (fresh s) true (concat ns) = sort_frames leb cmp (length xs) true xs).
  { rewrite (sort_frames_fuel _ _ (fresh s) (length xs)) by lia. apply sort_frames_par with (R := fun a x => n_val s a = Some x); auto.
    - intros a b x y Ex Ey. unfold nleb. now rewrite Ex, Ey.
    - intros a b x y Ex Ey. unfold ncmp. now rewrite Ex, Ey. }
  rewrite Ef in H1, H2. unfold need, stack_need. clear need. unfold sort_k. rewrite (k_first _ _ L). split; intros Hr.
  - rewrite H1 by lia. cbn [after fst snd]. destruct (sort_rep leb s ns g R) as (t & Et & _). exists t. split; [|exact Et].
    unfold sort in Et. rewrite (k_first _ _ L), E in Et. cbn [bind] in Et. destruct (room <? 2) eqn:E2; [apply Nat.ltb_lt in E2; lia|]. rewrite Et. reflexivity.
  - destruct (le_lt_dec (sort_frames leb cmp (length xs) true xs) room) as [Hf|Hf].
    + (* the only room missing is that of the group of a list with one item or none *)
      rewrite H1 by lia. cbn [after fst snd]. destruct (room <? 2) eqn:E2; [|apply Nat.ltb_ge in E2; lia]. apply Nat.ltb_lt in E2.
      assert (Hlt : length xs <= 1).
      { destruct xs as [|x [|y xs']]; cbn [length]; try lia. cbn [length sort_frames] in Hf. lia. }
      assert (Eu : u = s /\ entry (merge_sort (nleb leb (n_val s)) (fresh s) (concat ns)) None = g_first s /\ exit None (merge_sort (nleb leb (n_val s)) (fresh s) (concat ns)) = g_last s).
      { pose proof (k_next _ _ L) as Fn. rewrite (k_first _ _ L), (k_last _ _ L). destruct (concat ns) as [|a [|b l]]; cbn [length] in *; [| |lia].
        - destruct (fresh s); cbn in E |- *; split; auto; congruence.
        - destruct Fn as (Fn & _). cbn [entry] in Fn. destruct (fresh s) as [|f]; [lia|]. cbn in E |- *. rewrite Fn in E. split; auto; congruence. }
      destruct Eu as (-> & -> & ->). eexists. split; [reflexivity|]. left. split; [now destruct s|lia].
    + destruct (H2 Hf) as (t & Et & Lo). rewrite Et. cbn [after]. exists t. split; auto. destruct Lo as [(Lo & Hlo)|(Hl & Q & Fr & Dh & Ha & Hz)]; [left; auto|right].
      pose proof (merge_sort_k_keeps leb cmp _ _ _ _ _ _ Et) as K.
      destruct (torn_rep s t ns g R K Q (Dh eq_refl) Ha Hz) as (front & back & r1 & r2 & T). exists front, back, r1, r2. split; [lia|]. split; [|exact T].
      destruct (le_lt_dec 3 room) as [|Hc]; auto. exfalso.
      (* with less room nothing happens *)
      assert (X : t = s).
      { clear - Et Hl L Hc. pose proof (k_next _ _ L) as Fn. destruct (concat ns) as [|a [|b l]]; cbn [length] in Hl; [lia|lia|]. destruct Fn as (Fn & _). cbn [entry] in *.
        destruct room as [|[|[|r]]]; [cbn in Et; congruence| | |lia]; cbn [merge_sort_k] in Et; rewrite Fn in Et; cbn in Et; congruence. }
      subst t. destruct Ha as (a & l0 & m & Ea & _). pose proof (Dh eq_refl a) as X. rewrite Ea in X. specialize (X (or_introl eq_refl)).
      destruct ns as [|[|c p] ns']; [discriminate|exfalso; pose proof (k_ne _ _ G) as Y; inv Y; congruence|].
      cbn [concat app] in Ea. injection Ea as -> _. assert (Hh : n_head s a = true) by (pose proof (k_head _ _ G) as Y; inv Y; unfold headed in *; tauto). congruence.
Qed.
End SortK.
