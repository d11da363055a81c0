(** * PStack2: bounds on the stack that a sort needs. *)
From Coq Require Import List ZArith Bool Arith Lia Permutation Sorted.
From Verif Require Import Base MSeq MGroup MSort MStack SpecStack PSort PGroup PGroup5 PStack.
Import ListNotations.
Open Scope nat_scope.

Lemma div2_half : forall n, Nat.div2 (S n) + Nat.div2 n = n.
Proof. intros n. induction n as [n IH] using lt_wf_ind. destruct n as [|[|n]]; try reflexivity. cbn [Nat.div2]. specialize (IH n ltac:(lia)). cbn [Nat.div2] in IH. lia. Qed.
Lemma div2_up : forall n, Nat.div2 n <= Nat.div2 (S n).
Proof. intros n. induction n as [n IH] using lt_wf_ind. destruct n as [|[|n]]; try (cbn; lia). specialize (IH n ltac:(lia)). cbn [Nat.div2] in *. lia. Qed.

Section Bounds.
Context {B : Type}.
Variable leb : B -> B -> bool.
Variable cmp : B -> B -> nat.

Lemma sort_perm_any : forall n (z : list B), Permutation (merge_sort leb n z) z.
Proof.
  induction n as [|n IH]; intros z; auto.
  destruct z as [|c [|d z]]; auto. cbn [merge_sort]. rewrite merge_perm, !IH, firstn_skipn. reflexivity.
Qed.
Lemma frames_lower : forall c l m, l <> [] -> m <> [] -> (forall x y, In x l -> In y m -> c <= cmp x y) -> Nat.min (length l) (length m) + Nat.max 1 c <= merge_frames leb cmp l m.
Proof.
  intros c l. induction l as [|a l IHl]; intros m Hl Hm Hc; [congruence|]. induction m as [|b m IHm]; [congruence|].
  rewrite frames_cons. assert (H : c <= cmp a b) by (apply Hc; now left). destruct (leb a b).
  - destruct l as [|a' l]; [cbn [length merge_frames]; lia|].
    specialize (IHl (b :: m) ltac:(discriminate) ltac:(discriminate)). cbn [length] in *. assert (X : forall x y, In x (a' :: l) -> In y (b :: m) -> c <= cmp x y) by (intros x y Hx Hy; apply Hc; cbn in *; tauto).
    specialize (IHl X). lia.
  - destruct m as [|b' m]; [rewrite frames_nil_r; cbn [length]; lia|].
    assert (X : forall x y, In x (a :: l) -> In y (b' :: m) -> c <= cmp x y) by (intros x y Hx Hy; apply Hc; cbn in *; tauto).
    specialize (IHm ltac:(discriminate) X). cbn [length] in *. lia.
Qed.
Lemma frames_upper : forall c l m, (forall x y, In x l -> In y m -> cmp x y <= c) -> S (merge_frames leb cmp l m) <= Nat.max 1 (length l + length m) + Nat.max 1 c.
Proof.
  intros c l. induction l as [|a l IHl]; intros m Hc; [cbn [merge_frames length]; lia|]. induction m as [|b m IHm]; [rewrite frames_nil_r; cbn [length]; lia|].
  rewrite frames_cons. assert (H : cmp a b <= c) by (apply Hc; now left). destruct (leb a b).
  - assert (X : forall x y, In x l -> In y (b :: m) -> cmp x y <= c) by (intros x y Hx Hy; apply Hc; cbn in *; tauto). specialize (IHl (b :: m) X). cbn [length] in *. lia.
  - assert (X : forall x y, In x (a :: l) -> In y m -> cmp x y <= c) by (intros x y Hx Hy; apply Hc; cbn in *; tauto). specialize (IHm X). cbn [length] in *. lia.
Qed.
Lemma in_halves : forall k (l : list B) x, In x (firstn k l) \/ In x (skipn k l) -> In x l.
Proof. intros k l x H. rewrite <- (firstn_skipn k l). now apply in_app_iff. Qed.
Lemma sort_lower : forall c n cl l, 2 <= length l -> length l <= n -> (forall x y, In x l -> In y l -> c <= cmp x y) -> S (Nat.div2 (length l)) + Nat.max 1 c <= sort_frames leb cmp n cl l.
Proof.
  intros c n cl l Hl Hn Hc. destruct n as [|n]; [lia|]. destruct l as [|a [|b l]]; cbn [length] in Hl; try lia. cbn [sort_frames]. set (L := a :: b :: l) in *. set (k := Nat.div2 (S (length L))).
  destruct (half_bounds a b l) as (H1 & H2). fold L in H1, H2. fold k in H1, H2.
  assert (X : Nat.min (length (merge_sort leb n (firstn k L))) (length (merge_sort leb n (skipn k L))) + Nat.max 1 c <= merge_frames leb cmp (merge_sort leb n (firstn k L)) (merge_sort leb n (skipn k L))).
  { apply frames_lower.
    - intros E. pose proof (sort_perm_any n (firstn k L)) as P. rewrite E in P. apply Permutation_length in P. rewrite firstn_length in P. cbn [length] in P. lia.
    - intros E. pose proof (sort_perm_any n (skipn k L)) as P. rewrite E in P. apply Permutation_length in P. rewrite skipn_length in P. change (@length B []) with 0 in P. lia.
    - intros x y Hx Hy. apply (Permutation_in _ (sort_perm_any _ _)) in Hx, Hy. apply Hc; apply (in_halves k); auto. }
  rewrite (Permutation_length (sort_perm_any n (firstn k L))), (Permutation_length (sort_perm_any n (skipn k L))), firstn_length, skipn_length in X.
  pose proof (div2_half (length L)) as Hh. pose proof (div2_up (length L)) as Hu. fold k in Hh, Hu. lia.
Qed.
Lemma sort_upper : forall c n cl l, length l <= n -> (forall x y, In x l -> In y l -> cmp x y <= c) -> sort_frames leb cmp n cl l <= Nat.max 1 (if length l <=? 1 then 0 else length l + Nat.max 1 c).
Proof.
  intros c n. induction n as [|n IH]; intros cl l Hn Hc; [cbn [sort_frames]; lia|]. destruct l as [|a [|b l]]; [cbn [sort_frames]; lia|cbn [sort_frames]; lia|]. cbn [sort_frames]. set (L := a :: b :: l) in *. set (k := Nat.div2 (S (length L))).
  destruct (half_bounds a b l) as (H1 & H2). fold L in H1, H2. fold k in H1, H2.
  assert (E1 : length (firstn k L) = k) by (rewrite firstn_length; lia). assert (E2 : length (skipn k L) = length L - k) by apply skipn_length.
  assert (X1 : sort_frames leb cmp n false (firstn k L) <= Nat.max 1 (if length (firstn k L) <=? 1 then 0 else length (firstn k L) + Nat.max 1 c)) by (apply IH; [lia|]; intros x y Hx Hy; apply Hc; apply (in_halves k); auto).
  assert (X2 : sort_frames leb cmp n false (skipn k L) <= Nat.max 1 (if length (skipn k L) <=? 1 then 0 else length (skipn k L) + Nat.max 1 c)) by (apply IH; [lia|]; intros x y Hx Hy; apply Hc; apply (in_halves k); auto).
  assert (X3 : S (merge_frames leb cmp (merge_sort leb n (firstn k L)) (merge_sort leb n (skipn k L))) <= Nat.max 1 (length (merge_sort leb n (firstn k L)) + length (merge_sort leb n (skipn k L))) + Nat.max 1 c).
  { apply frames_upper. intros x y Hx Hy. apply (Permutation_in _ (sort_perm_any _ _)) in Hx, Hy. apply Hc; apply (in_halves k); auto. }
  rewrite (Permutation_length (sort_perm_any n (firstn k L))), (Permutation_length (sort_perm_any n (skipn k L))) in X3. rewrite E1 in *. rewrite E2 in *.
  assert (E3 : (length L <=? 1) = false) by (apply Nat.leb_gt; unfold L; cbn; lia). rewrite E3.
  assert (HL : 2 <= length L) by (unfold L; cbn; lia). destruct (k <=? 1), (length L - k <=? 1), cl; lia.
Qed.

(** ** Lists that are in order already *)
Notation le := (fun x y => leb x y = true).
Lemma merge_sorted_app : forall l m, (forall x y, In x l -> In y m -> leb x y = true) -> merge_lists leb l m = l ++ m.
Proof.
  intros l m H. induction l as [|a l IH]; [reflexivity|]. destruct m as [|b m]; [rewrite merge_nil_r, app_nil_r; reflexivity|].
  rewrite merge_cons, H by (now left). cbn [app]. rewrite IH; auto. intros x y Hx. apply H. now right.
Qed.
Lemma frames_sorted : forall c l m, l <> [] -> m <> [] -> (forall x y, In x l -> In y m -> leb x y = true /\ cmp x y = c) -> merge_frames leb cmp l m = length l + Nat.max 1 c.
Proof.
  intros c l. induction l as [|a l IHl]; intros m Hl Hm H; [congruence|]. destruct m as [|b m]; [congruence|].
  rewrite frames_cons. destruct (H a b) as (-> & ->); [now left|now left|]. destruct l as [|a' l]; [cbn [merge_frames length]; lia|].
  rewrite IHl; try discriminate; [cbn [length]; lia|]. intros x y Hx Hy. apply H; cbn in *; tauto.
Qed.
Lemma ss_app : forall l m, StronglySorted le (l ++ m) -> StronglySorted le l /\ StronglySorted le m /\ forall x y, In x l -> In y m -> leb x y = true.
Proof.
  induction l as [|a l IH]; intros m H; [split; [constructor|]; split; [exact H|intros x y []]|]. cbn in H. inversion H as [|? ? H1 H2]; subst.
  destruct (IH m H1) as (A1 & A2 & A3). rewrite Forall_app in H2. destruct H2 as (F1 & F2). split; [now constructor|]. split; auto.
  intros x y [<-|Hx] Hy; auto. rewrite Forall_forall in F2. auto.
Qed.
Lemma sort_sorted : forall n l, StronglySorted le l -> merge_sort leb n l = l.
Proof.
  induction n as [|n IH]; intros l H; auto. destruct l as [|a [|b l]]; auto. cbn [merge_sort]. set (L := a :: b :: l) in *. set (k := Nat.div2 (S (length L))).
  rewrite <- (firstn_skipn k L) in H. destruct (ss_app _ _ H) as (H1 & H2 & H3). rewrite !IH by auto. rewrite merge_sorted_app by auto. apply firstn_skipn.
Qed.
Lemma sort_frames_sorted : forall c n cl l, 2 <= length l -> length l <= n -> StronglySorted le l -> (forall x y, In x l -> In y l -> cmp x y = c) -> 1 <= c ->
  sort_frames leb cmp n cl l = S (Nat.div2 (S (length l))) + c.
Proof.
  intros c n. induction n as [|n IH]; intros cl l Hl Hn H Hc Hc1; [lia|]. destruct l as [|a [|b l]]; cbn [length] in Hl; try lia. cbn [sort_frames]. set (L := a :: b :: l) in *. set (k := Nat.div2 (S (length L))).
  destruct (half_bounds a b l) as (H1 & H2). fold L in H1, H2. fold k in H1, H2.
  assert (E1 : length (firstn k L) = k) by (rewrite firstn_length; lia). assert (E2 : length (skipn k L) = length L - k) by apply skipn_length.
  pose proof H as H0. rewrite <- (firstn_skipn k L) in H0. destruct (ss_app _ _ H0) as (S1 & S2 & S3). rewrite !sort_sorted by auto.
  rewrite (frames_sorted c).
  2:{ intros E. rewrite E in E1. cbn in E1. lia. } 2:{ intros E. rewrite E in E2. cbn [length] in E2. lia. }
  2:{ intros x y Hx Hy. split; [auto|]. apply Hc; apply (in_halves k); auto. }
  rewrite E1. pose proof (div2_half (length L)) as Hh. fold k in Hh.
  assert (Hk : Nat.div2 (S k) + Nat.div2 k = k) by apply div2_half.
  assert (Hm : Nat.div2 (S (length L - k)) + Nat.div2 (length L - k) = length L - k) by apply div2_half.
  assert (Hd : forall i, 2 <= i -> 1 <= Nat.div2 i) by (intros [|[|i]] Hi; cbn [Nat.div2]; lia).
  assert (X1 : sort_frames leb cmp n false (firstn k L) <= k + c).
  { destruct (le_lt_dec 2 k) as [K|K].
    - rewrite IH; try lia; auto; [|intros x y Hx Hy; apply Hc; apply (in_halves k); auto]. rewrite E1. specialize (Hd k K). lia.
    - assert (X : sort_frames leb cmp n false (firstn k L) = 1). { destruct (firstn k L) as [|x [|y z]]; cbn [length] in E1; [| |lia]; destruct n; reflexivity. } lia. }
  assert (X2 : sort_frames leb cmp n false (skipn k L) <= k + c).
  { assert (Hs : length L - k <= k) by (pose proof (div2_up (length L)) as Hu; fold k in Hu; lia).
    destruct (le_lt_dec 2 (length L - k)) as [K|K].
    - rewrite IH; try lia; auto; [|intros x y Hx Hy; apply Hc; apply (in_halves k); auto]. rewrite E2. specialize (Hd _ K). lia.
    - assert (X : sort_frames leb cmp n false (skipn k L) = 1). { destruct (skipn k L) as [|x [|y z]]; cbn [length] in E2; [| |lia]; destruct n; reflexivity. } lia. }
  destruct cl; lia.
Qed.
(** Equal items. *)
Lemma ss_repeat : forall (x : B) n, leb x x = true -> StronglySorted le (repeat x n).
Proof. intros x n H. induction n as [|n IH]; cbn; constructor; auto. apply Forall_forall. intros y Hy. apply repeat_spec in Hy. now subst. Qed.
End Bounds.

(** ** Two lists whose items alternate *)
Definition evens (i k : nat) : list nat := map (fun j => 2 * j) (List.seq i k).
Definition odds (i k : nat) : list nat := map (fun j => 2 * j + 1) (List.seq i k).
Definition alternating (n : nat) : list nat := evens 0 (Nat.div2 (S n)) ++ odds 0 (Nat.div2 n).
Lemma frames_alternate : forall c k i, 1 <= c ->
  merge_frames Nat.leb (fun _ _ => c) (evens i (S k)) (odds i (S k)) = 2 * k + 1 + c /\ merge_frames Nat.leb (fun _ _ => c) (evens i (S (S k))) (odds i (S k)) = 2 * k + 2 + c.
Proof.
  intros c k. induction k as [|k IH]; intros i Hc.
  - unfold evens, odds. cbn [List.seq map]. split.
    + rewrite frames_cons. assert (E : (2 * i <=? 2 * i + 1) = true) by (apply Nat.leb_le; lia). rewrite E. cbn [merge_frames]. lia.
    + rewrite frames_cons. assert (E : (2 * i <=? 2 * i + 1) = true) by (apply Nat.leb_le; lia). rewrite E.
      rewrite frames_cons. assert (E' : (2 * S i <=? 2 * i + 1) = false) by (apply Nat.leb_gt; lia). rewrite E', frames_nil_r. lia.
  - destruct (IH (S i) Hc) as (I1 & I2). unfold evens, odds in *. change (List.seq i (S (S k))) with (i :: S i :: List.seq (S (S i)) k). change (List.seq i (S (S (S k)))) with (i :: S i :: List.seq (S (S i)) (S k)).
    change (List.seq (S i) (S k)) with (S i :: List.seq (S (S i)) k) in *. change (List.seq (S i) (S (S k))) with (S i :: List.seq (S (S i)) (S k)) in *. cbn [map] in *.
    assert (E : (2 * i <=? 2 * i + 1) = true) by (apply Nat.leb_le; lia). assert (E' : (2 * S i <=? 2 * i + 1) = false) by (apply Nat.leb_gt; lia).
    split.
    + rewrite frames_cons, E, frames_cons, E'. rewrite I1. lia.
    + rewrite frames_cons, E, frames_cons, E'. rewrite I2. lia.
Qed.
Lemma alternating_length : forall n, length (alternating n) = n.
Proof. intros n. unfold alternating, evens, odds. rewrite app_length, !map_length, !seq_length. apply div2_half. Qed.
Lemma ss_map : forall (f : nat -> nat) k i, (forall a b, a <= b -> f a <= f b) -> StronglySorted (fun x y => Nat.leb x y = true) (map f (List.seq i k)).
Proof.
  intros f k. induction k as [|k IH]; intros i H; cbn; constructor; auto. apply Forall_forall. intros y Hy. apply in_map_iff in Hy. destruct Hy as (j & <- & Hj). apply in_seq in Hj. apply Nat.leb_le. apply H. lia.
Qed.
Lemma sort_frames_alternating : forall c n m cl, 1 <= c -> 2 <= n -> n <= m -> sort_frames Nat.leb (fun _ _ => c) m cl (alternating n) = n + c.
Proof.
  intros c n m cl Hc Hn Hm. pose proof (sort_upper Nat.leb (fun _ _ => c) c m cl (alternating n)) as U. rewrite alternating_length in U. specialize (U Hm ltac:(auto)).
  assert (E : (n <=? 1) = false) by (apply Nat.leb_gt; lia). rewrite E in U.
  assert (Lw : n + c <= sort_frames Nat.leb (fun _ _ => c) m cl (alternating n)); [|lia]. clear U.
  destruct m as [|m]; [lia|]. pose proof (alternating_length n) as La. cbn [sort_frames]. destruct (alternating n) as [|x [|y l]] eqn:Ea; cbn [length] in La; try lia. rewrite <- Ea. clear La.
  rewrite alternating_length. set (k := Nat.div2 (S n)) in *. pose proof (div2_half n) as Hh. fold k in Hh.
  assert (E1 : firstn k (alternating n) = evens 0 k).
  { unfold alternating. fold k. replace k with (length (evens 0 k)) at 1 by (unfold evens; now rewrite map_length, seq_length). rewrite firstn_app, Nat.sub_diag, firstn_all. cbn [firstn]. apply app_nil_r. }
  assert (E2 : skipn k (alternating n) = odds 0 (Nat.div2 n)).
  { unfold alternating. fold k. replace k with (length (evens 0 k)) at 1 by (unfold evens; now rewrite map_length, seq_length). rewrite skipn_app, Nat.sub_diag, skipn_all. reflexivity. }
  rewrite E1, E2. rewrite !(sort_sorted Nat.leb) by (unfold evens, odds; apply ss_map; intros; lia).
  assert (X : merge_frames Nat.leb (fun _ _ => c) (evens 0 k) (odds 0 (Nat.div2 n)) = n - 1 + c); [|destruct cl; lia].
  assert (Hd : 1 <= Nat.div2 n) by (destruct n as [|[|i]]; cbn [Nat.div2]; lia).
  destruct (Nat.div2 n) as [|j] eqn:Ej; [lia|]. destruct (frames_alternate c j 0 Hc) as (F1 & F2).
  assert (Hk : k = S j \/ k = S (S j)).
  { unfold k. pose proof (Nat.div2_div n). pose proof (Nat.div2_div (S n)). destruct (Nat.Even_or_Odd n) as [(q & ->)|(q & ->)].
    - left. rewrite Nat.div2_double in Ej. replace (S (2 * q)) with (S (2 * q)) by lia. rewrite Nat.div2_succ_double. auto.
    - right. replace (2 * q + 1) with (S (2 * q)) in * by lia. rewrite Nat.div2_succ_double in Ej. replace (S (S (2 * q))) with (2 * (S q)) by lia. rewrite Nat.div2_double. lia. }
  destruct Hk as [-> | ->]; rewrite ?F1, ?F2; lia.
Qed.
