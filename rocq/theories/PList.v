(** * PList: general facts on lists, integer ranges and strictly sorted lists. *)
From Coq Require Import List ZArith Bool Lia Sorted.
From Verif Require Import Base.
Import ListNotations.
Open Scope Z_scope.

Lemma zseq_length : forall n a, length (zseq a n) = n.
Proof. induction n; intros; simpl; auto. Qed.

Lemma zseq_nth : forall n a i, (i < n)%nat -> nth_error (zseq a n) i = Some (a + Z.of_nat i).
Proof.
  induction n; intros a i Hi; [lia|]. destruct i; simpl.
  - f_equal; lia.
  - rewrite IHn by lia. f_equal. lia.
Qed.

Lemma zseq_in : forall n a x, In x (zseq a n) <-> a <= x < a + Z.of_nat n.
Proof.
  induction n; intros a x; simpl.
  - lia.
  - rewrite IHn. lia.
Qed.

Lemma zrange_in : forall a b x, In x (zrange a b) <-> a <= x <= b.
Proof. intros. unfold zrange. rewrite zseq_in. lia. Qed.

Lemma zrange_length : forall a b, length (zrange a b) = Z.to_nat (b - a + 1).
Proof. intros. apply zseq_length. Qed.

Lemma zrange_nth : forall a b i, a + Z.of_nat i <= b -> nth_error (zrange a b) i = Some (a + Z.of_nat i).
Proof. intros. apply zseq_nth. lia. Qed.

Lemma zrange_nil : forall a b, b < a -> zrange a b = [].
Proof. intros. unfold zrange. replace (Z.to_nat (b - a + 1)) with 0%nat by lia. reflexivity. Qed.

Lemma zrange_cons : forall a b, a <= b -> zrange a b = a :: zrange (a + 1) b.
Proof.
  intros. unfold zrange. replace (Z.to_nat (b - a + 1)) with (S (Z.to_nat (b - (a + 1) + 1))) by lia.
  reflexivity.
Qed.

Lemma zseq_app : forall n m a, zseq a (n + m) = zseq a n ++ zseq (a + Z.of_nat n) m.
Proof.
  induction n; intros; simpl.
  - f_equal. lia.
  - f_equal. rewrite IHn. f_equal. f_equal. lia.
Qed.

Lemma zrange_app : forall a b c, a <= b + 1 -> b <= c -> zrange a c = zrange a b ++ zrange (b + 1) c.
Proof.
  intros. unfold zrange.
  replace (Z.to_nat (c - a + 1)) with (Z.to_nat (b - a + 1) + Z.to_nat (c - (b + 1) + 1))%nat by lia.
  rewrite zseq_app. f_equal. f_equal. lia.
Qed.

Lemma zrange_snoc : forall a b, a <= b -> zrange a b = zrange a (b - 1) ++ [b].
Proof.
  intros. rewrite (zrange_app a (b - 1) b) by lia. f_equal.
  rewrite zrange_cons by lia. rewrite zrange_nil by lia. f_equal. lia.
Qed.

Lemma zrange_sorted : forall a b, StronglySorted Z.lt (zrange a b).
Proof.
  intros a b. unfold zrange. generalize (Z.to_nat (b - a + 1)). intros n. revert a.
  induction n; intros a; simpl; constructor; auto.
  apply Forall_forall. intros x. rewrite zseq_in. lia.
Qed.

Lemma zmem_in : forall x l, zmem x l = true <-> In x l.
Proof.
  induction l; simpl; [split; [discriminate|tauto]|].
  rewrite orb_true_iff, IHl, Z.eqb_eq. intuition congruence.
Qed.

(** Strictly sorted lists. *)
Lemma sorted_app_inv : forall {A} (R : A -> A -> Prop) l m,
  StronglySorted R (l ++ m) -> StronglySorted R l /\ StronglySorted R m /\
  forall x y, In x l -> In y m -> R x y.
Proof.
  induction l; simpl; intros m H.
  - split; [constructor|]. split; [assumption|]. intros x y [].
  - apply StronglySorted_inv in H. destruct H as [H1 H2].
    destruct (IHl _ H1) as [H3 [H4 H5]]. rewrite Forall_app in H2. destruct H2 as [H2 H2'].
    split; [constructor; assumption|]. split; [assumption|].
    intros x y [->|Hx] Hy; [|auto]. rewrite Forall_forall in H2'. auto.
Qed.

Lemma sorted_app : forall {A} (R : A -> A -> Prop) l m,
  StronglySorted R l -> StronglySorted R m -> (forall x y, In x l -> In y m -> R x y) ->
  StronglySorted R (l ++ m).
Proof.
  induction l; simpl; intros m H1 H2 H3; [assumption|].
  apply StronglySorted_inv in H1. destruct H1 as [H1 H1'].
  constructor; [apply IHl; auto|]. rewrite Forall_app. split; [assumption|].
  rewrite Forall_forall. auto.
Qed.

Lemma sorted_flat_map : forall {A B} (P : A -> A -> Prop) (Q : B -> B -> Prop) (f : A -> list B) l,
  StronglySorted P l ->
  (forall x, In x l -> StronglySorted Q (f x)) ->
  (forall x y a b, In x l -> In y l -> P x y -> In a (f x) -> In b (f y) -> Q a b) ->
  StronglySorted Q (flat_map f l).
Proof.
  induction l; simpl; intros H1 H2 H3; [constructor|].
  apply StronglySorted_inv in H1. destruct H1 as [H1 H1'].
  apply sorted_app.
  - auto.
  - apply IHl; eauto.
  - intros x y Hx Hy. apply in_flat_map in Hy. destruct Hy as [a' [Ha' Hy]].
    rewrite Forall_forall in H1'. eapply (H3 a a'); eauto.
Qed.

Lemma sorted_map : forall {A B} (P : A -> A -> Prop) (Q : B -> B -> Prop) (f : A -> B) l,
  StronglySorted P l -> (forall x y, P x y -> Q (f x) (f y)) -> StronglySorted Q (map f l).
Proof.
  induction l; simpl; intros H1 H2; [constructor|].
  apply StronglySorted_inv in H1. destruct H1 as [H1 H1']. constructor; auto.
  rewrite Forall_map. eapply Forall_impl; [|exact H1']. auto.
Qed.

Lemma sorted_nth_lt : forall {A} (R : A -> A -> Prop) l i j a b,
  StronglySorted R l -> nth_error l i = Some a -> nth_error l j = Some b -> (i < j)%nat -> R a b.
Proof.
  induction l; intros i j x y H Hi Hj Hij; [destruct i; discriminate|].
  apply StronglySorted_inv in H. destruct H as [H H'].
  destruct j; [lia|]. simpl in Hj. destruct i; simpl in Hi.
  - injection Hi as ->. rewrite Forall_forall in H'. apply H'. eapply nth_error_In; eauto.
  - eapply IHl; eauto. lia.
Qed.

Lemma sorted_nodup : forall {A} (R : A -> A -> Prop) l,
  (forall x, ~ R x x) -> StronglySorted R l -> NoDup l.
Proof.
  induction l; intros Hirr H; constructor.
  - apply StronglySorted_inv in H. destruct H as [_ H]. rewrite Forall_forall in H.
    intros Hin. exact (Hirr _ (H _ Hin)).
  - apply IHl; auto. now apply StronglySorted_inv in H.
Qed.

Lemma sorted_filter : forall {A} (R : A -> A -> Prop) f l,
  StronglySorted R l -> StronglySorted R (filter f l).
Proof.
  induction l; simpl; intros H; [constructor|].
  apply StronglySorted_inv in H. destruct H as [H H']. destruct (f a); auto.
  constructor; auto. rewrite Forall_forall in *. intros x Hx. apply filter_In in Hx. firstorder.
Qed.

(** Two strictly sorted lists with the same elements are equal. *)
Lemma sorted_ext : forall {A} (R : A -> A -> Prop) l m,
  (forall x, ~ R x x) -> (forall x y z, R x y -> R y z -> R x z) ->
  StronglySorted R l -> StronglySorted R m -> (forall x, In x l <-> In x m) -> l = m.
Proof.
  intros A R l m Hirr Htr Hl. revert m.
  induction l as [|a l IH]; intros m Hm Heq.
  - destruct m as [|b m]; [reflexivity|]. destruct (proj2 (Heq b) (or_introl eq_refl)).
  - destruct m as [|b m]; [destruct (proj1 (Heq a) (or_introl eq_refl))|].
    apply StronglySorted_inv in Hl. apply StronglySorted_inv in Hm.
    destruct Hl as [Hl Hla], Hm as [Hm Hmb]. rewrite Forall_forall in Hla, Hmb.
    assert (a = b) as <-.
    { destruct (proj1 (Heq a) (or_introl eq_refl)) as [E|Ha]; [auto|].
      destruct (proj2 (Heq b) (or_introl eq_refl)) as [E|Hb]; [auto|].
      exfalso. apply (Hirr a). apply Htr with b; auto. }
    f_equal. apply IH; auto. intros x. split; intros Hx.
    + destruct (proj1 (Heq x) (or_intror Hx)) as [->|]; [|assumption]. destruct (Hirr x). auto.
    + destruct (proj2 (Heq x) (or_intror Hx)) as [->|]; [|assumption]. destruct (Hirr x). auto.
Qed.

Lemma nth_error_app : forall {A} (l m : list A) i,
  nth_error (l ++ m) i = if (i <? length l)%nat then nth_error l i else nth_error m (i - length l).
Proof.
  intros A l m i. destruct (Nat.ltb_spec i (length l)).
  - now apply nth_error_app1.
  - now apply nth_error_app2.
Qed.

Lemma flat_map_app' : forall {A B} (f : A -> list B) l m, flat_map f (l ++ m) = flat_map f l ++ flat_map f m.
Proof. intros. apply flat_map_app. Qed.

Lemma nodup_nth_inj : forall {A} (l : list A) i j a,
  NoDup l -> nth_error l i = Some a -> nth_error l j = Some a -> i = j.
Proof.
  intros A l i j a H Hi Hj. rewrite NoDup_nth_error in H. apply H.
  - apply nth_error_Some. congruence.
  - congruence.
Qed.

Lemma Forall2_len : forall {A B} (P : A -> B -> Prop) l m, Forall2 P l m -> length l = length m.
Proof. intros A B P l m H. induction H; simpl; auto. Qed.
