(** * POrder4: list methods with exact comparisons (MOrder2.v) for ranges that cannot all be compared. *)
From Coq Require Import List ZArith Bool Arith Lia Permutation.
From Verif Require Import Base Books Chars Regex Data MVerse MRange MSeq MList MGroup MNode MSort MOrder MOrder2 SpecGroup SpecNode SpecOrder Spec.
From Verif Require Import PCore PVerse PSort PGroup PGroup2 PGroup4 PGroup5 PGroup6 PGroup7 PGroup8 PNode PNode2 PropGroup PSort2 POrder POrder2 PropSort POrder3.
Import ListNotations.
Open Scope Z_scope.

Section Mixed.
Variable e : env.

Definition rkind (r : range) : option book := vkind e (rstart r).
Lemma sound_of : forall r, sound e r -> of_kind e (rkind r) r.
Proof. intros r H. apply sound_kind in H. destruct H as (k & A & B). unfold rkind. split; congruence. Qed.
Lemma cmp_kind : forall a b, sound e a -> sound e b -> (comparable2 e a b <-> rkind a = rkind b).
Proof.
  intros a b Ha Hb. rewrite comparable2_kind. apply sound_of in Ha. apply sound_of in Hb. split.
  - intros (k & (A & _) & (B & _)). unfold rkind. congruence.
  - intros E. rewrite E in Ha. eauto.
Qed.
Lemma cmp_dec : forall a b, sound e a -> sound e b -> comparable2 e a b \/ ~ comparable2 e a b.
Proof. intros a b Ha Hb. rewrite cmp_kind by auto. destruct (kind_dec (rkind a) (rkind b)); auto. Qed.
Lemma all_cmp_kind : forall l k, Forall (sound e) l -> (forall x, In x l -> rkind x = k) -> Forall (of_kind e k) l.
Proof. intros l k Hs H. apply Forall_forall. intros x Hx. rewrite Forall_forall in Hs. rewrite <- (H x Hx). apply sound_of. auto. Qed.
(** Two lists whose ranges can be compared with each other, neither of them empty, are of one kind. *)
Lemma cross_kind : forall xs ys, Forall (sound e) xs -> Forall (sound e) ys -> (forall a b, In a xs -> In b ys -> comparable2 e a b) -> xs <> [] -> ys <> [] ->
  exists k, Forall (of_kind e k) xs /\ Forall (of_kind e k) ys.
Proof.
  intros xs ys Hx Hy C Nx Ny. destruct ys as [|b ys]; [congruence|]. destruct xs as [|a xs]; [congruence|]. exists (rkind b).
  assert (C' : forall x y, In x (a :: xs) -> In y (b :: ys) -> rkind x = rkind y).
  { intros x y Ix Iy. pose proof (C x y Ix Iy) as Q. rewrite Forall_forall in Hx, Hy. apply cmp_kind in Q; auto. }
  split; apply all_cmp_kind; auto.
  - intros x Ix. apply C'; auto. now left.
  - intros y Iy. rewrite <- (C' a y), <- (C' a b); auto; now left.
Qed.
Lemma kind_of : forall k r, of_kind e k r -> rkind r = k /\ sound e r.
Proof. intros k r H. split; [apply H|]. apply sound_kind. eauto. Qed.

(** ** Intersection *)
Definition meets_error (fl : option flag) (xs ys : list range) (q : exn) : Prop :=
  q = TypeErr \/ exists a b, In a xs /\ In b ys /\ comparable2 e a b /\ intersection e a b fl = Err q.
Lemma meets_mixed : forall fl a bs (t : heap) k, sound e a -> Forall (sound e) bs -> state t k [] ->
  (exists t' k', x_meets_with e fl a bs t = Ok t' /\ state t' k' [] /\ forall b, In b bs -> comparable2 e a b) \/
  (exists q, x_meets_with e fl a bs t = Err q /\ meets_error fl [a] bs q).
Proof.
  intros fl a. induction bs as [|b bs IH]; intros t k Ha Hb H; cbn [x_meets_with].
  - left. exists t, k. split; auto. split; auto. intros b [].
  - pose proof (Forall_inv Hb) as H1. pose proof (Forall_inv_tail Hb) as H2.
    destruct (cmp_dec a b Ha H1) as [C|C].
    2:{ right. exists TypeErr. destruct (C76_raises e a b fl Ha H1 C) as (_ & _ & _ & _ & _ & _ & _ & _ & _ & -> & _). split; [reflexivity|now left]. }
    destruct (C76_exact e a b fl C) as (_ & _ & _ & _ & _ & _ & _ & _ & _ & -> & _). destruct (intersection e a b fl) as [i|q] eqn:Ei; cbn [bind].
    2:{ right. exists q. split; auto. right. exists a, b. split; [now left|]. split; [now left|auto]. }
    assert (M : exists t1 k1, match i with [] => Ok t | m :: _ => append m false t end = Ok t1 /\ state t1 k1 []).
    { destruct i as [|m i]; [eauto|]. destruct (append_state t k [] false m H) as (u & Eu & S & _). eauto. }
    destruct M as (t1 & k1 & -> & S1). cbn [bind]. destruct (IH t1 k1 Ha H2 S1) as [(t' & k' & E & S & Q)|(q & E & Q)].
    + left. exists t', k'. split; auto. split; auto. intros x [<-|Hx]; auto.
    + right. exists q. split; auto. destruct Q as [Q|(x & y & Ix & Iy & Q)]; [now left|right]. exists x, y. split; auto. split; [now right|auto].
Qed.
Lemma all_meets_mixed : forall fl xs bs (t : heap) k, Forall (sound e) xs -> Forall (sound e) bs -> state t k [] ->
  (exists t', x_all_meets e fl xs bs t = Ok t' /\ forall a b, In a xs -> In b bs -> comparable2 e a b) \/
  (exists q, x_all_meets e fl xs bs t = Err q /\ meets_error fl xs bs q).
Proof.
  intros fl xs bs t k Hx Hb. revert t k. induction Hx as [|a xs Ha Hx IH]; intros t k H; cbn [x_all_meets].
  - left. exists t. split; auto. intros a b [].
  - destruct (meets_mixed fl a bs t k Ha Hb H) as [(t' & k' & E & S & Q)|(q & E & Q)]; rewrite E; cbn [bind].
    + destruct (IH t' k' S) as [(u & Eu & Qu)|(q & Eq & Qq)].
      * left. exists u. split; auto. intros x y [<-|Ix] Iy; auto.
      * right. exists q. split; auto. destruct Qq as [Qq|(x & y & Ix & Qq)]; [now left|right]. exists x, y. split; [now right|auto].
    + right. exists q. split; auto. destruct Q as [Q|(x & y & [<-|[]] & Q)]; [now left|right]. exists a, y. split; [now left|auto].
Qed.

(** ** Difference *)
Hypothesis Ho : order_ok (ed e).
Definition diff_error (fl : option flag) (ys : list range) (q : exn) : Prop :=
  q = TypeErr \/ exists a b, In b ys /\ comparable2 e a b /\ difference e a b fl = Err q.
Lemma diff_inner_mixed : forall k fl others (s : heap) h O l1 a x l2, state s h O -> concat h = l1 ++ (a, x) :: l2 -> of_kind e k x -> Forall (sound e) others ->
  Forall (of_kind e k) others \/ exists s' h' q, x_diff_inner e fl others a s = (s', Err q) /\ state s' h' O /\ diff_error fl others q.
Proof.
  intros k fl. induction others as [|b bs IH]; intros s h O l1 a x l2 H E Kx Hb; cbn [x_diff_inner]; [now left|].
  pose proof (Forall_inv Hb) as H1. pose proof (Forall_inv_tail Hb) as H2. destruct (kind_of k x Kx) as (Ex & Hx).
  rewrite (flat_value s h O _ _ _ _ H E). cbn [bind]. destruct (cmp_dec x b Hx H1) as [C|C].
  2:{ right. exists s, h, TypeErr. destruct (C76_raises e x b fl Hx H1 C) as (_ & _ & _ & _ & _ & _ & _ & _ & _ & _ & -> & _). split; auto. split; auto. now left. }
  destruct (C76_exact e x b fl C) as (_ & _ & _ & _ & _ & _ & _ & _ & _ & _ & -> & _).
  assert (K1 : of_kind e k b). { apply cmp_kind in C; auto. rewrite <- Ex, C. now apply sound_of. }
  assert (W : forall q, diff_error fl bs q -> diff_error fl (b :: bs) q).
  { intros q [Q|(x' & y & Iy & Q)]; [now left|right]. exists x', y. split; [now right|auto]. }
  destruct (difference e x b fl) as [ds|q] eqn:Ed.
  2:{ right. exists s, h, q. split; auto. split; auto. right. exists x, b. split; [now left|auto]. }
  assert (G : forall s1 h1 l3 a1 x1, state s1 h1 O -> concat h1 = l1 ++ (a1, x1) :: l3 -> of_kind e k x1 ->
    Forall (of_kind e k) (b :: bs) \/ exists s' h' q, x_diff_inner e fl bs a1 s1 = (s', Err q) /\ state s' h' O /\ diff_error fl (b :: bs) q).
  { intros s1 h1 l3 a1 x1 S1 C1 Kx1. destruct (IH s1 h1 O l1 a1 x1 l3 S1 C1 Kx1 H2) as [A|(s' & h' & q & Eq & S' & Q)]; [left; auto|right]. exists s', h', q. auto. }
  destruct ds as [|d ds]; [eapply G; eauto|].
  destruct (put_before_state (rev (d :: ds)) s h O l1 a x l2 H E) as (c & u & h1 & P & Eu & S1 & C1 & V1 & B1). rewrite Eu. cbn [bind fst snd].
  rewrite rev_involutive in V1. destruct P as [|(c' & d') P]; [discriminate|]. cbn [map fst snd entry] in *. injection B1 as ->. injection V1 as -> V1.
  assert (C1' : concat h1 = (l1 ++ (c', d) :: P) ++ (a, x) :: l2) by (rewrite C1, <- app_assoc; reflexivity).
  destruct (flat_pop u h1 O _ _ _ _ S1 C1') as (w & h2 & Ew & S2 & C2). rewrite Ew. cbn [bind fst snd].
  rewrite <- app_assoc in C2. eapply G; [exact S2|exact C2|]. pose proof (difference_kind e Ho k _ _ _ _ Kx K1 Ed) as Kd. now apply Forall_inv in Kd.
Qed.
Lemma diff_inner_error : forall k fl others x q, of_kind e k x -> Forall (of_kind e k) others -> diff_inner e fl x others = Err q -> diff_error fl others q.
Proof.
  intros k fl. induction others as [|b bs IH]; intros x q Kx Kb E; cbn in E; [discriminate|]. pose proof (Forall_inv Kb) as K1. pose proof (Forall_inv_tail Kb) as K2.
  assert (W : diff_error fl bs q -> diff_error fl (b :: bs) q).
  { intros [Q|(x' & y & Iy & Q)]; [now left|right]. exists x', y. split; [now right|auto]. }
  destruct (difference e x b fl) as [ds|q'] eqn:Ed; cbn in E.
  - pose proof (difference_kind e Ho k _ _ _ _ Kx K1 Ed) as Kd. destruct ds as [|y ds]; [apply W; eauto|].
    destruct (diff_inner e fl y bs) as [p|q'] eqn:Eq; cbn in E; [discriminate|]. injection E as <-. apply W. eapply IH; [|exact K2|exact Eq]. now apply Forall_inv in Kd.
  - injection E as <-. right. exists x, b. split; [now left|]. split; [|exact Ed]. apply comparable2_kind. eauto.
Qed.
(** A node that cannot be compared with one of the others, or an earlier one, makes the loop raise. *)
Lemma diff_loop_mixed : forall fl others, Forall (sound e) others -> forall n (s : heap) h O l1 l2, state s h O -> concat h = l1 ++ l2 -> Forall (sound e) (map snd l2) ->
  (exists x b, In x (map snd l2) /\ In b others /\ ~ comparable2 e x b) ->
  exists s' h' q, x_diff_loop e fl others n (entry (map fst l2) None) s = (s', Err q) /\ state s' h' O /\ (q = Diverge \/ diff_error fl others q).
Proof.
  intros fl others Hb. induction n as [|n IH]; intros s h O l1 l2 H E Hl (x0 & b0 & Ix & Ib & N); destruct l2 as [|(a & x) l2]; cbn [map fst snd entry x_diff_loop] in *; try destruct Ix.
  - exists s, h, Diverge. auto.
  - exists s, h, Diverge. auto.
  - subst x0. pose proof (Forall_inv Hl) as Hx. pose proof (sound_of x Hx) as Kx.
    destruct (diff_inner_mixed _ fl others s h O l1 a x l2 H E Kx Hb) as [A|(s' & h' & q & Eq & S' & Q)].
    + exfalso. apply N. rewrite Forall_forall in A, Hb. apply comparable2_kind. exists (rkind x). auto.
    + exists s', h', q. rewrite Eq. auto.
  - pose proof (Forall_inv Hl) as Hx. pose proof (sound_of x Hx) as Kx. pose proof (Forall_inv_tail Hl) as Hl'.
    destruct (diff_inner_mixed _ fl others s h O l1 a x l2 H E Kx Hb) as [A|(s' & h' & q & Eq & S' & Q)].
    2:{ exists s', h', q. rewrite Eq. auto. }
    rewrite (diff_inner_ok e Ho _ fl others s h O l1 a x l2 H E Kx A).
    pose proof (diff_inner_state e fl others s h O l1 a x l2 H E) as D. destruct (diff_inner e fl x others) as [p|ex] eqn:Ep.
    + destruct D as (b & u & h1 & M & E1 & S1 & C1 & V1). rewrite E1. rewrite (flat_next u h1 O _ _ _ _ S1 C1).
      assert (C1' : concat h1 = (l1 ++ [(b, fst p)]) ++ M ++ l2) by (rewrite <- app_assoc; exact C1).
      apply (IH u h1 O _ _ S1 C1').
      * rewrite map_app, V1. apply Forall_app. split; auto. destruct (diff_inner_kind e Ho _ fl others x p Kx A Ep) as (_ & B).
        eapply Forall_impl; [|exact B]. intros r Kr. now apply kind_of in Kr.
      * exists x0, b0. split; auto. rewrite map_app, in_app_iff. auto.
    + destruct D as (u & h1 & M & E1 & S1 & _). rewrite E1. exists u, h1, ex. split; auto. split; auto. right.
      eapply diff_inner_error; [exact Kx|exact A|exact Ep].
Qed.
(** Nothing is taken away. *)
Lemma diff_loop_nothing : forall fl n (s : heap) h O l1 l2, state s h O -> concat h = l1 ++ l2 -> (length l2 <= n)%nat ->
  x_diff_loop e fl [] n (entry (map fst l2) None) s = (s, Ok tt).
Proof.
  intros fl. induction n as [|n IH]; intros s h O l1 l2 H E Hn; destruct l2 as [|(a & x) l2]; cbn [map fst entry x_diff_loop x_diff_inner] in *; try reflexivity; [cbn in Hn; lia|].
  rewrite (flat_next s h O _ _ _ _ H E). apply (IH s h O (l1 ++ [(a, x)]) l2 H); [now rewrite <- app_assoc|]. cbn in Hn. lia.
Qed.

(** ** Queries *)
Lemma min_mixed : forall l m, sound e m -> Forall (sound e) l -> (exists x, In x l /\ rkind x <> rkind m) -> x_min_from e m l = Err TypeErr /\ x_max_from e m l = Err TypeErr.
Proof.
  induction l as [|x l IH]; intros m Hm Hl (y & Iy & N); [destruct Iy|]. cbn [x_min_from x_max_from]. pose proof (Forall_inv Hl) as Hx. pose proof (Forall_inv_tail Hl) as Hl'.
  destruct (kind_dec (rkind x) (rkind m)) as [E|E].
  - destruct Iy as [->|Iy]; [congruence|]. assert (C : comparable2 e x m) by (apply cmp_kind; auto).
    destruct (C76_exact e x m None C) as (-> & _ & -> & _). cbn [bind]. split; apply IH; auto; [destruct (rltb e x m)|destruct (rltb e x m)|destruct (rltb e m x)|destruct (rltb e m x)]; auto; exists y; split; auto; congruence.
  - assert (C : ~ comparable2 e x m) by (rewrite cmp_kind; auto). destruct (C76_raises e x m None Hx Hm C) as (-> & _ & -> & _). auto.
Qed.
Lemma not_all : forall l, Forall (sound e) l -> ~ comparable_all e l -> exists x m l', l = m :: l' /\ In x l' /\ rkind x <> rkind m.
Proof.
  intros [|m l] Hs N; [exfalso; apply N; left; constructor|].
  assert (D : Forall (fun x => rkind x = rkind m) l \/ exists x, In x l /\ rkind x <> rkind m).
  { clear. induction l as [|x l [IH|(y & Iy & Ny)]]; [now left| |right; exists y; split; [now right|auto]].
    destruct (kind_dec (rkind x) (rkind m)) as [E|E]; [left; auto|right; exists x; split; [now left|auto]]. }
  destruct D as [D|(x & Ix & Nx)]; [|exists x, m, l; auto]. exfalso. apply N. apply (kind_all e (rkind m)). apply all_cmp_kind; auto.
  intros x [<-|Ix]; [reflexivity|]. rewrite Forall_forall in D. auto.
Qed.
Lemma allM_app : forall f l1 l2, allM f (l1 ++ l2) = (c <- allM f l1 ;; if c : bool then allM f l2 else Ok false).
Proof.
  intros f. induction l1 as [|x l1 IH]; intros l2; cbn [app allM]; [reflexivity|]. unfold andM. rewrite IH. destruct (f x) as [[|]|]; reflexivity.
Qed.
End Mixed.
