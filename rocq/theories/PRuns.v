(** * PRuns: cutting a list into maximal runs and into chunks. *)
From Coq Require Import List ZArith Bool Lia.
From Verif Require Import Base Books Data MVerse MRange Spec PList.
Import ListNotations.

Section Runs.
Context {A : Type}.
Variable same : A -> A -> bool.
Hypothesis same_refl : forall a, same a a = true.
Hypothesis same_sym : forall a b, same a b = same b a.
Hypothesis same_trans : forall a b c, same a b = true -> same b c = true -> same a c = true.

Fixpoint runs (l : list A) : list (list A) :=
  match l with
  | [] => []
  | v :: l' => match runs l' with
               | (w :: r) :: rs => if same v w then (v :: w :: r) :: rs else [v] :: (w :: r) :: rs
               | _ => [[v]]
               end
  end.

Lemma runs_shape : forall v l, exists r rs, runs (v :: l) = (v :: r) :: rs.
Proof.
  intros v l. simpl. destruct (runs l) as [|[|w r] rs]; eauto. destruct (same v w); eauto.
Qed.

Lemma runs_concat : forall l, concat (runs l) = l.
Proof.
  induction l as [|v l IH]; [reflexivity|]. simpl. destruct (runs l) as [|[|w r] rs] eqn:E.
  - simpl in *. now rewrite <- IH.
  - destruct l as [|x l]; [discriminate|]. destruct (runs_shape x l) as [r' [rs' H]]. congruence.
  - destruct (same v w); simpl in *; now rewrite <- IH.
Qed.

Lemma runs_nonempty : forall l, Forall (fun p => p <> []) (runs l).
Proof.
  induction l as [|v l IH]; [constructor|]. simpl. destruct (runs l) as [|[|w r] rs] eqn:E.
  - repeat constructor; discriminate.
  - repeat constructor; discriminate.
  - inversion IH; subst. destruct (same v w); constructor; auto; try discriminate.
Qed.

Lemma runs_nil : forall l, runs l = [] -> l = [].
Proof. intros [|v l] H; [reflexivity|]. destruct (runs_shape v l) as [r [rs E]]. congruence. Qed.

(** All elements of a run are the same. *)
Lemma runs_same : forall l p, In p (runs l) -> forall a b, In a p -> In b p -> same a b = true.
Proof.
  induction l as [|v l IH]; [intros p []|]. intros p Hp. simpl in Hp.
  assert (Hone : forall a b, In a [v] -> In b [v] -> same a b = true).
  { intros a b [<-|[]] [<-|[]]. apply same_refl. }
  destruct (runs l) as [|[|w r] rs] eqn:E.
  - destruct Hp as [<-|[]]. exact Hone.
  - destruct Hp as [<-|[]]. exact Hone.
  - destruct (same v w) eqn:Ev.
    + destruct Hp as [<-|Hp]; [|intros; eapply IH; simpl; eauto].
      assert (Hw : forall x, In x (w :: r) -> same v x = true).
      { intros x Hx. apply same_trans with w; auto. apply (IH (w :: r)); simpl; auto. }
      intros a b [<-|Ha] [<-|Hb]; auto.
      * rewrite same_sym. auto.
      * apply (IH (w :: r)); simpl; auto.
    + destruct Hp as [<-|Hp]; [exact Hone|]. intros; eapply IH; eauto.
Qed.

(** Between adjacent runs the elements differ. *)
Lemma runs_break : forall l ls1 p q ls2, runs l = ls1 ++ p :: q :: ls2 ->
  exists a b, hd_error (rev p) = Some a /\ hd_error q = Some b /\ same a b = false.
Proof.
  induction l as [|v l IH]; intros ls1 p q ls2 H; [destruct ls1; discriminate|].
  simpl in H. destruct (runs l) as [|[|w r] rs] eqn:E.
  - destruct ls1 as [|x [|]]; discriminate.
  - destruct ls1 as [|x [|]]; discriminate.
  - destruct (same v w) eqn:Ev.
    + destruct ls1 as [|x ls1]; simpl in H; injection H as H1 H2.
      * subst. destruct (IH [] (w :: r) q ls2 eq_refl) as [a [b [Ha [Hb Hab]]]].
        exists a, b. split; [|auto]. simpl. simpl in Ha.
        destruct (rev r ++ [w]) eqn:Er; [destruct (rev r); discriminate|]. exact Ha.
      * subst. apply (IH ((w :: r) :: ls1) p q ls2). reflexivity.
    + destruct ls1 as [|x ls1]; simpl in H; injection H as H1 H2.
      * subst. exists v, w. auto.
      * apply (IH ls1 p q ls2). exact H2.
Qed.

(** A prefix of equal elements followed by a different one is a run. *)
Lemma runs_app : forall l1 a l2 b l3, l1 = a :: l2 ->
  (forall x y, In x l1 -> In y l1 -> same x y = true) ->
  (forall x, In x l1 -> same x b = false) ->
  runs (l1 ++ b :: l3) = l1 :: runs (b :: l3).
Proof.
  induction l1 as [|x l1 IH]; intros a l2 b l3 Heq Hs Hb; [discriminate|].
  destruct l1 as [|y l1].
  - change ([x] ++ b :: l3) with (x :: b :: l3).
    destruct (runs_shape b l3) as [r [rs Er]].
    change (runs (x :: b :: l3)) with
      (match runs (b :: l3) with
       | (w :: r) :: rs => if same x w then (x :: w :: r) :: rs else [x] :: (w :: r) :: rs
       | _ => [[x]] end).
    rewrite Er. rewrite (Hb x) by (simpl; auto). reflexivity.
  - change ((x :: y :: l1) ++ b :: l3) with (x :: (y :: l1) ++ b :: l3).
    assert (IH' : runs ((y :: l1) ++ b :: l3) = (y :: l1) :: runs (b :: l3)).
    { eapply IH; [reflexivity| |]; intros; [apply Hs|apply Hb]; simpl in *; tauto. }
    change (runs (x :: (y :: l1) ++ b :: l3)) with
      (match runs ((y :: l1) ++ b :: l3) with
       | (w :: r) :: rs => if same x w then (x :: w :: r) :: rs else [x] :: (w :: r) :: rs
       | _ => [[x]] end).
    rewrite IH'. rewrite (Hs x y) by (simpl; auto). reflexivity.
Qed.

Lemma runs_one : forall a l, (forall x y, In x (a :: l) -> In y (a :: l) -> same x y = true) ->
  runs (a :: l) = [a :: l].
Proof.
  intros a l. revert a. induction l as [|b l IH]; intros a H; [reflexivity|].
  change (runs (a :: b :: l)) with
      (match runs (b :: l) with
       | (w :: r) :: rs => if same a w then (a :: w :: r) :: rs else [a] :: (w :: r) :: rs
       | _ => [[a]] end).
  rewrite IH by (intros; apply H; simpl in *; tauto). rewrite (H a b) by (simpl; auto). reflexivity.
Qed.

(** The number of runs. *)
Fixpoint breaks (l : list A) : nat :=
  match l with
  | a :: ((b :: _) as l') => ((if same a b then 0 else 1) + breaks l')%nat
  | _ => 0%nat
  end.
Lemma breaks_cons : forall a b l, breaks (a :: b :: l) = ((if same a b then 0 else 1) + breaks (b :: l))%nat.
Proof. reflexivity. Qed.
Lemma runs_length : forall a l, length (runs (a :: l)) = S (breaks (a :: l)).
Proof.
  intros a l. revert a. induction l as [|b l IH]; intros a; [reflexivity|].
  destruct (runs_shape b l) as [r [rs E]].
  change (runs (a :: b :: l)) with
      (match runs (b :: l) with
       | (w :: r) :: rs => if same a w then (a :: w :: r) :: rs else [a] :: (w :: r) :: rs
       | _ => [[a]] end).
  specialize (IH b). rewrite breaks_cons. rewrite E in *. destruct (same a b); simpl in *; lia.
Qed.
Lemma breaks_app_l : forall l m, (breaks l <= breaks (l ++ m))%nat.
Proof.
  induction l as [|a l IH]; intros m; [simpl; lia|]. destruct l as [|b l].
  - destruct m; simpl; lia.
  - specialize (IH m). cbn [app] in *. rewrite !breaks_cons. lia.
Qed.
Lemma breaks_app_r : forall l m, (breaks m <= breaks (l ++ m))%nat.
Proof.
  induction l as [|a l IH]; intros m; simpl app; [lia|]. specialize (IH m).
  destruct (l ++ m) as [|b x]; simpl; simpl in IH; lia.
Qed.
Lemma breaks_app : forall l m, (breaks (l ++ m) <= S (breaks l + breaks m))%nat.
Proof.
  induction l as [|a l IH]; intros m; simpl app; [lia|]. destruct l as [|b l].
  - destruct m as [|c m]; simpl; [lia|]. destruct (same a c); simpl; lia.
  - specialize (IH m). cbn [app] in *. rewrite !breaks_cons. lia.
Qed.
Lemma breaks_same : forall l, (forall x y, In x l -> In y l -> same x y = true) -> breaks l = 0%nat.
Proof.
  induction l as [|a l IH]; intros H; [reflexivity|]. destruct l as [|b l]; [reflexivity|].
  rewrite breaks_cons, IH by (intros; apply H; simpl in *; tauto). rewrite (H a b) by (simpl; auto). reflexivity.
Qed.
Lemma breaks_flat_map : forall {B} (g : B -> list A) bs,
  (breaks (flat_map g bs) <= length bs + fold_right (fun b n => breaks (g b) + n) 0 bs)%nat.
Proof.
  intros B g bs. induction bs as [|b bs IH]; simpl; [lia|].
  pose proof (breaks_app (g b) (flat_map g bs)). lia.
Qed.
Lemma runs_segment : forall l1 l l3 , (length (runs l) <= S (breaks (l1 ++ l ++ l3)))%nat.
Proof.
  intros l1 [|a l] l3; [simpl; lia|]. rewrite runs_length.
  pose proof (breaks_app_r l1 ((a :: l) ++ l3)). pose proof (breaks_app_l (a :: l) l3). lia.
Qed.
End Runs.

(** ** Chunks *)
Section Chunks.
Context {A : Type}.
Fixpoint chunks_aux (fuel n : nat) (l : list A) : list (list A) :=
  match fuel with
  | O => []
  | S k => match l with [] => [] | _ => firstn n l :: chunks_aux k n (skipn n l) end
  end.
Definition chunks (n : nat) (l : list A) := chunks_aux (length l) n l.

Lemma chunks_aux_enough : forall n fuel fuel' l, (1 <= n)%nat -> (length l <= fuel)%nat -> (length l <= fuel')%nat ->
  chunks_aux fuel n l = chunks_aux fuel' n l.
Proof.
  intros n. induction fuel as [|k IH]; intros fuel' l Hn H1 H2.
  - destruct l; [|simpl in H1; lia]. now destruct fuel'.
  - destruct fuel' as [|k']; [destruct l; [reflexivity|simpl in H2; lia]|].
    simpl. destruct l as [|a l]; [reflexivity|]. f_equal. apply IH; auto; rewrite skipn_length; cbn [length] in *; lia.
Qed.
Lemma chunks_eq : forall n a l, (1 <= n)%nat ->
  chunks n (a :: l) = firstn n (a :: l) :: chunks n (skipn n (a :: l)).
Proof.
  intros n a l Hn. unfold chunks at 1. cbn [length chunks_aux]. f_equal.
  apply chunks_aux_enough; auto; rewrite skipn_length; cbn [length]; lia.
Qed.
Lemma chunks_nil : forall n, chunks n (@nil A) = [].
Proof. reflexivity. Qed.
Lemma chunks_small : forall n a l, (1 <= n)%nat -> (length (a :: l) <= n)%nat -> chunks n (a :: l) = [a :: l].
Proof.
  intros n a l Hn H. rewrite chunks_eq by assumption. rewrite firstn_all2, skipn_all2 by assumption. reflexivity.
Qed.

Lemma chunks_props : forall n, (1 <= n)%nat -> forall k l, (length l <= k)%nat ->
  concat (chunks n l) = l /\ Forall (fun p => p <> []) (chunks n l) /\
  Forall (fun p => (length p <= n)%nat) (chunks n l) /\
  (forall ls1 p q ls2, chunks n l = ls1 ++ p :: q :: ls2 -> length p = n) /\
  (forall p, In p (chunks n l) -> forall a, In a p -> In a l).
Proof.
  intros n Hn. induction k as [|k IH]; intros l Hk.
  - destruct l; [|simpl in Hk; lia]. rewrite chunks_nil. repeat split; auto.
    + intros [|] p q ls2 H; discriminate.
  - destruct l as [|a l].
    { rewrite chunks_nil. repeat split; auto. intros [|] p q ls2 H; discriminate. }
    rewrite chunks_eq by assumption.
    destruct (IH (skipn n (a :: l))) as [H1 [H2 [H3 [H4 H5]]]].
    { rewrite skipn_length. cbn [length] in *. lia. }
    split; [|split; [|split; [|split]]].
    + cbn [concat]. rewrite H1. apply firstn_skipn.
    + constructor; auto. destruct n; [lia|]. discriminate.
    + constructor; auto. rewrite firstn_length. lia.
    + intros [|x ls1] p q ls2 H; injection H as Hp Hq.
      * subst p. rewrite firstn_length. apply Nat.min_l.
        destruct (Nat.le_gt_cases n (length (a :: l))); [assumption|].
        rewrite skipn_all2 in Hq by lia. discriminate.
      * eapply H4; eauto.
    + intros p [<-|Hp] b Hb.
      * rewrite <- (firstn_skipn n (a :: l)). apply in_or_app. auto.
      * rewrite <- (firstn_skipn n (a :: l)). apply in_or_app. right. eapply H5; eauto.
Qed.
End Chunks.

(** ** Refining a partition *)
Lemma app_eq_len : forall {A} (a b c x : list A), a ++ b = c ++ x -> length a = length c -> a = c /\ b = x.
Proof.
  induction a as [|y a IH]; intros b [|z c] x H Hl; simpl in *; try discriminate; [auto|].
  injection H as -> H. destruct (IH b c x H); [lia|]. now subst.
Qed.
Lemma adjacent_flat_map : forall {A} (g : list A -> list (list A)) (Q R : list A -> list A -> Prop) ls,
  (forall p, In p ls -> g p <> [] /\ (forall xs a b ys, g p = xs ++ a :: b :: ys -> R a b)) ->
  (forall ls1 p q ls2, ls = ls1 ++ p :: q :: ls2 ->
     forall a b, hd_error (rev (g p)) = Some a -> hd_error (g q) = Some b -> Q a b) ->
  forall xs a b ys, flat_map g ls = xs ++ a :: b :: ys -> Q a b \/ R a b.
Proof.
  intros A g Q R ls. induction ls as [|p ls IH]; intros Hg Hq xs a b ys H.
  - destruct xs; discriminate.
  - simpl in H. destruct (Hg p (or_introl eq_refl)) as [Hne Hin].
    assert (IH' : forall xs a b ys, flat_map g ls = xs ++ a :: b :: ys -> Q a b \/ R a b).
    { apply IH.
      - intros p' Hp'. apply Hg. now right.
      - intros ls1 p' q' ls2 E. apply (Hq (p :: ls1) p' q' ls2). now rewrite E. }
    clear IH.
    destruct (Nat.le_gt_cases (length (g p)) (length xs)) as [Hl|Hl].
    + (* the pair lies in the rest *)
      assert (E : xs = g p ++ skipn (length (g p)) xs).
      { rewrite <- (firstn_skipn (length (g p)) xs) at 1. f_equal.
        assert (E : firstn (length (g p)) (g p ++ flat_map g ls) = firstn (length (g p)) (xs ++ a :: b :: ys)) by now rewrite H.
        rewrite firstn_app, Nat.sub_diag, firstn_O, app_nil_r, firstn_all in E.
        rewrite firstn_app in E. replace (length (g p) - length xs)%nat with 0%nat in E by lia.
        rewrite firstn_O, app_nil_r in E. now symmetry. }
      rewrite E, <- app_assoc in H. apply app_inv_head in H. eapply IH'; eauto.
    + destruct (Nat.eq_dec (length (g p)) (S (length xs))) as [Hs|Hs].
      * (* the pair is on the border *)
        assert (E : g p = xs ++ [a] /\ flat_map g ls = b :: ys).
        { apply app_eq_len; [|rewrite app_length; simpl; lia]. rewrite H, <- app_assoc. reflexivity. }
        destruct E as [E1 E2].
        destruct ls as [|q ls]; [discriminate|]. left.
        apply (Hq [] p q ls eq_refl).
        -- rewrite E1, rev_app_distr. reflexivity.
        -- destruct (Hg q (or_intror (or_introl eq_refl))) as [Hneq _].
           simpl in E2. destruct (g q) as [|x gq]; [congruence|]. simpl in *. congruence.
      * (* inside g p *)
        right. assert (E : exists zs, g p = xs ++ a :: b :: zs).
        { apply (f_equal (firstn (length (g p)))) in H.
          rewrite firstn_app, Nat.sub_diag, firstn_O, app_nil_r, firstn_all in H.
          rewrite firstn_app, firstn_all2 in H by lia.
          replace (length (g p) - length xs)%nat with (S (S (length (g p) - length xs - 2))) in H by lia.
          simpl in H. eauto. }
        destruct E as [zs E]. eapply Hin; eauto.
Qed.
