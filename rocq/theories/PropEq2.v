(** * PropEq2: [equals] with an argument of any class (C99). *)
From Coq Require Import List Ascii ZArith Bool Arith Lia.
From Verif Require Import Base Books Chars Data MVerse MRange Spec PCore MSeq MList MGroup SpecGroup PGroup PropGroup MNode MNew SpecNew PNew2 MEq PropEq MEq2.
Import ListNotations.
Import Spec.
Open Scope Z_scope.
Open Scope list_scope.

(** The items of objects that have a length. *)
Inductive has_items : pyval -> list pyval -> Prop :=
| hi_str s : has_items (VStr s) (map (fun c => VStr [c]) s)
| hi_list l : has_items (VList l) (map VRange (concat l))
| hi_seq l : has_items (VSeq l) l
| hi_iter l : has_items (VIter l) l.
Lemma len_items : forall x, match py_len x with Some n => has_items x (zip_items x) /\ n = length (zip_items x) | None => sizeless x end.
Proof. intros x. destruct x; cbn [py_len zip_items]; try constructor; try constructor; now rewrite map_length. Qed.
Lemma items_fun : forall x m, has_items x m -> zip_items x = m /\ py_len x = Some (length m).
Proof. intros x m H. destruct H; cbn [py_len zip_items]; rewrite ?map_length; auto. Qed.
Lemma same_by_length : forall A B (f : A -> B -> bool) l m, same_by f l m = true -> length l = length m.
Proof. intros A B f. induction l as [|x l IH]; intros [|y m] H; cbn [same_by] in H; try discriminate; auto. apply andb_prop in H. cbn [length]. f_equal. now apply IH. Qed.

(** With groups it is [==]. *)
Theorem C99_groups : forall g x, x_equals true g x = py_eq (VList g) x.
Proof.
  intros g x. unfold x_equals. destruct x as [|n|s|b|v|r|h|l|l|]; cbn [py_len py_eq list_eq_other has_len]; try reflexivity; try (now destruct (negb _)).
  destruct (Nat.eqb_spec (length (items g)) (length (items h))) as [E|E]; cbn [negb]; [reflexivity|].
  destruct (same_by (same_by range_eqb) g h) eqn:S; auto. apply (same_by_spec _ (same_by_spec _ range_eqb_iff)) in S. congruence.
Qed.
Lemma ne_range : forall r y, py_ne (VRange r) y = Ok false <-> y = VRange r.
Proof.
  intros r y. unfold py_ne. destruct y as [|n|s|b|v|q|h|l|l|]; cbn [py_eq list_eq_other has_len bind negb]; try (split; discriminate).
  split.
  - intros H. injection H as H. destruct (range_eqb r q) eqn:E; [|discriminate]. apply range_eqb_iff in E. congruence.
  - intros H. injection H as ->. now rewrite (proj2 (range_eqb_iff r r) eq_refl).
Qed.
(** Without groups it is true exactly for what has the same ranges in the same order. *)
Theorem C99_items : forall g x, x_equals false g x = Ok true <-> has_items x (map VRange (concat g)).
Proof.
  intros g x. unfold x_equals. pose proof (len_items x) as L. destruct (py_len x) as [n|] eqn:En.
  2: { split; [discriminate|]. intros H. destruct L; inversion H. }
  destruct L as (L & ->). split.
  - destruct (Nat.eqb_spec (length (items g)) (length (zip_items x))) as [E|E]; cbn [negb]; [|discriminate]. intros H.
    assert (X : zip_items x = map VRange (concat g)); [|now rewrite <- X].
    clear L En. unfold items in *. revert H E. generalize (zip_items x) (concat g). intros m l. revert m. induction l as [|r l IH]; intros [|y m] H E; try discriminate E; [reflexivity|].
    cbn [flat_loop] in H. destruct (py_ne (VRange r) y) as [[|]|] eqn:N; cbn [bind] in H; try discriminate. apply ne_range in N. subst y. cbn [map]. f_equal. apply IH; auto.
  - intros H. apply items_fun in H. destruct H as (-> & _). unfold items. rewrite map_length, Nat.eqb_refl. cbn [negb].
    induction (concat g) as [|r l IH]; [reflexivity|]. cbn [map flat_loop]. rewrite (proj2 (ne_range r (VRange r)) eq_refl). exact IH.
Qed.
(** It raises for objects without a length, else at most at an item that is itself a list of ranges. *)
Theorem C99_raises : forall c g x, (sizeless x -> x_equals c g x = Err TypeErr) /\
  (forall z, x_equals c g x = Err z -> z = TypeErr /\ (sizeless x \/ c = false /\ exists m l, has_items x m /\ In (VList l) m)).
Proof.
  intros c g x. split; [intros H; now destruct H|]. intros z. unfold x_equals. pose proof (len_items x) as L. destruct (py_len x) as [n|].
  2: { intros H. injection H as <-. auto. }
  destruct L as (L & _). destruct (negb _); [discriminate|]. destruct c; [destruct x; discriminate|]. intros H.
  assert (X : z = TypeErr /\ exists l, In (VList l) (zip_items x)).
  { clear L. revert H. generalize (items g). intros l. revert l. induction (zip_items x) as [|y m IH]; intros [|r l] H; try discriminate H. cbn [flat_loop] in H.
    destruct (py_ne (VRange r) y) as [[|]|w] eqn:N; cbn [bind] in H; try discriminate.
    - destruct (IH _ H) as (-> & h & Hh). split; auto. exists h. now right.
    - injection H as ->. destruct y as [|?|?|?|?|?|h|?|?|]; try discriminate N. injection N as <-. split; auto. exists h. now left. }
  destruct X as (-> & h & Hh). split; auto. right. split; auto. eauto.
Qed.
Theorem C99_answers_partial : forall c g x m, has_items x m -> (forall l, ~ In (VList l) m) -> exists q, x_equals c g x = Ok q.
Proof.
  intros c g x m H N. destruct (x_equals c g x) as [q|z] eqn:E; [eauto|]. exfalso. destruct (C99_raises c g x) as (_ & R). destruct (R z E) as (_ & [S|(_ & m' & l & H' & I)]).
  - destruct S; inversion H.
  - apply items_fun in H, H'. destruct H as (H & _), H' as (H' & _). rewrite H in H'. subst m'. eapply N; eauto.
Qed.
(** "Never raises" is false. *)
Theorem C99_refuted : exists g x y, plain_value x /\ plain_value y /\ x_equals true g x = Err TypeErr /\ x_equals false g x = Err TypeErr /\
  has_items y [VList []] /\ x_equals false g y = Err TypeErr.
Proof.
  exists [[R (V Gen 1 1) (V Gen 1 2)]], VNone, (VSeq [VList []]). split; [constructor|]. split; [repeat constructor|]. split; [reflexivity|]. split; [reflexivity|].
  split; [constructor|reflexivity].
Qed.
(** On nodes, after any histories of two lists. *)
Theorem C99_nodes : forall leb leb' os os' c s h t k, holds range_eqb leb os s h -> holds range_eqb leb' os' t k ->
  equals range_eqb c s t = x_equals c (values h) (VList (values k)) /\
  forall m, equals_plain range_eqb c s m = x_equals c (values h) (VSeq (map VRange m)).
Proof.
  intros leb leb' os os' c s h t k H K.
  assert (T : forall a b : bool, (a = true <-> b = true) -> a = b) by (intros [|] [|] []; auto; symmetry; auto).
  assert (F : forall l m, Forall2 (fun x y => range_eqb x y = true) l m <-> l = m).
  { induction l as [|x l IH]; intros [|y m]; split; intros X; try (inversion X; fail); auto.
    - inversion X; subst. apply range_eqb_iff in H3. apply IH in H5. congruence.
    - injection X as -> ->. constructor; [now apply range_eqb_iff|now apply IH]. }
  assert (G : forall l m, Forall2 (Forall2 (fun x y => range_eqb x y = true)) l m <-> l = m).
  { induction l as [|x l IH]; intros [|y m]; split; intros X; try (inversion X; fail); auto.
    - inversion X; subst. apply F in H3. apply IH in H5. congruence.
    - injection X as -> ->. constructor; [now apply F|now apply IH]. }
  assert (I : forall g x m, has_items x m -> (forall l, ~ In (VList l) m) -> exists q, x_equals false g x = Ok q) by (intros; eapply C99_answers_partial; eauto).
  assert (NL : forall (m : list range) l, ~ In (VList l) (map VRange m)) by (intros m l X; apply in_map_iff in X; destruct X as (? & ? & _); discriminate).
  assert (INJ : forall l m : list range, map VRange l = map VRange m -> l = m).
  { induction l as [|x l IH]; intros [|y m] X; try discriminate; auto. injection X as -> X. f_equal. auto. }
  split.
  - destruct (C31_equals _ _ _ _ _ _ _ range_eqb _ _ _ _ H K) as ((b & Eb & Hb) & (d & Ed & Hd)). destruct c.
    + rewrite Eb, C99_groups. cbn [py_eq]. f_equal. apply T. rewrite Hb, G. symmetry. apply (same_by_spec _ (same_by_spec _ range_eqb_iff)).
    + rewrite Ed. destruct (I (values h) (VList (values k)) _ (hi_list _) (NL _)) as (q & Eq). rewrite Eq. f_equal. apply T. rewrite Hd, F.
      assert (X : q = true <-> x_equals false (values h) (VList (values k)) = Ok true) by (rewrite Eq; split; congruence). rewrite X, C99_items. split.
      * intros ->. constructor.
      * intros Y. inversion Y. symmetry. now apply INJ.
  - intros m. destruct (C31_equals_plain _ _ _ _ range_eqb _ _ m H) as (E1 & (d & Ed & Hd)). destruct c.
    + rewrite E1. unfold x_equals. cbn [py_len]. now destruct (negb _).
    + rewrite Ed. destruct (I (values h) (VSeq (map VRange m)) _ (hi_seq _) (NL _)) as (q & Eq). rewrite Eq. f_equal. apply T. rewrite Hd, F.
      assert (X : q = true <-> x_equals false (values h) (VSeq (map VRange m)) = Ok true) by (rewrite Eq; split; congruence). rewrite X, C99_items. split.
      * intros <-. constructor.
      * intros Y. inversion Y. symmetry. now apply INJ.
Qed.
Example C99_ex : let r := R (V Gen 1 1) (V Gen 1 2) in let q := R (V Gen 2 1) (V Gen 2 2) in
  has_items (VSeq [VRange r; VRange q]) (map VRange (concat [[r]; [q]])) /\ x_equals false [[r]; [q]] (VSeq [VRange r; VRange q]) = Ok true /\
  x_equals true [[r]; [q]] (VSeq [VRange r; VRange q]) = Ok false /\ x_equals false [[r]; [q]] (VList [[r; q]]) = Ok true /\ x_equals true [[r]; [q]] (VList [[r; q]]) = Ok false /\
  x_equals false [[r]; [q]] (VSeq [VRange q; VRange r]) = Ok false /\ x_equals false [] (VStr []) = Ok true /\ x_equals false [[r]] (VInt 1) = Err TypeErr /\
  (let os := [OExtend [r; q]] in holds range_eqb (fun _ _ => true) os (snd (h_run range_eqb (fun _ _ => true) os g_new)) [[(0%nat, r); (1%nat, q)]]).
Proof. cbv zeta. split; [constructor|]. repeat (split; [vm_compute; reflexivity|]). exists [Ok None]; split; [reflexivity|vm_compute; reflexivity]. Qed.
