(** * PropGroup: theorems on grouped lists, node by node (C27-C32, C44). *)
From Coq Require Import List ZArith Bool Arith Lia Permutation Sorted.
From Verif Require Import Base MSeq MGroup SpecGroup PSort PGroup PGroup2 PGroup3 PGroup4 PGroup5 PGroup6 PGroup7 PGroup8.
Import ListNotations.
Open Scope Z_scope.

(** [s] is a list as it is after some operations, and [h] its contents: numbered items in groups.  The history has no
    [insert_group_at] of an item that begins a group other than the first: see C29. *)
Definition holds {A} (eqb leb : A -> A -> bool) (os : list (op A)) (s : glist A) (h : list (list (nat * A))) : Prop :=
  exists outs, s_run eqb leb os 0%nat [] = Some (outs, (fresh s, h)) /\ h_run eqb leb os g_new = (outs, s).
(** All ways of reading [s] show the groups [g]. *)
Definition shows {A} (s : glist A) (g : list (list A)) : Prop :=
  g_iter s = Ok (concat g) /\ g_reversed s = Ok (rev (concat g)) /\ to_nested_lists s = Ok g /\
  g_cnt s = zlen (concat g) /\ group_count s = zlen g /\ Forall (fun p => p <> []) g.

Lemma new_state : forall A, state (@g_new A) [] [].
Proof. intros A. apply state_new. Qed.
Lemma holds_state : forall A (eqb leb : A -> A -> bool) os (s : glist A) h, holds eqb leb os s h -> exists O, state s h O /\ (~ In OClear os -> O = []).
Proof.
  intros A eqb leb os s h (outs & E & R). destruct (run_state eqb leb os g_new [] [] outs (fresh s) h (new_state A) E) as (_ & O & S & _ & H).
  rewrite R in S. cbn in S. eauto.
Qed.
Lemma state_shows : forall A (s : glist A) h O, state s h O -> shows s (values h).
Proof.
  intros A s h O H. destruct (read_state s h O H) as (H1 & H2 & H3 & H4 & H5). repeat split; auto. apply (rep_full s _ _ (st_rep _ _ _ H)).
Qed.
Lemma run_app : forall A (eqb leb : A -> A -> bool) os (s : glist A) n h outs n1 h1 o r n2 h2, s_run eqb leb os n h = Some (outs, (n1, h1)) ->
  s_step eqb leb o n1 h1 = Some (Ok (r, (n2, h2))) -> s_run eqb leb (os ++ [o]) n h = Some (outs ++ [Ok r], (n2, h2)).
Proof.
  intros A eqb leb. induction os as [|p os IH]; intros s n h outs n1 h1 o r n2 h2 E1 E2.
  - cbn in E1. inv E1. cbn. now rewrite E2.
  - cbn [s_run app] in *. destruct (s_step eqb leb p n h) as [[(r' & (n' & h'))|e]|]; [| |discriminate].
    + destruct (s_run eqb leb os n' h') as [(o' & (n'' & h''))|] eqn:E; [|discriminate]. cbn in E1. inv E1. now rewrite (IH s _ _ _ _ _ _ _ _ _ E E2).
    + destruct (s_run eqb leb os n h) as [(o' & (n'' & h''))|] eqn:E; [|discriminate]. cbn in E1. inv E1. now rewrite (IH s _ _ _ _ _ _ _ _ _ E E2).
Qed.
Lemma h_run_app : forall A (eqb leb : A -> A -> bool) os (s : glist A) outs t o r u, h_run eqb leb os s = (outs, t) -> h_step eqb leb o t = Ok (r, u) ->
  h_run eqb leb (os ++ [o]) s = (outs ++ [Ok r], u).
Proof.
  intros A eqb leb. induction os as [|p os IH]; intros s outs t o r u E1 E2.
  - cbn in E1. inv E1. cbn. now rewrite E2.
  - cbn [h_run app] in *. destruct (h_step eqb leb p s) as [(r' & s')|e].
    + destruct (h_run eqb leb os s') as (o' & t') eqn:E. cbn in E1. inv E1. now rewrite (IH _ _ _ _ _ _ E E2).
    + destruct (h_run eqb leb os s) as (o' & t') eqn:E. cbn in E1. inv E1. now rewrite (IH _ _ _ _ _ _ E E2).
Qed.
Lemma holds_step : forall A (eqb leb : A -> A -> bool) os (s : glist A) h o r n h', holds eqb leb os s h -> s_step eqb leb o (fresh s) h = Some (Ok (r, (n, h'))) ->
  exists t, h_step eqb leb o s = Ok (r, t) /\ fresh t = n /\ holds eqb leb (os ++ [o]) t h'.
Proof.
  intros A eqb leb os s h o r n h' H E. destruct (holds_state _ _ _ _ _ _ H) as (O & S & _). destruct (step_state eqb leb o s h O _ S E) as (t & O' & Et & S' & Ef & _).
  exists t. split; auto. split; auto. destruct H as (outs & H1 & H2). exists (outs ++ [Ok r]). split.
  - rewrite Ef. eapply run_app; eauto.
  - eapply h_run_app; eauto.
Qed.

(** ** C27 *)
(** As stated it is false: C29. *)
Definition C27_statement : Prop := forall A (eqb leb : A -> A -> bool) os, exists g, shows (snd (h_run eqb leb os g_new)) g.
(** Every history of operations, as long as no [insert_group_at] meets an item that begins a later group: the results
    of all operations, what is raised, and the contents are those of the list of lists. *)
Theorem C27_history_partial : forall A (eqb leb : A -> A -> bool) os outs n h, s_run eqb leb os 0%nat [] = Some (outs, (n, h)) ->
  let s := snd (h_run eqb leb os g_new) in
  fst (h_run eqb leb os g_new) = outs /\ shows s (values h) /\ holds eqb leb os s h.
Proof.
  intros A eqb leb os outs n h E s. destruct (run_state eqb leb os g_new [] [] outs n h (new_state A) E) as (H1 & O & S & F & _).
  split; auto. split; [eapply state_shows; exact S|]. exists outs. fold s in F |- *. rewrite F. split; auto. unfold s. rewrite <- H1. apply surjective_pairing.
Qed.
Definition history : list (op Z) :=
  [OAppend false 5; OAppendGroup [7; 8]; OPrepend true 1; OInsert 2 6; OPop (Some (-1)); OSet 0 2; OInsertGroupAt 3; OAppend false 9; ODel 0;
   OViewSet 2 1 4; OViewDel 0 0; ORemove 3; OInsert 9 0; OAppendGroup [3; 3]; ORemove 3; OReverse; OExtend [1; 0]; OInsertGroupAt 2; OSort; OClearGroups;
   OInsertGroupAt 1; OPop None].
Example C27_history_ex : exists outs h, s_run Z.eqb Z.leb history 0%nat [] = Some (outs, (10%nat, h)) /\ values h = [[0]; [1; 3; 4; 6]] /\
  nth 4 outs (Err Diverge) = Ok (Some 8) /\ nth 11 outs (Err Diverge) = Err ValueErr /\ nth 12 outs (Err Diverge) = Err IndexErr.
Proof. vm_compute. eexists. eexists. repeat split. Qed.
(** The constructor, for items and groups. *)
Theorem C27_construction : forall A (l : list (@init_item A)), exists s, g_init l = Ok s /\ shows s (s_init l []).
Proof. intros A l. destruct (init_state l) as (t & h & E & S & <-). exists t. split; auto. eapply state_shows; eauto. Qed.
Theorem C27_construction_groups : forall A (g : list (list A)), s_init (map GroupItem g) [] = filter (fun p => match p with [] => false | _ => true end) g.
Proof.
  intros A g. change (filter _ g) with ([] ++ filter (fun p : list A => match p with [] => false | _ => true end) g). generalize (@nil (list A)) as k.
  induction g as [|[|x p] g IH]; intros k; cbn [map s_init s_append_group filter]; [now rewrite app_nil_r|auto|]. rewrite IH, <- app_assoc. reflexivity.
Qed.
Theorem C27_construction_items : forall A (l : list A), s_init (map OneItem l) [] = one_group l.
Proof. intros A [|x l]; auto. apply init_items. Qed.
Example C27_construction_ex : (s <- g_init [GroupItem [1; 2]; OneItem 3; GroupItem []; GroupItem [4]; OneItem 5] ;; to_nested_lists s) = Ok [[1; 2; 3]; [4; 5]] /\
  s_init [GroupItem [1; 2]; OneItem 3; GroupItem []; GroupItem [4]; OneItem 5] [] = [[1; 2; 3]; [4; 5]].
Proof. vm_compute. auto. Qed.
(** [in], [count] and [index]. *)
Theorem C27_search : forall A (eqb leb : A -> A -> bool) os s h x, holds eqb leb os s h ->
  mem eqb x s = Ok (existsb (fun y => eqb y x) (concat (values h))) /\
  count eqb x s = Ok (zlen (filter (fun y => eqb y x) (concat (values h)))).
Proof.
  intros A eqb leb os s h x H. destruct (holds_state _ _ _ _ _ _ H) as (O & S & _). split; [eapply mem_state|eapply count_state]; eauto.
Qed.
Theorem C27_index : forall A (eqb leb : A -> A -> bool) os s h x lo hi, holds eqb leb os s h ->
  match window (zlen (concat (values h))) (match lo with Some i => i | None => 0 end) (match hi with Some i => i | None => zlen (concat (values h)) end) with
  | None => index eqb x lo hi s = Err IndexErr
  | Some (a, b) => match index eqb x lo hi s with
                   | Ok k => found eqb x a b (concat (values h)) k
                   | Err e => e = ValueErr /\ not_found eqb x a b (concat (values h))
                   end
  end.
Proof. intros A eqb leb os s h x lo hi H. destruct (holds_state _ _ _ _ _ _ H) as (O & S & _). eapply index_state; eauto. Qed.
Definition list8 := snd (h_run Z.eqb Z.leb [OAppendGroup [1; 2; 3]; OAppendGroup [2]; OAppendGroup [5; 2; 7; 8]] g_new).
Example C27_search_ex : mem Z.eqb 5 list8 = Ok true /\ count Z.eqb 2 list8 = Ok 3 /\ index Z.eqb 2 None None list8 = Ok 1 /\
  index Z.eqb 2 (Some 2) None list8 = Ok 3 /\ index Z.eqb 2 (Some (-4)) (Some (-1)) list8 = Ok 5 /\ index Z.eqb 2 (Some 4) (Some 5) list8 = Err ValueErr /\
  index Z.eqb 2 (Some 8) None list8 = Err IndexErr /\ index Z.eqb 2 (Some 5) (Some 2) list8 = Ok 3.
Proof. vm_compute. repeat split. Qed.

(** ** C28 *)
(** What a built-in list of [n] items does with index [i]. *)
Definition place (n i : Z) : option nat :=
  if (i <? - n) || (n <=? i) then None else Some (Z.to_nat (if i <? 0 then i + n else i)).
Definition C28_statement : Prop := forall A (eqb leb : A -> A -> bool) os s h i, holds eqb leb os s h ->
  get_item i s = match place (zlen (concat (values h))) i with
                 | None => Err IndexErr
                 | Some k => match nth_error (concat (values h)) k with Some x => Ok x | None => Err IndexErr end
                 end.
(** Exactly, for all indices: *)
Theorem C28_get_item : forall A (eqb leb : A -> A -> bool) os s h i, holds eqb leb os s h ->
  get_item i s = match spot (zlen (concat (values h))) i with
                 | None => Err IndexErr
                 | Some k => match nth_error (concat (values h)) k with Some x => Ok x | None => Err AttrErr end
                 end.
Proof.
  intros A eqb leb os s h i H. destruct (holds_state _ _ _ _ _ _ H) as (O & S & _). rewrite (get_state s h O i S), values_items. unfold zlen. now rewrite map_length.
Qed.
Lemma spot_place : forall n i, - n <= i -> spot n i = place n i.
Proof.
  intros n i H. unfold spot, place. destruct (Z.ltb_spec i (- n)); [lia|]. cbn [orb]. destruct (Z.leb_spec n i); auto. destruct (Z.ltb_spec i 0); auto. do 2 f_equal. lia.
Qed.
Lemma twice_place : forall n i, - n <= i -> spot_twice n i = place n i.
Proof.
  intros n i H. unfold spot_twice, place. destruct (Z.ltb_spec i (- n)); [lia|]. cbn [orb]. destruct (Z.leb_spec n i); auto.
Qed.
Lemma place_nth : forall A (l : list A) i k, place (zlen l) i = Some k -> exists x, nth_error l k = Some x.
Proof.
  intros A l i k. unfold place, zlen. destruct (Z.ltb_spec i (- Z.of_nat (length l))); [discriminate|]. cbn [orb]. destruct (Z.leb_spec (Z.of_nat (length l)) i); [discriminate|].
  intros E. destruct (nth_error l k) eqn:En; eauto. apply nth_error_None in En. exfalso. injection E as <-. destruct (Z.ltb_spec i 0); lia.
Qed.
(** As a built-in list from [-n] on. *)
Theorem C28_get_item_partial : forall A (eqb leb : A -> A -> bool) os s h i, holds eqb leb os s h -> - zlen (concat (values h)) <= i ->
  get_item i s = match place (zlen (concat (values h))) i with
                 | None => Err IndexErr
                 | Some k => match nth_error (concat (values h)) k with Some x => Ok x | None => Err IndexErr end
                 end.
Proof.
  intros A eqb leb os s h i H Hi. rewrite (C28_get_item A eqb leb os s h i H), spot_place by auto.
  destruct (place (zlen (concat (values h))) i) as [k|] eqn:E; auto. destruct (place_nth _ _ _ _ E) as (x & ->). reflexivity.
Qed.
Theorem C28_set_item_partial : forall A (eqb leb : A -> A -> bool) os s h i x, holds eqb leb os s h -> - zlen (concat (values h)) <= i ->
  match place (zlen (concat (values h))) i with
  | None => set_item i x s = Err IndexErr
  | Some k => exists t, set_item i x s = Ok t /\ shows t (s_replace k x (values h))
  end.
Proof.
  intros A eqb leb os s h i x H Hi. assert (El : zlen (concat (values h)) = zlen (concat h)) by (rewrite values_items; unfold zlen; now rewrite map_length).
  destruct (holds_state _ _ _ _ _ _ H) as (O & S & _). rewrite El in *. rewrite <- spot_place by auto. destruct (spot (zlen (concat h)) i) as [k|] eqn:Es.
  - rewrite spot_place in Es by auto. destruct (place_nth _ _ _ _ Es) as ((t & y) & Ek). rewrite <- spot_place in Es by auto.
    destruct (step_state eqb leb (OSet i x) s h O (Ok (None, (fresh s, s_set k x h))) S) as (u & O' & Eu & S' & _).
    { cbn [s_step]. rewrite Es. destruct h; [|reflexivity]. destruct k; discriminate. }
    exists u. cbn [h_step] in Eu. split; [destruct (set_item i x s); cbn in Eu; [now inv Eu|discriminate]|].
    replace (s_replace k x (values h)) with (values (s_set k x h)); [eapply state_shows; eauto|]. unfold s_set, values. rewrite Ek. cbn [fst]. symmetry. apply (replace_map snd k (t, x)).
  - pose proof (step_state eqb leb (OSet i x) s h O (Err IndexErr) S) as X. cbn [s_step] in X. rewrite Es in X. specialize (X eq_refl). cbn [agrees h_step] in X.
    destruct (set_item i x s); cbn in X; congruence.
Qed.
Theorem C28_pop_partial : forall A (eqb leb : A -> A -> bool) os s h i, holds eqb leb os s h -> - zlen (concat (values h)) <= i ->
  match place (zlen (concat (values h))) i with
  | None => pop (Some i) s = Err IndexErr
  | Some k => exists x t, pop (Some i) s = Ok (x, t) /\ nth_error (concat (values h)) k = Some x /\ shows t (s_delete k (values h))
  end.
Proof.
  intros A eqb leb os s h i H Hi. assert (El : zlen (concat (values h)) = zlen (concat h)) by (rewrite values_items; unfold zlen; now rewrite map_length).
  destruct (holds_state _ _ _ _ _ _ H) as (O & S & _). rewrite El in *. rewrite <- twice_place by auto. destruct (spot_twice (zlen (concat h)) i) as [k|] eqn:Es.
  - rewrite twice_place in Es by auto. destruct (place_nth _ _ _ _ Es) as ((t & y) & Ek). rewrite <- twice_place in Es by auto.
    destruct (step_state eqb leb (OPop (Some i)) s h O (Ok (Some y, (fresh s, s_delete k h))) S) as (u & O' & Eu & S' & _).
    { cbn [s_step]. unfold s_pop. rewrite Es, Ek. reflexivity. }
    exists y, u. cbn [h_step] in Eu. destruct (pop (Some i) s) as [(y' & u')|]; cbn in Eu; [inv Eu|discriminate]. split; auto.
    split; [rewrite values_items, nth_error_map, Ek; reflexivity|].
    replace (s_delete k (values h)) with (values (s_delete k h)); [eapply state_shows; eauto|]. symmetry. apply (delete_map snd).
  - pose proof (step_state eqb leb (OPop (Some i)) s h O (Err IndexErr) S) as X. cbn [s_step] in X. unfold s_pop in X. rewrite Es in X. specialize (X eq_refl). cbn [agrees h_step] in X.
    destruct (pop (Some i) s); cbn in X; congruence.
Qed.
(** [_pop_before] and [_pop_after]: the item beside an item. *)
Lemma entry_next : forall f l1 a l2 n, fw f (l1 ++ a :: l2) n -> f a = entry l2 n.
Proof. induction l1 as [|b l1 IH]; intros a l2 n H; cbn in *; [tauto|]. apply IH. tauto. Qed.
Lemma exit_prev : forall f l1 p a l2, bw f p (l1 ++ a :: l2) -> f a = exit p l1.
Proof. induction l1 as [|c l1 IH]; intros p a l2 H; cbn in *; [tauto|]. destruct H as (_ & H). eapply IH; eauto. Qed.
Lemma exit_last : forall p l (a : nat), exit p (l ++ [a]) = Some a.
Proof. intros p l a. now rewrite exit_app. Qed.
Lemma cut_at : forall {B} (l : list B) k x, nth_error l k = Some x -> l = firstn k l ++ x :: skipn (S k) l /\ length (firstn k l) = k.
Proof.
  induction l as [|y l IH]; intros [|k] x H; try discriminate; cbn in *.
  - inversion H. auto.
  - destruct (IH k x H) as (E & L). split; [now rewrite <- E|now rewrite L].
Qed.
Lemma firstn_next : forall {B} (l : list B) k x, nth_error l k = Some x -> firstn (S k) l = firstn k l ++ [x].
Proof. induction l as [|y l IH]; intros [|k] x H; try discriminate; cbn in *; [now inversion H|]. f_equal. now apply IH. Qed.
Lemma skipn_next : forall {B} (l : list B) k x, nth_error l k = Some x -> skipn k l = x :: skipn (S k) l.
Proof. induction l as [|y l IH]; intros [|k] x H; try discriminate; cbn in *; [now inversion H|]. now apply IH. Qed.
Lemma beside : forall A (s : @glist A) h O k a x, state s h O -> nth_error (concat h) k = Some (a, x) ->
  pop_before (Some a) s = match k with O => Err IndexErr | S j => pop_node (option_map fst (nth_error (concat h) j)) s end /\
  pop_after (Some a) s = match nth_error (concat h) (S k) with None => Err IndexErr | Some (b, _) => pop_node (Some b) s end.
Proof.
  intros A s h O k a x H E. destruct (st_rep _ _ _ H) as (L & _). destruct (cut_at _ _ _ E) as (C & Lk).
  assert (Sr : concat (serials h) = map fst (firstn k (concat h)) ++ a :: map fst (skipn (S k) (concat h))) by (rewrite serials_items, C, map_app at 1; reflexivity).
  assert (Nd : NoDup (map fst (firstn k (concat h)) ++ a :: map fst (skipn (S k) (concat h)))).
  { pose proof (state_nodup _ _ _ H) as N. rewrite C, map_app in N. exact N. }
  apply NoDup_remove_2 in Nd. rewrite in_app_iff in Nd.
  assert (Ch : check_child (Some a) s = Ok a). { apply (child_rep s _ a L). rewrite Sr, in_app_iff. right. now left. }
  unfold pop_before, pop_after. rewrite Ch. cbn [bind]. split.
  - pose proof (k_prev _ _ L) as Pv. rewrite Sr in Pv. apply exit_prev in Pv. rewrite Pv, (k_first _ _ L), Sr. destruct k as [|j].
    + cbn. now rewrite Nat.eqb_refl.
    + destruct (nth_error (concat h) j) as [(b, y)|] eqn:Ej.
      2:{ apply nth_error_None in Ej. assert (nth_error (concat h) (S j) <> None) as X by congruence. apply nth_error_Some in X. lia. }
      destruct (cut_at _ _ _ Ej) as (Cj & Lj).
      assert (F : firstn (S j) (concat h) = firstn j (concat h) ++ [(b, y)]).
      { now apply firstn_next. }
      rewrite F, map_app in *. cbn [map fst] in *. rewrite exit_last. cbn [option_map].
      destruct (oeqb (Some a) _) eqn:Eo; auto. exfalso. apply Nd. left. 
      destruct (map fst (firstn j (concat h))) as [|c l]; cbn in Eo; apply Nat.eqb_eq in Eo; subst; cbn; auto.
  - pose proof (k_next _ _ L) as Nx. rewrite Sr in Nx. apply entry_next in Nx. rewrite Nx, (k_last _ _ L), Sr, exit_app. cbn [exit].
    destruct (nth_error (concat h) (S k)) as [(b, y)|] eqn:Ej.
    + destruct (cut_at _ _ _ Ej) as (Cj & Lj).
      assert (F : skipn (S k) (concat h) = (b, y) :: skipn (S (S k)) (concat h)).
      { now apply skipn_next. }
      rewrite F in *. cbn [map fst entry exit] in *. destruct (oeqb (Some a) _) eqn:Eo; auto. exfalso. apply Nd. right.
      destruct (exit (Some b) _) as [c|] eqn:Ec; [|discriminate]. cbn in Eo. apply Nat.eqb_eq in Eo. subst c.
      apply exit_in_gen in Ec. destruct Ec as [(_ & Ec)|Ec]; [left; congruence|right; auto].
    + apply nth_error_None in Ej. rewrite skipn_all2 by lia. cbn. now rewrite Nat.eqb_refl.
Qed.
Theorem C28_pop_beside : forall A (eqb leb : A -> A -> bool) os s h k, holds eqb leb os s h -> (k < length (concat (values h)))%nat ->
  exists p, node_at (Z.of_nat k) s = Ok p /\
  match k with
  | O => pop_before p s = Err IndexErr
  | S j => exists x t, pop_before p s = Ok (x, t) /\ nth_error (concat (values h)) j = Some x /\ shows t (s_delete j (values h))
  end /\
  match nth_error (concat (values h)) (S k) with
  | None => pop_after p s = Err IndexErr
  | Some x => exists t, pop_after p s = Ok (x, t) /\ shows t (s_delete (S k) (values h))
  end.
Proof.
  intros A eqb leb os s h k H Hk. destruct (holds_state _ _ _ _ _ _ H) as (O & S & _). rewrite values_items, map_length in Hk.
  destruct (nth_error (concat h) k) as [(a, x)|] eqn:E; [|apply nth_error_None in E; lia].
  exists (Some a). split.
  { rewrite (node_at_state s h O _ S). unfold spot, zlen. destruct (Z.leb_spec (Z.of_nat (length (concat h))) (Z.of_nat k)); [lia|].
    destruct (Z.ltb_spec (Z.of_nat k) 0); [lia|]. now rewrite Nat2Z.id, E. }
  destruct (beside A s h O k a x S E) as (B1 & B2). rewrite B1, B2.
  assert (P : forall j b y, nth_error (concat h) j = Some (b, y) -> exists t, pop_node (Some b) s = Ok (y, t) /\ shows t (s_delete j (values h))).
  { intros j b y Ej. destruct (pop_state s h O j b y S Ej) as (u & Eu & Su & _). exists u. split; auto.
    replace (s_delete j (values h)) with (values (s_delete j h)); [eapply state_shows; eauto|]. symmetry. apply (delete_map snd). }
  split.
  - destruct k as [|j]; auto. destruct (nth_error (concat h) j) as [(b, y)|] eqn:Ej; [|apply nth_error_None in Ej; lia].
    destruct (P j b y Ej) as (t & Et & St). exists y, t. split; auto. split; auto. now rewrite values_items, nth_error_map, Ej.
  - rewrite values_items, nth_error_map. destruct (nth_error (concat h) (Datatypes.S k)) as [(b, y)|] eqn:Ej; cbn [option_map snd]; auto.
Qed.
Example C28_pop_beside_ex : let s := snd (h_run Z.eqb Z.leb [OExtend [1; 2]; OAppend true 3] g_new) in
  (p <- node_at 1 s ;; q <- pop_before p s ;; l <- to_nested_lists (snd q) ;; Ok (fst q, l)) = Ok (1, [[2]; [3]]) /\
  (p <- node_at 1 s ;; q <- pop_after p s ;; l <- to_nested_lists (snd q) ;; Ok (fst q, l)) = Ok (3, [[1; 2]]) /\
  (p <- node_at 0 s ;; pop_before p s) = Err IndexErr /\ (p <- node_at 2 s ;; pop_after p s) = Err IndexErr.
Proof. vm_compute. auto. Qed.
(** [groups[i]]: its head, and what the view shows. *)
Theorem C28_groups_partial : forall A (eqb leb : A -> A -> bool) os s h i, holds eqb leb os s h -> - zlen h <= i ->
  match place (zlen h) i with
  | None => group_at i s = Err IndexErr
  | Some k => exists v p, group_at i s = Ok (Some v) /\ nth_error (values h) k = Some p /\ view_iter (Some v) s = Ok p /\ view_len (Some v) s = Ok (zlen p) /\
      forall j, view_get (Some v) j s = if j <? 0 then Err IndexErr else match nth_error p (Z.to_nat j) with Some y => Ok y | None => Err IndexErr end
  end.
Proof.
  intros A eqb leb os s h i H Hi. destruct (holds_state _ _ _ _ _ _ H) as (O & S & _). rewrite (group_at_state s h O i S), spot_place by auto.
  destruct (place (zlen h) i) as [k|] eqn:E; auto. destruct (place_nth _ _ _ _ E) as (p & Ek). rewrite Ek.
  destruct (nth_error_split _ _ Ek) as (h1 & h2 & -> & _). pose proof (state_ne _ _ _ S) as F. apply Forall_app in F. destruct F as (_ & F). inversion F as [|? ? Hp _]; subst.
  destruct p as [|(v & x) p]; [contradiction|]. exists v, (map snd ((v, x) :: p)). split; auto. split; [unfold values; rewrite nth_error_map, Ek; reflexivity|].
  destruct (view_of_state s h1 v x p h2 O S) as (V1 & V2 & V3). split; auto. split; [rewrite V2; unfold zlen; now rewrite map_length|]. exact V3.
Qed.
(** Below [-n] there is an item and no exception; [pop(-n-1)] removes the last item. *)
Theorem C28_refuted : exists (os : list (op Z)) s h i, holds Z.eqb Z.leb os s h /\ i < - zlen (concat (values h)) /\
  get_item i s = Ok 1 /\ (q <- pop (Some i) s ;; l <- g_iter (snd q) ;; Ok (fst q, l)) = Ok (3, [1; 2]) /\ group_at i s = Ok (Some 0%nat) /\
  (t <- set_item i 9 s ;; g_iter t) = Ok [9; 2; 3] /\ ~ C28_statement.
Proof.
  exists [OExtend [1; 2; 3]], (snd (h_run Z.eqb Z.leb [OExtend [1; 2; 3]] g_new)), [[(0%nat, 1); (1%nat, 2); (2%nat, 3)]], (-4).
  assert (H : holds Z.eqb Z.leb [OExtend [1; 2; 3]] (snd (h_run Z.eqb Z.leb [OExtend [1; 2; 3]] g_new)) [[(0%nat, 1); (1%nat, 2); (2%nat, 3)]]).
  { exists [Ok None]. split; [reflexivity|]. vm_compute. reflexivity. }
  split; [exact H|]. split; [vm_compute; reflexivity|]. repeat (split; [vm_compute; reflexivity|]). intros X. specialize (X Z Z.eqb Z.leb _ _ _ (-4) H). vm_compute in X. discriminate.
Qed.
(** The exact effect of [pop] and [del] for all indices is in C27_history_partial ([spot_twice]). *)
Example C28_ex : get_item 3 list8 = Ok 2 /\ get_item (-2) list8 = Ok 7 /\ get_item 8 list8 = Err IndexErr /\ get_item (-1) (@g_new Z) = Err AttrErr /\
  (v <- group_at (-1) list8 ;; view_get v 2 list8) = Ok 7 /\ group_at 3 list8 = Err IndexErr /\ (v <- group_at 1 list8 ;; view_get v 1 list8) = Err IndexErr /\
  (t <- set_item (-2) 0 list8 ;; to_nested_lists t) = Ok [[1; 2; 3]; [2]; [5; 2; 0; 8]] /\
  (q <- pop (Some 3) list8 ;; l <- to_nested_lists (snd q) ;; Ok (fst q, l)) = Ok (2, [[1; 2; 3]; [5; 2; 7; 8]]).
Proof. vm_compute. repeat split. Qed.

(** ** C29 *)
Definition C29_statement : Prop := forall A (eqb leb : A -> A -> bool) os s h i k, holds eqb leb os s h ->
  place (zlen (concat (values h))) i = Some k -> exists t, insert_group_at i s = Ok t /\ shows t (s_cut k (values h)).
(** For items that begin no later group. *)
Theorem C29_insert_group_at_partial : forall A (eqb leb : A -> A -> bool) os s h i k, holds eqb leb os s h ->
  place (zlen (concat (values h))) i = Some k -> later_head k (values h) = false -> exists t, insert_group_at i s = Ok t /\ shows t (s_cut k (values h)).
Proof.
  intros A eqb leb os s h i k H E Hl. assert (El : zlen (concat (values h)) = zlen (concat h)) by (rewrite values_items; unfold zlen; now rewrite map_length).
  assert (Hi : - zlen (concat h) <= i).
  { rewrite El in E. unfold place in E. destruct (Z.ltb_spec i (- zlen (concat h))); [discriminate|]. lia. }
  destruct (holds_state _ _ _ _ _ _ H) as (O & S & _). rewrite El, <- twice_place in E by auto.
  assert (Hl' : later_head k h = false).
  { rewrite <- Hl. unfold values. clear. revert k. induction h as [|p h IH]; intros k; auto. cbn [map later_head]. rewrite map_length. destruct (k <? length p)%nat; auto.
    destruct (k - length p)%nat; [now destruct h|apply IH]. }
  destruct (step_state eqb leb (OInsertGroupAt i) s h O (Ok (None, (fresh s, s_cut k h))) S) as (u & O' & Eu & S' & _).
  { cbn [s_step]. rewrite E, Hl'. reflexivity. }
  exists u. cbn [h_step] in Eu. destruct (insert_group_at i s) as [u'|]; cbn in Eu; [inv Eu|discriminate]. split; auto.
  replace (s_cut k (values h)) with (values (s_cut k h)); [eapply state_shows; eauto|]. symmetry. apply (cut_map snd).
Qed.
(** What [s_cut] does: the items are the same, and the groups begin where they did and at item [k]. *)
Fixpoint starts {A} (n : nat) (g : list (list A)) : list nat := match g with [] => [] | p :: g' => n :: starts (n + length p) g' end.
Lemma starts_ge : forall A (g : list (list A)) n j, In j (starts n g) -> (n <= j)%nat.
Proof. induction g as [|p g IH]; intros n j H; [contradiction|]. destruct H as [<-|H]; auto. apply IH in H. lia. Qed.
Theorem C29_cut : forall A (g : list (list A)) k, Forall (fun p => p <> []) g -> (k < length (concat g))%nat ->
  concat (s_cut k g) = concat g /\ Forall (fun p => p <> []) (s_cut k g) /\ forall j, In j (starts 0 (s_cut k g)) <-> In j (starts 0 g) \/ j = k.
Proof.
  intros A g k F. assert (X : forall n, (k < length (concat g))%nat -> concat (s_cut k g) = concat g /\ Forall (fun p => p <> []) (s_cut k g) /\
    forall j, In j (starts n (s_cut k g)) <-> In j (starts n g) \/ j = (n + k)%nat); [|exact (X 0%nat)].
  revert k. induction F as [|p g Hp F IH]; intros k n Hk; [cbn in Hk; lia|]. cbn [s_cut]. destruct (Nat.ltb_spec k (length p)) as [Hl|Hl].
  - destruct k as [|k].
    + split; auto. split; [constructor; auto|]. intros j. cbn. rewrite Nat.add_0_r. intuition congruence.
    + split; [cbn [concat]; now rewrite app_assoc, firstn_skipn|]. split.
      * constructor; [|constructor; auto].
        -- intros E. apply (f_equal (@length A)) in E. rewrite firstn_length in E. cbn [length] in E. lia.
        -- intros E. apply (f_equal (@length A)) in E. rewrite skipn_length in E. cbn [length] in E. lia.
      * intros j. cbn [starts]. rewrite firstn_length, skipn_length. replace (Nat.min (S k) (length p)) with (S k) by lia.
        replace (n + S k + (length p - S k))%nat with (n + length p)%nat by lia. cbn [In]. intuition congruence.
  - cbn [concat] in Hk. rewrite app_length in Hk. destruct (IH (k - length p)%nat (n + length p)%nat) as (I1 & I2 & I3); [lia|]. split; [cbn; now rewrite I1|].
    split; [constructor; auto|]. intros j. cbn [starts In]. rewrite I3. replace (n + length p + (k - length p))%nat with (n + k)%nat by lia. tauto.
Qed.
Definition heads2 := snd (h_run Z.eqb Z.leb [OAppend true 1; OAppend true 2] g_new).
(** At the head of a later group the links of the heads become a cycle: to go through the groups does not end. *)
Theorem C29_refuted : exists (os : list (op Z)) s h i k t, holds Z.eqb Z.leb os s h /\ place (zlen (concat (values h))) i = Some k /\
  later_head k (values h) = true /\ insert_group_at i s = Ok t /\ (forall fuel, trail (n_nh t) fuel (g_fhead t) = Err Diverge) /\
  to_nested_lists t = Err Diverge /\ group_count t = 3 /\ ~ C29_statement /\ ~ C27_statement.
Proof.
  exists [OAppend true 1; OAppend true 2], heads2, [[(0%nat, 1)]; [(1%nat, 2)]], 1, 1%nat.
  assert (H : holds Z.eqb Z.leb [OAppend true 1; OAppend true 2] heads2 [[(0%nat, 1)]; [(1%nat, 2)]]).
  { exists [Ok None; Ok None]. split; [reflexivity|]. unfold heads2. vm_compute. reflexivity. }
  destruct (insert_group_at 1 heads2) as [t|] eqn:Et; [|vm_compute in Et; discriminate].
  assert (D : to_nested_lists t = Err Diverge).
  { transitivity (t <- insert_group_at 1 heads2 ;; to_nested_lists t); [now rewrite Et|vm_compute; reflexivity]. }
  exists t. split; [exact H|]. split; [reflexivity|]. split; [reflexivity|]. split; [reflexivity|].
  assert (E0 : g_fhead t = Some 0%nat).
  { transitivity (match insert_group_at 1 heads2 with Ok t => g_fhead t | Err _ => None end); [now rewrite Et|vm_compute; reflexivity]. }
  assert (E1 : n_nh t 0%nat = Some 1%nat).
  { transitivity (match insert_group_at 1 heads2 with Ok t => n_nh t 0%nat | Err _ => None end); [now rewrite Et|vm_compute; reflexivity]. }
  assert (E2 : n_nh t 1%nat = Some 1%nat).
  { transitivity (match insert_group_at 1 heads2 with Ok t => n_nh t 1%nat | Err _ => None end); [now rewrite Et|vm_compute; reflexivity]. }
  split; [|split; [exact D|split; [|split]]].
  - assert (X : forall fuel, trail (n_nh t) fuel (Some 1%nat) = Err Diverge).
    { induction fuel as [|n IH]; auto. cbn [trail]. now rewrite E2, IH. }
    intros [|n]; rewrite E0; auto. cbn [trail]. now rewrite E1, X.
  - transitivity (match insert_group_at 1 heads2 with Ok t => group_count t | Err _ => 0 end); [now rewrite Et|vm_compute; reflexivity].
  - intros X. destruct (X Z Z.eqb Z.leb _ _ _ 1 1%nat H eq_refl) as (t' & E' & (_ & _ & E3 & _)). rewrite Et in E'. injection E' as <-. rewrite D in E3. discriminate.
  - intros X. destruct (X Z Z.eqb Z.leb [OAppend true 1; OAppend true 2; OInsertGroupAt 1]) as (g & (_ & _ & E3 & _)). vm_compute in E3. discriminate.
Qed.
Example C29_ex : (t <- insert_group_at 2 list8 ;; to_nested_lists t) = Ok [[1; 2]; [3]; [2]; [5; 2; 7; 8]] /\ later_head 2 [[1; 2; 3]; [2]; [5; 2; 7; 8]] = false /\
  (t <- insert_group_at 0 list8 ;; to_nested_lists t) = Ok [[1; 2; 3]; [2]; [5; 2; 7; 8]] /\ starts 0 [[1; 2]; [3]; [2]; [5; 2; 7; 8]] = [0; 2; 3; 4]%nat.
Proof. vm_compute. repeat split. Qed.

(** ** C30 *)
Theorem C30_sort : forall A (eqb leb : A -> A -> bool) os s h, (forall x y, leb x y = true \/ leb y x = true) ->
  (forall x y z, leb x y = true -> leb y z = true -> leb x z = true) -> holds eqb leb os s h ->
  exists t l, sort leb s = Ok t /\ shows t (one_group l) /\ Permutation l (concat (values h)) /\ StronglySorted (fun x y => leb x y = true) l /\
    (forall x, filter (fun y => leb x y && leb y x) l = filter (fun y => leb x y && leb y x) (concat (values h))) /\ exists h', holds eqb leb (os ++ [OSort]) t h'.
Proof.
  intros A eqb leb os s h Ht Htr H. destruct (holds_step _ _ _ _ _ _ OSort None (fresh s) _ H eq_refl) as (t & Et & _ & Ht').
  exists t, (sort_items leb (concat (values h))). cbn [h_step] in Et. destruct (sort leb s) as [t'|]; cbn in Et; [|discriminate]. inv Et. split; auto.
  destruct (holds_state _ _ _ _ _ _ Ht') as (O & S & _). apply state_shows in S.
  assert (Ev : values (one_group (sort_items (fun a b : nat * A => leb (snd a) (snd b)) (concat h))) = one_group (sort_items leb (concat (values h)))).
  { rewrite values_items, (sort_map snd leb). unfold values. destruct (sort_items _ (concat h)); reflexivity. }
  rewrite Ev in S. split; auto.
  assert (P : forall x : A, True -> leb x x = true) by (intros x _; destruct (Ht x x); auto).
  destruct (sort_items_ok leb (fun _ => True)) with (l := concat (values h)) as (P1 & P2 & P3); auto.
  { intros; eapply Htr; eauto. }
  { apply Forall_forall. auto. }
  split; auto. split; auto. split; [intros x; apply P3; auto|]. eexists. exact Ht'.
Qed.
Definition pairs := snd (h_run (fun a b : Z * Z => (fst a =? fst b) && (snd a =? snd b)) (fun a b => fst a <=? fst b)
  [OAppendGroup [(3, 0); (1, 1)]; OAppendGroup [(2, 2); (1, 3); (3, 4)]] g_new).
Example C30_ex : (t <- sort (fun a b : Z * Z => fst a <=? fst b) pairs ;; to_nested_lists t) = Ok [[(1, 1); (1, 3); (2, 2); (3, 0); (3, 4)]].
Proof. vm_compute. reflexivity. Qed.

(** ** C31 *)
Theorem C31_equals : forall A (eqb leb eqb' leb' : A -> A -> bool) os os' cmp s h t k, holds eqb leb os s h -> holds eqb' leb' os' t k ->
  (exists b, equals cmp true s t = Ok b /\ (b = true <-> Forall2 (Forall2 (fun x y => cmp x y = true)) (values h) (values k))) /\
  (exists b, equals cmp false s t = Ok b /\ (b = true <-> Forall2 (fun x y => cmp x y = true) (concat (values h)) (concat (values k)))).
Proof.
  intros A eqb leb eqb' leb' os os' cmp s h t k H K. destruct (holds_state _ _ _ _ _ _ H) as (O & S & _). destruct (holds_state _ _ _ _ _ _ K) as (P & T & _).
  eapply equals_state; eauto.
Qed.
(** With another kind of sequence: never equal as grouped lists; [compare_groups=False] compares the items. *)
Theorem C31_equals_plain : forall A (eqb leb : A -> A -> bool) os cmp s h m, holds eqb leb os s h ->
  equals_plain cmp true s m = Ok false /\
  exists b, equals_plain cmp false s m = Ok b /\ (b = true <-> Forall2 (fun x y => cmp x y = true) (concat (values h)) m).
Proof. intros A eqb leb os cmp s h m H. destruct (holds_state _ _ _ _ _ _ H) as (O & S & _). eapply equals_plain_state; eauto. Qed.
(** A copy made from the nested lists is equal; one made from the items has one group. *)
Theorem C31_copy : forall A (eqb leb : A -> A -> bool) os cmp s h, holds eqb leb os s h -> (forall x, cmp x x = true) ->
  exists g t, to_nested_lists s = Ok g /\ g_init (map GroupItem g) = Ok t /\ shows t g /\ equals cmp true s t = Ok true /\ equals cmp false s t = Ok true.
Proof.
  intros A eqb leb os cmp s h H Hr. destruct (holds_state _ _ _ _ _ _ H) as (O & S & _). destruct (read_state s h O S) as (_ & _ & N & _).
  destruct (init_state (map GroupItem (values h))) as (t & k & Et & T & Ek). exists (values h), t. split; auto. split; auto.
  rewrite init_groups in Ek by (apply (rep_full s _ _ (st_rep _ _ _ S))). cbn [app] in Ek.
  split; [rewrite <- Ek; eapply state_shows; eauto|]. destruct (equals_state cmp s t h O k [] S T) as ((b & Eb & Hb) & (c & Ec & Hc)). rewrite Ek in Hb, Hc.
  assert (X : forall l : list A, Forall2 (fun x y => cmp x y = true) l l) by (induction l; auto).
  split; [rewrite Eb|rewrite Ec]; f_equal; [apply Hb|apply Hc; apply X]. clear - X. induction (values h) as [|p g IH]; constructor; auto.
Qed.
Example C31_ex : equals Z.eqb true list8 list8 = Ok true /\ (t <- clear_groups list8 ;; equals Z.eqb true list8 t) = Ok false /\
  (t <- clear_groups list8 ;; equals Z.eqb false list8 t) = Ok true /\ equals_plain Z.eqb false list8 [1; 2; 3; 2; 5; 2; 7; 8] = Ok true /\
  equals_plain Z.eqb true list8 [1; 2; 3; 2; 5; 2; 7; 8] = Ok false /\ (t <- set_item 7 9 list8 ;; equals Z.eqb false list8 t) = Ok false.
Proof. vm_compute. repeat split. Qed.

(** ** C32 *)
(** Extending a list with itself terminates only if it is empty. *)
Definition C32_statement : Prop := forall A (eqb leb : A -> A -> bool) os s h, holds eqb leb os s h ->
  exists fuel t, extend_self fuel s = Ok t /\ g_iter t = Ok (concat (values h) ++ concat (values h)).
Theorem C32_extend_self : forall A (eqb leb : A -> A -> bool) os s h, holds eqb leb os s h ->
  forall fuel, extend_self fuel s = match h with [] => Ok s | _ => Err Diverge end.
Proof.
  intros A eqb leb os s h H fuel. destruct (holds_state _ _ _ _ _ _ H) as (O & S & _). destruct h as [|p h].
  - unfold extend_self. destruct (st_rep _ _ _ S) as (L & _). rewrite (k_first _ _ L). destruct fuel; reflexivity.
  - apply (extend_self_diverges fuel s (p :: h) O S). discriminate.
Qed.
Theorem C32_refuted : exists (os : list (op Z)) s h, holds Z.eqb Z.leb os s h /\ (forall fuel, extend_self fuel s = Err Diverge) /\ ~ C32_statement.
Proof.
  exists [OAppend true 1; OAppend true 2], heads2, [[(0%nat, 1)]; [(1%nat, 2)]].
  assert (H : holds Z.eqb Z.leb [OAppend true 1; OAppend true 2] heads2 [[(0%nat, 1)]; [(1%nat, 2)]]).
  { exists [Ok None; Ok None]. split; [reflexivity|]. unfold heads2. vm_compute. reflexivity. }
  split; auto. assert (X := C32_extend_self _ _ _ _ _ _ H). split; auto. intros Y. destruct (Y Z Z.eqb Z.leb _ _ _ H) as (fuel & t & E & _). rewrite X in E. discriminate.
Qed.
Example C32_ex : extend_self 100 list8 = Err Diverge /\ extend_self 0 (@g_new Z) = Ok g_new.
Proof. vm_compute. auto. Qed.

(** ** C44 *)
(** [GroupView(v)] for any node [v]. *)
Definition C44_statement : Prop := forall A (eqb leb : A -> A -> bool) os s h v, holds eqb leb os s h ->
  (exists h1 x p h2, h = h1 ++ ((v, x) :: p) :: h2 /\ view_iter (Some v) s = Ok (map snd ((v, x) :: p))) \/
  ((forall h1 x p h2, h <> h1 ++ ((v, x) :: p) :: h2) /\ view_iter (Some v) s = Err GroupViewErr).
(** The view of a group shows its items, after every history. *)
Theorem C44_current : forall A (eqb leb : A -> A -> bool) os s h1 v x p h2, holds eqb leb os s (h1 ++ ((v, x) :: p) :: h2) ->
  view_iter (Some v) s = Ok (map snd ((v, x) :: p)) /\ view_len (Some v) s = Ok (zlen ((v, x) :: p)) /\
  forall j, view_get (Some v) j s = if j <? 0 then Err IndexErr else match nth_error (map snd ((v, x) :: p)) (Z.to_nat j) with Some y => Ok y | None => Err IndexErr end.
Proof. intros A eqb leb os s h1 v x p h2 H. destruct (holds_state _ _ _ _ _ _ H) as (O & S & _). eapply view_of_state; eauto. Qed.
(** After a history without [clear], any other view raises GroupViewError: the item has been removed, or begins no group. *)
Theorem C44_views_partial : forall A (eqb leb : A -> A -> bool) os s h v, holds eqb leb os s h -> ~ In OClear os ->
  (exists h1 x p h2, h = h1 ++ ((v, x) :: p) :: h2 /\ view_iter (Some v) s = Ok (map snd ((v, x) :: p))) \/
  ((forall h1 x p h2, h <> h1 ++ ((v, x) :: p) :: h2) /\ view_iter (Some v) s = Err GroupViewErr /\ view_len (Some v) s = Err GroupViewErr /\
    (forall j, view_get (Some v) j s = Err GroupViewErr) /\ (forall j y, view_set (Some v) j y s = Err GroupViewErr) /\ (forall j, view_del (Some v) j s = Err GroupViewErr)).
Proof.
  intros A eqb leb os s h v H Hc. destruct (holds_state _ _ _ _ _ _ H) as (O & S & HO). destruct (in_dec Nat.eq_dec v (heads (serials h))) as [Hi|Hi].
  - left. destruct (head_split v h (state_ne _ _ _ S) Hi) as (h1 & x & p & h2 & ->). exists h1, x, p, h2. split; auto. apply (view_of_state s h1 v x p h2 O S).
  - right. pose proof (stale_state s h O v S (HO Hc) Hi) as X. split.
    + intros h1 x p h2 ->. apply Hi. apply split_head.
    + unfold view_len, view_iter, view_nodes, view_get, view_set, view_del. rewrite X. cbn. auto.
Qed.
(** After [clear] an old view goes on showing the old items. *)
Theorem C44_after_clear : forall A (s : glist A) v, view_iter v (clear s) = view_iter v s.
Proof.
  intros A s v. assert (X : forall n a, group_rest n a (clear s) = group_rest n a s).
  { induction n as [|n IH]; intros a; auto. cbn [group_rest]. change (n_next (clear s) a) with (n_next s a). destruct (n_next s a) as [b|]; auto.
    change (n_head (clear s) b) with (n_head s b). destruct (n_head s b); auto. now rewrite IH. }
  unfold view_iter, view_nodes, check_view. destruct v as [a|]; auto. cbn [deref bind]. change (n_head (clear s) a && n_par (clear s) a) with (n_head s a && n_par s a).
  destruct (n_head s a && n_par s a); auto. cbn [bind]. rewrite X. reflexivity.
Qed.
Theorem C44_refuted : exists (os : list (op Z)) s v, holds Z.eqb Z.leb os s [] /\ view_iter (Some v) s = Ok [1] /\ view_get (Some v) 0 s = Ok 1 /\ ~ C44_statement.
Proof.
  exists [OAppend true 1; OAppend true 2; OClear], (clear heads2), 0%nat.
  assert (H : holds Z.eqb Z.leb [OAppend true 1; OAppend true 2; OClear] (clear heads2) []).
  { exists [Ok None; Ok None; Ok None]. split; [reflexivity|]. unfold heads2. vm_compute. reflexivity. }
  split; [exact H|]. split; [vm_compute; reflexivity|]. split; [vm_compute; reflexivity|]. intros X.
  destruct (X Z Z.eqb Z.leb _ _ _ 0%nat H) as [(h1 & x & p & h2 & E & _)|(_ & E)]; [destruct h1; discriminate|]. vm_compute in E. discriminate.
Qed.
Example C44_ex : view_iter (Some 3%nat) list8 = Ok [2] /\ view_iter (Some 4%nat) list8 = Ok [5; 2; 7; 8] /\ view_iter (Some 5%nat) list8 = Err GroupViewErr /\
  (q <- pop (Some 3) list8 ;; view_iter (Some 3%nat) (snd q)) = Err GroupViewErr /\ (t <- insert 3 0 list8 ;; view_iter (Some 3%nat) t) = Err GroupViewErr /\
  (t <- append 9 false list8 ;; view_iter (Some 4%nat) t) = Ok [5; 2; 7; 8; 9].
Proof. vm_compute. repeat split. Qed.
