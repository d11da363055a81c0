(** * PGroup6: histories of operations. *)
From Coq Require Import List ZArith Bool Arith Lia Permutation.
From Verif Require Import Base MSeq MGroup SpecGroup PSort PGroup PGroup2 PGroup3 PGroup4 PGroup5.
Import ListNotations.

Section Items.
Context {B : Type}.
Implicit Types g : list (list B).
Lemma append_items : forall ng x g, concat (s_append ng x g) = concat g ++ [x].
Proof.
  intros ng x. induction g as [|p g IH]; auto. cbn [s_append]. destruct g as [|q g].
  - destruct ng; cbn; now rewrite ?app_nil_r.
  - cbn [concat] in *. rewrite IH. now rewrite !app_assoc.
Qed.
Lemma prepend_items : forall ng x g, concat (s_prepend ng x g) = x :: concat g.
Proof. intros [] x [|p g]; reflexivity. Qed.
Lemma insert_items : forall x g i, (i < length (concat g))%nat -> concat (s_insert i x g) = firstn i (concat g) ++ x :: skipn i (concat g).
Proof.
  intros x g i H. destruct (nth_error (concat g) i) as [a|] eqn:E; [|apply nth_error_None in E; lia].
  destruct (split_at g i a E) as (n1 & p & q & n2 & -> & <-). rewrite insert_dec, (concat_split n1 p a q n2).
  destruct (fs_app (concat n1 ++ p) (a :: q ++ concat n2)) as (-> & ->). rewrite concat_app. cbn [concat]. now rewrite <- !app_assoc.
Qed.
Lemma delete_items : forall g i, (i < length (concat g))%nat -> concat (s_delete i g) = firstn i (concat g) ++ skipn (S i) (concat g).
Proof.
  intros g i H. destruct (nth_error (concat g) i) as [a|] eqn:E; [|apply nth_error_None in E; lia].
  destruct (split_at g i a E) as (n1 & p & q & n2 & -> & <-). rewrite delete_dec, (concat_split n1 p a q n2).
  destruct (fs_app (concat n1 ++ p) (a :: q ++ concat n2)) as (-> & _).
  destruct (fs_app_S (concat n1 ++ p) a (q ++ concat n2)) as (_ & ->). rewrite concat_app.
  rewrite <- app_assoc. f_equal. rewrite app_assoc. destruct (p ++ q); reflexivity.
Qed.
Lemma replace_items : forall x g i, (i < length (concat g))%nat -> concat (s_replace i x g) = firstn i (concat g) ++ x :: skipn (S i) (concat g).
Proof.
  intros x g i H. destruct (nth_error (concat g) i) as [a|] eqn:E; [|apply nth_error_None in E; lia].
  destruct (split_at g i a E) as (n1 & p & q & n2 & -> & <-). rewrite replace_dec, (concat_split n1 p a q n2).
  destruct (fs_app (concat n1 ++ p) (a :: q ++ concat n2)) as (-> & _).
  destruct (fs_app_S (concat n1 ++ p) a (q ++ concat n2)) as (_ & ->). rewrite concat_app. cbn [concat]. now rewrite <- !app_assoc.
Qed.
Lemma cut_items : forall g i, concat (s_cut i g) = concat g.
Proof.
  induction g as [|p g IH]; intros i; auto. cbn [s_cut]. destruct (i <? length p)%nat; [|cbn; now rewrite IH].
  destruct i; auto. cbn [concat]. rewrite app_assoc, firstn_skipn. reflexivity.
Qed.
Lemma extend_items : forall l g, concat (s_extend l g) = concat g ++ l.
Proof.
  unfold s_extend. induction l as [|x l IH]; intros g; cbn [fold_left]; [now rewrite app_nil_r|]. rewrite IH, append_items, <- app_assoc. reflexivity.
Qed.
Lemma append_new : forall x g, s_append true x g = g ++ [[x]].
Proof. intros x. induction g as [|p g IH]; auto. cbn [s_append]. destruct g; auto. cbn [app] in *. now rewrite IH. Qed.
Lemma extend_last : forall l g p, s_extend l (g ++ [p]) = g ++ [p ++ l].
Proof.
  unfold s_extend. induction l as [|x l IH]; intros g p; cbn [fold_left]; [now rewrite app_nil_r|].
  destruct (append_dec g p x) as (-> & _). rewrite IH. now rewrite <- app_assoc.
Qed.
Lemma append_group_steps : forall x l g, s_extend l (s_append true x g) = s_append_group (x :: l) g.
Proof. intros x l g. rewrite append_new, extend_last. reflexivity. Qed.
End Items.

Section Maps.
Context {B C : Type}.
Variable f : B -> C.
Notation R := (fun (c : C) (b : B) => c = f b).
Lemma map_F2 : forall l, Forall2 R (map f l) l.
Proof. induction l; constructor; auto. Qed.
Lemma F2_map : forall l m, Forall2 R l m -> l = map f m.
Proof. induction 1; cbn; congruence. Qed.
Lemma maps_F2 : forall h, Forall2 (Forall2 R) (map (map f) h) h.
Proof. induction h; constructor; auto. apply map_F2. Qed.
Lemma F2_maps : forall g h, Forall2 (Forall2 R) g h -> g = map (map f) h.
Proof. induction 1; cbn; auto. f_equal; auto. now apply F2_map. Qed.
Lemma insert_map : forall i x h, s_insert i (f x) (map (map f) h) = map (map f) (s_insert i x h).
Proof. intros. apply F2_maps, insert_par; auto. apply maps_F2. Qed.
Lemma delete_map : forall i h, s_delete i (map (map f) h) = map (map f) (s_delete i h).
Proof. intros. apply F2_maps, delete_par; auto. apply maps_F2. Qed.
Lemma replace_map : forall i x h, s_replace i (f x) (map (map f) h) = map (map f) (s_replace i x h).
Proof. intros. apply F2_maps, replace_par; auto. apply maps_F2. Qed.
Lemma cut_map : forall i h, s_cut i (map (map f) h) = map (map f) (s_cut i h).
Proof. intros. apply F2_maps, cut_par; auto. apply maps_F2. Qed.
Lemma later_head_map : forall i h, later_head i (map (map f) h) = later_head i h.
Proof. intros. eapply later_head_par. apply maps_F2. Qed.
Lemma append_map : forall ng x h, s_append ng (f x) (map (map f) h) = map (map f) (s_append ng x h).
Proof. intros. apply F2_maps, append_par; auto. apply maps_F2. Qed.
Lemma prepend_map : forall ng x h, s_prepend ng (f x) (map (map f) h) = map (map f) (s_prepend ng x h).
Proof. intros. apply F2_maps, prepend_par; auto. apply maps_F2. Qed.
Lemma one_group_map : forall l, one_group (map f l) = map (map f) (one_group l).
Proof. intros [|]; reflexivity. Qed.
Lemma concat_maps : forall h, concat (map (map f) h) = map f (concat h).
Proof. intros. now rewrite concat_map. Qed.
Lemma sort_map : forall leb l, sort_items leb (map f l) = map f (sort_items (fun a b => leb (f a) (f b)) l).
Proof.
  intros leb l. unfold sort_items. rewrite map_length. apply F2_map. apply (sort_par leb (fun a b => leb (f a) (f b)) R).
  - intros a b x y -> ->. reflexivity.
  - apply map_F2.
Qed.
End Maps.

Section State.
Context {A : Type}.
Notation gl := (glist A).
Notation tagged := (list (list (nat * A))).
Notation op := (op A).

(** The list [s] has the contents [h]; [O] are the nodes that were in it when it was cleared. *)
Record state (s : gl) (h : tagged) (O : list nat) : Prop := {
  st_rep : rep s (serials h) (values h);
  st_par : forall a, n_par s a = true <-> In a (map fst (concat h)) \/ In a O;
  st_out : forall a, In a O -> (a < fresh s)%nat /\ ~ In a (map fst (concat h)) }.

Lemma serials_items : forall h : tagged, concat (serials h) = map fst (concat h).
Proof. intros. apply concat_maps. Qed.
Lemma values_items : forall h : tagged, concat (values h) = map snd (concat h).
Proof. intros. apply concat_maps. Qed.
Lemma state_new : state g_new [] [].
Proof. constructor; [apply rep_new| |]; cbn; intuition discriminate. Qed.
Lemma state_lt : forall s h O a, state s h O -> n_par s a = true -> (a < fresh s)%nat.
Proof.
  intros s h O a H Ha. apply (st_par _ _ _ H) in Ha. destruct Ha as [Ha|Ha]; [|now apply (st_out _ _ _ H)].
  destruct (st_rep _ _ _ H) as (L & _). pose proof (k_lt _ _ L) as F. rewrite serials_items, Forall_forall in F. auto.
Qed.
Lemma state_made : forall s t h h' O, state s h O -> made s t -> rep t (serials h') (values h') ->
  (forall a, In a (map fst (concat h')) <-> a = fresh s \/ In a (map fst (concat h))) -> state t h' O.
Proof.
  intros s t h h' O H (M1 & M2) R Hi. constructor; auto.
  - intros a. rewrite M2, Hi. unfold upd. destruct (Nat.eqb_spec a (fresh s)); [intuition|]. rewrite (st_par _ _ _ H). intuition.
  - intros a Ha. destruct (st_out _ _ _ H a Ha) as (H1 & H2). rewrite Hi, M1. split; [lia|]. intros [->|]; [lia|contradiction].
Qed.
Lemma state_kept : forall s t h h' O, state s h O -> kept s t -> rep t (serials h') (values h') ->
  (forall a, In a (map fst (concat h')) <-> In a (map fst (concat h))) -> state t h' O.
Proof.
  intros s t h h' O H (M1 & M2) R Hi. constructor; auto.
  - intros a. rewrite M2, Hi. apply H.
  - intros a Ha. rewrite M1, Hi. apply H. auto.
Qed.
Lemma state_nodup : forall s h O, state s h O -> NoDup (map fst (concat h)).
Proof. intros s h O H. destruct (st_rep _ _ _ H) as (L & _). rewrite <- serials_items. apply L. Qed.
Lemma state_cnt : forall s h O, state s h O -> g_cnt s = zlen (concat h) /\ g_gcnt s = zlen h.
Proof.
  intros s h O H. destruct (rep_len _ _ _ (st_rep _ _ _ H)) as (E1 & E2). unfold items in E1. rewrite values_items in E1.
  unfold values, zlen in *. rewrite map_length in *. auto.
Qed.
Lemma state_ne : forall s h O, state s h O -> Forall (fun p => p <> []) h.
Proof.
  intros s h O H. pose proof (rep_full _ _ _ (st_rep _ _ _ H)) as F. unfold values in F. rewrite Forall_map in F.
  rewrite Forall_forall in *. intros p Hp E. subst p. now apply (F []).
Qed.
Lemma state_nil : forall s h O, state s h O -> (concat h = [] <-> h = []).
Proof.
  intros s h O H. pose proof (state_ne _ _ _ H) as F. split; [|intros ->; auto]. destruct h as [|p h]; auto. inv F. destruct p; [contradiction|discriminate].
Qed.

Lemma append_state : forall s h O ng x, state s h O ->
  exists t, append x ng s = Ok t /\ state t (s_append ng (fresh s, x) h) O /\ made s t.
Proof.
  intros s h O ng x H. destruct (append_rep s _ _ x ng (st_rep _ _ _ H)) as (t & E & R & M).
  exists t. split; auto. split; auto. apply (state_made s t h); auto.
  - unfold serials, values in *. rewrite (append_map fst ng (fresh s, x)), (append_map snd ng (fresh s, x)) in R. exact R.
  - intros a. rewrite append_items, map_app, in_app_iff. cbn. intuition.
Qed.
Lemma prepend_state : forall s h O ng x, state s h O ->
  exists t, prepend x ng s = Ok t /\ state t (s_prepend ng (fresh s, x) h) O /\ made s t.
Proof.
  intros s h O ng x H. destruct (prepend_rep s _ _ x ng (st_rep _ _ _ H)) as (t & E & R & M).
  exists t. split; auto. split; auto. apply (state_made s t h); auto.
  - unfold serials, values in *. rewrite (prepend_map fst ng (fresh s, x)), (prepend_map snd ng (fresh s, x)) in R. exact R.
  - intros a. rewrite prepend_items. cbn. intuition.
Qed.
Lemma extend_state : forall l s h O, state s h O ->
  exists t, extend l s = Ok t /\ state t (s_extend (number (fresh s) l) h) O /\ fresh t = (fresh s + length l)%nat.
Proof.
  induction l as [|x l IH]; intros s h O H.
  - exists s. cbn. rewrite Nat.add_0_r. auto.
  - cbn [extend]. destruct (append_state s h O false x H) as (t & E & R & (M & _)). rewrite E. cbn [bind].
    destruct (IH t _ O R) as (u & Eu & Ru & Mu). exists u. split; auto. rewrite M in *. split; [exact Ru|]. cbn. lia.
Qed.
Lemma append_group_state : forall l s h O, state s h O ->
  exists t, append_group l s = Ok t /\ state t (s_append_group (number (fresh s) l) h) O /\ fresh t = (fresh s + length l)%nat.
Proof.
  intros [|x l] s h O H.
  - exists s. cbn. rewrite Nat.add_0_r. auto.
  - cbn [append_group]. destruct (append_state s h O true x H) as (t & E & R & (M & _)). rewrite E. cbn [bind].
    destruct (extend_state l t _ O R) as (u & Eu & Ru & Mu). exists u. split; auto. rewrite M in *. split; [|cbn; lia].
    unfold number. cbn [length List.seq combine]. rewrite <- append_group_steps. exact Ru.
Qed.

Lemma in_ids : forall (a : nat) (x : nat * A) l i, (i <= length l)%nat ->
  (In a (map fst (firstn i l ++ x :: skipn i l)) <-> a = fst x \/ In a (map fst l)).
Proof.
  intros a x l i Hi. rewrite <- (firstn_skipn i l) at 3. rewrite !map_app, !in_app_iff. cbn. intuition.
Qed.
(** Item [k] of the contents and its node. *)
Lemma split_state : forall s h O k t x, state s h O -> nth_error (concat h) k = Some (t, x) ->
  exists h1 p q h2, h = h1 ++ (p ++ (t, x) :: q) :: h2 /\ length (concat h1 ++ p) = k /\
    serials h = serials h1 ++ (map fst p ++ t :: map fst q) :: serials h2 /\ length (concat (serials h1) ++ map fst p) = k.
Proof.
  intros s h O k t x H E. destruct (split_at h k _ E) as (h1 & p & q & h2 & -> & El). exists h1, p, q, h2. repeat split; auto.
  - unfold serials. rewrite map_app. cbn [map]. rewrite map_app. reflexivity.
  - rewrite app_length, serials_items, !map_length, <- app_length. auto.
Qed.
Lemma insert_state : forall s h O k t y x, state s h O -> nth_error (concat h) k = Some (t, y) ->
  exists u, insert_before (Some t) x false s = Ok u /\ state u (s_insert k (fresh s, x) h) O /\ made s u.
Proof.
  intros s h O k t y x H E. destruct (split_state s h O k t y H E) as (h1 & p & q & h2 & Eh & El & Es & El').
  pose proof (st_rep _ _ _ H) as R. rewrite Es in R. destruct (insert_before_rep s _ _ t _ _ _ x R) as (u & Eu & Ru & M).
  exists u. split; auto. split; auto. apply (state_made s u h); auto.
  - rewrite El' in Ru. unfold values in Ru. rewrite (insert_map snd k (fresh s, x)) in Ru.
    rewrite <- insert_dec in Ru. rewrite El', <- Es in Ru. unfold serials in Ru. rewrite (insert_map fst k (fresh s, x)) in Ru. exact Ru.
  - intros a. assert (k < length (concat h))%nat by (apply nth_error_Some; congruence). rewrite insert_items, in_ids by lia. reflexivity.
Qed.
Lemma cut_state : forall s h O k t y, state s h O -> nth_error (concat h) k = Some (t, y) -> later_head k h = false ->
  exists u, new_group_at_node (Some t) s = Ok u /\ state u (s_cut k h) O /\ kept s u.
Proof.
  intros s h O k t y H E Hl. destruct (split_state s h O k t y H E) as (h1 & p & q & h2 & Eh & El & Es & El').
  pose proof (st_rep _ _ _ H) as R. pose proof (state_ne _ _ _ H) as Hne. rewrite Eh in Hne. apply Forall_app in Hne. destruct Hne as (Hne & _).
  assert (HI : forall a, In a (map fst (concat (s_cut k h))) <-> In a (map fst (concat h))) by (intros a; rewrite cut_items; reflexivity).
  rewrite Eh, <- El, later_head_dec in Hl by auto. destruct p as [|z p].
  - destruct h1; [|discriminate]. cbn in El. subst k. exists s. assert (Ec : s_cut 0 h = h) by (rewrite Eh; reflexivity).
    rewrite Ec. split; [|split; auto; split; auto]. unfold new_group_at_node.
    destruct R as (L & _). rewrite (k_first _ _ L), Es. cbn. now rewrite Nat.eqb_refl.
  - rewrite Es in R. destruct (cut_rep s (serials h1) (map fst (z :: p)) t (map fst q) (serials h2) (values h)) as (u & Eu & Ru & M); [discriminate|exact R|].
    exists u. split; auto. split; auto. apply (state_kept s u h); auto.
    rewrite El' in Ru. unfold values in Ru. rewrite (cut_map snd) in Ru.
    rewrite <- cut_dec in Ru by discriminate. rewrite El', <- Es in Ru. unfold serials in Ru. rewrite (cut_map fst) in Ru. exact Ru.
Qed.
Lemma pop_state : forall s h O k t y, state s h O -> nth_error (concat h) k = Some (t, y) ->
  exists u, pop_node (Some t) s = Ok (y, u) /\ state u (s_delete k h) O /\ dropped t s u.
Proof.
  intros s h O k t y H E. destruct (split_state s h O k t y H E) as (h1 & p & q & h2 & Eh & El & Es & El').
  pose proof (st_rep _ _ _ H) as R. rewrite Es in R. destruct (pop_node_rep s _ _ t _ _ _ R) as (u & x & Eu & Ex & Ru & (M1 & M2)).
  rewrite El' in *. assert (x = y).
  { unfold items in Ex. rewrite values_items, nth_error_map, E in Ex. cbn in Ex. congruence. }
  subst x. exists u. split; auto. split; [|split; auto].
  assert (Hk : (k < length (concat h))%nat) by (apply nth_error_Some; congruence).
  assert (Ei : map fst (concat h) = map fst (firstn k (concat h)) ++ t :: map fst (skipn (S k) (concat h))).
  { rewrite <- (firstn_skipn k (concat h)) at 1. rewrite map_app. f_equal. clear - E. revert E. generalize (concat h) as l. induction k; intros [|z l] E; try discriminate.
    - cbn in E. inv E. reflexivity.
    - cbn in E. apply IHk in E. exact E. }
  pose proof (state_nodup _ _ _ H) as N. rewrite Ei in N. pose proof (NoDup_remove_2 _ _ _ N) as N2.
  assert (Hi : forall a, In a (map fst (concat (s_delete k h))) <-> In a (map fst (concat h)) /\ a <> t).
  { intros a. rewrite delete_items, map_app, Ei, !in_app_iff by auto. cbn. rewrite in_app_iff in N2. split.
    - intros Ha. split; [tauto|]. intros ->. tauto.
    - intros ([|[|]] & ?); auto. congruence. }
  constructor.
  - rewrite <- Es in Ru. unfold serials, values in Ru. rewrite !delete_map in Ru. exact Ru.
  - intros a. rewrite M2, Hi. unfold upd. destruct (Nat.eqb_spec a t) as [->|Hne].
    + split; [discriminate|]. intros [(_ & ?)|Ho]; [congruence|]. exfalso. apply (st_out _ _ _ H) in Ho. destruct Ho as (_ & Ho). apply Ho.
      rewrite Ei, in_app_iff. right. now left.
    + rewrite (st_par _ _ _ H). tauto.
  - intros a Ha. destruct (st_out _ _ _ H a Ha) as (H1 & H2). rewrite M1, Hi. tauto.
Qed.
Lemma valued_tagged : forall (s : gl) (h : tagged), valued s (serials h) (values h) <-> Forall (fun tx => n_val s (fst tx) = Some (snd tx)) (concat h).
Proof.
  intros s h. unfold valued, serials, values. induction h as [|p h IH]; cbn; [split; constructor|]. rewrite Forall_app, <- IH. split.
  - intros H. inv H. split; auto. clear - H3. induction p as [|z p IHp]; constructor; inv H3; auto.
  - intros (H1 & H2). constructor; auto. clear - H1. induction p as [|z p IHp]; inv H1; constructor; auto.
Qed.
Lemma set_state : forall s h O k t y x, state s h O -> nth_error (concat h) k = Some (t, y) ->
  state (set_val t x s) (s_set k x h) O.
Proof.
  intros s h O k t y x H E. destruct (split_state s h O k t y H E) as (h1 & p & q & h2 & Eh & El & Es & El').
  pose proof (st_rep _ _ _ H) as (L & G & V). pose proof (state_nodup _ _ _ H) as N.
  unfold s_set. rewrite E. cbn [fst].
  assert (Esr : serials (s_replace k (t, x) h) = serials h).
  { rewrite Eh, <- El, replace_dec. unfold serials. rewrite !map_app. cbn [map]. rewrite !map_app. reflexivity. }
  apply (state_kept s _ h); auto.
  - split; reflexivity.
  - rewrite Esr. split; [|split].
    + destruct L. constructor; auto.
    + destruct G. constructor; auto.
    + rewrite <- Esr. apply valued_tagged. apply valued_tagged in V. assert (Hk : (k < length (concat h))%nat) by (apply nth_error_Some; congruence).
      rewrite replace_items by auto. destruct (nth_error_split _ _ E) as (l1 & l2 & Ec & Hl). rewrite Ec, map_app in N. cbn [map fst] in N. apply NoDup_remove_2 in N.
      rewrite Ec in V |- *. rewrite <- Hl. destruct (fs_app l1 ((t, y) :: l2)) as (-> & _). destruct (fs_app_S l1 (t, y) l2) as (_ & ->).
      apply Forall_app in V. destruct V as (V1 & V2). inv V2. rewrite in_app_iff, !in_map_iff in N.
      apply Forall_app. split; [|constructor].
      * rewrite Forall_forall in *. intros z Hz. cbn. rewrite upd_neq; auto. intros Ez. apply N. eauto.
      * cbn. apply upd_eq.
      * rewrite Forall_forall in *. intros z Hz. cbn. rewrite upd_neq; auto. intros Ez. apply N. eauto.
  - intros a. rewrite <- !serials_items, Esr. reflexivity.
Qed.
End State.
