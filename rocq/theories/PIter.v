(** * PIter: the links of nodes that are no longer in the list; iterators. *)
From Coq Require Import List ZArith Bool Arith Lia Permutation.
From Verif Require Import Base MSeq MGroup SpecGroup PSort PGroup PGroup2 PGroup3 PGroup4 PGroup5 PGroup6 PGroup7 PGroup8 MIter SpecIter.
Import ListNotations.

Section Links.
Context {A : Type}.
Notation gl := (glist A).
Notation tagged := (list (list (nat * A))).
Notation op := (op A).

(** Links of the nodes in the list lead to nodes in the list, and not to the node itself. *)
Lemma fw_in : forall f l n a b, fw f l n -> In a l -> f a = Some b -> In b l \/ n = Some b.
Proof.
  intros f l n a b. induction l as [|c l IH]; intros F Ha E; [contradiction|]. cbn [fw] in F. destruct F as (Ec & F).
  destruct Ha as [->|Ha].
  - rewrite Ec in E. destruct l; cbn in *; auto. inv E. auto.
  - destruct (IH F Ha E); cbn; auto.
Qed.
Lemma fw_neq : forall f l n a b, fw f l n -> NoDup l -> In a l -> f a = Some b -> (forall c, n = Some c -> ~ In c l) -> b <> a.
Proof.
  intros f l n a b. induction l as [|c l IH]; intros F N Ha E Hn; [contradiction|]. cbn [fw] in F. destruct F as (Ec & F). inv N.
  destruct Ha as [->|Ha].
  - rewrite Ec in E. destruct l as [|d l]; cbn in *.
    + intros ->. apply (Hn a); auto.
    + inv E. intros ->. tauto.
  - apply IH; auto. intros d Hd Hi. apply (Hn d Hd). now right.
Qed.
Lemma next_in : forall (s : gl) l a b, linked s l -> In a l -> n_next s a = Some b -> In b l /\ b <> a.
Proof.
  intros s l a b L Ha E. split.
  - destruct (fw_in _ _ _ _ _ (k_next _ _ L) Ha E); auto. discriminate.
  - eapply fw_neq; [apply (k_next _ _ L)|apply L|exact Ha|exact E|discriminate].
Qed.
Lemma prev_in : forall (s : gl) l a b, linked s l -> In a l -> n_prev s a = Some b -> In b l /\ b <> a.
Proof.
  intros s l a b L Ha E. pose proof (bw_rev _ _ _ (k_prev _ _ L)) as F. split.
  - destruct (fw_in _ _ _ a b F) as [H|H]; auto; [now apply -> in_rev|now apply in_rev|discriminate].
  - eapply fw_neq; [exact F|apply NoDup_rev; apply L|now apply -> in_rev|exact E|discriminate].
Qed.
Lemma first_in : forall (s : gl) l a, linked s l -> g_first s = Some a -> In a l.
Proof. intros s l a L E. rewrite (k_first _ _ L) in E. destruct l; cbn in *; inv E; auto. Qed.
Lemma last_in : forall (s : gl) l a, linked s l -> g_last s = Some a -> In a l.
Proof. intros s l a L E. rewrite (k_last _ _ L) in E. now apply exit_in in E. Qed.

(** ** What operations do to the links of a node *)
Definition still (x : nat) (s t : gl) : Prop := n_next t x = n_next s x /\ n_prev t x = n_prev s x /\ n_val t x = n_val s x.
Definition same3 (s t : gl) : Prop := n_next t = n_next s /\ n_prev t = n_prev s /\ n_val t = n_val s.
Lemma same3_still : forall x s t, same3 s t -> still x s t.
Proof. intros x s t (H1 & H2 & H3). unfold still. rewrite H1, H2, H3. auto. Qed.
Lemma still_trans : forall x s t u, still x s t -> still x t u -> still x s u.
Proof. intros x s t u (H1 & H2 & H3) (K1 & K2 & K3). repeat split; congruence. Qed.
Lemma still_refl : forall x s, still x s s.
Proof. repeat split. Qed.

Lemma on_some_same : forall (p : option nat) f (s : gl), (forall a s, same3 s (f a s)) -> same3 s (on_some p f s).
Proof. intros [a|] f s H; cbn; [apply H|repeat split]. Qed.
Lemma setup_same : forall (s t : gl), setup_single_group s = Ok t -> same3 s t.
Proof.
  intros s t E. unfold setup_single_group in E. destruct (g_cnt s >? 0)%Z; [|inv E; repeat split].
  destruct (g_first s); [|discriminate]. inv E. repeat split.
Qed.
Ltac cases E := repeat (cbn in E; match type of E with
  | context [match ?c with _ => _ end] => destruct c eqn:?; try discriminate end); cbn in E.
Lemma before_head_same : forall node keep (s t : gl), new_group_before_head node keep s = Ok t -> same3 s t.
Proof. intros node keep s t E. unfold new_group_before_head, on_some, deref, bind in E. cases E; inv E; repeat split. Qed.
Lemma at_node_same : forall p (s t : gl), new_group_at_node p s = Ok t -> same3 s t.
Proof. intros p s t E. unfold new_group_at_node, on_some, deref, bind in E. cases E; inv E; repeat split. Qed.
Lemma unhead_same : forall node (s t : gl), unhead node s = Ok t -> same3 s t.
Proof.
  intros node s t E. unfold unhead, on_some, deref, bind in E. destruct (n_head s node); [|inv E; repeat split].
  destruct (n_next s node) as [b|]; [destruct (n_head s b)|]; cases E; inv E; repeat split.
Qed.
Lemma clear_heads_same : forall l (s : gl), same3 s (fold_left (fun s a => clear_group_head a s) l s).
Proof. induction l as [|a l IH]; intros s; cbn; [repeat split|]. destruct (IH (clear_group_head a s)) as (H1 & H2 & H3). repeat split; [rewrite H1|rewrite H2|rewrite H3]; reflexivity. Qed.

Lemma insert_first_still : forall x y (s t : gl), insert_first x s = Ok t -> y <> fresh s -> still y s t.
Proof.
  intros x y s t E Hy. unfold insert_first in E. cbn [alloc] in E. apply setup_same in E. eapply still_trans; [|apply same3_still; exact E].
  repeat split; cbn; rewrite upd_neq; auto.
Qed.
Lemma insert_before_still : forall x ng y a (s t : gl) l, linked s l -> In a l -> insert_before (Some a) x ng s = Ok t ->
  y <> fresh s -> ~ In y l -> still y s t.
Proof.
  intros x ng y a s t l L Ha E Hy Hl. pose proof (fresh_out _ _ L) as Ho.
  assert (Haf : a <> fresh s) by (intros ->; contradiction). assert (Hya : y <> a) by (intros ->; contradiction).
  unfold insert_before in E. rewrite (child_rep s l a L Ha) in E. cbn [bind alloc] in E.
  set (u := set_cnt _ _) in E.
  assert (U : still y s u).
  { unfold u. clear E u. cbn [n_prev]. rewrite upd_neq by auto. destruct (n_prev s a) as [b|] eqn:Eb.
    - destruct (prev_in s l a b L Ha Eb) as (Hb & _). assert (y <> b) by (intros ->; contradiction). cbn [on_some].
      destruct (oeqb _ _); repeat split; cbn; rewrite ?upd_neq; auto.
    - cbn [on_some]. destruct (oeqb _ _); repeat split; cbn; rewrite ?upd_neq; auto. }
  eapply still_trans; [exact U|]. apply same3_still. clearbody u. clear U. destruct ng.
  - destruct (oeqb _ _); [apply before_head_same in E|apply at_node_same in E]; exact E.
  - destruct (n_next u _) as [b|]; [destruct (n_head u b); [apply before_head_same in E; exact E|]|]; inv E; repeat split.
Qed.
Lemma insert_after_still : forall x ng y a (s t : gl) l, linked s l -> In a l -> insert_after (Some a) x ng s = Ok t ->
  y <> fresh s -> ~ In y l -> still y s t.
Proof.
  intros x ng y a s t l L Ha E Hy Hl. pose proof (fresh_out _ _ L) as Ho.
  assert (Haf : a <> fresh s) by (intros ->; contradiction). assert (Hya : y <> a) by (intros ->; contradiction).
  unfold insert_after in E. rewrite (child_rep s l a L Ha) in E. cbn [bind alloc] in E.
  set (u := set_cnt _ _) in E.
  assert (U : still y s u).
  { unfold u. clear E u. cbn [n_next]. rewrite upd_neq by auto. destruct (n_next s a) as [b|] eqn:Eb.
    - destruct (next_in s l a b L Ha Eb) as (Hb & _). assert (y <> b) by (intros ->; contradiction). cbn [on_some].
      destruct (oeqb _ _); repeat split; cbn; rewrite ?upd_neq; auto.
    - cbn [on_some]. destruct (oeqb _ _); repeat split; cbn; rewrite ?upd_neq; auto. }
  eapply still_trans; [exact U|]. apply same3_still. clearbody u. clear U. destruct ng; [now apply at_node_same in E|]. inv E. repeat split.
Qed.
Lemma unlink_still : forall y a (s t : gl) l, linked s l -> In a l -> unlink a s = Ok t -> y = a \/ ~ In y l -> still y s t.
Proof.
  intros y a s t l L Ha E Hy.
  assert (Hn : forall b, n_next s a = Some b -> y <> b) by (intros b Eb ->; destruct (next_in s l a b L Ha Eb); tauto).
  assert (Hp : forall b, n_prev s a = Some b -> y <> b) by (intros b Eb ->; destruct (prev_in s l a b L Ha Eb); tauto).
  unfold unlink in E. destruct (g_cnt s =? 1)%Z; [inv E; repeat split|]. destruct (oeqb (Some a) (g_first s)).
  - cbn in E. destruct (n_next s a) as [b|] eqn:Eb; [|discriminate]. inv E. repeat split; cbn; rewrite ?upd_neq; auto.
  - destruct (oeqb (Some a) (g_last s)) eqn:El.
    + destruct (g_last s) as [c|]; [|discriminate]. cbn in El. apply Nat.eqb_eq in El. subst c. cbn in E.
      destruct (n_prev s a) as [b|] eqn:Eb; [|discriminate]. inv E. repeat split; cbn; rewrite ?upd_neq; auto.
    + destruct (n_prev s a) as [b|] eqn:Eb; [|discriminate]. cbn [deref bind] in E. cbn [set_next n_next n_prev] in E.
      assert (Hb : a <> b) by (destruct (prev_in s l a b L Ha Eb); auto). rewrite upd_neq in E by auto.
      destruct (n_next s a) as [c|] eqn:Ec; [|discriminate]. inv E. repeat split; cbn; rewrite ?upd_neq; auto.
Qed.
Lemma pop_still : forall y a x (s t : gl) l, linked s l -> In a l -> pop_node (Some a) s = Ok (x, t) -> y = a \/ ~ In y l -> still y s t.
Proof.
  intros y a x s t l L Ha E Hy. rewrite pop_parts, (child_rep s l a L Ha) in E. cbn [bind] in E.
  destruct (unlink a s) as [u|] eqn:Eu; [|discriminate]. cbn [bind] in E. apply (unlink_still y a s u l) in Eu; auto.
  destruct (unhead a _) as [v|] eqn:Ev; [|discriminate]. cbn [bind] in E. apply unhead_same in Ev. destruct (n_val v a); inv E.
  eapply still_trans; [exact Eu|]. apply same3_still. exact Ev.
Qed.
Lemma append_still : forall x ng y (s t : gl) l, linked s l -> append x ng s = Ok t -> y <> fresh s -> ~ In y l -> still y s t.
Proof.
  intros x ng y s t l L E Hf Hl. unfold append in E. destruct (g_cnt s =? 0)%Z; [eapply insert_first_still; eauto|].
  destruct (g_last s) as [a|] eqn:Ea; [|discriminate]. eapply insert_after_still; eauto. eapply last_in; eauto.
Qed.
Lemma prepend_still : forall x ng y (s t : gl) l, linked s l -> prepend x ng s = Ok t -> y <> fresh s -> ~ In y l -> still y s t.
Proof.
  intros x ng y s t l L E Hf Hl. unfold prepend in E. destruct (g_cnt s =? 0)%Z; [eapply insert_first_still; eauto|].
  destruct (g_first s) as [a|] eqn:Ea; [|discriminate]. eapply insert_before_still; eauto. eapply first_in; eauto.
Qed.
Lemma state_linked : forall (s : gl) h O, state s h O -> linked s (map fst (concat h)).
Proof. intros s h O H. destruct (st_rep _ _ _ H) as (L & _). now rewrite serials_items in L. Qed.
Lemma extend_still : forall l y (s t : gl) h O, state s h O -> extend l s = Ok t -> (y < fresh s)%nat -> ~ In y (map fst (concat h)) -> still y s t.
Proof.
  induction l as [|x l IH]; intros y s t h O H E Hf Hl.
  - inv E. apply still_refl.
  - cbn [extend] in E. destruct (append_state s h O false x H) as (u & Eu & Su & (M & _)). rewrite Eu in E. cbn [bind] in E.
    eapply still_trans.
    + eapply append_still; [apply (state_linked _ _ _ H)|exact Eu|lia|exact Hl].
    + eapply IH; [exact Su|exact E|lia|]. rewrite append_items, map_app, in_app_iff. cbn. intros [?|[?|[]]]; [contradiction|lia].
Qed.
Lemma append_group_still : forall l y (s t : gl) h O, state s h O -> append_group l s = Ok t -> (y < fresh s)%nat -> ~ In y (map fst (concat h)) -> still y s t.
Proof.
  intros [|x l] y s t h O H E Hf Hl.
  - inv E. apply still_refl.
  - cbn [append_group] in E. destruct (append_state s h O true x H) as (u & Eu & Su & (M & _)). rewrite Eu in E. cbn [bind] in E.
    eapply still_trans.
    + eapply append_still; [apply (state_linked _ _ _ H)|exact Eu|lia|exact Hl].
    + eapply extend_still; [exact Su|exact E|lia|]. rewrite append_items, map_app, in_app_iff. cbn. intros [?|[?|[]]]; [contradiction|lia].
Qed.
Lemma reverse_still : forall y (s t : gl) l, linked s l -> reverse s = Ok t -> ~ In y l -> still y s t.
Proof.
  intros y s t l L E Hl. unfold reverse in E. destruct (g_cnt s =? 0)%Z; [inv E; apply still_refl|].
  rewrite (k_last _ _ L) in E. pose proof (linked_len _ _ L) as Hn.
  destruct (reverse_from_rep l s (fresh s) (k_nodup _ _ L) (k_prev _ _ L) Hn) as (u & Eu & _ & T2 & _ & _ & _ & T6 & _).
  rewrite Eu in E. cbn [bind] in E. apply setup_same in E. eapply still_trans; [|apply same3_still; exact E].
  destruct (T2 y Hl) as (X1 & X2 & _). repeat split; cbn; auto. now rewrite T6.
Qed.
Lemma sort_still : forall leb y (s t : gl) h O, state s h O -> sort leb s = Ok t -> ~ In y (map fst (concat h)) -> still y s t.
Proof.
  intros leb y s t h O H E Hl. pose proof (state_linked _ _ _ H) as L. pose proof (linked_len _ _ L) as Hn.
  assert (Sv : set_value s (map fst (concat h))).
  { destruct (st_rep _ _ _ H) as (_ & _ & V). apply valued_tagged in V. unfold set_value. rewrite Forall_map. eapply Forall_impl; [|exact V]. intros (a & x) Hx. exists x. exact Hx. }
  unfold sort in E. rewrite (k_first _ _ L) in E.
  destruct (merge_sort_rep leb (fresh s) _ s true (k_next _ _ L) (k_prev _ _ L) (k_nodup _ _ L) Hn Sv Hn) as (u & Eu & _ & _ & (Q1 & _) & Fr & _).
  rewrite Eu in E. cbn [bind] in E. apply setup_same in E. eapply still_trans; [|apply same3_still; exact E].
  destruct (Fr y Hl) as (X1 & X2). repeat split; cbn; auto. now rewrite Q1.
Qed.
Lemma node_at_in : forall (s : gl) h O i a, state s h O -> node_at i s = Ok (Some a) -> In a (map fst (concat h)).
Proof.
  intros s h O i a H E. rewrite (node_at_state s h O i H) in E. destruct (spot _ i) as [k|]; [|discriminate].
  destruct (nth_error (concat h) k) as [tx|] eqn:Ek; [|discriminate]. inv E. apply nth_error_In in Ek. now apply in_map.
Qed.
Lemma set_val_still : forall y a x (s : gl), y <> a -> still y s (set_val a x s).
Proof. intros y a x s H. repeat split; cbn. now rewrite upd_neq. Qed.
Lemma delete_in : forall k (h : tagged) a x y, NoDup (map fst (concat h)) -> nth_error (concat h) k = Some (a, x) ->
  ~ In y (map fst (concat (s_delete k h))) -> y = a \/ ~ In y (map fst (concat h)).
Proof.
  intros k h a x y N E Hy. assert (Hk : (k < length (concat h))%nat) by (apply nth_error_Some; congruence).
  rewrite delete_items in Hy by auto. destruct (nth_error_split _ _ E) as (l1 & l2 & El & <-). rewrite El in *.
  destruct (fs_app l1 ((a, x) :: l2)) as (E1 & _). destruct (fs_app_S l1 (a, x) l2) as (_ & E2). rewrite E1, E2 in Hy.
  rewrite map_app, in_app_iff in *. cbn in *. destruct (Nat.eq_dec y a); auto. right. intros [?|[?|?]]; auto.
Qed.
Lemma pop_at_still : forall (s t : gl) h O k a x z y, state s h O -> nth_error (concat h) k = Some (a, x) -> pop_node (Some a) s = Ok (z, t) ->
  ~ In y (map fst (concat (s_delete k h))) -> still y s t.
Proof.
  intros s t h O k a x z y H Ek E Hy. eapply pop_still; [apply (state_linked _ _ _ H)| |exact E|].
  - apply nth_error_In in Ek. now apply (in_map fst) in Ek.
  - eapply delete_in; eauto. apply (state_nodup _ _ _ H).
Qed.
Lemma pop_index_still : forall (s t : gl) h O i r n h' z y, state s h O -> s_pop i n h = Ok (r, (n, h')) -> pop (Some i) s = Ok (z, t) ->
  ~ In y (map fst (concat h')) -> still y s t.
Proof.
  intros s t h O i r n h' z y H Eq E Hy. unfold pop in E. unfold s_pop in Eq. pose proof (node_at_twice s h O i H) as X.
  destruct (conform_index i s) as [j|]; [|discriminate]. cbn [bind] in *. rewrite X in E.
  destruct (spot_twice _ i) as [k|]; [|discriminate]. cbn [bind] in E. destruct (nth_error (concat h) k) as [(a & x)|] eqn:Ek; [|discriminate].
  inv Eq. cbn [option_map fst] in E. eapply pop_at_still; eauto.
Qed.
Lemma set_still_at : forall (s : gl) h O k a x v y, state s h O -> nth_error (concat h) k = Some (a, x) -> ~ In y (map fst (concat (s_set k v h))) ->
  still y s (set_val a v s).
Proof.
  intros s h O k a x v y H Ek Hy. apply set_val_still. intros ->. apply Hy. pose proof (st_rep _ _ _ (set_state s h O k a x v H Ek)) as R.
  unfold s_set. rewrite Ek. cbn [fst]. assert (Hk : (k < length (concat h))%nat) by (apply nth_error_Some; congruence).
  rewrite replace_items by auto. rewrite map_app, in_app_iff. right. now left.
Qed.

(** Every operation leaves the nodes alone that are not in the list after it. *)
Lemma step_still : forall eqb leb o (s t : gl) h O r n h' y, state s h O -> s_step eqb leb o (fresh s) h = Some (Ok (r, (n, h'))) ->
  h_step eqb leb o s = Ok (r, t) -> (y < fresh s)%nat -> ~ In y (map fst (concat h')) -> still y s t.
Proof.
  intros eqb leb o s t h O r n h' y H Eq E Hf Hy. pose proof (state_linked _ _ _ H) as L. pose proof (state_cnt _ _ _ H) as (Ec & _).
  destruct o; cbn [s_step h_step] in *.
  - inv Eq. rewrite append_items, map_app, in_app_iff in Hy. cbn in Hy. destruct (append x new_group s) as [u|] eqn:Eu; [|discriminate]. inv E.
    eapply append_still; [exact L|exact Eu|lia|tauto].
  - inv Eq. rewrite prepend_items in Hy. cbn in Hy. destruct (prepend x new_group s) as [u|] eqn:Eu; [|discriminate]. inv E.
    eapply prepend_still; [exact L|exact Eu|lia|tauto].
  - inv Eq. rewrite extend_items, map_app, in_app_iff in Hy. destruct (extend l s) as [u|] eqn:Eu; [|discriminate]. inv E.
    eapply extend_still; eauto.
  - inv Eq. destruct (append_group l s) as [u|] eqn:Eu; [|discriminate]. inv E. eapply append_group_still; eauto.
    intros X. apply Hy. unfold s_append_group. destruct (number (fresh s) l); auto. rewrite concat_app, map_app, in_app_iff. auto.
  - destruct (insert i x s) as [u|] eqn:Eu; [|discriminate]. inv E. unfold insert in Eu. destruct (i =? 0)%Z.
    { inv Eq. rewrite prepend_items in Hy. cbn in Hy. eapply prepend_still; [exact L|exact Eu|lia|tauto]. }
    rewrite Ec in Eu. destruct (i =? zlen (concat h))%Z.
    { inv Eq. rewrite append_items, map_app, in_app_iff in Hy. cbn in Hy. eapply append_still; [exact L|exact Eu|lia|tauto]. }
    rewrite (node_at_state s h O i H) in Eu. destruct (spot (zlen (concat h)) i) as [k|]; [|discriminate]. assert (Eh : h' = s_insert k (fresh s, x) h) by (destruct h; congruence). clear Eq. subst h'.
    cbn [bind] in Eu. destruct (nth_error (concat h) k) as [(a & z)|] eqn:Ek; [|discriminate]. cbn [option_map fst] in Eu.
    assert (Hk : (k < length (concat h))%nat) by (apply nth_error_Some; congruence).
    rewrite insert_items, in_ids in Hy by lia. cbn [fst] in Hy.
    eapply insert_before_still; [exact L| |exact Eu|lia|tauto]. apply nth_error_In in Ek. now apply (in_map fst) in Ek.
  - destruct (pop i s) as [(z & u)|] eqn:Eu; [|discriminate]. inv E. cbn [snd].
    assert (Ep : pop (Some match i with None => (zlen (concat h) - 1)%Z | Some i => i end) s = Ok (z, t)).
    { unfold pop in *. destruct i; auto. now rewrite Ec in Eu. }
    assert (n = fresh s) by (destruct (s_pop _ _ _) as [(? & (? & ?))|] eqn:Es; inv Eq; unfold s_pop in Es; cases Es; inv Es; auto). subst n.
    injection Eq as Eq. eapply pop_index_still; eauto.
  - destruct (del_item i s) as [u|] eqn:Eu; [|discriminate]. inv E. unfold del_item in Eu. destruct (pop (Some i) s) as [(z & v)|] eqn:Ep; [|discriminate].
    inv Eu. cbn [snd]. destruct (s_pop i (fresh s) h) as [(r & (m & h1))|] eqn:Es; [|discriminate]. inv Eq.
    assert (n = fresh s) by (unfold s_pop in Es; cases Es; inv Es; auto). subst n. eapply pop_index_still; eauto.
  - destruct (set_item i x s) as [u|] eqn:Eu; [|discriminate]. inv E. unfold set_item in Eu. rewrite (node_at_state s h O i H) in Eu.
    destruct (spot (zlen (concat h)) i) as [k|]; [|discriminate]. cbn [bind] in Eu. assert (Eh : h' = s_set k x h) by (destruct h; congruence). clear Eq. subst h'.
    destruct (nth_error (concat h) k) as [(a & z)|] eqn:Ek; [|discriminate]. cbn in Eu. inv Eu. eapply set_still_at; eauto.
  - destruct (remove eqb x s) as [u|] eqn:Eu; [|discriminate]. inv E. unfold remove in Eu. rewrite (k_first _ _ L) in Eu.
    rewrite (remove_from_state eqb x s h O [] (concat h) (fresh s) H eq_refl) in Eu.
    2:{ pose proof (linked_len _ _ L) as X. rewrite map_length in X. exact X. }
    rewrite values_items in Eq. destruct (first_place (fun y => eqb y x) (map snd (concat h))) as [k|] eqn:Ek; [|discriminate]. inv Eq.
    apply first_place_in in Ek. rewrite map_length in Ek. destruct (nth_error (concat h) k) as [(a & z)|] eqn:Ey; [|apply nth_error_None in Ey; lia].
    cbn [option_map fst] in Eu. destruct (pop_node (Some a) s) as [(w & v)|] eqn:Ep; [|discriminate]. inv Eu. eapply pop_at_still; eauto.
  - inv E. repeat split.
  - inv Eq. destruct (clear_groups s) as [u|] eqn:Eu; [|discriminate]. inv E. unfold clear_groups in Eu. destruct (node_iter s) as [l|]; [|discriminate].
    cbn [bind] in Eu. apply setup_same in Eu. eapply still_trans; [apply same3_still, clear_heads_same|apply same3_still; exact Eu].
  - destruct (insert_group_at i s) as [u|] eqn:Eu; [|discriminate]. inv E. unfold insert_group_at in Eu.
    destruct (conform_index i s) as [j|]; [|discriminate]. cbn [bind] in Eu. destruct (node_at j s) as [a|]; [|discriminate]. cbn [bind] in Eu.
    apply same3_still. eapply at_node_same; eauto.
  - inv Eq. destruct (reverse s) as [u|] eqn:Eu; [|discriminate]. inv E. rewrite concat_one_group, map_rev, <- in_rev in Hy. eapply reverse_still; eauto.
  - inv Eq. destruct (sort leb s) as [u|] eqn:Eu; [|discriminate]. inv E. rewrite concat_one_group in Hy. eapply sort_still; eauto.
    intros X. apply Hy. eapply Permutation_in; [|exact X]. apply Permutation_map. symmetry.
    unfold sort_items. generalize (length (concat h)) as m. generalize (concat h) as z. clear. intros z m. revert z.
    induction m as [|m IH]; intros z; auto. destruct z as [|c [|d z]]; auto. cbn [merge_sort]. rewrite merge_perm, !IH, firstn_skipn. reflexivity.
  - destruct (view_state s h O i j H) as (X & Y). destruct (group_at i s) as [v|]; [|discriminate]. cbn [bind] in *. unfold view_set in E.
    destruct (check_view v s) as [c|]; [|discriminate]. cbn [bind] in *. rewrite X in E. destruct (s_view i j h) as [k|]; [|discriminate]. inv Eq.
    cbn [bind] in E. specialize (Y k eq_refl). destruct (nth_error (concat h) k) as [(a & z)|] eqn:Ek; [|apply nth_error_None in Ek; lia].
    cbn in E. inv E. eapply set_still_at; eauto.
  - destruct (view_state s h O i j H) as (X & Y). destruct (group_at i s) as [v|]; [|discriminate]. cbn [bind] in *. unfold view_del in E.
    destruct (check_view v s) as [c|]; [|discriminate]. cbn [bind] in *. rewrite X in E. destruct (s_view i j h) as [k|]; [|discriminate]. inv Eq.
    cbn [bind] in E. specialize (Y k eq_refl). destruct (nth_error (concat h) k) as [(a & z)|] eqn:Ek; [|apply nth_error_None in Ek; lia].
    cbn [fst] in E. destruct (pop_node (Some a) s) as [(w & v')|] eqn:Ep; [|discriminate]. inv E. eapply pop_at_still; eauto.
Qed.




(** ** What is remembered of a node *)
Lemma look_out : forall a (l : list (nat * A)) p, ~ In a (map fst l) -> look a p l = None.
Proof.
  intros a. induction l as [|(b & x) l IH]; intros p H; cbn in *; auto. destruct (Nat.eqb_spec a b); [subst; tauto|]. apply IH. tauto.
Qed.
Lemma look_at : forall a x (l1 l2 : list (nat * A)) p, ~ In a (map fst l1) ->
  look a p (l1 ++ (a, x) :: l2) = Some (x, exit p (map fst l1), entry (map fst l2) None).
Proof.
  intros a x l1 l2. induction l1 as [|(b & y) l1 IH]; intros p H; cbn in *.
  - rewrite Nat.eqb_refl. destruct l2 as [|(c & z) l2]; reflexivity.
  - destruct (Nat.eqb_spec a b); [subst; tauto|]. apply IH. tauto.
Qed.
Lemma item_links : forall (s : gl) h O l1 a x l2, state s h O -> concat h = l1 ++ (a, x) :: l2 ->
  n_val s a = Some x /\ n_prev s a = exit None (map fst l1) /\ n_next s a = entry (map fst l2) None /\ ~ In a (map fst l1).
Proof.
  intros s h O l1 a x l2 H E. pose proof (state_linked _ _ _ H) as L. rewrite E, map_app in L. cbn [map fst] in L.
  pose proof (k_next _ _ L) as F. pose proof (k_prev _ _ L) as B. apply fw_app in F. apply bw_app in B. destruct F as (_ & F & _), B as (_ & B & _).
  destruct (st_rep _ _ _ H) as (_ & _ & V). apply valued_tagged in V. rewrite E in V. apply Forall_app in V. destruct V as (_ & V). inv V.
  repeat split; auto. pose proof (NoDup_remove_2 _ _ _ (k_nodup _ _ L)) as X. rewrite in_app_iff in X. tauto.
Qed.
Lemma in_split_fst : forall a (l : list (nat * A)), In a (map fst l) -> exists l1 x l2, l = l1 ++ (a, x) :: l2.
Proof.
  intros a l H. apply in_map_iff in H. destruct H as ((b & x) & E & H). cbn in E. subst b. apply in_split in H. destruct H as (l1 & l2 & ->). eauto.
Qed.
Lemma number_fst : forall (l : list A) n, map fst (number n l) = List.seq n (length l).
Proof. unfold number. induction l as [|x l IH]; intros n; cbn; auto. f_equal. apply IH. Qed.
Lemma step_new : forall eqb leb o (s : gl) (h : tagged) O r n' h' a, state s h O -> s_step eqb leb o (fresh s) h = Some (Ok (r, (n', h'))) ->
  (fresh s <= a < n')%nat -> In a (map fst (concat h')).
Proof.
  intros eqb leb o s h O r n' h' a H E Ha. destruct o; cbn [s_step] in E.
  - inv E. rewrite append_items, map_app, in_app_iff. cbn. right. left. lia.
  - inv E. rewrite prepend_items. cbn. left. lia.
  - inv E. rewrite extend_items, map_app, in_app_iff, number_fst, in_seq. right. lia.
  - inv E. unfold s_append_group. pose proof (number_fst l (fresh s)) as X. destruct (number (fresh s) l) as [|z l'] eqn:El.
    + destruct l; [cbn in Ha; lia|discriminate].
    + rewrite concat_app, map_app, in_app_iff. right. cbn [concat]. rewrite app_nil_r, X. apply in_seq. lia.
  - destruct (i =? 0)%Z; [inv E; rewrite prepend_items; cbn; left; lia|]. destruct (i =? zlen (concat h))%Z.
    { inv E. rewrite append_items, map_app, in_app_iff. cbn. right. left. lia. }
    destruct (spot (zlen (concat h)) i) as [k|] eqn:Ek; [|discriminate].
    assert (Eh : h <> [] /\ n' = S (fresh s) /\ h' = s_insert k (fresh s, x) h) by (destruct h; [discriminate|]; split; [discriminate|]; split; congruence).
    destruct Eh as (Hh & -> & ->). assert (Hc : concat h <> []) by (intros X; apply (state_nil _ _ _ H) in X; contradiction).
    pose proof (spot_in _ _ _ (zlen_pos _ Hc) Ek) as Hk. unfold zlen in Hk. rewrite insert_items, in_ids by lia. left. cbn. lia.
  - assert (n' = fresh s) by (destruct (s_pop _ _ _) as [(? & (? & ?))|] eqn:Es; inv E; unfold s_pop in Es; cases Es; inv Es; auto). lia.
  - destruct (s_pop i (fresh s) h) as [(? & (? & ?))|] eqn:Es; [|discriminate]. inv E. assert (n' = fresh s) by (unfold s_pop in Es; cases Es; inv Es; auto). lia.
  - destruct (spot _ i); [|discriminate]. assert (n' = fresh s) by (destruct h; congruence). lia.
  - destruct (first_place _ _); inv E. lia.
  - inv E. lia.
  - inv E. lia.
  - destruct (spot_twice _ i) as [k|]; [destruct (later_head k h)|]; inv E. lia.
  - inv E. lia.
  - inv E. lia.
  - destruct (s_view i j h); inv E. lia.
  - destruct (s_view i j h); inv E. lia.
Qed.
Lemma step_le : forall eqb leb o n (h : tagged) r n' h', s_step eqb leb o n h = Some (Ok (r, (n', h'))) -> (n <= n')%nat.
Proof.
  intros eqb leb o n h r n' h' E.
  assert (P : forall i r n' h', s_pop i n h = Ok (r, (n', h')) -> n' = n) by (clear; intros i r n' h' E; unfold s_pop in E; cases E; inv E; auto).
  destruct o; cbn [s_step] in E; try (inv E; lia).
  - destruct (i =? 0)%Z; [inv E; lia|]. destruct (i =? zlen (concat h))%Z; [inv E; lia|]. destruct (spot _ i); [|discriminate]. destruct h; [discriminate|]. inv E. lia.
  - injection E as E. apply P in E. lia.
  - destruct (s_pop i n h) as [(? & (? & ?))|] eqn:Es; [|discriminate]. inv E. apply P in Es. lia.
  - destruct (spot _ i); [|discriminate]. destruct h; [discriminate|]. inv E. lia.
  - destruct (first_place _ _); inv E. lia.
  - destruct (spot_twice _ i) as [k|]; [destruct (later_head k h)|]; inv E. lia.
  - destruct (s_view i j h); inv E. lia.
  - destruct (s_view i j h); inv E. lia.
Qed.
(** [m] is what the nodes know. *)
Definition knows (s : gl) (m : nat -> option (@entry_of A)) : Prop :=
  (forall a, (a < fresh s)%nat -> exists x, n_val s a = Some x /\ m a = Some (x, n_prev s a, n_next s a)) /\
  (forall a, (fresh s <= a)%nat -> m a = None).
Lemma step_knows : forall eqb leb o (s t : gl) h O O' r n h' m, state s h O -> s_step eqb leb o (fresh s) h = Some (Ok (r, (n, h'))) ->
  h_step eqb leb o s = Ok (r, t) -> state t h' O' -> fresh t = n -> knows s m ->
  knows t (fun a => match look a None (concat h') with Some w => Some w | None => m a end).
Proof.
  intros eqb leb o s t h O O' r n h' m H Eq E Ht Ef (K1 & K2).
  assert (Hlt : forall a, In a (map fst (concat h')) -> (a < fresh t)%nat).
  { intros a Ha. apply (state_lt t h' O'); auto. apply (st_par _ _ _ Ht). auto. }
  assert (Hle : (fresh s <= fresh t)%nat).
  { rewrite Ef. eapply step_le. exact Eq. }
  split.
  - intros a Ha. destruct (in_dec Nat.eq_dec a (map fst (concat h'))) as [Hi|Hn].
    + destruct (in_split_fst a _ Hi) as (l1 & x & l2 & El). destruct (item_links t h' O' l1 a x l2 Ht El) as (V & P & N & Hl).
      rewrite El, look_at by auto. exists x. split; auto. now rewrite P, N.
    + rewrite look_out by auto. assert (Has : (a < fresh s)%nat).
      { destruct (le_lt_dec (fresh s) a); auto. exfalso. apply Hn. apply (step_new eqb leb o s h O r n h' a H Eq). rewrite <- Ef. split; auto. }
      destruct (step_still eqb leb o s t h O r n h' a H Eq E Has Hn) as (S1 & S2 & S3). rewrite S1, S2, S3. auto.
  - intros a Ha. rewrite look_out; [apply K2; lia|]. intros Hi. apply Hlt in Hi. lia.
Qed.
Lemma run_knows : forall eqb leb os (s : gl) h O outs n h' m, state s h O -> s_run eqb leb os (fresh s) h = Some (outs, (n, h')) -> knows s m ->
  knows (snd (h_run eqb leb os s)) (fun a => match last_seen (stages eqb leb os (fresh s) h) a with Some w => Some w | None => m a end).
Proof.
  intros eqb leb. induction os as [|o os IH]; intros s h O outs n h' m H E K; [exact K|].
  cbn [s_run h_run stages] in *. destruct (s_step eqb leb o (fresh s) h) as [q|] eqn:Eq; [|discriminate].
  pose proof (step_state eqb leb o s h O q H Eq) as Ag. destruct q as [(r & (n1 & h1))|e]; cbn [agrees] in Ag.
  - destruct Ag as (t & O1 & Et & S & Ef & _). rewrite Et. cbn [snd]. subst n1.
    destruct (s_run eqb leb os (fresh t) h1) as [(outs1 & (n2 & h2))|] eqn:Er; [|discriminate].
    destruct (IH t h1 O1 _ _ _ _ S Er (step_knows eqb leb o s t h O O1 r _ h1 m H Eq Et S eq_refl K)) as (I1 & I2).
    split.
    + intros a Ha. destruct (I1 a Ha) as (x & V & X). exists x. split; auto. rewrite <- X. cbn [last_seen]. destruct (last_seen _ a); auto.
    + intros a Ha. rewrite <- (I2 a Ha). cbn [last_seen]. destruct (last_seen _ a); auto.
  - rewrite Ag. cbn [snd]. destruct (s_run eqb leb os (fresh s) h) as [(outs1 & (n2 & h2))|] eqn:Er; [|discriminate]. eapply IH; eauto.
Qed.

(** ** Heads of groups *)
(** A node that is not a group head has no next head; without [clear], heads are in the list. *)
Definition tidy (s : gl) : Prop := forall x, n_head s x = false -> n_nh s x = None.
Definition calm (s t : gl) : Prop := forall x, n_head t x = n_head s x /\ n_nh t x = n_nh s x \/ n_head t x = false /\ n_nh t x = None.
Lemma calm_refl : forall s, calm s s.
Proof. intros s x. auto. Qed.
Lemma calm_trans : forall s t u, calm s t -> calm t u -> calm s u.
Proof. intros s t u H K x. destruct (H x) as [(E1 & E2)|(E1 & E2)], (K x) as [(E3 & E4)|(E3 & E4)]; auto; [left|right]; split; congruence. Qed.
Lemma calm_tidy : forall s t, calm s t -> tidy s -> tidy t.
Proof. intros s t H K x. destruct (H x) as [(-> & ->)|(_ & ->)]; auto. Qed.
Lemma calm_heads : forall s t x, calm s t -> n_head t x = true -> n_head s x = true.
Proof. intros s t x H E. destruct (H x) as [(E1 & _)|(E1 & _)]; congruence. Qed.
Lemma calm_clear : forall a s, calm s (clear_group_head a s).
Proof. intros a s x. cbn. unfold upd. destruct (Nat.eqb x a); auto. Qed.
Lemma calm_clear_if : forall b a s, calm s (clear_if b a s).
Proof. intros [|] a s; [apply calm_clear|apply calm_refl]. Qed.
Lemma calm_heads_clear : forall l (s : gl), calm s (fold_left (fun s a => clear_group_head a s) l s).
Proof. induction l as [|a l IH]; intros s; cbn; [apply calm_refl|]. eapply calm_trans; [apply calm_clear|apply IH]. Qed.
Lemma calm_reverse : forall n p (s t : gl), reverse_from n p s = Ok t -> calm s t.
Proof.
  induction n as [|n IH]; intros [a|] s t E; cbn [reverse_from] in E; try discriminate; try (inv E; apply calm_refl).
  apply IH in E. eapply calm_trans; [|exact E]. intros x. cbn. unfold upd. destruct (Nat.eqb x a); auto.
Qed.
Lemma calm_split_loop : forall n cl slow fast (s : gl) q, split_loop n cl slow fast s = Ok q -> calm s (snd q).
Proof.
  induction n as [|n IH]; intros cl slow [f|] s q E; cbn [split_loop] in E; try discriminate; try (inv E; apply calm_refl).
  destruct (n_next (clear_if cl f s) f) as [f'|].
  - destruct (n_next (clear_if cl f' (clear_if cl f s)) slow) as [sl|]; [|discriminate]. cbn [deref bind] in E. apply IH in E.
    eapply calm_trans; [apply (calm_clear_if cl f)|]. eapply calm_trans; [apply (calm_clear_if cl f')|]. exact E.
  - apply IH in E. eapply calm_trans; [apply (calm_clear_if cl f)|]. exact E.
Qed.
Lemma calm_split : forall a cl (s : gl) q, split_nodes a cl s = Ok q -> calm s (snd q).
Proof.
  intros a cl s q E. unfold split_nodes in E. destruct (split_loop _ _ _ _ _) as [(sl & u)|] eqn:Es; [|discriminate]. cbn [bind fst snd] in E.
  apply calm_split_loop in Es. destruct (n_next u sl); [|discriminate]. inv E. eapply calm_trans; [apply (calm_clear_if cl a)|]. exact Es.
Qed.
Lemma calm_merge : forall leb n fa la fb lb (s : gl) q, merge_sublists leb n fa la fb lb s = Ok q -> calm s (snd q).
Proof.
  intros leb. induction n as [|n IH]; intros [a|] la [b|] lb s q E; cbn [merge_sublists] in E; try discriminate; try (inv E; apply calm_refl).
  destruct (value s a) as [x|]; [|discriminate]. cbn [bind] in E. destruct (value s b) as [y|]; [|discriminate]. cbn [bind] in E. destruct (leb x y).
  - destruct (merge_sublists leb n (n_next s a) la (Some b) lb s) as [((nf & nl) & u)|] eqn:Em; [|discriminate]. cbn [bind] in E.
    destruct nf; [|discriminate]. inv E. apply IH in Em. exact Em.
  - destruct (merge_sublists leb n (Some a) la (n_next s b) lb s) as [((nf & nl) & u)|] eqn:Em; [|discriminate]. cbn [bind] in E.
    destruct nf; [|discriminate]. inv E. apply IH in Em. exact Em.
Qed.
Lemma calm_merge_sort : forall leb n p cl (s : gl) q, merge_sort_nodes leb n p cl s = Ok q -> calm s (snd q).
Proof.
  intros leb. induction n as [|n IH]; intros [a|] cl s q E; cbn [merge_sort_nodes] in E; try (inv E; apply calm_refl).
  - destruct (n_next s a); [discriminate|]. inv E. apply calm_refl.
  - destruct (n_next s a); [|inv E; apply calm_refl].
    destruct (split_nodes a cl s) as [(fb & u)|] eqn:Es; [|discriminate]. cbn [bind fst snd] in E.
    destruct (merge_sort_nodes leb n (Some a) false u) as [((f1 & l1) & u1)|] eqn:E1; [|discriminate]. cbn [bind] in E.
    destruct (merge_sort_nodes leb n fb false u1) as [((f2 & l2) & u2)|] eqn:E2; [|discriminate]. cbn [bind] in E.
    apply calm_split in Es. apply IH in E1, E2. apply calm_merge in E. cbn [snd] in *.
    eapply calm_trans; [exact Es|]. eapply calm_trans; [exact E1|]. eapply calm_trans; [exact E2|]. exact E.
Qed.

(** ** Which nodes become heads *)
Definition grows (P : nat -> Prop) (s t : gl) : Prop := (tidy s -> tidy t) /\ forall x, n_head t x = true -> n_head s x = true \/ P x.
Lemma grows_trans : forall P s t u, grows P s t -> grows P t u -> grows P s u.
Proof. intros P s t u (H1 & H2) (K1 & K2). split; auto. intros x E. destruct (K2 x E); auto. Qed.
Lemma grows_calm : forall P s t, calm s t -> grows P s t.
Proof. intros P s t H. split; [now apply calm_tidy|]. intros x E. left. eapply calm_heads; eauto. Qed.
Lemma grows_same : forall P s t, n_head t = n_head s -> n_nh t = n_nh s -> grows P s t.
Proof. intros P s t E1 E2. apply grows_calm. intros x. rewrite E1, E2. auto. Qed.
Lemma grows_weak : forall (P Q : nat -> Prop) s t, (forall x, P x -> Q x) -> grows P s t -> grows Q s t.
Proof. intros P Q s t H (H1 & H2). split; auto. intros x E. destruct (H2 x E); auto. Qed.
Ltac updc := unfold upd in *; repeat match goal with
  | |- context [Nat.eqb ?x ?y] => destruct (Nat.eqb_spec x y); subst
  | X : context [Nat.eqb ?x ?y] |- _ => destruct (Nat.eqb_spec x y); subst
  end; try congruence; auto.
Lemma setup_grows : forall (s t : gl), setup_single_group s = Ok t -> grows (fun x => g_first s = Some x) s t.
Proof.
  intros s t E. unfold setup_single_group in E. destruct (g_cnt s >? 0)%Z; [|inv E; now apply grows_same].
  destruct (g_first s) as [a|]; [|discriminate]. inv E. split.
  - intros T x. cbn. updc.
  - intros x. cbn. updc.
Qed.
Lemma find_head_true : forall n p (s : gl) h, find_group_head n p s = Ok (Some h) -> n_head s h = true.
Proof.
  induction n as [|n IH]; intros [a|] s h E; cbn [find_group_head] in E; try discriminate.
  - destruct (n_head s a) eqn:Ea; [congruence|discriminate].
  - destruct (n_head s a) eqn:Ea; [congruence|]. eauto.
Qed.
Lemma at_node_grows : forall p (s t : gl), new_group_at_node p s = Ok t -> grows (fun x => p = Some x) s t.
Proof.
  intros p s t E. unfold new_group_at_node in E. destruct (oeqb p (g_first s)); [inv E; now apply grows_same|].
  destruct p as [node|]; [|discriminate]. cbn [deref bind] in E.
  destruct (find_group_head (fresh (set_head node true s)) (n_prev (set_head node true s) node) (set_head node true s)) as [[h|]|] eqn:Ef; try discriminate.
  apply find_head_true in Ef. cbn in Ef. cbn [deref bind] in E. cbn [set_ph n_nh set_nh set_head] in E.
  assert (Et : n_head t = upd (n_head s) node true /\ n_nh t = upd (upd (n_nh s) node (n_nh s h)) h (Some node)).
  { destruct (upd (n_nh s) node (n_nh s h) h); cbn [on_some] in E; cbn in E; destruct (oeqb (g_lhead s) (Some h)); inv E; auto. }
  destruct Et as (E1 & E2). clear E. split.
  - intros T x. rewrite E1, E2. intros X. specialize (T x). updc.
  - intros x. rewrite E1. updc.
Qed.
Lemma before_head_grows : forall node keep old (s t : gl), n_next s node = Some old -> old <> node -> (forall h, n_ph s old = Some h -> n_head s h = true) ->
  new_group_before_head node keep s = Ok t -> grows (fun x => x = node) s t.
Proof.
  intros node keep old s t En Hne Hp E. unfold new_group_before_head in E. rewrite En in E. cbn [deref bind set_head n_ph set_ph] in E.
  rewrite upd_neq in E by auto.
  assert (Et : n_head t = (if keep then upd (n_head s) node true else upd (upd (n_head s) node true) old false) /\
    n_nh t = (if keep then upd (upd_opt (n_nh s) (n_ph s old) (Some node)) node (Some old)
              else upd (upd (upd_opt (n_nh s) (n_ph s old) (Some node)) node (upd_opt (n_nh s) (n_ph s old) (Some node) old)) old None)).
  { destruct (n_ph s old) as [h|]; cbn [on_some upd_opt] in *; destruct keep; cbn in E; cases E; inv E; cbn; split; auto. }
  destruct Et as (E1 & E2). clear E. split.
  - intros T x. rewrite E1, E2. intros X. destruct keep.
    + unfold upd in X |- * at 1. destruct (Nat.eqb_spec x node); [congruence|]. rewrite upd_opt_out; auto. intros Eo. apply Hp in Eo. congruence.
    + unfold upd at 1. unfold upd in X. destruct (Nat.eqb_spec x old); auto. unfold upd at 1. destruct (Nat.eqb_spec x node); [congruence|].
      rewrite upd_opt_out; auto. intros Eo. apply Hp in Eo. congruence.
  - intros x. rewrite E1. destruct keep; updc.
Qed.
Lemma unhead_grows : forall a (s t : gl), (n_head s a = true -> forall h, n_ph s a = Some h -> n_head s h = true) -> n_next s a <> Some a ->
  unhead a s = Ok t -> grows (fun x => n_next s a = Some x) s t /\ n_head t a = false.
Proof.
  intros a s t Hp Hna E. unfold unhead in E. destruct (n_head s a) eqn:Ea; [|inv E; split; [now apply grows_same|auto]]. specialize (Hp eq_refl).
  assert (X : exists u nl pl, unhead a s = Ok (clear_group_head a (on_some (n_nh (on_some (n_ph u a) (fun h => set_nh h nl) u) a) (fun h => set_ph h pl) (on_some (n_ph u a) (fun h => set_nh h nl) u)))
    /\ n_ph u a = n_ph s a /\ ((n_head u = n_head s /\ n_nh u = n_nh s) \/ exists b v, n_next s a = Some b /\ n_head u = upd (n_head s) b true /\ n_nh u = upd (n_nh s) b v)).
  { unfold unhead. rewrite Ea. destruct (n_next s a) as [b|] eqn:En.
    - destruct (n_head s b) eqn:Eb; cbn [deref bind fst snd].
      + eexists _, _, _. split; [reflexivity|]. destruct (oeqb _ _), (oeqb _ _); auto.
      + eexists _, _, _. split; [reflexivity|]. assert (b <> a) by congruence. destruct (oeqb _ _), (oeqb _ _); cbn; rewrite !upd_neq by auto; (split; [reflexivity|]; right; exists b; eauto).
    - cbn [deref bind fst snd]. eexists _, _, _. split; [reflexivity|]. destruct (oeqb _ _), (oeqb _ _); auto. }
  destruct X as (u & nl & pl & Eu & Eph & Hu). unfold unhead in Eu. rewrite Ea in Eu. rewrite Eu in E. inv E. clear Eu.
  set (w := on_some (n_ph u a) (fun h => set_nh h nl) u) in *.
  assert (Ew : n_head w = n_head u /\ n_nh w = upd_opt (n_nh u) (n_ph s a) nl) by (unfold w; rewrite Eph; destruct (n_ph s a); split; reflexivity).
  clearbody w. destruct Ew as (W1 & W2). set (z := on_some (n_nh w a) (fun h => set_ph h pl) w) in *.
  assert (Ez : n_head z = n_head w /\ n_nh z = n_nh w) by (unfold z; destruct (n_nh w a); split; reflexivity).
  clearbody z. destruct Ez as (Z1 & Z2). cbn [clear_group_head set_nh n_head n_nh set_ph set_head].
  split; [split|cbn; apply upd_eq].
  - intros T x. cbn. rewrite Z1, W1, Z2, W2. unfold upd at 1 2. destruct (Nat.eqb_spec x a); auto. intros Ex.
    rewrite upd_opt_out.
    + destruct Hu as [(U1 & U2)|(b & v & En & U1 & U2)]; rewrite U1 in Ex; rewrite U2; [auto|]. unfold upd in *. destruct (Nat.eqb x b); [discriminate|auto].
    + intros Eo. apply Hp in Eo. destruct Hu as [(U1 & U2)|(b & v & En & U1 & U2)]; rewrite U1 in Ex; [congruence|]. unfold upd in Ex. destruct (Nat.eqb x b); congruence.
  - intros x. cbn. rewrite Z1, W1. unfold upd at 1. destruct (Nat.eqb_spec x a); [discriminate|]. intros Ex.
    destruct Hu as [(U1 & U2)|(b & v & En & U1 & U2)]; rewrite U1 in Ex; auto. unfold upd in Ex. destruct (Nat.eqb_spec x b); [subst; auto|auto].
Qed.
Lemma prev_head : forall (s : gl) h O a b, state s h O -> In a (map fst (concat h)) -> n_head s a = true -> n_ph s a = Some b -> n_head s b = true /\ In b (map fst (concat h)).
Proof.
  intros s h O a b H Ha Eh Ep. destruct (st_rep _ _ _ H) as (L & G & _). pose proof (k_nodup _ _ L) as N. rewrite <- serials_items in Ha.
  apply (headed_iff _ _ _ N (k_head _ _ G) Ha) in Eh. pose proof (bw_rev _ _ _ (k_ph _ _ G)) as F. apply in_rev in Eh.
  destruct (fw_in _ _ _ a b F Eh Ep) as [Hb|]; [|discriminate]. apply in_rev in Hb. pose proof (heads_in _ _ Hb) as Hb'. split; [|now rewrite <- serials_items].
  now apply (headed_iff _ _ _ N (k_head _ _ G) Hb').
Qed.
Lemma alloc_grows : forall P x p n (s : gl), grows P s (snd (alloc x p n s)).
Proof. intros P x p n s. split. - intros T y. cbn. specialize (T y). updc. - intros y. cbn. updc. Qed.
Lemma insert_first_grows : forall x (s t : gl), insert_first x s = Ok t -> grows (fun y => y = fresh s) s t.
Proof.
  intros x s t E. unfold insert_first in E. cbn [alloc] in E. apply setup_grows in E. cbn in E.
  eapply grows_trans; [apply (alloc_grows _ x None None)|]. eapply grows_weak; [|exact E]. cbn. intros y Hy. congruence.
Qed.
Lemma insert_before_grows : forall x ng a (s t : gl) h O, state s h O -> In a (map fst (concat h)) -> (ng = true -> g_first s = Some a) -> insert_before (Some a) x ng s = Ok t ->
  grows (fun y => y = fresh s) s t.
Proof.
  intros x ng a s t h O H Ha Hng E. pose proof (state_linked _ _ _ H) as L. pose proof (fresh_out _ _ L) as Ho.
  assert (Haf : a <> fresh s) by (intros ->; contradiction).
  unfold insert_before in E. rewrite (child_rep s _ a L Ha) in E. cbn [bind alloc] in E.
  set (u := set_cnt _ _) in E.
  assert (U : grows (fun y => y = fresh s) s u /\ n_next u (fresh s) = Some a /\ n_ph u a = n_ph s a /\ (forall b, b <> fresh s -> n_head u b = n_head s b)).
  { unfold u. clear E u. cbn [n_prev]. rewrite upd_neq by auto. pose proof (alloc_grows (fun y => y = fresh s) x (n_prev s a) (Some a) s) as G. destruct (n_prev s a) as [b|] eqn:Eb.
    - destruct (prev_in s _ a b L Ha Eb) as (Hb & _). assert (b <> fresh s) by (intros ->; contradiction). cbn [on_some].
      destruct (oeqb _ _); (split; [exact G|]); cbn; rewrite ?upd_eq, ?(upd_neq _ b), ?upd_neq by auto; repeat split; rewrite ?upd_eq; auto; intros; rewrite upd_neq; auto.
    - cbn [on_some]. destruct (oeqb _ _); (split; [exact G|]); cbn; rewrite ?upd_eq; repeat split; rewrite ?upd_neq; auto; intros; rewrite upd_neq; auto. }
  destruct U as (U1 & U2 & U3 & U4). clearbody u. eapply grows_trans; [exact U1|].
  assert (Hh : n_head s a = true -> forall b, n_ph u a = Some b -> n_head u b = true).
  { intros Eh b Eb. rewrite U3 in Eb. destruct (prev_head s h O a b H Ha Eh Eb) as (Hb & Hi). rewrite U4; auto. intros ->. contradiction. }
  destruct ng.
  - specialize (Hng eq_refl). rewrite Hng, oeqb_refl in E. eapply before_head_grows; [exact U2|exact Haf| |exact E]. apply Hh.
    destruct (st_rep _ _ _ H) as (L' & G & _). pose proof (k_head _ _ G) as K. pose proof (k_ne _ _ G) as K'. rewrite (k_first _ _ L') in Hng.
    destruct (serials h) as [|[|c q] ns]; [discriminate|inv K'; contradiction|]. cbn in Hng. inv Hng. inv K. apply H2.
  - rewrite U2 in E. rewrite U4 in E by auto. destruct (n_head s a) eqn:Eh; [|inv E; now apply grows_same].
    eapply before_head_grows; [exact U2|exact Haf| |exact E]. now apply Hh.
Qed.
Lemma insert_after_grows : forall x ng a (s t : gl) h O, state s h O -> In a (map fst (concat h)) -> insert_after (Some a) x ng s = Ok t ->
  grows (fun y => y = fresh s) s t.
Proof.
  intros x ng a s t h O H Ha E. pose proof (state_linked _ _ _ H) as L.
  unfold insert_after in E. rewrite (child_rep s _ a L Ha) in E. cbn [bind alloc] in E. set (u := set_cnt _ _) in E.
  assert (U : grows (fun y => y = fresh s) s u).
  { unfold u. clear E u. pose proof (alloc_grows (fun y => y = fresh s) x (Some a) (n_next s a) s) as G. cbn [n_next].
    destruct (upd (n_next s) (fresh s) (n_next s a) a); cbn [on_some]; destruct (oeqb _ _); exact G. }
  clearbody u. eapply grows_trans; [exact U|]. destruct ng.
  - apply at_node_grows in E. eapply grows_weak; [|exact E]. cbn. intros y Hy. congruence.
  - inv E. now apply grows_same.
Qed.
Lemma pop_grows : forall a x (s t : gl) h O, state s h O -> In a (map fst (concat h)) -> pop_node (Some a) s = Ok (x, t) ->
  grows (fun y => y <> a /\ In y (map fst (concat h))) s t /\ n_head t a = false.
Proof.
  intros a x s t h O H Ha E. pose proof (state_linked _ _ _ H) as L. rewrite pop_parts, (child_rep s _ a L Ha) in E. cbn [bind] in E.
  destruct (in_split_fst a _ Ha) as (l1 & z & l2 & El). pose proof L as L'. rewrite El, map_app in L'. cbn [map fst] in L'.
  destruct (unlink_rep s _ a _ L') as (u & Eu & _ & _ & U3 & _ & _ & _ & _ & _ & _ & _ & U11 & U12 & U13 & _). rewrite Eu in E. cbn [bind] in E.
  set (v := set_cnt _ _) in E.
  assert (V : n_head v = n_head s /\ n_nh v = n_nh s /\ n_ph v = n_ph s /\ n_next v = n_next u) by (unfold v; cbn; auto). clearbody v. destruct V as (V1 & V2 & V3 & V4).
  destruct (item_links s h O l1 a z l2 H El) as (_ & Ep & En & Hl1).
  assert (Ev : n_next v a = n_next s a).
  { rewrite V4, U3, upd_opt_out; auto. intros X. apply exit_in in X. contradiction. }
  destruct (unhead a v) as [w|] eqn:Ew; [|discriminate]. cbn [bind] in E. destruct (unhead_grows a v w) as (G1 & G2); auto.
  - intros Eh b Eb. rewrite V1 in *. rewrite V3 in Eb. now destruct (prev_head s h O a b H Ha Eh Eb).
  - rewrite Ev. intros X. destruct (next_in s _ a a L Ha X). contradiction.
  - destruct (n_val w a); inv E. split; auto. eapply grows_trans; [apply grows_same; eassumption|]. eapply grows_weak; [|exact G1]. cbn. intros y Hy. rewrite Ev in Hy.
    destruct (next_in s _ a y L Ha Hy); auto.
Qed.
Lemma append_grows : forall x ng (s t : gl) h O, state s h O -> append x ng s = Ok t -> grows (fun y => y = fresh s) s t.
Proof.
  intros x ng s t h O H E. unfold append in E. destruct (g_cnt s =? 0)%Z; [now apply insert_first_grows in E|].
  destruct (g_last s) as [a|] eqn:Ea; [|discriminate]. eapply insert_after_grows; eauto. eapply last_in; eauto. apply (state_linked _ _ _ H).
Qed.
Lemma prepend_grows : forall x ng (s t : gl) h O, state s h O -> prepend x ng s = Ok t -> grows (fun y => y = fresh s) s t.
Proof.
  intros x ng s t h O H E. unfold prepend in E. destruct (g_cnt s =? 0)%Z; [now apply insert_first_grows in E|].
  destruct (g_first s) as [a|] eqn:Ea; [|discriminate]. eapply insert_before_grows; eauto. eapply first_in; eauto. apply (state_linked _ _ _ H).
Qed.
(** No node outside the list is a head. *)
Definition neat (s : gl) (h : tagged) : Prop := tidy s /\ forall x, n_head s x = true -> In x (map fst (concat h)).
Lemma grows_neat : forall P (s t : gl) h h', neat s h -> grows P s t -> (forall x, P x -> In x (map fst (concat h'))) ->
  (forall x, In x (map fst (concat h)) -> In x (map fst (concat h'))) -> neat t h'.
Proof. intros P s t h h' (N1 & N2) (G1 & G2) HP Hi. split; auto. intros x E. destruct (G2 x E); auto. Qed.
Lemma append_neat : forall x ng (s t : gl) h O, state s h O -> neat s h -> append x ng s = Ok t -> neat t (s_append ng (fresh s, x) h).
Proof.
  intros x ng s t h O H N E. eapply grows_neat; [exact N|eapply append_grows; eauto| |]; intros y Hy; rewrite append_items, map_app, in_app_iff; cbn; auto.
Qed.
Lemma prepend_neat : forall x ng (s t : gl) h O, state s h O -> neat s h -> prepend x ng s = Ok t -> neat t (s_prepend ng (fresh s, x) h).
Proof.
  intros x ng s t h O H N E. eapply grows_neat; [exact N|eapply prepend_grows; eauto| |]; intros y Hy; rewrite prepend_items; cbn; auto.
Qed.
Lemma extend_neat : forall l (s t : gl) h O, state s h O -> neat s h -> extend l s = Ok t -> neat t (s_extend (number (fresh s) l) h).
Proof.
  induction l as [|x l IH]; intros s t h O H N E.
  - inv E. exact N.
  - cbn [extend] in E. destruct (append_state s h O false x H) as (u & Eu & Su & (M & _)). rewrite Eu in E. cbn [bind] in E.
    pose proof (IH u t _ O Su (append_neat x false s u h O H N Eu) E) as R. rewrite M in R. exact R.
Qed.
Lemma append_group_neat : forall l (s t : gl) h O, state s h O -> neat s h -> append_group l s = Ok t -> neat t (s_append_group (number (fresh s) l) h).
Proof.
  intros [|x l] s t h O H N E.
  - inv E. exact N.
  - cbn [append_group] in E. destruct (append_state s h O true x H) as (u & Eu & Su & (M & _)). rewrite Eu in E. cbn [bind] in E.
    pose proof (extend_neat l u t _ O Su (append_neat x true s u h O H N Eu) E) as R. rewrite M in R.
    unfold number. cbn [length List.seq combine]. rewrite <- append_group_steps. exact R.
Qed.
Lemma pop_neat : forall k a x z (s t : gl) h O, state s h O -> neat s h -> nth_error (concat h) k = Some (a, x) -> pop_node (Some a) s = Ok (z, t) -> neat t (s_delete k h).
Proof.
  intros k a x z s t h O H (N1 & N2) Ek E. assert (Ha : In a (map fst (concat h))) by (apply nth_error_In in Ek; now apply (in_map fst) in Ek).
  destruct (pop_grows a z s t h O H Ha E) as ((G1 & G2) & G3). split; auto. intros y Ey.
  assert (Hya : y <> a) by (intros ->; congruence). assert (Hy : In y (map fst (concat h))) by (destruct (G2 y Ey) as [|(_ & ?)]; auto).
  destruct (in_dec Nat.eq_dec y (map fst (concat (s_delete k h)))) as [|Hn]; auto. exfalso.
  destruct (delete_in k h a x y (state_nodup _ _ _ H) Ek Hn); auto.
Qed.
Lemma pop_index_neat : forall (s t : gl) h O i r n h' z, state s h O -> neat s h -> s_pop i n h = Ok (r, (n, h')) -> pop (Some i) s = Ok (z, t) -> neat t h'.
Proof.
  intros s t h O i r n h' z H N Eq E. unfold pop in E. unfold s_pop in Eq. pose proof (node_at_twice s h O i H) as X.
  destruct (conform_index i s) as [j|]; [|discriminate]. cbn [bind] in *. rewrite X in E.
  destruct (spot_twice _ i) as [k|]; [|discriminate]. cbn [bind] in E. destruct (nth_error (concat h) k) as [(a & x)|] eqn:Ek; [|discriminate].
  inv Eq. cbn [option_map fst] in E. eapply pop_neat; eauto.
Qed.
Lemma set_neat : forall k a x v (s : gl) h O, state s h O -> neat s h -> nth_error (concat h) k = Some (a, x) -> neat (set_val a v s) (s_set k v h).
Proof.
  intros k a x v s h O H N Ek. eapply grows_neat; [exact N|now apply (grows_same (fun _ => False))|contradiction|].
  intros y Hy. unfold s_set. rewrite Ek. cbn [fst]. assert (Hk : (k < length (concat h))%nat) by (apply nth_error_Some; congruence).
  rewrite replace_items by auto. destruct (nth_error_split _ _ Ek) as (l1 & l2 & El & <-). rewrite El in *.
  destruct (fs_app l1 ((a, x) :: l2)) as (E1 & _). destruct (fs_app_S l1 (a, x) l2) as (_ & E2). rewrite E1, E2.
  rewrite map_app, in_app_iff in *. cbn in *. tauto.
Qed.
Lemma sort_perm : forall leb (l : list (nat * A)), Permutation (sort_items (fun a b => leb (snd a) (snd b)) l) l.
Proof.
  intros leb l. unfold sort_items. generalize (length l) as m. intros m. revert l.
  induction m as [|m IH]; intros z; auto. destruct z as [|c [|d z]]; auto. cbn [merge_sort]. rewrite merge_perm, !IH, firstn_skipn. reflexivity.
Qed.
Lemma setup_neat : forall (s t : gl) h h' O', neat s h -> setup_single_group s = Ok t -> state t h' O' ->
  (forall x, In x (map fst (concat h)) -> In x (map fst (concat h'))) -> neat t h'.
Proof.
  intros s t h h' O' N E Ht Hi. eapply grows_neat; [exact N|apply setup_grows; exact E| |exact Hi]. cbn. intros x Hx.
  eapply first_in; [apply (state_linked _ _ _ Ht)|]. unfold setup_single_group in E. destruct (g_cnt s >? 0)%Z; [rewrite Hx in E|]; inv E; auto.
Qed.
Lemma step_neat : forall eqb leb o (s t : gl) h O O' r n h', state s h O -> s_step eqb leb o (fresh s) h = Some (Ok (r, (n, h'))) ->
  h_step eqb leb o s = Ok (r, t) -> state t h' O' -> o <> OClear -> neat s h -> neat t h'.
Proof.
  intros eqb leb o s t h O O' r n h' H Eq E Ht Hc N. pose proof (state_linked _ _ _ H) as L. pose proof (state_cnt _ _ _ H) as (Ec & _).
  destruct o; cbn [s_step h_step] in *.
  - inv Eq. destruct (append x new_group s) as [u|] eqn:Eu; [|discriminate]. inv E. eapply append_neat; eauto.
  - inv Eq. destruct (prepend x new_group s) as [u|] eqn:Eu; [|discriminate]. inv E. eapply prepend_neat; eauto.
  - inv Eq. destruct (extend l s) as [u|] eqn:Eu; [|discriminate]. inv E. eapply extend_neat; eauto.
  - inv Eq. destruct (append_group l s) as [u|] eqn:Eu; [|discriminate]. inv E. eapply append_group_neat; eauto.
  - destruct (insert i x s) as [u|] eqn:Eu; [|discriminate]. inv E. unfold insert in Eu. destruct (i =? 0)%Z.
    { inv Eq. eapply prepend_neat; eauto. }
    rewrite Ec in Eu. destruct (i =? zlen (concat h))%Z.
    { inv Eq. eapply append_neat; eauto. }
    rewrite (node_at_state s h O i H) in Eu. destruct (spot (zlen (concat h)) i) as [k|]; [|discriminate].
    assert (Eh : h' = s_insert k (fresh s, x) h) by (destruct h; congruence). clear Eq. subst h'.
    cbn [bind] in Eu. destruct (nth_error (concat h) k) as [(a & z)|] eqn:Ek; [|discriminate]. cbn [option_map fst] in Eu.
    assert (Hk : (k < length (concat h))%nat) by (apply nth_error_Some; congruence).
    eapply grows_neat; [exact N|apply (insert_before_grows x false a s t h O H); [|discriminate|exact Eu]| |].
    + apply nth_error_In in Ek. now apply (in_map fst) in Ek.
    + intros y ->. rewrite insert_items, in_ids by lia. auto.
    + intros y Hy. rewrite insert_items, in_ids by lia. auto.
  - destruct (pop i s) as [(z & u)|] eqn:Eu; [|discriminate]. inv E. cbn [snd] in *.
    assert (Ep : pop (Some match i with None => (zlen (concat h) - 1)%Z | Some i => i end) s = Ok (z, t)).
    { unfold pop in *. destruct i; auto. now rewrite Ec in Eu. }
    assert (n = fresh s) by (destruct (s_pop _ _ _) as [(? & (? & ?))|] eqn:Es; inv Eq; unfold s_pop in Es; cases Es; inv Es; auto). subst n.
    injection Eq as Eq. exact (pop_index_neat s t h O _ _ _ h' z H N Eq Ep).
  - destruct (del_item i s) as [u|] eqn:Eu; [|discriminate]. inv E. unfold del_item in Eu. destruct (pop (Some i) s) as [(z & v)|] eqn:Ep; [|discriminate].
    inv Eu. cbn [snd] in *. destruct (s_pop i (fresh s) h) as [(r & (m & h1))|] eqn:Es; [|discriminate]. inv Eq.
    assert (n = fresh s) by (unfold s_pop in Es; cases Es; inv Es; auto). subst n. exact (pop_index_neat _ _ h O _ _ _ _ z H N Es Ep).
  - destruct (set_item i x s) as [u|] eqn:Eu; [|discriminate]. inv E. unfold set_item in Eu. rewrite (node_at_state s h O i H) in Eu.
    destruct (spot (zlen (concat h)) i) as [k|]; [|discriminate]. cbn [bind] in Eu. assert (Eh : h' = s_set k x h) by (destruct h; congruence). clear Eq. subst h'.
    destruct (nth_error (concat h) k) as [(a & z)|] eqn:Ek; [|discriminate]. cbn in Eu. inv Eu. eapply set_neat; eauto.
  - destruct (remove eqb x s) as [u|] eqn:Eu; [|discriminate]. inv E. unfold remove in Eu. rewrite (k_first _ _ L) in Eu.
    rewrite (remove_from_state eqb x s h O [] (concat h) (fresh s) H eq_refl) in Eu.
    2:{ pose proof (linked_len _ _ L) as X. rewrite map_length in X. exact X. }
    rewrite values_items in Eq. destruct (first_place (fun y => eqb y x) (map snd (concat h))) as [k|] eqn:Ek; [|discriminate]. inv Eq.
    apply first_place_in in Ek. rewrite map_length in Ek. destruct (nth_error (concat h) k) as [(a & z)|] eqn:Ey; [|apply nth_error_None in Ey; lia].
    cbn [option_map fst] in Eu. destruct (pop_node (Some a) s) as [(w & v)|] eqn:Ep; [|discriminate]. inv Eu. eapply pop_neat; eauto.
  - congruence.
  - inv Eq. destruct (clear_groups s) as [u|] eqn:Eu; [|discriminate]. inv E. unfold clear_groups in Eu. destruct (node_iter s) as [l|]; [|discriminate].
    cbn [bind] in Eu. eapply (setup_neat _ t h); [|exact Eu|exact Ht|intros y; now rewrite concat_one_group].
    eapply grows_neat; [exact N|apply (grows_calm (fun _ => False)), calm_heads_clear|contradiction|auto].
  - destruct (insert_group_at i s) as [u|] eqn:Eu; [|discriminate]. inv E. unfold insert_group_at in Eu. pose proof (node_at_twice s h O i H) as X.
    destruct (conform_index i s) as [j|]; [|discriminate]. cbn [bind] in *. rewrite X in Eu. destruct (spot_twice _ i) as [k|]; [|discriminate].
    destruct (later_head k h); [discriminate|]. inv Eq. cbn [bind] in Eu. eapply grows_neat; [exact N|apply at_node_grows; exact Eu| |intros y; now rewrite cut_items].
    cbn. intros y Hy. rewrite cut_items. destruct (nth_error (concat h) k) as [(a & z)|] eqn:Ek; cbn in Hy; inv Hy.
    apply nth_error_In in Ek. now apply (in_map fst) in Ek.
  - inv Eq. destruct (reverse s) as [u|] eqn:Eu; [|discriminate]. inv E.
    assert (Hi : forall y, In y (map fst (concat h)) -> In y (map fst (concat (one_group (rev (concat h)))))) by (intros y; now rewrite concat_one_group, map_rev, <- in_rev).
    unfold reverse in Eu. destruct (g_cnt s =? 0)%Z.
    { inv Eu. eapply grows_neat; [exact N|now apply (grows_same (fun _ => False))|contradiction|exact Hi]. }
    destruct (reverse_from _ _ _) as [v|] eqn:Ev; [|discriminate]. cbn [bind] in Eu. apply calm_reverse in Ev.
    eapply (setup_neat _ t h); [|exact Eu|exact Ht|exact Hi].
    eapply grows_neat; [exact N|apply (grows_calm (fun _ => False)); exact Ev|contradiction|auto].
  - inv Eq. destruct (sort leb s) as [u|] eqn:Eu; [|discriminate]. inv E.
    assert (Hi : forall y, In y (map fst (concat h)) -> In y (map fst (concat (one_group (sort_items (fun a b => leb (snd a) (snd b)) (concat h)))))).
    { intros y Hy. rewrite concat_one_group. eapply Permutation_in; [|exact Hy]. apply Permutation_map. symmetry. apply sort_perm. }
    unfold sort in Eu. destruct (merge_sort_nodes _ _ _ _ _) as [((f & l) & v)|] eqn:Ev; [|discriminate]. cbn [bind] in Eu. apply calm_merge_sort in Ev.
    eapply (setup_neat _ t h); [|exact Eu|exact Ht|exact Hi].
    eapply grows_neat; [exact N|apply (grows_calm (fun _ => False)); exact Ev|contradiction|auto].
  - destruct (view_state s h O i j H) as (X & Y). destruct (group_at i s) as [v|]; [|discriminate]. cbn [bind] in *. unfold view_set in E.
    destruct (check_view v s) as [c|]; [|discriminate]. cbn [bind] in *. rewrite X in E. destruct (s_view i j h) as [k|]; [|discriminate]. inv Eq.
    cbn [bind] in E. specialize (Y k eq_refl). destruct (nth_error (concat h) k) as [(a & z)|] eqn:Ek; [|apply nth_error_None in Ek; lia].
    cbn in E. inv E. eapply set_neat; eauto.
  - destruct (view_state s h O i j H) as (X & Y). destruct (group_at i s) as [v|]; [|discriminate]. cbn [bind] in *. unfold view_del in E.
    destruct (check_view v s) as [c|]; [|discriminate]. cbn [bind] in *. rewrite X in E. destruct (s_view i j h) as [k|]; [|discriminate]. inv Eq.
    cbn [bind] in E. specialize (Y k eq_refl). destruct (nth_error (concat h) k) as [(a & z)|] eqn:Ek; [|apply nth_error_None in Ek; lia].
    cbn [fst] in E. destruct (pop_node (Some a) s) as [(w & v')|] eqn:Ep; [|discriminate]. inv E. eapply pop_neat; eauto.
Qed.
Lemma run_neat : forall eqb leb os (s : gl) h O outs n h', state s h O -> s_run eqb leb os (fresh s) h = Some (outs, (n, h')) -> ~ In OClear os ->
  neat s h -> neat (snd (h_run eqb leb os s)) h'.
Proof.
  intros eqb leb. induction os as [|o os IH]; intros s h O outs n h' H E Hc N; [inv E; exact N|].
  cbn [s_run h_run] in *. destruct (s_step eqb leb o (fresh s) h) as [q|] eqn:Eq; [|discriminate].
  pose proof (step_state eqb leb o s h O q H Eq) as Ag. destruct q as [(r & (n1 & h1))|e]; cbn [agrees] in Ag.
  - destruct Ag as (t & O1 & Et & S & Ef & _). rewrite Et. cbn [snd]. subst n1.
    destruct (s_run eqb leb os (fresh t) h1) as [(outs1 & (n2 & h2))|] eqn:Er; [|discriminate]. cbn in E. inv E.
    eapply IH; [exact S|exact Er|intros X; apply Hc; now right|]. apply (step_neat eqb leb o s t h O O1 r _ h1 H Eq Et S); auto. intros ->. apply Hc. now left.
  - rewrite Ag. cbn [snd]. destruct (s_run eqb leb os (fresh s) h) as [(outs1 & (n2 & h2))|] eqn:Er; [|discriminate]. cbn in E. inv E.
    eapply IH; [exact H|exact Er|intros X; apply Hc; now right|exact N].
Qed.

(** ** Items that have left the list *)
Lemma step_old : forall eqb leb o (s : gl) (h : tagged) O r n' h' a, state s h O -> s_step eqb leb o (fresh s) h = Some (Ok (r, (n', h'))) ->
  In a (map fst (concat h')) -> In a (map fst (concat h)) \/ (fresh s <= a)%nat.
Proof.
  intros eqb leb o s h O r n' h' a H E Ha.
  assert (D : forall k, In a (map fst (concat (s_delete k h))) -> In a (map fst (concat h))).
  { intros k Hk. destruct (le_lt_dec (length (concat h)) k) as [Hl|Hl].
    - assert (X : s_delete k h = h); [|now rewrite X in Hk]. clear - Hl. revert k Hl. induction h as [|p h IH]; intros k Hl; cbn [s_delete]; auto.
      cbn [concat] in Hl. rewrite app_length in Hl. destruct (Nat.ltb_spec k (length p)); [lia|]. f_equal. apply IH. lia.
    - rewrite delete_items, map_app, in_app_iff in Hk by auto. rewrite <- (firstn_skipn k (concat h)), map_app, in_app_iff. destruct Hk as [|Hk]; auto. right.
      clear - Hk. revert Hk. generalize (concat h) as l. induction k as [|k IH]; intros [|z l] Hk; cbn in *; auto. }
  assert (Pop : forall i r n' h', s_pop i (fresh s) h = Ok (r, (n', h')) -> In a (map fst (concat h')) -> In a (map fst (concat h))).
  { intros i r0 n0 h0 Ep Hi. unfold s_pop in Ep. destruct (spot_twice _ i) as [k|]; [|discriminate]. destruct (nth_error (concat h) k); inv Ep. eauto. }
  assert (Sv : forall k v, In a (map fst (concat (s_set k v h))) -> In a (map fst (concat h))).
  { intros k v Hk. unfold s_set in Hk. destruct (nth_error (concat h) k) as [(b & z)|] eqn:Ek; auto. cbn [fst] in Hk.
    assert (Hl : (k < length (concat h))%nat) by (apply nth_error_Some; congruence). rewrite replace_items in Hk by auto.
    destruct (nth_error_split _ _ Ek) as (l1 & l2 & El & <-). rewrite El in *. destruct (fs_app l1 ((b, z) :: l2)) as (E1 & _). destruct (fs_app_S l1 (b, z) l2) as (_ & E2).
    rewrite E1, E2 in Hk. rewrite map_app, in_app_iff in *. cbn in *. tauto. }
  destruct o; cbn [s_step] in E.
  - inv E. rewrite append_items, map_app, in_app_iff in Ha. cbn in Ha. destruct Ha as [|[|[]]]; auto. right. lia.
  - inv E. rewrite prepend_items in Ha. cbn in Ha. destruct Ha; auto. right. lia.
  - inv E. rewrite extend_items, map_app, in_app_iff, number_fst, in_seq in Ha. destruct Ha; auto. right. lia.
  - inv E. unfold s_append_group in Ha. pose proof (number_fst l (fresh s)) as X. destruct (number (fresh s) l) as [|z l'] eqn:El; auto.
    rewrite concat_app, map_app, in_app_iff in Ha. cbn [concat] in Ha. rewrite app_nil_r, X, in_seq in Ha. destruct Ha; auto. right. lia.
  - destruct (i =? 0)%Z; [inv E; rewrite prepend_items in Ha; cbn in Ha; destruct Ha; auto; right; lia|]. destruct (i =? zlen (concat h))%Z.
    { inv E. rewrite append_items, map_app, in_app_iff in Ha. cbn in Ha. destruct Ha as [|[|[]]]; auto. right. lia. }
    destruct (spot (zlen (concat h)) i) as [k|] eqn:Ek; [|discriminate].
    assert (Eh : h <> [] /\ h' = s_insert k (fresh s, x) h) by (destruct h; [discriminate|]; split; [discriminate|]; congruence).
    destruct Eh as (Hh & ->). assert (Hc : concat h <> []) by (intros X; apply (state_nil _ _ _ H) in X; contradiction).
    pose proof (spot_in _ _ _ (zlen_pos _ Hc) Ek) as Hk. unfold zlen in Hk. rewrite insert_items, in_ids in Ha by lia. cbn in Ha. destruct Ha; auto. right. lia.
  - injection E as E. left. eapply Pop; eauto.
  - destruct (s_pop i (fresh s) h) as [(? & (? & ?))|] eqn:Es; [|discriminate]. inv E. left. eapply Pop; eauto.
  - destruct (spot _ i); [|discriminate]. assert (Eh : h' = s_set n x h) by (destruct h; congruence). subst h'. left. eauto.
  - destruct (first_place _ _); inv E. left. eauto.
  - inv E. contradiction.
  - inv E. rewrite concat_one_group in Ha. auto.
  - destruct (spot_twice _ i) as [k|]; [destruct (later_head k h)|]; inv E. rewrite cut_items in Ha. auto.
  - inv E. rewrite concat_one_group, map_rev, <- in_rev in Ha. auto.
  - inv E. rewrite concat_one_group in Ha. left. eapply Permutation_in; [|exact Ha]. apply Permutation_map, sort_perm.
  - destruct (s_view i j h); inv E. left. eauto.
  - destruct (s_view i j h); inv E. left. eauto.
Qed.
Lemma gone : forall eqb leb os (s : gl) h O outs n h' a, state s h O -> s_run eqb leb os (fresh s) h = Some (outs, (n, h')) -> (a < fresh s)%nat ->
  ~ In a (map fst (concat h)) -> last_seen (stages eqb leb os (fresh s) h) a = None.
Proof.
  intros eqb leb. induction os as [|o os IH]; intros s h O outs n h' a H E Hf Ha; [reflexivity|].
  cbn [s_run stages] in *. destruct (s_step eqb leb o (fresh s) h) as [q|] eqn:Eq; [|discriminate].
  pose proof (step_state eqb leb o s h O q H Eq) as Ag. destruct q as [(r & (n1 & h1))|e]; cbn [agrees] in Ag.
  - destruct Ag as (t & O1 & Et & S & Ef & _). subst n1. destruct (s_run eqb leb os (fresh t) h1) as [(outs1 & (n2 & h2))|] eqn:Er; [|discriminate].
    assert (Hn : ~ In a (map fst (concat h1))) by (intros X; destruct (step_old eqb leb o s h O r _ h1 a H Eq X); [contradiction|lia]).
    cbn [last_seen]. rewrite (IH t h1 O1 _ _ _ a S Er); auto; [now apply look_out|]. pose proof (step_le eqb leb o _ _ _ _ _ Eq). lia.
  - destruct (s_run eqb leb os (fresh s) h) as [(outs1 & (n2 & h2))|] eqn:Er; [|discriminate]. eapply IH; eauto.
Qed.
Lemma last_seen_app : forall hs ks (a : nat), @last_seen A (hs ++ ks) a = match last_seen ks a with Some w => Some w | None => last_seen hs a end.
Proof.
  induction hs as [|h hs IH]; intros ks a; cbn [app last_seen]; [now destruct (last_seen ks a)|]. rewrite IH. destruct (last_seen ks a); auto.
Qed.
Lemma stages_app : forall eqb leb os os' n (h : tagged) outs n1 h1, s_run eqb leb os n h = Some (outs, (n1, h1)) ->
  stages eqb leb (os ++ os') n h = stages eqb leb os n h ++ stages eqb leb os' n1 h1.
Proof.
  intros eqb leb. induction os as [|o os IH]; intros os' n h outs n1 h1 E; [inv E; reflexivity|].
  cbn [app s_run stages] in *. destruct (s_step eqb leb o n h) as [[(r & (n2 & h2))|e]|]; [| |discriminate].
  - destruct (s_run eqb leb os n2 h2) as [(o1 & (n3 & h3))|] eqn:Er; [|discriminate]. cbn in E. inv E. cbn [app]. f_equal. eapply IH; eauto.
  - destruct (s_run eqb leb os n h) as [(o1 & (n3 & h3))|] eqn:Er; [|discriminate]. cbn in E. inv E. eapply IH; eauto.
Qed.
(** The neighbours of what is remembered are remembered. *)
Lemma look_inv : forall a (l : list (nat * A)) p w, look a p l = Some w -> exists l1 x l2, l = l1 ++ (a, x) :: l2 /\ w = (x, exit p (map fst l1), entry (map fst l2) None).
Proof.
  intros a. induction l as [|(b & x) l IH]; intros p w E; cbn in E; [discriminate|]. destruct (Nat.eqb_spec a b).
  - subst b. inv E. exists [], x, l. split; auto. destruct l as [|(c & z) l]; reflexivity.
  - apply IH in E. destruct E as (l1 & y & l2 & -> & ->). exists ((b, x) :: l1), y, l2. split; reflexivity.
Qed.
Lemma look_some : forall a (l : list (nat * A)) p, In a (map fst l) -> look a p l <> None.
Proof. intros a. induction l as [|(b & x) l IH]; intros p H; cbn in *; [contradiction|]. destruct (Nat.eqb_spec a b); [discriminate|]. apply IH. destruct H; [congruence|auto]. Qed.
Lemma seen_some : forall hs h a, In h hs -> In a (map fst (concat h)) -> @last_seen A hs a <> None.
Proof.
  induction hs as [|k hs IH]; intros h a Hi Ha; [contradiction|]. cbn [last_seen]. destruct (last_seen hs a) eqn:E; [discriminate|].
  destruct Hi as [->|Hi]; [now apply look_some|]. exfalso. eapply IH; eauto.
Qed.
Lemma seen_at : forall hs a w, @last_seen A hs a = Some w -> exists h, In h hs /\ look a None (concat h) = Some w.
Proof.
  induction hs as [|k hs IH]; intros a w E; cbn [last_seen] in E; [discriminate|]. destruct (last_seen hs a) eqn:El.
  - inv E. apply IH in El. destruct El as (h & Hi & Eh). exists h. split; auto. now right.
  - exists k. split; auto. now left.
Qed.
Lemma seen_next : forall hs a x p n b, @last_seen A hs a = Some (x, p, n) -> (n = Some b \/ p = Some b) -> exists w, last_seen hs b = Some w.
Proof.
  intros hs a x p n b E Hb. apply seen_at in E. destruct E as (h & Hi & E). apply look_inv in E. destruct E as (l1 & y & l2 & El & Ew). inv Ew.
  assert (Hin : In b (map fst (concat h))).
  { rewrite El, map_app, in_app_iff. destruct Hb as [Hb|Hb]; [apply entry_in in Hb; right; now right|apply exit_in in Hb; auto]. }
  pose proof (seen_some hs h b Hi Hin). destruct (last_seen hs b); [eauto|contradiction].
Qed.

(** ** Loops *)
Lemma sift_T : forall keep (h : tagged), values (filter (fun p => match p with [] => false | _ => true end) (map (filter (fun tx => keep (snd tx))) h)) = sift keep (values h).
Proof.
  intros keep h. unfold values, sift. induction h as [|p h IH]; [reflexivity|]. cbn [map filter].
  assert (E : map snd (filter (fun tx => keep (snd tx)) p) = filter keep (map snd p)).
  { clear. induction p as [|(b & x) p IH]; cbn; auto. destruct (keep x); cbn; now rewrite IH. }
  rewrite <- E. destruct (filter (fun tx => keep (snd tx)) p); cbn [map]; [exact IH|]. f_equal. exact IH.
Qed.
Lemma sift_all : forall (f : A -> bool) (g : list (list A)), Forall (fun p => p <> []) g -> Forall (fun x => f x = true) (concat g) -> sift f g = g.
Proof.
  intros f g. unfold sift. induction g as [|p g IH]; intros H1 H2; [reflexivity|]. inv H1. cbn [concat] in H2. apply Forall_app in H2. destruct H2 as (Hp & H2). cbn [map filter].
  assert (E : filter f p = p) by (clear - Hp; induction Hp as [|x p E Hp IH]; cbn; auto; rewrite E; now f_equal).
  rewrite E, (IH H4 H2). destruct p; [contradiction|reflexivity].
Qed.
Lemma sift_delete : forall (f : A -> bool) (g : list (list A)) k x, nth_error (concat g) k = Some x -> f x = false -> sift f (s_delete k g) = sift f g.
Proof.
  intros f g k x E Ef. destruct (split_at g k x E) as (g1 & p & q & g2 & -> & El). rewrite <- El, delete_dec. unfold sift. rewrite !map_app, !filter_app. f_equal.
  assert (Ep : filter f (p ++ x :: q) = filter f (p ++ q)) by (rewrite !filter_app; cbn; now rewrite Ef).
  cbn [map filter]. rewrite Ep. destruct (p ++ q) as [|z r]; reflexivity.
Qed.
Lemma give_item : forall (s : gl) h O l1 a x l2, state s h O -> concat h = l1 ++ (a, x) :: l2 -> give (Some a) s = (Ok (Some x), CAt a).
Proof. intros s h O l1 a x l2 H E. destruct (item_links s h O l1 a x l2 H E) as (V & _). unfold give, value. now rewrite V. Qed.
Lemma first_place_at : forall (f : A -> bool) l1 x l2, Forall (fun y => f y = false) l1 -> f x = true -> first_place f (l1 ++ x :: l2) = Some (length l1).
Proof. intros f l1 x l2 H E. induction H as [|y l1 Ey H IH]; cbn; [now rewrite E|]. rewrite Ey, IH. reflexivity. Qed.
Lemma remove_loop : forall (eqb : A -> A -> bool) keep l2 (s : gl) h O l1 c fuel, state s h O -> concat h = l1 ++ l2 ->
  (forall x y, In x (map snd (concat h)) -> In y (map snd (concat h)) -> eqb x y = true -> keep x = keep y) ->
  (forall x, In x (map snd (concat h)) -> eqb x x = true) ->
  Forall (fun tx => keep (snd tx) = true) l1 -> iter_next c s = give (entry (map fst l2) None) s -> (length l2 < fuel)%nat ->
  exists t h', for_loop fuel (fun x s => if keep x then Ok s else remove eqb x s) c s = Ok (map snd l2, t) /\ state t h' O /\ values h' = sift keep (values h).
Proof.
  intros eqb keep. induction l2 as [|(a & x) l2 IH]; intros s h O l1 c fuel H E Hk Hr Hl Hc Hf; (destruct fuel as [|fuel]; [cbn in Hf; lia|]); cbn [for_loop]; rewrite Hc; cbn [map fst entry].
  - cbn [give]. exists s, h. split; auto. split; auto. symmetry. apply sift_all.
    + apply (rep_full _ _ _ (st_rep _ _ _ H)).
    + rewrite values_items, Forall_map, E, app_nil_r. exact Hl.
  - rewrite (give_item s h O l1 a x l2 H E). cbn [length] in Hf. destruct (item_links s h O l1 a x l2 H E) as (_ & _ & En & Hnl).
    destruct (keep x) eqn:Ex; cbn [bind].
    + destruct (IH s h O (l1 ++ [(a, x)]) (CAt a) fuel H) as (t & h' & Et & St & Ev); auto.
      * now rewrite <- app_assoc.
      * apply Forall_app. split; auto.
      * cbn [iter_next]. now rewrite En.
      * lia.
      * rewrite Et. cbn [bind fst snd map]. exists t, h'. auto.
    + assert (Hx : In x (map snd (concat h))) by (rewrite E, map_app, in_app_iff; right; now left).
      assert (Ep : first_place (fun y => eqb y x) (map snd (concat h)) = Some (length l1)).
      { rewrite E, map_app. cbn [map snd]. rewrite <- (map_length snd l1). apply first_place_at; [|auto]. rewrite Forall_map. rewrite Forall_forall in *. intros (b & y) Hb. cbn.
        destruct (eqb y x) eqn:Ey; auto. exfalso. specialize (Hl _ Hb). cbn in Hl. rewrite (Hk y x) in Hl; auto; [congruence|].
        rewrite E, map_app, in_app_iff. left. apply (in_map snd) in Hb. exact Hb. }
      assert (Ek : nth_error (concat h) (length l1) = Some (a, x)) by (rewrite E, nth_error_app2, Nat.sub_diag by lia; reflexivity).
      pose proof (step_state eqb (fun _ _ => true) (ORemove x) s h O _ H eq_refl) as Ag. cbn [s_step h_step] in Ag. rewrite values_items, Ep in Ag. cbn [agrees] in Ag.
      destruct Ag as (t & O' & Et & St & Ef & Ho). rewrite Ho in St by discriminate. destruct (remove eqb x s) as [t'|] eqn:Er; [|discriminate]. cbn [bind] in Et. inv Et. cbn [bind].
      assert (Es : n_next t a = n_next s a).
      { assert (Hal : (a < fresh s)%nat) by (apply (state_lt s h O); auto; apply (st_par _ _ _ H); left; rewrite E, map_app, in_app_iff; right; now left).
        apply (step_still eqb (fun _ _ => true) (ORemove x) s t h O None (fresh s) (s_delete (length l1) h) a H); auto.
        - cbn [s_step]. now rewrite values_items, Ep.
        - cbn [h_step]. now rewrite Er.
        - rewrite delete_items by (apply nth_error_Some; congruence). rewrite E. destruct (fs_app l1 ((a, x) :: l2)) as (E1 & _). destruct (fs_app_S l1 (a, x) l2) as (_ & E2). rewrite E1, E2.
          pose proof (state_nodup _ _ _ H) as N. rewrite E, map_app in N. cbn [map fst] in N. rewrite map_app. now apply NoDup_remove_2 in N. }
      assert (Ed : concat (s_delete (length l1) h) = l1 ++ l2).
      { rewrite delete_items by (apply nth_error_Some; congruence). rewrite E. destruct (fs_app l1 ((a, x) :: l2)) as (E1 & _). destruct (fs_app_S l1 (a, x) l2) as (_ & E2). now rewrite E1, E2. }
      assert (Hsub : forall y, In y (map snd (l1 ++ l2)) -> In y (map snd (concat h))).
      { intros y. rewrite E, !map_app, !in_app_iff. cbn. tauto. }
      destruct (IH t (s_delete (length l1) h) O l1 (CAt a) fuel St Ed) as (u & h' & Eu & Su & Ev); auto.
      * intros y z. rewrite Ed. auto.
      * intros y. rewrite Ed. auto.
      * cbn [iter_next]. now rewrite Es, En.
      * lia.
      * rewrite Eu. cbn [bind fst snd map]. exists u, h'. split; auto. split; auto. rewrite Ev. unfold values. rewrite <- delete_map.
        apply (sift_delete keep _ _ x); auto. fold (values h). rewrite values_items, nth_error_map, Ek. reflexivity.
Qed.
Lemma plain_loop : forall l2 (s : gl) h O l1 c fuel, state s h O -> concat h = l1 ++ l2 -> iter_next c s = give (entry (map fst l2) None) s -> (length l2 < fuel)%nat ->
  for_loop fuel (fun _ s => Ok s) c s = Ok (map snd l2, s).
Proof.
  induction l2 as [|(a & x) l2 IH]; intros s h O l1 c fuel H E Hc Hf; (destruct fuel as [|fuel]; [cbn in Hf; lia|]); cbn [for_loop]; rewrite Hc; cbn [map fst entry]; [reflexivity|].
  rewrite (give_item s h O l1 a x l2 H E). cbn [length] in Hf. destruct (item_links s h O l1 a x l2 H E) as (_ & _ & En & _). cbn [bind].
  rewrite (IH s h O (l1 ++ [(a, x)]) (CAt a) fuel H); [reflexivity|now rewrite <- app_assoc|cbn [iter_next]; now rewrite En|lia].
Qed.
Lemma append_loop : forall f ng fuel (s : gl) h O c a, state s h O -> In a (map fst (concat h)) -> iter_next c s = give (Some a) s ->
  for_loop fuel (fun x s => append (f x) ng s) c s = Err Diverge.
Proof.
  intros f ng. induction fuel as [|fuel IH]; intros s h O c a H Ha Hc; [reflexivity|]. cbn [for_loop]. rewrite Hc.
  destruct (in_split_fst a _ Ha) as (l1 & x & l2 & E). rewrite (give_item s h O l1 a x l2 H E).
  destruct (append_state s h O ng (f x) H) as (t & Et & St & _). rewrite Et. cbn [bind].
  assert (Ec : concat (s_append ng (fresh s, f x) h) = l1 ++ (a, x) :: (l2 ++ [(fresh s, f x)])) by (rewrite append_items, E, <- app_assoc; reflexivity).
  destruct (item_links t _ O _ _ _ _ St Ec) as (_ & _ & En & _). rewrite map_app in En.
  assert (X : exists b, entry (map fst l2 ++ map fst [(fresh s, f x)]) None = Some b /\ In b (map fst (concat (s_append ng (fresh s, f x) h)))).
  { destruct l2 as [|(b & y) l2]; cbn [map app entry fst]; eexists; (split; [reflexivity|]); rewrite Ec, map_app, in_app_iff; right; right; now left. }
  destruct X as (b & Eb & Hb). rewrite (IH t _ O (CAt a) b St Hb); [reflexivity|]. cbn [iter_next]. now rewrite En, Eb.
Qed.

(** ** Iterators of groups *)
Lemma firsts_heads : forall h : tagged, heads (serials h) = firsts h.
Proof. induction h as [|[|(a & x) p] h IH]; cbn in *; auto. now f_equal. Qed.
Lemma next_head_at : forall (s : gl) h O l1 a l2, state s h O -> firsts h = l1 ++ a :: l2 -> n_nh s a = entry l2 None.
Proof.
  intros s h O l1 a l2 H E. destruct (st_rep _ _ _ H) as (_ & G & _). pose proof (k_nh _ _ G) as F. rewrite firsts_heads, E in F. apply fw_app in F. apply F.
Qed.
Lemma head_iff : forall (s : gl) h O a, state s h O -> neat s h -> (n_head s a = true <-> In a (firsts h)).
Proof.
  intros s h O a H (_ & N). destruct (st_rep _ _ _ H) as (L & G & _). rewrite <- firsts_heads. split.
  - intros E. pose proof (N a E) as Ha. rewrite <- serials_items in Ha. now apply (headed_iff _ _ _ (k_nodup _ _ L) (k_head _ _ G) Ha).
  - intros E. pose proof (heads_in _ _ E) as Ha. now apply (headed_iff _ _ _ (k_nodup _ _ L) (k_head _ _ G) Ha).
Qed.
Lemma groups_loop : forall eqb leb (ops : nat -> list op), (forall v, ~ In OClear (ops v)) ->
  (forall v n h, Forall (fun p => p <> []) h -> In v (firsts h) -> exists outs n' h', s_run eqb leb (ops v) n h = Some (outs, (n', h')) /\ firsts h' = firsts h) ->
  forall l2 (s : gl) h l1 c fuel, state s h [] -> neat s h -> firsts h = l1 ++ l2 ->
  groups_next c s = (match l2 with [] => (None, CEnd) | a :: _ => (Some a, CAt a) end) -> (length l2 < fuel)%nat ->
  exists t h', for_groups fuel (fun v s => Ok (snd (h_run eqb leb (ops v) s))) c s = Ok (l2, t) /\ state t h' [] /\ firsts h' = firsts h.
Proof.
  intros eqb leb ops Hc Hb. induction l2 as [|a l2 IH]; intros s h l1 c fuel H N E Ec Hf; (destruct fuel as [|fuel]; [cbn in Hf; lia|]); cbn [for_groups]; rewrite Ec.
  - exists s, h. auto.
  - cbn [length] in Hf. cbn [bind]. assert (Ha : In a (firsts h)) by (rewrite E; apply in_app_iff; right; now left).
    destruct (Hb a (fresh s) h (state_ne _ _ _ H) Ha) as (outs & n' & h1 & Er & Ef).
    destruct (run_state eqb leb (ops a) s h [] outs n' h1 H Er) as (_ & O & St & _ & Ho). rewrite (Ho (Hc a)) in St.
    pose proof (run_neat eqb leb (ops a) s h [] outs n' h1 H Er (Hc a) N) as Nt. set (t := snd (h_run eqb leb (ops a) s)) in *. clearbody t.
    assert (En : n_nh t a = entry l2 None) by (apply (next_head_at t h1 [] l1 a l2 St); congruence).
    destruct (IH t h1 (l1 ++ [a]) (CAt a) fuel St Nt) as (u & h' & Eu & Su & Eh).
    + rewrite Ef, E, <- app_assoc. reflexivity.
    + unfold groups_next. rewrite En. destruct l2; reflexivity.
    + lia.
    + rewrite Eu. cbn [bind fst snd]. exists u, h'. split; auto. split; auto. congruence.
Qed.
End Links.
