(** * PNode: the methods of [BibleRangeList] on nodes do what MList.v says. *)
From Coq Require Import List ZArith Bool Arith Lia Permutation.
From Verif Require Import Base Books Data MVerse MRange MSeq MList MGroup SpecGroup PSort PGroup PGroup2 PGroup3 PGroup4 PGroup5 PGroup6 PGroup7 PGroup8 MNode.
Import ListNotations.

Notation tagged := (list (list (nat * range))).

(** ** Nodes of a list *)
Lemma fw_next : forall f l1 a l2 n, fw f (l1 ++ a :: l2) n -> f a = entry l2 n.
Proof. induction l1 as [|b l1 IH]; intros a l2 n H; cbn in *; [tauto|]. apply IH. tauto. Qed.
Lemma bw_prev : forall f l1 p a b l2, bw f p (l1 ++ a :: b :: l2) -> f b = Some a.
Proof. induction l1 as [|c l1 IH]; intros p a b l2 H; cbn in *; [tauto|]. destruct H as (_ & H). eapply IH; eauto. Qed.
Lemma flat_next : forall (s : heap) h O l1 a x l2, state s h O -> concat h = l1 ++ (a, x) :: l2 -> n_next s a = entry (map fst l2) None.
Proof.
  intros s h O l1 a x l2 H E. destruct (st_rep _ _ _ H) as (L & _). pose proof (k_next _ _ L) as F.
  rewrite serials_items, E, map_app in F. cbn in F. now apply fw_next in F.
Qed.
Lemma flat_first : forall (s : heap) h O, state s h O -> g_first s = entry (map fst (concat h)) None.
Proof. intros s h O H. destruct (st_rep _ _ _ H) as (L & _). now rewrite (k_first _ _ L), serials_items. Qed.
Lemma flat_prev : forall (s : heap) h O l1 a x b y l2, state s h O -> concat h = l1 ++ (a, x) :: (b, y) :: l2 -> n_prev s b = Some a.
Proof.
  intros s h O l1 a x b y l2 H E. destruct (st_rep _ _ _ H) as (L & _). pose proof (k_prev _ _ L) as F.
  rewrite serials_items, E, map_app in F. cbn [map fst] in F. now apply bw_prev in F.
Qed.
Lemma nth_mid : forall {B} (l1 : list B) x l2, nth_error (l1 ++ x :: l2) (length l1) = Some x.
Proof. intros. rewrite nth_error_app2, Nat.sub_diag; auto. Qed.
Lemma flat_value : forall (s : heap) h O l1 a x l2, state s h O -> concat h = l1 ++ (a, x) :: l2 -> value s a = Ok x.
Proof. intros s h O l1 a x l2 H E. eapply (item_value s h O (length l1)); eauto. rewrite E. apply nth_mid. Qed.
Lemma flat_len : forall (s : heap) h O, state s h O -> (length (concat h) <= fresh s)%nat.
Proof. intros s h O H. destruct (st_rep _ _ _ H) as (L & _). pose proof (linked_len _ _ L) as X. now rewrite serials_items, map_length in X. Qed.
Lemma first_skip : forall {B} (l1 : list B) x l2, firstn (length l1) (l1 ++ x :: l2) = l1 /\ skipn (S (length l1)) (l1 ++ x :: l2) = l2 /\ skipn (length l1) (l1 ++ x :: l2) = x :: l2.
Proof.
  intros B l1. induction l1 as [|y l1 IH]; intros x l2; [now split|]. destruct (IH x l2) as (A & C & D). cbn [length firstn skipn app] in *.
  rewrite A. auto.
Qed.
Lemma flat_pop : forall (s : heap) h O l1 a x l2, state s h O -> concat h = l1 ++ (a, x) :: l2 ->
  exists u h', pop_node (Some a) s = Ok (x, u) /\ state u h' O /\ concat h' = l1 ++ l2.
Proof.
  intros s h O l1 a x l2 H E. assert (N : nth_error (concat h) (length l1) = Some (a, x)) by (rewrite E; apply nth_mid).
  destruct (pop_state s h O _ _ _ H N) as (u & Eu & S & _). exists u, (s_delete (length l1) h). split; auto. split; auto.
  rewrite delete_items; [|rewrite E, app_length; cbn; lia]. rewrite E. destruct (first_skip l1 (a, x) l2) as (-> & -> & _). reflexivity.
Qed.
Lemma flat_insert : forall (s : heap) h O l1 a x l2 y, state s h O -> concat h = l1 ++ (a, x) :: l2 ->
  exists u h', insert_before (Some a) y false s = Ok u /\ state u h' O /\ concat h' = l1 ++ (fresh s, y) :: (a, x) :: l2.
Proof.
  intros s h O l1 a x l2 y H E. assert (N : nth_error (concat h) (length l1) = Some (a, x)) by (rewrite E; apply nth_mid).
  destruct (insert_state s h O _ _ _ y H N) as (u & Eu & S & _). exists u, (s_insert (length l1) (fresh s, y) h). split; auto. split; auto.
  rewrite insert_items; [|rewrite E, app_length; cbn; lia]. rewrite E. destruct (first_skip l1 (a, x) l2) as (-> & _ & ->). reflexivity.
Qed.
Lemma flat_set : forall (s : heap) h O l1 a x l2 y, state s h O -> concat h = l1 ++ (a, x) :: l2 ->
  exists h', state (set_val a y s) h' O /\ concat h' = l1 ++ (a, y) :: l2.
Proof.
  intros s h O l1 a x l2 y H E. assert (N : nth_error (concat h) (length l1) = Some (a, x)) by (rewrite E; apply nth_mid).
  exists (s_set (length l1) y h). split; [eapply set_state; eauto|]. unfold s_set. rewrite N. cbn [fst].
  rewrite replace_items; [|rewrite E, app_length; cbn; lia]. rewrite E. destruct (first_skip l1 (a, x) l2) as (-> & -> & _). reflexivity.
Qed.
Lemma state_groups_of : forall (s : heap) h O, state s h O -> Forall (fun p => p <> []) (values h).
Proof. intros s h O H. pose proof (state_ne _ _ _ H) as F. unfold values. apply Forall_map. eapply Forall_impl; [|exact F]. intros [|]; cbn; congruence. Qed.

(** ** Clearing, groups, sorting *)
Lemma clear_state : forall (s : heap) h O, state s h O -> exists O', state (clear s) [] O'.
Proof.
  intros s h O H. pose proof (step_state (fun _ _ => true) (fun _ _ => true) OClear s h O _ H eq_refl) as (t & O' & E & S & _).
  injection E as <-. eauto.
Qed.
Lemma clear_groups_state : forall (s : heap) h O, state s h O -> exists t, clear_groups s = Ok t /\ state t (one_group (concat h)) O.
Proof.
  intros s h O H. pose proof (step_state (fun _ _ => true) (fun _ _ => true) OClearGroups s h O _ H eq_refl) as (t & O' & E & S & _ & K).
  cbn in E. destruct (clear_groups s); [|discriminate]. injection E as <-. rewrite K in S by discriminate. eauto.
Qed.
Lemma sort_state : forall leb (s : heap) h O, state s h O ->
  exists t, sort leb s = Ok t /\ state t (one_group (sort_items (fun a b => leb (snd a) (snd b)) (concat h))) O.
Proof.
  intros leb s h O H. pose proof (step_state (fun _ _ => true) leb OSort s h O _ H eq_refl) as (t & O' & E & S & _ & K).
  cbn in E. destruct (sort leb s); [|discriminate]. injection E as <-. rewrite K in S by discriminate. eauto.
Qed.

(** ** The groups of marked items *)
Lemma cut_mark : forall {B} b c (x : B) ms, cut_groups ((b, x) :: ms) = cut_groups ((c, x) :: ms).
Proof. reflexivity. Qed.
Lemma cut_plain : forall {B} (p : list B) x, cut_groups (map (pair false) (x :: p)) = [x :: p].
Proof.
  intros B p. induction p as [|y p IH]; intros x; [reflexivity|]. change (cut_groups (map (pair false) (x :: y :: p))) with
    (match cut_groups (map (pair false) (y :: p)) with [] => [[x]] | g :: gs => (x :: g) :: gs end). now rewrite IH.
Qed.
Lemma cut_after : forall {B} (p : list B) y x ms, cut_groups (map (pair false) (y :: p) ++ (true, x) :: ms) = (y :: p) :: cut_groups ((true, x) :: ms).
Proof.
  intros B p. induction p as [|z p IH]; intros y x ms; [reflexivity|]. change (cut_groups (map (pair false) (y :: z :: p) ++ (true, x) :: ms)) with
    (match cut_groups (map (pair false) (z :: p) ++ (true, x) :: ms) with [] => [[y]] | g :: gs => (y :: g) :: gs end). now rewrite IH.
Qed.

Section Regroup.
Variable e : env.

Lemma rg_open_ext : forall fl cc cc' st x, (forall x, cc x = cc' x) -> rg_open e fl cc st x = rg_open e fl cc' st x.
Proof. intros fl cc cc' st x E. unfold rg_open. now rewrite E. Qed.
Definition unit_of {B} (m : res B) : res unit := match m with Ok _ => Ok tt | Err x => Err x end.

Lemma rg_loop_state : forall fl cc cc' l2 n st (s : heap) G p O, (forall x, cc x = cc' x) ->
  state s (G ++ [p ++ l2]) O -> (p = [] -> G = []) -> p ++ l2 <> [] -> (length l2 <= n)%nat ->
  let m := rg_loop e fl cc' st (map snd l2) in
  exists s' h', n_rg_loop e fl cc n st (entry (map fst l2) None) s = (s', unit_of m) /\ state s' h' O /\
    concat h' = concat G ++ p ++ l2 /\ fresh s' = fresh s /\ (forall ms, m = Ok ms -> values h' = values G ++ cut_groups (map (pair false) (map snd p) ++ ms)).
Proof.
  intros fl cc cc' l2. induction l2 as [|(a & x) l2 IH]; intros n st s G p O EC H Hp Hne Hn m.
  - exists s, (G ++ [p ++ []]). subst m. cbn. destruct n; cbn; (split; [reflexivity|]; split; [auto|]; split; [now rewrite concat_app; cbn; rewrite !app_nil_r|]; split; [auto|]);
      intros ms E; injection E as <-; unfold values; rewrite !app_nil_r in *; rewrite map_app; cbn; f_equal;
      (destruct p as [|(b & y) p]; [contradiction|]); cbn [map snd]; now rewrite <- (map_cons (pair false)), cut_plain.
  - destruct n as [|n]; [cbn in Hn; lia|]. cbn in Hn.
    assert (Ec : concat (G ++ [p ++ (a, x) :: l2]) = (concat G ++ p) ++ (a, x) :: l2) by (rewrite concat_app; cbn; now rewrite app_nil_r, app_assoc).
    pose proof (flat_value s _ O _ _ _ _ H Ec) as Ev. pose proof (flat_next s _ O _ _ _ _ H Ec) as En.
    subst m. cbn [map snd fst entry n_rg_loop rg_loop]. unfold let_run. rewrite Ev. cbv beta iota.
    rewrite (rg_open_ext fl cc cc' st x EC). unfold rg_step. destruct (rg_open e fl cc' st x) as [(b & c & v)|ex] eqn:Eo; cbn [bind fst snd].
    2:{ exists s, (G ++ [p ++ (a, x) :: l2]). cbn. split; auto. split; auto. rewrite Ec, app_assoc. split; [reflexivity|]. split; [auto|]. discriminate. }
    (* the group *)
    assert (Step : exists s1 G' p', (if b then call (new_group_at_node (Some a)) s else (s, Ok tt)) = (s1, Ok tt) /\
       state s1 (G' ++ [(p' ++ [(a, x)]) ++ l2]) O /\ concat G' ++ p' = concat G ++ p /\ (p' ++ [(a, x)] = [] -> G' = []) /\ fresh s1 = fresh s /\
       forall ms, values G' ++ cut_groups (map (pair false) (map snd (p' ++ [(a, x)])) ++ ms) = values G ++ cut_groups (map (pair false) (map snd p) ++ (b, x) :: ms)).
    { assert (Hfalse : state s (G ++ [(p ++ [(a, x)]) ++ l2]) O) by (rewrite <- app_assoc; exact H).
      assert (Nn : p ++ [(a, x)] = [] -> G = []) by (intros X; destruct p; discriminate).
      destruct b.
      2:{ exists s, G, p. split; auto. split; auto. split; auto. split; auto. split; auto. intros ms. now rewrite !map_app, <- app_assoc. }
      destruct p as [|(b & y) p].
      - exists s, [], []. rewrite (Hp eq_refl) in *. cbn [app] in *. split.
        { unfold call, new_group_at_node. rewrite (flat_first s _ O H). cbn. rewrite Nat.eqb_refl. reflexivity. }
        split; auto.
      - destruct (cut_state s _ O (length (concat G ++ (b, y) :: p)) a x H) as (u & Eu & S & M).
        { rewrite Ec. apply nth_mid. }
        { rewrite later_head_dec; [destruct G; reflexivity|]. pose proof (state_ne _ _ _ H) as F. now apply Forall_app in F. }
        rewrite cut_dec in S by discriminate. exists u, (G ++ [(b, y) :: p]), []. unfold call. rewrite Eu. split; [reflexivity|].
        split; [rewrite <- app_assoc; exact S|]. split; [rewrite concat_app; cbn; now rewrite !app_nil_r|]. split; [discriminate|]. split; [apply M|].
        intros ms. unfold values. rewrite map_app, <- app_assoc. cbn [map app snd]. f_equal.
        exact (eq_sym (cut_after (map snd p) y x ms)). }
    destruct Step as (s1 & G' & p' & E1 & S1 & Ec1 & Hp1 & F1 & V1). rewrite E1. cbn [seq_run].
    assert (En1 : n_next s1 a = entry (map fst l2) None).
    { eapply (flat_next s1 _ O (concat G' ++ p')); [exact S1|]. rewrite concat_app. cbn. now rewrite app_nil_r, <- !app_assoc. }
    destruct (rg_close e fl c v x) as [st'|ex] eqn:Ecl; cbn [bind fst snd].
    2:{ exists s1, (G' ++ [(p' ++ [(a, x)]) ++ l2]). cbn. split; auto. split; auto. split; [|split; [auto|discriminate]].
        rewrite concat_app. cbn. rewrite app_nil_r, !app_assoc, Ec1, <- !app_assoc. reflexivity. }
    rewrite En1. destruct (IH n st' s1 G' (p' ++ [(a, x)]) O EC S1 Hp1 ltac:(destruct p'; discriminate) ltac:(lia)) as (s2 & h2 & E2 & S2 & C2 & F2 & V2).
    exists s2, h2. rewrite E2. split; [now destruct (rg_loop e fl cc' st' (map snd l2))|]. split; auto.
    split; [rewrite C2, !app_assoc, Ec1, <- !app_assoc; reflexivity|]. split; [congruence|].
    intros ms Em. destruct (rg_loop e fl cc' st' (map snd l2)) as [ms'|]; [|discriminate]. cbn in Em. injection Em as <-.
    rewrite (V2 ms' eq_refl). apply V1.
Qed.

Lemma init_plain : forall ps : list range, exists t h, g_init (map OneItem ps) = Ok t /\ state t h [] /\ concat (values h) = ps.
Proof.
  intros ps. destruct (init_state (map OneItem ps)) as (t & h & E & S & V). exists t, h. split; auto. split; auto. rewrite V.
  destruct ps as [|x ps]; [reflexivity|]. rewrite init_items. cbn. now rewrite app_nil_r.
Qed.

Definition n_chap_counter (n : nat) (x : range) : res Z :=
  match n with
  | O => Err Diverge
  | S n => ps <- split_items e (nav_fuel e) x false true None None ;; l <- g_init (map OneItem ps) ;;
           let (l, q) := n_regroup_n e n None l in _ <- q ;; Ok (g_cnt l)
  end.
Definition m_chap_counter (n : nat) (x : range) : res Z :=
  match n with
  | O => Err Diverge
  | S n => ps <- split_items e (nav_fuel e) x false true None None ;; g <- regroup_n e n None ps ;; Ok (zlen (items g))
  end.
Lemma n_regroup_n_eq : forall n fl s, n_regroup_n e n fl s =
  seq_run (call clear_groups s) (fun s => n_rg_loop e fl (n_chap_counter n) (fresh s) (RG None None false) (g_first s) s).
Proof. intros [|n] fl s; reflexivity. Qed.
Lemma m_regroup_n_eq : forall n fl l, regroup_n e n fl l = (ms <- rg_loop e fl (m_chap_counter n) (RG None None false) l ;; Ok (cut_groups ms)).
Proof. intros [|n] fl l; reflexivity. Qed.
Lemma regroup_n_state : forall n fl (s : heap) h O, state s h O -> let m := regroup_n e n fl (concat (values h)) in
  exists s' h', n_regroup_n e n fl s = (s', unit_of m) /\ state s' h' O /\ concat h' = concat h /\ fresh s' = fresh s /\ (forall g, m = Ok g -> values h' = g).
Proof.
  assert (Loop : forall fl cc cc' (s : heap) h O, (forall x, cc x = cc' x) -> state s h O ->
    let m := (ms <- rg_loop e fl cc' (RG None None false) (concat (values h)) ;; Ok (cut_groups ms)) in
    exists s' h', seq_run (call clear_groups s) (fun s => n_rg_loop e fl cc (fresh s) (RG None None false) (g_first s) s) = (s', unit_of m) /\
      state s' h' O /\ concat h' = concat h /\ fresh s' = fresh s /\ (forall g, m = Ok g -> values h' = g)).
  { intros fl cc cc' s h O EC H. destruct (clear_groups_state s h O H) as (t & Et & S). unfold call. rewrite Et. cbn [seq_run].
    assert (Ft : fresh t = fresh s).
    { destruct (clear_groups_rep s _ _ (st_rep _ _ _ H)) as (t' & Et' & _ & (M & _)). congruence. }
    rewrite (flat_first t _ O S), concat_one_group, values_items. destruct (concat h) as [|c l] eqn:Eh.
    - cbn. exists t, []. rewrite <- Ft. destruct (fresh t); cbn; (split; [reflexivity|]; split; [exact S|]; split; [auto|]; split; [auto|]); intros g E; now injection E as <-.
    - destruct (rg_loop_state fl cc cc' (c :: l) (fresh t) (RG None None false) t [] [] O EC S (fun _ => eq_refl) ltac:(discriminate)) as (s' & h' & E & S' & C & F & V).
      { pose proof (flat_len t _ O S) as X. now rewrite concat_one_group in X. }
      exists s', h'. rewrite E. split; [now destruct (rg_loop e fl cc' (RG None None false) (map snd (c :: l)))|]. split; auto. split; [exact C|]. split; [congruence|].
      intros g. destruct (rg_loop e fl cc' (RG None None false) (map snd (c :: l))) as [ms|]; [|discriminate]. cbn [bind]. intros X. injection X as <-. now apply V. }
  induction n as [|n IH]; intros fl s h O H; rewrite n_regroup_n_eq, m_regroup_n_eq; apply Loop; auto.
  intros x. unfold n_chap_counter, m_chap_counter. destruct (split_items e (nav_fuel e) x false true None None) as [ps|ex]; cbn [bind]; auto.
  destruct (init_plain ps) as (t & k & E & S & V). rewrite E. cbn [bind].
  destruct (IH None t k [] S) as (s' & h' & E' & S' & C' & _ & V'). rewrite V in E', V'. rewrite E'.
  destruct (regroup_n e n None ps) as [g|ex]; cbn [unit_of bind]; auto.
  rewrite <- (V' g eq_refl). unfold items. rewrite values_items. destruct (state_cnt _ _ _ S') as (-> & _). unfold zlen. now rewrite map_length.
Qed.
End Regroup.
