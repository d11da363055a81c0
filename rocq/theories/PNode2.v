(** * PNode2: merge and the set operations on nodes. *)
From Coq Require Import List ZArith Bool Arith Lia Permutation.
From Verif Require Import Base Books Data MVerse MRange MSeq MList MGroup SpecGroup PSort PGroup PGroup2 PGroup3 PGroup4 PGroup5 PGroup6 PGroup7 PGroup8 MNode SpecNode PNode.
Import ListNotations.

(** The outcome [r] of a method is that of the function of MList.v; [rest] are the items in the list afterwards. *)
Definition ends (r : run) (m : res rlist) (rest : list range) (O : list nat) : Prop :=
  exists h', state (fst r) h' O /\ snd r = unit_of m /\ items (values h') = rest /\ (forall g, m = Ok g -> values h' = g).
(** A new list. *)
Definition gives (q : res heap) (m : res rlist) : Prop :=
  match m with
  | Ok g => exists t h', q = Ok t /\ state t h' [] /\ values h' = g
  | Err x => q = Err x
  end.

Lemma flat_pop_after : forall (s : heap) h O l1 a x b y l2, state s h O -> concat h = l1 ++ (a, x) :: (b, y) :: l2 ->
  pop_after (Some a) s = pop_node (Some b) s.
Proof.
  intros s h O l1 a x b y l2 H E. destruct (st_rep _ _ _ H) as (L & _). unfold pop_after.
  rewrite (child_rep s _ a L). 2:{ rewrite serials_items, E, map_app, in_app_iff. right. now left. }
  cbn [bind]. rewrite (flat_next s h O l1 a x ((b, y) :: l2) H E). cbn [map fst entry].
  rewrite (k_last _ _ L), serials_items, E, map_app, exit_app. cbn [map fst exit].
  destruct (oeqb (Some a) (exit (Some b) (map fst l2))) eqn:Eo; auto. exfalso.
  destruct (exit (Some b) (map fst l2)) as [c|] eqn:Ec; [|discriminate]. cbn in Eo. apply Nat.eqb_eq in Eo. subst c.
  pose proof (state_nodup _ _ _ H) as N. rewrite E, map_app in N. cbn [map fst] in N. apply NoDup_remove_2 in N. apply N. rewrite in_app_iff. right.
  apply exit_in_gen in Ec. destruct Ec as [(_ & Ec)|Ec]; [left; congruence|right; auto].
Qed.

Section Node.
Variable e : env.

Lemma merge_loop_state : forall fl l2 n (s : heap) h O l1 a x, state s h O -> concat h = l1 ++ (a, x) :: l2 -> (length l2 <= n)%nat ->
  exists s' h' l', n_merge_loop e fl n (Some a) s = (s', unit_of (merge_loop e fl x (map snd l2))) /\ state s' h' O /\
    concat h' = l1 ++ l' /\ fresh s' = fresh s /\ map snd l' = merge_left e fl x (map snd l2).
Proof.
  intros fl. induction l2 as [|(b & y) l2 IH]; intros n s h O l1 a x H E Hn.
  - exists s, h, [(a, x)]. pose proof (flat_next s h O _ _ _ _ H E) as En. cbn in En. destruct n; cbn; rewrite En; auto.
  - destruct n as [|n]; [cbn in Hn; lia|]. cbn in Hn. pose proof (flat_next s h O _ _ _ _ H E) as En. cbn in En.
    pose proof (flat_value s h O _ _ _ _ H E) as Ea.
    assert (E2 : concat h = (l1 ++ [(a, x)]) ++ (b, y) :: l2) by (rewrite <- app_assoc; exact E).
    pose proof (flat_value s h O _ _ _ _ H E2) as Eb.
    cbn [n_merge_loop map snd merge_loop merge_left]. rewrite En. unfold let_run. rewrite Ea, Eb.
    destruct (union e x y fl) as [u|ex] eqn:Eu; cbn [bind].
    2:{ exists s, h, ((a, x) :: (b, y) :: l2). auto. }
    assert (Keep : exists s' h' l', n_merge_loop e fl n (Some b) s = (s', unit_of (m <- merge_loop e fl y (map snd l2) ;; Ok (x :: m))) /\ state s' h' O /\
      concat h' = l1 ++ l' /\ fresh s' = fresh s /\ map snd l' = x :: merge_left e fl y (map snd l2)).
    { destruct (IH n s h O _ b y H E2 ltac:(lia)) as (s' & h' & l' & E' & S' & C' & F' & V'). exists s', h', ((a, x) :: l').
      rewrite E', C', <- app_assoc. cbn [map snd]. rewrite V'. split; [now destruct (merge_loop e fl y (map snd l2))|]. auto. }
    destruct u as [|k [|k2 u]]; auto. clear Keep.
    destruct (flat_set s h O _ _ _ _ k H E) as (h1 & S1 & C1).
    pose proof (flat_pop_after _ _ _ _ _ _ _ _ _ S1 C1) as P.
    assert (C1' : concat h1 = (l1 ++ [(a, k)]) ++ (b, y) :: l2) by (rewrite <- app_assoc; exact C1).
    assert (N : nth_error (concat h1) (length (l1 ++ [(a, k)])) = Some (b, y)) by (rewrite C1'; apply nth_mid).
    destruct (pop_state _ h1 O _ _ _ S1 N) as (u & Eq & S2 & (F2 & _)).
    assert (C2 : concat (s_delete (length (l1 ++ [(a, k)])) h1) = l1 ++ (a, k) :: l2).
    { rewrite delete_items; [|rewrite C1', !app_length; cbn; lia]. rewrite C1'. destruct (first_skip (l1 ++ [(a, k)]) (b, y) l2) as (-> & -> & _). now rewrite <- app_assoc. }
    unfold call. rewrite P, Eq. cbn [bind snd seq_run].
    destruct (IH n u _ O l1 a k S2 C2 ltac:(lia)) as (s' & h' & l' & E' & S' & C' & F' & V'). exists s', h', l'.
    split; auto. split; auto. split; auto. split; auto. rewrite F', F2. reflexivity.
Qed.
Lemma merge_left_ok : forall fl l x m, merge_loop e fl x l = Ok m -> merge_left e fl x l = m.
Proof.
  intros fl. induction l as [|y l IH]; intros x m E; cbn in *; [congruence|]. destruct (union e x y fl) as [u|]; [|discriminate]. cbn [bind] in E.
  destruct u as [|k [|k2 u]]; auto; destruct (merge_loop e fl y l) as [m'|] eqn:Em; cbn in E; try discriminate; injection E as <-; f_equal; auto.
Qed.
Lemma merge_rest_ok : forall fl l m, merge_items e fl l = Ok m -> merge_rest e fl l = m.
Proof. intros fl l m. unfold merge_items, merge_rest. destruct (sort_items (rleb e) l); [congruence|apply merge_left_ok]. Qed.

Lemma regroup_ends : forall fl (s : heap) h O, state s h O -> ends (n_regroup e fl s) (regroup e fl (values h)) (items (values h)) O.
Proof.
  intros fl s h O H. destruct (regroup_n_state e 1 fl s h O H) as (s' & h' & E & S & C & _ & V). exists h'. unfold n_regroup. rewrite E. cbn [fst snd].
  split; auto. split; auto. unfold items. now rewrite !values_items, C.
Qed.
Lemma sort_values : forall l : list (nat * range), map snd (sort_items (fun a b => rleb e (snd a) (snd b)) l) = sort_items (rleb e) (map snd l).
Proof. intros. symmetry. apply (sort_map snd). Qed.
Lemma values_one : forall l : list (nat * range), values (one_group l) = one_group (map snd l).
Proof. intros [|x l]; reflexivity. Qed.
Lemma sort_ends : forall re (s : heap) h O, state s h O -> ends (n_sort e re s) (l_sort e re (values h)) (sort_items (rleb e) (items (values h))) O.
Proof.
  intros re s h O H. destruct (sort_state (rleb e) s h O H) as (t & Et & S). unfold n_sort, call, l_sort. rewrite Et. cbn [seq_run].
  assert (Ev : values (one_group (sort_items (fun a b => rleb e (snd a) (snd b)) (concat h))) = one_group (sort_items (rleb e) (items (values h)))).
  { unfold items. now rewrite values_one, sort_values, values_items. }
  destruct re.
  - rewrite <- Ev. replace (sort_items (rleb e) (items (values h))) with (items (values (one_group (sort_items (fun a b => rleb e (snd a) (snd b)) (concat h))))).
    + now apply regroup_ends.
    + rewrite Ev. unfold items. apply concat_one_group.
  - eexists. split; [exact S|]. split; [reflexivity|]. rewrite Ev. unfold items at 1. rewrite concat_one_group. split; [reflexivity|]. congruence.
Qed.
Lemma merge_ends : forall fl (s : heap) h O, state s h O -> ends (n_merge e fl s) (merge e fl (values h)) (merge_rest e fl (items (values h))) O.
Proof.
  intros fl s h O H. destruct (sort_state (rleb e) s h O H) as (t & Et & S). unfold n_merge, n_sort, call, merge. rewrite Et. cbn [seq_run].
  assert (Loop : exists s' h', n_merge_loop e fl (fresh t) (g_first t) t = (s', unit_of (merge_items e fl (items (values h)))) /\ state s' h' O /\
    items (values h') = merge_rest e fl (items (values h))).
  { rewrite (flat_first t _ O S), concat_one_group. unfold merge_items, merge_rest, items. rewrite !values_items, <- sort_values.
    pose proof (flat_len t _ O S) as Hl. rewrite concat_one_group in Hl.
    destruct (sort_items (fun a b => rleb e (snd a) (snd b)) (concat h)) as [|(a & x) l] eqn:El.
    - exists t, []. cbn [map entry] in *. split; [destruct (fresh t); reflexivity|]. auto.
    - cbn [map fst snd entry]. destruct (merge_loop_state fl l (fresh t) t _ O [] a x S) as (s' & h' & l' & E' & S' & C' & _ & V').
      { cbn. now rewrite app_nil_r. } { cbn in Hl. lia. }
      exists s', h'. split; auto. split; auto. now rewrite values_items, C'. }
  destruct Loop as (s' & h' & E' & S' & V'). rewrite E'. destruct (merge_items e fl (items (values h))) as [m|ex] eqn:Em; cbn [unit_of seq_run bind].
  2:{ exists h'. split; [auto|]. split; [auto|]. split; [auto|]. discriminate. }
  rewrite (merge_rest_ok _ _ _ Em) in *. destruct (regroup_ends None s' h' O S') as (k & S2 & R2 & I2 & V2). exists k.
  assert (Er : regroup e None (one_group m) = regroup e None (values h')).
  { unfold regroup. unfold items in V' |- *. now rewrite V', concat_one_group. }
  rewrite Er. split; auto. split; auto. split; auto. congruence.
Qed.

(** ** Adding items *)
Lemma append_same : forall {B} ng (x : B) g, s_append ng x g = g_append ng x g.
Proof.
  intros B ng x. induction g as [|p g IH]; auto. cbn [s_append]. destruct g as [|q g]; [destruct ng; reflexivity|].
  rewrite IH. cbn [g_append]. destruct ng; reflexivity.
Qed.
Lemma extend_same : forall {B} (l : list B) g, s_extend l g = g_extend l g.
Proof.
  intros B l. unfold s_extend, g_extend. induction l as [|x l IH]; intros g; cbn; auto. now rewrite IH, append_same.
Qed.
Lemma number_values : forall n (l : list range), map snd (number n l) = l.
Proof.
  intros n l. unfold number. revert n. induction l as [|x l IH]; intros n; cbn [length List.seq combine map snd]; [reflexivity|]. now rewrite IH.
Qed.
Lemma values_extend : forall (k : list (nat * range)) h, values (s_extend k h) = s_extend (map snd k) (values h).
Proof.
  unfold s_extend. induction k as [|(n & x) k IH]; intros h; cbn [fold_left map snd]; auto. now rewrite IH, values_append.
Qed.
Lemma extend_values : forall l (s : heap) h O, state s h O ->
  exists t h', extend l s = Ok t /\ state t h' O /\ values h' = g_extend l (values h).
Proof.
  intros l s h O H. destruct (extend_state l s h O H) as (t & E & S & _). exists t, (s_extend (number (fresh s) l) h). split; auto. split; auto.
  now rewrite values_extend, number_values, extend_same.
Qed.

Lemma ends_same : forall r m m' rest O, m = m' -> ends r m rest O -> ends r m' rest O.
Proof. intros r m m' rest O -> H. exact H. Qed.
Lemma union_update_ends : forall x fl (s : heap) h O, state s h O -> ends (n_union_update e x fl s) (union_update e (values h) x fl)
  (match ref_ranges e x with Ok ys => merge_rest e fl (items (values h) ++ ys) | Err _ => items (values h) end) O.
Proof.
  intros x fl s h O H. unfold n_union_update, union_update, let_run. destruct (ref_ranges e x) as [ys|ex]; cbn [bind].
  2:{ exists h. split; [auto|]. split; [auto|]. split; [auto|discriminate]. }
  destruct (extend_values ys s h O H) as (t & h' & E & S & V). unfold call. rewrite E. cbn [seq_run].
  destruct (merge_ends fl t h' O S) as (k & S2 & R2 & I2 & V2). rewrite V in *. rewrite items_extend in I2. exists k. auto.
Qed.

(** ** Copies and new lists *)
Lemma copy_gives : forall (s : heap) h O, state s h O -> exists t k, n_copy s = Ok t /\ state t k [] /\ values k = values h.
Proof.
  intros s h O H. unfold n_copy. destruct (read_state s h O H) as (_ & _ & -> & _). cbn [bind].
  assert (E : forall gs t, n_add_groups gs t = add_all (map GroupItem gs) t).
  { induction gs as [|g gs IH]; intros t; cbn; auto. destruct (append_group g t); cbn [bind]; auto. }
  destruct (init_state (map GroupItem (values h))) as (t & k & Ek & S & V). exists t, k. rewrite E. split; auto. split; auto.
  rewrite V, init_groups; auto. eapply state_groups_of; eauto.
Qed.
Lemma copy_same : forall (s : heap) h O, state s h O -> copy_list (values h) = values h.
Proof. intros s h O H. unfold copy_list. rewrite groups_fold; auto. eapply state_groups_of; eauto. Qed.
Lemma ends_gives : forall r m rest, ends r m rest [] -> gives (let (t, q) := r in _ <- q ;; Ok t) m.
Proof. intros (t & q) m rest (h & S & Q & _ & V). cbn [fst snd] in *. subst q. destruct m as [g|x]; cbn; [|auto]. exists t, h. auto. Qed.
Lemma union_gives : forall x fl (s : heap) h O, state s h O -> gives (n_union e x fl s) (l_union e (values h) x fl).
Proof.
  intros x fl s h O H. destruct (copy_gives s h O H) as (t & k & E & S & V). unfold n_union, l_union. rewrite E. cbn [bind].
  rewrite (copy_same s h O H), <- V. eapply ends_gives. now apply union_update_ends.
Qed.

(** ** Intersection *)
Lemma meets_state : forall fl a bs (t : heap) k, state t k [] ->
  match meets_with e fl a bs with
  | Ok ms => exists t' k', n_meets_with e fl a bs t = Ok t' /\ state t' k' [] /\ items (values k') = items (values k) ++ ms
  | Err x => n_meets_with e fl a bs t = Err x
  end.
Proof.
  intros fl a. induction bs as [|b bs IH]; intros t k H; cbn [meets_with n_meets_with].
  - exists t, k. rewrite app_nil_r. auto.
  - destruct (intersection e a b fl) as [i|x]; cbn [bind]; auto. destruct i as [|m i].
    + cbn [bind]. specialize (IH t k H). destruct (meets_with e fl a bs) as [ms|x]; cbn [bind]; auto.
    + destruct (append_state t k [] false m H) as (u & Eu & S & _). rewrite Eu. cbn [bind]. specialize (IH u _ S).
      destruct (meets_with e fl a bs) as [ms|x]; cbn [bind]; auto. destruct IH as (t' & k' & E & S' & V). exists t', k'. split; auto. split; auto.
      rewrite V, values_append, append_same, items_append, <- app_assoc. reflexivity.
Qed.
Lemma all_meets_state : forall fl xs bs (t : heap) k, state t k [] ->
  match all_meets e fl xs bs with
  | Ok ms => exists t' k', n_all_meets e fl xs bs t = Ok t' /\ state t' k' [] /\ items (values k') = items (values k) ++ ms
  | Err x => n_all_meets e fl xs bs t = Err x
  end.
Proof.
  intros fl xs bs. unfold all_meets. induction xs as [|a xs IH]; intros t k H; cbn [mapM n_all_meets].
  - cbn. exists t, k. rewrite app_nil_r. auto.
  - pose proof (meets_state fl a bs t k H) as M. destruct (meets_with e fl a bs) as [ms|x]; cbn [bind]; [|rewrite M; reflexivity].
    destruct M as (u & k1 & E1 & S1 & V1). rewrite E1. cbn [bind]. specialize (IH u k1 S1).
    destruct (mapM (fun a0 => meets_with e fl a0 bs) xs) as [ls|x]; cbn [bind] in *; auto.
    destruct IH as (t' & k' & E & S' & V). exists t', k'. split; auto. split; auto. rewrite V, V1. cbn [concat]. now rewrite app_assoc.
Qed.
Lemma intersection_gives : forall x fl (s : heap) h O, state s h O -> gives (n_intersection e x fl s) (l_intersection e (values h) x fl).
Proof.
  intros x fl s h O H. unfold n_intersection, l_intersection. destruct (ref_ranges e x) as [ys|ex]; cbn [bind]; [|reflexivity].
  destruct (read_state s h O H) as (-> & _). cbn [bind]. pose proof (all_meets_state fl (concat (values h)) ys (clear g_new) [] state_new) as M.
  unfold items in *. destruct (all_meets e fl (concat (values h)) ys) as [ms|ex]; cbn [bind]; [|rewrite M; reflexivity].
  destruct M as (t & k & E & S & V). rewrite E. cbn [bind]. pose proof (merge_ends fl t k [] S) as X. eapply ends_gives. eapply ends_same; [|exact X].
  unfold merge. unfold list_of_items. rewrite items_extend. unfold items. now rewrite V.
Qed.
Lemma refill_ends : forall (q : res heap) (m : res rlist) (s : heap) h O, state s h O -> gives q m ->
  exists O', ends (let_run s q (fun t => seq_run (clear s, Ok tt) (fun s => let_run s (g_iter t) (fun l => call (extend l) s))))
    (i <- m ;; Ok (g_extend (items i) [])) (match m with Ok g => items g | Err _ => items (values h) end) O' /\
    (forall x, m = Err x -> let_run s q (fun t => seq_run (clear s, Ok tt) (fun s => let_run s (g_iter t) (fun l => call (extend l) s))) = (s, Err x)).
Proof.
  intros q m s h O H G. destruct m as [g|ex]; cbn [gives bind] in *.
  2:{ rewrite G. exists O. split; [|now intros x E; injection E as <-]. exists h. split; [auto|]. split; [auto|]. split; [auto|discriminate]. }
  destruct G as (t & k & -> & S & V). cbn [let_run seq_run]. destruct (read_state t k [] S) as (-> & _). cbn [let_run].
  destruct (clear_state s h O H) as (O' & S'). destruct (extend_values (concat (values k)) (clear s) [] O' S') as (u & h' & E & S2 & V2).
  unfold call. rewrite E. exists O'. split; [|discriminate]. exists h'. cbn [fst snd]. split; [auto|]. split; [auto|]. rewrite V in V2. split.
  - rewrite V2, items_extend. reflexivity.
  - intros g' E'. injection E' as <-. exact V2.
Qed.

(** ** Difference *)
Lemma put_before_state : forall l (s : heap) h O l1 a x l2, state s h O -> concat h = l1 ++ (a, x) :: l2 ->
  exists b s' h' P, n_put_before l a s = Ok (b, s') /\ state s' h' O /\ concat h' = l1 ++ P ++ (a, x) :: l2 /\ map snd P = rev l /\
    Some b = entry (map fst P) (Some a).
Proof.
  induction l as [|y l IH]; intros s h O l1 a x l2 H E; cbn [n_put_before].
  - exists a, s, h, []. auto.
  - destruct (flat_insert s h O l1 a x l2 y H E) as (u & h1 & Eu & S1 & C1). rewrite Eu. cbn [bind].
    rewrite (flat_prev u h1 O l1 (fresh s) y a x l2 S1 C1). cbn [deref bind].
    destruct (IH u h1 O l1 (fresh s) y _ S1 C1) as (b & s' & h' & P & E' & S' & C' & V' & B'). exists b, s', h', (P ++ [(fresh s, y)]).
    split; auto. split; auto. split; [rewrite C', <- app_assoc; reflexivity|]. split; [rewrite map_app, V'; reflexivity|].
    rewrite B', map_app. destruct P; reflexivity.
Qed.
Lemma diff_inner_state : forall fl others (s : heap) h O l1 a x l2, state s h O -> concat h = l1 ++ (a, x) :: l2 ->
  match diff_inner e fl x others with
  | Ok p => exists b s' h' M, n_diff_inner e fl others a s = (s', Ok b) /\ state s' h' O /\ concat h' = l1 ++ (b, fst p) :: M ++ l2 /\ map snd M = snd p
  | Err ex => exists s' h' M, n_diff_inner e fl others a s = (s', Err ex) /\ state s' h' O /\ concat h' = l1 ++ M ++ l2 /\ map snd M = pieces_left e fl x others
  end.
Proof.
  intros fl. induction others as [|b bs IH]; intros s h O l1 a x l2 H E; cbn [diff_inner n_diff_inner pieces_left].
  - exists a, s, h, []. auto.
  - rewrite (flat_value s h O _ _ _ _ H E). cbn [bind]. destruct (difference e x b fl) as [ds|ex]; cbn [bind].
    2:{ exists s, h, [(a, x)]. auto. }
    destruct ds as [|d ds].
    { specialize (IH s h O l1 a x l2 H E). destruct (diff_inner e fl x bs); auto. }
    destruct (put_before_state (rev (d :: ds)) s h O l1 a x l2 H E) as (c & u & h1 & P & Eu & S1 & C1 & V1 & B1). rewrite Eu. cbn [bind fst snd].
    rewrite rev_involutive in V1. destruct P as [|(c' & d') P]; [discriminate|]. cbn [map fst snd entry] in *. injection B1 as ->. injection V1 as -> V1.
    assert (C1' : concat h1 = (l1 ++ (c', d) :: P) ++ (a, x) :: l2) by (rewrite C1, <- app_assoc; reflexivity).
    destruct (flat_pop u h1 O _ _ _ _ S1 C1') as (w & h2 & Ew & S2 & C2). rewrite Ew. cbn [bind fst snd].
    rewrite <- app_assoc in C2. specialize (IH w h2 O l1 c' d (P ++ l2) S2 C2).
    destruct (diff_inner e fl d bs) as [p|ex]; cbn [bind fst snd].
    + destruct IH as (b' & s' & h' & M & E' & S' & C' & V'). exists b', s', h', (M ++ P). split; auto. split; auto. split; [rewrite C', <- !app_assoc; reflexivity|].
      now rewrite map_app, V', V1.
    + destruct IH as (s' & h' & M & E' & S' & C' & V'). exists s', h', (M ++ P). split; auto. split; auto. split; [rewrite C', <- !app_assoc; reflexivity|].
      now rewrite map_app, V', V1.
Qed.
Lemma diff_loop_state : forall fl others n (s : heap) h O l1 l2, state s h O -> concat h = l1 ++ l2 ->
  exists s' h' L, n_diff_loop e fl others n (entry (map fst l2) None) s = (s', unit_of (diff_loop e fl others n (map snd l2))) /\ state s' h' O /\
    concat h' = l1 ++ L /\ map snd L = diff_left e fl others n (map snd l2).
Proof.
  intros fl others. induction n as [|n IH]; intros s h O l1 l2 H E; destruct l2 as [|(a & x) l2]; cbn [map fst snd entry n_diff_loop diff_loop diff_left].
  - exists s, h, []. auto.
  - exists s, h, ((a, x) :: l2). auto.
  - exists s, h, []. auto.
  - pose proof (diff_inner_state fl others s h O l1 a x l2 H E) as D. destruct (diff_inner e fl x others) as [p|ex]; cbn [bind].
    + destruct D as (b & u & h1 & M & E1 & S1 & C1 & V1). rewrite E1. rewrite (flat_next u h1 O _ _ _ _ S1 C1).
      assert (C1' : concat h1 = (l1 ++ [(b, fst p)]) ++ M ++ l2) by (rewrite <- app_assoc; exact C1).
      destruct (IH u h1 O _ _ S1 C1') as (s' & h' & L & E' & S' & C' & V'). rewrite (map_app snd), V1 in E', V'.
      exists s', h', ((b, fst p) :: L). rewrite E'. split.
      * now destruct (diff_loop e fl others n (snd p ++ map snd l2)).
      * split; auto. split; [rewrite C', <- app_assoc; reflexivity|]. cbn [map snd]. now rewrite V'.
    + destruct D as (u & h1 & M & E1 & S1 & C1 & V1). rewrite E1. exists u, h1, (M ++ l2). split; auto. split; auto. split; auto. now rewrite map_app, V1.
Qed.
Lemma diff_left_ok : forall fl others n l m, diff_loop e fl others n l = Ok m -> diff_left e fl others n l = m.
Proof.
  intros fl others. induction n as [|n IH]; intros [|x l] m E; cbn in *; try congruence. destruct (diff_inner e fl x others) as [p|]; [|discriminate]. cbn in E.
  destruct (diff_loop e fl others n (snd p ++ l)) as [k|] eqn:Ek; [|discriminate]. cbn in E. injection E as <-. f_equal. auto.
Qed.
Lemma difference_update_ends : forall n x fl (s : heap) h O, state s h O ->
  ends (n_difference_update e n x fl s) (difference_update e n (values h) x fl) (diff_rest e n x fl (items (values h))) O.
Proof.
  intros n x fl s h O H. unfold n_difference_update, difference_update, diff_rest, let_run. destruct (ref_ranges e x) as [ys|ex]; cbn [bind].
  2:{ exists h. split; [auto|]. split; [auto|]. split; [auto|discriminate]. }
  destruct (diff_loop_state fl ys n s h O [] (concat h) H eq_refl) as (s' & h' & L & E & S & C & V). rewrite (flat_first s h O H), E.
  unfold items in *. rewrite values_items in *. destruct (diff_loop e fl ys n (map snd (concat h))) as [ds|ex] eqn:Ed; cbn [unit_of seq_run bind].
  - rewrite (diff_left_ok _ _ _ _ _ Ed) in V. destruct (merge_ends None s' h' O S) as (k & S2 & R2 & I2 & V2). unfold items in *. cbn [app] in C. rewrite (values_items h'), C, V in I2.
    assert (Em : merge e None (values h') = merge e None (one_group ds)).
    { unfold merge, items. now rewrite concat_one_group, values_items, C, V. }
    rewrite Em in *. exists k. auto.
  - exists h'. cbn [fst snd]. split; [auto|]. split; [auto|]. rewrite values_items, C. split; [exact V|discriminate].
Qed.
Lemma difference_gives : forall n x fl (s : heap) h O, state s h O -> gives (n_difference e n x fl s) (l_difference e n (values h) x fl).
Proof.
  intros n x fl s h O H. destruct (copy_gives s h O H) as (t & k & E & S & V). unfold n_difference, l_difference. rewrite E. cbn [bind].
  rewrite (copy_same s h O H), <- V. eapply ends_gives. now apply difference_update_ends.
Qed.
Lemma sym_difference_gives : forall n x fl (s : heap) h O, state s h O -> gives (n_sym_difference e n x fl s) (l_sym_difference e n (values h) x fl).
Proof.
  intros n x fl s h O H. unfold n_sym_difference, l_sym_difference. destruct (ref_ranges e x) as [ys|ex]; cbn [bind]; [|reflexivity].
  assert (Er : ref_ranges e (BL [ys]) = ref_ranges e (BL (list_of_items ys))).
  { cbn [ref_ranges]. unfold list_of_items. rewrite items_extend. unfold items. cbn. now rewrite app_nil_r. }
  pose proof (union_gives (BL [ys]) fl s h O H) as U. pose proof (intersection_gives (BL [ys]) fl s h O H) as I.
  replace (l_union e (values h) (BL [ys]) fl) with (l_union e (values h) (BL (list_of_items ys)) fl) in U by (unfold l_union, union_update; now rewrite Er).
  replace (l_intersection e (values h) (BL [ys]) fl) with (l_intersection e (values h) (BL (list_of_items ys)) fl) in I by (unfold l_intersection; now rewrite Er).
  destruct (l_union e (values h) (BL (list_of_items ys)) fl) as [u|ex]; cbn [gives bind] in *; [|now rewrite U].
  destruct U as (t & k & -> & S & <-). cbn [bind].
  destruct (l_intersection e (values h) (BL (list_of_items ys)) fl) as [i|ex]; cbn [gives bind] in *; [|now rewrite I].
  destruct I as (t2 & k2 & -> & S2 & <-). cbn [bind]. destruct (read_state t2 k2 [] S2) as (_ & _ & -> & _). cbn [bind]. eapply difference_gives; eauto.
Qed.

(** ** Verse 0s *)
Lemma serials_set : forall (s : heap) h O l1 a x l2 y, state s h O -> concat h = l1 ++ (a, x) :: l2 ->
  exists h', state (set_val a y s) h' O /\ concat h' = l1 ++ (a, y) :: l2 /\ serials h' = serials h.
Proof.
  intros s h O l1 a x l2 y H E. assert (N : nth_error (concat h) (length l1) = Some (a, x)) by (rewrite E; apply nth_mid).
  exists (s_set (length l1) y h). split; [eapply set_state; eauto|]. unfold s_set. rewrite N. cbn [fst]. split.
  - rewrite replace_items; [|rewrite E, app_length; cbn; lia]. rewrite E. destruct (first_skip l1 (a, x) l2) as (-> & -> & _). reflexivity.
  - destruct (split_state s h O _ a x H N) as (h1 & p & q & h2 & Eh & El & _). rewrite Eh, <- El, replace_dec. unfold serials. rewrite !map_app. cbn [map]. rewrite !map_app. reflexivity.
Qed.
Lemma map_state : forall f l2 n (s : heap) h O l1, state s h O -> concat h = l1 ++ l2 -> (length l2 <= n)%nat ->
  exists s' h' L, n_map_from f n (entry (map fst l2) None) s = (s', unit_of (mapM f (map snd l2))) /\ state s' h' O /\
    concat h' = l1 ++ L /\ map snd L = map_left f (map snd l2) /\ serials h' = serials h.
Proof.
  intros f. induction l2 as [|(a & x) l2 IH]; intros n s h O l1 H E Hn; cbn [map fst snd entry mapM map_left].
  - exists s, h, []. split; [destruct n; reflexivity|]. auto.
  - destruct n as [|n]; [cbn in Hn; lia|]. cbn in Hn. cbn [n_map_from]. rewrite (flat_value s h O _ _ _ _ H E). cbn [bind]. destruct (f x) as [y|ex]; cbn [let_run bind].
    2:{ exists s, h, ((a, x) :: l2). auto. }
    destruct (serials_set s h O l1 a x l2 y H E) as (h1 & S1 & C1 & R1). rewrite (flat_next _ h1 O _ _ _ _ S1 C1).
    assert (C1' : concat h1 = (l1 ++ [(a, y)]) ++ l2) by (rewrite <- app_assoc; exact C1).
    destruct (IH n _ h1 O _ S1 C1' ltac:(lia)) as (s' & h' & L & E' & S' & C' & V' & R'). rewrite E'. exists s', h', ((a, y) :: L).
    split; [now destruct (mapM f (map snd l2))|]. split; auto. split; [rewrite C', <- app_assoc; reflexivity|]. cbn [map snd]. split; [now rewrite V'|]. congruence.
Qed.
Lemma map_left_ok : forall f l m, mapM f l = Ok m -> map_left f l = m.
Proof. intros f. induction l as [|x l IH]; intros m E; cbn in *; [congruence|]. destruct (f x); [|discriminate]. cbn in E. destruct (mapM f l); [|discriminate]. cbn in E. injection E as <-. f_equal. auto. Qed.
Lemma mapM_groups : forall (f : range -> res range) g, unit_of (mapM (mapM f) g) = unit_of (mapM f (concat g)) /\
  forall g', mapM (mapM f) g = Ok g' -> mapM f (concat g) = Ok (concat g') /\ map (@length _) g' = map (@length _) g.
Proof.
  intros f. assert (A : forall l m, mapM f (l ++ m) = (a <- mapM f l ;; b <- mapM f m ;; Ok (a ++ b))).
  { induction l as [|x l IH]; intros m; cbn; [now destruct (mapM f m)|]. destruct (f x); cbn; auto. rewrite IH. destruct (mapM f l); cbn; auto. destruct (mapM f m); reflexivity. }
  assert (Ln : forall l m, mapM f l = Ok m -> length m = length l).
  { induction l as [|x l IH]; intros m E; cbn in *; [injection E as <-; auto|]. destruct (f x); [|discriminate]. cbn in E. destruct (mapM f l); [|discriminate]. injection E as <-. cbn. f_equal. auto. }
  induction g as [|p g IH]; cbn [mapM concat].
  - cbn. split; auto. intros g' E. injection E as <-. auto.
  - rewrite A. destruct (mapM f p) as [p'|] eqn:Ep; cbn [bind]; [|split; [auto|discriminate]]. destruct IH as (IH1 & IH2).
    destruct (mapM (mapM f) g) as [k|]; cbn [bind unit_of] in *.
    + destruct (IH2 k eq_refl) as (-> & L2). cbn. split; auto. intros g' E. injection E as <-. cbn. split; auto. rewrite L2, (Ln _ _ Ep). reflexivity.
    + destruct (mapM f (concat g)); cbn in *; [discriminate|]. split; [congruence|discriminate].
Qed.
Lemma same_shape : forall {B} (g k : list (list B)), map (@length _) g = map (@length _) k -> concat g = concat k -> g = k.
Proof.
  intros B. induction g as [|p g IH]; intros [|q k] L C; cbn in *; try discriminate; auto. injection L as L1 L2.
  assert (p = q /\ concat g = concat k).
  { clear - L1 C. revert q L1 C. induction p as [|x p IHp]; intros [|y q] L1 C; cbn in *; try discriminate; auto. injection L1 as L1. injection C as -> C.
    destruct (IHp q L1 C) as (-> & ->). auto. }
  destruct H as (-> & H). f_equal. auto.
Qed.
Lemma map_ends : forall f (s : heap) h O, state s h O -> ends (n_map_from f (fresh s) (g_first s) s) (mapM (mapM f) (values h)) (map_left f (items (values h))) O.
Proof.
  intros f s h O H. destruct (map_state f (concat h) (fresh s) s h O [] H eq_refl (flat_len s h O H)) as (s' & h' & L & E & S & C & V & R).
  rewrite (flat_first s h O H), E. exists h'. cbn [fst snd]. destruct (mapM_groups f (values h)) as (M1 & M2). rewrite values_items in M1, M2. unfold items. rewrite !values_items, C.
  split; auto. split; auto. split; [exact V|]. intros g Eg. destruct (M2 g Eg) as (M3 & M4). apply same_shape.
  - rewrite M4. unfold values. rewrite !map_map. assert (Q : map (@length nat) (serials h') = map (@length nat) (serials h)) by congruence.
    unfold serials in Q. rewrite !map_map in Q. rewrite (map_ext _ _ (fun p => eq_trans (map_length snd p) (eq_sym (map_length fst p)))).
    rewrite Q. apply map_ext. intros p. now rewrite !map_length.
  - rewrite values_items, C. cbn [app]. rewrite V. now apply map_left_ok.
Qed.
End Node.
