(** * PGroup8: histories, reading, equality. *)
From Coq Require Import List ZArith Bool Arith Lia Permutation.
From Verif Require Import Base MSeq MGroup SpecGroup PSort PGroup PGroup2 PGroup3 PGroup4 PGroup5 PGroup6 PGroup7.
Import ListNotations.

Section Read.
Context {A : Type}.
Notation gl := (glist A).
Notation tagged := (list (list (nat * A))).
Notation op := (op A).

Lemma run_state : forall eqb leb os (s : gl) h O outs n h', state s h O -> s_run eqb leb os (fresh s) h = Some (outs, (n, h')) ->
  fst (h_run eqb leb os s) = outs /\
  exists O', state (snd (h_run eqb leb os s)) h' O' /\ fresh (snd (h_run eqb leb os s)) = n /\ (~ In OClear os -> O' = O).
Proof.
  intros eqb leb. induction os as [|o os IH]; intros s h O outs n h' H E.
  - cbn in *. inv E. split; auto. exists O. auto.
  - cbn [s_run h_run] in *. destruct (s_step eqb leb o (fresh s) h) as [q|] eqn:Eq; [|discriminate].
    pose proof (step_state eqb leb o s h O q H Eq) as Ag. destruct q as [(r & (n1 & h1))|e]; cbn [agrees] in Ag.
    + destruct Ag as (t & O1 & Et & S & Ef & Ho). rewrite Et. subst n1. destruct (s_run eqb leb os (fresh t) h1) as [(outs1 & (n2 & h2))|] eqn:Er; [|discriminate].
      cbn in E. inv E. destruct (IH t h1 O1 _ _ _ S Er) as (E1 & O' & S' & F' & Ho'). cbn [fst snd]. split; [congruence|]. exists O'. split; auto. split; auto.
      intros Hc. rewrite Ho', Ho; auto.
      * intros ->. apply Hc. now left.
      * intros Hc'. apply Hc. now right.
    + rewrite Ag. destruct (s_run eqb leb os (fresh s) h) as [(outs1 & (n2 & h2))|] eqn:Er; [|discriminate].
      cbn in E. inv E. destruct (IH s h O _ _ _ H Er) as (E1 & O' & S' & F' & Ho'). cbn [fst snd]. split; [congruence|]. exists O'. split; auto. split; auto.
      intros Hc. apply Ho'. intros Hc'. apply Hc. now right.
Qed.

(** ** Reading *)
Lemma item_value : forall (s : gl) h O k t x, state s h O -> nth_error (concat h) k = Some (t, x) -> value s t = Ok x.
Proof.
  intros s h O k t x H E. destruct (st_rep _ _ _ H) as (_ & _ & V). apply valued_tagged in V. rewrite Forall_forall in V.
  apply nth_error_In in E. specialize (V _ E). cbn [fst snd] in V. unfold value. now rewrite V.
Qed.
Lemma get_state : forall (s : gl) h O i, state s h O ->
  get_item i s = match spot (zlen (concat h)) i with
                 | None => Err IndexErr
                 | Some k => match nth_error (concat (values h)) k with Some x => Ok x | None => Err AttrErr end
                 end.
Proof.
  intros s h O i H. unfold get_item. rewrite (node_at_state s h O i H). destruct (spot (zlen (concat h)) i) as [k|]; auto. cbn [bind].
  rewrite values_items, nth_error_map. destruct (nth_error (concat h) k) as [(t & x)|] eqn:E; auto. cbn. now rewrite (item_value s h O k t x H E).
Qed.
Lemma read_state : forall (s : gl) h O, state s h O ->
  g_iter s = Ok (concat (values h)) /\ g_reversed s = Ok (rev (concat (values h))) /\ to_nested_lists s = Ok (values h) /\
  g_cnt s = zlen (concat (values h)) /\ group_count s = zlen (values h).
Proof.
  intros s h O H. pose proof (st_rep _ _ _ H) as R. split; [apply (iter_rep s _ _ R)|]. split; [apply (reversed_rep s _ _ R)|]. split; [apply (nested_rep s _ _ R)|].
  apply (rep_len s _ _ R).
Qed.
(** The view whose head is node [v]. *)
Lemma view_of_state : forall (s : gl) h1 t x p h2 O, state s (h1 ++ ((t, x) :: p) :: h2) O ->
  view_iter (Some t) s = Ok (map snd ((t, x) :: p)) /\ view_len (Some t) s = Ok (zlen ((t, x) :: p)) /\
  (forall j, view_get (Some t) j s = if (j <? 0)%Z then Err IndexErr else match nth_error (map snd ((t, x) :: p)) (Z.to_nat j) with Some y => Ok y | None => Err IndexErr end).
Proof.
  intros s h1 t x p h2 O H. pose proof (st_rep _ _ _ H) as R. pose proof (views_rep s _ _ R) as V.
  assert (E : view_iter (Some t) s = Ok (map snd ((t, x) :: p))).
  { unfold serials, values in V. rewrite !map_app in V. cbn [map] in V. rewrite heads_app in V.
    assert (El : length (heads (map (map fst) h1)) = length (map (map (@snd nat A)) h1)).
    { rewrite heads_length, !map_length; auto. pose proof (state_ne _ _ _ H) as F. apply Forall_app in F. destruct F as (F & _).
      rewrite Forall_map. rewrite Forall_forall in *. intros q Hq E. apply (F q Hq). destruct q; [auto|discriminate]. }
    cbn [fst] in V. rewrite heads_cons in V. apply Forall2_app_inv_l in V. destruct V as (g1 & g2 & V1 & V2 & Eg).
    assert (g1 = map (map snd) h1 /\ g2 = (snd (t, x) :: map snd p) :: map (map snd) h2).
    { apply Forall2_length in V1. rewrite El in V1. clear - V1 Eg. revert g1 V1 Eg. generalize (map (map (@snd nat A)) h1) as k1. generalize ((snd (t, x) :: map snd p) :: map (map snd) h2) as k2. intros k2.
      induction k1 as [|z k1 IH]; intros [|w g1] V1 Eg; try discriminate; auto. cbn in *. injection Eg as -> Eg. destruct (IH g1) as (-> & ->); auto. }
    destruct H0 as (_ & ->). inversion V2; subst. assumption. }
  split; auto. split.
  - unfold view_len. rewrite E. cbn [bind]. unfold zlen. now rewrite map_length.
  - intros j. unfold view_get. destruct (view_at_state s h1 t x p h2 O j H) as (E1 & E2). rewrite E1, E2. cbn [bind].
    destruct (j <? 0)%Z eqn:Ej; auto. cbn [orb]. rewrite nth_error_map. destruct (zlen ((t, x) :: p) <=? j)%Z eqn:El.
    + apply Z.leb_le in El. destruct (nth_error ((t, x) :: p) (Z.to_nat j)) eqn:En; auto. exfalso.
      assert (X : (Z.to_nat j < length ((t, x) :: p))%nat) by (apply nth_error_Some; congruence). unfold zlen in El. apply Z.ltb_ge in Ej. lia.
    + destruct (nth_error ((t, x) :: p) (Z.to_nat j)) as [(u & y)|] eqn:En; auto. cbn [bind option_map fst snd].
      apply (item_value s _ O (length (concat h1) + Z.to_nat j) u y H). rewrite concat_app. cbn [concat].
      rewrite nth_error_app2 by lia. replace (length (concat h1) + Z.to_nat j - length (concat h1))%nat with (Z.to_nat j) by lia.
      rewrite nth_error_app1; auto. apply nth_error_Some. congruence.
Qed.
Lemma head_split : forall v (h : tagged), Forall (fun p => p <> []) h -> In v (heads (serials h)) -> exists h1 x p h2, h = h1 ++ ((v, x) :: p) :: h2.
Proof.
  intros v h F. induction F as [|q h Hq F IH]; intros Hi; [contradiction|]. destruct q as [|(t & x) q]; [contradiction|]. cbn in Hi. destruct Hi as [<-|Hi].
  - exists [], x, q, h. reflexivity.
  - destruct (IH Hi) as (h1 & y & p & h2 & ->). exists (((t, x) :: q) :: h1), y, p, h2. reflexivity.
Qed.
Lemma split_head : forall (h1 : tagged) v x p h2, In v (heads (serials (h1 ++ ((v, x) :: p) :: h2))).
Proof. intros. unfold serials. rewrite map_app, heads_app, in_app_iff. right. cbn. auto. Qed.
(** A view is good or raises GroupViewError. *)
Lemma stale_state : forall (s : gl) h O v, state s h O -> O = [] -> ~ In v (heads (serials h)) -> check_view (Some v) s = Err GroupViewErr.
Proof.
  intros s h O v H -> Hv. unfold check_view. cbn [deref bind]. destruct (n_par s v) eqn:Ep; [|now rewrite andb_false_r].
  apply (st_par _ _ _ H) in Ep. destruct Ep as [Ep|[]]. destruct (st_rep _ _ _ H) as (L & G & _).
  destruct (n_head s v) eqn:Eh; auto. exfalso. apply Hv. apply (headed_iff (n_head s)); auto; [apply L|apply G|]. now rewrite serials_items.
Qed.

(** ** Searching *)
Lemma count_state : forall eqb x (s : gl) h O, state s h O -> count eqb x s = Ok (zlen (filter (fun y => eqb y x) (concat (values h)))).
Proof. intros eqb x s h O H. unfold count. destruct (read_state s h O H) as (-> & _). reflexivity. Qed.
Lemma mem_state : forall eqb x (s : gl) h O, state s h O -> mem eqb x s = Ok (existsb (fun y => eqb y x) (concat (values h))).
Proof. intros eqb x s h O H. unfold mem. destruct (read_state s h O H) as (-> & _). reflexivity. Qed.

Lemma index_from_state : forall eqb x lo (s : gl) h O m l1 l2, state s h O -> concat h = l1 ++ l2 -> (m <= length l2)%nat ->
  let lo' := Z.max lo (zlen l1) in let hi := (zlen l1 + Z.of_nat m)%Z in
  match index_from eqb x lo s m (zlen l1) (entry (map fst l2) None) with
  | Ok k => found eqb x lo' hi (concat (values h)) k
  | Err e => e = ValueErr /\ not_found eqb x lo' hi (concat (values h))
  end.
Proof.
  intros eqb x lo s h O. induction m as [|m IH]; intros l1 l2 H E Hm lo' hi.
  - cbn [index_from]. split; auto. intros j y H1 H2. unfold lo', hi in *. lia.
  - destruct l2 as [|(t & y) l2]; [cbn in Hm; lia|]. cbn [map entry fst index_from deref bind].
    assert (Ey : nth_error (concat h) (length l1) = Some (t, y)) by (rewrite E, nth_error_app2, Nat.sub_diag; auto).
    rewrite (item_value s h O _ t y H Ey). cbn [bind].
    assert (Ev : nth_error (concat (values h)) (length l1) = Some y) by (rewrite values_items, nth_error_map, Ey; reflexivity).
    destruct (eqb y x && (zlen l1 >=? lo)%Z) eqn:Eb.
    + apply andb_true_iff in Eb. destruct Eb as (Eb1 & Eb2). apply Z.geb_le in Eb2. unfold zlen in *. split; [lia|]. split; [unfold lo', hi; lia|]. split.
      * exists y. rewrite Nat2Z.id. auto.
      * intros j z H1 H2. unfold lo' in H2. lia.
    + assert (En : n_next s t = entry (map fst l2) None).
      { destruct (st_rep _ _ _ H) as (L & _). pose proof (k_next _ _ L) as F. rewrite serials_items, E, map_app in F. apply fw_app in F. destruct F as (_ & F & _). exact F. }
      rewrite En. specialize (IH (l1 ++ [(t, y)]) l2 H). rewrite <- app_assoc in IH. specialize (IH E). cbn [length] in Hm. specialize (IH ltac:(lia)). cbn zeta in IH.
      replace (zlen (l1 ++ [(t, y)])) with (zlen l1 + 1)%Z in IH by (unfold zlen; rewrite app_length; cbn; lia).
      assert (Hy : forall z, (0 <= zlen l1)%Z -> (lo' <= zlen l1)%Z -> nth_error (concat (values h)) (Z.to_nat (zlen l1)) = Some z -> eqb z x = false).
      { intros z H0 H1 H2. unfold zlen in H2. rewrite Nat2Z.id, Ev in H2. inv H2. apply andb_false_iff in Eb. destruct Eb as [Eb|Eb]; auto.
        rewrite Z.geb_leb in Eb. apply Z.leb_gt in Eb. unfold lo' in H1. lia. }
      unfold lo', hi in *. destruct (index_from eqb x lo s m (zlen l1 + 1) (entry (map fst l2) None)) as [k|e].
      * destruct IH as (I1 & I2 & I3 & I4). split; auto. split; [lia|]. split; auto. intros j z H1 H2 H3.
        destruct (Z.eq_dec j (zlen l1)) as [->|]; [apply Hy; auto; lia|]. apply (I4 j); auto. lia.
      * destruct IH as (-> & I4). split; auto. intros j z H1 H2 H3. destruct (Z.eq_dec j (zlen l1)) as [->|]; [apply Hy; auto; lia|]. apply (I4 j); auto. lia.
Qed.
Lemma index_state : forall eqb x lo hi (s : gl) h O, state s h O ->
  match window (zlen (concat (values h))) (match lo with Some i => i | None => 0%Z end) (match hi with Some i => i | None => zlen (concat (values h)) end) with
  | None => index eqb x lo hi s = Err IndexErr
  | Some (a, b) => match index eqb x lo hi s with
                   | Ok k => found eqb x a b (concat (values h)) k
                   | Err e => e = ValueErr /\ not_found eqb x a b (concat (values h))
                   end
  end.
Proof.
  intros eqb x lo hi s h O H. unfold index. set (l := match lo with Some i => i | None => 0%Z end).
  assert (Ezl : zlen (concat (values h)) = zlen (concat h)) by (rewrite values_items; unfold zlen; now rewrite map_length).
  destruct (state_cnt _ _ _ H) as (Ec & _). rewrite Ec, Ezl. set (u := match hi with Some i => i | None => zlen (concat h) end).
  change (match lo with None => 0%Z | Some i => i end) with l. change (match hi with None => zlen (concat h) | Some i => i end) with u. clearbody l u. clear lo hi.
  rewrite (conform_state s h O l H). set (n := zlen (concat h)) in *. assert (Hn : (0 <= n)%Z) by (unfold n, zlen; lia). unfold window.
  destruct (n <=? l)%Z eqn:El; [reflexivity|]. cbn [orb bind]. rewrite (conform_state s h O (u - 1) H). fold n.
  replace (n <? u)%Z with (n <=? u - 1)%Z by (destruct (Z.leb_spec n (u - 1)), (Z.ltb_spec n u); auto; lia).
  destruct (n <=? u - 1)%Z eqn:Eu; [reflexivity|]. cbn [bind]. apply Z.leb_gt in El, Eu.
  set (a := (if (l <? 0)%Z then l + n else l)%Z). set (b := (if (u <=? 0)%Z then u + n else u)%Z).
  assert (Eb : ((if (u - 1 <? 0)%Z then u - 1 + n else u - 1) + 1)%Z = b).
  { unfold b. destruct (Z.ltb_spec (u - 1) 0), (Z.leb_spec u 0); lia. }
  rewrite Eb. assert (Ha : (a < n)%Z \/ n = 0%Z) by (unfold a; destruct (Z.ltb_spec l 0); lia).
  assert (Ha' : (a <= n)%Z) by (unfold a; destruct (Z.ltb_spec l 0); lia).
  assert (Hb : (b <= n)%Z) by (unfold b; destruct (Z.leb_spec u 0); lia). clearbody a b.
  destruct (st_rep _ _ _ H) as (L & _). rewrite (k_first _ _ L), serials_items.
  assert (X : forall p q, (q <= n)%Z -> match index_from eqb x p s (Z.to_nat q) 0 (entry (map fst (concat h)) None) with
                   | Ok k => found eqb x p q (concat (values h)) k
                   | Err e => e = ValueErr /\ not_found eqb x p q (concat (values h))
                   end).
  { intros p q Hq. pose proof (index_from_state eqb x p s h O (Z.to_nat q) [] (concat h) H eq_refl) as I. specialize (I ltac:(unfold n, zlen in Hq; lia)). cbn zeta in I.
    change (zlen (@nil (nat * A))) with 0%Z in I. destruct (index_from eqb x p s (Z.to_nat q) 0 (entry (map fst (concat h)) None)).
    - destruct I as (I1 & I2 & I3 & I4). split; auto. split; [lia|]. split; auto. intros j z H1 H2. apply I4; auto. lia.
    - destruct I as (I1 & I4). split; auto. intros j z H1 H2. apply I4; auto. lia. }
  destruct (a >? b)%Z eqn:Eab.
  - apply Z.gtb_lt in Eab. rewrite Z.min_r, Z.max_l by lia. apply X. auto.
  - rewrite Z.gtb_ltb in Eab. apply Z.ltb_ge in Eab. rewrite Z.min_l, Z.max_r by lia. apply X. auto.
Qed.

(** ** Equality *)
Lemma zip_strict : forall eqb l m, @zip_equal A eqb true l m = true <-> Forall2 (fun x y => eqb x y = true) l m.
Proof.
  intros eqb. induction l as [|x l IH]; intros [|y m]; cbn; split; intros H; try discriminate; auto; try (now inversion H).
  - apply andb_true_iff in H. destruct H as (H1 & H2). constructor; auto. now apply IH.
  - inv H. apply andb_true_iff. split; auto. now apply IH.
Qed.
Lemma zip_loose : forall eqb l m, length l = length m -> (@zip_equal A eqb false l m = true <-> Forall2 (fun x y => eqb x y = true) l m).
Proof.
  intros eqb. induction l as [|x l IH]; intros [|y m] E; cbn; split; intros H; try discriminate; auto.
  - apply andb_true_iff in H. destruct H as (H1 & H2). constructor; auto. apply IH; auto.
  - inv H. apply andb_true_iff. split; auto. apply IH; auto.
Qed.
Lemma groups_equal_views : forall eqb (s t : gl) hs gs ks gt, Forall2 (fun h p => view_iter (Some h) s = Ok p) hs gs ->
  Forall2 (fun h p => view_iter (Some h) t = Ok p) ks gt -> length gs = length gt ->
  exists b, groups_equal eqb hs ks s t = Ok b /\ (b = true <-> Forall2 (Forall2 (fun x y => eqb x y = true)) gs gt).
Proof.
  intros eqb s t hs gs ks gt H. revert ks gt. induction H as [|h p hs gs Hp H IH]; intros ks gt K E.
  - destruct gt; [|discriminate]. exists true. split; auto. split; auto.
  - destruct K as [|k q ks gt Hk K]; [discriminate|]. cbn [groups_equal]. rewrite Hp. cbn [bind]. rewrite Hk. cbn [bind].
    destruct (zip_equal eqb true p q) eqn:Ez.
    + destruct (IH ks gt K) as (b & Eb & Hb); [cbn in E; lia|]. exists b. split; auto. rewrite Hb. split; intros X; [|now inversion X]. constructor; auto. now apply zip_strict.
    + exists false. split; auto. split; [discriminate|]. intros X. inv X. apply zip_strict in H3. congruence.
Qed.
Lemma equals_state : forall eqb (s t : gl) h O k P, state s h O -> state t k P ->
  (exists b, equals eqb true s t = Ok b /\ (b = true <-> Forall2 (Forall2 (fun x y => eqb x y = true)) (values h) (values k))) /\
  (exists b, equals eqb false s t = Ok b /\ (b = true <-> Forall2 (fun x y => eqb x y = true) (concat (values h)) (concat (values k)))).
Proof.
  intros eqb s t h O k P H K. destruct (read_state s h O H) as (I1 & _ & _ & C1 & G1). destruct (read_state t k P K) as (I2 & _ & _ & C2 & G2).
  unfold equals. rewrite C1, C2. unfold group_count in *. rewrite G1, G2. destruct (Z.eqb_spec (zlen (concat (values h))) (zlen (concat (values k)))) as [Ec|Ec]; cbn [negb].
  - split.
    + destruct (Z.eqb_spec (zlen (values h)) (zlen (values k))) as [Eg|Eg]; cbn [negb].
      * destruct (st_rep _ _ _ H) as (L1 & R1 & V1). destruct (st_rep _ _ _ K) as (L2 & R2 & V2).
        rewrite (group_heads_rep s _ L1 R1), (group_heads_rep t _ L2 R2). cbn [bind]. apply groups_equal_views.
        -- apply (views_rep s). split; auto.
        -- apply (views_rep t). split; auto.
        -- unfold zlen in Eg. lia.
      * exists false. split; auto. split; [discriminate|]. intros X. apply Forall2_length in X. exfalso. apply Eg. unfold zlen. lia.
    + rewrite I1, I2. cbn [bind]. eexists. split; [reflexivity|]. apply zip_loose. unfold zlen in Ec. lia.
  - assert (X : Forall2 (fun x y => eqb x y = true) (concat (values h)) (concat (values k)) -> False).
    { intros X. apply Forall2_length in X. apply Ec. unfold zlen. lia. }
    split; exists false; (split; [reflexivity|]); (split; [discriminate|]); intros Y; exfalso; apply X; auto.
    clear - Y. induction Y; cbn; auto. apply Forall2_app; auto.
Qed.
Lemma equals_plain_state : forall eqb (s : gl) h O m, state s h O ->
  (equals_plain eqb true s m = Ok false) /\
  (exists b, equals_plain eqb false s m = Ok b /\ (b = true <-> Forall2 (fun x y => eqb x y = true) (concat (values h)) m)).
Proof.
  intros eqb s h O m H. destruct (read_state s h O H) as (I1 & _ & _ & C1 & _). unfold equals_plain. rewrite C1.
  destruct (Z.eqb_spec (zlen (concat (values h))) (zlen m)) as [Ec|Ec]; cbn [negb]; split; auto.
  - rewrite I1. cbn [bind]. eexists. split; [reflexivity|]. apply zip_loose. unfold zlen in Ec. lia.
  - exists false. split; auto. split; [discriminate|]. intros X. apply Forall2_length in X. exfalso. apply Ec. unfold zlen. lia.
Qed.

(** ** Extending a list with itself *)
Lemma extend_self_from_diverges : forall n (s : gl) h O a, state s h O -> In a (map fst (concat h)) -> extend_self_from n (Some a) s = Err Diverge.
Proof.
  induction n as [|n IH]; intros s h O a H Ha; auto. cbn [extend_self_from].
  apply in_map_iff in Ha. destruct Ha as ((t & x) & Et & Hi). cbn in Et. subst t. destruct (In_nth_error _ _ Hi) as (k & Ek).
  rewrite (item_value s h O k a x H Ek). cbn [bind]. destruct (append_state s h O false x H) as (u & Eu & S & _). rewrite Eu. cbn [bind].
  apply in_split in Hi. destruct Hi as (l1 & l2 & El).
  destruct (st_rep _ _ _ S) as (L & _). pose proof (k_next _ _ L) as F. rewrite serials_items, append_items, El, <- app_assoc, map_app in F. apply fw_app in F.
  destruct F as (_ & F). cbn [map app fst] in F. destruct F as (F & _). rewrite map_app in F. cbn [map fst] in F.
  assert (Hx : exists b, In b (map fst l2 ++ [fresh s]) /\ entry (map fst l2 ++ [fresh s]) None = Some b).
  { destruct (map fst l2) as [|b m]; [exists (fresh s)|exists b]; cbn; auto. }
  destruct Hx as (b & Hb & Eb). rewrite F, Eb. apply (IH u (s_append false (fresh s, x) h) O); auto. rewrite append_items, El, <- app_assoc, map_app, in_app_iff. right. cbn [map app]. right. rewrite map_app. exact Hb.
Qed.
Lemma extend_self_diverges : forall n (s : gl) h O, state s h O -> h <> [] -> extend_self n s = Err Diverge.
Proof.
  intros n s h O H Hne. unfold extend_self. destruct (st_rep _ _ _ H) as (L & _). rewrite (k_first _ _ L), serials_items.
  destruct (concat h) as [|(t & x) l] eqn:E; [exfalso; apply Hne; now apply (state_nil _ _ _ H)|]. cbn [map entry fst].
  apply (extend_self_from_diverges n s h O); auto. rewrite E. now left.
Qed.

(** ** Construction *)
Lemma values_append : forall ng n x (h : tagged), values (s_append ng (n, x) h) = s_append ng x (values h).
Proof. intros. unfold values. symmetry. apply (append_map snd ng (n, x)). Qed.
Lemma values_group : forall n l (h : tagged), values (s_append_group (number n l) h) = s_append_group l (values h).
Proof.
  intros n l h. unfold values, number. destruct l as [|x l]; auto. cbn [length List.seq combine s_append_group]. rewrite map_app. cbn [map snd]. do 3 f_equal.
  generalize (S n). induction l as [|y l IH]; intros m; auto. cbn. f_equal. apply IH.
Qed.
Lemma add_all_state : forall l (s : gl) h O, state s h O -> exists t h', add_all l s = Ok t /\ state t h' O /\ values h' = s_init l (values h).
Proof.
  induction l as [|[x|p] l IH]; intros s h O H.
  - exists s, h. auto.
  - cbn [add_all s_init]. destruct (append_state s h O false x H) as (t & E & S & _). rewrite E. cbn [bind]. rewrite <- (values_append false (fresh s)). eauto.
  - cbn [add_all s_init]. destruct (append_group_state p s h O H) as (t & E & S & _). rewrite E. cbn [bind]. rewrite <- (values_group (fresh s)). eauto.
Qed.
Lemma init_state : forall l : list (@init_item A), exists t h, g_init l = Ok t /\ state t h [] /\ values h = s_init l [].
Proof. intros l. apply (add_all_state l (clear g_new) [] []). constructor; [apply rep_clear| |]; cbn; intuition discriminate. Qed.
Lemma init_groups : forall (g k : list (list A)), Forall (fun p => p <> []) g -> s_init (map GroupItem g) k = k ++ g.
Proof.
  intros g k F. revert k. induction F as [|p g Hp F IH]; intros k; cbn; [now rewrite app_nil_r|]. rewrite IH. destruct p; [contradiction|]. cbn. now rewrite <- app_assoc.
Qed.
Lemma init_items : forall (l : list A) x, s_init (map OneItem (x :: l)) [] = [x :: l].
Proof.
  intros l x. cbn. change [x] with ([x] ++ []). assert (X : forall (l p : list A), s_init (map OneItem l) [p] = [p ++ l]).
  { clear. induction l as [|y l IH]; intros p; cbn; [now rewrite app_nil_r|]. rewrite IH, <- app_assoc. reflexivity. }
  rewrite app_nil_r, X. reflexivity.
Qed.
End Read.
