(** * PGroup7: a step of a history. *)
From Coq Require Import List ZArith Bool Arith Lia Permutation.
From Verif Require Import Base MSeq MGroup SpecGroup PSort PGroup PGroup2 PGroup3 PGroup4 PGroup5 PGroup6.
Import ListNotations.

Section Step.
Context {A : Type}.
Notation gl := (glist A).
Notation tagged := (list (list (nat * A))).
Notation op := (op A).

Lemma conform_state : forall (s : gl) h O i, state s h O ->
  conform_index i s = if (zlen (concat h) <=? i)%Z then Err IndexErr else Ok (if (i <? 0)%Z then (i + zlen (concat h))%Z else i).
Proof.
  intros s h O i H. unfold conform_index. destruct (state_cnt _ _ _ H) as (-> & _). assert (0 <= zlen (concat h))%Z by (unfold zlen; lia).
  destruct (i <? 0)%Z eqn:E.
  - apply Z.ltb_lt in E. replace (zlen (concat h) <=? i)%Z with false by (symmetry; apply Z.leb_gt; lia).
    replace (i + zlen (concat h) >=? zlen (concat h))%Z with false by (symmetry; rewrite Z.geb_leb; apply Z.leb_gt; lia). reflexivity.
  - rewrite Z.geb_leb. reflexivity.
Qed.
Lemma node_at_state : forall (s : gl) h O i, state s h O ->
  node_at i s = match spot (zlen (concat h)) i with None => Err IndexErr | Some k => Ok (option_map fst (nth_error (concat h) k)) end.
Proof.
  intros s h O i H. unfold spot, node_at. rewrite (conform_state s h O i H). destruct (zlen (concat h) <=? i)%Z eqn:E; auto. apply Z.leb_gt in E. cbn [bind].
  set (i' := (if (i <? 0)%Z then i + zlen (concat h) else i)%Z).
  assert (Hi : Z.to_nat (if (i <? 0)%Z then Z.max 0 (i + zlen (concat h)) else i) = Z.to_nat i').
  { unfold i'. destruct (i <? 0)%Z; auto. lia. }
  rewrite Hi. assert (Hlt : (i' < zlen (concat h))%Z) by (unfold i'; destruct (i <? 0)%Z eqn:E'; [apply Z.ltb_lt in E'|]; lia).
  clearbody i'. clear Hi E i. destruct (st_rep _ _ _ H) as (L & _ & _). destruct (state_cnt _ _ _ H) as (Ec & _).
  destruct (Z_lt_le_dec i' 0) as [Hn|Hn].
  - replace (i' <=? g_cnt s / 2)%Z with true.
    2:{ symmetry. apply Z.leb_le. rewrite Ec. assert (0 <= zlen (concat h) / 2)%Z by (apply Z.div_pos; unfold zlen; lia). lia. }
    replace (Z.to_nat i') with 0%nat by lia. cbn [follow]. rewrite (k_first _ _ L), serials_items. destruct (concat h); reflexivity.
  - destruct (node_at_rep s _ i' L) as (a & E & Ea).
    { rewrite serials_items. unfold zlen in *. rewrite map_length. lia. }
    unfold node_at in E. rewrite (conform_state s h O i' H) in E.
    replace (zlen (concat h) <=? i')%Z with false in E by (symmetry; apply Z.leb_gt; lia).
    replace (i' <? 0)%Z with false in E by (symmetry; apply Z.ltb_ge; lia). cbn [bind] in E. rewrite E.
    rewrite serials_items, nth_error_map in Ea. now rewrite Ea.
Qed.
Lemma node_at_twice : forall (s : gl) h O i, state s h O ->
  (i <- conform_index i s ;; node_at i s) = match spot_twice (zlen (concat h)) i with None => Err IndexErr | Some k => Ok (option_map fst (nth_error (concat h) k)) end.
Proof.
  intros s h O i H. rewrite (conform_state s h O i H). unfold spot_twice. destruct (zlen (concat h) <=? i)%Z eqn:E; auto. apply Z.leb_gt in E. cbn [bind].
  rewrite (node_at_state s h O _ H). unfold spot. assert (Hz : (0 <= zlen (concat h))%Z) by (unfold zlen; lia). set (n := zlen (concat h)) in *.
  destruct (i <? 0)%Z eqn:E1.
  - apply Z.ltb_lt in E1. replace (n <=? i + n)%Z with false by (symmetry; apply Z.leb_gt; lia).
    destruct (i + n <? 0)%Z eqn:E2.
    + apply Z.ltb_lt in E2. replace (i <? - n)%Z with true by (symmetry; apply Z.ltb_lt; lia). reflexivity.
    + apply Z.ltb_ge in E2. replace (i <? - n)%Z with false by (symmetry; apply Z.ltb_ge; lia). reflexivity.
  - apply Z.ltb_ge in E1. replace (n <=? i)%Z with false by (symmetry; apply Z.leb_gt; lia).
    replace (i <? 0)%Z with false by (symmetry; apply Z.ltb_ge; lia). replace (i <? - n)%Z with false by (symmetry; apply Z.ltb_ge; lia). reflexivity.
Qed.
Lemma spot_in : forall n i k, (0 < n)%Z -> spot n i = Some k -> (Z.of_nat k < n)%Z.
Proof.
  intros n i k Hn. unfold spot. destruct (n <=? i)%Z eqn:E; [discriminate|]. apply Z.leb_gt in E. intros H. injection H as <-.
  destruct (i <? 0)%Z eqn:E1; [apply Z.ltb_lt in E1|apply Z.ltb_ge in E1]; lia.
Qed.
Lemma spot_twice_in : forall n i k, (0 < n)%Z -> spot_twice n i = Some k -> (Z.of_nat k < n)%Z.
Proof.
  intros n i k Hn. unfold spot_twice. destruct (n <=? i)%Z eqn:E; [discriminate|]. apply Z.leb_gt in E. intros H. injection H as <-.
  destruct (i <? - n)%Z eqn:E0; [apply Z.ltb_lt in E0; lia|]. apply Z.ltb_ge in E0.
  destruct (i <? 0)%Z eqn:E1; [apply Z.ltb_lt in E1|apply Z.ltb_ge in E1]; lia.
Qed.
Lemma nth_some : forall {B} (l : list B) k, l <> [] -> (Z.of_nat k < zlen l)%Z -> exists x, nth_error l k = Some x.
Proof. intros B l k Hl Hk. destruct (nth_error l k) eqn:E; eauto. apply nth_error_None in E. unfold zlen in Hk. lia. Qed.
Lemma zlen_pos : forall {B} (l : list B), l <> [] -> (0 < zlen l)%Z.
Proof. intros B [|x l] H; [contradiction|]. unfold zlen. cbn. lia. Qed.

Lemma remove_from_state : forall eqb x (s : gl) h O l1 l2 n, state s h O -> concat h = l1 ++ l2 -> (length l2 <= n)%nat ->
  remove_from eqb n x (entry (map fst l2) None) s =
  match first_place (fun y => eqb y x) (map snd l2) with
  | None => Err ValueErr
  | Some k => q <- pop_node (option_map fst (nth_error l2 k)) s ;; Ok (snd q)
  end.
Proof.
  intros eqb x s h O l1 l2. revert l1. induction l2 as [|(t, y) l2 IH]; intros l1 n H E Hn; [destruct n; reflexivity|].
  destruct n as [|n]; [cbn in Hn; lia|]. cbn [map entry remove_from fst snd first_place].
  destruct (st_rep _ _ _ H) as (L & _ & V). apply valued_tagged in V. rewrite E, Forall_app in V. destruct V as (_ & V). inv V. cbn [fst snd] in *.
  unfold value. rewrite H2. cbn [bind]. destruct (eqb y x); [reflexivity|].
  assert (En : n_next s t = entry (map fst l2) None).
  { pose proof (k_next _ _ L) as F. rewrite serials_items, E, map_app in F. apply fw_app in F. destruct F as (_ & F & _). exact F. }
  rewrite En, (IH (l1 ++ [(t, y)]) n); auto; [|rewrite E, <- app_assoc; reflexivity|cbn in Hn; lia].
  destruct (first_place (fun y0 => eqb y0 x) (map snd l2)); reflexivity.
Qed.
Lemma first_place_in : forall (f : A -> bool) l k, first_place f l = Some k -> (k < length l)%nat.
Proof.
  intros f. induction l as [|x l IH]; intros k H; [discriminate|]. cbn in *. destruct (f x); [inv H; lia|].
  destruct (first_place f l) as [j|]; [|discriminate]. inv H. specialize (IH j eq_refl). lia.
Qed.

Lemma view_follow_rep : forall j (s : gl) p a rest, Forall (fun b => n_head s b = false) p -> fw (n_next s) (a :: p ++ rest) None ->
  (forall b, entry rest None = Some b -> n_head s b = true) ->
  view_follow j a s = match nth_error (a :: p) j with Some b => Ok b | None => Err IndexErr end.
Proof.
  induction j as [|j IH]; intros s p a rest Hp F Hr; auto. cbn [view_follow nth_error]. destruct F as (Ea & F). rewrite Ea.
  destruct p as [|b p].
  - cbn [app]. destruct (entry rest None) as [b|] eqn:E; [rewrite (Hr b) by auto|]; destruct j; reflexivity.
  - cbn [app entry]. inv Hp. rewrite H1. apply (IH s p b rest); auto.
Qed.
(** Item [j] of the group with the contents [p]. *)
Lemma view_at_state : forall (s : gl) h1 t x p h2 O j, state s (h1 ++ ((t, x) :: p) :: h2) O ->
  check_view (Some t) s = Ok t /\
  view_node_at (Some t) j s = if (j <? 0)%Z || (zlen ((t, x) :: p) <=? j)%Z then Err IndexErr
                              else match nth_error ((t, x) :: p) (Z.to_nat j) with Some b => Ok (fst b) | None => Err IndexErr end.
Proof.
  intros s h1 t x p h2 O j H. destruct (st_rep _ _ _ H) as (L & G & _).
  assert (Es : serials (h1 ++ ((t, x) :: p) :: h2) = serials h1 ++ (t :: map fst p) :: serials h2) by (unfold serials; rewrite map_app; reflexivity).
  rewrite Es in *. pose proof (k_head _ _ G) as HH. apply Forall_app in HH. destruct HH as (_ & HH). inversion HH as [|? ? Ehp H2]; subst. destruct Ehp as (Eh & Hp).
  pose proof (k_par _ _ L) as P. rewrite concat_app in P. apply Forall_app in P. destruct P as (_ & P). cbn [concat app] in P. inversion P as [|? ? Ep _]; subst.
  assert (Ec : check_view (Some t) s = Ok t) by (unfold check_view; cbn [deref bind]; rewrite Eh, Ep; reflexivity).
  split; auto. unfold view_node_at. destruct (j <? 0)%Z eqn:Ej; auto. apply Z.ltb_ge in Ej. rewrite Ec. cbn [bind orb].
  pose proof (k_next _ _ L) as F. rewrite concat_app in F. apply fw_app in F. destruct F as (_ & F). cbn [concat app] in F.
  rewrite (view_follow_rep (Z.to_nat j) s (map fst p) t (concat (serials h2))); auto.
  - change (t :: map fst p) with (map fst ((t, x) :: p)). rewrite nth_error_map. destruct (zlen ((t, x) :: p) <=? j)%Z eqn:El.
    + apply Z.leb_le in El. destruct (nth_error ((t, x) :: p) (Z.to_nat j)) eqn:E; auto. exfalso.
      assert (Hx : (Z.to_nat j < length ((t, x) :: p))%nat) by (apply nth_error_Some; congruence). unfold zlen in El. lia.
    + destruct (nth_error ((t, x) :: p) (Z.to_nat j)); reflexivity.
  - intros b Hb. pose proof (k_ne _ _ G) as Hne. apply Forall_app in Hne. destruct Hne as (_ & Hne). inversion Hne as [|? ? _ Hne2]; subst.
    destruct (serials h2) as [|m n2]; [discriminate|]. inv Hne2. destruct m; [contradiction|]. cbn in Hb. injection Hb as <-. inversion H2 as [|? ? X _]; subst. apply X.
Qed.
Lemma group_at_state : forall (s : gl) h O i, state s h O ->
  group_at i s = match spot (zlen h) i with
                 | None => Err IndexErr
                 | Some k => Ok (match nth_error h k with Some (b :: _) => Some (fst b) | _ => None end)
                 end.
Proof.
  intros s h O i H. unfold group_at, spot. destruct (state_cnt _ _ _ H) as (_ & ->). assert (Hz : (0 <= zlen h)%Z) by (unfold zlen; lia).
  set (i' := (if (i <? 0)%Z then i + zlen h else i)%Z).
  assert (Hc : (i' >=? zlen h)%Z = (zlen h <=? i)%Z).
  { unfold i'. rewrite Z.geb_leb. destruct (i <? 0)%Z eqn:E; auto. apply Z.ltb_lt in E. transitivity false; [|symmetry]; apply Z.leb_gt; lia. }
  rewrite Hc. destruct (zlen h <=? i)%Z eqn:E; auto. apply Z.leb_gt in E.
  assert (Hi : Z.to_nat (if (i <? 0)%Z then Z.max 0 (i + zlen h) else i) = Z.to_nat i').
  { unfold i'. destruct (i <? 0)%Z; auto. lia. }
  rewrite Hi. clear Hi Hc. pose proof (state_ne _ _ _ H) as Hne. destruct (st_rep _ _ _ H) as (L & G & _).
  assert (Hh : heads (serials h) = map (fun p => match p with b :: _ => fst b | [] => 0%nat end) h).
  { clear - Hne. induction Hne as [|p h Hp Hne IH]; auto. destruct p as [|b p]; [contradiction|]. cbn. f_equal. exact IH. }
  assert (Hlt : (i' < zlen h)%Z) by (unfold i'; destruct (i <? 0)%Z eqn:E'; [apply Z.ltb_lt in E'|]; lia). clearbody i'.
  destruct h as [|p h].
  - unfold zlen in Hlt. cbn in Hlt. replace (Z.to_nat i') with 0%nat by lia. cbn [follow nth_error]. rewrite (k_fhead _ _ G). reflexivity.
  - rewrite (k_fhead _ _ G), (follow_fw _ _ None); [|apply G|rewrite Hh, map_length; unfold zlen in Hlt; cbn [length] in *; lia].
    rewrite Hh, nth_error_map. destruct (nth_error (p :: h) (Z.to_nat i')) as [q|] eqn:Eq; auto. cbn [option_map].
    rewrite Forall_forall in Hne. apply nth_error_In in Eq. specialize (Hne q Eq). destruct q; [contradiction|reflexivity].
Qed.

(** A view operation finds the item that the specification names. *)
Lemma view_state : forall (s : gl) h O i j, state s h O ->
  (v <- group_at i s ;; _ <- check_view v s ;; view_node_at v j s) =
  (k <- s_view i j h ;; Ok (match nth_error (concat h) k with Some b => fst b | None => 0%nat end)) /\
  (forall k, s_view i j h = Ok k -> (k < length (concat h))%nat).
Proof.
  intros s h O i j H. rewrite (group_at_state s h O i H). unfold s_view. destruct (spot (zlen h) i) as [k|] eqn:Ek; [|split; [reflexivity|discriminate]].
  cbn [bind]. destruct (nth_error h k) as [p|] eqn:Ep; [|split; [reflexivity|discriminate]].
  destruct (nth_error_split _ _ Ep) as (h1 & h2 & Eh & Hl). pose proof (state_ne _ _ _ H) as Hne. rewrite Eh in Hne. apply Forall_app in Hne. destruct Hne as (_ & Hne).
  inversion Hne as [|? ? Hp _]; subst. destruct p as [|(t, x) p]; [contradiction|]. cbn [fst].
  destruct (view_at_state s h1 t x p h2 O j H) as (E1 & E2). rewrite E1, E2. cbn [bind].
  destruct ((j <? 0)%Z || (zlen ((t, x) :: p) <=? j)%Z) eqn:Ej; [split; [reflexivity|discriminate]|].
  apply orb_false_iff in Ej. destruct Ej as (Ej1 & Ej2). apply Z.ltb_ge in Ej1. apply Z.leb_gt in Ej2.
  destruct (fs_app h1 (((t, x) :: p) :: h2)) as (Ef & _). rewrite Ef. rewrite concat_app. cbn [concat].
  unfold zlen in Ej2. assert (Hj : (Z.to_nat j < length ((t, x) :: p))%nat) by lia. cbn [bind]. split.
  - rewrite nth_error_app2 by lia. replace (length (concat h1) + Z.to_nat j - length (concat h1))%nat with (Z.to_nat j) by lia.
    rewrite nth_error_app1 by auto. destruct (nth_error ((t, x) :: p) (Z.to_nat j)) eqn:E; auto. apply nth_error_None in E. lia.
  - intros k E. inv E. rewrite !app_length. lia.
Qed.

(** What the heap model and the specification have to agree on. *)
Definition agrees (o : op) (O : list nat) (r : res (option A * gl)) (q : outcome) : Prop :=
  match q with
  | Err e => r = Err e
  | Ok (x, (n, h')) => exists t O', r = Ok (x, t) /\ state t h' O' /\ fresh t = n /\ (o <> OClear -> O' = O)
  end.
Lemma step_state : forall eqb leb o (s : gl) h O q, state s h O -> s_step eqb leb o (fresh s) h = Some q -> agrees o O (h_step eqb leb o s) q.
Proof.
  intros eqb leb o s h O q H E. pose proof (state_cnt _ _ _ H) as (Ec & Eg). pose proof (state_nil _ _ _ H) as Hnil.
  destruct o; cbn [s_step h_step] in *.
  - inv E. destruct (append_state s h O new_group x H) as (t & Et & S & (M & _)). rewrite Et. cbn [bind agrees]. eauto 10.
  - inv E. destruct (prepend_state s h O new_group x H) as (t & Et & S & (M & _)). rewrite Et. cbn [bind agrees]. eauto 10.
  - inv E. destruct (extend_state l s h O H) as (t & Et & S & M). rewrite Et. cbn [bind agrees]. eauto 10.
  - inv E. destruct (append_group_state l s h O H) as (t & Et & S & M). rewrite Et. cbn [bind agrees]. eauto 10.
  - inv E. unfold insert. destruct (i =? 0)%Z.
    { destruct (prepend_state s h O false x H) as (t & Et & S & (M & _)). rewrite Et. cbn [bind agrees]. eauto 10. }
    rewrite Ec. destruct (i =? zlen (concat h))%Z.
    { destruct (append_state s h O false x H) as (t & Et & S & (M & _)). rewrite Et. cbn [bind agrees]. eauto 10. }
    rewrite (node_at_state s h O i H). destruct (spot (zlen (concat h)) i) as [k|] eqn:Ek; [|reflexivity]. cbn [bind].
    destruct h as [|p h].
    { cbn [concat]. destruct k; reflexivity. }
    assert (Hc : concat (p :: h) <> []) by (intros X; apply Hnil in X; discriminate).
    destruct (nth_some (concat (p :: h)) k Hc (spot_in _ _ _ (zlen_pos _ Hc) Ek)) as ((t & y) & Ey). rewrite Ey. cbn [option_map fst].
    destruct (insert_state s _ O k t y x H Ey) as (u & Eu & S & (M & _)). rewrite Eu. cbn [bind agrees]. eauto 10.
  - inv E. unfold pop, s_pop. set (j := match i with Some i => i | None => (zlen (concat h) - 1)%Z end).
    assert (Ej : match i with None => (g_cnt s - 1)%Z | Some i => i end = j) by (unfold j; rewrite Ec; reflexivity). rewrite Ej. clearbody j. clear Ej.
    pose proof (node_at_twice s h O j H) as X. destruct (conform_index j s) as [j'|e] eqn:Ej; cbn [bind] in *.
    + rewrite X. destruct (spot_twice (zlen (concat h)) j) as [k|]; [|reflexivity]. cbn [bind].
      destruct (nth_error (concat h) k) as [(t & y)|] eqn:Ey; [|reflexivity]. cbn [option_map fst snd].
      destruct (pop_state s h O k t y H Ey) as (u & Eu & S & (M & _)). rewrite Eu. cbn [bind fst snd agrees]. eauto 10.
    + destruct (spot_twice (zlen (concat h)) j); [discriminate|]. cbn. congruence.
  - inv E. unfold del_item, pop, s_pop. pose proof (node_at_twice s h O i H) as X. destruct (conform_index i s) as [j'|e] eqn:Ej; cbn [bind] in *.
    + rewrite X. destruct (spot_twice (zlen (concat h)) i) as [k|]; [|reflexivity]. cbn [bind].
      destruct (nth_error (concat h) k) as [(t & y)|] eqn:Ey; [|reflexivity]. cbn [option_map fst snd].
      destruct (pop_state s h O k t y H Ey) as (u & Eu & S & (M & _)). rewrite Eu. cbn [bind fst snd agrees]. eauto 10.
    + destruct (spot_twice (zlen (concat h)) i); [discriminate|]. cbn. congruence.
  - inv E. unfold set_item. rewrite (node_at_state s h O i H). destruct (spot (zlen (concat h)) i) as [k|] eqn:Ek; [|reflexivity]. cbn [bind].
    destruct h as [|p h].
    { cbn [concat]. destruct k; reflexivity. }
    assert (Hc : concat (p :: h) <> []) by (intros X; apply Hnil in X; discriminate).
    destruct (nth_some (concat (p :: h)) k Hc (spot_in _ _ _ (zlen_pos _ Hc) Ek)) as ((t & y) & Ey). rewrite Ey. cbn [option_map fst deref bind agrees].
    exists (set_val t x s), O. split; auto. split; [eapply set_state; eauto|]. auto.
  - inv E. unfold remove. destruct (st_rep _ _ _ H) as (L & _ & _). rewrite (k_first _ _ L), serials_items.
    rewrite (remove_from_state eqb x s h O [] (concat h) (fresh s) H eq_refl).
    2:{ pose proof (linked_len _ _ L) as X. rewrite serials_items, map_length in X. exact X. }
    rewrite values_items. destruct (first_place (fun y => eqb y x) (map snd (concat h))) as [k|] eqn:Ek; [|reflexivity].
    apply first_place_in in Ek. rewrite map_length in Ek. destruct (nth_error (concat h) k) as [(t & y)|] eqn:Ey; [|apply nth_error_None in Ey; lia].
    cbn [option_map fst]. destruct (pop_state s h O k t y H Ey) as (u & Eu & S & (M & _)). rewrite Eu. cbn [bind fst snd agrees]. eauto 10.
  - inv E. cbn [agrees]. exists (clear s), (map fst (concat h) ++ O). split; auto. split; [|split; [auto|intros X; now contradiction X]]. constructor.
    + apply rep_clear.
    + intros a. cbn [concat map]. rewrite in_app_iff. change (n_par (clear s) a) with (n_par s a). rewrite (st_par _ _ _ H). cbn. tauto.
    + intros a Ha. cbn. split; [|auto]. apply (state_lt s h O); auto. apply (st_par _ _ _ H). apply in_app_iff in Ha. exact Ha.
  - inv E. destruct (clear_groups_rep s _ _ (st_rep _ _ _ H)) as (t & Et & R & M). rewrite Et. cbn [bind agrees]. exists t, O. split; auto. split; [|destruct M; auto].
    apply (state_kept s t h); auto.
    + unfold items in R. rewrite serials_items, values_items, !one_group_map in R. exact R.
    + intros a. now rewrite concat_one_group.
  - unfold insert_group_at. pose proof (node_at_twice s h O i H) as X. destruct (spot_twice (zlen (concat h)) i) as [k|] eqn:Ek.
    + destruct (later_head k h) eqn:El; [discriminate|]. inv E. destruct (conform_index i s) as [j|]; [|discriminate]. cbn [bind] in *. rewrite X. cbn [bind].
      destruct h as [|p h].
      { cbn [concat nth_error]. replace (nth_error (@nil (nat * A)) k) with (@None (nat * A)) by (destruct k; auto). cbn [option_map].
        unfold new_group_at_node. destruct (st_rep _ _ _ H) as (L & _ & _). rewrite (k_first _ _ L). cbn [serials map concat entry oeqb bind agrees s_cut]. eauto 10. }
      assert (Hc : concat (p :: h) <> []) by (intros Y; apply Hnil in Y; discriminate).
      destruct (nth_some (concat (p :: h)) k Hc (spot_twice_in _ _ _ (zlen_pos _ Hc) Ek)) as ((t & y) & Ey). rewrite Ey. cbn [option_map fst].
      destruct (cut_state s _ O k t y H Ey El) as (u & Eu & S & (M & _)). rewrite Eu. cbn [bind agrees]. eauto 10.
    + inv E. destruct (conform_index i s) as [j|]; cbn [bind] in *; [rewrite X; reflexivity|]. cbn. congruence.
  - inv E. destruct (reverse_rep s _ _ (st_rep _ _ _ H)) as (t & Et & R & M). rewrite Et. cbn [bind agrees]. exists t, O. split; auto. split; [|destruct M; auto].
    apply (state_kept s t h); auto.
    + unfold items in R. rewrite serials_items, values_items, <- !map_rev, !one_group_map in R. exact R.
    + intros a. rewrite concat_one_group, map_rev, <- in_rev. reflexivity.
  - inv E. destruct (sort_rep leb s _ _ (st_rep _ _ _ H)) as (t & Et & R & M). rewrite Et. cbn [bind agrees]. exists t, O. split; auto. split; [|destruct M; auto].
    destruct (st_rep _ _ _ H) as (_ & _ & V). apply valued_tagged in V.
    assert (Es : sort_items (nleb leb (n_val s)) (map fst (concat h)) = map fst (sort_items (fun a b => leb (snd a) (snd b)) (concat h))).
    { unfold sort_items. rewrite map_length. apply F2_map.
      assert (F2 : Forall2 (fun c b => c = fst b /\ n_val s c = Some (snd b)) (map fst (concat h)) (concat h)).
      { clear - V. induction V; constructor; auto. }
      pose proof (sort_par (nleb leb (n_val s)) (fun a b => leb (snd a) (snd b)) (fun c b => c = fst b /\ n_val s c = Some (snd b))) as SP.
      specialize (SP (fun a b x y Ha Hb => ltac:(unfold nleb; destruct Ha as (_ & ->), Hb as (_ & ->); reflexivity)) (length (concat h)) _ _ F2).
      clear - SP. induction SP; constructor; auto. tauto. }
    apply (state_kept s t h); auto.
    + unfold items in R. rewrite serials_items, values_items, Es, sort_map, !one_group_map in R. exact R.
    + intros a. rewrite concat_one_group. unfold sort_items. generalize (length (concat h)) as n. intros n.
      assert (P : forall n (l : list (nat * A)), Permutation (merge_sort (fun a b => leb (snd a) (snd b)) n l) l).
      { clear. induction n as [|n IH]; intros z; auto. destruct z as [|c [|d z]]; auto. cbn [merge_sort]. rewrite merge_perm, !IH, firstn_skipn. reflexivity. }
      rewrite P. reflexivity.
  - inv E. destruct (view_state s h O i j H) as (X & Y). unfold view_set. destruct (group_at i s) as [v|e]; cbn [bind] in *.
    + destruct (check_view v s) as [c|e]; cbn [bind] in *.
      * rewrite X. destruct (s_view i j h) as [k|e]; cbn [bind]; [|reflexivity]. specialize (Y k eq_refl).
        destruct (nth_error (concat h) k) as [(t & y)|] eqn:Ey; [|apply nth_error_None in Ey; lia]. cbn [fst bind agrees].
        exists (set_val t x s), O. split; auto. split; [eapply set_state; eauto|]. auto.
      * destruct (s_view i j h) as [k|e']; cbn [bind] in *; [discriminate|]. cbn. congruence.
    + destruct (s_view i j h) as [k|e']; cbn [bind] in *; [discriminate|]. cbn. congruence.
  - inv E. destruct (view_state s h O i j H) as (X & Y). unfold view_del. destruct (group_at i s) as [v|e]; cbn [bind] in *.
    + destruct (check_view v s) as [c|e]; cbn [bind] in *.
      * rewrite X. destruct (s_view i j h) as [k|e]; cbn [bind]; [|reflexivity]. specialize (Y k eq_refl).
        destruct (nth_error (concat h) k) as [(t & y)|] eqn:Ey; [|apply nth_error_None in Ey; lia]. cbn [fst].
        destruct (pop_state s h O k t y H Ey) as (u & Eu & S & (M & _)). rewrite Eu. cbn [bind fst snd agrees]. eauto 10.
      * destruct (s_view i j h) as [k|e']; cbn [bind] in *; [discriminate|]. cbn. congruence.
    + destruct (s_view i j h) as [k|e']; cbn [bind] in *; [discriminate|]. cbn. congruence.
Qed.
End Step.
