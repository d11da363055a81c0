(** * PropIter: theorems on iterators of a list that is changed while they are in use (C81-C83). *)
From Coq Require Import List ZArith Bool Arith Lia.
From Verif Require Import Base MSeq MGroup SpecGroup PGroup PGroup2 PGroup6 PGroup7 PGroup8 PropGroup MIter SpecIter PIter.
Import ListNotations.

Lemma new_knows : forall A, knows (@g_new A) (fun _ => None).
Proof. intros A. split; [intros a Ha; cbn in Ha; lia|auto]. Qed.
Lemma holds_knows : forall A (eqb leb : A -> A -> bool) os (s : glist A) h, holds eqb leb os s h -> knows s (remembered eqb leb os).
Proof.
  intros A eqb leb os s h (outs & E & R). pose proof (run_knows eqb leb os g_new [] [] outs (fresh s) h _ (new_state A) E (new_knows A)) as K. rewrite R in K. cbn [snd] in K.
  destruct K as (K1 & K2). unfold remembered. split.
  - intros a Ha. destruct (K1 a Ha) as (x & V & X). exists x. split; auto. rewrite <- X. cbn [g_new fresh]. now destruct (last_seen _ a).
  - intros a Ha. rewrite <- (K2 a Ha). cbn [g_new fresh]. now destruct (last_seen _ a).
Qed.
Lemma holds_neat : forall A (eqb leb : A -> A -> bool) os (s : glist A) h, holds eqb leb os s h -> ~ In OClear os -> neat s h.
Proof.
  intros A eqb leb os s h (outs & E & R) Hc. pose proof (run_neat eqb leb os g_new [] [] outs (fresh s) h (new_state A) E Hc) as N. rewrite R in N. cbn [snd] in N.
  apply N. split; [intros x _; reflexivity|]. intros x Hx. discriminate.
Qed.
Lemma known_give : forall A (eqb leb : A -> A -> bool) os (s : glist A) h b w, holds eqb leb os s h -> remembered eqb leb os b = Some w ->
  give (Some b) s = (Ok (Some (fst (fst w))), CAt b).
Proof.
  intros A eqb leb os s h b w H E. destruct (holds_knows _ _ _ _ _ _ H) as (K1 & K2). destruct (le_lt_dec (fresh s) b) as [Hb|Hb]; [rewrite (K2 b Hb) in E; discriminate|].
  destruct (K1 b Hb) as (x & V & X). rewrite X in E. inv E. unfold give, value. now rewrite V.
Qed.

(** ** C81 *)
(** What an iterator gives that has given item [a]: the item after [a] in the list, when [a] was last in the list. *)
Theorem C81_next : forall A (eqb leb : A -> A -> bool) os s h a x before after, holds eqb leb os s h ->
  remembered eqb leb os a = Some (x, before, after) ->
  match after with
  | None => iter_next (CAt a) s = (Ok None, CEnd)
  | Some b => exists y w, remembered eqb leb os b = Some (y, fst w, snd w) /\ iter_next (CAt a) s = (Ok (Some y), CAt b)
  end.
Proof.
  intros A eqb leb os s h a x p n H E. destruct (holds_knows _ _ _ _ _ _ H) as (K1 & K2). destruct (le_lt_dec (fresh s) a) as [Ha|Ha]; [rewrite (K2 a Ha) in E; discriminate|].
  destruct (K1 a Ha) as (x' & V & X). pose proof E as E'. rewrite X in E'. inv E'. cbn [iter_next]. destruct (n_next s a) as [b|] eqn:En; [|reflexivity].
  destruct (seen_next _ a _ _ _ b E (or_introl eq_refl)) as (((y & p') & n') & Eb). exists y, (p', n'). split; auto. apply (known_give _ _ _ _ _ _ _ _ H Eb).
Qed.
(** The same for reversed(). *)
Theorem C81_reversed : forall A (eqb leb : A -> A -> bool) os s h a x before after, holds eqb leb os s h ->
  remembered eqb leb os a = Some (x, before, after) ->
  match before with
  | None => reversed_next (CAt a) s = (Ok None, CEnd)
  | Some b => exists y w, remembered eqb leb os b = Some (y, fst w, snd w) /\ reversed_next (CAt a) s = (Ok (Some y), CAt b)
  end.
Proof.
  intros A eqb leb os s h a x p n H E. destruct (holds_knows _ _ _ _ _ _ H) as (K1 & K2). destruct (le_lt_dec (fresh s) a) as [Ha|Ha]; [rewrite (K2 a Ha) in E; discriminate|].
  destruct (K1 a Ha) as (x' & V & X). pose proof E as E'. rewrite X in E'. inv E'. cbn [reversed_next]. destruct (n_prev s a) as [b|] eqn:En; [|reflexivity].
  destruct (seen_next _ a _ _ _ b E (or_intror eq_refl)) as (((y & p') & n') & Eb). exists y, (p', n'). split; auto. apply (known_give _ _ _ _ _ _ _ _ H Eb).
Qed.
(** An iterator that has not begun, or has ended. *)
Theorem C81_start : forall A (eqb leb : A -> A -> bool) os s h, holds eqb leb os s h ->
  iter_next CStart s = (match concat h with [] => (Ok None, CEnd) | (a, x) :: _ => (Ok (Some x), CAt a) end) /\
  reversed_next CStart s = (match rev (concat h) with [] => (Ok None, CEnd) | (a, x) :: _ => (Ok (Some x), CAt a) end) /\
  iter_next CEnd s = (Ok None, CEnd) /\ reversed_next CEnd s = (Ok None, CEnd).
Proof.
  intros A eqb leb os s h H. destruct (holds_state _ _ _ _ _ _ H) as (O & S & _). pose proof (state_linked _ _ _ S) as L. repeat split.
  - cbn [iter_next]. rewrite (k_first _ _ L). destruct (concat h) as [|(a & x) l] eqn:E; [reflexivity|]. apply (give_item s h O [] a x l S E).
  - cbn [reversed_next]. rewrite (k_last _ _ L). destruct (rev (concat h)) as [|(a & x) l] eqn:E.
    + apply (f_equal (@rev _)) in E. rewrite rev_involutive in E. rewrite E. reflexivity.
    + apply (f_equal (@rev _)) in E. rewrite rev_involutive in E. cbn [rev] in E. rewrite E, map_app. cbn [map fst]. rewrite exit_snoc. apply (give_item s h O (rev l) a x [] S E).
Qed.
(** An item that is in the list is followed by the item after it in the list as it is now. *)
Theorem C81_live : forall A (eqb leb : A -> A -> bool) os s h l1 a x l2, holds eqb leb os s h -> concat h = l1 ++ (a, x) :: l2 ->
  iter_next (CAt a) s = (match l2 with [] => (Ok None, CEnd) | (b, y) :: _ => (Ok (Some y), CAt b) end) /\
  reversed_next (CAt a) s = (match rev l1 with [] => (Ok None, CEnd) | (b, y) :: _ => (Ok (Some y), CAt b) end).
Proof.
  intros A eqb leb os s h l1 a x l2 H E. destruct (holds_state _ _ _ _ _ _ H) as (O & S & _). destruct (item_links s h O l1 a x l2 S E) as (_ & P & N & _). split.
  - cbn [iter_next]. rewrite N. destruct l2 as [|(b & y) l2]; [reflexivity|]. apply (give_item s h O (l1 ++ [(a, x)]) b y l2 S). rewrite E, <- app_assoc. reflexivity.
  - cbn [reversed_next]. rewrite P. destruct (rev l1) as [|(b & y) l] eqn:El; apply (f_equal (@rev _)) in El; rewrite rev_involutive in El; subst l1; [reflexivity|].
    cbn [rev]. rewrite map_app. cbn [map fst]. rewrite exit_snoc. apply (give_item s h O (rev l) b y ((a, x) :: l2) S). rewrite E. cbn [rev]. now rewrite <- app_assoc.
Qed.
(** An item that has been removed, or cleared away, keeps the neighbours it had before, whatever happens to the list after that. *)
Theorem C81_removed : forall A (eqb leb : A -> A -> bool) os o os' s1 h1 s2 h2 s3 h3 l1 a x l2,
  holds eqb leb os s1 h1 -> concat h1 = l1 ++ (a, x) :: l2 ->
  holds eqb leb (os ++ [o]) s2 h2 -> ~ In a (map fst (concat h2)) ->
  holds eqb leb (os ++ o :: os') s3 h3 ->
  remembered eqb leb (os ++ o :: os') a = Some (x, (match rev l1 with [] => None | (b, _) :: _ => Some b end), (match l2 with [] => None | (b, _) :: _ => Some b end)).
Proof.
  intros A eqb leb os o os' s1 h1 s2 h2 s3 h3 l1 a x l2 H1 E H2 Ha H3.
  destruct (holds_state _ _ _ _ _ _ H1) as (O & S1 & _). destruct (holds_state _ _ _ _ _ _ H2) as (O2 & S2 & _).
  destruct (item_links s1 h1 O l1 a x l2 S1 E) as (V & P & N & Hn).
  destruct (holds_knows _ _ _ _ _ _ H1) as (K1 & _).
  assert (Hf : (a < fresh s1)%nat) by (apply (state_lt s1 h1 O); auto; apply (st_par _ _ _ S1); left; rewrite E, map_app, in_app_iff; right; now left).
  destruct (K1 a Hf) as (x' & V' & X). assert (x' = x) by congruence. subst x'.
  assert (Ep : n_prev s1 a = match rev l1 with [] => None | (b, _) :: _ => Some b end).
  { rewrite P. clear. destruct (rev l1) as [|(b & y) l] eqn:El; apply (f_equal (@rev _)) in El; rewrite rev_involutive in El; subst l1; [reflexivity|].
    cbn [rev]. rewrite map_app. cbn [map fst]. now rewrite exit_snoc. }
  assert (En : n_next s1 a = match l2 with [] => None | (b, _) :: _ => Some b end) by (rewrite N; destruct l2 as [|(b & y) l2]; reflexivity).
  rewrite Ep, En in X. rewrite <- X. unfold remembered.
  destruct H1 as (out1 & R1 & _). destruct H2 as (out2 & R2 & _). destruct H3 as (out3 & R3 & _).
  rewrite (stages_app eqb leb os (o :: os') 0 [] _ _ _ R1), last_seen_app.
  assert (Hs : last_seen (stages eqb leb (o :: os') (fresh s1) h1) a = None); [|now rewrite Hs].
  (* the rest of the history, from [h1] *)
  assert (Sp : forall os os' n (h : list (list (nat * A))) o1 n1 k1 o2 n2 k2, s_run eqb leb os n h = Some (o1, (n1, k1)) -> s_run eqb leb (os ++ os') n h = Some (o2, (n2, k2)) ->
    exists o3, s_run eqb leb os' n1 k1 = Some (o3, (n2, k2))).
  { clear. induction os as [|o os IH]; intros os' n h o1 n1 k1 o2 n2 k2 E1 E2; [inv E1; eauto|]. cbn [app s_run] in *.
    destruct (s_step eqb leb o n h) as [[(r & (n3 & h3))|e]|]; [| |discriminate].
    - destruct (s_run eqb leb os n3 h3) as [(p & (m & k))|] eqn:E3; [|discriminate]. destruct (s_run eqb leb (os ++ os') n3 h3) as [(p' & (m' & k'))|] eqn:E4; [|discriminate].
      cbn in E1, E2. inv E1. inv E2. eauto.
    - destruct (s_run eqb leb os n h) as [(p & (m & k))|] eqn:E3; [|discriminate]. destruct (s_run eqb leb (os ++ os') n h) as [(p' & (m' & k'))|] eqn:E4; [|discriminate].
      cbn in E1, E2. inv E1. inv E2. eauto. }
  destruct (Sp _ _ _ _ _ _ _ _ _ _ R1 R2) as (q2 & Q2). destruct (Sp _ _ _ _ _ _ _ _ _ _ R1 R3) as (q3 & Q3).
  cbn [s_run stages] in *. destruct (s_step eqb leb o (fresh s1) h1) as [[(r & (n1 & k1))|e]|] eqn:Eq; [| |discriminate].
  - cbn in Q2. inv Q2. destruct (step_state eqb leb o s1 h1 O _ S1 Eq) as (t & O1 & Et & St & Ef & _).
    cbn [last_seen]. rewrite <- Ef in *. destruct (s_run eqb leb os' (fresh t) h2) as [(p & (m & k))|] eqn:Er; [|discriminate].
    rewrite (gone eqb leb os' t h2 O1 _ _ _ a St Er); auto; [now apply look_out|]. rewrite Ef. pose proof (step_le eqb leb o _ _ _ _ _ Eq). lia.
  - cbn in Q2. inv Q2. exfalso. apply Ha. rewrite E, map_app, in_app_iff. right. now left.
Qed.
(** [for x in lst: pass] *)
Theorem C81_unchanged : forall A (eqb leb : A -> A -> bool) os s h n, holds eqb leb os s h -> (length (concat h) < n)%nat ->
  for_loop n (fun _ s => Ok s) CStart s = Ok (concat (values h), s).
Proof.
  intros A eqb leb os s h n H Hn. destruct (holds_state _ _ _ _ _ _ H) as (O & S & _). rewrite values_items. apply (plain_loop (concat h) s h O [] CStart n S eq_refl); auto.
  cbn [iter_next]. now rewrite (k_first _ _ (state_linked _ _ _ S)).
Qed.
(** [for x in lst: if not keep(x): lst.remove(x)] gives every item and leaves those to be kept. *)
Theorem C81_filter : forall A (eqb leb : A -> A -> bool) os s h (keep : A -> bool) n, holds eqb leb os s h ->
  (forall x y, In x (concat (values h)) -> In y (concat (values h)) -> eqb x y = true -> keep x = keep y) ->
  (forall x, In x (concat (values h)) -> eqb x x = true) -> (length (concat h) < n)%nat ->
  exists t, for_loop n (fun x s => if keep x then Ok s else remove eqb x s) CStart s = Ok (concat (values h), t) /\ shows t (sift keep (values h)).
Proof.
  intros A eqb leb os s h keep n H Hk Hr Hn. destruct (holds_state _ _ _ _ _ _ H) as (O & S & _). rewrite values_items in *.
  destruct (remove_loop eqb keep (concat h) s h O [] CStart n S eq_refl Hk Hr (Forall_nil _)) as (t & h' & Et & St & Ev); auto.
  - cbn [iter_next]. now rewrite (k_first _ _ (state_linked _ _ _ S)).
  - exists t. split; auto. rewrite <- Ev. eapply state_shows; eauto.
Qed.
(** [for x in lst: lst.append(f(x))] never ends, unless the list is empty. *)
Theorem C81_endless : forall A (eqb leb : A -> A -> bool) os s h (f : A -> A) ng n, holds eqb leb os s h ->
  for_loop (S n) (fun x s => append (f x) ng s) CStart s = match h with [] => Ok ([], s) | _ => Err Diverge end.
Proof.
  intros A eqb leb os s h f ng n H. destruct (holds_state _ _ _ _ _ _ H) as (O & S & _). destruct (C81_start _ _ _ _ _ _ H) as (E & _). pose proof (state_nil _ _ _ S) as Hn.
  destruct h as [|p h]; [cbn [for_loop]; rewrite E; reflexivity|]. destruct (concat (p :: h)) as [|(a & x) l] eqn:Ec; [destruct Hn as (Hn & _); specialize (Hn eq_refl); discriminate|].
  apply (append_loop f ng (Datatypes.S n) s (p :: h) O CStart a S); [rewrite Ec; now left|]. rewrite E. symmetry. apply (give_item s _ O [] a x l S Ec).
Qed.
Open Scope Z_scope.
(** A list of 1, 2 | 3, 4; the iterator stands at 1.  Without 1 it gives 2; without 1 and 2 it still gives 2, then 3. *)
Definition four := snd (h_run Z.eqb Z.leb [OAppendGroup [1; 2]; OAppendGroup [3; 4]] g_new).
Definition four' := snd (h_run Z.eqb Z.leb [OAppendGroup [1; 2]; OAppendGroup [3; 4]; ODel 0; ODel 0] g_new).
Definition four_cleared := snd (h_run Z.eqb Z.leb [OAppendGroup [1; 2]; OAppendGroup [3; 4]; OClear; OAppend false 9] g_new).
Definition four_back := snd (h_run Z.eqb Z.leb [OAppendGroup [1; 2]; OAppendGroup [3; 4]; OReverse] g_new).
Example C81_ex : iter_next CStart four = (Ok (Some 1), CAt 0) /\ iter_next (CAt 0) four = (Ok (Some 2), CAt 1) /\ iter_next (CAt 3) four = (Ok None, CEnd) /\
  iter_next (CAt 0) four' = (Ok (Some 2), CAt 1) /\ iter_next (CAt 1) four' = (Ok (Some 3), CAt 2) /\ g_iter four' = Ok [3; 4] /\
  iter_next (CAt 0) four_cleared = (Ok (Some 2), CAt 1) /\ iter_next (CAt 3) four_cleared = (Ok None, CEnd) /\ g_iter four_cleared = Ok [9] /\
  iter_next (CAt 1) four_back = (Ok (Some 1), CAt 0) /\ reversed_next (CAt 1) four_back = (Ok (Some 3), CAt 2) /\
  holds Z.eqb Z.leb [OAppendGroup [1; 2]; OAppendGroup [3; 4]; ODel 0; ODel 0] four' [[(2%nat, 3); (3%nat, 4)]] /\
  remembered Z.eqb Z.leb [OAppendGroup [1; 2]; OAppendGroup [3; 4]; ODel 0; ODel 0] 0 = Some (1, None, Some 1%nat) /\
  remembered Z.eqb Z.leb [OAppendGroup [1; 2]; OAppendGroup [3; 4]; ODel 0; ODel 0] 1 = Some (2, None, Some 2%nat) /\
  remembered Z.eqb Z.leb [OAppendGroup [1; 2]; OAppendGroup [3; 4]; ODel 0; ODel 0] 3 = Some (4, Some 2%nat, None) /\
  (q <- for_loop 5 (fun x s => if Z.odd x then Ok s else remove Z.eqb x s) CStart four ;; l <- to_nested_lists (snd q) ;; Ok (fst q, l)) = Ok ([1; 2; 3; 4], [[1]; [3]]) /\
  (q <- for_loop 5 (fun x s => if 3 <=? x then Ok s else remove Z.eqb x s) CStart four ;; l <- to_nested_lists (snd q) ;; Ok (fst q, l)) = Ok ([1; 2; 3; 4], [[3; 4]]) /\
  sift Z.odd [[1; 2]; [3; 4]] = [[1]; [3]].
Proof. repeat split; try (vm_compute; reflexivity). eexists. split; vm_compute; reflexivity. Qed.

(** ** C82 *)
(** An iterator of the groups that has given the group of first item [a]. *)
Theorem C82_groups : forall A (eqb leb : A -> A -> bool) os s h a, holds eqb leb os s h -> ~ In OClear os ->
  (forall l1 l2, firsts h = l1 ++ a :: l2 -> groups_next (CAt a) s = match l2 with [] => (None, CEnd) | b :: _ => (Some b, CAt b) end) /\
  (~ In a (firsts h) -> groups_next (CAt a) s = (None, CEnd)).
Proof.
  intros A eqb leb os s h a H Hc. destruct (holds_state _ _ _ _ _ _ H) as (O & S & _). pose proof (holds_neat _ _ _ _ _ _ H Hc) as N. split.
  - intros l1 l2 E. unfold groups_next. rewrite (next_head_at s h O l1 a l2 S E). destruct l2; reflexivity.
  - intros Hn. unfold groups_next. destruct (n_head s a) eqn:Eh; [exfalso; apply Hn; now apply (head_iff s h O a S N)|]. now rewrite (proj1 N a Eh).
Qed.
Theorem C82_groups_start : forall A (eqb leb : A -> A -> bool) os s h, holds eqb leb os s h ->
  groups_next CStart s = (match firsts h with [] => (None, CEnd) | a :: _ => (Some a, CAt a) end) /\ groups_next CEnd s = (None, CEnd).
Proof.
  intros A eqb leb os s h H. destruct (holds_state _ _ _ _ _ _ H) as (O & S & _). split; [|reflexivity]. destruct (st_rep _ _ _ S) as (_ & G & _).
  unfold groups_next. rewrite (k_fhead _ _ G), firsts_heads. destruct (firsts h); reflexivity.
Qed.
(** An iterator of one group that has given item [a]: it goes on to the item that comes after [a], as C81 has it, unless
    that item begins a group. *)
Theorem C82_view : forall A (eqb leb : A -> A -> bool) os s h v a x before after, holds eqb leb os s h -> ~ In OClear os ->
  remembered eqb leb os a = Some (x, before, after) ->
  match after with
  | None => view_next v (CAt a) s = (Ok None, CEnd)
  | Some b => (In b (firsts h) -> view_next v (CAt a) s = (Ok None, CEnd)) /\
              (~ In b (firsts h) -> exists y w, remembered eqb leb os b = Some (y, fst w, snd w) /\ view_next v (CAt a) s = (Ok (Some y), CAt b))
  end.
Proof.
  intros A eqb leb os s h v a x p n H Hc E. destruct (holds_state _ _ _ _ _ _ H) as (O & S & _). pose proof (holds_neat _ _ _ _ _ _ H Hc) as N.
  destruct (holds_knows _ _ _ _ _ _ H) as (K1 & K2). destruct (le_lt_dec (fresh s) a) as [Ha|Ha]; [rewrite (K2 a Ha) in E; discriminate|].
  destruct (K1 a Ha) as (x' & V & X). pose proof E as E'. rewrite X in E'. inv E'. cbn [view_next]. destruct (n_next s a) as [b|] eqn:En; [|reflexivity]. split.
  - intros Hb. apply (head_iff s h O b S N) in Hb. now rewrite Hb.
  - intros Hb. destruct (n_head s b) eqn:Eh; [exfalso; apply Hb; now apply (head_iff s h O b S N)|].
    destruct (seen_next _ a _ _ _ b E (or_introl eq_refl)) as (((y & p') & n') & Eb). exists y, (p', n'). split; auto. apply (known_give _ _ _ _ _ _ _ _ H Eb).
Qed.
(** The first item of a view: the view must still be that of a group. *)
Theorem C82_view_start : forall A (eqb leb : A -> A -> bool) os s h v, holds eqb leb os s h -> ~ In OClear os ->
  (forall h1 x p h2, h = h1 ++ ((v, x) :: p) :: h2 -> view_next (Some v) CStart s = (Ok (Some x), CAt v)) /\
  (~ In v (firsts h) -> view_next (Some v) CStart s = (Err GroupViewErr, CEnd)) /\ view_next (Some v) CEnd s = (Ok None, CEnd).
Proof.
  intros A eqb leb os s h v H Hc. destruct (holds_state _ _ _ _ _ _ H) as (O & S & Ho). pose proof (holds_neat _ _ _ _ _ _ H Hc) as N. split; [|split; [|reflexivity]].
  - intros h1 x p h2 E. assert (Ec : concat h = concat h1 ++ (v, x) :: (p ++ concat h2)) by (rewrite E, concat_app; cbn [concat app]; reflexivity).
    assert (Hv : In v (firsts h)) by (rewrite <- firsts_heads, E; apply split_head). apply (head_iff s h O v S N) in Hv.
    assert (Hp : n_par s v = true) by (apply (st_par _ _ _ S); left; rewrite Ec, map_app, in_app_iff; right; now left).
    cbn [view_next]. unfold check_view. cbn [deref bind]. rewrite Hv, Hp. cbn [andb]. apply (give_item s h O _ v x _ S Ec).
  - intros Hn. cbn [view_next]. rewrite <- firsts_heads in Hn. now rewrite (stale_state s h O v S (Ho Hc) Hn).
Qed.
Definition four_less := snd (h_run Z.eqb Z.leb [OAppendGroup [1; 2]; OAppendGroup [3; 4]; OViewDel 0 0] g_new).
Example C82_ex : groups_next CStart four = (Some 0%nat, CAt 0) /\ groups_next (CAt 0) four = (Some 2%nat, CAt 2) /\ groups_next (CAt 2) four = (None, CEnd) /\
  groups_next (CAt 0) four_less = (None, CEnd) /\ groups_next CStart four_less = (Some 1%nat, CAt 1) /\
  view_next (Some 0%nat) CStart four = (Ok (Some 1), CAt 0) /\ view_next (Some 0%nat) (CAt 0) four = (Ok (Some 2), CAt 1) /\ view_next (Some 0%nat) (CAt 1) four = (Ok None, CEnd) /\
  view_next (Some 0%nat) CStart four_less = (Err GroupViewErr, CEnd) /\ view_next (Some 0%nat) (CAt 0) four_less = (Ok None, CEnd) /\
  holds Z.eqb Z.leb [OAppendGroup [1; 2]; OAppendGroup [3; 4]; OViewDel 0 0] four_less [[(1%nat, 2)]; [(2%nat, 3); (3%nat, 4)]] /\
  firsts [[(1%nat, 2)]; [(2%nat, 3); (3%nat, 4)]] = [1; 2]%nat.
Proof. repeat split; try (vm_compute; reflexivity). eexists. split; vm_compute; reflexivity. Qed.

(** ** C83 *)
(** A loop over the groups, whose body does the operations [ops v] with the list, gives every group that is there from the
    beginning to the end. *)
Definition C83_statement : Prop := forall A (eqb leb : A -> A -> bool) os s h (body : nat -> glist A -> res (glist A)) n vs t h', holds eqb leb os s h ->
  for_groups n body CStart s = Ok (vs, t) -> (exists os', holds eqb leb (os ++ os') t h') ->
  forall a h1 x p h2 k1 k2, h = h1 ++ ((a, x) :: p) :: h2 -> h' = k1 ++ ((a, x) :: p) :: k2 -> In a vs.
(** It does if the body leaves the first items of the groups in their places. *)
Theorem C83_loop_partial : forall A (eqb leb : A -> A -> bool) os s h (ops : nat -> list (op A)) n, holds eqb leb os s h -> ~ In OClear os ->
  (forall v, ~ In OClear (ops v)) ->
  (forall v m k, Forall (fun p => p <> []) k -> In v (firsts k) -> exists outs m' k', s_run eqb leb (ops v) m k = Some (outs, (m', k')) /\ firsts k' = firsts k) ->
  (length h < n)%nat ->
  exists t, for_groups n (fun v s => Ok (snd (h_run eqb leb (ops v) s))) CStart s = Ok (firsts h, t).
Proof.
  intros A eqb leb os s h ops n H Hc Ho Hb Hn. destruct (holds_state _ _ _ _ _ _ H) as (O & S & HO). rewrite (HO Hc) in S. pose proof (holds_neat _ _ _ _ _ _ H Hc) as N.
  destruct (groups_loop eqb leb ops Ho Hb (firsts h) s h [] CStart n S N eq_refl) as (t & h' & Et & _).
  - apply (C82_groups_start _ _ _ _ _ _ H).
  - assert (X : (length (firsts h) <= length h)%nat); [|lia]. clear. induction h as [|[|(a & x) p] h IH]; unfold firsts in *; cbn [flat_map length app] in *; lia.
  - eauto.
Qed.
(** [for group in lst.groups: del group[0]] stops after the first group: its first item is gone. *)
Theorem C83_refuted : exists t, for_groups 9 (fun v s => view_del (Some v) 0 s) CStart four = Ok ([0%nat], t) /\
  holds Z.eqb Z.leb [OAppendGroup [1; 2]; OAppendGroup [3; 4]] four [[(0%nat, 1); (1%nat, 2)]; [(2%nat, 3); (3%nat, 4)]] /\
  holds Z.eqb Z.leb ([OAppendGroup [1; 2]; OAppendGroup [3; 4]] ++ [OViewDel 0 0]) t [[(1%nat, 2)]; [(2%nat, 3); (3%nat, 4)]] /\ ~ C83_statement.
Proof.
  assert (E : for_groups 9 (fun v s => view_del (Some v) 0 s) CStart four = Ok ([0%nat], four_less)) by (vm_compute; reflexivity).
  assert (H1 : holds Z.eqb Z.leb [OAppendGroup [1; 2]; OAppendGroup [3; 4]] four [[(0%nat, 1); (1%nat, 2)]; [(2%nat, 3); (3%nat, 4)]]) by (eexists; split; vm_compute; reflexivity).
  assert (H2 : holds Z.eqb Z.leb ([OAppendGroup [1; 2]; OAppendGroup [3; 4]] ++ [OViewDel 0 0]) four_less [[(1%nat, 2)]; [(2%nat, 3); (3%nat, 4)]]) by (eexists; split; vm_compute; reflexivity).
  exists four_less. split; auto. split; auto. split; auto. intros St.
  specialize (St Z Z.eqb Z.leb _ _ _ _ _ _ _ _ H1 E (ex_intro (fun o' => holds Z.eqb Z.leb ([OAppendGroup [1; 2]; OAppendGroup [3; 4]] ++ o') four_less _) [OViewDel 0 0] H2) 2%nat [[(0%nat, 1); (1%nat, 2)]] 3 [(3%nat, 4)] [] [[(1%nat, 2)]] [] eq_refl eq_refl).
  destruct St as [St|[]]. discriminate.
Qed.
Example C83_ex : (forall v m (k : list (list (nat * Z))), Forall (fun p => p <> []) k -> In v (firsts k) ->
    exists outs m' k', s_run Z.eqb Z.leb [OAppend false 9] m k = Some (outs, (m', k')) /\ firsts k' = firsts k) /\
  (q <- for_groups 3 (fun v s => Ok (snd (h_run Z.eqb Z.leb [OAppend false 9] s))) CStart four ;; l <- to_nested_lists (snd q) ;; Ok (fst q, l)) = Ok ([0; 2]%nat, [[1; 2]; [3; 4; 9; 9]]) /\
  (q <- for_groups 3 (fun v s => view_del (Some v) 1 s) CStart four ;; l <- to_nested_lists (snd q) ;; Ok (fst q, l)) = Ok ([0; 2]%nat, [[1]; [3]]).
Proof.
  split; [|split; vm_compute; reflexivity]. intros v m k Hk Hv. eexists _, _, _. split; [reflexivity|].
  destruct k as [|p k]; [destruct Hv|]. clear Hv v. revert p Hk. induction k as [|p' k IH]; intros p Hk.
  - inversion Hk as [|? ? Hp _]. destruct p as [|(b & y) p]; [now contradiction Hp|]. reflexivity.
  - inversion Hk as [|? ? _ Hk']. specialize (IH p' Hk'). change (firsts (p :: s_append false (m, 9) (p' :: k)) = firsts (p :: p' :: k)).
    unfold firsts in *. cbn [flat_map] in *. now rewrite IH.
Qed.
