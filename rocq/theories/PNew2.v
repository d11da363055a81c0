(** * PNew2: verses made by positional arguments, exceptions, and lists made from arguments of any class. *)
From Coq Require Import List Ascii NArith ZArith Bool Arith Lia.
From Verif Require Import Base Books Chars Regex Data MVerse MRange Spec PList PCore PVerse PUnit MSeq MList SpecList MGroup SpecGroup
  PGroup PGroup2 PGroup6 PGroup8 PropGroup MNode MSort MOrder PNode PNode2 MParse MNew SpecNew PNew.
Import ListNotations.
Import Spec.
Open Scope Z_scope.

(** ** Verses and exceptions *)
Ltac split_err := repeat match goal with
  | H : bind ?m _ = _ |- _ => let E := fresh "E" in destruct m eqn:E; cbn [bind] in H
  | H : (if ?b then _ else _) = _ |- _ => let E := fresh "E" in destruct b eqn:E
  end.
Lemma max_verse_err : forall e b c x, max_verse_num e b c = Err x -> x = InvalidRef \/ x = TypeErr.
Proof.
  intros e b c x. unfold max_verse_num, bad_chap, min_chap_num, max_chap_num. destruct (max_verses (ed e) b) as [l|].
  - destruct (Z.ltb_spec c 1); cbn [orb]; [intros H0; inv H0; auto|]. destruct (Z.gtb_spec c (zlen l)) as [L|L]; [intros H0; inv H0; auto|]. unfold znth, zlen in *.
    destruct (c - 1 <? 0) eqn:E; [apply Z.ltb_lt in E; lia|].
    destruct (nth_error l (Z.to_nat (c - 1))) eqn:En; [discriminate|]. apply nth_error_None in En. lia.
  - destruct (_ || _); intros H; inv H; auto.
Qed.
Lemma min_verse_err : forall e b c fl x, min_verse_num e b c fl = Err x -> x = InvalidRef.
Proof. intros e b c fl x. unfold min_verse_num. destruct (bad_chap e b c); congruence. Qed.
Lemma new_verse_err : forall e b c v fl x, new_verse e b c v fl = Err x -> x = InvalidRef \/ x = TypeErr.
Proof.
  intros e b c v fl x H. unfold new_verse in H. split_err; try (inv H; auto; fail).
  - inv H. eapply max_verse_err; eauto.
  - inv H. left. eapply min_verse_err; eauto.
Qed.
Lemma new_verse_legal : forall e b c v fl w, new_verse e b c v fl = Ok w -> w = V b c v /\ legal (ed e) (zero_on e fl) b c v.
Proof.
  intros e b c v fl w H. destruct (max_verses (ed e) b) as [l|] eqn:El.
  - rewrite (new_verse_eq e b l c v fl El) in H. destruct (legalb e _ b c v) eqn:Eb; [|discriminate]. inv H. split; auto. apply legalb_iff in Eb. now rewrite <- zero_on_eq.
  - exfalso. unfold new_verse, max_verse_num in H. rewrite El in H. split_err; try discriminate.
Qed.
Lemma first_verse_err : forall e b oc fl x, first_verse e b oc fl = Err x -> x = InvalidRef \/ x = TypeErr.
Proof.
  intros e b oc fl x H. unfold first_verse in H. split_err; [eapply new_verse_err; eauto|]. inv H. left. eapply min_verse_err; eauto.
Qed.
Lemma last_verse_err : forall e b oc x, last_verse e b oc = Err x -> x = InvalidRef \/ x = TypeErr.
Proof.
  intros e b oc x H. unfold last_verse in H. split_err; [eapply new_verse_err; eauto|]. inv H. eapply max_verse_err; eauto.
Qed.
Lemma zero_on_eff : forall e fl, zero_on e (Some (eff e fl)) = zero_on e fl.
Proof. intros e fl. now rewrite <- !zero_on_eq, eff_eff. Qed.
Lemma new_verse_real : forall e b c v fl w, new_verse e b c v (Some (eff e fl)) = Ok w -> real e fl w.
Proof. intros e b c v fl w H. apply new_verse_legal in H. destruct H as (-> & L). rewrite zero_on_eff in L. left. exact L. Qed.
Lemma new_verse_real' : forall e b c v fl w, new_verse e b c v None = Ok w -> real e fl w.
Proof. intros e b c v fl w H. apply new_verse_legal in H. destruct H as (-> & L). right. exact L. Qed.
Lemma first_verse_real : forall e b oc fl fl' w, first_verse e b oc fl' = Ok w -> real e fl w.
Proof. intros e b oc fl fl' w H. unfold first_verse in H. split_err; [|discriminate]. eapply new_verse_real'; eauto. Qed.
Lemma last_verse_real : forall e b oc fl w, last_verse e b oc = Ok w -> real e fl w.
Proof. intros e b oc fl w H. unfold last_verse in H. split_err; [|discriminate]. eapply new_verse_real'; eauto. Qed.
#[local] Hint Resolve new_verse_real first_verse_real last_verse_real : real.
Ltac real_ends := repeat match goal with
  | H : Err _ = Ok _ |- _ => discriminate H
  | H : Ok _ = Ok _ |- _ => inv H; cbn [fst snd rstart rend] in *
  | H : bind ?m _ = Ok _ |- _ => let E := fresh "E" in destruct m eqn:E; cbn [bind] in H; [|discriminate]
  | H : (if ?b then _ else _) = Ok _ |- _ => let E := fresh "E" in destruct b eqn:E
  | H : match ?o with Some _ => _ | None => _ end = Ok _ |- _ => let E := fresh "E" in destruct o eqn:E
  end; cbn [fst snd rstart rend] in *.
Lemma any_build_real : forall e a fl r, any_build e a fl = Ok r ->
  real e fl (rstart r) /\ real e fl (rend r) /\ (multi_on e fl = false -> vbook (rstart r) = vbook (rend r)).
Proof.
  intros e [sb sc sv eb ec ev] fl r H. unfold any_build in H. destruct sb as [b|]; [|discriminate].
  destruct (negb (given sc) && given sv); [discriminate|].
  match type of H with bind ?m _ = _ => destruct m as [(s & o)|] eqn:E; cbn [bind fst snd] in H; [|discriminate] end.
  match type of H with bind ?m _ = _ => destruct m as [t|] eqn:E'; cbn [bind fst snd] in H; [|discriminate] end.
  assert (A : real e fl s /\ forall t, o = Some t -> real e fl t).
  { clear E' H. split; [|intros t' ->]; real_ends; eauto with real. }
  assert (B : real e fl t).
  { destruct o as [t'|]; [inv E'; now apply A|]. clear E H A. real_ends; eauto with real. }
  rewrite <- multi_on_eq. destruct (multibook (eff e fl)); cbn [negb andb] in H; [inv H; cbn; repeat split; try tauto; discriminate|].
  destruct (book_eqb (vbook s) (vbook t)) eqn:Eb; [|discriminate]. inv H. cbn. apply book_eqb_eq in Eb. tauto.
Qed.
Lemma any_parts_real : forall e fl args r, any_parts e fl args = Ok r ->
  real e fl (rstart r) /\ real e fl (rend r) /\ (multi_on e fl = false -> vbook (rstart r) = vbook (rend r)).
Proof.
  intros e fl args r H. unfold any_parts in H. destruct (any_book e (arg args 0)); [|discriminate]. cbn [bind] in H. destruct (any_book e (arg args 3)); [|discriminate]. cbn [bind] in H.
  destruct (any_swap _ _) as [a'|]; [|discriminate]. cbn [bind] in H. eapply any_build_real; eauto.
Qed.
Lemma book_gt_err : forall e a b x, book_gt e a b = Err x -> x = TypeErr.
Proof. intros e a b x. unfold book_gt, book_cmp. destruct (order (ed e) a), (order (ed e) b); congruence. Qed.
Lemma verse_gt_err : forall e a b x, verse_gt e a b = Err x -> x = TypeErr.
Proof. intros e a b x. unfold verse_gt, verse_cmp. destruct (book_eqb _ _); [destruct (_ =? _); discriminate|apply book_gt_err]. Qed.
Lemma range_gt_err : forall e a b x, range_gt e a b = Err x -> x = TypeErr.
Proof. intros e a b x. unfold range_gt, range_cmp. destruct (verse_eqb _ _); apply verse_gt_err. Qed.
Lemma py_gt_err : forall e a b x, py_gt e a b = Err x -> x = TypeErr.
Proof.
  intros e. fix IH 1. intros a b x. destruct a as [|m|s|k|v|r|l|l|l|], b as [|m'|s'|k'|v'|r'|l'|l'|l'|]; cbn [py_gt]; try congruence.
  - apply book_gt_err.
  - apply verse_gt_err.
  - apply range_gt_err.
  - revert l'. induction l as [|y l IHl]; intros [|z l']; try discriminate. cbn [py_gt]. destruct (py_eqb y z).
    + apply IHl.
    + apply IH.
Qed.
Lemma gt_given_err : forall e a b x, gt_given e a b = Err x -> x = TypeErr.
Proof. intros e a b x. unfold gt_given. destruct (given b); [apply py_gt_err|discriminate]. Qed.
Lemma py_int_err : forall v x, py_int v = Err x -> x = TypeErr \/ x = ValueErr.
Proof. intros v x. destruct v; cbn; try (intros H; inv H; auto; fail). intros H. right. eapply int_of_str_err; eauto. Qed.
Lemma any_book_err : forall e v x, any_book e v = Err x -> x = InvalidRef.
Proof. intros e v x. destruct v; cbn; try congruence. unfold from_str_raise. destruct (from_str _ _); cbn; congruence. Qed.
Lemma any_swap_err : forall e a x, any_swap e a = Err x -> x = TypeErr.
Proof.
  intros e [sb sc sv eb ec ev] x H. unfold any_swap in H. destruct sb as [b|]; [|discriminate].
  destruct (match eb with Some b' => book_gt e b b' | None => Ok false end) as [y|y] eqn:E; cbn [bind] in H.
  2:{ inv H. destruct eb; [eapply book_gt_err; eauto|discriminate]. }
  destruct y; [discriminate|]. destruct (_ && given sc); [|discriminate]. destruct (gt_given e sc ec) as [y|y] eqn:E1; cbn [bind] in H; [|inv H; eapply gt_given_err; eauto].
  destruct y; [discriminate|]. destruct (_ && given sv); [|discriminate]. destruct (gt_given e sv ev) as [y|y] eqn:E2; cbn [bind] in H; [discriminate|inv H; eapply gt_given_err; eauto].
Qed.
Definition raised_by_parts (x : exn) : Prop := x = InvalidRef \/ x = Multibook \/ x = ValueErr \/ x = TypeErr.
Ltac find_err := repeat match goal with
  | H : Ok _ = Err _ |- _ => discriminate H
  | H : Err _ = Err _ |- _ => inv H
  | H : bind ?m _ = Err _ |- _ => let E := fresh "E" in destruct m eqn:E; cbn [bind] in H
  | H : (if ?b then _ else _) = Err _ |- _ => let E := fresh "E" in destruct b eqn:E
  end; try (unfold raised_by_parts; tauto);
  match goal with
  | H : new_verse _ _ _ _ _ = Err _ |- _ => apply new_verse_err in H
  | H : first_verse _ _ _ _ = Err _ |- _ => apply first_verse_err in H
  | H : last_verse _ _ _ = Err _ |- _ => apply last_verse_err in H
  | H : py_int _ = Err _ |- _ => apply py_int_err in H
  end; unfold raised_by_parts; tauto.
Lemma any_build_err : forall e a fl x, any_build e a fl = Err x -> raised_by_parts x.
Proof.
  intros e [sb sc sv eb ec ev] fl x H. unfold any_build in H. destruct sb as [b|]; [|inv H; unfold raised_by_parts; auto].
  destruct (negb (given sc) && given sv); [inv H; unfold raised_by_parts; auto|].
  match type of H with bind ?m _ = _ => destruct m as [(s & o)|] eqn:E; cbn [bind fst snd] in H end.
  2:{ inv H. find_err. }
  destruct o as [t|]; [cbn [bind] in H; find_err|]. clear E. find_err.
Qed.
Lemma any_parts_err : forall e fl args x, any_parts e fl args = Err x -> raised_by_parts x.
Proof.
  intros e fl args x H. unfold any_parts in H. destruct (any_book e (arg args 0)) eqn:E0; cbn [bind] in H; [|inv H; left; eapply any_book_err; eauto].
  destruct (any_book e (arg args 3)) eqn:E3; cbn [bind] in H; [|inv H; left; eapply any_book_err; eauto].
  destruct (any_swap _ _) eqn:Es; cbn [bind] in H; [eapply any_build_err; eauto|inv H; apply any_swap_err in Es; subst; unfold raised_by_parts; auto].
Qed.

(** ** Items of a new list *)
Lemma check_types : forall l rs, mapM check_type l = Ok rs <-> l = map VRange rs.
Proof.
  induction l as [|x l IH]; intros rs; cbn.
  - split; [intros H; inv H; auto|]. destruct rs; [auto|discriminate].
  - split.
    + destruct x; cbn; try discriminate. destruct (mapM check_type l) as [q|]; cbn; [|discriminate]. intros H. inv H. cbn. f_equal. now apply IH.
    + destruct rs as [|r rs]; [discriminate|]. intros H. cbn in H. inv H. cbn. now rewrite (proj2 (IH rs) eq_refl).
Qed.
Lemma check_types_err : forall l x, mapM check_type l = Err x -> x = TypeErr /\ ~ Forall (fun y => exists r, y = VRange r) l.
Proof.
  induction l as [|y l IH]; intros x; cbn; [discriminate|]. destruct (check_type y) as [r|ex] eqn:E; cbn.
  - destruct (mapM check_type l) as [q|ex]; cbn; [discriminate|]. intros H. inv H. destruct (IH _ eq_refl) as (-> & N). split; auto. intros F. inv F. auto.
  - intros H. inv H. destruct y; cbn in E; inv E; (split; [auto|intros F; inv F; destruct H1; discriminate]).
Qed.
Lemma new_item_fit : forall x, fit x -> exists i, new_item x = Ok i.
Proof.
  intros x [(r & ->)|(l & -> & F)]; cbn; [eauto|]. destruct (mapM check_type l) as [g|ex] eqn:E; cbn; [eauto|]. apply check_types_err in E. tauto.
Qed.
Lemma new_item_unfit : forall x ex, new_item x = Err ex -> ex = TypeErr /\ ~ fit x.
Proof.
  intros x ex H. destruct x; cbn in H; inv H; try (split; [auto|intros [(r & X)|(l' & X & _)]; discriminate]).
  destruct (mapM check_type l) as [g|y] eqn:E; cbn in *; [discriminate|]. inv H1. apply check_types_err in E. destruct E as (-> & N). split; auto.
  intros [(r & X)|(l' & X & F)]; [discriminate|]. inv X. auto.
Qed.
Lemma items_unfit : forall l, ~ Forall fit l -> mapM new_item l = Err TypeErr.
Proof.
  induction l as [|x l IH]; intros N; [exfalso; auto|]. cbn. destruct (new_item x) as [i|ex] eqn:E; cbn.
  - rewrite IH; auto. intros F. apply N. constructor; auto. clear - E. destruct x; cbn in E; try discriminate; [left; eauto|]. right.
    destruct (mapM check_type l) as [g|] eqn:Eg; [|discriminate]. apply check_types in Eg. subst. eexists. split; [auto|]. clear. induction g; constructor; eauto.
  - apply new_item_unfit in E. destruct E as (-> & _). reflexivity.
Qed.
Definition joined (lead : list range) (gs g : rlist) : rlist :=
  match lead with [] => g ++ gs | _ => match rev g with [] => lead :: gs | p :: q => rev q ++ (p ++ lead) :: gs end end.
Lemma append_last : forall A (x : A) g p, s_append false x (g ++ [p]) = g ++ [p ++ [x]].
Proof.
  intros A x. induction g as [|q g IH]; intros p; auto. cbn [app s_append]. destruct (g ++ [p]) eqn:E; [destruct g; discriminate|]. rewrite <- E, IH. reflexivity.
Qed.
Lemma joined_append : forall r lead gs g, joined lead gs (s_append false r g) = joined (r :: lead) gs g.
Proof.
  intros r lead gs g. destruct (rev g) as [|p q] eqn:E.
  - apply (f_equal (@rev _)) in E. rewrite rev_involutive in E. cbn in E. subst. destruct lead; reflexivity.
  - apply (f_equal (@rev _)) in E. rewrite rev_involutive in E. cbn in E. subst. rewrite append_last. unfold joined. rewrite !rev_app_distr. cbn [rev app]. rewrite !rev_involutive.
    destruct lead as [|a lead]; rewrite <- ?app_assoc; reflexivity.
Qed.
Lemma groups_in_made : forall l lead gs, groups_in l lead gs -> exists its, mapM new_item l = Ok its /\ forall g, s_init its g = joined lead gs g.
Proof.
  induction 1 as [|r l lead gs _ (its & E & S)|r rs l lead gs _ (its & E & S)|l lead gs _ (its & E & S)].
  - exists []. split; auto. intros g. cbn. now rewrite app_nil_r.
  - exists (OneItem r :: its). cbn. rewrite E. split; auto. intros g. cbn. rewrite S. apply joined_append.
  - exists (GroupItem (r :: rs) :: its). cbn. rewrite (proj2 (check_types (map VRange rs) rs) eq_refl). cbn. rewrite E. split; auto.
    intros g. cbn. rewrite S. unfold joined. rewrite rev_app_distr. cbn. rewrite rev_involutive. destruct lead as [|a lead]; rewrite <- ?app_assoc; cbn; rewrite ?app_nil_r; reflexivity.
  - exists (GroupItem [] :: its). cbn. rewrite E. split; [reflexivity|exact S].
Qed.
Lemma groups_exist : forall l, Forall fit l -> exists lead gs, groups_in l lead gs.
Proof.
  induction 1 as [|x l Hx _ (lead & gs & G)]; [exists [], []; constructor|]. destruct Hx as [(r & ->)|(q & -> & F)].
  - exists (r :: lead), gs. now constructor.
  - assert (X : exists rs, q = map VRange rs).
    { clear - F. induction F as [|y q (r & ->) _ (rs & ->)]; [exists []; auto|exists (r :: rs); auto]. }
    destruct X as ([|r rs] & ->); [exists lead, gs; now constructor|exists [], ((r :: rs ++ lead) :: gs); now apply in_group].
Qed.
Lemma groups_fit : forall l lead gs, groups_in l lead gs -> Forall fit l.
Proof.
  induction 1; constructor; auto.
  - left. eauto.
  - right. eexists. split; [auto|]. clear. induction (r :: rs); constructor; eauto.
  - right. eexists. split; [auto|]. constructor.
Qed.
Lemma new_items_made : forall l g, groups_made l g -> exists s, new_items l = Ok s /\ shows s g.
Proof.
  intros l g (lead & gs & G & ->). destruct (groups_in_made _ _ _ G) as (its & E & S). unfold new_items. rewrite E. cbn [bind].
  destruct (init_state its) as (t & h & Et & St & V). exists t. split; auto. rewrite S in V. cbn in V. pose proof (state_shows _ _ _ _ St) as Sh. rewrite V in Sh. destruct lead; exact Sh.
Qed.
Lemma groups_made_unique : forall l g g', groups_made l g -> groups_made l g' -> g = g'.
Proof.
  intros l g g' H H'. destruct (new_items_made _ _ H) as (s & E & (_ & _ & N & _)), (new_items_made _ _ H') as (s' & E' & (_ & _ & N' & _)). congruence.
Qed.

(** ** Groups added one after the other *)
Lemma init_nonempty : forall A (g k : list (list A)), s_init (map GroupItem g) k = k ++ no_empty g.
Proof.
  intros A. induction g as [|p g IH]; intros k; cbn; [now rewrite app_nil_r|]. rewrite IH. destruct p; cbn; [auto|]. now rewrite <- app_assoc.
Qed.
Lemma fold_groups : forall gs s, fold_left (fun m g => h <- m ;; append_group g h) gs (Ok s) = add_all (map GroupItem gs) s :> res heap.
Proof.
  assert (X : forall gs x, fold_left (fun m g => h <- m ;; append_group g h) gs (Err x) = Err x :> res heap).
  { induction gs as [|g gs IH]; intros x; cbn; auto. }
  induction gs as [|g gs IH]; intros s; cbn; auto. destruct (append_group g s); cbn [bind]; auto.
Qed.
Lemma added_groups : forall gs, exists s : heap, fold_left (fun m g => h <- m ;; append_group g h) gs (Ok (clear g_new)) = Ok s /\ shows s (no_empty gs).
Proof.
  intros gs. rewrite fold_groups. destruct (init_state (map GroupItem gs)) as (t & h & E & S & V). exists t. split; [exact E|].
  rewrite init_nonempty in V. cbn in V. rewrite <- V. eapply state_shows; eauto.
Qed.
Lemma empty_shows : shows (clear (@g_new range)) [].
Proof. destruct (added_groups []) as (s & E & H). cbn in E. inv E. exact H. Qed.
Lemma no_empty_full : forall A (g : list (list A)), full_groups g -> no_empty g = g.
Proof. intros A g F. induction F as [|p g Hp _ IH]; auto. cbn. destruct p; [contradiction|]. unfold no_empty in IH. now rewrite IH. Qed.

(** ** Adding items of any class *)
Lemma seq_raise : forall s x k, seq_run (raise s x) k = raise s x.
Proof. reflexivity. Qed.
Lemma any_add_good : forall rs ng (s : heap) h O rest, state s h O ->
  exists t h', any_add (map VRange rs ++ rest) ng s = any_add rest (match rs with [] => ng | _ => false end) t /\ state t h' O /\
    values h' = (if ng then s_append_group rs (values h) else s_extend rs (values h)) /\ (rest = [] -> call (if ng then append_group rs else extend rs) s = (t, Ok tt)).
Proof.
  assert (X : forall rs (s : heap) h O rest, state s h O ->
    exists t h', any_add (map VRange rs ++ rest) false s = any_add rest false t /\ state t h' O /\ values h' = s_extend rs (values h) /\ extend rs s = Ok t).
  { induction rs as [|r rs IH]; intros s h O rest H.
    - exists s, h. auto.
    - cbn [map app any_add]. unfold any_append, let_run. cbn [check_type]. unfold call. destruct (append_state s h O false r H) as (t & E & S & _). rewrite E. cbn [seq_run].
      destruct (IH t _ O rest S) as (u & h' & Eu & Su & V & Ex). exists u, h'. split; [exact Eu|]. split; auto. split.
      + rewrite V, values_append. reflexivity.
      + cbn [extend]. rewrite E. exact Ex. }
  intros rs [|] s h O rest H.
  - destruct rs as [|r rs]; [exists s, h; cbn; auto|]. cbn [map app any_add]. unfold any_append, let_run. cbn [check_type]. unfold call at 1.
    destruct (append_state s h O true r H) as (t & E & S & (F & _)). rewrite E. cbn [seq_run].
    destruct (X rs t _ O rest S) as (u & h' & Eu & Su & V & Ex). exists u, h'. split; [exact Eu|]. split; auto. split.
    + rewrite V, values_append. rewrite append_group_steps. reflexivity.
    + intros _. unfold call. cbn [append_group]. rewrite E. cbn [bind]. now rewrite Ex.
  - destruct (X rs s h O rest H) as (u & h' & Eu & Su & V & Ex). exists u, h'. replace (match rs with [] => false | _ => false end) with false by now destruct rs.
    split; auto. split; auto. split; auto. intros _. unfold call. now rewrite Ex.
Qed.

(** ** Comparisons of Python values *)
Lemma same_by_spec : forall {A} (f : A -> A -> bool), (forall x y, f x y = true <-> x = y) -> forall l m, same_by f l m = true <-> l = m.
Proof.
  intros A f H. induction l as [|x l IH]; intros [|y m]; cbn; split; try congruence; auto.
  - intros E. apply andb_prop in E. destruct E as (E1 & E2). apply H in E1. apply IH in E2. congruence.
  - intros E. inversion E; subst. apply andb_true_intro. split; [now apply H|now apply IH].
Qed.
Lemma range_eqb_iff : forall a b, range_eqb a b = true <-> a = b.
Proof. intros [s t] [s' t']. unfold range_eqb. cbn. rewrite andb_true_iff, !verse_eqb_eq. split; [intros (-> & ->); auto|intros H; inversion H; auto]. Qed.
Lemma py_eqb_spec : forall a b, py_eqb a b = true <-> a = b /\ plain_value a.
Proof.
  fix IH 1. intros a b. destruct a as [|m|s|k|v|r|l|l|l|], b as [|m'|s'|k'|v'|r'|l'|l'|l'|]; cbn [py_eqb];
    try (split; [discriminate|intros (E & X); inversion X; discriminate]).
  - split; auto. intros _. split; auto. constructor.
  - rewrite Z.eqb_eq. split; [intros ->; split; auto; constructor|intros (E & _); congruence].
  - rewrite (same_by_spec _ Ascii.eqb_eq). split; [intros ->; split; auto; constructor|intros (E & _); congruence].
  - rewrite book_eqb_eq. split; [intros ->; split; auto; constructor|intros (E & _); congruence].
  - rewrite verse_eqb_eq. split; [intros ->; split; auto; constructor|intros (E & _); congruence].
  - rewrite range_eqb_iff. split; [intros ->; split; auto; constructor|intros (E & _); congruence].
  - rewrite (same_by_spec _ (same_by_spec _ range_eqb_iff)). split; [intros ->; split; auto; constructor|intros (E & _); congruence].
  - assert (X : same_by py_eqb l l' = true <-> l = l' /\ Forall plain_value l).
    { revert l'. induction l as [|x l IHl]; intros [|y l']; cbn [same_by]; try (split; [discriminate|intros (E & _); discriminate]).
      - split; auto.
      - rewrite andb_true_iff, IH. specialize (IHl l'). cbn [same_by] in IHl. rewrite IHl. split.
        + intros ((-> & P) & (-> & Q)). split; auto.
        + intros (E & P). inversion E; subst. inversion P; subst. auto. }
    rewrite X. split; [intros (-> & P); split; auto; now constructor|intros (E & P); split; [congruence|now inversion P]].
Qed.
Lemma py_gt_lists : forall e l m q, py_gt e (VSeq l) (VSeq m) = q <-> lists_after (py_gt e) l m q.
Proof.
  intros e l. cbn [py_gt]. induction l as [|x l IH]; intros m q.
  - split.
    + intros <-. exists [], [], m. repeat split; auto.
    + intros (p & l' & m' & E & -> & _ & C). destruct p, l'; try discriminate. destruct C as [(_ & ->)|[(X & _)|(x & y & l2 & m2 & X & _)]]; [auto|congruence|discriminate].
  - destruct m as [|y m].
    + split.
      * intros <-. exists [], (x :: l), []. split; auto. split; auto. split; [constructor|]. right. left. split; [discriminate|auto].
      * intros (p & l' & m' & E & E' & _ & C). destruct p, m'; try discriminate. cbn in E. subst l'. destruct C as [(X & _)|[(_ & _ & ->)|(x' & y & l2 & m2 & _ & X & _)]]; [discriminate|auto|discriminate].
    + destruct (py_eqb x y) eqn:Ex.
      * apply py_eqb_spec in Ex. destruct Ex as (-> & P). rewrite IH. split.
        -- intros (p & l' & m' & -> & -> & F & C). exists (y :: p), l', m'. repeat split; auto.
        -- intros (p & l' & m' & E & E' & F & C). destruct p as [|z p].
           { exfalso. cbn in E, E'. subst l' m'. destruct C as [(X & _)|[(_ & X & _)|(x' & y' & l2 & m2 & X & X' & N & _)]]; try discriminate. inversion X; inversion X'; subst. now apply N. }
           cbn in E, E'. inversion E; inversion E'; subst. inversion F; subst. exists p, l', m'. auto.
      * assert (N : ~ (x = y /\ plain_value x)) by (rewrite <- py_eqb_spec; congruence). split.
        -- intros <-. exists [], (x :: l), (y :: m). split; auto. split; auto. split; [constructor|]. right. right. exists x, y, l, m. auto.
        -- intros (p & l' & m' & E & E' & F & C). destruct p as [|z p].
           { cbn in E, E'. subst l' m'. destruct C as [(X & _)|[(_ & X & _)|(x' & y' & l2 & m2 & X & X' & _ & ->)]]; try discriminate. inversion X; inversion X'; subst; auto. }
           exfalso. cbn in E, E'. inversion E; inversion E'; subst. inversion F; subst. now apply N.
Qed.
