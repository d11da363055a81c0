(** * PropNode: theorems on the methods of [BibleRangeList], node by node (C59-C61). *)
From Coq Require Import List ZArith Bool Arith Lia Permutation.
From Verif Require Import Base Books Data DefaultData MVerse MRange Spec PDefault PropVerse PSetOps MSeq MList PSort SpecList PListOps PListDiff
  PropRange PropList MGroup SpecGroup PGroup PGroup2 PGroup6 PGroup7 PGroup8 PropGroup MNode SpecNode PNode PNode2 PNode3.
Import ListNotations.
Import Spec.
Open Scope Z_scope.

(** [insert_group_at] is never called for an item that begins a group other than the first (that is C29). *)
Fixpoint unharmed_run (eqb : range -> range -> bool) (e : env) (os : list lop) (s : heap) : Prop :=
  match os with
  | [] => True
  | o :: os' => (forall g, to_nested_lists s = Ok g -> unharmed o g) /\ unharmed_run eqb e os' (snd (n_step eqb e o s))
  end.
(** [s] is a list as it is after a history of operations, and [g] its contents. *)
Definition kept_list (eqb : range -> range -> bool) (e : env) (os : list lop) (s : heap) (g : rlist) : Prop :=
  unharmed_run eqb e os g_new /\ s = snd (n_run eqb e os g_new) /\ to_nested_lists s = Ok g.

Lemma ends_effect : forall r m rest O, ends r m rest O -> exists h', state (snd (done r)) h' O /\ effect m rest (fst (done r)) (values h').
Proof.
  intros (s & q) m rest O (h' & S & Q & I & V). exists h'. cbn in *. split; auto. unfold effect. subst q. split; [destruct m; reflexivity|]. split; auto.
Qed.
Lemma nested_state : forall (s : heap) h O, state s h O -> to_nested_lists s = Ok (values h).
Proof. intros s h O H. apply (read_state s h O H). Qed.
Lemma step_effect : forall eqb e o (s : heap) h O, state s h O -> unharmed o (values h) ->
  exists h' O', state (snd (n_step eqb e o s)) h' O' /\ l_effect eqb e o (values h) (fst (n_step eqb e o s)) (values h').
Proof.
  intros eqb e o s h O H U. destruct o as [o|re|fl|fl|x fl|x fl|n x fl|n x fl| |]; cbn [n_step l_effect].
  - assert (X : exists q, s_step eqb (rleb e) o (fresh s) h = Some q).
    { destruct o; cbn [s_step]; eauto. specialize (U i). destruct (spot_twice (zlen (concat h)) i) as [k|] eqn:Ek; eauto.
      assert (L : later_head k h = false).
      { rewrite <- (later_head_map snd). apply (U k eq_refl). rewrite values_items. unfold zlen. rewrite map_length. exact Ek. }
      rewrite L. eauto. }
    destruct X as (q & Eq). pose proof (step_state eqb (rleb e) o s h O q H Eq) as A. destruct q as [(r & n & h')|x].
    + destruct A as (t & O' & Et & S & _). rewrite Et. exists h', O'. split; auto. exists (fresh s), h. rewrite Eq. auto.
    + cbn in A. rewrite A. exists h, O. split; auto. exists (fresh s), h. rewrite Eq. auto.
  - destruct (ends_effect _ _ _ _ (sort_ends e re s h O H)) as (h' & S & E). eauto.
  - destruct (ends_effect _ _ _ _ (regroup_ends e fl s h O H)) as (h' & S & E). eauto.
  - destruct (ends_effect _ _ _ _ (merge_ends e fl s h O H)) as (h' & S & E). eauto.
  - destruct (ends_effect _ _ _ _ (union_update_ends e x fl s h O H)) as (h' & S & E). eauto.
  - destruct (refill_ends _ _ s h O H (intersection_gives e x fl s h O H)) as (O' & En & Er). fold (n_intersection_update e x fl s) in En, Er.
    destruct (l_intersection e (values h) x fl) as [g|ex] eqn:Ei; unfold intersection_update; rewrite Ei; cbn [bind] in *.
    + destruct (ends_effect _ _ _ _ En) as (h' & S & Ef). exists h', O'. split; auto. split; [|discriminate]. unfold effect in *. destruct Ef as (F1 & F2 & F3).
      split; auto. split; auto. unfold items in F2. rewrite F2. change (concat (g_extend (concat g) [])) with (items (g_extend (concat g) [])). now rewrite items_extend.
    + rewrite (Er ex eq_refl). exists h, O. cbn. split; auto. split; [|auto]. unfold effect. split; auto. split; auto. discriminate.
  - destruct (ends_effect _ _ _ _ (difference_update_ends e n x fl s h O H)) as (h' & S & E). eauto.
  - destruct (refill_ends _ _ s h O H (sym_difference_gives e n x fl s h O H)) as (O' & En & Er). fold (n_sym_difference_update e n x fl s) in En, Er.
    destruct (l_sym_difference e n (values h) x fl) as [g|ex] eqn:Ei; unfold sym_difference_update; rewrite Ei; cbn [bind] in *.
    + destruct (ends_effect _ _ _ _ En) as (h' & S & Ef). exists h', O'. split; auto. split; [|discriminate]. unfold effect in *. destruct Ef as (F1 & F2 & F3).
      split; auto. split; auto. unfold items in F2. rewrite F2. change (concat (g_extend (concat g) [])) with (items (g_extend (concat g) [])). now rewrite items_extend.
    + rewrite (Er ex eq_refl). exists h, O. cbn. split; auto. split; [|auto]. unfold effect. split; auto. split; auto. discriminate.
  - destruct (ends_effect _ _ _ _ (map_ends (r_verse_0_to_1 e) s h O H)) as (h' & S & E). eauto.
  - destruct (ends_effect _ _ _ _ (map_ends (r_verse_1_to_0 e) s h O H)) as (h' & S & E). eauto.
Qed.
Lemma run_effects : forall eqb e os (s : heap) h O, state s h O -> unharmed_run eqb e os s ->
  exists h' O', state (snd (n_run eqb e os s)) h' O' /\ l_history eqb e os (values h) (fst (n_run eqb e os s)) (values h').
Proof.
  intros eqb e. induction os as [|o os IH]; intros s h O H U; cbn [n_run unharmed_run fst snd] in *.
  - exists h, O. split; auto. constructor.
  - destruct U as (U1 & U2). destruct (step_effect eqb e o s h O H (U1 _ (nested_state s h O H))) as (h1 & O1 & S1 & E1).
    destruct (IH _ h1 O1 S1 U2) as (h2 & O2 & S2 & E2). exists h2, O2. split; auto. econstructor; eauto.
Qed.
Lemma kept_state : forall eqb e os s g, kept_list eqb e os s g -> exists h O, state s h O /\ values h = g.
Proof.
  intros eqb e os s g (U & -> & E). destruct (run_effects eqb e os g_new [] [] state_new U) as (h & O & S & _). exists h, O. split; auto.
  rewrite (nested_state _ _ _ S) in E. congruence.
Qed.

(** ** C59 *)
(** Every history of operations on a list of ranges, with methods that return and methods that raise: the list stays well
    linked, all ways of reading it agree, and results, exceptions and contents are those of the plain lists of groups. *)
Theorem C59_history : forall eqb e os, unharmed_run eqb e os g_new ->
  exists g, l_history eqb e os [] (fst (n_run eqb e os g_new)) g /\ shows (snd (n_run eqb e os g_new)) g.
Proof.
  intros eqb e os U. destruct (run_effects eqb e os g_new [] [] state_new U) as (h & O & S & E). exists (values h). split; auto. eapply state_shows; eauto.
Qed.
(** New lists that methods make: well linked, with the contents that the plain functions give. *)
Definition makes (q : res heap) (m : res rlist) : Prop := match m with Ok g => exists t, q = Ok t /\ shows t g | Err x => q = Err x end.
Lemma gives_makes : forall q m, gives q m -> makes q m.
Proof. intros q [g|x]; cbn; auto. intros (t & h & E & S & <-). exists t. split; auto. eapply state_shows; eauto. Qed.
Theorem C59_new_lists : forall eqb e os s g x fl n, kept_list eqb e os s g ->
  makes (n_copy s) (Ok g) /\
  makes (n_union e x fl s) (l_union e g x fl) /\
  makes (n_intersection e x fl s) (l_intersection e g x fl) /\
  makes (n_difference e n x fl s) (l_difference e n g x fl) /\
  makes (n_sym_difference e n x fl s) (l_sym_difference e n g x fl).
Proof.
  intros eqb e os s g x fl n H. destruct (kept_state _ _ _ _ _ H) as (h & O & S & <-). split; [|split; [|split; [|split]]].
  - destruct (copy_gives s h O S) as (t & k & E & St & V). exists t. split; auto. rewrite <- V. eapply state_shows; eauto.
  - apply gives_makes. eapply union_gives; eauto.
  - apply gives_makes. eapply intersection_gives; eauto.
  - apply gives_makes. eapply difference_gives; eauto.
  - apply gives_makes. eapply sym_difference_gives; eauto.
Qed.
(** [merge] and the others are not idle: a history. *)
Definition reqb (a b : range) : bool := verse_eqb (rstart a) (rstart b) && verse_eqb (rend a) (rend b).
Definition story : list lop :=
  [LBase (OExtend [R (V Rev 1 1) (V Rev 1 3); R (V Gen 1 1) (V Gen 1 5); R (V Gen 1 4) (V Gen 1 8)]); LMerge None;
   LUnion (BR (R (V Gen 2 1) (V Gen 2 3))) None; LDiff 20 (BV (V Gen 1 3)) None; LBase (OAppend true (R (V Gen 50 26) (V Exod 1 1)));
   LUnion (BR (R (V Exod 1 1) (V Exod 1 2))) None; LInter (BR (R (V Gen 1 1) (V Gen 50 1))) (Some MULTIBOOK); LSym 20 (BV (V Gen 1 1)) None; LSym 20 (BV (V Gen 2 4)) None; LSort true; LRegroup None;
   LZeroToOne; LOneToZero].
Example C59_story : unharmed_run reqb (denv NONE) story g_new /\
  to_nested_lists (snd (n_run reqb (denv NONE) story g_new)) = Ok [[R (V Gen 1 1) (V Gen 1 2); R (V Gen 1 4) (V Gen 1 8)]; [R (V Gen 2 1) (V Gen 2 4)]] /\
  fst (n_run reqb (denv NONE) story g_new) = [Ok None; Ok None; Ok None; Ok None; Ok None; Err Multibook; Ok None; Err AttrErr; Ok None; Ok None; Ok None; Ok None; Ok None].
Proof.
  split; [|vm_compute; auto]. unfold story. cbn [unharmed_run]. repeat (split; [intros g _ i k E; discriminate|]). exact I.
Qed.

(** ** C60 *)
(** An operation that raises leaves the list as it was: *)
Definition C60_statement : Prop := forall eqb e os s g o x, kept_list eqb e os s g -> unharmed o g -> fst (n_step eqb e o s) = Err x ->
  to_nested_lists (snd (n_step eqb e o s)) = Ok g.
(** True of the operations of grouped lists, of [intersection_update] and of [symmetric_difference_update]. *)
Theorem C60_unchanged_partial : forall eqb e os s g o x, kept_list eqb e os s g -> unharmed o g ->
  match o with LBase _ | LInter _ _ | LSym _ _ _ => True | _ => False end -> fst (n_step eqb e o s) = Err x ->
  snd (n_step eqb e o s) = s.
Proof.
  intros eqb e os s g o x H U Ho Hx. destruct (kept_state _ _ _ _ _ H) as (h & O & S & <-).
  destruct o as [o|re|fl|fl|y fl|y fl|n y fl|n y fl| |]; try contradiction; cbn [n_step] in *.
  - destruct (h_step eqb (rleb e) o s) as [(r & t)|ex]; [discriminate|reflexivity].
  - destruct (refill_ends _ _ s h O S (intersection_gives e y fl s h O S)) as (O' & (h' & _ & En & _) & Er). fold (n_intersection_update e y fl s) in En, Er.
    unfold done in *. cbn [fst snd] in *. rewrite En in Hx. destruct (l_intersection e (values h) y fl) as [i|ex]; [discriminate|]. now rewrite (Er ex eq_refl).
  - destruct (refill_ends _ _ s h O S (sym_difference_gives e n y fl s h O S)) as (O' & (h' & _ & En & _) & Er). fold (n_sym_difference_update e n y fl s) in En, Er.
    unfold done in *. cbn [fst snd] in *. rewrite En in Hx. destruct (l_sym_difference e n (values h) y fl) as [i|ex]; [discriminate|]. now rewrite (Er ex eq_refl).
Qed.
(** [merge] raises after it has sorted the list and merged some of it. *)
Definition two_books : rlist := [[R (V Rev 1 1) (V Rev 1 1); R (V Exod 1 1) (V Exod 1 2); R (V Gen 50 26) (V Exod 1 1)]; [R (V Gen 1 2) (V Gen 1 2); R (V Gen 1 1) (V Gen 1 1)]].
Theorem C60_refuted : exists eqb e os s g o, wf_data (ed e) /\ legal_list e false (items g) /\ kept_list eqb e os s g /\ unharmed o g /\
  fst (n_step eqb e o s) = Err Multibook /\
  to_nested_lists (snd (n_step eqb e o s)) =
    Ok [[R (V Gen 1 1) (V Gen 1 2); R (V Gen 50 26) (V Exod 1 1); R (V Exod 1 1) (V Exod 1 2); R (V Rev 1 1) (V Rev 1 1)]] /\
  ~ C60_statement.
Proof.
  set (os := map (fun p => LBase (OAppendGroup p)) two_books). set (o := LMerge None).
  assert (K : kept_list reqb (denv NONE) os (snd (n_run reqb (denv NONE) os g_new)) two_books).
  { split; [|split; [reflexivity|vm_compute; reflexivity]]. unfold os. cbn [map two_books unharmed_run]. repeat (split; [intros g _ i k E; discriminate|]). exact I. }
  assert (U : unharmed o two_books) by (intros i k E; discriminate).
  assert (X : fst (n_step reqb (denv NONE) o (snd (n_run reqb (denv NONE) os g_new))) = Err Multibook) by (vm_compute; reflexivity).
  exists reqb, (denv NONE), os, (snd (n_run reqb (denv NONE) os g_new)), two_books, o.
  split; [exact default_wf|]. split; [legal|]. split; [exact K|]. split; [exact U|]. split; [exact X|]. split; [vm_compute; reflexivity|].
  intros C. specialize (C _ _ _ _ _ _ _ K U X). vm_compute in C. discriminate.
Qed.
(** No verse is lost or added when [sort], [regroup], [merge] or [union_update] is broken off ... *)
Theorem C60_verses_partial : forall eqb e os s g o x g', wf_data (ed e) -> kept_list eqb e os s g -> legal_list e true (items g) ->
  fst (n_step eqb e o s) = Err x -> to_nested_lists (snd (n_step eqb e o s)) = Ok g' ->
  match o with
  | LSort _ | LRegroup _ => same_verses (ed e) true (items g') (items g)
  | LMerge fl => legal_list e true (items g') /\ same_verses (ed e) (zero_on e fl) (items g') (items g)
  | LUnion y fl => legal_list e true (ref_list y) -> legal_list e true (items g') /\ same_verses (ed e) (zero_on e fl) (items g') (items g ++ ref_list y)
  | _ => True
  end.
Proof.
  intros eqb e os s g o x g' Hwf H Hl Hx Hg. destruct (kept_state _ _ _ _ _ H) as (h & O & S & <-).
  destruct o as [o|re|fl|fl|y fl|y fl|n y fl|n y fl| |]; auto.
  - destruct (ends_effect _ _ _ _ (sort_ends e re s h O S)) as (h' & S' & _ & E & _). cbn [n_step] in Hg. rewrite (nested_state _ _ _ S') in Hg. injection Hg as <-.
    unfold items in *. rewrite E. now apply sort_same.
  - destruct (ends_effect _ _ _ _ (regroup_ends e fl s h O S)) as (h' & S' & _ & E & _). cbn [n_step] in Hg. rewrite (nested_state _ _ _ S') in Hg. injection Hg as <-.
    unfold items in *. rewrite E. intros v _. reflexivity.
  - destruct (ends_effect _ _ _ _ (merge_ends e fl s h O S)) as (h' & S' & _ & E & _). cbn [n_step] in Hg. rewrite (nested_state _ _ _ S') in Hg. injection Hg as <-.
    unfold items in *. rewrite E. now apply merge_rest_same.
  - intros Hy. destruct (ends_effect _ _ _ _ (union_update_ends e y fl s h O S)) as (h' & S' & _ & E & _). cbn [n_step] in Hg. rewrite (nested_state _ _ _ S') in Hg. injection Hg as <-.
    rewrite (ref_ranges_ok e Hwf) in E by auto. unfold items in *. rewrite E. apply merge_rest_same; auto. now apply Forall_app.
Qed.
(** ... and [difference_update], broken off or not, leaves verses of the list only, and all of those that the other
    reference does not have. *)
Theorem C60_difference_partial : forall eqb e os s g n y fl g', wf_data (ed e) -> zero_on e fl = verse0 (eg e) -> kept_list eqb e os s g ->
  legal_list e (zero_on e fl) (items g) -> legal_list e (zero_on e fl) (ref_list y) ->
  to_nested_lists (snd (n_step eqb e (LDiff n y fl) s)) = Ok g' ->
  legal_list e (zero_on e fl) (items g') /\
  forall v, InB (ed e) (zero_on e fl) v ->
    (InL (ed e) v (items g') -> InL (ed e) v (items g)) /\
    (InL (ed e) v (items g) -> ~ InL (ed e) v (ref_list y) -> InL (ed e) v (items g')).
Proof.
  intros eqb e os s g n y fl g' Hwf Hz H Hl Hy Hg. destruct (kept_state _ _ _ _ _ H) as (h & O & S & <-).
  destruct (ends_effect _ _ _ _ (difference_update_ends e n y fl s h O S)) as (h' & S' & _ & E & _). cbn [n_step] in Hg. rewrite (nested_state _ _ _ S') in Hg. injection Hg as <-.
  unfold items in *. rewrite E. destruct (diff_rest_between e Hwf fl Hz n y _ Hl Hy) as (W1 & W2 & W3). split; [exact W1|]. intros v Hv. split; auto.
Qed.
(** A difference broken off at the first verse of the Bible: Gen 1:3 has gone, Gen 1:1 has not. *)
Example C60_difference_ex :
  let s := snd (n_run reqb (denv NONE) [LBase (OExtend [R (V Gen 1 1) (V Gen 1 5)])] g_new) in
  let r := n_step reqb (denv NONE) (LDiff 20 (BL [[R (V Gen 1 3) (V Gen 1 3); R (V Gen 1 1) (V Gen 1 1)]]) None) s in
  fst r = Err AttrErr /\ to_nested_lists (snd r) = Ok [[R (V Gen 1 1) (V Gen 1 2); R (V Gen 1 4) (V Gen 1 5)]].
Proof. vm_compute. auto. Qed.

(** ** C61 *)
(** [l |= l] is [l] merged: *)
Definition C61_statement : Prop := forall eqb e os s g fl, kept_list eqb e os s g ->
  exists n r, n_union_update_self e n fl s = r /\ snd r <> Err Diverge.
(** It never ends, unless the list is empty. *)
Theorem C61_diverges : forall eqb e os s g fl n, kept_list eqb e os s g ->
  snd (n_union_update_self e n fl s) = match g with [] => Ok tt | _ => Err Diverge end.
Proof.
  intros eqb e os s g fl n H. destruct (kept_state _ _ _ _ _ H) as (h & O & S & <-). unfold n_union_update_self, call.
  destruct h as [|p h].
  - assert (E : extend_self n s = Ok s).
    { unfold extend_self. rewrite (flat_first s [] O S). destruct n; reflexivity. }
    rewrite E. cbn [seq_run values map]. destruct (merge_ends e fl s [] O S) as (h' & _ & E' & _). rewrite E'. reflexivity.
  - rewrite (extend_self_diverges n s (p :: h) O S) by discriminate. reflexivity.
Qed.
Theorem C61_refuted : exists eqb e os s g, wf_data (ed e) /\ legal_list e false (items g) /\ kept_list eqb e os s g /\
  (forall n, snd (n_union_update_self e n None s) = Err Diverge) /\ ~ C61_statement.
Proof.
  set (os := [LBase (OAppend false (R (V Gen 1 1) (V Gen 1 1)))]).
  assert (K : kept_list reqb (denv NONE) os (snd (n_run reqb (denv NONE) os g_new)) [[R (V Gen 1 1) (V Gen 1 1)]]).
  { split; [|split; [reflexivity|vm_compute; reflexivity]]. split; [|exact I]. intros g _ i k E. discriminate. }
  exists reqb, (denv NONE), os, (snd (n_run reqb (denv NONE) os g_new)), [[R (V Gen 1 1) (V Gen 1 1)]].
  split; [exact default_wf|]. split; [legal|]. split; [exact K|].
  assert (D : forall n, snd (n_union_update_self (denv NONE) n None (snd (n_run reqb (denv NONE) os g_new))) = Err Diverge).
  { intros n. exact (C61_diverges _ _ _ _ _ None n K). }
  split; [exact D|]. intros C. destruct (C _ _ _ _ _ None K) as (n & r & E & Hr). apply Hr. rewrite <- E. apply D.
Qed.
