(** * PCore: the enumeration of verses, and the basic numbering functions. *)
From Coq Require Import List ZArith Bool Lia Sorted.
From Verif Require Import Base Books Data MVerse MRange Spec PList.
Import ListNotations.
Open Scope Z_scope.

Lemma sorted_of_nth : forall {A} (R : A -> A -> Prop) l,
  (forall i j a b, nth_error l i = Some a -> nth_error l j = Some b -> (i < j)%nat -> R a b) ->
  StronglySorted R l.
Proof.
  induction l; intros H; constructor.
  - apply IHl. intros i j x y Hi Hj Hij. apply (H (S i) (S j)); auto. lia.
  - rewrite Forall_forall. intros x Hx. apply In_nth_error in Hx. destruct Hx as [n Hn].
    apply (H 0%nat (S n)); auto. lia.
Qed.

Lemma verse_eqb_eq : forall a b, verse_eqb a b = true <-> a = b.
Proof.
  intros [b1 c1 v1] [b2 c2 v2]. unfold verse_eqb. simpl.
  rewrite !andb_true_iff, book_eqb_eq, !Z.eqb_eq. split; [intros [[-> ->] ->]; auto|].
  intros H. injection H. auto.
Qed.
Lemma verse_eqb_refl : forall a, verse_eqb a a = true.
Proof. intros. now apply verse_eqb_eq. Qed.
Lemma verse_eqb_neq : forall a b, verse_eqb a b = false <-> a <> b.
Proof. intros a b. rewrite <- (verse_eqb_eq a b). destruct (verse_eqb a b); split; congruence. Qed.

Definition verse_eq_dec : forall a b : verse, {a = b} + {a <> b}.
Proof.
  intros a b. destruct (verse_eqb a b) eqn:E; [left|right].
  - now apply verse_eqb_eq.
  - now apply verse_eqb_neq.
Defined.

Lemma range_eqb_eq : forall a b, range_eqb a b = true <-> a = b.
Proof.
  intros [s t] [s' t']. unfold range_eqb. simpl. rewrite andb_true_iff, !verse_eqb_eq.
  split; [intros [-> ->]; auto|]. intros H. injection H. auto.
Qed.

Lemma vltb_irrefl : forall e a, vltb e a a = false.
Proof. intros e a. unfold vltb. rewrite book_eqb_refl, Z.eqb_refl. apply Z.ltb_irrefl. Qed.

Lemma vltb_trans : forall e a b c, vltb e a b = true -> vltb e b c = true -> vltb e a c = true.
Proof.
  intros e [b1 c1 v1] [b2 c2 v2] [b3 c3 v3]. unfold vltb. cbn [vbook vchap vverse].
  destruct (book_eq_dec b1 b2) as [E12|E12]; destruct (book_eq_dec b2 b3) as [E23|E23];
    destruct (book_eq_dec b1 b3) as [E13|E13]; subst; try congruence;
    rewrite ?book_eqb_refl; rewrite ?(proj2 (book_eqb_neq _ _)) by auto;
    try (destruct (Z.eqb_spec c1 c2); destruct (Z.eqb_spec c2 c3); destruct (Z.eqb_spec c1 c3));
    rewrite ?Z.ltb_lt; intros; subst; try lia.
Qed.

Lemma vltb_asym : forall e a b, vltb e a b = true -> vltb e b a = false.
Proof.
  intros e a b H. destruct (vltb e b a) eqn:E; [|reflexivity].
  pose proof (vltb_trans _ _ _ _ H E) as H'. rewrite vltb_irrefl in H'. discriminate.
Qed.

Lemma eff_eff : forall e fl, eff e (Some (eff e fl)) = eff e fl.
Proof.
  intros e fl. unfold eff. destruct fl as [f|].
  - destruct (flag_true f) eqn:E; rewrite ?E; auto. destruct (flag_true (eg e)); auto.
  - destruct (flag_true (eg e)); auto.
Qed.

(** [eff] is the identity on every flag that includes the effective flags. *)
Definition stable (e : env) (f : flag) : Prop := eff e (Some f) = f.
Lemma stable_eff : forall e fl, stable e (eff e fl).
Proof. intros. apply eff_eff. Qed.
Lemma stable_or_multi : forall e f, stable e (flag_or f MULTIBOOK).
Proof. intros e [m v]. unfold stable, eff, flag_or, flag_true. simpl. rewrite orb_true_r. reflexivity. Qed.
Lemma stable_or_v0 : forall e f, stable e (flag_or f VERSE_0).
Proof. intros e [m v]. unfold stable, eff, flag_or, flag_true. simpl. rewrite !orb_true_r. reflexivity. Qed.
Lemma stable_honour0 : forall e fl v, stable e (honour0 (eff e fl) v).
Proof. intros. unfold honour0. destruct (vverse v =? 0); auto using stable_or_v0, stable_eff. Qed.

Section Core.
Variable e : env.
Let d := ed e.
Hypothesis Hwf : wf_data d.

Lemma order_nth : forall b i, order d b = Some i <-> nth_error (book_order d) i = Some b.
Proof. destruct Hwf as [H _]. apply H. Qed.

Lemma order_in : forall b, In b (book_order d) <-> exists i, order d b = Some i.
Proof.
  intros b. split.
  - intros H. apply In_nth_error in H. destruct H as [i Hi]. exists i. now apply order_nth.
  - intros [i Hi]. apply order_nth in Hi. eapply nth_error_In; eauto.
Qed.

Lemma order_nodup : NoDup (book_order d).
Proof.
  apply NoDup_nth_error. intros i j Hi H.
  destruct (nth_error (book_order d) i) as [b|] eqn:E.
  - symmetry in H. apply order_nth in E. apply order_nth in H. congruence.
  - apply nth_error_None in E. lia.
Qed.

Lemma bord_nth : forall b i, nth_error (book_order d) i = Some b -> bord e b = Z.of_nat i.
Proof. intros b i H. apply order_nth in H. unfold bord. fold d. now rewrite H. Qed.

Lemma bord_inj : forall a b, In a (book_order d) -> In b (book_order d) -> bord e a = bord e b -> a = b.
Proof.
  intros a b Ha Hb H. apply In_nth_error in Ha. apply In_nth_error in Hb.
  destruct Ha as [i Hi], Hb as [j Hj]. rewrite (bord_nth _ _ Hi), (bord_nth _ _ Hj) in H.
  assert (i = j) by lia. subst. congruence.
Qed.

Lemma order_sorted : StronglySorted (fun a b => bord e a < bord e b) (book_order d).
Proof.
  apply sorted_of_nth. intros i j a b Hi Hj Hij.
  rewrite (bord_nth _ _ Hi), (bord_nth _ _ Hj). lia.
Qed.

(** Totality of the order on listed books. *)
Lemma vltb_total : forall a b, In (vbook a) (book_order d) -> In (vbook b) (book_order d) ->
  vltb e a b = false -> vltb e b a = false -> a = b.
Proof.
  intros [b1 c1 v1] [b2 c2 v2] H1 H2. unfold vltb. simpl in *.
  destruct (book_eqb b1 b2) eqn:E.
  - apply book_eqb_eq in E. subst. rewrite book_eqb_refl.
    destruct (Z.eqb_spec c1 c2).
    + subst. rewrite Z.eqb_refl, !Z.ltb_ge. intros. f_equal. lia.
    + destruct (Z.eqb_spec c2 c1); [lia|]. rewrite !Z.ltb_ge. lia.
  - destruct (book_eqb b2 b1) eqn:E'.
    + apply book_eqb_eq in E'. subst. rewrite book_eqb_refl in E. discriminate.
    + rewrite !Z.ltb_ge. intros. apply book_eqb_neq in E. destruct E. apply bord_inj; auto. lia.
Qed.

(** Tables of a listed book. *)
Lemma table : forall b, In b (book_order d) ->
  exists l, max_verses d b = Some l /\ l <> [] /\ Forall (fun m => 1 <= m) l.
Proof. destruct Hwf as [_ H]. exact H. Qed.

Lemma num_chaps_pos : forall b, In b (book_order d) -> 1 <= num_chaps d b.
Proof.
  intros b Hb. destruct (table b Hb) as [l [Hl [Hn _]]]. unfold num_chaps. rewrite Hl.
  unfold zlen. destruct l; [congruence|]. simpl. lia.
Qed.

Lemma last_num_pos : forall b c, In b (book_order d) -> 1 <= c <= num_chaps d b -> 1 <= last_num d b c.
Proof.
  intros b c Hb Hc. destruct (table b Hb) as [l [Hl [Hn Hf]]]. unfold num_chaps, last_num in *.
  rewrite Hl in *. unfold zlen in Hc. destruct (Z.leb_spec 1 c); [|lia].
  rewrite Forall_forall in Hf. apply Hf. apply nth_In. lia.
Qed.

Lemma first_num_01 : forall z b c, 0 <= first_num d z b c <= 1.
Proof. intros. unfold first_num. destruct (z && zmem c (verse_0s d b)); lia. Qed.

Lemma first_le_last : forall z b c, In b (book_order d) -> 1 <= c <= num_chaps d b ->
  first_num d z b c <= last_num d b c.
Proof. intros z b c Hb Hc. pose proof (last_num_pos b c Hb Hc). pose proof (first_num_01 z b c). lia. Qed.

Lemma first_num_le : forall b c, first_num d true b c <= first_num d false b c.
Proof. intros. unfold first_num. simpl. destruct (zmem c (verse_0s d b)); lia. Qed.

(** Model functions on a book with a table. *)
Lemma min_chap_1 : forall b l, max_verses d b = Some l -> min_chap_num e b = 1.
Proof. intros b l H. unfold min_chap_num. fold d. now rewrite H. Qed.
Lemma max_chap_eq : forall b, max_chap_num e b = num_chaps d b.
Proof. reflexivity. Qed.
Lemma bad_chap_eq : forall b l c, max_verses d b = Some l ->
  bad_chap e b c = negb ((1 <=? c) && (c <=? num_chaps d b)).
Proof.
  intros b l c H. unfold bad_chap. rewrite (min_chap_1 b l H), max_chap_eq.
  rewrite Z.gtb_ltb. destruct (Z.ltb_spec c 1); destruct (Z.leb_spec 1 c); try lia;
    destruct (Z.ltb_spec (num_chaps d b) c); destruct (Z.leb_spec c (num_chaps d b)); try lia; reflexivity.
Qed.

Lemma min_verse_eq : forall b l c fl, max_verses d b = Some l -> 1 <= c <= num_chaps d b ->
  min_verse_num e b c fl = Ok (first_num d (verse0 (eff e fl)) b c).
Proof.
  intros b l c fl H Hc. unfold min_verse_num. rewrite (bad_chap_eq b l c H).
  destruct (Z.leb_spec 1 c); [|lia]. destruct (Z.leb_spec c (num_chaps d b)); [|lia]. reflexivity.
Qed.

Lemma max_verse_eq : forall b l c, max_verses d b = Some l -> 1 <= c <= num_chaps d b ->
  max_verse_num e b c = Ok (last_num d b c).
Proof.
  intros b l c H Hc. unfold max_verse_num. rewrite (bad_chap_eq b l c H).
  destruct (Z.leb_spec 1 c); [|lia]. destruct (Z.leb_spec c (num_chaps d b)); [|lia]. simpl.
  unfold last_num. fold d. rewrite H. unfold num_chaps, zlen in Hc. rewrite H in Hc.
  unfold znth. destruct (Z.ltb_spec (c - 1) 0); [lia|]. destruct (Z.leb_spec 1 c); [|lia].
  rewrite (nth_error_nth' l 0) by lia. reflexivity.
Qed.

Lemma bad_chap_err : forall b l c fl, max_verses d b = Some l -> ~ (1 <= c <= num_chaps d b) ->
  bad_chap e b c = true /\ min_verse_num e b c fl = Err InvalidRef /\ max_verse_num e b c = Err InvalidRef.
Proof.
  intros b l c fl H Hc. assert (Hb : bad_chap e b c = true).
  { rewrite (bad_chap_eq b l c H). destruct (Z.leb_spec 1 c); destruct (Z.leb_spec c (num_chaps d b)); auto; lia. }
  unfold min_verse_num, max_verse_num. rewrite Hb. auto.
Qed.

(** C01, computational form. *)
Definition legalb (z : bool) (b : book) (c v : Z) : bool :=
  (1 <=? c) && (c <=? num_chaps d b) && (first_num d z b c <=? v) && (v <=? last_num d b c).

Lemma legalb_iff : forall z b c v, legalb z b c v = true <-> legal d z b c v.
Proof. intros. unfold legalb, legal. rewrite !andb_true_iff, !Z.leb_le. tauto. Qed.

Lemma new_verse_eq : forall b l c v fl, max_verses d b = Some l ->
  new_verse e b c v fl = if legalb (verse0 (eff e fl)) b c v then Ok (V b c v) else Err InvalidRef.
Proof.
  intros b l c v fl H. unfold new_verse, legalb. rewrite (bad_chap_eq b l c H).
  destruct (Z.leb_spec 1 c); simpl; [|reflexivity].
  destruct (Z.leb_spec c (num_chaps d b)); simpl; [|reflexivity].
  rewrite (min_verse_eq b l c fl H) by lia. simpl.
  destruct (Z.ltb_spec v (first_num d (verse0 (eff e fl)) b c));
    destruct (Z.leb_spec (first_num d (verse0 (eff e fl)) b c) v); try lia; simpl; auto.
  rewrite (max_verse_eq b l c H) by lia. simpl. rewrite Z.gtb_ltb.
  destruct (Z.ltb_spec (last_num d b c) v); destruct (Z.leb_spec v (last_num d b c)); auto; lia.
Qed.

Lemma new_verse_ok : forall b l c v fl, max_verses d b = Some l ->
  legal d (verse0 (eff e fl)) b c v -> new_verse e b c v fl = Ok (V b c v).
Proof. intros. rewrite (new_verse_eq b l c v fl H). apply legalb_iff in H0. now rewrite H0. Qed.

Lemma legal_mono : forall z b c v, legal d z b c v -> legal d true b c v.
Proof.
  intros z b c v [H1 H2]. split; [assumption|]. destruct z; [assumption|].
  pose proof (first_num_le b c). lia.
Qed.

(** Membership in the enumerations. *)
Lemma in_chap_verses : forall z b c v,
  In v (chap_verses d z b c) <->
  vbook v = b /\ vchap v = c /\ first_num d z b c <= vverse v <= last_num d b c.
Proof.
  intros z b c [b' c' v']. unfold chap_verses. rewrite in_map_iff. simpl. split.
  - intros [x [Hx Hin]]. injection Hx as -> -> ->. apply zrange_in in Hin. auto.
  - intros [-> [-> H]]. exists v'. split; auto. now apply zrange_in.
Qed.

Lemma in_book_verses : forall z b v,
  In v (book_verses d z b) <-> vbook v = b /\ legal d z b (vchap v) (vverse v).
Proof.
  intros z b v. unfold book_verses. rewrite in_flat_map. unfold legal. split.
  - intros [c [Hc Hv]]. apply zrange_in in Hc. apply in_chap_verses in Hv.
    destruct Hv as [-> [-> Hv]]. auto.
  - intros [Hb [Hc Hv]]. exists (vchap v). split; [now apply zrange_in|].
    apply in_chap_verses. auto.
Qed.

Lemma in_bible_verses : forall z v,
  InB d z v <-> In (vbook v) (book_order d) /\ legal d z (vbook v) (vchap v) (vverse v).
Proof.
  intros z v. unfold InB, bible_verses. rewrite in_flat_map. split.
  - intros [b [Hb Hv]]. apply in_book_verses in Hv. destruct Hv as [<- Hv]. auto.
  - intros [Hb Hv]. exists (vbook v). split; [assumption|]. apply in_book_verses. auto.
Qed.

Lemma InB_mono : forall z v, InB d z v -> InB d true v.
Proof. intros z v. rewrite !in_bible_verses. intros [H1 H2]. split; auto. eapply legal_mono; eauto. Qed.

(** The enumerations are strictly sorted. *)
Definition vltP (a b : verse) : Prop := vltb e a b = true.

Lemma vltP_irrefl : forall x, ~ vltP x x.
Proof. unfold vltP. intros x. rewrite vltb_irrefl. discriminate. Qed.

Lemma chap_verses_sorted : forall z b c, StronglySorted vltP (chap_verses d z b c).
Proof.
  intros. unfold chap_verses. eapply sorted_map; [apply zrange_sorted|].
  intros x y H. unfold vltP, vltb. simpl. rewrite book_eqb_refl, Z.eqb_refl. now apply Z.ltb_lt.
Qed.

Lemma book_verses_sorted : forall z b, StronglySorted vltP (book_verses d z b).
Proof.
  intros. unfold book_verses. eapply sorted_flat_map; [apply zrange_sorted| |].
  - intros. apply chap_verses_sorted.
  - intros x y a b' _ _ Hxy Ha Hb. apply in_chap_verses in Ha. apply in_chap_verses in Hb.
    destruct Ha as [<- [<- _]], Hb as [Hb [<- _]]. unfold vltP, vltb. rewrite Hb, book_eqb_refl.
    destruct (Z.eqb_spec (vchap a) (vchap b')); [lia|]. now apply Z.ltb_lt.
Qed.

Lemma bible_verses_sorted : forall z, StronglySorted vltP (bible_verses d z).
Proof.
  intros. unfold bible_verses. eapply sorted_flat_map; [apply order_sorted| |].
  - intros. apply book_verses_sorted.
  - intros x y a b _ _ Hxy Ha Hb. apply in_book_verses in Ha. apply in_book_verses in Hb.
    destruct Ha as [<- _], Hb as [<- _]. unfold vltP, vltb.
    destruct (book_eqb (vbook a) (vbook b)) eqn:E.
    + apply book_eqb_eq in E. rewrite E in Hxy. lia.
    + now apply Z.ltb_lt.
Qed.

Lemma bible_nodup : forall z, NoDup (bible_verses d z).
Proof. intros. eapply sorted_nodup; [apply vltP_irrefl|apply bible_verses_sorted]. Qed.
Lemma book_nodup : forall z b, NoDup (book_verses d z b).
Proof. intros. eapply sorted_nodup; [apply vltP_irrefl|apply book_verses_sorted]. Qed.

Lemma InB_book : forall z v, InB d z v -> In (vbook v) (book_order d).
Proof. intros z v H. apply in_bible_verses in H. tauto. Qed.
Lemma InB_legal : forall z v, InB d z v -> legal d z (vbook v) (vchap v) (vverse v).
Proof. intros z v H. apply in_bible_verses in H. tauto. Qed.

(** Positions and comparison. *)
Lemma vltb_pos : forall z i j a b, at_pos (bible_verses d z) i a -> at_pos (bible_verses d z) j b ->
  vltb e a b = true <-> (i < j)%nat.
Proof.
  intros z i j a b Hi Hj. split.
  - intros H. destruct (Nat.lt_trichotomy i j) as [Hl|[->|Hl]]; [assumption| |].
    + unfold at_pos in *. rewrite Hi in Hj. injection Hj as ->. rewrite vltb_irrefl in H. discriminate.
    + pose proof (sorted_nth_lt _ _ _ _ _ _ (bible_verses_sorted z) Hj Hi Hl) as H'.
      unfold vltP in H'. rewrite (vltb_asym _ _ _ H') in H. discriminate.
  - intros Hl. exact (sorted_nth_lt _ _ _ _ _ _ (bible_verses_sorted z) Hi Hj Hl).
Qed.

Lemma vleb_pos : forall z i j a b, at_pos (bible_verses d z) i a -> at_pos (bible_verses d z) j b ->
  vleb e a b = true <-> (i <= j)%nat.
Proof.
  intros z i j a b Hi Hj. unfold vleb. rewrite negb_true_iff.
  pose proof (vltb_pos z j i b a Hj Hi) as H. destruct (vltb e b a).
  - split; [discriminate|]. intros. apply proj1 in H. specialize (H eq_refl). lia.
  - split; [|reflexivity]. intros _. destruct (Nat.le_gt_cases i j); [assumption|].
    apply H in H0. discriminate.
Qed.

Lemma pos_inj : forall z i j a, at_pos (bible_verses d z) i a -> at_pos (bible_verses d z) j a -> i = j.
Proof. intros z i j a Hi Hj. eapply nodup_nth_inj; eauto using bible_nodup. Qed.

Lemma InB_pos : forall z v, InB d z v <-> exists i, at_pos (bible_verses d z) i v.
Proof.
  intros z v. split.
  - intros H. apply In_nth_error in H. exact H.
  - intros [i Hi]. eapply nth_error_In. exact Hi.
Qed.

Lemma vle_iff : forall a b, vle d a b <-> InB d true a /\ InB d true b /\ vleb e a b = true.
Proof.
  intros a b. split.
  - intros [i [j [Hi [Hj Hij]]]]. split; [apply InB_pos; eauto|]. split; [apply InB_pos; eauto|].
    eapply vleb_pos; eauto.
  - intros [Ha [Hb H]]. apply InB_pos in Ha. apply InB_pos in Hb. destruct Ha as [i Hi], Hb as [j Hj].
    exists i, j. split; [assumption|]. split; [assumption|]. eapply vleb_pos; eauto.
Qed.

Lemma vlt_iff : forall a b, vlt d a b <-> InB d true a /\ InB d true b /\ vltb e a b = true.
Proof.
  intros a b. split.
  - intros [i [j [Hi [Hj Hij]]]]. split; [apply InB_pos; eauto|]. split; [apply InB_pos; eauto|].
    eapply vltb_pos; eauto.
  - intros [Ha [Hb H]]. apply InB_pos in Ha. apply InB_pos in Hb. destruct Ha as [i Hi], Hb as [j Hj].
    exists i, j. split; [assumption|]. split; [assumption|]. eapply vltb_pos; eauto.
Qed.

Lemma vleb_refl : forall a, vleb e a a = true.
Proof. intros. unfold vleb. now rewrite vltb_irrefl. Qed.

Lemma vltb_vleb : forall a b, vltb e a b = true -> vleb e a b = true.
Proof. intros a b H. unfold vleb. now rewrite (vltb_asym _ _ _ H). Qed.

Lemma vle_refl : forall a, InB d true a -> vle d a a.
Proof. intros a H. apply vle_iff. auto using vleb_refl. Qed.

Lemma vle_trans : forall a b c, vle d a b -> vle d b c -> vle d a c.
Proof.
  intros a b c [i [j [Hi [Hj Hij]]]] [j' [k [Hj' [Hk Hjk]]]].
  pose proof (pos_inj _ _ _ _ Hj Hj'). subst j'. exists i, k. repeat split; auto. lia.
Qed.

Lemma vle_antisym : forall a b, vle d a b -> vle d b a -> a = b.
Proof.
  intros a b [i [j [Hi [Hj Hij]]]] [j' [i' [Hj' [Hi' Hji]]]].
  pose proof (pos_inj _ _ _ _ Hj Hj'). pose proof (pos_inj _ _ _ _ Hi Hi'). subst.
  assert (i' = j') by lia. subst. unfold at_pos in *. congruence.
Qed.

Lemma vle_total : forall a b, InB d true a -> InB d true b -> vle d a b \/ vle d b a.
Proof.
  intros a b Ha Hb. apply InB_pos in Ha. apply InB_pos in Hb. destruct Ha as [i Hi], Hb as [j Hj].
  destruct (Nat.le_gt_cases i j).
  - left. exists i, j. auto.
  - right. exists j, i. repeat split; auto. lia.
Qed.

End Core.
