(** * PVerse: the properties of verses and books, in the terms of Spec.v. *)
From Coq Require Import List ZArith Bool Lia Sorted.
From Verif Require Import Base Books Data MVerse MRange Spec PList PCore PNav.
Import ListNotations.
Open Scope Z_scope.

Lemma multi_on_eq : forall e fl, multibook (eff e fl) = multi_on e fl.
Proof. intros e [[[] []]|]; reflexivity. Qed.
Lemma zero_on_eq : forall e fl, verse0 (eff e fl) = zero_on e fl.
Proof. intros e [[[] []]|]; reflexivity. Qed.
Lemma track0_eq : forall e fl v, verse0 (honour0 (eff e fl) v) = track0 e fl v.
Proof.
  intros. unfold track0, honour0. rewrite <- zero_on_eq. destruct (vverse v =? 0); simpl.
  - now rewrite !orb_true_r.
  - now rewrite orb_false_r.
Qed.
Lemma track_eq : forall e fl v,
  scope e (honour0 (eff e fl) v) (verse0 (honour0 (eff e fl) v)) (vbook v) = track e fl v.
Proof. intros. unfold scope, track. now rewrite honour0_multi, track0_eq, multi_on_eq. Qed.

(** ** Construction (C01) *)
Lemma verse_constructible : forall e b l c v fl w, max_verses (ed e) b = Some l ->
  new_verse e b c v fl = Ok w <-> (w = V b c v /\ legal (ed e) (zero_on e fl) b c v).
Proof.
  intros e b l c v fl w Hl. rewrite (new_verse_eq e b l c v fl Hl), zero_on_eq.
  rewrite <- (legalb_iff e). destruct (legalb e (zero_on e fl) b c v).
  - split; [intros H; injection H as <-; auto | intros [-> _]; auto].
  - split; [discriminate|]. intros [_ H]. discriminate.
Qed.
Lemma verse_not_constructible : forall e b l c v fl, max_verses (ed e) b = Some l ->
  ~ legal (ed e) (zero_on e fl) b c v -> new_verse e b c v fl = Err InvalidRef.
Proof.
  intros e b l c v fl Hl Hn. rewrite (new_verse_eq e b l c v fl Hl), zero_on_eq.
  rewrite <- (legalb_iff e) in Hn. destruct (legalb e (zero_on e fl) b c v); congruence.
Qed.

(** ** Order (C02) *)
Lemma book_cmp_eq : forall e op a b i j, wf_data (ed e) ->
  nth_error (book_order (ed e)) i = Some a -> nth_error (book_order (ed e)) j = Some b ->
  book_cmp op e a b = Ok (op i j).
Proof.
  intros e op a b i j Hwf Ha Hb. apply (order_nth e Hwf) in Ha. apply (order_nth e Hwf) in Hb.
  unfold book_cmp. now rewrite Ha, Hb.
Qed.

Lemma verse_lt_total : forall e a b, wf_data (ed e) ->
  In (vbook a) (book_order (ed e)) -> In (vbook b) (book_order (ed e)) ->
  verse_lt e a b = Ok (vltb e a b).
Proof.
  intros e a b Hwf Ha Hb. unfold verse_lt, verse_cmp, vltb.
  destruct (book_eqb (vbook a) (vbook b)); [destruct (vchap a =? vchap b); reflexivity|].
  apply In_nth_error in Ha. apply In_nth_error in Hb. destruct Ha as [i Hi], Hb as [j Hj].
  unfold book_lt. rewrite (book_cmp_eq e Nat.ltb _ _ i j Hwf Hi Hj).
  rewrite (bord_nth e Hwf _ _ Hi), (bord_nth e Hwf _ _ Hj). f_equal.
  destruct (Nat.ltb_spec i j); destruct (Z.ltb_spec (Z.of_nat i) (Z.of_nat j)); auto; lia.
Qed.

Lemma verse_le_total : forall e a b, wf_data (ed e) ->
  In (vbook a) (book_order (ed e)) -> In (vbook b) (book_order (ed e)) ->
  verse_le e a b = Ok (vleb e a b).
Proof.
  intros e a b Hwf Ha Hb. unfold verse_le, verse_cmp, vleb, vltb.
  destruct (book_eqb (vbook a) (vbook b)) eqn:Eb.
  - apply book_eqb_eq in Eb. rewrite Eb, book_eqb_refl. rewrite (Z.eqb_sym (vchap b)).
    destruct (Z.eqb_spec (vchap a) (vchap b)); f_equal; rewrite Z.ltb_antisym, negb_involutive; reflexivity.
  - destruct (book_eqb (vbook b) (vbook a)) eqn:Eb'.
    { apply book_eqb_eq in Eb'. rewrite Eb', book_eqb_refl in Eb. discriminate. }
    apply In_nth_error in Ha. apply In_nth_error in Hb. destruct Ha as [i Hi], Hb as [j Hj].
    unfold book_le. rewrite (book_cmp_eq e Nat.leb _ _ i j Hwf Hi Hj).
    rewrite (bord_nth e Hwf _ _ Hi), (bord_nth e Hwf _ _ Hj). f_equal.
    destruct (Nat.leb_spec i j); destruct (Z.ltb_spec (Z.of_nat j) (Z.of_nat i)); auto; lia.
Qed.

Lemma verse_gt_swap : forall e a b, verse_gt e a b = verse_lt e b a.
Proof.
  intros e a b. unfold verse_gt, verse_lt, verse_cmp, book_gt, book_lt, book_cmp.
  assert (Hs : book_eqb (vbook b) (vbook a) = book_eqb (vbook a) (vbook b)).
  { destruct (book_eqb (vbook a) (vbook b)) eqn:E.
    - apply book_eqb_eq in E. rewrite E. apply book_eqb_refl.
    - apply book_eqb_neq. apply book_eqb_neq in E. congruence. }
  rewrite Hs, (Z.eqb_sym (vchap b)), !Z.gtb_ltb.
  destruct (book_eqb (vbook a) (vbook b)); [reflexivity|].
  destruct (order (ed e) (vbook a)), (order (ed e) (vbook b)); reflexivity.
Qed.
Lemma verse_ge_swap : forall e a b, verse_ge e a b = verse_le e b a.
Proof.
  intros e a b. unfold verse_ge, verse_le, verse_cmp, book_ge, book_le, book_cmp.
  assert (Hs : book_eqb (vbook b) (vbook a) = book_eqb (vbook a) (vbook b)).
  { destruct (book_eqb (vbook a) (vbook b)) eqn:E.
    - apply book_eqb_eq in E. rewrite E. apply book_eqb_refl.
    - apply book_eqb_neq. apply book_eqb_neq in E. congruence. }
  rewrite Hs, (Z.eqb_sym (vchap b)), !Z.geb_leb.
  destruct (book_eqb (vbook a) (vbook b)); [reflexivity|].
  destruct (order (ed e) (vbook a)), (order (ed e) (vbook b)); reflexivity.
Qed.

Lemma Zltb_nat : forall i j : nat, (i <? j)%nat = true <-> (i < j)%nat.
Proof. intros. apply Nat.ltb_lt. Qed.

Lemma bool_iff_eq : forall (a b : bool), (a = true <-> b = true) -> a = b.
Proof. intros [] [] H; intuition congruence. Qed.

Lemma verse_order : forall e i j a b, wf_data (ed e) ->
  at_pos (bible_verses (ed e) true) i a -> at_pos (bible_verses (ed e) true) j b ->
  verse_lt e a b = Ok (i <? j)%nat /\ verse_le e a b = Ok (i <=? j)%nat /\
  verse_gt e a b = Ok (j <? i)%nat /\ verse_ge e a b = Ok (j <=? i)%nat /\
  verse_eqb a b = (i =? j)%nat.
Proof.
  intros e i j a b Hwf Hi Hj.
  assert (Ha : In (vbook a) (book_order (ed e))) by (eapply (InB_book e); apply InB_pos; eauto).
  assert (Hb : In (vbook b) (book_order (ed e))) by (eapply (InB_book e); apply InB_pos; eauto).
  rewrite verse_gt_swap, verse_ge_swap.
  rewrite !verse_lt_total, !verse_le_total by assumption.
  repeat split; try (f_equal; apply bool_iff_eq; rewrite ?Nat.ltb_lt, ?Nat.leb_le;
    (eapply (vltb_pos e Hwf true) || eapply (vleb_pos e Hwf true)); eassumption).
  apply bool_iff_eq. rewrite verse_eqb_eq, Nat.eqb_eq. split.
  - intros ->. eapply (pos_inj e Hwf true); eassumption.
  - intros ->. unfold at_pos in *. congruence.
Qed.

(** The position in the enumeration without verse 0s gives the same comparisons. *)
Lemma verse_order_any : forall e z i j a b, wf_data (ed e) ->
  at_pos (bible_verses (ed e) z) i a -> at_pos (bible_verses (ed e) z) j b ->
  verse_lt e a b = Ok (i <? j)%nat.
Proof.
  intros e z i j a b Hwf Hi Hj.
  assert (Ha : In (vbook a) (book_order (ed e))) by (eapply (InB_book e); apply InB_pos; eauto).
  assert (Hb : In (vbook b) (book_order (ed e))) by (eapply (InB_book e); apply InB_pos; eauto).
  rewrite verse_lt_total by assumption. f_equal. apply bool_iff_eq. rewrite Nat.ltb_lt.
  eapply (vltb_pos e Hwf z); eassumption.
Qed.

(** ** Books (C03) *)
Lemma next_prev_at : forall e i b, wf_data (ed e) -> at_pos (book_order (ed e)) i b ->
  order (ed e) b = Some i /\
  next_book e b = Ok (nth_error (book_order (ed e)) (S i)) /\
  prev_book e b = Ok (match i with O => None | S k => nth_error (book_order (ed e)) k end).
Proof.
  intros e i b Hwf Hi. unfold at_pos in Hi.
  pose proof (nth_error_split _ _ Hi) as [o1 [o2 [Ho Hlen]]].
  split; [now apply (order_nth e Hwf)|].
  rewrite (next_book_split e Hwf _ _ _ Ho), (prev_book_split e Hwf _ _ _ Ho). rewrite Ho. split.
  - rewrite nth_error_app2 by lia. replace (S i - length o1)%nat with 1%nat by lia.
    destruct o2; reflexivity.
  - f_equal. destruct i.
    + destruct o1; [reflexivity|discriminate].
    + destruct o1 as [|x o1 _] using rev_ind; [discriminate|]. rewrite rev_app_distr. simpl.
      rewrite app_length in Hlen. simpl in Hlen. rewrite <- app_assoc.
      rewrite nth_error_app2 by lia. replace (i - length o1)%nat with 0%nat by lia. reflexivity.
Qed.

Lemma next_prev_unordered : forall e b, order (ed e) b = None ->
  next_book e b = Ok None /\ prev_book e b = Ok None.
Proof. intros e b H. unfold next_book, prev_book. now rewrite H. Qed.

Lemma next_prev_inverse : forall e a b, wf_data (ed e) ->
  next_book e a = Ok (Some b) <-> prev_book e b = Ok (Some a).
Proof.
  intros e a b Hwf. split; intros H.
  - destruct (order (ed e) a) as [i|] eqn:E; [|rewrite (proj1 (next_prev_unordered e a E)) in H; discriminate].
    apply (order_nth e Hwf) in E. destruct (next_prev_at e i a Hwf E) as [_ [Hn _]].
    rewrite Hn in H. injection H as H. destruct (next_prev_at e (S i) b Hwf H) as [_ [_ Hp]].
    rewrite Hp. f_equal. exact E.
  - destruct (order (ed e) b) as [i|] eqn:E; [|rewrite (proj2 (next_prev_unordered e b E)) in H; discriminate].
    apply (order_nth e Hwf) in E. destruct (next_prev_at e i b Hwf E) as [_ [_ Hp]].
    rewrite Hp in H. injection H as H. destruct i; [discriminate|].
    destruct (next_prev_at e i a Hwf H) as [_ [Hn _]]. rewrite Hn. f_equal. exact E.
Qed.

Lemma mem_book_in : forall b l, mem_book b l = true <-> In b l.
Proof.
  intros b l. unfold mem_book. rewrite existsb_exists. split.
  - intros [x [Hx E]]. apply book_eqb_eq in E. now subst.
  - intros H. exists b. split; auto. apply book_eqb_refl.
Qed.

Lemma remove_book_in : forall b l x, NoDup l -> (In x (remove_book b l) <-> In x l /\ x <> b).
Proof.
  induction l as [|y l IH]; intros x Hnd; simpl; [tauto|].
  apply NoDup_cons_iff in Hnd. destruct Hnd as [Hy Hnd].
  destruct (book_eqb b y) eqn:E.
  - apply book_eqb_eq in E. subst y. split; [intros H; split; auto; intros ->; auto|].
    intros [[->|H] Hx]; [congruence|assumption].
  - apply book_eqb_neq in E. simpl. rewrite IH by assumption. split.
    + intros [->|[H1 H2]]; auto.
    + intros [[->|H] Hx]; auto.
Qed.
Lemma remove_book_nodup : forall b l, NoDup l -> NoDup (remove_book b l).
Proof.
  induction l as [|y l IH]; intros Hnd; simpl; [constructor|].
  apply NoDup_cons_iff in Hnd. destruct Hnd as [Hy Hnd].
  destruct (book_eqb b y); [assumption|]. constructor; auto.
  rewrite remove_book_in by assumption. tauto.
Qed.

Lemma assign_ok : forall l i o rest, NoDup rest -> NoDup l -> (forall b, In b l -> In b rest) ->
  exists o' rest', assign_orders i l o rest = (o', Ok rest') /\ NoDup rest' /\
    (forall b, In b rest' <-> In b rest /\ ~ In b l) /\
    (forall k b, nth_error l k = Some b -> o' b = Some (i + k)%nat) /\
    (forall b, ~ In b l -> o' b = o b).
Proof.
  induction l as [|x l IH]; intros i o rest Hnr Hnl Hsub; simpl.
  - exists o, rest. repeat split; auto; try tauto. intros [|k] b H; discriminate.
  - apply NoDup_cons_iff in Hnl. destruct Hnl as [Hx Hnl].
    destruct (mem_book x rest) eqn:E.
    2:{ exfalso. assert (In x rest) by (apply Hsub; left; reflexivity). apply mem_book_in in H. congruence. }
    destruct (IH (S i) (set_order o x (Some i)) (remove_book x rest)) as [o' [rest' [H1 [H2 [H3 [H4 H5]]]]]].
    + now apply remove_book_nodup.
    + assumption.
    + intros b Hb. apply remove_book_in; auto. split; [apply Hsub; now right|]. intros ->; auto.
    + exists o', rest'. split; [assumption|]. split; [assumption|]. split; [|split].
      * intros b. rewrite H3, remove_book_in by assumption. intuition congruence.
      * intros [|k] b Hk; simpl in Hk.
        -- injection Hk as <-. rewrite H5 by assumption. unfold set_order. rewrite book_eqb_refl. f_equal. lia.
        -- rewrite (H4 k b Hk). f_equal. lia.
      * intros b Hb. rewrite H5 by tauto. unfold set_order.
        destruct (book_eqb b x) eqn:Eb; [apply book_eqb_eq in Eb; subst; tauto|reflexivity].
Qed.

Lemma clear_orders_spec : forall l o b, clear_orders o l b = if mem_book b l then None else o b.
Proof.
  induction l as [|x l IH]; intros o b; [reflexivity|].
  unfold clear_orders in *. cbn [fold_left]. rewrite IH. unfold set_order, mem_book. cbn [existsb].
  destruct (book_eqb b x); cbn [orb]; [destruct (existsb (book_eqb b) l); reflexivity|reflexivity].
Qed.

Lemma set_order_ok : forall d l, NoDup l ->
  exists d', set_book_order d l = (d', Ok tt) /\ book_order d' = l /\ order_ok d' /\
    max_verses d' = max_verses d /\ verse_0s d' = verse_0s d /\ names d' = names d /\
    range_sep d' = range_sep d /\ major_list_sep d' = major_list_sep d /\
    minor_list_sep d' = minor_list_sep d /\ verse_sep_std d' = verse_sep_std d /\
    verse_sep_alt d' = verse_sep_alt d.
Proof.
  intros d l Hnd. unfold set_book_order.
  destruct (assign_ok l 0%nat (order d) all_books all_books_nodup Hnd (fun b _ => all_books_in b))
    as [o' [rest' [H1 [H2 [H3 [H4 H5]]]]]].
  rewrite H1. eexists. split; [reflexivity|]. split; [reflexivity|]. split; [|repeat split].
  intros b i. cbn [order book_order]. split.
  - rewrite clear_orders_spec. destruct (mem_book b rest') eqn:E; [discriminate|].
    intros Ho. assert (Hb : In b l).
    { destruct (in_dec book_eq_dec b l); [assumption|]. exfalso.
      assert (In b rest') by (apply H3; split; [apply all_books_in|assumption]).
      apply mem_book_in in H. congruence. }
    apply In_nth_error in Hb. destruct Hb as [k Hk]. rewrite (H4 k b Hk) in Ho. injection Ho as <-.
    exact Hk.
  - intros Hk. rewrite clear_orders_spec. destruct (mem_book b rest') eqn:E.
    + apply mem_book_in in E. apply H3 in E. destruct E as [_ E]. destruct E. eapply nth_error_In; eauto.
    + exact (H4 i b Hk).
Qed.

Lemma assign_dup : forall l i o rest, NoDup rest -> 
  (~ NoDup l \/ exists b, In b l /\ ~ In b rest) ->
  snd (assign_orders i l o rest) = Err KeyErr.
Proof.
  induction l as [|x l IH]; intros i o rest Hnr H; simpl.
  - destruct H as [H|[b [[] _]]]. destruct H. constructor.
  - destruct (mem_book x rest) eqn:E; [|reflexivity]. apply mem_book_in in E.
    apply IH; [now apply remove_book_nodup|].
    destruct (in_dec book_eq_dec x l) as [Hx|Hx].
    + right. exists x. split; auto. rewrite remove_book_in by assumption. tauto.
    + destruct H as [H|[b [Hb Hnb]]].
      * left. intros Hnd. apply H. constructor; auto.
      * right. exists b. destruct Hb as [->|Hb]; [contradiction|]. split; auto.
        rewrite remove_book_in by assumption. tauto.
Qed.

Lemma set_order_dup : forall d l, ~ NoDup l -> snd (set_book_order d l) = Err KeyErr.
Proof.
  intros d l H. unfold set_book_order.
  pose proof (assign_dup l 0%nat (order d) all_books all_books_nodup (or_introl H)) as H'.
  destruct (assign_orders 0 l (order d) all_books) as [o r]. simpl in H'. subst r. reflexivity.
Qed.

(** ** add and subtract (C04-C06) *)
Lemma track_pos : forall e fl v, wf_data (ed e) -> InB (ed e) true v ->
  exists i, at_pos (track e fl v) i v.
Proof.
  intros e fl v Hwf Hin. rewrite <- track_eq. apply In_nth_error. apply in_scope_self.
  now apply honour0_verse0.
Qed.
Lemma track_nodup : forall e fl v, wf_data (ed e) -> NoDup (track e fl v).
Proof. intros e fl v Hwf. rewrite <- track_eq. now apply scope_nodup. Qed.

Lemma add_track : forall e v n fl i, wf_data (ed e) -> InB (ed e) true v -> 0 <= n ->
  at_pos (track e fl v) i v -> add e v n fl = Ok (nth_error (track e fl v) (i + Z.to_nat n)).
Proof.
  intros e v n fl i Hwf Hin Hn Hi. rewrite <- track_eq in *. now apply add_spec.
Qed.

Lemma add_track_neg : forall e v n fl, wf_data (ed e) -> InB (ed e) true v -> n < 0 ->
  add e v n fl = if vverse v + n <? first_num (ed e) (track0 e fl v) (vbook v) (vchap v)
                 then Err InvalidRef else Ok (Some (V (vbook v) (vchap v) (vverse v + n))).
Proof. intros. rewrite add_neg by assumption. now rewrite track0_eq. Qed.

Lemma sub_track : forall e v n fl i, wf_data (ed e) -> InB (ed e) true v -> 0 <= n ->
  track0 e fl v = verse0 (eg e) ->
  at_pos (track e fl v) i v ->
  subtract e v n fl = Ok (if (Z.to_nat n <=? i)%nat then nth_error (track e fl v) (i - Z.to_nat n) else None).
Proof.
  intros e v n fl i Hwf Hin Hn Hz Hi. rewrite <- track_eq in *. apply sub_spec; auto.
  now rewrite track0_eq.
Qed.

Lemma sub_track_neg : forall e v n fl, wf_data (ed e) -> InB (ed e) true v -> n < 0 ->
  subtract e v n fl = if vverse v - n >? last_num (ed e) (vbook v) (vchap v)
                 then Err InvalidRef else Ok (Some (V (vbook v) (vchap v) (vverse v - n))).
Proof. intros. now apply sub_neg. Qed.

(** Moving along a track does not change the track. *)
Lemma track0_in : forall e fl v, wf_data (ed e) -> InB (ed e) (zero_on e fl) v ->
  track0 e fl v = zero_on e fl.
Proof.
  intros e fl v Hwf Hin. rewrite <- track0_eq, (honour0_noop e); rewrite ?zero_on_eq; auto.
Qed.
Lemma track_in : forall e fl v w, wf_data (ed e) -> InB (ed e) (zero_on e fl) v ->
  In w (track e fl v) -> InB (ed e) (zero_on e fl) w /\ track e fl w = track e fl v.
Proof.
  intros e fl v w Hwf Hv Hw. pose proof (track0_in e fl v Hwf Hv) as Hz. unfold track in *.
  rewrite Hz in *. destruct (multi_on e fl) eqn:Em.
  - split; [exact Hw|]. rewrite (track0_in e fl w Hwf); auto.
  - apply (in_book_verses e) in Hw. destruct Hw as [Hb Hl].
    assert (Hw : InB (ed e) (zero_on e fl) w).
    { apply (in_bible_verses e). rewrite Hb. split; [|assumption]. now apply (InB_book e) in Hv. }
    split; [assumption|]. rewrite (track0_in e fl w Hwf Hw), Hb. reflexivity.
Qed.

Lemma track0_of : forall e fl v, zero_on e fl = track0 e fl v -> wf_data (ed e) -> InB (ed e) true v ->
  InB (ed e) (zero_on e fl) v.
Proof. intros e fl v H Hwf Hin. rewrite H, <- track0_eq. now apply honour0_verse0. Qed.

Lemma add_sub : forall e v w n fl, wf_data (ed e) -> InB (ed e) (zero_on e fl) v -> 0 <= n ->
  zero_on e fl = verse0 (eg e) ->
  add e v n fl = Ok (Some w) <-> (InB (ed e) (zero_on e fl) w /\ subtract e w n fl = Ok (Some v)).
Proof.
  intros e v w n fl Hwf Hv Hn Hz. pose proof (InB_mono e _ _ Hv) as Hv'.
  destruct (track_pos e fl v Hwf Hv') as [i Hi].
  rewrite (add_track e v n fl i Hwf Hv' Hn Hi). split.
  - intros H. injection H as H. pose proof (nth_error_In _ _ H) as Hin.
    destruct (track_in e fl v w Hwf Hv Hin) as [Hw Ht]. split; [assumption|].
    rewrite (sub_track e w n fl (i + Z.to_nat n)); auto.
    + destruct (Nat.leb_spec (Z.to_nat n) (i + Z.to_nat n)); [|lia].
      replace (i + Z.to_nat n - Z.to_nat n)%nat with i by lia. rewrite Ht. f_equal. exact Hi.
    + eapply InB_mono; eauto.
    + rewrite (track0_in e fl w Hwf Hw). assumption.
    + rewrite Ht. exact H.
  - intros [Hw H]. pose proof (InB_mono e _ _ Hw) as Hw'.
    destruct (track_pos e fl w Hwf Hw') as [j Hj].
    rewrite (sub_track e w n fl j) in H; auto.
    2:{ rewrite (track0_in e fl w Hwf Hw). assumption. }
    injection H as H. destruct (Nat.leb_spec (Z.to_nat n) j); [|discriminate].
    pose proof (nth_error_In _ _ H) as Hin. destruct (track_in e fl w v Hwf Hw Hin) as [_ Ht].
    rewrite Ht in *. assert (i = (j - Z.to_nat n)%nat).
    { eapply nodup_nth_inj; eauto. now apply track_nodup. }
    f_equal. replace (i + Z.to_nat n)%nat with j by lia. exact Hj.
Qed.

Lemma add_add : forall e v w m n fl, wf_data (ed e) -> InB (ed e) true v -> 0 <= m -> 0 <= n ->
  (track0 e fl v = zero_on e fl) ->
  add e v m fl = Ok (Some w) -> add e w n fl = add e v (m + n) fl.
Proof.
  intros e v w m n fl Hwf Hv' Hm Hn Hz H.
  pose proof (track0_of e fl v (eq_sym Hz) Hwf Hv') as Hv.
  destruct (track_pos e fl v Hwf Hv') as [i Hi].
  rewrite (add_track e v m fl i Hwf Hv' Hm Hi) in H. injection H as H.
  pose proof (nth_error_In _ _ H) as Hin. destruct (track_in e fl v w Hwf Hv Hin) as [Hw Ht].
  rewrite (add_track e w n fl (i + Z.to_nat m)); auto.
  - rewrite (add_track e v (m + n) fl i); auto; try lia. rewrite Ht. do 2 f_equal. lia.
  - eapply InB_mono; eauto.
  - rewrite Ht. exact H.
Qed.

(** ** subtract with flags that disagree with the global ones *)
Lemma filter_flat : forall {A B} (p : B -> bool) (g : A -> list B) l, filter p (flat_map g l) = flat_map (fun x => filter p (g x)) l.
Proof. induction l as [|x l IH]; auto. cbn [flat_map]. now rewrite filter_app, IH. Qed.
Lemma filter_all_in : forall {A} (p : A -> bool) l, (forall x, In x l -> p x = true) -> filter p l = l.
Proof. induction l as [|x l IH]; intros H; auto. cbn. rewrite (H x) by now left. f_equal. apply IH. intros y Hy. apply H. now right. Qed.
Lemma zeros_chap : forall d z b c, filter (fun w => (0 <? vverse w) || z) (chap_verses d true b c) = chap_verses d z b c.
Proof.
  intros d z b c. destruct z.
  - apply filter_all_in. intros. apply orb_true_r.
  - unfold chap_verses, first_num. cbn [andb]. 
    assert (X : filter (fun w => (0 <? vverse w) || false) (map (V b c) (zrange 1 (last_num d b c))) = map (V b c) (zrange 1 (last_num d b c))).
    { apply filter_all_in. intros x Hx. apply in_map_iff in Hx. destruct Hx as (i & <- & Hi). apply zrange_in in Hi. cbn. destruct (Z.ltb_spec 0 i); [auto|lia]. }
    destruct (zmem c (verse_0s d b)); auto. destruct (Z.leb_spec 0 (last_num d b c)).
    + rewrite zrange_cons by lia. cbn [map filter vverse]. exact X.
    + rewrite !zrange_nil by lia. reflexivity.
Qed.
Lemma zeros_flat : forall {A} z (g : A -> list verse) (g' : A -> list verse) l, (forall x, filter (fun w => (0 <? vverse w) || z) (g x) = g' x) ->
  filter (fun w => (0 <? vverse w) || z) (flat_map g l) = flat_map g' l.
Proof. intros A z g g' l H. rewrite filter_flat. apply flat_map_ext. auto. Qed.
Lemma zeros_book : forall d z b, filter (fun w => (0 <? vverse w) || z) (book_verses d true b) = book_verses d z b.
Proof. intros d z b. unfold book_verses. apply zeros_flat. intros c. apply zeros_chap. Qed.
Lemma zeros_earlier : forall e f z b c o1, filter (fun w => (0 <? vverse w) || z) (earlier e f true b c o1) = earlier e f z b c o1.
Proof.
  intros e f z b c o1. unfold earlier. rewrite filter_app. f_equal.
  - destruct (multibook f); auto. apply zeros_flat. apply zeros_book.
  - apply zeros_flat. intros x. apply zeros_chap.
Qed.
Lemma sub_back_track : forall e v n fl i, wf_data (ed e) -> InB (ed e) true v -> 0 <= n -> at_pos (back_track e fl v) i v ->
  subtract e v n fl = match (if (Z.to_nat n <=? i)%nat then nth_error (back_track e fl v) (i - Z.to_nat n) else None) with
                      | None => Ok None
                      | Some w => if (vverse w =? 0) && negb (track0 e fl v) then Err InvalidRef else Ok (Some w)
                      end.
Proof.
  intros e v n fl i Hwf Hin Hn Hi. set (f := honour0 (eff e fl) v). set (d := ed e) in *.
  pose proof (honour0_verse0 e (eff e fl) v Hin) as Hin'. fold f d in Hin'.
  pose proof (InB_legal e _ _ Hin') as [Hc Hv]. pose proof (InB_book e _ _ Hin) as Hb. fold d in Hc, Hv, Hb.
  destruct (order_in_split e _ Hb) as [o1 [o2 Hord]].
  rewrite (sub_spec_gen e Hwf v n fl o1 o2 Hin Hn Hord). fold f.
  assert (Em : multibook f = multi_on e fl) by (unfold f; now rewrite honour0_multi, multi_on_eq).
  assert (Ez : verse0 f = track0 e fl v) by (unfold f; apply track0_eq).
  set (f' := mkFlag (multibook f) true).
  assert (Sc : back_track e fl v = filter (counts_back e fl v) (scope e f' true (vbook v))) by (unfold back_track, scope; cbn [multibook f']; now rewrite Em).
  pose proof (scope_nodup e Hwf f' true (vbook v)) as Hnd. apply (NoDup_filter (counts_back e fl v)) in Hnd. rewrite <- Sc in Hnd.
  pose proof (scope_split e f' o1 (vbook v) o2 (vchap v) Hord Hc) as Sp. change (verse0 f') with true in Sp.
  pose proof (scope_nodup e Hwf f' true (vbook v)) as Hnd'. rewrite Sp in Hnd'.
  assert (Own : forall w, In w (chap_verses d true (vbook v) (vchap v)) -> book_eqb (vbook w) (vbook v) && (vchap w =? vchap v) = true).
  { intros w Hw. unfold chap_verses in Hw. apply in_map_iff in Hw. destruct Hw as (k & <- & _). cbn. now rewrite book_eqb_refl, Z.eqb_refl. }
  assert (A1 : filter (counts_back e fl v) (earlier e f' true (vbook v) (vchap v) o1) = earlier e f (verse0 (eg e)) (vbook v) (vchap v) o1).
  { transitivity (filter (fun w => (0 <? vverse w) || verse0 (eg e)) (earlier e f' true (vbook v) (vchap v) o1)).
    - apply filter_ext_in. intros w Hw. unfold counts_back. destruct (book_eqb (vbook w) (vbook v) && (vchap w =? vchap v)) eqn:E; auto.
      exfalso. apply andb_prop in E. destruct E as (E1 & E2). apply book_eqb_eq in E1. apply Z.eqb_eq in E2.
      assert (Hw' : In w (chap_verses d true (vbook v) (vchap v))).
      { assert (Hs : In w (scope e f' true (vbook v))) by (rewrite Sp; apply in_or_app; now left).
        assert (Hl : legal d true (vbook w) (vchap w) (vverse w)).
        { unfold scope in Hs. destruct (multibook f'); [now apply (InB_legal e) in Hs|]. apply in_book_verses in Hs. destruct Hs as [Hs1 Hs2]. rewrite Hs1. exact Hs2. }
        destruct Hl as (_ & Hl). unfold chap_verses. apply in_map_iff. exists (vverse w). rewrite <- E1, <- E2. split; [now destruct w|]. apply zrange_in. exact Hl. }
      clear -Hnd' Hw Hw'. apply in_split in Hw. destruct Hw as (x & y & E). rewrite E, <- app_assoc in Hnd'. cbn in Hnd'. apply NoDup_remove_2 in Hnd'. apply Hnd'.
      apply in_or_app. right. apply in_or_app. right. apply in_or_app. now left.
    - change (earlier e f' true (vbook v) (vchap v) o1) with (earlier e f true (vbook v) (vchap v) o1). apply zeros_earlier. }
  assert (A2 : filter (counts_back e fl v) (chap_verses d true (vbook v) (vchap v)) = chap_verses d (verse0 f) (vbook v) (vchap v)).
  { transitivity (filter (fun w => (0 <? vverse w) || verse0 f) (chap_verses d true (vbook v) (vchap v))); [|apply zeros_chap].
    apply filter_ext_in. intros w Hw. unfold counts_back. now rewrite (Own w Hw), Ez. }
  assert (Bt : back_track e fl v = earlier e f (verse0 (eg e)) (vbook v) (vchap v) o1 ++ chap_verses d (verse0 f) (vbook v) (vchap v) ++
                                   filter (counts_back e fl v) (later e f' (vbook v) (vchap v) o2)).
  { rewrite Sc, Sp, !filter_app, A1. unfold d in A2. now rewrite A2. }
  assert (Hpre : before e f v o1 = firstn (S i) (back_track e fl v)).
  { unfold before. rewrite Bt in *. set (A := earlier e f _ _ _ o1) in *.
    assert (Hk : nth_error (chap_verses d (verse0 f) (vbook v) (vchap v)) (Z.to_nat (vverse v - first_num d (verse0 f) (vbook v) (vchap v))) = Some v).
    { unfold d. rewrite (chap_verses_nth e) by (fold d; lia). now destruct v. }
    pose proof (nth_error_pos _ _ _ _ _ _ Hnd Hk Hi) as ->.
    rewrite firstn_app. rewrite firstn_all2 by lia. f_equal.
    replace (S (length A + Z.to_nat (vverse v - first_num d (verse0 f) (vbook v) (vchap v))) - length A)%nat
      with (Z.to_nat (vverse v - first_num d (verse0 f) (vbook v) (vchap v) + 1)) by lia.
    rewrite firstn_app. unfold d at 2. rewrite (chap_verses_length e). fold d.
    replace (Z.to_nat (vverse v - first_num d (verse0 f) (vbook v) (vchap v) + 1) -
      Z.to_nat (last_num d (vbook v) (vchap v) - first_num d (verse0 f) (vbook v) (vchap v) + 1))%nat with 0%nat by lia.
    rewrite firstn_O, app_nil_r. unfold chap_verses. fold d.
    rewrite (zrange_app _ (vverse v) (last_num d (vbook v) (vchap v))) by lia.
    rewrite map_app, firstn_app, firstn_all2; rewrite map_length, zrange_length; [|lia].
    rewrite (proj2 (Nat.sub_0_le _ _)) by lia. now rewrite firstn_O, app_nil_r. }
  rewrite Hpre, (nth_rev_firstn _ _ _ _ Hi). destruct (Z.to_nat n <=? i)%nat; [|reflexivity].
  destruct (nth_error (back_track e fl v) (i - Z.to_nat n)) as [w|] eqn:E; [|reflexivity]. cbn [check].
  apply nth_error_In in E. rewrite Sc in E. apply filter_In in E. destruct E as (E & Cw).
  assert (Hl : legal d true (vbook w) (vchap w) (vverse w)).
  { unfold scope in E. destruct (multibook f'); [now apply (InB_legal e) in E|]. apply in_book_verses in E. destruct E as [E1 E2]. rewrite E1. exact E2. }
  destruct (legalb e (verse0 f) (vbook w) (vchap w) (vverse w)) eqn:Lg.
  - apply legalb_iff in Lg. destruct Lg as (_ & Lg). fold d in Lg. unfold first_num in Lg. destruct (Z.eqb_spec (vverse w) 0) as [W|W]; auto. rewrite <- Ez. destruct (verse0 f); auto. cbn [andb] in Lg. lia.
  - destruct (Z.eqb_spec (vverse w) 0) as [W|W].
    + rewrite <- Ez. destruct (verse0 f) eqn:Ef; auto. exfalso. apply legalb_iff in Hl. congruence.
    + exfalso. assert (Hl' : legal d (verse0 f) (vbook w) (vchap w) (vverse w)).
      { destruct Hl as (Hl1 & Hl2). split; auto. unfold first_num in *. destruct (verse0 f), (zmem (vchap w) (verse_0s d (vbook w))); cbn [andb] in *; lia. }
      apply legalb_iff in Hl'. congruence.
Qed.
Lemma back_track_pos : forall e fl v, wf_data (ed e) -> InB (ed e) true v -> exists i, at_pos (back_track e fl v) i v.
Proof.
  intros e fl v Hwf Hin. apply In_nth_error. unfold back_track. apply filter_In. split.
  - destruct (multi_on e fl); [exact Hin|]. apply in_book_verses. split; auto. now apply (InB_legal e) in Hin.
  - unfold counts_back, track0. rewrite book_eqb_refl, Z.eqb_refl. cbn [andb]. pose proof (InB_legal e _ _ Hin) as (_ & L). pose proof (first_num_01 e true (vbook v) (vchap v)).
    destruct (Z.ltb_spec 0 (vverse v)); auto. destruct (Z.eqb_spec (vverse v) 0); [|lia]. now rewrite orb_true_r.
Qed.
