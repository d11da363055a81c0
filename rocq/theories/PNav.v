(** * PNav: navigation (next/previous book, [add], [subtract]). *)
From Coq Require Import List ZArith Bool Lia Sorted.
From Verif Require Import Base Books Data MVerse MRange Spec PList PCore.
Import ListNotations.
Open Scope Z_scope.

Section Nav.
Variable e : env.
Notation d := (ed e).
Hypothesis Hwf : wf_data d.

Lemma order_split : forall o1 b o2, book_order d = o1 ++ b :: o2 ->
  order d b = Some (length o1).
Proof.
  intros o1 b o2 H. apply (order_nth e Hwf). rewrite H, nth_error_app2 by lia.
  now rewrite Nat.sub_diag.
Qed.

Lemma next_book_split : forall o1 b o2, book_order d = o1 ++ b :: o2 ->
  next_book e b = Ok (hd_error o2).
Proof.
  intros o1 b o2 H. unfold next_book. rewrite (order_split _ _ _ H). rewrite H.
  unfold zlen. rewrite app_length. simpl length.
  rewrite nth_error_app2 by lia. replace (S (length o1) - length o1)%nat with 1%nat by lia. simpl nth_error.
  destruct o2 as [|b' o2]; simpl length.
  - destruct (Z.eqb_spec (Z.of_nat (length o1)) (Z.of_nat (length o1 + 1) - 1)); [reflexivity|lia].
  - destruct (Z.eqb_spec (Z.of_nat (length o1)) (Z.of_nat (length o1 + S (S (length o2))) - 1)); [lia|reflexivity].
Qed.

Lemma prev_book_split : forall o1 b o2, book_order d = o1 ++ b :: o2 ->
  prev_book e b = Ok (hd_error (rev o1)).
Proof.
  intros o1 b o2 H. unfold prev_book. rewrite (order_split _ _ _ H).
  destruct o1 as [|x o1 _] using rev_ind; [reflexivity|].
  rewrite app_length, Nat.add_1_r, rev_app_distr, H, <- app_assoc. simpl.
  rewrite nth_error_app2 by lia. now rewrite Nat.sub_diag.
Qed.

Lemma order_in_split : forall b, In b (book_order d) -> exists o1 o2, book_order d = o1 ++ b :: o2.
Proof. intros b H. apply in_split in H. destruct H as [o1 [o2 H]]. eauto. Qed.

Lemma chap_verses_length : forall z b c,
  length (chap_verses d z b c) = Z.to_nat (last_num d b c - first_num d z b c + 1).
Proof. intros. unfold chap_verses. now rewrite map_length, zrange_length. Qed.

Lemma chap_verses_nth : forall z b c v, first_num d z b c <= v <= last_num d b c ->
  nth_error (chap_verses d z b c) (Z.to_nat (v - first_num d z b c)) = Some (V b c v).
Proof.
  intros z b c v Hv. unfold chap_verses. rewrite nth_error_map, zrange_nth by lia.
  simpl. f_equal. f_equal. lia.
Qed.

Lemma nchaps_eq : forall b, In b (book_order d) -> Z.of_nat (nchaps e b) = num_chaps d b.
Proof.
  intros b Hb. destruct (table e Hwf b Hb) as [l [Hl _]]. unfold nchaps, num_chaps. now rewrite Hl.
Qed.

Lemma table_of : forall b, In b (book_order d) -> exists l, max_verses d b = Some l.
Proof. intros b Hb. destruct (table e Hwf b Hb) as [l [Hl _]]. eauto. Qed.

(** The verses after chapter [c] of book [b] that [add] can reach. *)
Definition later (f : flag) (b : book) (c : Z) (o2 : list book) : list verse :=
  flat_map (chap_verses d (verse0 f) b) (zrange (c + 1) (num_chaps d b)) ++
  (if multibook f then flat_map (book_verses d (verse0 f)) o2 else []).

Lemma book_verses_cons : forall z b, In b (book_order d) ->
  book_verses d z b = chap_verses d z b 1 ++ flat_map (chap_verses d z b) (zrange 2 (num_chaps d b)).
Proof.
  intros z b Hb. unfold book_verses. pose proof (num_chaps_pos e Hwf b Hb).
  rewrite zrange_cons by lia. reflexivity.
Qed.

Lemma new_verse_in : forall b c v f, In b (book_order d) -> stable e f ->
  1 <= c <= num_chaps d b -> first_num d (verse0 f) b c <= v <= last_num d b c ->
  new_verse e b c v (Some f) = Ok (V b c v).
Proof.
  intros b c v f Hb Hst Hc Hv. destruct (table_of b Hb) as [l Hl].
  eapply new_verse_ok; eauto. rewrite Hst. split; assumption.
Qed.

Lemma min_in : forall b c fl, In b (book_order d) -> 1 <= c <= num_chaps d b ->
  min_verse_num e b c fl = Ok (first_num d (verse0 (eff e fl)) b c).
Proof. intros b c fl Hb Hc. destruct (table_of b Hb) as [l Hl]. eapply min_verse_eq; eauto. Qed.
Lemma max_in : forall b c, In b (book_order d) -> 1 <= c <= num_chaps d b ->
  max_verse_num e b c = Ok (last_num d b c).
Proof. intros b c Hb Hc. destruct (table_of b Hb) as [l Hl]. eapply max_verse_eq; eauto. Qed.
Lemma min_chap_in : forall b, In b (book_order d) -> min_chap_num e b = 1.
Proof. intros b Hb. destruct (table_of b Hb) as [l Hl]. eapply min_chap_1; eauto. Qed.

Lemma add_loop_spec : forall f fuel o1 b o2 c vn,
  stable e f ->
  book_order d = o1 ++ b :: o2 ->
  1 <= c <= num_chaps d b ->
  first_num d (verse0 f) b c <= vn ->
  Z.of_nat fuel > num_chaps d b - c + Z.of_nat (sum_nchaps e o2) ->
  add_loop e f fuel b c vn (last_num d b c) =
  Ok (nth_error (chap_verses d (verse0 f) b c ++ later f b c o2)
                (Z.to_nat (vn - first_num d (verse0 f) b c))).
Proof.
  intros f fuel. induction fuel as [|fuel IH]; intros o1 b o2 c vn Hst Hord Hc Hvn Hfuel; [lia|].
  assert (Hb : In b (book_order d)) by (rewrite Hord; apply in_elt).
  pose proof (first_le_last e Hwf (verse0 f) b c Hb Hc) as Hfl.
  cbn [add_loop]. rewrite Z.gtb_ltb. destruct (Z.ltb_spec (last_num d b c) vn).
  - (* the verse is beyond this chapter *)
    rewrite nth_error_app2 by (rewrite chap_verses_length; lia).
    rewrite chap_verses_length.
    replace (Z.to_nat (vn - first_num d (verse0 f) b c) - Z.to_nat (last_num d b c - first_num d (verse0 f) b c + 1))%nat
      with (Z.to_nat (vn - last_num d b c - 1)) by lia.
    rewrite max_chap_eq, Z.gtb_ltb. unfold later.
    destruct (Z.ltb_spec (num_chaps d b) (c + 1)).
    + rewrite zrange_nil by lia. cbn [flat_map app].
      destruct (multibook f) eqn:Em; cbn [negb].
      * rewrite (next_book_split _ _ _ Hord). cbn [bind].
        destruct o2 as [|b' o2]; cbn [hd_error].
        -- simpl. now destruct (Z.to_nat _).
        -- assert (Hb' : In b' (book_order d)).
           { rewrite Hord. apply in_or_app. right. right. left. reflexivity. }
           pose proof (num_chaps_pos e Hwf b' Hb') as Hn'.
           rewrite (min_chap_in b' Hb'), (min_in b' 1 (Some f) Hb') by lia. cbn [bind].
           rewrite (max_in b' 1 Hb') by lia. cbn [bind]. rewrite Hst.
           rewrite (IH (o1 ++ [b]) b' o2); auto; try lia.
           ++ cbn [flat_map]. rewrite (book_verses_cons _ b' Hb'), <- app_assoc. unfold later. rewrite Em.
              replace (vn - last_num d b c + first_num d (verse0 f) b' 1 - 1 - first_num d (verse0 f) b' 1)
                with (vn - last_num d b c - 1) by lia. reflexivity.
           ++ rewrite Hord, <- app_assoc. reflexivity.
           ++ cbn [sum_nchaps fold_right] in Hfuel. fold (sum_nchaps e o2) in Hfuel.
              pose proof (nchaps_eq b' Hb'). lia.
      * now destruct (Z.to_nat _).
    + rewrite (min_in b (c + 1) (Some f) Hb) by lia. cbn [bind].
      rewrite (max_in b (c + 1) Hb) by lia. cbn [bind]. rewrite Hst.
      rewrite (IH o1 b o2); auto; try lia.
      rewrite zrange_cons by lia. cbn [flat_map]. rewrite <- app_assoc. unfold later.
      replace (vn - last_num d b c + first_num d (verse0 f) b (c + 1) - 1 - first_num d (verse0 f) b (c + 1))
        with (vn - last_num d b c - 1) by lia. reflexivity.
  - rewrite (new_verse_in b c vn f Hb Hst Hc) by lia. cbn [bind].
    rewrite nth_error_app1 by (rewrite chap_verses_length; lia).
    rewrite chap_verses_nth by lia. reflexivity.
Qed.

(** The verses reachable by navigation from a verse of book [b]. *)
Definition scope (f : flag) (z : bool) (b : book) : list verse :=
  if multibook f then bible_verses d z else book_verses d z b.

Lemma sum_nchaps_app : forall l m, sum_nchaps e (l ++ m) = (sum_nchaps e l + sum_nchaps e m)%nat.
Proof. induction l; intros; cbn [app sum_nchaps fold_right]; auto. fold (sum_nchaps e (l ++ m)). rewrite IHl. unfold sum_nchaps. lia. Qed.

Lemma nav_fuel_gt : forall o1 b o2 c, book_order d = o1 ++ b :: o2 -> 1 <= c ->
  Z.of_nat (nav_fuel e) > num_chaps d b - c + Z.of_nat (sum_nchaps e o2).
Proof.
  intros o1 b o2 c H Hc. unfold nav_fuel. rewrite H, sum_nchaps_app.
  assert (Hb : In b (book_order d)) by (rewrite H; apply in_elt).
  pose proof (nchaps_eq b Hb). cbn [sum_nchaps fold_right]. fold (sum_nchaps e o2). lia.
Qed.
Lemma nav_fuel_gt' : forall o1 b o2 c, book_order d = o1 ++ b :: o2 -> c <= num_chaps d b ->
  Z.of_nat (nav_fuel e) > c - 1 + Z.of_nat (sum_nchaps e o1).
Proof.
  intros o1 b o2 c H Hc. unfold nav_fuel. rewrite H, sum_nchaps_app.
  assert (Hb : In b (book_order d)) by (rewrite H; apply in_elt).
  pose proof (nchaps_eq b Hb). cbn [sum_nchaps fold_right]. fold (sum_nchaps e o2). lia.
Qed.

Lemma book_verses_split : forall z b c, 1 <= c <= num_chaps d b ->
  book_verses d z b = flat_map (chap_verses d z b) (zrange 1 (c - 1)) ++ chap_verses d z b c ++
                      flat_map (chap_verses d z b) (zrange (c + 1) (num_chaps d b)).
Proof.
  intros z b c Hc. unfold book_verses. rewrite (zrange_app 1 (c - 1)) by lia.
  rewrite flat_map_app. f_equal. replace (c - 1 + 1) with c by lia.
  rewrite zrange_cons by lia. reflexivity.
Qed.

(** Verses before chapter [c] of [b]. *)
Definition earlier (f : flag) (z : bool) (b : book) (c : Z) (o1 : list book) : list verse :=
  (if multibook f then flat_map (book_verses d z) o1 else []) ++
  flat_map (chap_verses d z b) (zrange 1 (c - 1)).

Lemma scope_split : forall f o1 b o2 c, book_order d = o1 ++ b :: o2 -> 1 <= c <= num_chaps d b ->
  scope f (verse0 f) b = earlier f (verse0 f) b c o1 ++ chap_verses d (verse0 f) b c ++ later f b c o2.
Proof.
  intros f o1 b o2 c Hord Hc. unfold scope, earlier, later. destruct (multibook f).
  - unfold bible_verses. rewrite Hord, flat_map_app. cbn [flat_map].
    rewrite (book_verses_split _ b c Hc). rewrite <- !app_assoc. reflexivity.
  - rewrite (book_verses_split _ b c Hc), app_nil_r. reflexivity.
Qed.

Lemma scope_nodup : forall f z b, NoDup (scope f z b).
Proof. intros. unfold scope. destruct (multibook f); [now apply bible_nodup|now apply (book_nodup e)]. Qed.

Lemma in_scope_self : forall f z v, InB d z v -> In v (scope f z (vbook v)).
Proof.
  intros f z v H. unfold scope. destruct (multibook f); [assumption|].
  apply in_book_verses. split; auto. now apply (InB_legal e) in H.
Qed.

Lemma nth_error_pos : forall {A} (l1 l2 l3 : list A) k i v,
  NoDup (l1 ++ l2 ++ l3) -> nth_error l2 k = Some v -> nth_error (l1 ++ l2 ++ l3) i = Some v ->
  i = (length l1 + k)%nat.
Proof.
  intros A l1 l2 l3 k i v Hnd Hk Hi. eapply nodup_nth_inj; eauto.
  rewrite nth_error_app2 by lia. replace (length l1 + k - length l1)%nat with k by lia.
  rewrite nth_error_app1; [assumption|]. apply nth_error_Some. congruence.
Qed.

Lemma honour0_verse0 : forall f v, InB d true v -> InB d (verse0 (honour0 f v)) v.
Proof.
  intros f v H. apply (in_bible_verses e) in H. apply (in_bible_verses e).
  destruct H as [H1 [H2 H3]]. split; [assumption|]. split; [assumption|].
  unfold honour0. destruct (Z.eqb_spec (vverse v) 0).
  - cbn [verse0 flag_or VERSE_0]. rewrite orb_true_r. assumption.
  - pose proof (first_num_01 e (verse0 f) (vbook v) (vchap v)).
    pose proof (first_num_01 e true (vbook v) (vchap v)). lia.
Qed.

Lemma honour0_noop : forall f v, InB d (verse0 f) v -> honour0 f v = f.
Proof.
  intros [m z] v H. unfold honour0. destruct (Z.eqb_spec (vverse v) 0); [|reflexivity].
  apply (InB_legal e) in H. destruct H as [_ H]. simpl in H. destruct z.
  - unfold flag_or. simpl. now rewrite orb_false_r.
  - unfold first_num in H. simpl in H. lia.
Qed.

Lemma honour0_multi : forall f v, multibook (honour0 f v) = multibook f.
Proof. intros [m z] v. unfold honour0. destruct (vverse v =? 0); simpl; auto using orb_false_r. Qed.

(** C04. *)
Lemma add_spec : forall v n fl i,
  InB d true v -> 0 <= n ->
  let f := honour0 (eff e fl) v in
  at_pos (scope f (verse0 f) (vbook v)) i v ->
  add e v n fl = Ok (nth_error (scope f (verse0 f) (vbook v)) (i + Z.to_nat n)).
Proof.
  intros v n fl i Hin Hn f Hi.
  pose proof (honour0_verse0 (eff e fl) v Hin) as Hin'. fold f in Hin'.
  pose proof (InB_legal e _ _ Hin') as [Hc Hv]. pose proof (InB_book e _ _ Hin) as Hb.
  destruct (order_in_split _ Hb) as [o1 [o2 Hord]].
  unfold add. fold f. rewrite (max_in _ _ Hb Hc). cbn [bind].
  assert (Hst : stable e f) by apply stable_honour0.
  rewrite (add_loop_spec f _ o1 (vbook v) o2 (vchap v)); auto; try lia.
  2:{ eapply nav_fuel_gt; eauto. lia. }
  f_equal. pose proof (scope_nodup f (verse0 f) (vbook v)) as Hnd.
  rewrite (scope_split f o1 (vbook v) o2 (vchap v) Hord Hc) in *.
  set (L1 := earlier _ _ _ _ _) in *. set (L2 := chap_verses _ _ _ _) in *. set (L3 := later _ _ _ _) in *.
  assert (Hk : nth_error L2 (Z.to_nat (vverse v - first_num d (verse0 f) (vbook v) (vchap v))) = Some v).
  { unfold L2. rewrite chap_verses_nth by lia. now destruct v. }
  pose proof (nth_error_pos _ _ _ _ _ _ Hnd Hk Hi) as ->.
  symmetry. rewrite nth_error_app2 by lia. f_equal. lia.
Qed.

Lemma add_neg : forall v n fl, InB d true v -> n < 0 ->
  let f := honour0 (eff e fl) v in
  add e v n fl = if vverse v + n <? first_num d (verse0 f) (vbook v) (vchap v) then Err InvalidRef
                 else Ok (Some (V (vbook v) (vchap v) (vverse v + n))).
Proof.
  intros v n fl Hin Hn f.
  pose proof (honour0_verse0 (eff e fl) v Hin) as Hin'. fold f in Hin'.
  pose proof (InB_legal e _ _ Hin') as [Hc Hv]. pose proof (InB_book e _ _ Hin) as Hb.
  unfold add. fold f. rewrite (max_in _ _ Hb Hc). cbn [bind].
  unfold nav_fuel. cbn [add_loop]. rewrite Z.gtb_ltb.
  destruct (Z.ltb_spec (last_num d (vbook v) (vchap v)) (vverse v + n)); [lia|].
  destruct (table_of _ Hb) as [l Hl]. rewrite (new_verse_eq e _ l) by assumption.
  assert (Hst : eff e (Some f) = f) by apply stable_honour0. rewrite Hst. unfold legalb.
  destruct (Z.leb_spec 1 (vchap v)); [|lia]. destruct (Z.leb_spec (vchap v) (num_chaps d (vbook v))); [|lia].
  destruct (Z.ltb_spec (vverse v + n) (first_num d (verse0 f) (vbook v) (vchap v)));
  destruct (Z.leb_spec (first_num d (verse0 f) (vbook v) (vchap v)) (vverse v + n)); try lia; cbn [andb]; auto.
  destruct (Z.leb_spec (vverse v + n) (last_num d (vbook v) (vchap v))); [|lia]. reflexivity.
Qed.

(** Subtraction.  [zg] is the global setting, which the loop uses for the earlier chapters. *)
Notation zg := (verse0 (eg e)).

Definition check (f : flag) (o : option verse) : res (option verse) :=
  match o with
  | None => Ok None
  | Some w => if legalb e (verse0 f) (vbook w) (vchap w) (vverse w) then Ok (Some w) else Err InvalidRef
  end.

Lemma nth_rev_snoc : forall {A} (l : list A) x, nth_error (rev (l ++ [x])) 0 = Some x.
Proof. intros. rewrite rev_app_distr. reflexivity. Qed.

Lemma eff_none : eff e None = eg e.
Proof. reflexivity. Qed.

(** The chapter seen from its end, from verse [mn] on. *)
Lemma rev_chap_nth : forall b c mn mx v, mn <= v <= mx ->
  nth_error (rev (map (V b c) (zrange mn mx))) (Z.to_nat (mx - v)) = Some (V b c v).
Proof.
  intros b c mn mx v H. remember (Z.to_nat (mx - v)) as k eqn:E. revert mx v E H.
  induction k; intros mx v E H; rewrite zrange_snoc, map_app, rev_app_distr by lia; simpl.
  - f_equal. f_equal. lia.
  - apply IHk; lia.
Qed.

Lemma earlier_prev_book : forall f z o1 b b', multibook f = true -> In b' (book_order d) ->
  earlier f z b 1 (o1 ++ [b']) = earlier f z b' (num_chaps d b') o1 ++ chap_verses d z b' (num_chaps d b').
Proof.
  intros f z o1 b b' Hm Hb'. pose proof (num_chaps_pos e Hwf b' Hb'). unfold earlier. rewrite Hm.
  rewrite (zrange_nil 1 (1 - 1)) by lia. cbn [flat_map]. rewrite app_nil_r, flat_map_app. cbn [flat_map].
  rewrite app_nil_r, <- app_assoc. f_equal. rewrite (book_verses_split z b' (num_chaps d b')) by lia.
  rewrite (zrange_nil (num_chaps d b' + 1)) by lia. cbn [flat_map]. rewrite app_nil_r. reflexivity.
Qed.

Lemma earlier_prev_chap : forall f z o1 b c, 1 <= c - 1 ->
  earlier f z b c o1 = earlier f z b (c - 1) o1 ++ chap_verses d z b (c - 1).
Proof.
  intros. unfold earlier. rewrite <- app_assoc. f_equal. rewrite (zrange_snoc 1 (c - 1)) by lia.
  rewrite flat_map_app. cbn [flat_map]. now rewrite app_nil_r.
Qed.

Lemma sub_loop_spec : forall f fuel o1 b o2 c vn mn,
  stable e f ->
  book_order d = o1 ++ b :: o2 ->
  1 <= c <= num_chaps d b ->
  vn <= last_num d b c -> mn <= last_num d b c ->
  Z.of_nat fuel > c - 1 + Z.of_nat (sum_nchaps e o1) ->
  sub_loop e f fuel b c vn mn =
  check f (nth_error (rev (earlier f zg b c o1 ++ map (V b c) (zrange mn (last_num d b c))))
                     (Z.to_nat (last_num d b c - vn))).
Proof.
  intros f fuel. induction fuel as [|fuel IH]; intros o1 b o2 c vn mn Hst Hord Hc Hvn Hmn Hfuel; [lia|].
  assert (Hb : In b (book_order d)) by (rewrite Hord; apply in_elt).
  cbn [sub_loop]. destruct (Z.ltb_spec vn mn).
  - rewrite rev_app_distr, nth_error_app2 by (rewrite rev_length, map_length, zrange_length; lia).
    rewrite rev_length, map_length, zrange_length.
    replace (Z.to_nat (last_num d b c - vn) - Z.to_nat (last_num d b c - mn + 1))%nat
      with (Z.to_nat (mn - vn - 1)) by lia.
    rewrite (min_chap_in b Hb). destruct (Z.ltb_spec (c - 1) 1).
    + assert (c = 1) by lia. subst c. destruct (multibook f) eqn:Em; cbn [negb].
      * rewrite (prev_book_split _ _ _ Hord). cbn [bind].
        destruct o1 as [|b' o1 _] using rev_ind.
        -- unfold earlier. rewrite Em. simpl. now destruct (Z.to_nat _).
        -- rewrite rev_app_distr. cbn [rev app hd_error].
           assert (Hb' : In b' (book_order d)).
           { rewrite Hord. apply in_or_app. left. apply in_or_app. right. left. reflexivity. }
           pose proof (num_chaps_pos e Hwf b' Hb') as Hn'. rewrite max_chap_eq.
           rewrite (max_in b' _ Hb') by lia. cbn [bind].
           rewrite (min_in b' _ None Hb') by lia. cbn [bind]. rewrite eff_none.
           pose proof (first_le_last e Hwf zg b' (num_chaps d b') Hb' ltac:(lia)).
           rewrite (IH o1 b' (b :: o2)); auto; try lia.
           ++ f_equal. rewrite earlier_prev_book by assumption. unfold chap_verses. f_equal. lia.
           ++ rewrite Hord, <- app_assoc. reflexivity.
           ++ rewrite sum_nchaps_app in Hfuel. cbn [sum_nchaps fold_right] in Hfuel.
              pose proof (nchaps_eq b' Hb'). lia.
      * unfold earlier. rewrite Em. simpl. now destruct (Z.to_nat _).
    + rewrite (max_in b _ Hb) by lia. cbn [bind].
      rewrite (min_in b _ None Hb) by lia. cbn [bind]. rewrite eff_none.
      pose proof (first_le_last e Hwf zg b (c - 1) Hb ltac:(lia)).
      rewrite (IH o1 b o2); auto; try lia.
      f_equal. rewrite (earlier_prev_chap f zg o1 b c) by lia. unfold chap_verses. f_equal. lia.
  - rewrite rev_app_distr, nth_error_app1 by (rewrite rev_length, map_length, zrange_length; lia).
    rewrite rev_chap_nth by lia. cbn [check vbook vchap vverse].
    destruct (table_of b Hb) as [l Hl]. rewrite (new_verse_eq e b l) by assumption. rewrite Hst.
    destruct (legalb e (verse0 f) b c vn); reflexivity.
Qed.

(** C05, general form: the verses before [v] that [subtract] counts. *)
Definition before (f : flag) (v : verse) (o1 : list book) : list verse :=
  earlier f zg (vbook v) (vchap v) o1 ++
  map (V (vbook v) (vchap v)) (zrange (first_num d (verse0 f) (vbook v) (vchap v)) (vverse v)).

Lemma sub_spec_gen : forall v n fl o1 o2,
  InB d true v -> 0 <= n -> book_order d = o1 ++ vbook v :: o2 ->
  let f := honour0 (eff e fl) v in
  subtract e v n fl = check f (nth_error (rev (before f v o1)) (Z.to_nat n)).
Proof.
  intros v n fl o1 o2 Hin Hn Hord f.
  pose proof (honour0_verse0 (eff e fl) v Hin) as Hin'. fold f in Hin'.
  pose proof (InB_legal e _ _ Hin') as [Hc Hv]. pose proof (InB_book e _ _ Hin) as Hb.
  assert (Hst : stable e f) by apply stable_honour0.
  unfold subtract. fold f. rewrite (min_in _ _ _ Hb Hc). cbn [bind]. rewrite Hst.
  rewrite (sub_loop_spec f _ o1 (vbook v) o2); auto; try lia.
  2:{ eapply nav_fuel_gt'; eauto. lia. }
  f_equal. unfold before.
  rewrite (zrange_app (first_num d (verse0 f) (vbook v) (vchap v)) (vverse v)
                      (last_num d (vbook v) (vchap v))) by lia.
  rewrite map_app, app_assoc. rewrite rev_app_distr, nth_error_app2.
  - f_equal. rewrite rev_length, map_length, zrange_length. lia.
  - rewrite rev_length, map_length, zrange_length. lia.
Qed.

Lemma legalb_chap : forall z b c v, legal d z b c v -> legalb e z b c v = true.
Proof. intros. now apply legalb_iff. Qed.

Lemma nth_rev_firstn : forall {A} (l : list A) i n v, nth_error l i = Some v ->
  nth_error (rev (firstn (S i) l)) n = if (n <=? i)%nat then nth_error l (i - n) else None.
Proof.
  intros A l i. revert l. induction i; intros l n v H; destruct l as [|x l]; try discriminate.
  - cbn. destruct n; reflexivity || (cbn; now destruct n).
  - cbn [nth_error] in H. change (firstn (S (S i)) (x :: l)) with (x :: firstn (S i) l). cbn [rev].
    assert (Hlen : length (rev (firstn (S i) l)) = S i).
    { rewrite rev_length, firstn_length. assert (i < length l)%nat by (apply nth_error_Some; congruence). lia. }
    destruct (Nat.leb_spec n i).
    + rewrite nth_error_app1 by lia. rewrite (IHi l n v H).
      destruct (Nat.leb_spec n i); [|lia]. destruct (Nat.leb_spec n (S i)); [|lia].
      replace (S i - n)%nat with (S (i - n)) by lia. reflexivity.
    + rewrite nth_error_app2 by lia. rewrite Hlen. destruct (Nat.leb_spec n (S i)).
      * replace n with (S i) by lia. rewrite !Nat.sub_diag. reflexivity.
      * replace (n - S i)%nat with (S (n - S (S i))) by lia. simpl. now destruct (n - S (S i))%nat.
Qed.

(** C05 when the global setting counts the same verse 0s as the call. *)
Lemma sub_spec : forall v n fl i,
  InB d true v -> 0 <= n ->
  let f := honour0 (eff e fl) v in
  verse0 f = zg ->
  at_pos (scope f (verse0 f) (vbook v)) i v ->
  subtract e v n fl =
  Ok (if (Z.to_nat n <=? i)%nat then nth_error (scope f (verse0 f) (vbook v)) (i - Z.to_nat n) else None).
Proof.
  intros v n fl i Hin Hn f Hz Hi.
  pose proof (honour0_verse0 (eff e fl) v Hin) as Hin'. fold f in Hin'.
  pose proof (InB_legal e _ _ Hin') as [Hc Hv]. pose proof (InB_book e _ _ Hin) as Hb.
  destruct (order_in_split _ Hb) as [o1 [o2 Hord]].
  rewrite (sub_spec_gen v n fl o1 o2 Hin Hn Hord). fold f.
  pose proof (scope_nodup f (verse0 f) (vbook v)) as Hnd.
  assert (Hpre : before f v o1 = firstn (S i) (scope f (verse0 f) (vbook v))).
  { unfold before. rewrite <- Hz.
    rewrite (scope_split f o1 (vbook v) o2 (vchap v) Hord Hc) in *.
    assert (Hk : nth_error (chap_verses d (verse0 f) (vbook v) (vchap v))
                   (Z.to_nat (vverse v - first_num d (verse0 f) (vbook v) (vchap v))) = Some v).
    { rewrite chap_verses_nth by lia. now destruct v. }
    pose proof (nth_error_pos _ _ _ _ _ _ Hnd Hk Hi) as ->.
    rewrite firstn_app. rewrite firstn_all2 by lia. f_equal.
    replace (S (length (earlier f (verse0 f) (vbook v) (vchap v) o1) +
      Z.to_nat (vverse v - first_num d (verse0 f) (vbook v) (vchap v))) -
      length (earlier f (verse0 f) (vbook v) (vchap v) o1))%nat
      with (Z.to_nat (vverse v - first_num d (verse0 f) (vbook v) (vchap v) + 1)) by lia.
    rewrite firstn_app, chap_verses_length.
    replace (Z.to_nat (vverse v - first_num d (verse0 f) (vbook v) (vchap v) + 1) -
      Z.to_nat (last_num d (vbook v) (vchap v) - first_num d (verse0 f) (vbook v) (vchap v) + 1))%nat
      with 0%nat by lia. rewrite firstn_O, app_nil_r. unfold chap_verses.
    rewrite (zrange_app _ (vverse v) (last_num d (vbook v) (vchap v))) by lia.
    rewrite map_app, firstn_app, firstn_all2; rewrite map_length, zrange_length; [|lia].
    rewrite (proj2 (Nat.sub_0_le _ _)) by lia. now rewrite firstn_O, app_nil_r. }
  rewrite Hpre, (nth_rev_firstn _ _ _ _ Hi).
  destruct (Z.to_nat n <=? i)%nat; [|reflexivity].
  destruct (nth_error (scope f (verse0 f) (vbook v)) (i - Z.to_nat n)) as [w|] eqn:E; [|reflexivity].
  cbn [check]. rewrite legalb_chap; [reflexivity|].
  apply nth_error_In in E. unfold scope in E. destruct (multibook f).
  - now apply (InB_legal e) in E.
  - apply in_book_verses in E. destruct E as [-> E]. exact E.
Qed.

Lemma sub_neg : forall v n fl, InB d true v -> n < 0 ->
  subtract e v n fl = if vverse v - n >? last_num d (vbook v) (vchap v) then Err InvalidRef
                 else Ok (Some (V (vbook v) (vchap v) (vverse v - n))).
Proof.
  intros v n fl Hin Hn. set (f := honour0 (eff e fl) v).
  pose proof (honour0_verse0 (eff e fl) v Hin) as Hin'. fold f in Hin'.
  pose proof (InB_legal e _ _ Hin') as [Hc Hv]. pose proof (InB_book e _ _ Hin) as Hb.
  unfold subtract. fold f. rewrite (min_in _ _ _ Hb Hc). cbn [bind].
  assert (Hst : eff e (Some f) = f) by apply stable_honour0. rewrite Hst.
  unfold nav_fuel. cbn [sub_loop].
  destruct (Z.ltb_spec (vverse v - n) (first_num d (verse0 f) (vbook v) (vchap v))); [lia|].
  destruct (table_of _ Hb) as [l Hl]. rewrite (new_verse_eq e _ l) by assumption.
  rewrite Hst. unfold legalb. rewrite Z.gtb_ltb.
  destruct (Z.leb_spec 1 (vchap v)); [|lia]. destruct (Z.leb_spec (vchap v) (num_chaps d (vbook v))); [|lia].
  destruct (Z.leb_spec (first_num d (verse0 f) (vbook v) (vchap v)) (vverse v - n)); [|lia]. cbn [andb].
  destruct (Z.ltb_spec (last_num d (vbook v) (vchap v)) (vverse v - n));
  destruct (Z.leb_spec (vverse v - n) (last_num d (vbook v) (vchap v))); try lia; reflexivity.
Qed.

End Nav.
