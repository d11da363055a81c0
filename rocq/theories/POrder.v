(** * POrder: the operations with exact comparisons (MOrder.v) and those with the total order (MRange.v). *)
From Coq Require Import List ZArith Bool Arith Lia Permutation.
From Verif Require Import Base Books Chars Regex Data MVerse MRange MSeq MList MGroup MNode MSort MOrder SpecOrder PCore PVerse PGroup.
Import ListNotations.
Open Scope Z_scope.

Lemma book_eqb_sym : forall a b, book_eqb a b = book_eqb b a.
Proof. intros a b. apply bool_iff_eq. rewrite !book_eqb_eq. split; congruence. Qed.
Lemma verse_eqb_sym : forall a b, verse_eqb a b = verse_eqb b a.
Proof. intros a b. apply bool_iff_eq. rewrite !verse_eqb_eq. split; congruence. Qed.

Section Order.
Variable e : env.

(** Books are comparable if they are of one kind. *)
Definition bkind (b : book) : option book := match order (ed e) b with Some _ => None | None => Some b end.
Definition vkind (v : verse) : option book := bkind (vbook v).
Definition of_kind (k : option book) (r : range) : Prop := vkind (rstart r) = k /\ vkind (rend r) = k.

Lemma kind_comparable : forall bs, bs <> [] -> (comparable e bs <-> exists k, Forall (fun b => bkind b = k) bs).
Proof.
  intros bs Hne. split.
  - intros [H|(b & H)].
    + exists None. eapply Forall_impl; [|exact H]. intros b (i & E). unfold bkind. now rewrite E.
    + exists (bkind b). eapply Forall_impl; [|exact H]. intros b' <-. reflexivity.
  - intros ([b|] & H).
    + right. exists b. eapply Forall_impl; [|exact H]. intros b' E. unfold bkind in E. destruct (order (ed e) b'); congruence.
    + left. eapply Forall_impl; [|exact H]. intros b' E. unfold bkind in E. unfold listed. destruct (order (ed e) b') eqn:Eo; [eauto|congruence].
Qed.
Lemma sound_kind : forall r, sound e r <-> exists k, of_kind k r.
Proof.
  intros r. unfold sound. rewrite kind_comparable by discriminate. split; intros (k & H); exists k.
  - inv H. inv H3. split; auto.
  - destruct H. repeat constructor; auto.
Qed.
Lemma comparable2_kind : forall a b, comparable2 e a b <-> exists k, of_kind k a /\ of_kind k b.
Proof.
  intros a b. unfold comparable2. rewrite kind_comparable by discriminate. split; intros (k & H); exists k.
  - unfold range_books in H. cbn [app] in H. rewrite !Forall_cons_iff in H. cbn beta in H. unfold of_kind, vkind. tauto.
  - destruct H as ((? & ?) & ? & ?). unfold range_books. cbn [app]. rewrite !Forall_cons_iff. auto.
Qed.
Lemma comparable_all_kind : forall l, l <> [] -> (comparable_all e l <-> exists k, Forall (of_kind k) l).
Proof.
  intros l Hne. unfold comparable_all. rewrite kind_comparable by (destruct l; [congruence|discriminate]). split; intros (k & H); exists k.
  - rewrite Forall_flat_map in H. eapply Forall_impl; [|exact H]. unfold range_books. intros r Hr. rewrite !Forall_cons_iff in Hr. cbn beta in Hr. unfold of_kind, vkind. tauto.
  - rewrite Forall_flat_map. eapply Forall_impl; [|exact H]. unfold range_books. intros r (? & ?). rewrite !Forall_cons_iff. auto.
Qed.

Lemma vcmp_ok : forall a b, vkind a = vkind b ->
  verse_lt e a b = Ok (vltb e a b) /\ verse_le e a b = Ok (vleb e a b) /\ verse_gt e a b = Ok (vltb e b a) /\ verse_ge e a b = Ok (vleb e b a).
Proof.
  intros a b K. unfold verse_lt, verse_le, verse_gt, verse_ge, verse_cmp, vleb, vltb.
  rewrite (book_eqb_sym (vbook b)), !(Z.eqb_sym (vchap b)). destruct (book_eqb (vbook a) (vbook b)) eqn:Eb.
  - destruct (vchap a =? vchap b) eqn:Ec; rewrite ?Z.gtb_ltb, ?Z.geb_leb; repeat split; f_equal; apply bool_iff_eq; rewrite ?negb_true_iff, ?Z.ltb_lt, ?Z.leb_le, ?Z.ltb_ge; try lia;
      apply Z.eqb_neq in Ec; lia.
  - unfold vkind, bkind in K. unfold book_lt, book_le, book_gt, book_ge, book_cmp, bord.
    destruct (order (ed e) (vbook a)) as [i|], (order (ed e) (vbook b)) as [j|]; try discriminate.
    + repeat split; f_equal; apply bool_iff_eq; rewrite ?negb_true_iff, ?Z.ltb_lt, ?Z.leb_le, ?Z.ltb_ge, ?Nat.ltb_lt, ?Nat.leb_le; lia.
    + exfalso. injection K as K. rewrite K, book_eqb_refl in Eb. discriminate.
Qed.
Lemma vcmp_err : forall a b, vkind a <> vkind b ->
  verse_lt e a b = Err TypeErr /\ verse_le e a b = Err TypeErr /\ verse_gt e a b = Err TypeErr /\ verse_ge e a b = Err TypeErr.
Proof.
  intros a b K. unfold verse_lt, verse_le, verse_gt, verse_ge, verse_cmp. destruct (book_eqb (vbook a) (vbook b)) eqn:Eb.
  - apply book_eqb_eq in Eb. exfalso. apply K. unfold vkind. now rewrite Eb.
  - unfold vkind, bkind in K. unfold book_lt, book_le, book_gt, book_ge, book_cmp.
    destruct (order (ed e) (vbook a)) as [i|], (order (ed e) (vbook b)) as [j|]; auto. congruence.
Qed.
Lemma differ : forall a b, vkind a <> vkind b -> verse_eqb a b = false.
Proof. intros a b K. destruct (verse_eqb a b) eqn:E; auto. apply verse_eqb_eq in E. congruence. Qed.

Section OneKind.
Variable k : option book.
Variables a b : range.
Hypothesis Ha : of_kind k a.
Hypothesis Hb : of_kind k b.
Let sa : vkind (rstart a) = k := proj1 Ha.
Let ea : vkind (rend a) = k := proj2 Ha.
Let sb : vkind (rstart b) = k := proj1 Hb.
Let eb : vkind (rend b) = k := proj2 Hb.
Ltac go := rewrite ?sa, ?ea, ?sb, ?eb; reflexivity.
Lemma range_cmp_ok : range_lt e a b = Ok (rltb e a b) /\ range_le e a b = Ok (rleb e a b) /\ range_gt e a b = Ok (rltb e b a) /\ range_ge e a b = Ok (rleb e b a).
Proof.
  unfold range_lt, range_le, range_gt, range_ge, range_cmp, rleb, rltb. rewrite (verse_eqb_sym (rstart b)).
  destruct (verse_eqb (rstart a) (rstart b)); apply vcmp_ok; go.
Qed.
Lemma order2_ok : x_order2 e a b = Ok (order2 e a b).
Proof. unfold x_order2, order2. destruct range_cmp_ok as (-> & _). cbn. destruct (rltb e a b); reflexivity. Qed.
Lemma order2_kind : of_kind k (fst (order2 e a b)) /\ of_kind k (snd (order2 e a b)).
Proof. unfold order2. destruct (rltb e a b); auto. Qed.
Lemma disjoint_ok : x_is_disjoint e a b = Ok (is_disjoint e a b).
Proof.
  unfold x_is_disjoint, is_disjoint. rewrite order2_ok. cbn [bind]. destruct order2_kind as ((H1 & H2) & (H3 & H4)).
  destruct (order2 e a b) as (lo, hi). apply vcmp_ok. cbn in *. congruence.
Qed.
Lemma adjacent_ok : forall fl, x_is_adjacent e a b fl = is_adjacent e a b fl.
Proof. intros fl. unfold x_is_adjacent, is_adjacent. rewrite order2_ok. cbn [bind]. destruct (order2 e a b). reflexivity. Qed.
Lemma contains_ok : x_contains e a b = Ok (contains e a b).
Proof.
  unfold x_contains, contains, andM.
  destruct (vcmp_ok (rstart b) (rstart a)) as (_ & _ & _ & ->); [go|]. destruct (vcmp_ok (rstart b) (rend a)) as (_ & -> & _); [go|].
  destruct (vcmp_ok (rend b) (rstart a)) as (_ & _ & _ & ->); [go|]. destruct (vcmp_ok (rend b) (rend a)) as (_ & -> & _); [go|].
  cbn. destruct (vleb e (rstart a) (rstart b)); cbn; [|reflexivity]. destruct (vleb e (rstart b) (rend a)); cbn; [|reflexivity].
  destruct (vleb e (rstart a) (rend b)); reflexivity.
Qed.
Lemma surrounds_ok : x_surrounds e a b = Ok (surrounds e a b).
Proof.
  unfold x_surrounds, surrounds, andM.
  destruct (vcmp_ok (rstart b) (rstart a)) as (_ & _ & -> & _); [go|]. destruct (vcmp_ok (rstart b) (rend a)) as (-> & _ & _); [go|].
  destruct (vcmp_ok (rend b) (rstart a)) as (_ & _ & -> & _); [go|]. destruct (vcmp_ok (rend b) (rend a)) as (-> & _ & _); [go|].
  cbn. destruct (vltb e (rstart a) (rstart b)); cbn; [|reflexivity]. destruct (vltb e (rstart b) (rend a)); cbn; [|reflexivity].
  destruct (vltb e (rstart a) (rend b)); reflexivity.
Qed.
Lemma min_ok : forall v w, vkind v = k -> vkind w = k -> x_min e v w = Ok (vmin e v w).
Proof. intros v w Hv Hw. unfold x_min, vmin. destruct (vcmp_ok w v) as (-> & _); [congruence|]. reflexivity. Qed.
Lemma max_ok : forall v w, vkind v = k -> vkind w = k -> x_max e v w = Ok (vmax e v w).
Proof. intros v w Hv Hw. unfold x_max, vmax. destruct (vcmp_ok w v) as (_ & _ & -> & _); [congruence|]. reflexivity. Qed.
Lemma union_ok : forall fl, x_union e a b fl = union e a b fl.
Proof.
  intros fl. unfold x_union, union. rewrite disjoint_ok, adjacent_ok, order2_ok, min_ok, max_ok by go. cbn [bind].
  destruct (andM (Ok (is_disjoint e a b)) (notM (is_adjacent e a b fl))) as [[|]|]; cbn [bind]; auto. destruct (order2 e a b). reflexivity.
Qed.
Lemma intersection_ok : forall fl, x_intersection e a b fl = intersection e a b fl.
Proof. intros fl. unfold x_intersection, intersection. rewrite disjoint_ok, min_ok, max_ok by go. reflexivity. Qed.
Lemma new_kind : forall v w fl r, vkind v = k -> vkind w = k -> new_range e v w fl = Ok r -> of_kind k r.
Proof.
  intros v w fl r Hv Hw E. unfold new_range in E. destruct (_ && _); [discriminate|].
  destruct (verse_gt e v w) as [[|]|]; cbn in E; try discriminate; injection E as <-; split; auto.
Qed.
Lemma min_kind : forall v w, vkind v = k -> vkind w = k -> vkind (vmin e v w) = k.
Proof. intros v w Hv Hw. unfold vmin. destruct (vltb e w v); auto. Qed.
Lemma max_kind : forall v w, vkind v = k -> vkind w = k -> vkind (vmax e v w) = k.
Proof. intros v w Hv Hw. unfold vmax. destruct (vltb e v w); auto. Qed.
Lemma union_kind : forall fl l, union e a b fl = Ok l -> Forall (of_kind k) l.
Proof.
  intros fl l E. unfold union in E. destruct (andM _ _) as [[|]|]; cbn [bind] in E; [| |discriminate].
  - destruct order2_kind as (H1 & H2). destruct (order2 e a b). injection E as <-. auto.
  - destruct (new_range _ _ _ _) as [r|] eqn:En; cbn [bind] in E; [|discriminate]. injection E as <-. constructor; [|constructor].
    eapply new_kind; [| |exact En]; [apply min_kind; go|apply max_kind; go].
Qed.
Lemma intersection_kind : forall fl l, intersection e a b fl = Ok l -> Forall (of_kind k) l.
Proof.
  intros fl l E. unfold intersection in E. destruct (is_disjoint e a b); [injection E as <-; constructor|].
  destruct (new_range _ _ _ _) as [r|] eqn:En; cbn [bind] in E; [|discriminate]. injection E as <-. constructor; [|constructor].
  eapply new_kind; [| |exact En]; [apply max_kind; go|apply min_kind; go].
Qed.
End OneKind.
Lemma difference_ok : forall k a b fl, of_kind k a -> of_kind k b -> x_difference e a b fl = difference e a b fl.
Proof.
  intros k a b fl Ha Hb. unfold x_difference, difference. rewrite (disjoint_ok k), (contains_ok k), (surrounds_ok k) by auto. cbn [bind].
  destruct (range_cmp_ok k a b Ha Hb) as (-> & _). destruct (is_disjoint e a b); auto. destruct (contains e b a); auto.
  destruct (subtract _ _ _ _); auto. cbn [bind]. destruct (new_range_opt _ _ _ _); auto. cbn [bind]. destruct (add _ _ _ _); auto. cbn [bind].
  destruct (new_range_opt _ _ _ _); auto. cbn [bind]. destruct (surrounds e a b); auto. destruct (rltb e a b); auto.
Qed.
Lemma sym_difference_ok : forall k a b fl, of_kind k a -> of_kind k b -> x_sym_difference e a b fl = sym_difference e a b fl.
Proof.
  intros k a b fl Ha Hb. unfold x_sym_difference, sym_difference. rewrite (union_ok k), (intersection_ok k) by auto.
  destruct (range_eqb a b); auto. destruct (union e a b fl) as [u|] eqn:Eu; auto. cbn [bind].
  destruct (intersection e a b fl) as [i|] eqn:Ei; auto. cbn [bind].
  pose proof (union_kind k a b Ha Hb fl u Eu) as Ku. pose proof (intersection_kind k a b Ha Hb fl i Ei) as Ki.
  destruct u as [|u0 [|u1 u]]; auto. destruct i as [|i0 i]; auto. inv Ku. inv Ki. now apply (difference_ok k).
Qed.

(** Ranges of different kinds. *)
Section TwoKinds.
Variables a b : range.
Hypothesis K : vkind (rstart a) <> vkind (rstart b).
Lemma range_cmp_err : range_lt e a b = Err TypeErr /\ range_le e a b = Err TypeErr /\ range_gt e a b = Err TypeErr /\ range_ge e a b = Err TypeErr.
Proof. unfold range_lt, range_le, range_gt, range_ge, range_cmp. rewrite differ by auto. now apply vcmp_err. Qed.
Lemma ops_err : forall fl,
  x_is_disjoint e a b = Err TypeErr /\ x_is_adjacent e a b fl = Err TypeErr /\ x_contains e a b = Err TypeErr /\ x_surrounds e a b = Err TypeErr /\
  x_union e a b fl = Err TypeErr /\ x_intersection e a b fl = Err TypeErr /\ x_difference e a b fl = Err TypeErr /\ x_sym_difference e a b fl = Err TypeErr.
Proof.
  intros fl. assert (E : x_order2 e a b = Err TypeErr) by (unfold x_order2; destruct range_cmp_err as (-> & _); reflexivity).
  assert (D : x_is_disjoint e a b = Err TypeErr) by (unfold x_is_disjoint; now rewrite E).
  assert (U : x_union e a b fl = Err TypeErr) by (unfold x_union; now rewrite D).
  split; [exact D|]. split; [unfold x_is_adjacent; now rewrite E|].
  destruct (vcmp_err (rstart b) (rstart a)) as (_ & _ & G & H); [congruence|].
  split; [unfold x_contains; now rewrite H|]. split; [unfold x_surrounds; now rewrite G|]. split; [exact U|].
  split; [unfold x_intersection; now rewrite D|]. split; [unfold x_difference; now rewrite D|].
  unfold x_sym_difference. unfold range_eqb. rewrite differ by auto. cbn [andb]. now rewrite U.
Qed.
End TwoKinds.
Lemma not_comparable : forall a b, sound e a -> sound e b -> (~ comparable2 e a b <-> vkind (rstart a) <> vkind (rstart b)).
Proof.
  intros a b Ha Hb. rewrite comparable2_kind. apply sound_kind in Ha. apply sound_kind in Hb.
  destruct Ha as (k & H1 & H2), Hb as (k' & H3 & H4). split.
  - intros N E. apply N. assert (X : k = k') by congruence. rewrite X in *. exists k'. repeat split; auto.
  - intros N (k2 & (? & ?) & ? & ?). congruence.
Qed.

(** ** Iteration *)
Lemma new_verse_book : forall b c v fl w, new_verse e b c v fl = Ok w -> vbook w = b.
Proof.
  intros b c v fl w E. unfold new_verse in E.
  repeat match type of E with context [if ?x then _ else _] => destruct x; try discriminate | context [bind ?x _] => destruct x; cbn [bind] in E; try discriminate end; inv E; reflexivity.
Qed.
Hypothesis Hord : forall b i, nth_error (book_order (ed e)) i = Some b -> exists j, order (ed e) b = Some j.
Lemma next_kind : forall b b', next_book e b = Ok (Some b') -> bkind b' = bkind b.
Proof.
  intros b b' E. unfold next_book in E. destruct (order (ed e) b) as [i|] eqn:Eo; [|discriminate]. destruct (_ =? _); [discriminate|].
  destruct (nth_error _ _) as [c|] eqn:En; inv E. apply Hord in En. destruct En as (j & Ej). unfold bkind. now rewrite Eo, Ej.
Qed.
Lemma add_loop_kind : forall f n b c vn mx w, add_loop e f n b c vn mx = Ok (Some w) -> vkind w = bkind b.
Proof.
  intros f. induction n as [|n IH]; intros b c vn mx w E; cbn [add_loop] in E.
  - destruct (vn >? mx); [discriminate|]. destruct (new_verse e b c vn (Some f)) as [v|] eqn:Ev; cbn in E; inv E. apply new_verse_book in Ev. unfold vkind. now rewrite Ev.
  - destruct (vn >? mx).
    + destruct (_ >? _).
      * destruct (negb _); [discriminate|]. destruct (next_book e b) as [[b'|]|] eqn:En; cbn [bind] in E; try discriminate.
        destruct (min_verse_num e b' _ _) as [mn'|]; cbn [bind] in E; [|discriminate]. destruct (max_verse_num e b' _) as [mx'|]; cbn [bind] in E; [|discriminate].
        apply IH in E. rewrite E. now apply next_kind.
      * destruct (min_verse_num e b _ _) as [mn'|]; cbn [bind] in E; [|discriminate]. destruct (max_verse_num e b _) as [mx'|]; cbn [bind] in E; [|discriminate].
        now apply IH in E.
    + destruct (new_verse e b c vn (Some f)) as [v|] eqn:Ev; cbn in E; inv E. apply new_verse_book in Ev. unfold vkind. now rewrite Ev.
Qed.
Lemma add_kind : forall v n fl w, add e v n fl = Ok (Some w) -> vkind w = vkind v.
Proof. intros v n fl w E. unfold add in E. destruct (max_verse_num _ _ _); cbn [bind] in E; [|discriminate]. now apply add_loop_kind in E. Qed.
Lemma iter_loop_ok : forall n v stop, match v with Some w => vkind w = vkind stop | None => True end -> x_iter_loop e n v stop = iter_loop e n v stop.
Proof.
  induction n as [|n IH]; intros [v|] stop K; cbn [x_iter_loop iter_loop]; auto; destruct (vcmp_ok v stop K) as (_ & -> & _); cbn [bind]; destruct (vleb e v stop); auto.
  destruct (add e v 1 (Some MULTIBOOK)) as [o|] eqn:Ea; auto. cbn [bind]. rewrite IH; auto. destruct o as [w|]; auto. rewrite <- K. now apply add_kind in Ea.
Qed.
Lemma iter_ok : forall n r, sound e r -> x_iter_range e n r = iter_range e n r.
Proof. intros n r H. apply sound_kind in H. destruct H as (k & H1 & H2). apply iter_loop_ok. congruence. Qed.
End Order.
