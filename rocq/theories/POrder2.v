(** * POrder2: a book outside the order, or any book without MULTIBOOK, behaves as the only book of a Bible. *)
From Coq Require Import List ZArith Bool Arith Lia.
From Verif Require Import Base Books Chars Regex Data MVerse MRange MSeq MList MGroup MNode MSort MOrder SpecOrder PCore PVerse PGroup POrder.
Import ListNotations.
Open Scope Z_scope.

Section Alone.
Variable e : env.
Variable b : book.
Notation e' := (alone e b).

(** No step leads out of the book. *)
Definition stays (f : flag) : Prop := order (ed e) b = None \/ multibook f = false.
Definition quiet (fl : option flag) : Prop := stays (eff e fl).
Lemma next_e : order (ed e) b = None -> next_book e b = Ok None.
Proof. intros H. unfold next_book. now rewrite H. Qed.
Lemma next_e' : next_book e' b = Ok None.
Proof. unfold next_book. cbn. rewrite book_eqb_refl. reflexivity. Qed.
Lemma prev_e : order (ed e) b = None -> prev_book e b = Ok None.
Proof. intros H. unfold prev_book. now rewrite H. Qed.
Lemma prev_e' : prev_book e' b = Ok None.
Proof. unfold prev_book. cbn. rewrite book_eqb_refl. reflexivity. Qed.
Ltac stay Hf := destruct Hf as [Hf|Hf]; [rewrite ?(next_e Hf), ?(prev_e Hf); cbn [bind]; destruct (negb _)|rewrite Hf; cbn [negb]].
Ltac stay_in Hf E := destruct Hf as [Hf|Hf]; [rewrite ?(next_e Hf), ?(prev_e Hf) in E; cbn [bind] in E; destruct (negb _)|rewrite Hf in E; cbn [negb] in E]; discriminate.
Lemma stays_honour : forall f v, stays f -> stays (honour0 f v).
Proof. intros f v [H|H]; [now left|]. right. unfold honour0. destruct (_ =? _); [|auto]. destruct f. cbn in *. now rewrite H. Qed.
Lemma sum_ge : forall (f : env) bs x, In x bs -> (nchaps f x <= sum_nchaps f bs)%nat.
Proof.
  intros f bs x. induction bs as [|y bs IH]; [intros []|]. intros [->|H]; cbn [sum_nchaps fold_right]; fold (sum_nchaps f bs); [lia|]. apply IH in H. lia.
Qed.
Lemma nav_gt : forall f : env, (nchaps f b < nav_fuel f)%nat.
Proof.
  intros f. unfold nav_fuel. assert (H : (nchaps f b <= sum_nchaps f all_books)%nat) by (apply sum_ge, all_books_in). lia.
Qed.
Lemma chaps_le : max_chap_num e b <= Z.of_nat (nchaps e b) /\ 0 <= min_chap_num e b.
Proof. unfold max_chap_num, min_chap_num, nchaps. destruct (max_verses (ed e) b); unfold zlen; split; lia. Qed.
Lemma good_chap : forall c, bad_chap e b c = false -> 0 <= c <= max_chap_num e b.
Proof.
  intros c E. unfold bad_chap in E. apply orb_false_iff in E. destruct E as (E1 & E2). apply Z.ltb_ge in E1. rewrite Z.gtb_ltb in E2. apply Z.ltb_ge in E2.
  destruct chaps_le. lia.
Qed.
Lemma add_loop_same : forall f, stays f -> forall n m c vn mx, max_chap_num e b - c < Z.of_nat n -> max_chap_num e b - c < Z.of_nat m -> c <= max_chap_num e b ->
  add_loop e f n b c vn mx = add_loop e' f m b c vn mx.
Proof.
  intros f Hf. induction n as [|n IH]; intros m c vn mx Hn Hm Hc; [lia|]. destruct m as [|m]; [lia|]. cbn [add_loop]. rewrite next_e'.
  change (max_chap_num e' b) with (max_chap_num e b). change (min_verse_num e' b (c + 1) (Some f)) with (min_verse_num e b (c + 1) (Some f)).
  change (max_verse_num e' b (c + 1)) with (max_verse_num e b (c + 1)). change (new_verse e' b c vn (Some f)) with (new_verse e b c vn (Some f)).
  destruct (vn >? mx); [|reflexivity]. destruct (c + 1 >? max_chap_num e b) eqn:Ec; [now stay Hf|]. rewrite Z.gtb_ltb in Ec. apply Z.ltb_ge in Ec.
  destruct (min_verse_num e b (c + 1) (Some f)) as [mn|]; [|reflexivity]. cbn [bind]. destruct (max_verse_num e b (c + 1)) as [mx'|]; [|reflexivity]. cbn [bind].
  apply IH; lia.
Qed.
Lemma add_same : forall v n fl, quiet fl -> vbook v = b -> add e v n fl = add e' v n fl.
Proof.
  intros v n fl Hf Hv. unfold add. rewrite Hv. change (max_verse_num e' b (vchap v)) with (max_verse_num e b (vchap v)).
  change (eff e' fl) with (eff e fl). destruct (max_verse_num e b (vchap v)) as [mx|] eqn:E; [|reflexivity]. cbn [bind].
  assert (G : bad_chap e b (vchap v) = false) by (unfold max_verse_num in E; destruct (bad_chap e b (vchap v)); [discriminate|reflexivity]).
  apply good_chap in G. pose proof (nav_gt e). pose proof (nav_gt e') as N. change (nchaps e' b) with (nchaps e b) in N. destruct chaps_le. apply add_loop_same; [now apply stays_honour| | |]; lia.
Qed.
Lemma add_loop_in : forall f, stays f -> forall n c vn mx w, add_loop e f n b c vn mx = Ok (Some w) -> vbook w = b.
Proof.
  intros f Hf. induction n as [|n IH]; intros c vn mx w E; cbn [add_loop] in E; destruct (vn >? mx); try discriminate.
  - destruct (new_verse e b c vn (Some f)) as [v|] eqn:Ev; cbn in E; inv E. now apply new_verse_book in Ev.
  - destruct (_ >? _); [stay_in Hf E|].
    destruct (min_verse_num e b _ _) as [mn'|]; cbn [bind] in E; [|discriminate]. destruct (max_verse_num e b _) as [mx'|]; cbn [bind] in E; [|discriminate]. now apply IH in E.
  - destruct (new_verse e b c vn (Some f)) as [v|] eqn:Ev; cbn in E; inv E. now apply new_verse_book in Ev.
Qed.
Lemma add_in : forall v n fl w, quiet fl -> vbook v = b -> add e v n fl = Ok (Some w) -> vbook w = b.
Proof. intros v n fl w Hf Hv E. unfold add in E. rewrite Hv in E. destruct (max_verse_num _ _ _); cbn [bind] in E; [|discriminate]. apply add_loop_in in E; [auto|now apply stays_honour]. Qed.
Lemma sub_loop_same : forall f, stays f -> forall n m c vn mn, c < Z.of_nat n -> c < Z.of_nat m -> 0 <= c ->
  sub_loop e f n b c vn mn = sub_loop e' f m b c vn mn.
Proof.
  intros f Hf. induction n as [|n IH]; intros m c vn mn Hn Hm Hc; [lia|]. destruct m as [|m]; [lia|]. cbn [sub_loop]. rewrite prev_e'.
  change (min_chap_num e' b) with (min_chap_num e b). change (min_verse_num e' b (c - 1) None) with (min_verse_num e b (c - 1) None).
  change (max_verse_num e' b (c - 1)) with (max_verse_num e b (c - 1)). change (new_verse e' b c vn (Some f)) with (new_verse e b c vn (Some f)).
  destruct (vn <? mn); [|reflexivity]. destruct (c - 1 <? min_chap_num e b) eqn:Ec; [now stay Hf|]. apply Z.ltb_ge in Ec.
  destruct (max_verse_num e b (c - 1)) as [mx'|]; [|reflexivity]. cbn [bind]. destruct (min_verse_num e b (c - 1) None) as [mn'|]; [|reflexivity]. cbn [bind].
  destruct chaps_le. apply IH; lia.
Qed.
Lemma subtract_same : forall v n fl, quiet fl -> vbook v = b -> subtract e v n fl = subtract e' v n fl.
Proof.
  intros v n fl Hf Hv. unfold subtract. rewrite Hv. change (eff e' fl) with (eff e fl).
  change (min_verse_num e' b (vchap v) (Some (honour0 (eff e fl) v))) with (min_verse_num e b (vchap v) (Some (honour0 (eff e fl) v))).
  destruct (min_verse_num e b (vchap v) _) as [mn|] eqn:E; [|reflexivity]. cbn [bind].
  assert (G : bad_chap e b (vchap v) = false) by (unfold min_verse_num in E; destruct (bad_chap e b (vchap v)); [discriminate|reflexivity]).
  apply good_chap in G. pose proof (nav_gt e). pose proof (nav_gt e') as N. change (nchaps e' b) with (nchaps e b) in N. destruct chaps_le. apply sub_loop_same; [now apply stays_honour| | |]; lia.
Qed.
Lemma sub_loop_in : forall f, stays f -> forall n c vn mx w, sub_loop e f n b c vn mx = Ok (Some w) -> vbook w = b.
Proof.
  intros f Hf. induction n as [|n IH]; intros c vn mx w E; cbn [sub_loop] in E; destruct (vn <? mx); try discriminate.
  - destruct (new_verse e b c vn (Some f)) as [v|] eqn:Ev; cbn in E; inv E. now apply new_verse_book in Ev.
  - destruct (_ <? _); [stay_in Hf E|].
    destruct (max_verse_num e b _) as [mx'|]; cbn [bind] in E; [|discriminate]. destruct (min_verse_num e b _ _) as [mn'|]; cbn [bind] in E; [|discriminate]. now apply IH in E.
  - destruct (new_verse e b c vn (Some f)) as [v|] eqn:Ev; cbn in E; inv E. now apply new_verse_book in Ev.
Qed.
Lemma subtract_in : forall v n fl w, quiet fl -> vbook v = b -> subtract e v n fl = Ok (Some w) -> vbook w = b.
Proof. intros v n fl w Hf Hv E. unfold subtract in E. rewrite Hv in E. destruct (min_verse_num _ _ _ _); cbn [bind] in E; [|discriminate]. apply sub_loop_in in E; [auto|now apply stays_honour]. Qed.

Lemma cmp_same : forall v w, vbook v = b -> vbook w = b -> vltb e v w = vltb e' v w.
Proof. intros v w Hv Hw. unfold vltb. now rewrite Hv, Hw, book_eqb_refl. Qed.
Lemma cmp_same' : forall v w, vbook v = b -> vbook w = b -> vleb e v w = vleb e' v w.
Proof. intros v w Hv Hw. unfold vleb. now rewrite cmp_same. Qed.
Lemma new_same : forall v w fl, vbook v = b -> vbook w = b -> new_range e v w fl = new_range e' v w fl.
Proof.
  intros v w fl Hv Hw. unfold new_range. change (eff e' fl) with (eff e fl). unfold verse_gt, verse_cmp. rewrite Hv, Hw, book_eqb_refl. reflexivity.
Qed.
Lemma new_in : forall v w fl r, vbook v = b -> vbook w = b -> new_range e v w fl = Ok r -> within b r.
Proof.
  intros v w fl r Hv Hw E. unfold new_range in E. destruct (_ && _); [discriminate|]. destruct (verse_gt e v w) as [[|]|]; cbn in E; inv E; split; auto.
Qed.
Definition in_opt (o : option verse) : Prop := match o with Some v => vbook v = b | None => True end.
Lemma new_opt_same : forall v w fl, in_opt v -> in_opt w -> new_range_opt e v w fl = new_range_opt e' v w fl.
Proof. intros [v|] [w|] fl Hv Hw; try reflexivity. now apply new_same. Qed.
Lemma add_opt : forall v n fl o, quiet fl -> vbook v = b -> add e v n fl = Ok o -> in_opt o.
Proof. intros v n fl [w|] Hf Hv E; cbn; auto. eapply add_in; eauto. Qed.
Lemma sub_opt : forall v n fl o, quiet fl -> vbook v = b -> subtract e v n fl = Ok o -> in_opt o.
Proof. intros v n fl [w|] Hf Hv E; cbn; auto. eapply subtract_in; eauto. Qed.

(** ** Ranges *)
Section Two.
Variables p q : range.
Hypothesis Hp : within b p.
Hypothesis Hq : within b q.
Lemma rlt_same : rltb e p q = rltb e' p q /\ rleb e p q = rleb e' p q.
Proof.
  destruct Hp, Hq. unfold rleb, rltb. rewrite !cmp_same by auto. auto.
Qed.
Lemma order2_same : order2 e p q = order2 e' p q.
Proof. unfold order2. now rewrite (proj1 rlt_same). Qed.
Lemma order2_in : within b (fst (order2 e p q)) /\ within b (snd (order2 e p q)).
Proof. unfold order2. destruct (rltb e p q); auto. Qed.
Lemma disjoint_same : is_disjoint e p q = is_disjoint e' p q.
Proof.
  unfold is_disjoint. rewrite <- order2_same. destruct order2_in as ((H1 & H2) & (H3 & H4)). destruct (order2 e p q) as (x, y). apply cmp_same; auto.
Qed.
Lemma adjacent_same : forall fl, quiet fl -> is_adjacent e p q fl = is_adjacent e' p q fl.
Proof.
  intros fl Hf. unfold is_adjacent. rewrite <- order2_same. destruct order2_in as ((H1 & H2) & (H3 & H4)). destruct (order2 e p q) as (x, y). rewrite add_same by auto. reflexivity.
Qed.
Lemma contains_same : contains e p q = contains e' p q.
Proof. destruct Hp, Hq. unfold contains. now rewrite !cmp_same' by auto. Qed.
Lemma surrounds_same : surrounds e p q = surrounds e' p q.
Proof. destruct Hp, Hq. unfold surrounds. now rewrite !cmp_same by auto. Qed.
Lemma pick_in : forall (c : bool) (v w : verse), vbook v = b -> vbook w = b -> vbook (if c then v else w) = b.
Proof. intros [|]; auto. Qed.
Lemma union_same : forall fl, quiet fl -> union e p q fl = union e' p q fl.
Proof.
  intros fl Hf. unfold union. rewrite disjoint_same, adjacent_same, order2_same by auto. destruct (andM _ _) as [[|]|]; try reflexivity. cbn [bind].
  destruct Hp, Hq. unfold vmin, vmax. rewrite <- !cmp_same by auto. rewrite new_same; [reflexivity| |]; now apply pick_in.
Qed.
Lemma union_in : forall fl l, union e p q fl = Ok l -> Forall (within b) l.
Proof.
  intros fl l E. unfold union in E. destruct (andM _ _) as [[|]|]; cbn [bind] in E; [| |discriminate].
  - destruct order2_in as (H1 & H2). destruct (order2 e p q). injection E as <-. auto.
  - destruct (new_range _ _ _ _) as [r|] eqn:En; cbn [bind] in E; [|discriminate]. injection E as <-. constructor; [|constructor].
    destruct Hp, Hq. eapply new_in; [| |exact En]; now apply pick_in.
Qed.
Lemma intersection_same : forall fl, intersection e p q fl = intersection e' p q fl.
Proof.
  intros fl. unfold intersection. rewrite disjoint_same. destruct (is_disjoint e' p q); [reflexivity|].
  destruct Hp, Hq. unfold vmin, vmax. rewrite <- !cmp_same by auto. rewrite new_same; [reflexivity| |]; now apply pick_in.
Qed.
Lemma intersection_in : forall fl l, intersection e p q fl = Ok l -> Forall (within b) l.
Proof.
  intros fl l E. unfold intersection in E. destruct (is_disjoint e p q); [injection E as <-; constructor|].
  destruct (new_range _ _ _ _) as [r|] eqn:En; cbn [bind] in E; [|discriminate]. injection E as <-. constructor; [|constructor].
  destruct Hp, Hq. eapply new_in; [| |exact En]; now apply pick_in.
Qed.
End Two.
Lemma difference_same : forall p q fl, quiet None -> quiet fl -> within b p -> within b q -> difference e p q fl = difference e' p q fl.
Proof.
  intros p q fl Hg Hf Hp Hq. unfold difference. rewrite disjoint_same, contains_same, surrounds_same, (proj1 (rlt_same p q Hp Hq)) by auto.
  destruct (is_disjoint e' p q); [reflexivity|]. destruct (contains e' q p); [reflexivity|]. destruct Hp, Hq.
  rewrite <- subtract_same, <- add_same by auto. destruct (subtract e (rstart q) 1 fl) as [o|] eqn:Eo; [|reflexivity]. cbn [bind].
  apply sub_opt in Eo; auto. rewrite new_opt_same by (cbn; auto). destruct (new_range_opt e' _ _ _); [|reflexivity]. cbn [bind].
  destruct (add e (rend q) 1 fl) as [o'|] eqn:Eo'; [|reflexivity]. cbn [bind]. apply add_opt in Eo'; auto. now rewrite new_opt_same by (cbn; auto).
Qed.
Lemma sym_difference_same : forall p q fl, quiet None -> quiet fl -> within b p -> within b q -> sym_difference e p q fl = sym_difference e' p q fl.
Proof.
  intros p q fl Hg Hf Hp Hq. unfold sym_difference. rewrite <- union_same, <- intersection_same by auto. destruct (range_eqb p q); [reflexivity|].
  destruct (union e p q fl) as [u|] eqn:Eu; [|reflexivity]. cbn [bind]. destruct (intersection e p q fl) as [i|] eqn:Ei; [|reflexivity]. cbn [bind].
  apply union_in in Eu; auto. apply intersection_in in Ei; auto. destruct u as [|u0 [|u1 u]]; try reflexivity. destruct i as [|i0 i]; [reflexivity|].
  inv Eu. inv Ei. now apply difference_same.
Qed.
Lemma iter_loop_same : quiet (Some MULTIBOOK) -> forall n o stop, in_opt o -> vbook stop = b -> iter_loop e n o stop = iter_loop e' n o stop.
Proof.
  intros Hf. induction n as [|n IH]; intros [v|] stop Hv Hs; cbn [iter_loop]; try reflexivity; rewrite cmp_same' by auto; destruct (vleb e' v stop); try reflexivity.
  rewrite <- add_same by auto. destruct (add e v 1 (Some MULTIBOOK)) as [o|] eqn:Ea; [|reflexivity]. cbn [bind]. apply add_opt in Ea; auto. now rewrite IH.
Qed.
Lemma iter_same : quiet (Some MULTIBOOK) -> forall n r, within b r -> iter_range e n r = iter_range e' n r.
Proof. intros Hf n r (H1 & H2). now apply iter_loop_same. Qed.

(** ** Splitting *)
Lemma unit_loop_same : forall (g g' : verse -> res verse), (forall v, vbook v = b -> g v = g' v) -> (forall v w, vbook v = b -> g v = Ok w -> vbook w = b) ->
  forall f, quiet (Some f) -> forall n s t stop, vbook s = b -> vbook t = b -> vbook stop = b -> split_unit_loop g e f n s t stop = split_unit_loop g' e' f n s t stop.
Proof.
  intros g g' Hg Hi f Hf. induction n as [|n IH]; intros s t stop Hs Ht Hstop; cbn [split_unit_loop]; rewrite cmp_same by auto;
    rewrite <- !new_same by auto; destruct (vltb e' t stop); try reflexivity.
  destruct (new_range e s t (Some f)) as [r|]; [|reflexivity]. cbn [bind]. rewrite <- add_same by auto.
  destruct (add e t 1 (Some f)) as [o|] eqn:Ea; [|reflexivity]. cbn [bind]. destruct o as [s'|]; [|reflexivity]. apply add_in in Ea; auto.
  rewrite <- Hg by auto. destruct (g s') as [t'|] eqn:Eg; [|reflexivity]. cbn [bind]. apply Hi in Eg; auto. now rewrite IH.
Qed.
Lemma unit_loop_in : forall (g : verse -> res verse), (forall v w, vbook v = b -> g v = Ok w -> vbook w = b) ->
  forall f, quiet (Some f) -> forall n s t stop l, vbook s = b -> vbook t = b -> vbook stop = b -> split_unit_loop g e f n s t stop = Ok l -> Forall (within b) l.
Proof.
  intros g Hi f Hf. induction n as [|n IH]; intros s t stop l Hs Ht Hstop E; cbn [split_unit_loop] in E; destruct (vltb e t stop); try discriminate.
  - destruct (new_range e s stop (Some f)) as [r|] eqn:En; cbn [bind] in E; [|discriminate]. injection E as <-. constructor; [|constructor]. exact (new_in _ _ _ _ Hs Hstop En).
  - destruct (new_range e s t (Some f)) as [r|] eqn:En; cbn [bind] in E; [|discriminate]. destruct (add e t 1 (Some f)) as [o|] eqn:Ea; cbn [bind] in E; [|discriminate].
    destruct o as [s'|]; [|discriminate]. apply add_in in Ea; auto. destruct (g s') as [t'|] eqn:Eg; cbn [bind] in E; [|discriminate].
    destruct (split_unit_loop g e f n s' t' stop) as [rs|] eqn:El; cbn [bind] in E; [|discriminate]. injection E as <-. constructor; [exact (new_in _ _ _ _ Hs Ht En)|]. eapply IH; [| | |exact El]; eauto.
  - destruct (new_range e s stop (Some f)) as [r|] eqn:En; cbn [bind] in E; [|discriminate]. injection E as <-. constructor; [|constructor]. exact (new_in _ _ _ _ Hs Hstop En).
Qed.
Lemma last_in : forall c w, last_verse e b c = Ok w -> vbook w = b.
Proof. intros c w E. unfold last_verse in E. destruct (max_verse_num _ _ _); cbn [bind] in E; [|discriminate]. now apply new_verse_book in E. Qed.
Lemma unit_same : forall (g : env -> verse -> res verse), (forall v, vbook v = b -> g e v = g e' v) -> (forall v w, vbook v = b -> g e v = Ok w -> vbook w = b) ->
  forall f n r, quiet (Some f) -> within b r -> split_unit (g e) e f n r = split_unit (g e') e' f n r /\ forall l, split_unit (g e) e f n r = Ok l -> Forall (within b) l.
Proof.
  intros g Hg Hi f n r Hf (Hs & Ht). unfold split_unit. rewrite <- Hg by auto. destruct (g e (rstart r)) as [t|] eqn:Eg; cbn [bind]; [|split; [reflexivity|discriminate]].
  apply Hi in Eg; auto. split; [now apply unit_loop_same; auto|]. intros l. now apply unit_loop_in.
Qed.
Lemma book1_same : forall f n r, quiet (Some f) -> within b r -> split_book1 e f n r = split_book1 e' f n r /\ forall l, split_book1 e f n r = Ok l -> Forall (within b) l.
Proof.
  intros f n r Hf H. apply (unit_same (fun e v => last_verse e (vbook v) None)); auto. intros v w Hv E. rewrite Hv in E. now apply last_in in E.
Qed.
Lemma chap1_same : forall f n r, quiet (Some f) -> within b r -> split_chap1 e f n r = split_chap1 e' f n r /\ forall l, split_chap1 e f n r = Ok l -> Forall (within b) l.
Proof.
  intros f n r Hf H. apply (unit_same (fun e v => v_last_verse e v None)); auto. intros v w Hv E. unfold v_last_verse in E. rewrite Hv in E. now apply last_in in E.
Qed.
Lemma num_loop_same : forall f k, quiet (Some f) -> forall n s t stop, in_opt s -> in_opt t -> vbook stop = b -> split_num_loop e f k n s t stop = split_num_loop e' f k n s t stop.
Proof.
  intros f k Hf. induction n as [|n IH]; intros s t stop Hs Ht Hstop; cbn [split_num_loop]; rewrite <- !new_opt_same by (cbn; auto); destruct t as [t|]; try reflexivity;
    rewrite cmp_same by auto; destruct (vltb e' t stop); try reflexivity.
  destruct (new_range_opt e s (Some t) (Some f)) as [r|]; [|reflexivity]. cbn [bind]. rewrite <- !add_same by auto.
  destruct (add e t 1 (Some f)) as [o|] eqn:Ea; [|reflexivity]. cbn [bind]. destruct (add e t k (Some f)) as [o'|] eqn:Ea'; [|reflexivity]. cbn [bind].
  apply add_opt in Ea; auto. apply add_opt in Ea'; auto. now rewrite IH.
Qed.
Lemma num1_same : forall f k n r, quiet (Some f) -> within b r -> split_num1 e f k n r = split_num1 e' f k n r.
Proof.
  intros f k n r Hf (Hs & Ht). unfold split_num1. rewrite <- add_same by auto. destruct (add e (rstart r) (k - 1) (Some f)) as [o|] eqn:Ea; [|reflexivity]. cbn [bind].
  apply add_opt in Ea; auto. now apply num_loop_same.
Qed.
Lemma split_all_same : forall (g g' : range -> res (list range)), (forall r, within b r -> g r = g' r) -> forall l, Forall (within b) l -> split_all g l = split_all g' l.
Proof.
  intros g g' H l Hl. unfold split_all. assert (E : mapM g l = mapM g' l) by (induction Hl as [|r l Hr Hl IH]; [reflexivity|]; cbn; now rewrite H, IH by auto). now rewrite E.
Qed.
Lemma split_all_in : forall (g : range -> res (list range)), (forall r l, within b r -> g r = Ok l -> Forall (within b) l) ->
  forall l m, Forall (within b) l -> split_all g l = Ok m -> Forall (within b) m.
Proof.
  intros g H l m Hl. unfold split_all. intros E. destruct (mapM g l) as [ls|] eqn:El; cbn [bind] in E; [|discriminate]. injection E as <-.
  revert ls El. induction Hl as [|r l Hr Hl IH]; intros ls El; cbn in El; [injection El as <-; constructor|]. destruct (g r) as [x|] eqn:Eg; cbn in El; [|discriminate].
  destruct (mapM g l) as [ls'|]; cbn in El; [|discriminate]. injection El as <-. cbn. apply Forall_app. split; [eauto|]. now apply IH.
Qed.
Lemma quiet_split : forall r fl, quiet None -> quiet fl -> within b r -> quiet (Some (split_flags e r fl)).
Proof.
  intros r fl [Hg|Hg] Hf (Hs & Ht); [now left|]. destruct Hf as [Hf|Hf]; [now left|]. right. unfold split_flags. rewrite Hs, Ht, book_eqb_refl. cbn [negb eff] in *.
  destruct (_ || _); [|destruct (flag_true _); auto]. destruct (eff e fl) as [m z]. cbn [multibook] in Hf. subst m. now destruct z.
Qed.
Lemma split_same : forall n r bb bc num fl, quiet None -> quiet fl -> within b r -> split_items e n r bb bc num fl = split_items e' n r bb bc num fl.
Proof.
  intros n r bb bc num fl Hg Hq Hr. pose proof (quiet_split r fl Hg Hq Hr) as Hf. unfold split_items. change (split_flags e' r fl) with (split_flags e r fl). set (f := split_flags e r fl) in *.
  assert (H1 : (if bb then split_all (split_book1 e f n) [r] else Ok [r]) = (if bb then split_all (split_book1 e' f n) [r] else Ok [r])).
  { destruct bb; [|reflexivity]. apply split_all_same; [|auto]. intros x Hx. exact (proj1 (book1_same f n x Hf Hx)). }
  rewrite <- H1. destruct (if bb then _ else _) as [l1|] eqn:E1; [|reflexivity]. cbn [bind].
  assert (I1 : Forall (within b) l1).
  { destruct bb; [|injection E1 as <-; auto]. eapply split_all_in; [|constructor; [exact Hr|constructor]|exact E1]. intros x l Hx. exact (proj2 (book1_same f n x Hf Hx) l). }
  assert (H2 : (if bc then split_all (split_chap1 e f n) l1 else Ok l1) = (if bc then split_all (split_chap1 e' f n) l1 else Ok l1)).
  { destruct bc; [|reflexivity]. apply split_all_same; [|auto]. intros x Hx. exact (proj1 (chap1_same f n x Hf Hx)). }
  rewrite <- H2. destruct (if bc then _ else _) as [l2|] eqn:E2; [|reflexivity]. cbn [bind]. destruct num as [k|]; [|reflexivity].
  apply split_all_same; [intros x Hx; now apply num1_same|].
  destruct bc; [|injection E2 as <-; auto]. eapply split_all_in; [|exact I1|exact E2]. intros x l Hx. exact (proj2 (chap1_same f n x Hf Hx) l).
Qed.
End Alone.
