(** * PAlone: a range within one book does not depend on the order of the books. *)
From Coq Require Import List ZArith Bool Arith Lia Sorted.
From Verif Require Import Base Books Chars Regex Data MVerse MRange MSeq MList MStr MParse MGroup MNode MSort MOrder Spec SpecOrder
  PCore PVerse PNav PList PSplit PCount PTerm PFlags PGroup POrder POrder2 POrder5.
Import ListNotations.
Open Scope Z_scope.

Section OneBook.
Variable e : env.
Variable b : book.
Notation e' := (alone e b).
Notation d := (ed e).
Notation d' := (ed (alone e b)).
Hypothesis Hwf : wf_data d.
Hypothesis Hb : In b (book_order d).

Lemma alone_wf : wf_data d'.
Proof.
  split.
  - intros x i. cbn [alone ed order book_order]. destruct (book_eqb x b) eqn:E.
    + apply book_eqb_eq in E. subst x. split; [intros H; injection H as <-; reflexivity|]. destruct i as [|[|i]]; cbn; congruence.
    + split; [discriminate|]. destruct i as [|[|i]]; cbn; [|discriminate..]. intros H. injection H as <-. now rewrite book_eqb_refl in E.
  - intros x [<-|[]]. exact (proj2 Hwf b Hb).
Qed.
Lemma InB_alone : forall z v, vbook v = b -> (InB d z v <-> InB d' z v).
Proof.
  intros z v Hv. rewrite (in_bible_verses e), (in_bible_verses e'). cbn [alone ed book_order]. rewrite Hv.
  split; intros (_ & H); (split; [cbn; auto|exact H]).
Qed.
Lemma InB_alone_book : forall z v, InB d' z v -> vbook v = b.
Proof. intros z v H. apply (InB_book e') in H. cbn in H. destruct H as [H|[]]; auto. Qed.
Lemma vle_alone : forall v w, vbook v = b -> vbook w = b -> (vle d v w <-> vle d' v w).
Proof.
  intros v w Hv Hw. rewrite (vle_iff e Hwf), (vle_iff e' alone_wf), !InB_alone by auto. now rewrite (cmp_same' e b v w Hv Hw).
Qed.
Lemma vlt_alone : forall v w, vbook v = b -> vbook w = b -> (vlt d v w <-> vlt d' v w).
Proof.
  intros v w Hv Hw. rewrite (vlt_iff e Hwf), (vlt_iff e' alone_wf), !InB_alone by auto. now rewrite (cmp_same e b v w Hv Hw).
Qed.
Lemma between : forall v r, within b r -> InR d v r -> vbook v = b.
Proof.
  intros v r (Hs & Ht) (H1 & H2). apply (vle_iff e Hwf) in H1, H2. destruct H1 as (_ & B & H1), H2 as (_ & _ & H2).
  apply (InB_book e) in B. destruct (book_eq_dec (vbook v) b) as [|N]; [auto|exfalso].
  unfold vleb, vltb in H1, H2. rewrite Hs in H1. rewrite Ht in H2.
  destruct (book_eqb (vbook v) b) eqn:E1; [apply book_eqb_eq in E1; auto|].
  destruct (book_eqb b (vbook v)) eqn:E2; [apply book_eqb_eq in E2; auto|].
  apply negb_true_iff in H1, H2. apply Z.ltb_ge in H1, H2. assert (E : bord e b = bord e (vbook v)) by lia.
  unfold bord in E. destruct (In_nth_error _ _ B) as (i & Hi). destruct (In_nth_error _ _ Hb) as (j & Hj).
  pose proof (proj2 (proj1 Hwf _ _) Hi) as Oi. pose proof (proj2 (proj1 Hwf _ _) Hj) as Oj. rewrite Oi, Oj in E. assert (i = j) by lia. subst j. congruence.
Qed.
Lemma InR_alone : forall v r, within b r -> (InR d v r <-> InR d' v r).
Proof.
  intros v r Hr. assert (B' : InR d' v r -> vbook v = b) by (intros (H & _); apply (vle_iff e' alone_wf) in H; now apply (InB_alone_book true)).
  pose proof (between v r Hr) as B. unfold InR. destruct Hr as (Hs & Ht).
  split; intros H; [assert (Hv := B H)|assert (Hv := B' H)]; destruct H as (H1 & H2); (split; [now apply vle_alone|now apply vle_alone]).
Qed.
Lemma wf_alone : forall z r, within b r -> (wf_range d z r <-> wf_range d' z r).
Proof. intros z r (Hs & Ht). unfold wf_range. now rewrite (InB_alone z _ Hs), (InB_alone z _ Ht), vle_alone by auto. Qed.
Lemma sorted_alone : forall l, (forall v, In v l -> vbook v = b) -> StronglySorted (vlt d) l -> StronglySorted (vlt d') l.
Proof.
  intros l Hl S. induction S as [|x l S IH F]; constructor.
  - apply IH. intros v Hv. apply Hl. now right.
  - rewrite Forall_forall in *. intros y Hy. apply vlt_alone; [apply Hl; now left|apply Hl; now right|auto].
Qed.
Lemma vlt_irr : forall f, wf_data (ed f) -> forall v, ~ vlt (ed f) v v.
Proof. intros f Hf v H. apply (vlt_iff f Hf) in H. destruct H as (_ & _ & H). now rewrite vltb_irrefl in H. Qed.
Lemma vlt_tr : forall f, wf_data (ed f) -> forall u v w, vlt (ed f) u v -> vlt (ed f) v w -> vlt (ed f) u w.
Proof.
  intros f Hf u v w H1 H2. apply (vlt_iff f Hf) in H1, H2. apply (vlt_iff f Hf). destruct H1 as (A & _ & H1), H2 as (_ & C & H2).
  split; [auto|]. split; [auto|]. eapply vltb_trans; eauto.
Qed.
(** ** Iteration *)
Lemma iter_alone : forall r, within b r -> wf_range d true r ->
  exists N, forall n, (N <= n)%nat -> iter_range e n r = iter_range e' n r.
Proof.
  intros r Hr W. destruct (iter_exact e Hwf r W) as (l & (N & E) & S & I). assert (W' := proj1 (wf_alone true r Hr) W).
  destruct (iter_exact e' alone_wf r W') as (l' & (N' & E') & S' & I').
  assert (l = l') as <-.
  { apply (sorted_ext (vlt d')); [apply vlt_irr, alone_wf|apply vlt_tr, alone_wf| |exact S'|].
    - apply sorted_alone; [|exact S]. intros v Hv. apply I in Hv. now apply (between v r).
    - intros v. rewrite I, I', (InR_alone v r Hr). tauto. }
  exists (Nat.max N N'). intros n Hn. rewrite E by lia. now rewrite E' by lia.
Qed.
(** ** Splitting and counting *)
Lemma verses_alone : forall z r l, within b r -> verses_of d z r l -> wf_range d' z r -> verses_of d' z r l.
Proof.
  intros z r l Hr Hl W'. destruct (verses_of_exists e' alone_wf z r W') as (l' & Hl').
  assert (l = l') as <-; [|exact Hl'].
  assert (B : forall v, In v l -> vbook v = b) by (intros v Hv; apply (verses_of_In e Hwf z r l v Hl) in Hv; now apply (between v r)).
  apply (sorted_ext (vltP e')); [apply vltP_irrefl|intros x y t; apply vltb_trans| | |].
  - assert (S : StronglySorted (vltP e) l) by (eapply (seg_sorted e Hwf); eapply (verses_of_seg e); exact Hl).
    clear -S B. induction S as [|x l S IH F]; constructor; [apply IH; intros v Hv; apply B; now right|].
    rewrite Forall_forall in *. intros y Hy. unfold vltP. rewrite <- (cmp_same e b) by (apply B; cbn; auto). now apply F.
  - eapply (seg_sorted e' alone_wf). eapply (verses_of_seg e'). exact Hl'.
  - intros v. rewrite (verses_of_In e Hwf z r l v Hl), (verses_of_In e' alone_wf z r l' v Hl'), (InR_alone v r Hr).
    split; intros (H1 & H2); (split; [|exact H2]); [|].
    + apply InB_alone; [|exact H1]. apply (between v r Hr). now apply InR_alone.
    + apply InB_alone; [|exact H1]. apply (between v r Hr). now apply InR_alone.
Qed.
Lemma split_alone : forall r bb bc num fl, within b r -> wf_range d true r -> (forall n, num = Some n -> 1 <= n) ->
  exists N, forall n m, (N <= n)%nat -> (N <= m)%nat -> split_items e n r bb bc num fl = split_items e' m r bb bc num fl.
Proof.
  intros r bb bc num fl Hr W Hn. pose proof (split_zero_wf e Hwf r fl W) as Wz.
  destruct (verses_of_exists e Hwf _ _ Wz) as (l & Hl). assert (Hl' := verses_alone _ r l Hr Hl (proj1 (wf_alone _ r Hr) Wz)).
  exists (List.length l). intros n m Hln Hlm.
  destruct (split_items_ok e Hwf r fl l bb bc num n Hl Hln Hn) as (ps & E & F).
  destruct (split_items_ok e' alone_wf r fl l bb bc num m Hl' Hlm Hn) as (ps' & E' & F'). rewrite E, E'. f_equal. exact (pieces_fun _ _ _ F F').
Qed.
Lemma split_chaps_alone : forall r, within b r -> wf_range d true r ->
  split_items e (nav_fuel e) r false true None None = split_items e' (nav_fuel e') r false true None None /\
  split_items e (nav_fuel e) r true false None None = split_items e' (nav_fuel e') r true false None None.
Proof.
  intros r Hr W. pose proof (split_zero_wf e Hwf r None W) as Wz.
  destruct (verses_of_exists e Hwf _ _ Wz) as (l & Hl). assert (Hl' := verses_alone _ r l Hr Hl (proj1 (wf_alone _ r Hr) Wz)).
  destruct (split_chaps e Hwf r None l Hl) as (ps & E & F). destruct (split_chaps e' alone_wf r None l Hl') as (ps' & E' & F').
  destruct (split_books e Hwf r None l Hl) as (qs & G & H). destruct (split_books e' alone_wf r None l Hl') as (qs' & G' & H').
  rewrite E, E', G, G'. split; f_equal; eapply pieces_fun; eauto.
Qed.
End OneBook.

(** ** Texts *)
Section Text.
Variable e : env.
Variable b : book.
Notation e' := (alone e b).
(** Counting the chapters of the range does not lead out of its book. *)
Definition settled (r : range) : Prop := quiet e b None \/ (wf_data (ed e) /\ In b (book_order (ed e)) /\ wf_range (ed e) true r).
Lemma count_alone : forall r fl, within b r -> settled r -> r_chap_count e r false fl = r_chap_count e' r false fl.
Proof.
  intros r fl Hr [Q|(Hwf & Hb & W)]; unfold r_chap_count.
  - rewrite (split_nav e b Q r false true None Q Hr). reflexivity.
  - rewrite (proj1 (split_chaps_alone e b Hwf Hb r Hr W)). reflexivity.
Qed.
Lemma whole_alone : forall r fl, is_whole_book e r fl = is_whole_book e' r fl /\ is_whole_chap e r fl = is_whole_chap e' r fl.
Proof. intros. split; reflexivity. Qed.
Lemma verse_str_alone : forall lk v p, verse_str e lk v p = verse_str e' lk v p.
Proof. reflexivity. Qed.
Lemma range_str_alone : forall lk force r fl, within b r -> range_str e lk force r fl = range_str e' lk force r fl.
Proof.
  intros lk force r fl Hr. unfold range_str. destruct (spans_same e b r None Hr) as (A1 & A2 & A3 & A4), (spans_same e b r fl Hr) as (B1 & B2 & B3 & B4).
  rewrite A1, A2, A3, B2, B4. reflexivity.
Qed.
Lemma pick_start_alone : forall pg fl st x, within b x -> settled x -> pick_start e pg fl st x = pick_start e' pg fl st x.
Proof.
  intros pg fl st x Hx S. unfold pick_start. destruct (spans_same e b x fl Hx) as (B1 & B2 & B3 & B4). rewrite B1, B2, B3, (count_alone x fl Hx S). reflexivity.
Qed.
Lemma force_start_alone : forall force x q, within b x -> force_start e force x q = force_start e' force x q.
Proof. intros force x q Hx. unfold force_start. destruct (spans_same e b x None Hx) as (_ & B2 & _). now rewrite B2. Qed.
Lemma pick_end_alone : forall fl st x, within b x -> pick_end e fl st x = pick_end e' fl st x.
Proof. intros fl st x Hx. unfold pick_end. destruct (spans_same e b x fl Hx) as (B1 & B2 & B3 & B4). rewrite B2, B4. reflexivity. Qed.
Lemma show_item_alone : forall lk force pg fl st x, within b x -> settled x -> show_item e lk force pg fl st x = show_item e' lk force pg fl st x.
Proof.
  intros lk force pg fl st x Hx S. unfold show_item. rewrite (pick_start_alone pg fl st x Hx S).
  destruct (pick_start e' pg fl st x) as [q|]; [|reflexivity]. cbn [bind]. rewrite (force_start_alone force x q Hx).
  destruct (force_start e' force x q) as [(p, st1)|]; [|reflexivity]. cbn [bind]. rewrite (pick_end_alone fl st1 x Hx). reflexivity.
Qed.
End Text.

Section TwoOrders.
Variable e : env.
Variable bs : list book.
Variable pos : book -> option nat.
Notation e2 := (reorder e bs pos).
Definition both (r : range) : Prop := exists b, within b r /\ settled e b r /\ settled e2 b r.
Lemma show_item_two : forall lk force pg fl st x, both x -> show_item e lk force pg fl st x = show_item e2 lk force pg fl st x.
Proof.
  intros lk force pg fl st x (b & Hx & S1 & S2). rewrite (show_item_alone e b lk force pg fl st x Hx S1), (show_item_alone e2 b lk force pg fl st x Hx S2). reflexivity.
Qed.
Lemma show_group_two : forall lk force pg fl l st, Forall both l -> show_group e lk force pg fl st l = show_group e2 lk force pg fl st l.
Proof.
  intros lk force pg fl. induction l as [|x l IH]; intros st H; [reflexivity|]. apply Forall_cons_iff in H. destruct H as (Hx & Hl).
  cbn [show_group]. rewrite (show_item_two lk force pg fl st x Hx). destruct (show_item e2 lk force pg fl st x) as [q|]; [|reflexivity]. cbn [bind]. now rewrite IH.
Qed.
Lemma list_str_two : forall lk pg force l fl, Forall both (concat l) -> list_str e lk pg force l fl = list_str e2 lk pg force l fl.
Proof.
  intros lk pg force l fl. unfold list_str. generalize ps_init. induction l as [|g l IH]; intros st H; [reflexivity|].
  cbn [concat] in H. apply Forall_app in H. destruct H as (Hg & Hl). cbn [show_groups]. rewrite (show_group_two lk force pg fl g st Hg).
  destruct (show_group e2 lk force pg fl st g) as [q|]; [|reflexivity]. cbn [bind]. change (end_group e2 pg (snd q)) with (end_group e pg (snd q)). now rewrite IH.
Qed.
Lemma range_str_two : forall lk force r fl b, within b r -> range_str e lk force r fl = range_str e2 lk force r fl.
Proof. intros lk force r fl b Hr. rewrite (range_str_alone e b lk force r fl Hr), (range_str_alone e2 b lk force r fl Hr). reflexivity. Qed.

(** ** Reading *)
Hypothesis Hlist : forall b, order (ed e) b = None <-> pos b = None.
Lemma gt_same : forall b, book_gt e b b = book_gt e2 b b.
Proof.
  intros b. unfold book_gt, book_cmp. cbn [reorder ed order]. destruct (order (ed e) b) as [i|] eqn:E.
  - destruct (pos b) as [j|] eqn:E2; [|apply Hlist in E2; congruence]. now rewrite !Nat.ltb_irrefl.
  - apply Hlist in E. now rewrite E.
Qed.
Lemma swap_same : forall a, pa_eb a = None \/ pa_eb a = Some (pa_sb a) -> swap_args e a = swap_args e2 a.
Proof. intros [sb sc sv eb ec ev] [H|H]; cbn in H; subst eb; cbn [swap_args]; [reflexivity|]. now rewrite !Z.ltb_irrefl. Qed.
Lemma pos_same : forall a fl, pa_eb a = None \/ pa_eb a = Some (pa_sb a) -> new_range_pos e a fl = new_range_pos e2 a fl.
Proof.
  intros a fl H. unfold new_range_pos. rewrite <- (swap_same a H).
  assert (G : match pa_eb a with Some b => book_gt e (pa_sb a) b | None => Ok false end = match pa_eb a with Some b => book_gt e2 (pa_sb a) b | None => Ok false end).
  { destruct H as [H|H]; rewrite H; [reflexivity|]. apply gt_same. }
  rewrite G. reflexivity.
Qed.
Notation d := (ed e).
Notation d2 := (ed (reorder e bs pos)).
Lemma from_str_two : forall s, from_str d2 s = from_str d s.
Proof. intros s. unfold from_str. assert (H : name_matches d2 (strip s) = name_matches d (strip s)) by reflexivity. now rewrite H. Qed.
Lemma tok_book_two : forall t, tok_book d2 t = tok_book d t.
Proof. intros t. unfold tok_book. now rewrite from_str_two. Qed.
Lemma t_single_two : forall f st a, t_single e f st a = t_single e2 f st a.
Proof.
  assert (M : forall b c v f i j, blame i j (new_range_pos e2 (PB b c v) (Some f)) = blame i j (new_range_pos e (PB b c v) (Some f))).
  { intros. now rewrite (pos_same (PB b c v)) by (now left). }
  assert (C : forall b, chap_count e2 b = chap_count e b) by reflexivity. assert (N : forall b, min_chap_num e2 b = min_chap_num e b) by reflexivity.
  intros f st a. unfold t_single. destruct a as [n|n m|n c q v|c q v|m].
  - rewrite tok_book_two. destruct (tok_book d n) as [x|]; [|reflexivity]. now rewrite M.
  - rewrite tok_book_two. destruct (tok_book d n) as [x|]; [|reflexivity]. rewrite C, N, !M. reflexivity.
  - rewrite tok_book_two. destruct (tok_book d n) as [x|]; [|reflexivity]. now rewrite M.
  - destruct (ts_book st) as [x|]; [|reflexivity]. now rewrite M.
  - destruct (ts_book st) as [x|]; [|reflexivity]. rewrite C, N, !M. destruct (ts_chap st); [rewrite M|]; reflexivity.
Qed.
(** A reference that names two books and is accepted yields a range of two books. *)
Lemma first_book : forall f b c fl w, first_verse f b c fl = Ok w -> vbook w = b.
Proof. intros f b c fl w E. unfold first_verse in E. destruct (min_verse_num _ _ _ _); cbn [bind] in E; [|discriminate]. now apply new_verse_book in E. Qed.
Lemma pos_books : forall f b1 c1 v1 b2 c2 v2 fl r, new_range_pos f (PA b1 (Some c1) (Some v1) (Some b2) (Some c2) (Some v2)) fl = Ok r ->
  (multibook (eff f fl) = false -> b1 = b2) /\ forall b, within b r -> b1 = b2.
Proof.
  intros f b1 c1 v1 b2 c2 v2 fl r E. unfold new_range_pos in E. cbn [pa_eb pa_sb] in E. destruct (book_gt f b1 b2) as [g|]; cbn [bind] in E; [|discriminate].
  assert (K : exists x1 n1 m1 x2 n2 m2, swap_args f (PA b1 (Some c1) (Some v1) (Some b2) (Some c2) (Some v2)) = PA x1 (Some n1) (Some m1) (Some x2) (Some n2) (Some m2) /\
    ((x1 = b1 /\ x2 = b2) \/ (x1 = b2 /\ x2 = b1))).
  { cbn [swap_args]. repeat match goal with |- context [if ?c then _ else _] => destruct c end; do 6 eexists; (split; [reflexivity|]); tauto. }
  destruct K as (x1 & n1 & m1 & x2 & n2 & m2 & K & Kb). rewrite K in E. unfold new_range_swapped in E. cbn [o_is negb andb orb] in E.
  destruct (new_verse f x1 n1 m1 _) as [s|] eqn:Es; cbn [bind fst snd] in E; [|discriminate].
  destruct (new_verse f x2 n2 m2 _) as [t|] eqn:Et; cbn [bind] in E; [|discriminate].
  apply new_verse_book in Es, Et. rewrite Es, Et in E. destruct (negb (multibook (eff f fl)) && negb (book_eqb x1 x2)) eqn:Em; [discriminate|]. injection E as <-.
  split.
  - intros Hm. rewrite Hm in Em. cbn in Em. apply negb_false_iff, book_eqb_eq in Em. destruct Kb as [(-> & ->)|(-> & ->)]; auto.
  - intros b (H1 & H2). cbn in H1, H2. destruct Kb as [(-> & ->)|(-> & ->)]; congruence.
Qed.
Lemma eff_two : forall fl, eff e2 fl = eff e fl.
Proof. reflexivity. Qed.
Lemma t_ref_off : forall f st x, multibook (eff e (Some f)) = false -> t_ref e f st x = t_ref e2 f st x.
Proof.
  intros f st [a|a q c] Hm; cbn [t_ref]; rewrite <- t_single_two; [reflexivity|]. destruct (t_single e f st a) as (st1, [r1|]); [|reflexivity].
  rewrite <- t_single_two. destruct (t_single e f st1 c) as (st2, [r2|]); [|reflexivity]. f_equal. cbn zeta.
  destruct (book_eq_dec (vbook (rstart r1)) (vbook (rend r2))) as [E|N].
  - rewrite <- pos_same; [reflexivity|]. right. cbn [pa_eb pa_sb]. now rewrite E.
  - destruct (new_range_pos e _ (Some f)) as [r|] eqn:E1; [exfalso; apply N; exact (proj1 (pos_books _ _ _ _ _ _ _ _ _ E1) Hm)|].
    destruct (new_range_pos e2 _ (Some f)) as [r'|] eqn:E2; [exfalso; apply N; exact (proj1 (pos_books _ _ _ _ _ _ _ _ _ E2) Hm)|]. reflexivity.
Qed.
Lemma t_rests_off : forall f, multibook (eff e (Some f)) = false -> forall l st, t_rests e f st l = t_rests e2 f st l.
Proof.
  intros f Hm. induction l as [|(s, x) l IH]; intros st; [reflexivity|]. cbn [t_rests]. rewrite <- t_ref_off by auto.
  destruct (t_ref e f (t_sep st s) x) as (st1, [r|]); [|reflexivity]. now rewrite <- IH.
Qed.
Lemma cut_two : forall s, cut_seps d2 s = cut_seps d s.
Proof. induction s as [|c s IH]; [reflexivity|]. cbn [cut_seps]. rewrite IH. reflexivity. Qed.
Lemma name_tail_two : forall s, name_tail d2 s = name_tail d s.
Proof. induction s as [|c s IH]; [reflexivity|]. cbn [name_tail]. rewrite IH. reflexivity. Qed.
Lemma is_name_two : forall s, is_name d2 s = is_name d s.
Proof. intros [|c s]; [reflexivity|]. cbn [is_name]. now rewrite name_tail_two. Qed.
Lemma seg_two : forall i w, seg_tokens d2 i w = seg_tokens d i w.
Proof.
  intros i w. unfold seg_tokens. destruct (rev (drop_ws (rev (drop_ws w)))) as [|c a]; [reflexivity|]. cbn zeta.
  destruct (rev (drop_digits (rev (c :: a)))) as [|c' u]; [reflexivity|]. now rewrite !is_name_two.
Qed.
Lemma seps_two : forall n l, seps_tokens d2 n l = seps_tokens d n l.
Proof. intros n. induction l as [|((k, s, i), w) l IH]; [reflexivity|]. cbn [seps_tokens]. now rewrite seg_two, IH. Qed.
Lemma read_two : forall s, read d2 s = read d s.
Proof. intros s. unfold read, lex. rewrite cut_two. destruct (cut_seps d s) as (w, l). now rewrite seg_two, seps_two. Qed.
Lemma parse_off : forall fl st s, multibook (eff e fl) = false -> parse e fl st s = parse e2 fl st s.
Proof.
  intros fl st s Hm. unfold parse. rewrite read_two, eff_two. destruct (read d s) as [[x l t]|]; [|reflexivity].
  assert (Hm' : multibook (eff e (Some (eff e fl))) = false) by (now rewrite PCore.eff_eff).
  unfold t_children. cbn [t_first t_rest t_trail]. rewrite <- t_ref_off by auto. destruct (t_ref e (eff e fl) st x) as (st1, [r|]); [|reflexivity].
  rewrite <- t_rests_off by auto. reflexivity.
Qed.
(** With MULTIBOOK: an accepted text whose ranges each lie within one book. *)
Lemma t_ref_on : forall f st x st' r b, t_ref e f st x = (st', Ok r) -> within b r -> t_ref e2 f st x = (st', Ok r).
Proof.
  intros f st [a|a q c] st' r b E Hr; cbn [t_ref] in *; rewrite <- t_single_two; [exact E|]. destruct (t_single e f st a) as (st1, [r1|]); [|discriminate].
  rewrite <- t_single_two. destruct (t_single e f st1 c) as (st2, [r2|]); [|discriminate]. cbn zeta in *. rewrite <- pos_same; [exact E|]. right. cbn [pa_eb pa_sb]. f_equal.
  injection E as _ E. destruct (new_range_pos e _ (Some f)) as [r'|] eqn:E1; cbn [blame] in E; [|discriminate]. injection E as ->. symmetry. exact (proj2 (pos_books _ _ _ _ _ _ _ _ _ E1) b Hr).
Qed.
Definition child_one (c : child) : Prop := match c with CRange r => exists b, within b r | _ => True end.
Lemma t_rests_on : forall f l st st' cs, t_rests e f st l = (st', Ok cs) -> Forall child_one cs -> t_rests e2 f st l = (st', Ok cs).
Proof.
  intros f. induction l as [|(s, x) l IH]; intros st st' cs E Hc; [exact E|]. cbn [t_rests] in *.
  destruct (t_ref e f (t_sep st s) x) as (st1, [r|]) eqn:E1; [|discriminate]. destruct (t_rests e f st1 l) as (st2, [cs'|]) eqn:E2; [|discriminate].
  injection E as <- <-. apply Forall_cons_iff in Hc. destruct Hc as (_ & Hc). apply Forall_cons_iff in Hc. destruct Hc as ((b & Hb) & Hc).
  rewrite (t_ref_on _ _ _ _ _ b E1 Hb), (IH _ _ _ E2 Hc). reflexivity.
Qed.
Lemma ref_list_ranges : forall cs done cur r, In r (concat done ++ cur) \/ In (CRange r) cs -> In r (concat (ref_list done cur cs)).
Proof.
  assert (F : forall done cur r, In r (concat done ++ cur) -> In r (concat (flush done cur))).
  { intros done [|x cur] r H; cbn [flush]; [now rewrite app_nil_r in H|]. now rewrite concat_app; cbn [concat]; rewrite app_nil_r. }
  induction cs as [|c cs IH]; intros done cur r H; cbn [ref_list].
  - destruct H as [H|[]]. now apply F.
  - destruct c as [x| |]; apply IH; destruct H as [H|[H|H]]; try discriminate; auto.
    + left. rewrite app_assoc. apply in_or_app. now left.
    + injection H as <-. left. rewrite app_assoc. apply in_or_app. right. now left.
    + left. rewrite app_nil_r. now apply F.
Qed.
Lemma parse_on : forall fl st s st' g, parse e fl st s = (st', Ok g) -> Forall (fun r => exists b, within b r) (concat g) -> parse e2 fl st s = (st', Ok g).
Proof.
  intros fl st s st' g. unfold parse. rewrite read_two, eff_two. destruct (read d s) as [t|]; [|discriminate].
  destruct (t_children e (eff e fl) st t) as (st1, [cs|]) eqn:E; cbn [bind]; [|discriminate]. intros H Hg. injection H as <- <-.
  assert (Hc : forall r, In (CRange r) cs -> exists b, within b r).
  { intros r Hr. rewrite Forall_forall in Hg. apply Hg. apply ref_list_ranges. now right. }
  enough (G : t_children e2 (eff e fl) st t = (st1, Ok cs)) by (now rewrite G).
  unfold t_children in *. destruct (t_ref e (eff e fl) st (t_first t)) as (st2, [r|]) eqn:E1; [|discriminate].
  destruct (t_rests e (eff e fl) st2 (t_rest t)) as (st3, [cs'|]) eqn:E2; [|discriminate].
  assert (Hin : In (CRange r) cs /\ forall c, In c cs' -> In c cs).
  { destruct (t_trail t); injection E as _ <-; (split; [now left|]); intros c Hc'; right; [apply in_or_app; now left|exact Hc']. }
  destruct Hin as (H1 & H2). destruct (Hc r H1) as (b & Hb). rewrite (t_ref_on _ _ _ _ _ b E1 Hb).
  rewrite (t_rests_on _ _ _ _ _ E2); [exact E|]. apply Forall_forall. intros [x| |] Hx; cbn; auto.
Qed.
End TwoOrders.
