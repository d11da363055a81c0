(** * POrder5: lists of ranges of a book outside the order, or of any book without MULTIBOOK, behave as in a Bible of which it is the only book. *)
From Coq Require Import List ZArith Bool Arith Lia Permutation.
From Verif Require Import Base Books Chars Regex Data MVerse MRange MSeq MList MGroup MNode MSort MOrder SpecOrder PCore PVerse PSort PGroup PGroup2 PGroup4 PGroup5 PGroup6 PGroup7 PGroup8 PNode PNode2 POrder POrder2 PropSort.
Import ListNotations.
Open Scope Z_scope.

Section SortExt.
Context {A : Type}.
Variable P : A -> Prop.
Variables leb leb' : A -> A -> bool.
Hypothesis same : forall x y, P x -> P y -> leb x y = leb' x y.
Lemma merge_lists_ext : forall l1, Forall P l1 -> forall l2, Forall P l2 -> merge_lists leb l1 l2 = merge_lists leb' l1 l2.
Proof.
  induction l1 as [|x l1 IH1]; intros H1 l2 H2; [destruct l2; reflexivity|]. induction l2 as [|y l2 IH2]; [reflexivity|].
  cbn [merge_lists]. rewrite same by (eapply Forall_inv; eassumption). destruct (leb' x y).
  - f_equal. apply IH1; auto. now apply Forall_inv_tail in H1.
  - f_equal. apply IH2. now apply Forall_inv_tail in H2.
Qed.
Lemma sort_ext : forall l, Forall P l -> sort_items leb l = sort_items leb' l.
Proof.
  intros l. unfold sort_items. generalize (length l) as n. intros n. revert l. induction n as [|n IH]; intros l H; [reflexivity|]. destruct l as [|x [|y l]]; [reflexivity..|].
  set (L := x :: y :: l) in *. set (k := Nat.div2 (S (length L))).
  change (merge_lists leb (merge_sort leb n (firstn k L)) (merge_sort leb n (skipn k L)) = merge_lists leb' (merge_sort leb' n (firstn k L)) (merge_sort leb' n (skipn k L))).
  assert (F1 : Forall P (firstn k L)) by (rewrite <- (firstn_skipn k L) in H; apply Forall_app in H; tauto).
  assert (F2 : Forall P (skipn k L)) by (rewrite <- (firstn_skipn k L) in H; apply Forall_app in H; tauto).
  assert (Fs : forall (q : A -> A -> bool) m l, Forall P l -> Forall P (merge_sort q m l)).
  { clear. intros q. induction m as [|m IH]; intros l H; [auto|]. destruct l as [|x [|y l]]; auto. set (L := x :: y :: l) in *. set (k := Nat.div2 (S (length L))).
    change (Forall P (merge_lists q (merge_sort q m (firstn k L)) (merge_sort q m (skipn k L)))). eapply Permutation_Forall; [apply Permutation_sym, PSort.merge_perm|].
    rewrite <- (firstn_skipn k L) in H. apply Forall_app in H. apply Forall_app. split; apply IH; tauto. }
  rewrite <- (IH _ F1), <- (IH _ F2). apply merge_lists_ext; apply Fs; auto.
Qed.
End SortExt.

Section Alone.
Variable e : env.
Variable b : book.
Hypothesis Hg : quiet e b None.
Notation e' := (alone e b).
Notation stays := (stays e b).
Notation quiet := (quiet e b).

(** ** The number of chapters of the book bounds the loop of [split] *)
Lemma new_verse_is : forall c v fl w, new_verse e b c v fl = Ok w -> w = V b c v /\ bad_chap e b c = false.
Proof.
  intros c v fl w E. unfold new_verse in E. destruct (bad_chap e b c); [discriminate|]. destruct (min_verse_num e b c fl); cbn [bind] in E; [|discriminate].
  destruct (_ <? _); [discriminate|]. destruct (max_verse_num e b c); cbn [bind] in E; [|discriminate]. destruct (_ >? _); [discriminate|]. injection E as <-. auto.
Qed.
Lemma add_loop_chap : forall f, stays f -> forall n c vn mx w, add_loop e f n b c vn mx = Ok (Some w) -> c <= vchap w /\ (mx < vn -> c < vchap w).
Proof.
  intros f Hf. induction n as [|n IH]; intros c vn mx w E; cbn [add_loop] in E; destruct (vn >? mx) eqn:Ev; try discriminate;
    rewrite Z.gtb_ltb in Ev; [apply Z.ltb_ge in Ev| |apply Z.ltb_ge in Ev].
  - destruct (new_verse e b c vn (Some f)) as [v|] eqn:En; cbn in E; [|discriminate]. injection E as <-. apply new_verse_is in En. destruct En as (-> & _). cbn. lia.
  - destruct (_ >? _); [destruct Hf as [Hf|Hf]; [rewrite (next_e e b Hf) in E; destruct (negb _)|rewrite Hf in E]; discriminate|].
    destruct (min_verse_num e b _ _) as [mn'|]; cbn [bind] in E; [|discriminate]. destruct (max_verse_num e b _) as [mx'|]; cbn [bind] in E; [|discriminate]. apply IH in E. lia.
  - destruct (new_verse e b c vn (Some f)) as [v|] eqn:En; cbn in E; [|discriminate]. injection E as <-. apply new_verse_is in En. destruct En as (-> & _). cbn. lia.
Qed.
(** The last verse of its chapter. *)
Definition closing (t : verse) : Prop := vbook t = b /\ bad_chap e b (vchap t) = false /\ max_verse_num e b (vchap t) = Ok (vverse t).
Lemma last_closing : forall v t, vbook v = b -> v_last_verse e v None = Ok t -> closing t /\ vchap t = vchap v.
Proof.
  intros v t Hv E. unfold v_last_verse, last_verse in E. rewrite Hv in E. destruct (max_verse_num e b (vchap v)) as [mx|] eqn:Em; cbn [bind] in E; [|discriminate].
  apply new_verse_is in E. destruct E as (-> & B). unfold closing. cbn. auto.
Qed.
Lemma add_closing : forall t f w, quiet f -> closing t -> add e t 1 f = Ok (Some w) -> vbook w = b /\ vchap t < vchap w.
Proof.
  intros t f w Hf (Hb & _ & Hm) E. split; [eapply (add_in e b); eauto|]. unfold add in E. rewrite Hb, Hm in E. cbn [bind] in E. apply add_loop_chap in E; [lia|now apply stays_honour].
Qed.
Lemma chap_loop_fuel : forall f, quiet (Some f) -> forall n m s t stop, closing t -> max_chap_num e b - vchap t < Z.of_nat n -> max_chap_num e b - vchap t < Z.of_nat m ->
  split_unit_loop (fun v => v_last_verse e v None) e f n s t stop = split_unit_loop (fun v => v_last_verse e v None) e f m s t stop.
Proof.
  intros f Hf. induction n as [|n IH]; intros m s t stop Ht Hn Hm.
  - destruct Ht as (_ & B & _). apply (good_chap e b) in B. lia.
  - destruct m as [|m]; [destruct Ht as (_ & B & _); apply (good_chap e b) in B; lia|]. cbn [split_unit_loop]. destruct (vltb e t stop); [|reflexivity].
    destruct (new_range e s t (Some f)); [|reflexivity]. cbn [bind]. destruct (add e t 1 (Some f)) as [[w|]|] eqn:Ea; try reflexivity. cbn [bind].
    apply add_closing in Ea; auto. destruct Ea as (Wb & Wc). destruct (v_last_verse e w None) as [t'|] eqn:El; [|reflexivity]. cbn [bind].
    apply last_closing in El; auto. destruct El as (Ct & Cc). rewrite (IH m); [reflexivity|auto|lia|lia].
Qed.
Lemma chap1_fuel : forall f n m r, quiet (Some f) -> within b r -> (nchaps e b < n)%nat -> (nchaps e b < m)%nat -> split_chap1 e f n r = split_chap1 e f m r.
Proof.
  intros f n m r Hf (Hs & Ht) Hn Hm. unfold split_chap1, split_unit. destruct (v_last_verse e (rstart r) None) as [t|] eqn:El; [|reflexivity]. cbn [bind].
  apply last_closing in El; auto. destruct El as (Ct & _). destruct (chaps_le e b). pose proof Ct as (_ & B & _). apply (good_chap e b) in B. apply chap_loop_fuel; auto; lia.
Qed.
Lemma book1_fuel : forall f n m r, quiet (Some f) -> within b r -> (0 < n)%nat -> (0 < m)%nat -> split_book1 e f n r = split_book1 e f m r.
Proof.
  intros f n m r Hf (Hs & Ht) Hn Hm. unfold split_book1, split_unit. destruct (last_verse e (vbook (rstart r)) None) as [t|] eqn:El; [|reflexivity]. cbn [bind].
  destruct n as [|n]; [lia|]. destruct m as [|m]; [lia|]. cbn [split_unit_loop]. destruct (vltb e t (rend r)); [|reflexivity]. destruct (new_range e (rstart r) t (Some f)); [|reflexivity]. cbn [bind].
  assert (N : forall w, add e t 1 (Some f) <> Ok (Some w)).
  { intros w E. rewrite Hs in El. unfold last_verse in El. destruct (max_verse_num e b (max_chap_num e b)) as [mx|] eqn:Em; cbn [bind] in El; [|discriminate].
    apply new_verse_is in El. destruct El as (-> & B). assert (Cl : closing (V b (max_chap_num e b) mx)) by (unfold closing; cbn; auto).
    pose proof (add_closing _ _ _ Hf Cl E) as (Wb & Wc). cbn in Wc. unfold add in E. cbn [vbook vchap vverse] in E. rewrite Em in E. cbn [bind] in E.
    apply (stays_honour e b _ (V b (max_chap_num e b) mx)) in Hf. clear - E Wc Hf. destruct (nav_fuel e) as [|k]; cbn [add_loop] in E.
    - destruct (mx + 1 >? mx) eqn:G; [discriminate|]. rewrite Z.gtb_ltb in G. apply Z.ltb_ge in G. lia.
    - destruct (mx + 1 >? mx) eqn:G; [|rewrite Z.gtb_ltb in G; apply Z.ltb_ge in G; lia]. destruct (max_chap_num e b + 1 >? max_chap_num e b) eqn:G2; [|rewrite Z.gtb_ltb in G2; apply Z.ltb_ge in G2; lia].
      destruct Hf as [Hf|Hf]; [rewrite (next_e e b Hf) in E; destruct (negb _)|rewrite Hf in E]; discriminate. }
  destruct (add e t 1 (Some f)) as [[w|]|]; try reflexivity. exfalso. now apply (N w).
Qed.
Lemma split_fuel : forall n m r bb bc fl, quiet fl -> within b r -> (nchaps e b < n)%nat -> (nchaps e b < m)%nat -> split_items e n r bb bc None fl = split_items e m r bb bc None fl.
Proof.
  intros n m r bb bc fl Hq Hr Hn Hm. pose proof (quiet_split e b r fl Hg Hq Hr) as Hf. unfold split_items. set (f := split_flags e r fl) in *.
  assert (H1 : (if bb then split_all (split_book1 e f n) [r] else Ok [r]) = (if bb then split_all (split_book1 e f m) [r] else Ok [r])).
  { destruct bb; [|reflexivity]. unfold split_all. cbn [mapM]. rewrite (book1_fuel f n m r Hf Hr) by lia. reflexivity. }
  rewrite <- H1. destruct (if bb then split_all (split_book1 e f n) [r] else Ok [r]) as [l1|] eqn:E1; [|reflexivity]. cbn [bind].
  assert (I1 : Forall (within b) l1).
  { destruct bb; [|injection E1 as <-; auto]. eapply (split_all_in b); [|constructor; [exact Hr|constructor]|exact E1]. intros x l Hx. exact (proj2 (book1_same e b f n x Hf Hx) l). }
  assert (H2 : (if bc then split_all (split_chap1 e f n) l1 else Ok l1) = (if bc then split_all (split_chap1 e f m) l1 else Ok l1)).
  { destruct bc; [|reflexivity]. apply (split_all_same b); [|auto]. intros x Hx. now apply chap1_fuel. }
  now rewrite H2.
Qed.
Lemma split_nav : forall r bb bc fl, quiet fl -> within b r -> split_items e (nav_fuel e) r bb bc None fl = split_items e' (nav_fuel e') r bb bc None fl.
Proof.
  intros r bb bc fl Hq Hr. rewrite <- (split_same e b) by auto. apply split_fuel; auto; [apply nav_gt|]. change (nchaps e b) with (nchaps e' b). apply nav_gt.
Qed.
Lemma split_nav_in : forall r n bb bc fl l, quiet fl -> within b r -> split_items e n r bb bc None fl = Ok l -> Forall (within b) l.
Proof.
  intros r n bb bc fl l Hq Hr. pose proof (quiet_split e b r fl Hg Hq Hr) as Hf. unfold split_items. set (f := split_flags e r fl) in *. intros E.
  destruct (if bb then split_all (split_book1 e f n) [r] else Ok [r]) as [l1|] eqn:E1; cbn [bind] in E; [|discriminate].
  assert (I1 : Forall (within b) l1).
  { destruct bb; [|injection E1 as <-; auto]. eapply (split_all_in b); [|constructor; [exact Hr|constructor]|exact E1]. intros x m Hx. exact (proj2 (book1_same e b f n x Hf Hx) m). }
  destruct bc; [|injection E as <-; auto]. destruct (split_all (split_chap1 e f n) l1) as [l2|] eqn:E2; cbn [bind] in E; [|discriminate]. injection E as <-.
  eapply (split_all_in b); [|exact I1|exact E2]. intros x m Hx. exact (proj2 (chap1_same e b f n x Hf Hx) m).
Qed.

(** ** Groups *)
Lemma first_in : forall c fl w, first_verse e b c fl = Ok w -> vbook w = b.
Proof. intros c fl w E. unfold first_verse in E. destruct (min_verse_num _ _ _ _); cbn [bind] in E; [|discriminate]. now apply new_verse_book in E. Qed.
Lemma spans_same : forall r fl, within b r -> spans_start_chap e r fl = spans_start_chap e' r fl /\ spans_end_chap e r fl = spans_end_chap e' r fl /\
  spans_start_book e r fl = spans_start_book e' r fl /\ spans_end_book e r fl = spans_end_book e' r fl.
Proof.
  intros r fl (Hs & Ht). unfold spans_start_chap, spans_end_chap, spans_start_book, spans_end_book. rewrite Hs, Ht.
  change (first_verse e' b) with (first_verse e b). change (last_verse e' b) with (last_verse e b).
  assert (F : forall c g, (w <- first_verse e b c g;; Ok (vleb e (rstart r) w)) = (w <- first_verse e b c g;; Ok (vleb e' (rstart r) w))).
  { intros c g. destruct (first_verse e b c g) as [w|] eqn:E; [|reflexivity]. cbn [bind]. f_equal. apply cmp_same'; auto. now apply first_in in E. }
  assert (L : forall c, (w <- last_verse e b c;; Ok (vleb e w (rend r))) = (w <- last_verse e b c;; Ok (vleb e' w (rend r)))).
  { intros c. destruct (last_verse e b c) as [w|] eqn:E; [|reflexivity]. cbn [bind]. f_equal. apply cmp_same'; auto. now apply last_in in E. }
  now rewrite !F, !L.
Qed.
Lemma rg_loop_same : forall fl (cc cc' : range -> res Z) l st, Forall (within b) l -> (forall x, within b x -> cc x = cc' x) -> rg_loop e fl cc st l = rg_loop e' fl cc' st l.
Proof.
  intros fl cc cc' l st Hl Hc. revert st. induction Hl as [|x l Hx Hl IH]; intros st; cbn [rg_loop]; [reflexivity|].
  assert (E : rg_step e fl cc st x = rg_step e' fl cc' st x).
  { destruct (spans_same x fl Hx) as (S1 & S2 & S3 & S4). destruct (spans_same x None Hx) as (_ & S5 & _). unfold rg_step, rg_open, rg_close. rewrite S1, S2, S3, S4, S5, Hc by auto. reflexivity. }
  rewrite E. destruct (rg_step e' fl cc' st x) as [p|]; [|reflexivity]. cbn [bind]. now rewrite IH.
Qed.
Lemma regroup_n_same : forall n fl l, Forall (within b) l -> regroup_n e n fl l = regroup_n e' n fl l.
Proof.
  induction n as [|n IH]; intros fl l Hl; cbn [regroup_n].
  - rewrite (rg_loop_same fl _ (fun _ => Err Diverge) l _ Hl); auto.
  - erewrite rg_loop_same; [reflexivity|exact Hl|]. intros x Hx. cbn beta. rewrite <- split_nav by auto.
    destruct (split_items e (nav_fuel e) x false true None None) as [ps|] eqn:Ep; [|reflexivity]. cbn [bind]. rewrite IH; [reflexivity|]. eapply split_nav_in; eauto.
Qed.
Definition inside (l : rlist) : Prop := Forall (within b) (items l).
Lemma regroup_same : forall fl l, inside l -> regroup e fl l = regroup e' fl l.
Proof. intros fl l H. unfold regroup. now apply regroup_n_same. Qed.
Lemma sort_same_b : forall l, Forall (within b) l -> sort_items (rleb e) l = sort_items (rleb e') l.
Proof. intros l H. apply (sort_ext (within b)); auto. intros x y Hx Hy. now apply rlt_same. Qed.
Lemma sort_in : forall l, Forall (within b) l -> Forall (within b) (sort_items (rleb e) l).
Proof. intros l H. eapply Permutation_Forall; [|exact H]. apply Permutation_sym, sort_perm. Qed.
Lemma one_inside : forall l, Forall (within b) l -> inside (one_group l).
Proof. intros l H. unfold inside, items. now rewrite concat_one_group. Qed.
Lemma l_sort_same : forall re l, inside l -> l_sort e re l = l_sort e' re l.
Proof.
  intros re l H. unfold l_sort. rewrite <- sort_same_b by auto. destruct re; [|reflexivity]. apply regroup_same, one_inside, sort_in, H.
Qed.
Lemma merge_loop_same : forall fl, quiet fl -> forall l x, within b x -> Forall (within b) l -> merge_loop e fl x l = merge_loop e' fl x l /\ forall m, merge_loop e fl x l = Ok m -> Forall (within b) m.
Proof.
  intros fl Hf. induction l as [|y l IH]; intros x Hx Hl; cbn [merge_loop]; [split; [reflexivity|intros m E; injection E as <-; auto]|].
  pose proof (Forall_inv Hl) as Hy. pose proof (Forall_inv_tail Hl) as Hl'. rewrite <- (union_same e b) by auto. destruct (union e x y fl) as [u|] eqn:Eu; [|split; [reflexivity|discriminate]]. cbn [bind].
  apply (union_in e b) in Eu; auto.
  assert (G : (m <- merge_loop e fl y l;; Ok (x :: m)) = (m <- merge_loop e' fl y l;; Ok (x :: m)) /\ forall m, (m <- merge_loop e fl y l;; Ok (x :: m)) = Ok m -> Forall (within b) m).
  { destruct (IH y Hy Hl') as (<- & I). split; [reflexivity|]. intros m E. destruct (merge_loop e fl y l) as [k|]; cbn in E; [|discriminate]. injection E as <-. auto. }
  destruct u as [|u0 [|u1 u]]; auto. apply IH; auto. now apply Forall_inv in Eu.
Qed.
Lemma merge_items_same : forall fl l, quiet fl -> Forall (within b) l -> merge_items e fl l = merge_items e' fl l /\ forall m, merge_items e fl l = Ok m -> Forall (within b) m.
Proof.
  intros fl l Hf H. unfold merge_items. rewrite <- sort_same_b by auto. pose proof (sort_in l H) as Hs. destruct (sort_items (rleb e) l) as [|x xs]; [split; [reflexivity|intros m E; injection E as <-; auto]|].
  apply merge_loop_same; [auto|now apply Forall_inv in Hs|now apply Forall_inv_tail in Hs].
Qed.
Lemma rg_loop_items : forall fl cc l st ms, rg_loop e fl cc st l = Ok ms -> map snd ms = l.
Proof.
  intros fl cc. induction l as [|x l IH]; intros st ms E; cbn in E; [injection E as <-; reflexivity|]. destruct (rg_step e fl cc st x) as [p|]; cbn in E; [|discriminate].
  destruct (rg_loop e fl cc (snd p) l) as [ys|] eqn:Ey; cbn in E; [|discriminate]. injection E as <-. cbn. f_equal. eauto.
Qed.
Lemma regroup_in : forall fl l m, regroup e fl l = Ok m -> items m = items l.
Proof.
  intros fl l m E. unfold regroup in E. cbn [regroup_n] in E. match type of E with (x <- ?r ;; _) = _ => destruct r as [ms|] eqn:Em; cbn [bind] in E; [|discriminate] end.
  injection E as <-. rewrite PSort.cut_items. now apply rg_loop_items in Em.
Qed.
Lemma merge_same_b : forall fl l, quiet fl -> inside l -> merge e fl l = merge e' fl l /\ forall m, merge e fl l = Ok m -> inside m.
Proof.
  intros fl l Hf H. unfold merge. destruct (merge_items_same fl (items l) Hf H) as (<- & I). destruct (merge_items e fl (items l)) as [m|]; [|split; [reflexivity|discriminate]]. cbn [bind].
  specialize (I m eq_refl). split; [now apply regroup_same, one_inside|]. intros g E. apply regroup_in in E. unfold inside. rewrite E. now apply one_inside.
Qed.
Lemma copy_inside : forall l, inside l -> inside (copy_list l).
Proof.
  intros l H. unfold inside, copy_list in *. assert (E : forall (l : rlist) g, items (fold_left (fun g grp => g_append_group grp g) l g) = items g ++ items l).
  { clear. induction l as [|p l IH]; intros g; cbn [fold_left]; [unfold items; cbn; now rewrite app_nil_r|]. rewrite IH. clear IH.
    assert (G : items (g_append_group p g) = items g ++ p).
    { unfold g_append_group. destruct p as [|x p]; [now rewrite app_nil_r|]. pose proof (items_extend p (g_append true x g)) as G. unfold g_extend in G. rewrite G, items_append, <- app_assoc. reflexivity. }
    rewrite G. unfold items. cbn. now rewrite app_assoc. }
  rewrite E. exact H.
Qed.
Definition ref_inside (x : bref) : Prop := match x with BV v => vbook v = b | BR r => within b r | BL l => inside l end.
Lemma ref_same : forall x, ref_inside x -> ref_ranges e x = ref_ranges e' x /\ forall ys, ref_ranges e x = Ok ys -> Forall (within b) ys.
Proof.
  intros [v|r|l] H; cbn [ref_ranges ref_inside] in *.
  - rewrite <- (new_same e b) by auto. split; [reflexivity|]. intros ys E. destruct (new_range e v v (Some ALL)) as [r|] eqn:En; cbn in E; [|discriminate]. injection E as <-.
    constructor; [|constructor]. eapply (new_in e b); [exact H|exact H|exact En].
  - split; [reflexivity|]. intros ys E. injection E as <-. auto.
  - split; [reflexivity|]. intros ys E. injection E as <-. auto.
Qed.
Lemma forallb_same : forall (p q : range -> bool) l, Forall (within b) l -> (forall x, within b x -> p x = q x) -> forallb p l = forallb q l.
Proof. intros p q l H E. induction H as [|x l Hx Hl IH]; [reflexivity|]. cbn. now rewrite E, IH. Qed.
Lemma existsb_same : forall (p q : range -> bool) l, Forall (within b) l -> (forall x, within b x -> p x = q x) -> existsb p l = existsb q l.
Proof. intros p q l H E. induction H as [|x l Hx Hl IH]; [reflexivity|]. cbn. now rewrite E, IH. Qed.
Lemma l_disjoint_same : forall l x, inside l -> ref_inside x -> l_is_disjoint e l x = l_is_disjoint e' l x.
Proof.
  intros l x Hl Hx. unfold l_is_disjoint. destruct (ref_same x Hx) as (<- & I). destruct (ref_ranges e x) as [ys|]; [|reflexivity]. cbn [bind]. specialize (I ys eq_refl). f_equal.
  apply forallb_same; auto. intros p Hp. apply forallb_same; auto. intros q Hq. now apply disjoint_same.
Qed.
Lemma l_contains_same : forall l x fl, quiet fl -> inside l -> ref_inside x -> l_contains e l x fl = l_contains e' l x fl.
Proof.
  intros l x fl Hf Hl Hx. unfold l_contains. destruct (ref_same x Hx) as (<- & I). destruct (ref_ranges e x) as [ys|]; [|reflexivity]. cbn [bind]. specialize (I ys eq_refl).
  destruct (merge_same_b fl _ Hf (copy_inside l Hl)) as (<- & J). destruct (merge e fl (copy_list l)) as [m|]; [|reflexivity]. cbn [bind]. specialize (J m eq_refl). f_equal.
  apply forallb_same; auto. intros p Hp. apply existsb_same; auto. intros q Hq. now apply contains_same.
Qed.
Lemma update_same : forall l x fl, quiet fl -> inside l -> ref_inside x -> union_update e l x fl = union_update e' l x fl /\ forall m, union_update e l x fl = Ok m -> inside m.
Proof.
  intros l x fl Hf Hl Hx. unfold union_update. destruct (ref_same x Hx) as (<- & I). destruct (ref_ranges e x) as [ys|]; [|split; [reflexivity|discriminate]]. cbn [bind]. specialize (I ys eq_refl).
  apply merge_same_b; auto. unfold inside. rewrite items_extend. apply Forall_app. auto.
Qed.
Lemma l_union_same : forall l x fl, quiet fl -> inside l -> ref_inside x -> l_union e l x fl = l_union e' l x fl /\ forall m, l_union e l x fl = Ok m -> inside m.
Proof. intros l x fl Hf Hl Hx. apply update_same; auto. now apply copy_inside. Qed.
Lemma meets_same : forall fl p bs, within b p -> Forall (within b) bs -> meets_with e fl p bs = meets_with e' fl p bs /\ forall m, meets_with e fl p bs = Ok m -> Forall (within b) m.
Proof.
  intros fl p bs Hp Hb. induction Hb as [|q bs Hq Hb (IH & I)]; cbn [meets_with]; [split; [reflexivity|intros m E; injection E as <-; auto]|].
  rewrite <- (intersection_same e b), <- IH by auto. split; [reflexivity|]. intros m E. destruct (intersection e p q fl) as [i|] eqn:Ei; cbn in E; [|discriminate].
  destruct (meets_with e fl p bs) as [r|]; cbn in E; [|discriminate]. injection E as <-. apply (intersection_in e b) in Ei; auto. destruct i as [|x i]; auto. constructor; auto. now apply Forall_inv in Ei.
Qed.
Lemma all_meets_same : forall fl xs bs, Forall (within b) xs -> Forall (within b) bs -> all_meets e fl xs bs = all_meets e' fl xs bs /\ forall m, all_meets e fl xs bs = Ok m -> Forall (within b) m.
Proof.
  intros fl xs bs Hx Hb. unfold all_meets.
  assert (M : mapM (fun a => meets_with e fl a bs) xs = mapM (fun a => meets_with e' fl a bs) xs /\ forall ls, mapM (fun a => meets_with e fl a bs) xs = Ok ls -> Forall (within b) (concat ls)).
  { induction Hx as [|p xs Hp Hx (IH & I)]; cbn [mapM]; [split; [reflexivity|intros ls E; injection E as <-; constructor]|]. destruct (meets_same fl p bs Hp Hb) as (<- & J). rewrite <- IH.
    split; [reflexivity|]. intros ls E. destruct (meets_with e fl p bs) as [m|]; cbn in E; [|discriminate]. destruct (mapM _ xs) as [ls'|]; cbn in E; [|discriminate]. injection E as <-. cbn. apply Forall_app. auto. }
  destruct M as (<- & I). split; [reflexivity|]. intros m E. destruct (mapM _ xs) as [ls|]; cbn in E; [|discriminate]. injection E as <-. auto.
Qed.
Lemma l_intersection_same : forall l x fl, quiet fl -> inside l -> ref_inside x -> l_intersection e l x fl = l_intersection e' l x fl /\ forall m, l_intersection e l x fl = Ok m -> inside m.
Proof.
  intros l x fl Hf Hl Hx. unfold l_intersection. destruct (ref_same x Hx) as (<- & I). destruct (ref_ranges e x) as [ys|]; [|split; [reflexivity|discriminate]]. cbn [bind]. specialize (I ys eq_refl).
  destruct (all_meets_same fl (items l) ys Hl I) as (<- & J). destruct (all_meets e fl (items l) ys) as [ms|]; [|split; [reflexivity|discriminate]]. cbn [bind]. specialize (J ms eq_refl).
  apply merge_same_b; auto. unfold inside, list_of_items. rewrite items_extend. exact J.
Qed.
Lemma opt_in : forall v w fl r, (forall x, v = Some x -> vbook x = b) -> (forall x, w = Some x -> vbook x = b) -> new_range_opt e v w fl = Ok r -> within b r.
Proof. intros [v|] [w|] fl r Hv Hw E; unfold new_range_opt in E; try (destruct (multibook _); discriminate). eapply (new_in e b); [| |exact E]; auto. Qed.
Lemma difference_in : forall p q fl l, quiet fl -> within b p -> within b q -> difference e p q fl = Ok l -> Forall (within b) l.
Proof.
  intros p q fl l Hf Hp Hq E. unfold difference in E. destruct (is_disjoint e p q); [injection E as <-; auto|]. destruct (contains e q p); [injection E as <-; auto|].
  destruct (subtract e (rstart q) 1 fl) as [v|] eqn:Ep; cbn [bind] in E; [|discriminate].
  destruct (new_range_opt e (Some (rstart p)) v None) as [lo|] eqn:El; cbn [bind] in E; [|discriminate].
  destruct (add e (rend q) 1 fl) as [w|] eqn:Eq; cbn [bind] in E; [|discriminate].
  destruct (new_range_opt e w (Some (rend p)) None) as [up|] eqn:Eu; cbn [bind] in E; [|discriminate].
  assert (Kl : within b lo).
  { eapply opt_in; [| |exact El]; [intros x X; injection X as <-; apply Hp|]. intros x ->. eapply (subtract_in e b); [exact Hf| |exact Ep]. apply Hq. }
  assert (Ku : within b up).
  { eapply opt_in; [| |exact Eu]; [|intros x X; injection X as <-; apply Hp]. intros x ->. eapply (add_in e b); [exact Hf| |exact Eq]. apply Hq. }
  destruct (surrounds e p q); [injection E as <-; auto|]. destruct (rltb e p q); injection E as <-; auto.
Qed.
Lemma diff_inner_same : forall fl, quiet fl -> forall others x, within b x -> Forall (within b) others ->
  diff_inner e fl x others = diff_inner e' fl x others /\ forall p, diff_inner e fl x others = Ok p -> within b (fst p) /\ Forall (within b) (snd p).
Proof.
  intros fl Hf. induction others as [|q bs IH]; intros x Hx Hb; cbn [diff_inner]; [split; [reflexivity|intros p E; injection E as <-; auto]|].
  pose proof (Forall_inv Hb) as Hq. pose proof (Forall_inv_tail Hb) as Hb'. rewrite <- (difference_same e b) by auto.
  destruct (difference e x q fl) as [ds|] eqn:Ed; [|split; [reflexivity|discriminate]]. cbn [bind]. apply difference_in in Ed; auto. destruct ds as [|y ds]; [now apply IH|].
  destruct (IH y (Forall_inv Ed) Hb') as (<- & I). split; [reflexivity|]. intros p E. destruct (diff_inner e fl y bs) as [p'|]; cbn in E; [|discriminate]. injection E as <-.
  destruct (I p' eq_refl) as (A & B). cbn. split; auto. apply Forall_app. split; auto. now apply Forall_inv_tail in Ed.
Qed.
Lemma diff_loop_same : forall fl others, quiet fl -> Forall (within b) others -> forall n l, Forall (within b) l ->
  diff_loop e fl others n l = diff_loop e' fl others n l /\ forall m, diff_loop e fl others n l = Ok m -> Forall (within b) m.
Proof.
  intros fl others Hf Hb. induction n as [|n IH]; intros [|x l] Hl; cbn [diff_loop]; try (split; [reflexivity|intros m E; first [discriminate|injection E as <-; auto]]; fail).
  destruct (diff_inner_same fl Hf others x (Forall_inv Hl) Hb) as (<- & I). destruct (diff_inner e fl x others) as [p|]; [|split; [reflexivity|discriminate]]. cbn [bind].
  destruct (I p eq_refl) as (A & B). destruct (IH (snd p ++ l)) as (<- & J); [apply Forall_app; split; auto; now apply Forall_inv_tail in Hl|]. split; [reflexivity|].
  intros m E. destruct (diff_loop e fl others n (snd p ++ l)) as [d|]; cbn in E; [|discriminate]. injection E as <-. auto.
Qed.
Lemma difference_update_same : forall n l x fl, quiet fl -> inside l -> ref_inside x -> difference_update e n l x fl = difference_update e' n l x fl /\ forall m, difference_update e n l x fl = Ok m -> inside m.
Proof.
  intros n l x fl Hf Hl Hx. unfold difference_update. destruct (ref_same x Hx) as (<- & I). destruct (ref_ranges e x) as [ys|]; [|split; [reflexivity|discriminate]]. cbn [bind]. specialize (I ys eq_refl).
  destruct (diff_loop_same fl ys Hf I n (items l) Hl) as (<- & J). destruct (diff_loop e fl ys n (items l)) as [ds|]; [|split; [reflexivity|discriminate]]. cbn [bind].
  apply merge_same_b; auto. apply one_inside. auto.
Qed.
Lemma l_difference_same : forall n l x fl, quiet fl -> inside l -> ref_inside x -> l_difference e n l x fl = l_difference e' n l x fl /\ forall m, l_difference e n l x fl = Ok m -> inside m.
Proof. intros n l x fl Hf Hl Hx. apply difference_update_same; auto. now apply copy_inside. Qed.
Lemma l_sym_difference_same : forall n l x fl, quiet fl -> inside l -> ref_inside x -> l_sym_difference e n l x fl = l_sym_difference e' n l x fl /\ forall m, l_sym_difference e n l x fl = Ok m -> inside m.
Proof.
  intros n l x fl Hf Hl Hx. unfold l_sym_difference. destruct (ref_same x Hx) as (<- & I). destruct (ref_ranges e x) as [ys|]; [|split; [reflexivity|discriminate]]. cbn [bind]. specialize (I ys eq_refl).
  assert (Hy : ref_inside (BL (list_of_items ys))) by (cbn; unfold inside, list_of_items; now rewrite items_extend).
  destruct (l_union_same l _ fl Hf Hl Hy) as (<- & J). destruct (l_intersection_same l _ fl Hf Hl Hy) as (<- & J').
  destruct (l_union e l (BL (list_of_items ys)) fl) as [u|]; [|split; [reflexivity|discriminate]]. cbn [bind].
  destruct (l_intersection e l (BL (list_of_items ys)) fl) as [i|]; [|split; [reflexivity|discriminate]]. cbn [bind]. apply l_difference_same; [exact Hf|now apply J|now apply J'].
Qed.
Lemma ext_same : forall l m, within b m -> Forall (within b) l ->
  min_from e m l = min_from e' m l /\ max_from e m l = max_from e' m l /\ within b (min_from e m l) /\ within b (max_from e m l).
Proof.
  induction l as [|x l IH]; intros m Hm Hl; cbn [min_from max_from]; [auto|]. pose proof (Forall_inv Hl) as Hx. pose proof (Forall_inv_tail Hl) as Hl'.
  destruct (rlt_same e b x m Hx Hm) as (<- & _). destruct (rlt_same e b m x Hm Hx) as (<- & _).
  assert (G1 : within b (if rltb e x m then x else m)) by (destruct (rltb e x m); auto). assert (G2 : within b (if rltb e m x then x else m)) by (destruct (rltb e m x); auto).
  destruct (IH _ G1 Hl') as (A & _ & B & _). destruct (IH _ G2 Hl') as (_ & C & _ & D). auto.
Qed.
Lemma l_min_same : forall l, inside l -> l_min e l = l_min e' l /\ l_max e l = l_max e' l /\ (forall r, l_min e l = Ok r -> within b r) /\ forall r, l_max e l = Ok r -> within b r.
Proof.
  intros l H. unfold l_min, l_max, inside in *. destruct (items l) as [|x xs]; [repeat split; discriminate|].
  destruct (ext_same xs x (Forall_inv H) (Forall_inv_tail H)) as (A & B & C & D). split; [congruence|]. split; [congruence|]. split; intros r E; injection E as <-; auto.
Qed.
Lemma l_ranges_same : forall l fl, inside l -> l_range e l = l_range e' l /\ l_chap_range e l fl = l_chap_range e' l fl /\ l_book_range e l fl = l_book_range e' l fl.
Proof.
  intros l fl H. unfold l_range, l_chap_range, l_book_range. destruct (l_min_same l H) as (<- & <- & I & J). destruct (l_min e l) as [p|]; [|auto]. cbn [bind].
  destruct (l_max e l) as [q|]; [|auto]. cbn [bind]. destruct (I p eq_refl) as (P1 & P2), (J q eq_refl) as (Q1 & Q2).
  change (eff e' fl) with (eff e fl). unfold v_first_verse, v_last_verse. rewrite P1, Q2. change (first_verse e' b) with (first_verse e b). change (last_verse e' b) with (last_verse e b).
  split; [now apply new_same|]. split.
  - destruct (first_verse e b _ _) as [v|] eqn:Ev; [|reflexivity]. cbn [bind]. destruct (last_verse e b _) as [w|] eqn:Ew; [|reflexivity]. cbn [bind]. apply first_in in Ev. apply last_in in Ew. now apply new_same.
  - destruct (first_verse e b _ _) as [v|] eqn:Ev; [|reflexivity]. cbn [bind]. destruct (last_verse e b _) as [w|] eqn:Ew; [|reflexivity]. cbn [bind]. apply first_in in Ev. apply last_in in Ew. now apply new_same.
Qed.
Lemma sumM_same : forall (f g : range -> res Z) l, Forall (within b) l -> (forall r, within b r -> f r = g r) -> sumM l f = sumM l g.
Proof.
  intros f g l H E. unfold sumM. assert (M : mapM f l = mapM g l) by (induction H as [|x l Hx Hl IH]; [reflexivity|]; cbn; now rewrite E, IH). now rewrite M.
Qed.
Lemma l_counts_same : forall l whole fl, quiet fl -> inside l -> l_verse_count e l fl = l_verse_count e' l fl /\ l_chap_count e l whole fl = l_chap_count e' l whole fl /\ l_book_count e l whole fl = l_book_count e' l whole fl.
Proof.
  intros l whole fl Hf H. unfold l_verse_count, l_chap_count, l_book_count. split; [|split]; apply sumM_same; auto; intros r Hr.
  - unfold verse_count. now rewrite split_nav.
  - unfold r_chap_count. rewrite split_nav by auto. reflexivity.
  - unfold r_book_count. rewrite split_nav by auto. reflexivity.
Qed.
End Alone.
