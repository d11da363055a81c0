(** * PropLattice: containment is the order of union and intersection (C91). *)
From Coq Require Import List ZArith Bool Lia Sorted Permutation.
From Verif Require Import Base Books Data DefaultData MVerse MRange Spec PList PCore PNav PVerse PRange PDefault
  PSetOps PSetSpec PRuns PSplit PCount PUnit PUnit2 MSeq MList PSort SpecList PRegroup PMerge PMerge2 PListOps PListDiff
  PropRange PropUnit PropList PropLaws PropWhole PropJoin.
Import ListNotations.
Import Spec.
Open Scope Z_scope.

(** The list that stands for a reference. *)
Definition in_list (x : bref) : rlist := match x with BV v => [[R v v]] | BR r => [[r]] | BL l => l end.
(** A reference with ranges that exist, and which span books only with MULTIBOOK. *)
Definition usable (e : env) (fl : option flag) (x : bref) : Prop :=
  legal_list e (zero_on e fl) (ref_list x) /\ (multi_on e fl = true \/ Forall one_book_range (ref_list x)).

Lemma in_list_items : forall x, items (in_list x) = ref_list x.
Proof. intros [v|r|l]; reflexivity. Qed.
Lemma usable_expr : forall e fl x, usable e fl x -> sound e fl (Lst (in_list x)).
Proof. intros e fl x H. unfold sound. cbn [atoms]. rewrite in_list_items. exact H. Qed.

Section Lattice.
Variable e : env.
Variable fl : option flag.
Hypothesis Hwf : wf_data (ed e).
Notation z := (zero_on e fl).
Notation d := (ed e).
Definition subset (x y : bref) : Prop := forall v, InB d z v -> InL d v (ref_list x) -> InL d v (ref_list y).

Lemma contains_sub : forall a x, usable e fl (BL a) -> usable e fl x -> exists b, l_contains e a x fl = Ok b /\ (b = true <-> subset x (BL a)).
Proof. intros a x (A & B) (C & D). exact (C25_contains_partial e fl a x Hwf A C B D). Qed.
Lemma contains_iff : forall a x, usable e fl (BL a) -> usable e fl x -> (l_contains e a x fl = Ok true <-> subset x (BL a)).
Proof. intros a x A B. destruct (contains_sub a x A B) as (b & -> & <-). split; [congruence|now intros ->]. Qed.
(** The values of two compound expressions are equal exactly if they stand for the same verses. *)
Lemma value_eq : forall s t, sound e fl s -> sound e fl t -> compound s -> compound t ->
  exists g h, value e fl s = Ok g /\ value e fl t = Ok h /\ (g = h <-> forall v, InB d z v -> (stands_for d s v <-> stands_for d t v)).
Proof.
  intros s t Hs Ht Cs Ct. destruct (C73_value e fl s Hwf Hs) as (g & Eg & Vg & _). destruct (C73_value e fl t Hwf Ht) as (h & Eh & Vh & _).
  exists g, h. split; [exact Eg|]. split; [exact Eh|]. split.
  - intros -> v Hv. now rewrite <- (Vg v Hv), <- (Vh v Hv).
  - intros H. destruct (C73_same e fl s t Hwf Hs Ht Cs Ct H) as (k & K1 & K2). congruence.
Qed.
Lemma usable_list : forall t g, sound e fl t -> value e fl t = Ok g -> usable e fl (BL g).
Proof. intros t g H E. destruct (value_ok e fl Hwf t H) as (g' & E' & A & B & _). assert (g' = g) by congruence. subst. split; auto. Qed.
End Lattice.

(** ** C91 *)
(** [a] contains [x] exactly if [x] adds nothing to [a], and exactly if nothing of [x] is lost in [a & x]; they are
    disjoint exactly if [a & x] is empty. *)
Theorem C91_order : forall e fl a x, wf_data (ed e) -> usable e fl (BL a) -> usable e fl x ->
  exists c dj ax aa m xx, l_contains e a x fl = Ok c /\ l_is_disjoint e a x = Ok dj /\
    l_union e a x fl = Ok ax /\ l_union e a (BL a) fl = Ok aa /\
    l_intersection e a x fl = Ok m /\ l_union e (in_list x) x fl = Ok xx /\
    (c = true <-> ax = aa) /\ (c = true <-> m = xx) /\ (dj = true <-> m = []).
Proof.
  intros e fl a x Hwf Ha Hx. destruct (contains_sub e fl Hwf a x Ha Hx) as (c & Ec & Hc).
  pose proof Ha as (La & Ma). pose proof Hx as (Lx & Mx). cbn [ref_list] in La, Ma.
  assert (Sa : sound e fl (Lst a)) by exact Ha. pose proof (usable_expr e fl x Hx) as Sx.
  destruct (C25_is_disjoint e a x Hwf (legal_true _ _ _ La) (legal_true _ _ _ Lx)) as (dj & Ed & Hd).
  assert (S1 : forall t, sound e fl t -> legal_list e (zero_on e fl) (atoms t ++ ref_list x) /\ (multi_on e fl = true \/ Forall one_book_range (atoms t ++ ref_list x))).
  { intros t (A & B). split; [now apply Forall_app|]. destruct B as [B|B]; [now left|]. destruct Mx as [Mx|Mx]; [now left|]. right. now apply Forall_app. }
  assert (S2 : sound e fl (Or (Lst a) (Lst a))).
  { split; cbn [atoms]; [now apply Forall_app|]. destruct Ma as [Ma|Ma]; [now left|]. right. now apply Forall_app. }
  destruct (value_eq e fl Hwf (Or_ref (Lst a) x) (Or (Lst a) (Lst a)) (S1 _ Sa) S2 I I) as (ax & aa & E1 & E2 & H1).
  destruct (value_eq e fl Hwf (And_ref (Lst a) x) (Or_ref (Lst (in_list x)) x) (S1 _ Sa) (S1 _ Sx) I I) as (m & xx & E3 & E4 & H2).
  cbn [value bind] in E1, E2, E3, E4. cbn [stands_for] in H1, H2. rewrite in_list_items in H2.
  exists c, dj, ax, aa, m, xx. do 6 (split; [assumption|]). split; [|split].
  - rewrite Hc, H1. unfold subset. cbn [ref_list]. split; intros H v Hv; specialize (H v Hv); tauto.
  - rewrite Hc, H2. unfold subset. cbn [ref_list]. split; intros H v Hv; specialize (H v Hv); tauto.
  - rewrite Hd. destruct (C73_value e fl (And_ref (Lst a) x) Hwf (S1 _ Sa)) as (m' & E' & V & Cf). cbn [value bind] in E'. assert (m' = m) by congruence. subst m'.
    destruct (Cf I) as (Fg & _ & _ & Lm). cbn [stands_for] in V. split.
    + intros H. destruct m as [|[|r g] m]; [reflexivity|exfalso; inversion Fg; congruence|exfalso]. apply H.
      cbn [items concat app] in Lm. inversion Lm as [|? ? W _]; subst. destruct W as (W1 & W2 & W3).
      exists (rstart r). apply (V (rstart r) W1). exists r. split; [now left|]. split; [apply (vle_refl e Hwf); exact (InB_mono e _ _ W1)|exact W3].
    + intros -> (v & (r & Ir & R1 & R2) & (s & Is & T1 & T2)).
      assert (Wr : wf_range (ed e) (zero_on e fl) r) by (rewrite Forall_forall in La; now apply La).
      assert (Ws : wf_range (ed e) (zero_on e fl) s) by (rewrite Forall_forall in Lx; now apply Lx).
      destruct Wr as (A1 & A2 & A3). destruct Ws as (B1 & B2 & B3).
      assert (P : forall w, InB (ed e) (zero_on e fl) w -> InR (ed e) w r -> InR (ed e) w s -> False).
      { intros w Hw Q1 Q2. destruct (proj2 (V w Hw)) as (y & [] & _). split; [exists r|exists s]; auto. }
      pose proof (InB_mono e _ _ A1) as A1'. pose proof (InB_mono e _ _ B1) as B1'.
      destruct (vle_total e (rstart r) (rstart s) A1' B1') as [L|L].
      * apply (P (rstart s) B1); split; [exact L|exact (vle_trans e Hwf _ _ _ T1 R2)|now apply (vle_refl e Hwf)|exact B3].
      * apply (P (rstart r) A1); split; [now apply (vle_refl e Hwf)|exact A3|exact L|exact (vle_trans e Hwf _ _ _ R1 T2)].
Qed.
(** It is an order up to equal verses; [a | b] is the least list that contains both, [a & b] the greatest contained in both. *)
Theorem C91_lattice : forall e fl a b c, wf_data (ed e) -> usable e fl (BL a) -> usable e fl (BL b) -> usable e fl (BL c) ->
  let below x y := l_contains e y (BL x) fl = Ok true in
  below a a /\ (below a b -> below b c -> below a c) /\
  (exists aa bb, l_union e a (BL a) fl = Ok aa /\ l_union e b (BL b) fl = Ok bb /\ (below a b /\ below b a <-> aa = bb)) /\
  exists u m, l_union e a (BL b) fl = Ok u /\ l_intersection e a (BL b) fl = Ok m /\
    (below u c <-> below a c /\ below b c) /\ (below c m <-> below c a /\ below c b).
Proof.
  intros e fl a b c Hwf Ha Hb Hc below.
  assert (K : forall x y, usable e fl (BL x) -> usable e fl (BL y) -> (below x y <-> subset e fl (BL x) (BL y))) by (intros x y Hx Hy; exact (contains_iff e fl Hwf y (BL x) Hy Hx)).
  assert (S2 : forall x y, usable e fl (BL x) -> usable e fl (BL y) -> sound e fl (Or (Lst x) (Lst y)) /\ sound e fl (And (Lst x) (Lst y))).
  { intros x y (X1 & X2) (Y1 & Y2). assert (sound e fl (Or (Lst x) (Lst y))); [|split; assumption]. split; cbn [atoms]; [now apply Forall_app|].
    destruct X2 as [X2|X2]; [now left|]. destruct Y2 as [Y2|Y2]; [now left|]. right. now apply Forall_app. }
  split; [|split; [|split]].
  - rewrite K by auto. intros v _ H. exact H.
  - rewrite !K by auto. intros H1 H2 v Hv H. apply (H2 v Hv), (H1 v Hv), H.
  - destruct (value_eq e fl Hwf (Or (Lst a) (Lst a)) (Or (Lst b) (Lst b)) (proj1 (S2 a a Ha Ha)) (proj1 (S2 b b Hb Hb)) I I) as (aa & bb & E1 & E2 & H).
    exists aa, bb. split; [exact E1|]. split; [exact E2|]. rewrite H, !K by auto. unfold subset. cbn [ref_list stands_for]. split.
    + intros (P & Q) v Hv. specialize (P v Hv). specialize (Q v Hv). tauto.
    + intros P. split; intros v Hv; specialize (P v Hv); tauto.
  - destruct (C73_value e fl _ Hwf (proj1 (S2 a b Ha Hb))) as (u & Eu & Vu & _). destruct (C73_value e fl _ Hwf (proj2 (S2 a b Ha Hb))) as (m & Em & Vm & _).
    pose proof (usable_list e fl Hwf _ _ (proj1 (S2 a b Ha Hb)) Eu) as Hu. pose proof (usable_list e fl Hwf _ _ (proj2 (S2 a b Ha Hb)) Em) as Hm.
    exists u, m. split; [exact Eu|]. split; [exact Em|]. rewrite !K by auto. unfold subset. cbn [ref_list stands_for] in *. split.
    + split; [intros P; split; intros v Hv; specialize (P v Hv); rewrite (Vu v Hv) in P; tauto|]. intros (P & Q) v Hv. rewrite (Vu v Hv). specialize (P v Hv). specialize (Q v Hv). tauto.
    + split; [intros P; split; intros v Hv; specialize (P v Hv); rewrite (Vm v Hv) in P; tauto|]. intros (P & Q) v Hv. rewrite (Vm v Hv). specialize (P v Hv). specialize (Q v Hv). tauto.
Qed.
(** The whole Bible, if it can be had, contains everything: with MULTIBOOK, [w | x] is [w], and [a & w] is [a] in canonical form. *)
Theorem C91_bible : forall e fl a x w, wf_data (ed e) -> multi_on e fl = true -> usable e fl (BL a) -> usable e fl x -> whole_bible e fl = Ok w ->
  l_contains e [[w]] x fl = Ok true /\ l_union e [[w]] x fl = Ok [[w]] /\
  exists g, l_intersection e a (BR w) fl = Ok g /\ l_union e a (BL a) fl = Ok g.
Proof.
  intros e fl a x w Hwf Hm Ha Hx Ew. destruct (book_order (ed e)) as [|b0 o] eqn:Eo; [unfold whole_bible in Ew; rewrite Eo in Ew; discriminate|].
  destruct (rev (book_order (ed e))) as [|bn o'] eqn:Er; [rewrite Eo in Er; cbn in Er; symmetry in Er; now apply app_cons_not_nil in Er|].
  assert (Cs : can_start e fl (UBook b0)).
  { cbn [can_start]. intros Hz. destruct (in_dec verse_eq_dec (unit_first (ed e) (zero_on e fl) (UBook b0)) (bible_verses (ed e) (verse0 (eg e)))) as [H|H]; [exact H|exfalso].
    rewrite (C42_bible_raises e fl b0 o Hwf Eo) in Ew; [discriminate|]. intros C. exact (H (C Hz)). }
  destruct (C42_whole_bible_partial e fl b0 o bn o' Hwf Eo Er Cs) as (w' & Ew' & Vw & All). assert (w' = w) by congruence. subst w'. clear Ew'.
  pose proof (verses_of_wf e Hwf _ _ _ Vw) as Ww. assert (Uw : usable e fl (BL [[w]])) by (split; [cbn; apply Forall_cons; [exact Ww|constructor]|now left]).
  assert (Hc : l_contains e [[w]] x fl = Ok true).
  { apply (contains_iff e fl Hwf); auto. intros v Hv _. cbn [ref_list items concat app]. apply InL_1. now apply All. }
  split; [exact Hc|]. split.
  - destruct (union_is_merge e fl [[w]] x Hwf (legal_true _ _ _ (proj1 Hx))) as (-> & _).
    assert (Hi : items [items [[w]] ++ ref_list x] = w :: ref_list x) by (unfold items; cbn [concat app]; now rewrite app_nil_r).
    destruct (C20_unique_partial e fl [items [[w]] ++ ref_list x] [[w]] Hwf) as (g & K1 & K2 & _); rewrite ?Hi.
    + apply Forall_cons; [exact Ww|apply Hx].
    + apply Uw.
    + now left.
    + now left.
    + intros v Hv. change (items [[w]]) with [w]. rewrite InL_cons, InL_1. specialize (All v Hv). tauto.
    + rewrite (merge_one e fl w Hwf (wf_range_mono e _ _ Ww)) in K2. congruence.
  - apply (C73_same e fl (And_ref (Lst a) (BR w)) (Or (Lst a) (Lst a)) Hwf); [| |exact I|exact I|].
    + split; [|now left]. cbn [atoms]. apply Forall_app. split; [apply Ha|apply Uw].
    + split; [|now left]. cbn [atoms]. apply Forall_app. split; apply Ha.
    + intros v Hv. cbn [stands_for ref_list]. rewrite InL_1. specialize (All v Hv). tauto.
Qed.
Example C91_ex : let a := [[R (V Gen 1 2) (V Gen 1 9)]; [R (V Gen 1 10) (V Gen 1 20)]] in let x := BR (R (V Gen 1 5) (V Gen 1 12)) in let e := denv NONE in
  usable e None (BL a) /\ usable e None x /\ l_contains e a x None = Ok true /\ l_is_disjoint e a x = Ok false /\
  l_union e a x None = Ok [[R (V Gen 1 2) (V Gen 1 20)]] /\ l_union e a (BL a) None = Ok [[R (V Gen 1 2) (V Gen 1 20)]] /\
  l_intersection e a x None = Ok [[R (V Gen 1 5) (V Gen 1 12)]] /\ l_contains e (in_list x) (BL a) None = Ok false.
Proof. cbv zeta. split; [split; [cbn [ref_list items concat app]; legal|right; repeat constructor]|]. split; [split; [cbn [ref_list]; legal|right; repeat constructor]|]. vm_compute. auto 10. Qed.
Example C91_bible_ex : let e := denv MULTIBOOK in exists w, whole_bible e None = Ok w /\ multi_on e None = true /\
  l_union e [[w]] (BV (V Ruth 2 3)) None = Ok [[w]] /\ l_intersection e [[R (V Ruth 2 3) (V Ruth 2 4)]; [R (V Ruth 2 5) (V Ruth 2 5)]] (BR w) None = Ok [[R (V Ruth 2 3) (V Ruth 2 5)]].
Proof. cbv zeta. eexists. split; [vm_compute; reflexivity|]. vm_compute. auto. Qed.
