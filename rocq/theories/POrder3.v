(** * POrder3: list methods with exact comparisons (MOrder2.v) for ranges that can all be compared. *)
From Coq Require Import List ZArith Bool Arith Lia Permutation.
From Verif Require Import Base Books Chars Regex Data MVerse MRange MSeq MList MGroup MNode MSort MOrder MOrder2 SpecGroup SpecNode SpecOrder Spec.
From Verif Require Import PCore PVerse PSort PGroup PGroup2 PGroup4 PGroup5 PGroup6 PGroup7 PGroup8 PNode PNode2 PropGroup PSort2 POrder POrder2 PropSort.
Import ListNotations.
Open Scope Z_scope.

Section Kinds.
Variable e : env.
Hypothesis Ho : order_ok (ed e).

Lemma Hord : forall b i, nth_error (book_order (ed e)) i = Some b -> exists j, order (ed e) b = Some j.
Proof. intros b i E. exists i. now apply Ho. Qed.
Lemma prev_kind : forall b b', prev_book e b = Ok (Some b') -> bkind e b' = bkind e b.
Proof.
  intros b b' E. unfold prev_book in E. destruct (order (ed e) b) as [[|i]|] eqn:Eo; try discriminate.
  destruct (nth_error _ _) as [c|] eqn:En; inv E. apply Hord in En. destruct En as (j & Ej). unfold bkind. now rewrite Eo, Ej.
Qed.
Lemma sub_loop_kind : forall f n b c vn mn w, sub_loop e f n b c vn mn = Ok (Some w) -> vkind e w = bkind e b.
Proof.
  intros f. induction n as [|n IH]; intros b c vn mn w E; cbn [sub_loop] in E.
  - destruct (vn <? mn); [discriminate|]. destruct (new_verse e b c vn (Some f)) as [v|] eqn:Ev; cbn in E; inv E. apply new_verse_book in Ev. unfold vkind. now rewrite Ev.
  - destruct (vn <? mn).
    + destruct (_ <? _).
      * destruct (negb _); [discriminate|]. destruct (prev_book e b) as [[b'|]|] eqn:En; cbn [bind] in E; try discriminate.
        destruct (max_verse_num e b' _) as [mx'|]; cbn [bind] in E; [|discriminate]. destruct (min_verse_num e b' _ _) as [mn'|]; cbn [bind] in E; [|discriminate].
        apply IH in E. rewrite E. now apply prev_kind.
      * destruct (max_verse_num e b _) as [mx'|]; cbn [bind] in E; [|discriminate]. destruct (min_verse_num e b _ _) as [mn'|]; cbn [bind] in E; [|discriminate].
        now apply IH in E.
    + destruct (new_verse e b c vn (Some f)) as [v|] eqn:Ev; cbn in E; inv E. apply new_verse_book in Ev. unfold vkind. now rewrite Ev.
Qed.
Lemma subtract_kind : forall v n fl w, subtract e v n fl = Ok (Some w) -> vkind e w = vkind e v.
Proof. intros v n fl w E. unfold subtract in E. destruct (min_verse_num _ _ _ _); cbn [bind] in E; [|discriminate]. now apply sub_loop_kind in E. Qed.
Lemma opt_kind : forall k v w fl r, (forall x, v = Some x -> vkind e x = k) -> (forall x, w = Some x -> vkind e x = k) -> new_range_opt e v w fl = Ok r -> of_kind e k r.
Proof.
  intros k [v|] [w|] fl r Hv Hw E; unfold new_range_opt in E; try (destruct (multibook _); discriminate). eapply new_kind; [| |exact E]; auto.
Qed.
Lemma difference_kind : forall k a b fl l, of_kind e k a -> of_kind e k b -> difference e a b fl = Ok l -> Forall (of_kind e k) l.
Proof.
  intros k a b fl l Ka Kb E. unfold difference in E. destruct (is_disjoint e a b); [injection E as <-; auto|]. destruct (contains e b a); [injection E as <-; auto|].
  destruct (subtract e (rstart b) 1 fl) as [p|] eqn:Ep; cbn [bind] in E; [|discriminate].
  destruct (new_range_opt e (Some (rstart a)) p None) as [lo|] eqn:El; cbn [bind] in E; [|discriminate].
  destruct (add e (rend b) 1 fl) as [q|] eqn:Eq; cbn [bind] in E; [|discriminate].
  destruct (new_range_opt e q (Some (rend a)) None) as [up|] eqn:Eu; cbn [bind] in E; [|discriminate].
  assert (Kl : of_kind e k lo).
  { eapply opt_kind; [| |exact El]; [intros x X; injection X as <-; apply Ka|]. intros x ->. apply subtract_kind in Ep. rewrite Ep. apply Kb. }
  assert (Ku : of_kind e k up).
  { eapply opt_kind; [| |exact Eu]; [|intros x X; injection X as <-; apply Ka]. intros x ->. apply (add_kind e Hord) in Eq. rewrite Eq. apply Kb. }
  destruct (surrounds e a b); [injection E as <-; auto|]. destruct (rltb e a b); injection E as <-; auto.
Qed.

(** ** Results are of the kind of the arguments *)
Lemma sort_kind : forall k l, Forall (of_kind e k) l -> Forall (of_kind e k) (sort_items (rleb e) l).
Proof. intros k l H. eapply Permutation_Forall; [|exact H]. apply Permutation_sym, sort_perm. Qed.
Lemma merge_left_kind : forall k fl l x, of_kind e k x -> Forall (of_kind e k) l -> Forall (of_kind e k) (merge_left e fl x l).
Proof.
  intros k fl. induction l as [|y l IH]; intros x Kx Kl; cbn [merge_left]; [auto|]. pose proof (Forall_inv Kl) as Ky. pose proof (Forall_inv_tail Kl) as Kl'.
  destruct (union e x y fl) as [u|] eqn:Eu; [|auto]. pose proof (union_kind e k x y Kx Ky fl _ Eu) as Ku.
  destruct u as [|m [|m2 u]]; auto. apply IH; auto. now apply Forall_inv in Ku.
Qed.
Lemma merge_rest_kind : forall k fl l, Forall (of_kind e k) l -> Forall (of_kind e k) (merge_rest e fl l).
Proof.
  intros k fl l H. apply sort_kind in H. unfold merge_rest. destruct (sort_items (rleb e) l) as [|x xs]; [auto|].
  apply merge_left_kind; [now apply Forall_inv in H|now apply Forall_inv_tail in H].
Qed.
Lemma meets_kind : forall k fl a bs ms, of_kind e k a -> Forall (of_kind e k) bs -> meets_with e fl a bs = Ok ms -> Forall (of_kind e k) ms.
Proof.
  intros k fl a. induction bs as [|b bs IH]; intros ms Ka Kb E; cbn in E; [injection E as <-; auto|]. pose proof (Forall_inv Kb) as K1. pose proof (Forall_inv_tail Kb) as K2.
  destruct (intersection e a b fl) as [i|] eqn:Ei; cbn in E; [|discriminate]. destruct (meets_with e fl a bs) as [r|] eqn:Er; cbn in E; [|discriminate]. injection E as <-.
  pose proof (intersection_kind e k a b Ka K1 fl _ Ei) as Ki. destruct i as [|m i]; auto. constructor; auto. now apply Forall_inv in Ki.
Qed.
Lemma all_meets_kind : forall k fl xs bs ms, Forall (of_kind e k) xs -> Forall (of_kind e k) bs -> all_meets e fl xs bs = Ok ms -> Forall (of_kind e k) ms.
Proof.
  intros k fl xs bs ms Kx Kb. unfold all_meets. intros E. destruct (mapM _ xs) as [ls|] eqn:El; cbn in E; [|discriminate]. injection E as <-.
  revert ls El. induction Kx as [|a xs Ka Kx IH]; intros ls El; cbn in El; [injection El as <-; constructor|].
  destruct (meets_with e fl a bs) as [m|] eqn:Em; cbn in El; [|discriminate]. destruct (mapM _ xs) as [ls'|]; cbn in El; [|discriminate]. injection El as <-.
  cbn [concat]. apply Forall_app. split; [eapply meets_kind; [exact Ka|exact Kb|exact Em]|]. now apply IH.
Qed.
Lemma diff_inner_kind : forall k fl others x p, of_kind e k x -> Forall (of_kind e k) others -> diff_inner e fl x others = Ok p -> of_kind e k (fst p) /\ Forall (of_kind e k) (snd p).
Proof.
  intros k fl. induction others as [|b bs IH]; intros x p Kx Kb E; cbn in E; [injection E as <-; auto|]. pose proof (Forall_inv Kb) as K1. pose proof (Forall_inv_tail Kb) as K2.
  destruct (difference e x b fl) as [ds|] eqn:Ed; cbn in E; [|discriminate]. pose proof (difference_kind k _ _ _ _ Kx K1 Ed) as Kd. destruct ds as [|y ds]; [eauto|].
  destruct (diff_inner e fl y bs) as [q|] eqn:Eq; cbn in E; [|discriminate]. injection E as <-. destruct (IH y q) as (A & B); auto; [now apply Forall_inv in Kd|].
  cbn [fst snd]. split; auto. apply Forall_app. split; auto. now apply Forall_inv_tail in Kd.
Qed.

(** ** Equality of the methods *)
Lemma allM_ok : forall f g l, (forall x, In x l -> f x = Ok (g x)) -> allM f l = Ok (forallb g l).
Proof. intros f g. induction l as [|x l IH]; intros H; cbn [allM forallb]; [reflexivity|]. unfold andM. rewrite H by (now left). cbn. destruct (g x); cbn; [|reflexivity]. apply IH. intros y Hy. apply H. now right. Qed.
Lemma anyM_ok : forall f g l, (forall x, In x l -> f x = Ok (g x)) -> anyM f l = Ok (existsb g l).
Proof. intros f g. induction l as [|x l IH]; intros H; cbn [anyM existsb]; [reflexivity|]. unfold orM. rewrite H by (now left). cbn. destruct (g x); cbn; [reflexivity|]. apply IH. intros y Hy. apply H. now right. Qed.
Lemma anyM_ext : forall f g l, (forall x, In x l -> f x = g x) -> anyM f l = anyM g l.
Proof. intros f g. induction l as [|x l IH]; intros H; cbn [anyM]; [reflexivity|]. rewrite H by (now left). rewrite IH; [reflexivity|]. intros y Hy. apply H. now right. Qed.

Lemma disjoint_all : forall xs ys, (forall a b, In a xs -> In b ys -> comparable2 e a b) ->
  allM (fun a => allM (fun b => x_is_disjoint e a b) ys) xs = Ok (forallb (fun a => forallb (fun b => is_disjoint e a b) ys) xs).
Proof.
  intros xs ys H. apply (allM_ok _ (fun a => forallb (fun b => is_disjoint e a b) ys)). intros a Ha. apply (allM_ok _ (fun b => is_disjoint e a b)). intros b Hb. pose proof (H a b Ha Hb) as C. apply comparable2_kind in C. destruct C as (k & Ka & Kb). now apply (disjoint_ok e k).
Qed.
Section One.
Variable k : option book.
Variable s : heap.
Variable h : list (list (nat * range)).
Variable O : list nat.
Hypothesis S : state s h O.
Hypothesis K : Forall (of_kind e k) (concat (values h)).

Lemma merged_kind : forall fl, Forall (of_kind e k) (merge_rest e fl (items (values h))).
Proof. intros fl. now apply merge_rest_kind. Qed.
Lemma min_from_ok : forall l m, of_kind e k m -> Forall (of_kind e k) l -> x_min_from e m l = Ok (min_from e m l) /\ x_max_from e m l = Ok (max_from e m l).
Proof.
  induction l as [|x l IH]; intros m Km Kl; cbn [x_min_from x_max_from min_from max_from]; [auto|]. pose proof (Forall_inv Kl) as Kx. pose proof (Forall_inv_tail Kl) as Kl'.
  destruct (range_cmp_ok e k x m Kx Km) as (-> & _ & -> & _). cbn [bind]. split; apply IH; auto; [destruct (rltb e x m)|destruct (rltb e m x)]; auto.
Qed.
Lemma l_min_ok : x_l_min e s = l_min e (values h) /\ x_l_max e s = l_max e (values h).
Proof.
  unfold x_l_min, x_l_max, l_min, l_max. destruct (read_state s h O S) as (-> & _). cbn [bind]. unfold items. destruct (concat (values h)) as [|x l]; [auto|].
  apply min_from_ok; [now apply Forall_inv in K|now apply Forall_inv_tail in K].
Qed.
Lemma l_range_ok : forall fl, x_l_range e s = l_range e (values h) /\ x_l_chap_range e fl s = l_chap_range e (values h) fl /\ x_l_book_range e fl s = l_book_range e (values h) fl.
Proof. intros fl. unfold x_l_range, x_l_chap_range, x_l_book_range. destruct l_min_ok as (-> & ->). auto. Qed.
End One.
Lemma l_union_ok : forall k s h O x ys fl, state s h O -> ref_ranges e x = Ok ys -> Forall (of_kind e k) (concat (values h) ++ ys) -> x_l_union e x fl s = n_union e x fl s.
Proof.
  intros k s h O x ys fl S E K. unfold x_l_union, n_union. destruct (copy_gives s h O S) as (t & h2 & Et & S2 & V). rewrite Et. cbn [bind].
  unfold x_union_update, n_union_update, let_run. rewrite E. destruct (extend_values ys t h2 [] S2) as (u & h3 & Eu & S3 & V3). unfold call. rewrite Eu. cbn [seq_run].
  rewrite (merge_x_same e k fl u h3 [] S3); [reflexivity|]. rewrite V3. change (concat (g_extend ys (values h2))) with (items (g_extend ys (values h2))). rewrite items_extend, V. exact K.
Qed.
Lemma meets_with_ok : forall k fl a bs t, of_kind e k a -> Forall (of_kind e k) bs -> x_meets_with e fl a bs t = n_meets_with e fl a bs t.
Proof.
  intros k fl a. induction bs as [|b bs IH]; intros t Ka Kb; cbn [x_meets_with n_meets_with]; [reflexivity|]. pose proof (Forall_inv Kb) as K1. pose proof (Forall_inv_tail Kb) as K2.
  rewrite (intersection_ok e k a b Ka K1). destruct (intersection e a b fl) as [i|]; [|reflexivity]. cbn [bind]. destruct (match i with [] => Ok t | m :: _ => append m false t end); [|reflexivity]. cbn [bind]. now apply IH.
Qed.
Lemma all_meets_ok : forall k fl xs bs t, Forall (of_kind e k) xs -> Forall (of_kind e k) bs -> x_all_meets e fl xs bs t = n_all_meets e fl xs bs t.
Proof.
  intros k fl xs bs t Kx Kb. revert t. induction Kx as [|a xs Ka Kx IH]; intros t; cbn [x_all_meets n_all_meets]; [reflexivity|]. rewrite (meets_with_ok k) by auto.
  destruct (n_meets_with e fl a bs t); [|reflexivity]. cbn [bind]. apply IH.
Qed.
Lemma l_intersection_ok : forall k s h O x ys fl, state s h O -> ref_ranges e x = Ok ys -> Forall (of_kind e k) (concat (values h)) -> Forall (of_kind e k) ys ->
  x_l_intersection e x fl s = n_intersection e x fl s.
Proof.
  intros k s h O x ys fl S E K Ky. unfold x_l_intersection, n_intersection. rewrite E. cbn [bind]. destruct (read_state s h O S) as (-> & _). cbn [bind].
  rewrite (all_meets_ok k) by auto. pose proof (all_meets_state e fl (concat (values h)) ys (clear g_new) [] state_new) as M.
  destruct (all_meets e fl (concat (values h)) ys) as [ms|q] eqn:Em; [|now rewrite M]. destruct M as (t & h' & -> & S' & V). cbn [bind].
  rewrite (merge_x_same e k fl t h' [] S'); [reflexivity|]. unfold items in V. rewrite V. cbn. eapply all_meets_kind; [exact K|exact Ky|exact Em].
Qed.
Lemma diff_inner_ok : forall k fl others (s : heap) h O l1 a x l2, state s h O -> concat h = l1 ++ (a, x) :: l2 -> of_kind e k x -> Forall (of_kind e k) others ->
  x_diff_inner e fl others a s = n_diff_inner e fl others a s.
Proof.
  intros k fl. induction others as [|b bs IH]; intros s h O l1 a x l2 H E Kx Kb; cbn [x_diff_inner n_diff_inner]; [reflexivity|].
  pose proof (Forall_inv Kb) as K1. pose proof (Forall_inv_tail Kb) as K2.
  rewrite (flat_value s h O _ _ _ _ H E). cbn [bind]. rewrite (difference_ok e k x b fl Kx K1). destruct (difference e x b fl) as [ds|ex] eqn:Ed; [|reflexivity].
  destruct ds as [|d ds]; [eapply IH; eauto|].
  destruct (put_before_state (rev (d :: ds)) s h O l1 a x l2 H E) as (c & u & h1 & P & Eu & S1 & C1 & V1 & B1). rewrite Eu. cbn [bind fst snd].
  rewrite rev_involutive in V1. destruct P as [|(c' & d') P]; [discriminate|]. cbn [map fst snd entry] in *. injection B1 as ->. injection V1 as -> V1.
  assert (C1' : concat h1 = (l1 ++ (c', d) :: P) ++ (a, x) :: l2) by (rewrite C1, <- app_assoc; reflexivity).
  destruct (flat_pop u h1 O _ _ _ _ S1 C1') as (w & h2 & Ew & S2 & C2). rewrite Ew. cbn [bind fst snd].
  rewrite <- app_assoc in C2. eapply IH; [exact S2|exact C2| |exact K2]. pose proof (difference_kind k _ _ _ _ Kx K1 Ed) as Kd. now apply Forall_inv in Kd.
Qed.
Lemma diff_loop_ok : forall k fl others, Forall (of_kind e k) others -> forall n (s : heap) h O l1 l2, state s h O -> concat h = l1 ++ l2 -> Forall (of_kind e k) (map snd l2) ->
  x_diff_loop e fl others n (entry (map fst l2) None) s = n_diff_loop e fl others n (entry (map fst l2) None) s.
Proof.
  intros k fl others Kb. induction n as [|n IH]; intros s h O l1 l2 H E Kl; destruct l2 as [|(a & x) l2]; cbn [map fst snd entry n_diff_loop x_diff_loop] in *; try reflexivity.
  pose proof (Forall_inv Kl) as Kx. pose proof (Forall_inv_tail Kl) as Kl'. rewrite (diff_inner_ok k fl others s h O l1 a x l2 H E Kx Kb).
  pose proof (diff_inner_state e fl others s h O l1 a x l2 H E) as D. destruct (diff_inner e fl x others) as [p|ex] eqn:Ep.
  - destruct D as (b & u & h1 & M & E1 & S1 & C1 & V1). rewrite E1. rewrite (flat_next u h1 O _ _ _ _ S1 C1).
    assert (C1' : concat h1 = (l1 ++ [(b, fst p)]) ++ M ++ l2) by (rewrite <- app_assoc; exact C1).
    apply (IH u h1 O _ _ S1 C1'). rewrite map_app, V1. apply Forall_app. split; auto. now apply (diff_inner_kind k) in Ep.
  - destruct D as (u & h1 & M & E1 & _). now rewrite E1.
Qed.
Lemma diff_left_kind : forall k fl others, Forall (of_kind e k) others -> forall n l m, Forall (of_kind e k) l -> diff_loop e fl others n l = Ok m -> Forall (of_kind e k) m.
Proof.
  intros k fl others Kb. induction n as [|n IH]; intros [|x l] m Kl E; cbn in E; try discriminate; try (injection E as <-; auto; fail).
  destruct (diff_inner e fl x others) as [p|] eqn:Ep; cbn in E; [|discriminate]. destruct (diff_loop e fl others n (snd p ++ l)) as [q|] eqn:Eq; cbn in E; [|discriminate]. injection E as <-.
  destruct (diff_inner_kind k fl others x p (Forall_inv Kl) Kb Ep) as (A & B). constructor; auto. eapply IH; [|exact Eq]. apply Forall_app. split; auto. now apply Forall_inv_tail in Kl.
Qed.
Lemma difference_update_ok : forall k n s h O x ys fl, state s h O -> ref_ranges e x = Ok ys -> Forall (of_kind e k) (concat (values h)) -> Forall (of_kind e k) ys ->
  x_difference_update e n x fl s = n_difference_update e n x fl s.
Proof.
  intros k n s h O x ys fl S E K Ky. unfold x_difference_update, n_difference_update, let_run. rewrite E. rewrite (flat_first s h O S).
  rewrite values_items in K. rewrite (diff_loop_ok k fl ys Ky n s h O [] (concat h) S eq_refl K).
  destruct (diff_loop_state e fl ys n s h O [] (concat h) S eq_refl) as (s' & h' & L & E' & S' & C & V). rewrite E'.
  destruct (diff_loop e fl ys n (map snd (concat h))) as [ds|ex] eqn:Ed; [|reflexivity]. cbn [unit_of seq_run].
  apply (merge_x_same e k None s' h' O S'). rewrite values_items, C. cbn [app]. rewrite V, (diff_left_ok _ _ _ _ _ _ Ed). eapply diff_left_kind; [exact Ky|exact K|exact Ed].
Qed.
Lemma l_difference_ok : forall k n s h O x ys fl, state s h O -> ref_ranges e x = Ok ys -> Forall (of_kind e k) (concat (values h)) -> Forall (of_kind e k) ys ->
  x_l_difference e n x fl s = n_difference e n x fl s.
Proof.
  intros k n s h O x ys fl S E K Ky. unfold x_l_difference, n_difference. destruct (copy_gives s h O S) as (t & h2 & Et & S2 & V). rewrite Et. cbn [bind].
  rewrite (difference_update_ok k n t h2 [] x ys fl S2 E); auto. now rewrite V.
Qed.
Lemma gives_kind_union : forall k s h O x ys fl t, state s h O -> ref_ranges e x = Ok ys -> Forall (of_kind e k) (concat (values h)) -> Forall (of_kind e k) ys ->
  n_union e x fl s = Ok t -> exists h', state t h' [] /\ Forall (of_kind e k) (concat (values h')).
Proof.
  intros k s h O x ys fl t S E K Ky Et. unfold n_union in Et. destruct (copy_gives s h O S) as (c & h2 & Ec & S2 & V). rewrite Ec in Et. cbn [bind] in Et.
  unfold n_union_update, let_run in Et. rewrite E in Et. destruct (extend_values ys c h2 [] S2) as (u & h3 & Eu & S3 & V3). unfold call in Et. rewrite Eu in Et. cbn [seq_run] in Et.
  destruct (merge_ends e fl u h3 [] S3) as (h' & S' & _ & I & _). destruct (n_merge e fl u) as (w & q). cbn [fst snd] in *. destruct q; [|discriminate]. cbn in Et. injection Et as <-.
  exists h'. split; auto. change (Forall (of_kind e k) (items (values h'))). rewrite I. apply merge_rest_kind. rewrite V3, items_extend, V. apply Forall_app. auto.
Qed.
Lemma gives_kind_inter : forall k s h O x ys fl t, state s h O -> ref_ranges e x = Ok ys -> Forall (of_kind e k) (concat (values h)) -> Forall (of_kind e k) ys ->
  n_intersection e x fl s = Ok t -> exists h', state t h' [] /\ Forall (of_kind e k) (concat (values h')).
Proof.
  intros k s h O x ys fl t S E K Ky Et. unfold n_intersection in Et. rewrite E in Et. cbn [bind] in Et. destruct (read_state s h O S) as (R & _). rewrite R in Et. cbn [bind] in Et.
  pose proof (all_meets_state e fl (concat (values h)) ys (clear g_new) [] state_new) as M.
  destruct (all_meets e fl (concat (values h)) ys) as [ms|q] eqn:Em; [|rewrite M in Et; discriminate]. destruct M as (u & h3 & Eu & S3 & V3). rewrite Eu in Et. cbn [bind] in Et.
  destruct (merge_ends e fl u h3 [] S3) as (h' & S' & _ & I & _). destruct (n_merge e fl u) as (w & q). cbn [fst snd] in *. destruct q; [|discriminate]. cbn in Et. injection Et as <-.
  exists h'. split; auto. change (Forall (of_kind e k) (items (values h'))). rewrite I. apply merge_rest_kind. unfold items in V3 |- *. rewrite V3. cbn. eapply all_meets_kind; [exact K|exact Ky|exact Em].
Qed.
Lemma l_sym_difference_ok : forall k n s h O x ys fl, state s h O -> ref_ranges e x = Ok ys -> Forall (of_kind e k) (concat (values h)) -> Forall (of_kind e k) ys ->
  x_l_sym_difference e n x fl s = n_sym_difference e n x fl s.
Proof.
  intros k n s h O x ys fl S E K Ky. unfold x_l_sym_difference, n_sym_difference. rewrite E. cbn [bind].
  assert (E1 : ref_ranges e (BL [ys]) = Ok ys) by (cbn; unfold items; cbn; now rewrite app_nil_r).
  rewrite (l_union_ok k s h O (BL [ys]) ys fl S E1) by (apply Forall_app; auto). rewrite (l_intersection_ok k s h O (BL [ys]) ys fl S E1 K Ky).
  destruct (n_union e (BL [ys]) fl s) as [u|] eqn:Eu; [|reflexivity]. cbn [bind]. destruct (n_intersection e (BL [ys]) fl s) as [i|] eqn:Ei; [|reflexivity]. cbn [bind].
  destruct (gives_kind_union k s h O _ ys fl u S E1 K Ky Eu) as (hu & Su & Ku). destruct (gives_kind_inter k s h O _ ys fl i S E1 K Ky Ei) as (hi & Si & Ki).
  destruct (read_state i hi [] Si) as (_ & _ & -> & _). cbn [bind]. apply (l_difference_ok k n u hu [] _ (concat (values hi)) fl Su); auto.
Qed.
Lemma l_contains_ok : forall k s h O x ys fl, state s h O -> ref_ranges e x = Ok ys -> Forall (of_kind e k) (concat (values h)) ->
  (forall b, In b ys -> of_kind e k b) -> x_l_contains e x fl s = l_contains e (values h) x fl.
Proof.
  intros k s h O x ys fl S E K Ky. unfold x_l_contains, l_contains. rewrite E. cbn [bind]. destruct (copy_gives s h O S) as (t & h2 & Et & S2 & V). rewrite Et. cbn [bind].
  rewrite (copy_same s h O S). rewrite (merge_x_same e k fl t h2 [] S2) by (now rewrite V). destruct (merge_ends e fl t h2 [] S2) as (h' & S' & Q & I & G).
  destruct (n_merge e fl t) as (u & q). cbn [fst snd] in *. subst q. rewrite V in *. destruct (merge e fl (values h)) as [m|]; [|reflexivity]. cbn [unit_of bind].
  destruct (read_state u h' [] S') as (-> & _). cbn [bind]. specialize (G m eq_refl). rewrite <- G. unfold items at 1.
  apply (allM_ok _ (fun b => existsb (fun a => contains e a b) (concat (values h')))). intros b Hb. apply anyM_ok. intros a Ha. apply (contains_ok e k); auto.
  assert (Kr : Forall (of_kind e k) (concat (values h'))) by (change (Forall (of_kind e k) (items (values h'))); rewrite I; now apply merge_rest_kind).
  rewrite Forall_forall in Kr. auto.
Qed.
End Kinds.
