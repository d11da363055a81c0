(** * PropJoin: the pieces of a range, put together again (C88). *)
From Coq Require Import List ZArith Bool Lia Sorted Permutation.
From Verif Require Import Base Books Chars Regex Data DefaultData MVerse MRange MSeq MList Spec SpecList PGroup PList PCore PVerse PRange PSetOps PSplit PTerm PDefault PropVerse PropRange PMerge PListOps PropList PropLaws PropNumber.
Import ListNotations.
Open Scope Z_scope.

Lemma legal_split : forall e r fl, wf_range (ed e) true r -> wf_range (ed e) (split_zero0 e r fl) r.
Proof.
  intros e r fl (A & B & C). unfold split_zero0. destruct (zero_on e fl) eqn:Ez; [repeat split; assumption|]. cbn [orb].
  destruct (Z.eqb_spec (vverse (rstart r)) 0) as [|N]; [repeat split; assumption|]. destruct (Z.eqb_spec (vverse (rend r)) 0) as [|M]; [repeat split; assumption|]. cbn [orb].
  split; [now apply (InB_false_verse e)|]. split; [now apply (InB_false_verse e)|exact C].
Qed.
Lemma pieces_in : forall e z ps ls, wf_data (ed e) -> Forall2 (verses_of (ed e) z) ps ls -> forall v, InB (ed e) z v -> (InL (ed e) v ps <-> In v (concat ls)).
Proof.
  intros e z ps ls Hwf F v Hv. induction F as [|p l ps ls H F IH]; [split; [intros (r & [] & _)|intros []]|].
  rewrite InL_cons. cbn [concat]. rewrite in_app_iff, IH. pose proof (verses_of_In e Hwf z p l v H) as Q. tauto.
Qed.
Lemma pieces_legal : forall e z ps ls, wf_data (ed e) -> Forall2 (verses_of (ed e) z) ps ls -> legal_list e z ps.
Proof. intros e z ps ls Hwf H. induction H as [|r l ps ls Hr _ IH]; constructor; auto. now apply (verses_of_wf e Hwf z r l). Qed.
Lemma InL_perm : forall d v l m, Permutation l m -> (InL d v l <-> InL d v m).
Proof. intros d v l m P. unfold InL. split; intros (r & I & Q); exists r; split; auto; [now apply (Permutation_in r P)|apply (Permutation_in r (Permutation_sym P)); auto]. Qed.
(** A list of one range is in canonical form. *)
Lemma merge_one : forall e fl r, wf_data (ed e) -> wf_range (ed e) true r -> merge e fl [[r]] = Ok [[r]].
Proof.
  intros e fl r Hwf Hr. destruct (C34_regroup_global e [[r]] Hwf) as (g & E & I & F & _).
  - constructor; auto.
  - unfold merge. replace (merge_items e fl (items [[r]])) with (Ok [r]) by reflexivity. cbn [bind one_group]. rewrite E. f_equal.
    unfold items in I. cbn [concat app] in I. unfold full_groups in F. destruct g as [|a g]; [discriminate|]. inversion F as [|? ? Na Fg]; subst. destruct a as [|x a]; [congruence|].
    cbn [concat app] in I. injection I as -> I. apply app_eq_nil in I. destruct I as (-> & I). destruct g as [|b g]; auto. inversion Fg as [|? ? Nb _]; subst. cbn [concat] in I. apply app_eq_nil in I. destruct I; congruence.
Qed.

(** The pieces of a range are legal and have the verses of the range; with an option for books or chapters each lies in one book. *)
Lemma split_set : forall e fl r bb bc num, wf_data (ed e) -> wf_range (ed e) true r -> (forall n, num = Some n -> 1 <= n) ->
  exists N, forall fuel, (N <= fuel)%nat -> exists ps ls l, split_items e fuel r bb bc num fl = Ok ps /\ legal_list e (split_zero0 e r fl) ps /\
    same_verses (ed e) (split_zero0 e r fl) ps [r] /\ (bb = true \/ bc = true \/ one_book_range r -> Forall one_book_range ps) /\
    verses_of (ed e) (split_zero0 e r fl) r l /\ partition_of bb bc (option_map Z.to_nat num) l ls /\ Forall2 (verses_of (ed e) (split_zero0 e r fl)) ps ls.
Proof.
  intros e fl r bb bc num Hwf Ht Hn. pose proof (legal_split e r fl Ht) as Hr. set (z := split_zero0 e r fl) in *.
  destruct (verses_of_exists e Hwf _ r Hr) as (l & Hl). exists (length l). intros fuel Hf.
  destruct (C12_split e r fl l bb bc num fuel Hwf Hl Hf Hn) as (ps & ls & E & P & F). fold z in F. exists ps, ls, l. split; [exact E|].
  pose proof (pieces_legal e _ ps ls Hwf F) as L. split; [exact L|].
  assert (S : same_verses (ed e) z ps [r]).
  { intros v Hv. rewrite (pieces_in e _ ps ls Hwf F v Hv), (part_concat _ _ _ _ _ P), (verses_of_In e Hwf _ r l v Hl). rewrite InL_cons. split; [intros (_ & Q); now left|intros [Q|(q & [] & _)]; auto]. }
  split; [exact S|]. split; [|auto]. intros O. rewrite Forall_forall in L.
  assert (K : forall p lp, In lp ls -> verses_of (ed e) z p lp -> one_book lp -> one_book_range p).
  { intros p lp _ Vp O1. pose proof (verses_of_wf e Hwf z p lp Vp) as Wp. pose proof (wf_range_mono e _ p Wp) as Wt. destruct Wp as (A1 & A2 & A3).
    apply O1; apply (verses_of_In e Hwf z p lp _ Vp); split; auto; [now apply (InR_start e Hwf)|now apply (InR_end e Hwf)]. }
  assert (C : Forall one_book ls).
  { destruct O as [O|[O|O]]; [now apply (part_book _ _ _ _ _ P)| |].
    - eapply Forall_impl; [|apply (part_chap _ _ _ _ _ P O)]. intros q H a b Ia Ib. now apply H.
    - apply Forall_forall. intros q Iq a b Ia Ib. assert (X : forall v, In v q -> InR (ed e) v r).
      { intros v Iv. apply (verses_of_In e Hwf _ r l v Hl). rewrite <- (part_concat _ _ _ _ _ P). apply in_concat. eauto. }
      apply (one_book_in e Hwf r a b Ht O); auto. }
  clear -F K C. induction F as [|p lp ps ls V F IH]; constructor; inversion C; subst.
  - apply (K p lp); auto. now left.
  - apply IH; auto. intros p' lp' I. apply K. now right.
Qed.
(** Pieces that end where a book ends are in canonical form without MULTIBOOK. *)
Lemma books_canonical : forall e z fl bs ls, wf_data (ed e) -> multi_on e fl = false -> Forall2 (verses_of (ed e) z) bs ls -> seg e z (concat ls) ->
  (forall ls1 p q ls2, ls = ls1 ++ p :: q :: ls2 -> new_book p q) -> canonical e fl bs.
Proof.
  intros e z fl bs ls Hwf Hm F. induction F as [|a la bs ls V F IH]; intros S B; [constructor|]. constructor.
  - apply IH; [now apply (seg_app e z la)|]. intros ls1 p q ls2 ->. apply (B (la :: ls1) p q ls2 eq_refl).
  - assert (Q : forall b lb, verses_of (ed e) z b lb -> In (rend b) lb /\ In (rstart b) lb).
    { intros b lb Vb. pose proof (verses_of_wf e Hwf z b lb Vb) as Wb. pose proof (wf_range_mono e _ b Wb) as Wt. destruct Wb as (A1 & A2 & _).
      split; apply (verses_of_In e Hwf z b lb _ Vb); split; auto; [now apply (InR_end e Hwf)|now apply (InR_start e Hwf)]. }
    assert (Sin : forall v, In v (concat (la :: ls)) -> InB (ed e) true v) by (intros v Iv; apply (seg_in_true e z _ v S Iv)). cbn [concat] in S, Sin.
    apply Forall_forall. intros b Ib.
    assert (X : exists lb, In lb ls /\ verses_of (ed e) z b lb).
    { clear -F Ib. induction F as [|c lc bs ls Vc F IH]; [destruct Ib|]. destruct Ib as [->|Ib]; [exists lc; split; [now left|auto]|]. destruct (IH Ib) as (lb & I & H). exists lb. split; [now right|auto]. }
    destruct X as (lb & Il & Vb). destruct (Q _ _ V) as (Ea & _). destruct (Q _ _ Vb) as (_ & Sb).
    assert (Ic : In (rstart b) (concat ls)) by (apply in_concat; eauto).
    pose proof (seg_lt e Hwf z la (concat ls) _ _ S Ea Ic) as Lt.
    assert (Ba : InB (ed e) true (rend a)) by (apply Sin, in_or_app; auto). assert (Bb : InB (ed e) true (rstart b)) by (apply Sin, in_or_app; auto).
    split; [apply (vlt_pos e Hwf); auto|]. intros (_ & [M|M]); [congruence|].
    destruct F as [|c lc bs ls Vc F]; [destruct Ib|]. destruct (B [] la lc ls eq_refl) as (x & y & Hx & Hy & N).
    destruct V as (_ & _ & V). rewrite V in Hx. injection Hx as <-. pose proof Vc as (_ & W & _). rewrite W in Hy. injection Hy as <-.
    destruct (Q _ _ Vc) as (_ & Sc). cbn [concat] in *. assert (Bc : InB (ed e) true (rstart c)) by (apply Sin; rewrite !in_app_iff; auto).
    assert (Lc : pos e (rend a) < pos e (rstart c)) by (apply (seg_lt e Hwf z la (lc ++ concat ls) _ _ S Ea); rewrite in_app_iff; auto).
    assert (Le : pos e (rstart c) <= pos e (rstart b)).
    { destruct Ib as [->|Ib]; [lia|]. apply (seg_app e) in S. destruct S as (_ & S).
      assert (X : exists k, In k ls /\ verses_of (ed e) z b k).
      { clear -F Ib. induction F as [|c lc bs ls Vc F IH]; [destruct Ib|]. destruct Ib as [->|Ib]; [exists lc; split; [now left|auto]|]. destruct (IH Ib) as (lb & I & H). exists lb. split; [now right|auto]. }
      destruct X as (k & Ik & Vk). destruct (Q _ _ Vk) as (_ & Sk). apply Z.lt_le_incl. apply (seg_lt e Hwf z lc (concat ls) _ _ S Sc). apply in_concat. eauto. }
    apply N. symmetry. apply (same_book_between e Hwf _ _ (rstart b)); auto. lia.
Qed.

(** ** C88 *)
(** The pieces of a range in any order and grouping merge to the range, with MULTIBOOK or if it lies in one book. *)
Theorem C88_join_partial : forall e fl fl' r by_book by_chap num, wf_data (ed e) -> wf_range (ed e) true r -> zero_on e fl' = split_zero0 e r fl ->
  (forall n, num = Some n -> 1 <= n) -> multi_on e fl' = true \/ one_book_range r ->
  exists N, forall fuel, (N <= fuel)%nat -> exists ps, split_items e fuel r by_book by_chap num fl = Ok ps /\
    forall l, Permutation (items l) ps -> merge e fl' l = Ok [[r]].
Proof.
  intros e fl fl' r bb bc num Hwf Ht Hz Hn Hm. destruct (split_set e fl r bb bc num Hwf Ht Hn) as (N & H). exists N. intros fuel Hf.
  destruct (H fuel Hf) as (ps & ls & l & E & L & S & O & _). exists ps. split; [exact E|]. intros g Pg. rewrite <- Hz in L, S.
  destruct (C20_unique_partial e fl' g [[r]] Hwf) as (k & K1 & K2 & _).
  - apply Forall_forall. intros x Ix. rewrite Forall_forall in L. apply L. apply (Permutation_in x Pg Ix).
  - constructor; [rewrite Hz; now apply legal_split|constructor].
  - destruct Hm as [Hm|Hm]; [now left|]. right. apply Forall_forall. intros x Ix. assert (B := O (or_intror (or_intror Hm))). rewrite Forall_forall in B. apply B. apply (Permutation_in x Pg Ix).
  - destruct Hm as [Hm|Hm]; [now left|]. right. constructor; [exact Hm|constructor].
  - intros v Hv. rewrite (InL_perm _ v _ _ Pg). apply (S v Hv).
  - rewrite (merge_one e fl' r Hwf Ht) in K2. congruence.
Qed.
(** Without MULTIBOOK, pieces that each lie in one book merge to the pieces of [split(by_book=True)]. *)
Theorem C88_books_partial : forall e fl fl' r by_book by_chap num, wf_data (ed e) -> wf_range (ed e) true r -> zero_on e fl' = split_zero0 e r fl ->
  (forall n, num = Some n -> 1 <= n) -> multi_on e fl' = false -> by_book = true \/ by_chap = true ->
  exists N, forall fuel, (N <= fuel)%nat -> exists ps bs, split_items e fuel r by_book by_chap num fl = Ok ps /\ split_items e fuel r true false None fl = Ok bs /\
    forall l, Permutation (items l) ps -> exists g, merge e fl' l = Ok g /\ items g = bs.
Proof.
  intros e fl fl' r bb bc num Hwf Ht Hz Hn Hm Hb. destruct (split_set e fl r bb bc num Hwf Ht Hn) as (N1 & H1).
  destruct (split_set e fl r true false None Hwf Ht) as (N2 & H2); [discriminate|]. exists (N1 + N2)%nat. intros fuel Hf.
  destruct (H1 fuel) as (ps & ls & l & E & L & S & O & _); [lia|]. destruct (H2 fuel) as (bs & ks & m & E2 & L2 & S2 & O2 & Vm & Pm & F2); [lia|].
  exists ps, bs. split; [exact E|]. split; [exact E2|]. intros g Pg. rewrite <- Hz in L, S, L2, S2, F2, Vm.
  assert (M1 : mergeable e fl' (items g)) by (right; apply Forall_forall; intros x Ix; assert (B : Forall one_book_range ps) by (apply O; tauto); rewrite Forall_forall in B; apply B; apply (Permutation_in x Pg Ix)).
  assert (M2 : mergeable e fl' bs) by (right; apply O2; now left).
  assert (LG : legal_list e (zero_on e fl') (items g)) by (apply Forall_forall; intros x Ix; rewrite Forall_forall in L; apply L; apply (Permutation_in x Pg Ix)).
  assert (SV : same_verses (ed e) (zero_on e fl') (items g) bs) by (intros v Hv; rewrite (InL_perm _ v _ _ Pg), (S v Hv); symmetry; apply (S2 v Hv)).
  assert (C : canonical e fl' bs).
  { apply (books_canonical e (zero_on e fl') fl' bs ks Hwf Hm F2); [rewrite (part_concat _ _ _ _ _ Pm); now apply (verses_of_seg e _ r)|].
    intros ls1 p q ls2 Hq. destruct (part_break _ _ _ _ _ Pm ls1 p q ls2 Hq) as [(_ & Q)|[(Q & _)|Q]]; [exact Q|discriminate|discriminate]. }
  destruct (merged_ok e Hwf fl' g) as (k & K1 & _ & _ & CL & CM & CC & CS); [eapply Forall_impl; [|exact LG]; intros x Wx; apply (wf_range_mono e _ x Wx)|exact M1|].
  exists k. split; [exact K1|]. apply (canonical_unique e Hwf fl'); auto. intros v Hv. rewrite (CS v Hv). apply (SV v Hv).
Qed.
Lemma sum_perm : forall l m, Permutation l m -> fold_right Z.add 0 l = fold_right Z.add 0 m.
Proof. intros l m P. induction P; cbn [fold_right]; lia. Qed.
(** The counts of the verses of the pieces add up, for ranges that are legal under the global flags. *)
Theorem C88_count_partial : forall e fl fl' r by_book by_chap num, wf_data (ed e) -> wf_range (ed e) (verse0 (eg e)) r -> zero_on e fl = verse0 (eg e) ->
  (forall n, num = Some n -> 1 <= n) ->
  exists N, forall fuel, (N <= fuel)%nat -> exists ps n, split_items e fuel r by_book by_chap num fl = Ok ps /\ verse_count e r fl' = Ok n /\
    forall l, Permutation (items l) ps -> l_verse_count e l fl' = Ok n.
Proof.
  intros e fl fl' r bb bc num Hwf Hr Hz Hn. pose proof (wf_range_mono e _ r Hr) as Ht. destruct (split_set e fl r bb bc num Hwf Ht Hn) as (N & H). exists N. intros fuel Hf.
  destruct (H fuel Hf) as (ps & ls & l & E & L & _ & _ & V & P & F).
  assert (Z : split_zero0 e r fl = verse0 (eg e)).
  { unfold split_zero0. rewrite Hz. destruct (verse0 (eg e)) eqn:Ez; [reflexivity|]. cbn [orb]. destruct Hr as (A & B & _). apply (InB_false_verse e) in A; apply (InB_false_verse e) in B.
    destruct A as (_ & A). destruct B as (_ & B). apply Z.eqb_neq in A. apply Z.eqb_neq in B. now rewrite A, B. }
  rewrite Z in *. exists ps, (zlen l). split; [exact E|]. split; [apply C11_verse_count; auto; rewrite legal_zero; auto|].
  intros g Pg. destruct (Permutation_Forall2 (Permutation_sym Pg) F) as (ks & Pk & Fk).
  rewrite (C11_list_verse_count e g fl' ks Hwf).
  - f_equal. rewrite <- (part_concat _ _ _ _ _ P). rewrite <- (sum_perm _ _ (Permutation_map zlen Pk)). clear. induction ls as [|a ls IH]; [reflexivity|].
    cbn [map fold_right concat]. rewrite IH. unfold zlen. rewrite app_length. lia.
  - assert (LG : legal_list e (verse0 (eg e)) (items g)) by (apply Forall_forall; intros x Ix; rewrite Forall_forall in L; apply L; apply (Permutation_in x Pg Ix)).
    clear -Fk LG. induction Fk as [|p k ps ks V F IH]; constructor; inversion LG; subst; auto. rewrite legal_zero; auto.
Qed.
(** Without its hypotheses the claim is false: a range over two books is not rejoined without MULTIBOOK, and pieces that lie in two books are not merged at all;
    and of a range that begins with a verse 0 the pieces are neither rejoined without ALLOW_VERSE_0, nor do their counts add up. *)
Definition rejoin e fl r bb bc num := ps <- split_items e 99 r bb bc num fl ;; merge e fl [ps].
Theorem C88_refuted : exists e r q, wf_data (ed e) /\ wf_range (ed e) false r /\ wf_range (ed e) true q /\
  rejoin e None r true false None = Ok [[R (rstart r) (V Gen 50 26)]; [R (V Exod 1 1) (rend r)]] /\
  rejoin e None r false false (Some 2) = Err Multibook /\
  rejoin e None q false true None = Ok [[R (rstart q) (V Psa 3 8)]; [R (V Psa 4 0) (rend q)]] /\
  verse_count e q None = Ok 12 /\ (ps <- split_items e 99 q false false (Some 7) None ;; l_verse_count e [ps] None) = Ok 11.
Proof.
  exists (denv NONE), (R (V Gen 50 26) (V Exod 1 3)), (R (V Psa 3 0) (V Psa 4 2)).
  split; [exact default_wf|]. split; [wf_range|]. split; [wf_range|]. vm_compute. auto.
Qed.
Example C88_ex : let e := denv NONE in let r := R (V Gen 50 24) (V Exod 2 3) in let f := Some MULTIBOOK in
  wf_range (ed e) true r /\ zero_on e f = split_zero0 e r f /\
  rejoin e f r true true (Some 7) = Ok [[r]] /\
  split_items e 99 r true true (Some 7) f =
    Ok [R (V Gen 50 24) (V Gen 50 26); R (V Exod 1 1) (V Exod 1 7); R (V Exod 1 8) (V Exod 1 14); R (V Exod 1 15) (V Exod 1 21); R (V Exod 1 22) (V Exod 1 22); R (V Exod 2 1) (V Exod 2 3)] /\
  merge e None [[R (V Exod 1 15) (V Exod 1 21); R (V Gen 50 24) (V Gen 50 26)]; [R (V Exod 2 1) (V Exod 2 3)]; [R (V Exod 1 22) (V Exod 1 22); R (V Exod 1 8) (V Exod 1 14)]; [R (V Exod 1 1) (V Exod 1 7)]] =
    Ok [[R (V Gen 50 24) (V Gen 50 26)]; [R (V Exod 1 1) (V Exod 2 3)]] /\
  split_items e 99 r true false None f = Ok [R (V Gen 50 24) (V Gen 50 26); R (V Exod 1 1) (V Exod 2 3)] /\
  verse_count e r None = Ok 28.
Proof. cbv zeta. split; [wf_range|]. vm_compute. auto 10. Qed.
