(** * PMerge2: [merge] on all lists: when it fails, and what it returns otherwise. *)
From Coq Require Import List ZArith Bool Lia Sorted Permutation.
From Verif Require Import Base Books Data MVerse MRange Spec PList PCore PNav PVerse PRange
  PSetOps PSetSpec MSeq MList PSort SpecList PRegroup PMerge.
Import ListNotations.
Import Spec.
Open Scope Z_scope.

Lemma perm_pair : forall {A} (c : A) l a b r, Permutation (c :: l) (a :: b :: r) ->
  (exists y l', Permutation l (y :: l') /\ ((a = c /\ b = y) \/ (b = c /\ a = y))) \/
  (exists r', Permutation l (a :: b :: r')).
Proof.
  intros A c l a b r P. assert (Hc : In c (a :: b :: r)) by (eapply Permutation_in; [exact P|now left]).
  destruct Hc as [->|[->|Hc]].
  - left. exists b, r. split; [now apply Permutation_cons_inv in P|auto].
  - left. exists a, r. split; [|auto]. eapply Permutation_cons_inv. rewrite P. apply perm_swap.
  - right. apply in_split in Hc. destruct Hc as (r1 & r2 & ->). exists (r1 ++ r2).
    eapply Permutation_cons_inv. rewrite P. change (a :: b :: r1 ++ c :: r2) with ((a :: b :: r1) ++ c :: r2).
    rewrite <- Permutation_middle. reflexivity.
Qed.

Section Merge2.
Variable e : env.
Notation d := (ed e).
Hypothesis Hwf : wf_data d.
Notation pos := (pos e).
Notation zf fl := (zero_on e fl).
Notation wft := (wf_range d true).

Lemma touching_sym : forall fl a b, touching e fl a b -> touching e fl b a.
Proof. intros fl a b [(v & H1 & H2)|[H|H]]; [left; exists v; auto|right; now right|right; now left]. Qed.

Lemma clash_perm : forall fl l m, Permutation l m -> clash e fl l -> clash e fl m.
Proof.
  intros fl l m P (Hm & a & b & r & Q & H). split; [exact Hm|]. exists a, b, r. split; [|exact H].
  rewrite <- Q. now symmetry.
Qed.
Lemma clash_cons : forall fl x l, clash e fl l -> clash e fl (x :: l).
Proof.
  intros fl x l (Hm & a & b & r & Q & H). split; [exact Hm|]. exists a, b, (x :: r). split; [|exact H].
  rewrite Q. rewrite perm_swap. apply perm_skip. apply perm_swap.
Qed.
Lemma mergeable_no_clash : forall fl l, mergeable e fl l -> ~ clash e fl l.
Proof.
  intros fl l [H|H] (Hm & a & b & r & P & _ & Hn); [congruence|]. apply Hn.
  apply (Permutation_Forall P) in H. inversion H as [|? ? H1 H2]; subst. inversion H2; auto.
Qed.

Lemma hull_end : forall a b, wft a -> wft b -> (rend (hull e a b) = rend a \/ rend (hull e a b) = rend b).
Proof. intros a b _ _. unfold hull, vmax. cbn. destruct (vltb e (rend a) (rend b)); auto. Qed.
Lemma hull_one_book : forall a b, wft a -> wft b -> one_book_range (hull e a b) -> one_book_range a /\ one_book_range b.
Proof.
  intros a b Ha Hb H. assert (Hh : wft (hull e a b)) by now apply hull_wf.
  assert (In4 : forall v, InR d v a \/ InR d v b -> InR d v (hull e a b)).
  { intros v Hv. apply (InR_hull e Hwf); auto. destruct Hv as [Hv|Hv]; apply (InR_pos e Hwf) in Hv; split; try tauto; lia. }
  split; unfold one_book_range; apply (one_book_in e Hwf (hull e a b)); auto; apply In4;
    try (left; now apply (InR_start e Hwf)); try (left; now apply (InR_end e Hwf));
    try (right; now apply (InR_start e Hwf)); try (right; now apply (InR_end e Hwf)).
Qed.

(** What touches a part of a hull touches the hull. *)
Lemma touching_part : forall fl c h y, wf_range d (zf fl) c -> wf_range d (zf fl) h -> wf_range d (zf fl) y ->
  pos (rstart h) <= pos (rstart c) -> pos (rend c) <= pos (rend h) -> pos (rstart h) <= pos (rstart y) ->
  touching e fl c y -> touching e fl h y.
Proof.
  intros fl c h y Hc Hh Hy H1 H2 H3 Ht.
  pose proof (wf_range_mono e _ _ Hc) as Tc. pose proof (wf_range_mono e _ _ Hh) as Th. pose proof (wf_range_mono e _ _ Hy) as Ty.
  pose proof Hc as (_ & C2 & _). pose proof Hh as (_ & B2 & _). pose proof Hy as (Y1 & Y2 & _).
  pose proof Tc as Pc. apply (wf_range_pos e Hwf) in Pc. pose proof Ty as Py. apply (wf_range_pos e Hwf) in Py.
  destruct Ht as [Ho|[J|J]].
  - left. apply (overlap_pos e Hwf) in Ho; auto. apply (overlap_pos e Hwf); auto. unfold disjb in *.
    rewrite orb_false_iff, !Z.ltb_ge in *. lia.
  - destruct (Z.eq_dec (pos (rend c)) (pos (rend h))) as [E|E].
    + right. left. unfold joins in *. replace (rend h) with (rend c); [exact J|]. apply (pos_eq e); auto; [apply Tc|apply Th].
    + left. apply (overlap_pos e Hwf); auto. unfold disjb. rewrite orb_false_iff, !Z.ltb_ge.
      destruct J as (F & _). rewrite (zero_track e Hwf) in F by exact C2.
      pose proof (succ_split e Hwf _ _ _ (rend h) F B2). lia.
  - apply (joins_lt e Hwf) in J. left. apply (overlap_pos e Hwf); auto. unfold disjb. rewrite orb_false_iff, !Z.ltb_ge. lia.
Qed.

(** What touches a hull and begins after both parts touches one of them. *)
Lemma touching_hull_part : forall fl a b y, wft a -> wft b -> wft y ->
  pos (rstart a) <= pos (rstart b) -> pos (rstart b) <= pos (rstart y) ->
  touching e fl (hull e a b) y -> touching e fl a y \/ touching e fl b y.
Proof.
  intros fl a b y Ha Hb Hy H1 H2 Ht. assert (Hh : wft (hull e a b)) by now apply hull_wf.
  pose proof (hull_start e Hwf a b Ha Hb H1) as Hs.
  pose proof Ha as Pa. apply (wf_range_pos e Hwf) in Pa. pose proof Hb as Pb. apply (wf_range_pos e Hwf) in Pb.
  pose proof Hy as Py. apply (wf_range_pos e Hwf) in Py.
  destruct Ht as [Ho|[J|J]].
  - apply (overlap_pos e Hwf) in Ho; auto. unfold disjb in Ho. rewrite orb_false_iff, !Z.ltb_ge in Ho.
    destruct (hull_end a b Ha Hb) as [E|E]; rewrite E in Ho; [left|right]; left; apply (overlap_pos e Hwf); auto;
      unfold disjb; rewrite orb_false_iff, !Z.ltb_ge; lia.
  - destruct (hull_end a b Ha Hb) as [E|E]; [left|right]; right; left; unfold joins in *; now rewrite E in J.
  - exfalso. apply (joins_lt e Hwf) in J. rewrite Hs in J. lia.
Qed.

Lemma merge_loop_any : forall fl rest cur, Forall wft (cur :: rest) ->
  (forall x, In x rest -> pos (rstart cur) <= pos (rstart x)) ->
  StronglySorted (fun a b => rleb e a b = true) rest ->
  (exists h m, merge_loop e fl cur rest = Ok (h :: m) /\ rstart h = rstart cur /\
    (forall z, Forall (wf_range d z) (cur :: rest) -> Forall (wf_range d z) (h :: m)) /\
    canonical e fl (h :: m) /\ same_verses d (zf fl) (h :: m) (cur :: rest) /\
    (Forall (wf_range d (zf fl)) (cur :: rest) -> ~ clash e fl (cur :: rest))) \/
  (merge_loop e fl cur rest = Err Multibook /\ clash e fl (cur :: rest)).
Proof.
  intros fl. induction rest as [|x rest IH]; intros cur Hw Hs Hsort.
  - left. exists cur, []. cbn [merge_loop]. split; [reflexivity|]. split; [reflexivity|]. split; [auto|].
    split; [repeat constructor|]. split; [intros v _; reflexivity|]. intros _ (_ & a & b & r & P & _).
    apply Permutation_length in P. discriminate.
  - inversion Hw as [|? ? Hc Hw']; subst. inversion Hw' as [|? ? Hx Hw'']; subst.
    inversion Hsort as [|? ? Hsort' Hfx]; subst.
    assert (Hle : pos (rstart cur) <= pos (rstart x)) by (apply Hs; now left).
    assert (Hxr : forall y, In y rest -> pos (rstart x) <= pos (rstart y)).
    { intros y Hy. rewrite Forall_forall in Hfx, Hw''. specialize (Hfx y Hy). apply (rleb_pos e Hwf) in Hfx; auto. lia. }
    cbn [merge_loop]. destruct (union_cases e Hwf cur x fl Hc Hx) as [(Ht & E)|(Ht & E)]; rewrite E; cbn [bind].
    + destruct (negb (multi_on e fl) && _) eqn:Em.
      * right. split; [reflexivity|]. apply multi_test in Em. destruct Em as (Em & En). split; [exact Em|].
        exists cur, x, rest. split; [reflexivity|]. split; [exact Ht|]. intros Hob.
        destruct (touching_hull_book e Hwf fl cur x Hc Hx Ht (or_intror Hob)) as [K|K]; [congruence|]. now apply En.
      * cbn [bind]. assert (Hob : multi_on e fl = true \/ one_book_range (hull e cur x)).
        { destruct (multi_on e fl) eqn:Emm; [now left|right]. cbn in Em. apply negb_false_iff in Em.
          apply book_eqb_eq in Em. exact Em. }
        assert (Hh : wft (hull e cur x)) by (now apply hull_wf).
        pose proof (hull_start e Hwf cur x Hc Hx Hle) as Hhs.
        destruct (IH (hull e cur x)) as [(h & m & Eo & E1 & E2 & E4 & E5 & E6)|(Eo & Hcl)].
        -- constructor; auto.
        -- intros y Hy. rewrite Hhs. apply Hs. now right.
        -- exact Hsort'.
        -- left. exists h, m. split; [exact Eo|]. split; [congruence|]. split.
           { intros z Hz. apply E2. inversion Hz as [|? ? Z1 Z2]; subst. inversion Z2; subst. constructor; auto. now apply hull_wf. }
           split; [exact E4|]. split.
           { intros v Hv. rewrite (E5 v Hv), !InL_cons, (hull_sound e Hwf fl cur x v) by auto. tauto. }
           intros Hz Hcl. inversion Hz as [|? ? Z1 Z2]; subst. inversion Z2 as [|? ? Z3 Z4]; subst.
           assert (Zh : wf_range d (zf fl) (hull e cur x)) by now apply hull_wf.
           apply E6; [constructor; auto|]. destruct Hcl as (Hm & a & b & r & P & Htab & Hnb). split; [exact Hm|].
           destruct Hob as [Hob|Hob]; [congruence|]. destruct (hull_one_book cur x Hc Hx Hob) as (O1 & O2).
           assert (Hpart : forall c y, (c = cur \/ c = x) -> In y rest -> touching e fl c y -> touching e fl (hull e cur x) y).
           { intros c y Hcc Hy T. rewrite Forall_forall in Z4.
             assert (Hrange : pos (rstart (hull e cur x)) <= pos (rstart c) /\ pos (rend c) <= pos (rend (hull e cur x))).
             { pose proof (InR_hull e Hwf (rstart c) cur x Hc Hx). pose proof (InR_hull e Hwf (rend c) cur x Hc Hx).
               assert (Wc : wft c) by (destruct Hcc; subst; auto). pose proof Wc as Wc'. apply (wf_range_pos e Hwf) in Wc'.
               assert (H1 : InR d (rstart c) (hull e cur x)) by (apply H; split; [tauto|]; destruct Hcc; subst; lia).
               assert (H2 : InR d (rend c) (hull e cur x)) by (apply H0; split; [tauto|]; destruct Hcc; subst; lia).
               apply (InR_pos e Hwf) in H1, H2. lia. }
             apply (touching_part fl c); auto; try tauto.
             - destruct Hcc; subst; auto.
             - rewrite Hhs. apply Hs. now right. }
           assert (Hy_in : forall y l', Permutation rest (y :: l') -> In y rest).
           { intros y l' Q. eapply Permutation_in; [symmetry; exact Q|now left]. }
           apply perm_pair in P. destruct P as [(y & l' & P & Hy)|(r' & P)].
           ++ (* one of the two is [cur] *)
              assert (Hyy : y = x \/ In y rest).
              { assert (In y (x :: rest)) by (eapply Permutation_in; [symmetry; exact P|now left]). destruct H; auto. }
              destruct Hyy as [->|Hyr].
              { exfalso. apply Hnb. destruct Hy as [(-> & ->)|(-> & ->)]; auto. }
              assert (Ty : touching e fl cur y) by (destruct Hy as [(-> & ->)|(-> & ->)]; [auto|now apply touching_sym]).
              assert (Ny : ~ one_book_range y) by (destruct Hy as [(-> & ->)|(-> & ->)]; intros K; apply Hnb; auto).
              apply in_split in Hyr. destruct Hyr as (r1 & r2 & ->). exists (hull e cur x), y, (r1 ++ r2).
              split; [apply perm_skip; now rewrite <- Permutation_middle|].
              split; [apply (Hpart cur); auto; apply in_or_app; right; now left|tauto].
           ++ apply perm_pair in P. destruct P as [(y & l' & P & Hy)|(r'' & P)].
              ** pose proof (Hy_in y l' P) as Hyr.
                 assert (Ty : touching e fl x y) by (destruct Hy as [(-> & ->)|(-> & ->)]; [auto|now apply touching_sym]).
                 assert (Ny : ~ one_book_range y) by (destruct Hy as [(-> & ->)|(-> & ->)]; intros K; apply Hnb; auto).
                 exists (hull e cur x), y, l'. split; [now apply perm_skip|]. split; [apply (Hpart x); auto|tauto].
              ** exists a, b, (hull e cur x :: r''). split; [|auto]. rewrite P. rewrite perm_swap. apply perm_skip. apply perm_swap.
        -- right. split; [exact Eo|]. destruct Hcl as (Hm & a & b & r & P & Htab & Hnb). split; [exact Hm|].
           destruct Hob as [Hob|Hob]; [congruence|].
           apply perm_pair in P. destruct P as [(y & l' & P & Hy)|(r' & P)].
           ++ assert (Hyr : In y rest) by (eapply Permutation_in; [symmetry; exact P|now left]).
              assert (Ty : touching e fl (hull e cur x) y) by (destruct Hy as [(-> & ->)|(-> & ->)]; [auto|now apply touching_sym]).
              assert (Ny : ~ one_book_range y) by (destruct Hy as [(-> & ->)|(-> & ->)]; intros K; apply Hnb; auto).
              assert (Wy : wft y) by (rewrite Forall_forall in Hw''; auto).
              destruct (touching_hull_part fl cur x y Hc Hx Wy Hle (Hxr y Hyr) Ty) as [T|T].
              ** exists cur, y, (x :: l'). split; [rewrite P; apply perm_skip; apply perm_swap|tauto].
              ** exists x, y, (cur :: l'). split; [|tauto]. rewrite P. rewrite perm_swap. apply perm_skip. apply perm_swap.
           ++ exists a, b, (cur :: x :: r'). split; [|auto]. rewrite P.
              change (cur :: x :: a :: b :: r') with ([cur; x] ++ [a; b] ++ r').
              change (a :: b :: cur :: x :: r') with ([a; b] ++ [cur; x] ++ r'). apply Permutation_app_swap_app.
    + assert (Hsx : separate e fl cur x) by now apply (separate_of e Hwf).
      replace (match (if pos (rstart cur) <? pos (rstart x) then [cur; x] else [x; cur]) with
               | [h] => merge_loop e fl h rest
               | _ => m <- merge_loop e fl x rest ;; Ok (cur :: m)
               end) with (m <- merge_loop e fl x rest ;; Ok (cur :: m)) by (destruct (pos (rstart cur) <? pos (rstart x)); reflexivity).
      destruct (IH x) as [(h & m & Eo & E1 & E2 & E4 & E5 & E6)|(Eo & Hcl)]; auto; rewrite Eo; cbn [bind].
      * left. exists cur, (h :: m). split; [reflexivity|]. split; [reflexivity|].
        assert (Hwh : Forall wft (h :: m)) by (apply E2; auto).
        split.
        { intros z Hz. inversion Hz; subst. constructor; auto. }
        assert (Hsh : separate e fl cur h) by (eapply (separate_start e); [symmetry; exact E1|exact Hsx]).
        split.
        { constructor; [exact E4|]. constructor; [exact Hsh|]. inversion E4 as [|? ? _ F4]; subst.
          inversion Hwh as [|? ? W1 W2]; subst. rewrite Forall_forall in *. intros y Hy.
          eapply (separate_trans e Hwf); [exact Hc|exact W1|apply W2; exact Hy|exact Hsh|apply F4; exact Hy]. }
        split.
        { intros v Hv. rewrite InL_cons, (E5 v Hv), <- InL_cons. reflexivity. }
        intros Hz Hcl. inversion Hz as [|? ? Z1 Z2]; subst. apply E6; [exact Z2|].
        destruct Hcl as (Hm & a & b & r & P & Htab & Hnb). split; [exact Hm|].
        apply perm_pair in P. destruct P as [(y & l' & P & Hy)|(r' & P)]; [exfalso|exists a, b, r'; auto].
        assert (Hyr : In y (x :: rest)) by (eapply Permutation_in; [symmetry; exact P|now left]).
        assert (Ty : touching e fl cur y) by (destruct Hy as [(-> & ->)|(-> & ->)]; [auto|now apply touching_sym]).
        assert (Hxy : pos (rstart x) <= pos (rstart y)) by (destruct Hyr as [<-|Hyr]; [lia|auto]).
        destruct Hsx as (Hlt & Hnj). apply (vlt_pos e Hwf) in Hlt.
        assert (Wy : wft y) by (rewrite Forall_forall in Hw'; auto). pose proof Wy as Py. apply (wf_range_pos e Hwf) in Py.
        pose proof Hc as Pc. apply (wf_range_pos e Hwf) in Pc.
        destruct Ty as [Ho|[J|J]].
        -- apply (overlap_pos e Hwf) in Ho; auto. unfold disjb in Ho. rewrite orb_false_iff, !Z.ltb_ge in Ho. lia.
        -- apply Hnj. pose proof J as (F & Hbk). unfold joins in *.
           destruct Z1 as (_ & Z12 & _). inversion Z2 as [|? ? (Z21 & _) _]; subst.
           pose proof F as F'. rewrite (zero_track e Hwf) in F' by exact Z12.
           pose proof (succ_split e Hwf _ _ _ (rstart x) F' Z21).
           replace (rstart x) with (rstart y); [exact J|]. apply (pos_eq e); try tauto. lia.
        -- apply (joins_lt e Hwf) in J. lia.
      * right. split; [reflexivity|]. now apply clash_cons.
Qed.

Lemma merge_any : forall fl l, Forall wft (items l) ->
  (exists g, merge e fl l = Ok g /\ nonempty_groups g /\ regroup e None g = Ok g /\
    (forall z, Forall (wf_range d z) (items l) -> Forall (wf_range d z) (items g)) /\
    canonical e fl (items g) /\ same_verses d (zf fl) (items g) (items l) /\
    (Forall (wf_range d (zf fl)) (items l) -> ~ clash e fl (items l))) \/
  (merge e fl l = Err Multibook /\ clash e fl (items l)).
Proof.
  intros fl l Hw. unfold merge, merge_items. destruct (sort_ok e Hwf (items l) Hw) as (P & S & _).
  fold (sorted_l e (items l)). pose proof (Permutation_sym P) as P'.
  assert (HwS : Forall wft (sorted_l e (items l))) by (eapply Permutation_Forall; eauto).
  assert (Hend : forall m, (forall z, Forall (wf_range d z) (items l) -> Forall (wf_range d z) m) -> canonical e fl m ->
     same_verses d (zf fl) m (items l) -> (Forall (wf_range d (zf fl)) (items l) -> ~ clash e fl (items l)) ->
     exists g, regroup e None (one_group m) = Ok g /\ nonempty_groups g /\ regroup e None g = Ok g /\
    (forall z, Forall (wf_range d z) (items l) -> Forall (wf_range d z) (items g)) /\
    canonical e fl (items g) /\ same_verses d (zf fl) (items g) (items l) /\
    (Forall (wf_range d (zf fl)) (items l) -> ~ clash e fl (items l))).
  { intros m W C Sv Nc. destruct (regroup_none e Hwf (one_group m)) as (g & Eg & Ig & Ng & Rg).
    { rewrite items_one_group. now apply W. }
    rewrite items_one_group in Ig. exists g. rewrite Ig. repeat split; auto; now apply Sv. }
  destruct (sorted_l e (items l)) as [|x xs] eqn:E.
  - left. cbn [bind]. apply Hend; auto.
    + constructor.
    + intros v _. rewrite (InL_perm e _ _ v P). reflexivity.
    + intros _ (_ & a & b & r & Q & _). apply Permutation_nil in P. rewrite P in Q. apply Permutation_length in Q. discriminate.
  - inversion S as [|? ? S1 S2]; subst. inversion HwS as [|? ? W1 W2]; subst.
    destruct (merge_loop_any fl xs x) as [(h & m & Em & E1 & E2 & E4 & E5 & E6)|(Em & Hcl)]; auto.
    { intros y Hy. rewrite Forall_forall in *. specialize (S2 y Hy). apply (rleb_pos e Hwf) in S2; auto. lia. }
    + left. rewrite Em. cbn [bind]. apply Hend; auto.
      * intros z Hz. apply E2. eapply Permutation_Forall; eauto.
      * intros v Hv. rewrite (E5 v Hv). now apply InL_perm.
      * intros Hz Hcl. apply E6; [eapply Permutation_Forall; eauto|]. eapply clash_perm; eauto.
    + right. rewrite Em. split; [reflexivity|]. eapply clash_perm; eauto.
Qed.
End Merge2.
