(** * PropOps: the operators of verses, ranges and lists (C58). *)
From Coq Require Import List ZArith Bool Lia.
From Verif Require Import Base Books Data DefaultData MVerse MRange MSeq MList MOps Spec PList PCore PNav PVerse PRange PDefault SpecList PListOps
  PropVerse PropRange PropUnit PropList.
Import ListNotations.
Import Spec.
Open Scope Z_scope.

Theorem C58_add : forall e v i, wf_data (ed e) -> InB (ed e) true v -> at_pos (track e None v) i v ->
  (forall n, 0 <= n -> op_add e v (OInt n) = Ok (nth_error (track e None v) (i + Z.to_nat n))) /\
  (forall n, n < 0 -> op_add e v (OInt n) = if vverse v + n <? first_num (ed e) (track0 e None v) (vbook v) (vchap v)
                                          then Err InvalidRef else Ok (Some (V (vbook v) (vchap v) (vverse v + n)))) /\
  (forall w, op_add e v (OVerse w) = Err TypeErr) /\ op_add e v OOther = Err TypeErr.
Proof.
  intros e v i W Hv Hi. split; [|split; [|split]]; auto.
  - intros n Hn. now apply C04_add.
  - intros n Hn. now apply C04_add_negative.
Qed.
Theorem C58_subtract : forall e v,
  (forall n w, subtract e v n None = Ok w <-> op_sub e v (OInt n) = Ok (GotVerse w)) /\
  (forall n x, subtract e v n None = Err x <-> op_sub e v (OInt n) = Err x) /\
  (forall w n, subtract_verse e v w None = Ok n <-> op_sub e v (OVerse w) = Ok (GotInt n)) /\
  (forall w x, subtract_verse e v w None = Err x <-> op_sub e v (OVerse w) = Err x) /\ op_sub e v OOther = Err TypeErr.
Proof.
  intros e v. unfold op_sub. split; [|split; [|split; [|split]]]; auto; intros a b; [destruct (subtract e v a None)|destruct (subtract e v a None)|
    destruct (subtract_verse e v a None)|destruct (subtract_verse e v a None)]; cbn; split; intros H; congruence.
Qed.
Theorem C58_distance : forall e v w i j, wf_data (ed e) ->
  at_pos (bible_verses (ed e) (dist_zero e v w)) i v -> at_pos (bible_verses (ed e) (dist_zero e v w)) j w ->
  (multi_on e None = true \/ vbook v = vbook w -> op_sub e v (OVerse w) = Ok (GotInt (Z.of_nat i - Z.of_nat j))) /\
  (multi_on e None = false -> vbook v <> vbook w -> op_sub e v (OVerse w) = Err Multibook).
Proof.
  intros e v w i j W Hi Hj. unfold op_sub. split; intros H.
  - now rewrite (C07_distance_partial e v w None i j W Hi Hj H).
  - intros Hb. now rewrite C07_multibook.
Qed.
Theorem C58_in_range : forall e a x, wf_data (ed e) -> wf_range (ed e) true a -> legal_list e true (ref_list x) ->
  exists b, op_in e x a = Ok b /\ (b = true <-> forall v, InL (ed e) v (ref_list x) -> InR (ed e) v a).
Proof. intros e a x. apply C47_contains. Qed.
Theorem C58_range : forall e a b, wf_data (ed e) ->
  (forall l, union e a b None = Ok l -> exists g, op_or e a (BR b) = Ok g /\ items g = l) /\
  (forall l, intersection e a b None = Ok l -> exists g, op_and e a (BR b) = Ok g /\ items g = l) /\
  (forall l, difference e a b None = Ok l -> exists g, op_minus e a (BR b) = Ok g /\ items g = l) /\
  (forall l, sym_difference e a b None = Ok l -> exists g, op_xor e a (BR b) = Ok g /\ items g = l) /\
  (forall x, union e a b None = Err x -> op_or e a (BR b) = Err x) /\ (forall x, intersection e a b None = Err x -> op_and e a (BR b) = Err x) /\
  (forall x, difference e a b None = Err x -> op_minus e a (BR b) = Err x) /\ (forall x, sym_difference e a b None = Err x -> op_xor e a (BR b) = Err x).
Proof.
  intros e a b _. unfold op_or, op_and, op_minus, op_xor, r_union, r_intersection, r_difference, r_sym_difference.
  repeat split; intros l ->; cbn [bind]; try reflexivity; eexists; (split; [reflexivity|apply items_of_items]).
Qed.
Theorem C58_references : forall e a x, op_or e a x = r_union e a x None /\ op_and e a x = r_intersection e a x None /\
  op_minus e a x = r_difference e a x None /\ op_xor e a x = r_sym_difference e a x None.
Proof. intros. repeat split. Qed.
Theorem C58_list : forall e n l x, op_l_in e x l = l_contains e l x None /\ op_l_or e l x = l_union e l x None /\
  op_l_and e l x = l_intersection e l x None /\ op_l_minus e n l x = l_difference e n l x None /\ op_l_xor e n l x = l_sym_difference e n l x None.
Proof. intros. repeat split. Qed.
Example C58_ex : let e := denv NONE in InB default_data true (V Gen 1 30) /\
  op_add e (V Gen 1 30) (OInt 3) = Ok (Some (V Gen 2 2)) /\ op_sub e (V Gen 2 2) (OInt 3) = Ok (GotVerse (Some (V Gen 1 30))) /\
  op_sub e (V Gen 2 2) (OVerse (V Gen 1 30)) = Ok (GotInt 3) /\ op_add e (V Gen 1 30) (OVerse (V Gen 1 30)) = Err TypeErr /\
  op_in e (BV (V Gen 1 30)) (R (V Gen 1 2) (V Gen 2 2)) = Ok true /\
  op_or e (R (V Gen 1 2) (V Gen 1 3)) (BR (R (V Gen 1 4) (V Gen 1 5))) = Ok [[R (V Gen 1 2) (V Gen 1 5)]] /\
  op_minus e (R (V Gen 1 2) (V Gen 1 5)) (BV (V Gen 1 4)) = Ok [[R (V Gen 1 2) (V Gen 1 3); R (V Gen 1 5) (V Gen 1 5)]] /\
  op_l_and e [[R (V Gen 1 2) (V Gen 1 5)]] (BV (V Gen 1 4)) = Ok [[R (V Gen 1 4) (V Gen 1 4)]].
Proof. split; [in_bible|]. vm_compute. auto 20. Qed.
