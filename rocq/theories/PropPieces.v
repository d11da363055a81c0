(** * PropPieces: the places of pieces of equal size (C90). *)
From Coq Require Import List ZArith Bool Lia Sorted.
From Verif Require Import Base Books Chars Regex Data DefaultData MVerse MRange MSeq MList Spec SpecList PList PCore PVerse PRange PSetOps PSplit PTerm PDefault PropVerse PropRange PropJoin.
Import ListNotations.
Open Scope Z_scope.

(** All lists but the last have [n] elements. *)
Lemma chunks : forall {A} n (ls : list (list A)), (forall ls1 p q ls2, ls = ls1 ++ p :: q :: ls2 -> length p = n) -> Forall (fun p => p <> [] /\ (length p <= n)%nat) ls -> 
  forall k p, nth_error ls k = Some p -> exists a b, concat ls = a ++ p ++ b /\ length a = (k * n)%nat /\ (b = [] \/ length p = n) /\ (S k = length ls -> b = []).
Proof.
  intros A n. induction ls as [|x ls IH]; intros H F k p E; [destruct k; discriminate|]. inversion F as [|? ? _ F']; subst. destruct k as [|k]; cbn [nth_error] in E.
  - injection E as ->. exists [], (concat ls). split; [reflexivity|]. split; [reflexivity|]. destruct ls as [|q ls]; [auto|]. split; [right; now apply (H [] p q ls)|]. cbn [length]. lia.
  - destruct ls as [|q ls]; [destruct k; discriminate|].
    destruct (IH) with (k := k) (p := p) as (a & b & C & L & Q & Z); auto; [intros ls1 p' q' ls2 E'; apply (H (x :: ls1) p' q' ls2); now rewrite E'|].
    exists (x ++ a), b. split; [cbn [concat]; cbn [concat] in C; now rewrite C, app_assoc|]. split; [rewrite app_length, (H [] x q ls eq_refl); cbn; lia|]. split; [exact Q|]. cbn [length] in *. intros X. apply Z. lia.
Qed.
Lemma at_mid : forall {A} (a : list A) x b, at_pos (a ++ x :: b) (length a) x.
Proof. intros A a x b. unfold at_pos. rewrite nth_error_app2 by lia. now rewrite Nat.sub_diag. Qed.
Lemma last_of : forall {A} (l : list A) x, hd_error (rev l) = Some x -> exists m, l = m ++ [x].
Proof. intros A l x H. destruct (rev l) as [|y m] eqn:E; [discriminate|]. injection H as ->. exists (rev m). rewrite <- (rev_involutive l), E. reflexivity. Qed.

(** ** C90 *)
(** The [k]-th piece of [split(num_verses=n)] begins [k*n] verses after the start of the range and ends [n-1] verses later, or with the range. *)
Theorem C90_pieces : forall e fl r n i j, wf_data (ed e) -> wf_range (ed e) true r -> 1 <= n ->
  at_pos (bible_verses (ed e) (split_zero0 e r fl)) i (rstart r) -> at_pos (bible_verses (ed e) (split_zero0 e r fl)) j (rend r) ->
  exists N, forall fuel, (N <= fuel)%nat -> exists ps, split_items e fuel r false false (Some n) fl = Ok ps /\
    Z.of_nat (length ps) = (Z.of_nat j - Z.of_nat i) / n + 1 /\
    forall k p, nth_error ps k = Some p ->
      at_pos (bible_verses (ed e) (split_zero0 e r fl)) (i + k * Z.to_nat n) (rstart p) /\
      at_pos (bible_verses (ed e) (split_zero0 e r fl)) (Nat.min (i + k * Z.to_nat n + Z.to_nat n - 1) j) (rend p).
Proof.
  intros e fl r n i j Hwf Ht Hn Hi Hj. destruct (split_set e fl r false false (Some n) Hwf Ht) as (N & H); [intros m [= <-]; exact Hn|]. exists N. intros fuel Hf.
  destruct (H fuel Hf) as (ps & ls & l & E & _ & _ & _ & V & P & F). exists ps. split; [exact E|]. clear H E. set (z := split_zero0 e r fl) in *.
  destruct V as ((l1 & l3 & B) & Hh & Hl). destruct l as [|v l]; [discriminate|]. injection Hh as ->. destruct (last_of _ _ Hl) as (l0 & El).
  assert (Li : length l1 = i). { apply (pos_inj e Hwf z _ _ (rstart r)); [rewrite B; apply at_mid|exact Hi]. }
  assert (Lj : (length l1 + length l0 = j)%nat). { rewrite <- app_length. apply (pos_inj e Hwf z _ _ (rend r)); [|exact Hj]. rewrite B, El. rewrite <- app_assoc, app_assoc. apply at_mid. }
  cbn [option_map] in P. set (m := Z.to_nat n) in *. pose proof (part_concat _ _ _ _ _ P) as C.
  assert (Lt : length (rstart r :: l) = S (length l0)) by (rewrite El, app_length; cbn; lia).
  assert (K := chunks m ls). assert (K1 : forall ls1 p q ls2, ls = ls1 ++ p :: q :: ls2 -> length p = m).
  { intros ls1 p q ls2 Q. destruct (part_break _ _ _ _ _ P _ _ _ _ Q) as [(X & _)|[(X & _)|X]]; try discriminate. now injection X. }
  assert (K2 : Forall (fun p => p <> [] /\ (length p <= m)%nat) ls).
  { pose proof (part_nonempty _ _ _ _ _ P) as X. pose proof (part_num _ _ _ _ _ P m eq_refl) as Y. rewrite Forall_forall in *. auto. }
  specialize (K K1 K2). assert (Lps : length ps = length ls) by (apply (PGroup.Forall2_length F)). split.
  - rewrite Lps. assert (Hls : ls <> []) by (intros ->; discriminate C). destruct (exists_last Hls) as (ls' & p & Ep).
    destruct (K (length ls') p) as (a & b & Cc & La & _ & Z); [rewrite Ep, nth_error_app2 by lia; now rewrite Nat.sub_diag|].
    rewrite Z in Cc by (rewrite Ep, app_length; cbn; lia). rewrite app_nil_r in Cc. rewrite Forall_forall in K2. destruct (K2 p) as (Np & Lp); [rewrite Ep; apply in_or_app; right; now left|].
    assert (Len : length (rstart r :: l) = (length ls' * m + length p)%nat) by (rewrite <- C, Cc, app_length, La; reflexivity).
    assert (Pp : (1 <= length p)%nat) by (destruct p; [congruence|cbn; lia]). rewrite Ep, app_length. cbn [length].
    assert (X : (Z.of_nat j - Z.of_nat i) / n = Z.of_nat (length ls')).
    { symmetry. apply Z.div_unique with (r := Z.of_nat (length p) - 1); [|]; unfold m in *; nia. }
    rewrite X. lia.
  - intros k p Ek. assert (X : exists lp, nth_error ls k = Some lp /\ verses_of (ed e) z p lp).
    { clear -F Ek. revert k Ek. induction F as [|p' lp ps ls Vp F IH]; intros k Ek; [destruct k; discriminate|]. destruct k as [|k]; [injection Ek as ->; exists lp; auto|]. now apply IH. }
    destruct X as (lp & El' & Vp). destruct (K k lp El') as (a & b & Cc & La & Q & _). destruct Vp as (_ & Sp & Ee).
    rewrite Forall_forall in K2. destruct (K2 lp) as (_ & Lp); [eapply nth_error_In; eauto|].
    destruct lp as [|v lp]; [discriminate|]. injection Sp as ->. destruct (last_of _ _ Ee) as (lq & Eq).
    assert (Bb : bible_verses (ed e) z = (l1 ++ a) ++ (rstart p :: lp) ++ b ++ l3) by (rewrite B, <- C, Cc, <- !app_assoc; reflexivity).
    split.
    + rewrite Bb. replace (i + k * m)%nat with (length (l1 ++ a)) by (rewrite app_length; lia). apply at_mid.
    + rewrite Bb. rewrite Eq in *. replace ((l1 ++ a) ++ (lq ++ [rend p]) ++ b ++ l3) with (((l1 ++ a) ++ lq) ++ rend p :: b ++ l3) by (now rewrite <- !app_assoc).
      assert (Lq : length (rstart r :: l) = (length a + (length lq + 1) + length b)%nat) by (rewrite <- C, Cc, !app_length; cbn; lia). rewrite app_length in Lp, Q. cbn [length] in Lp, Q.
      replace (Nat.min (i + k * m + m - 1) j) with (length ((l1 ++ a) ++ lq)); [apply at_mid|]. rewrite !app_length.
      rewrite Lt in Lq. destruct Q as [->|Q]; [cbn [length] in Lq|]; lia.
Qed.
Example C90_ex : let e := denv NONE in let r := R (V Gen 49 30) (V Exod 1 7) in
  at_pos (bible_verses (ed e) (split_zero0 e r None)) 1503 (rstart r) /\ at_pos (bible_verses (ed e) (split_zero0 e r None)) 1539 (rend r) /\
  split_items e 99 r false false (Some 15) None = Ok [R (V Gen 49 30) (V Gen 50 11); R (V Gen 50 12) (V Gen 50 26); R (V Exod 1 1) (V Exod 1 7)] /\
  (1539 - 1503) / 15 + 1 = 3.
Proof. vm_compute. auto. Qed.
