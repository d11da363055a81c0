(** * PFlags: an explicit flags argument compared with setting the global flags (C41). *)
From Coq Require Import List ZArith Bool Lia Sorted.
From Verif Require Import Base Books Data MVerse MRange Spec PList PCore PNav PVerse PRange PSetOps PRuns PSplit PCount.
Import ListNotations.
Open Scope Z_scope.

(** The environment with the global flags set to [f]. *)
Definition with_flags (e : env) (f : flag) : env := mkEnv (ed e) f.

Section Flags.
Variable e : env.
Variable f : flag.
Hypothesis Hf : f <> NONE.
Notation e' := (with_flags e f).

Lemma flag_true_ne : flag_true f = true.
Proof. clear -Hf. destruct f as [[] []]; try reflexivity. exfalso. apply Hf. reflexivity. Qed.
Lemma eff_with : eff e (Some f) = f /\ eff e' None = f.
Proof. split; [unfold eff; now rewrite flag_true_ne|]. apply eff_none. Qed.
Lemma eff_true : forall g, flag_true g = true -> eff e (Some g) = g /\ eff e' (Some g) = g.
Proof. intros g Hg. unfold eff. now rewrite Hg. Qed.

Lemma min_verse_with : forall b c, min_verse_num e b c (Some f) = min_verse_num e' b c None.
Proof. intros b c. unfold min_verse_num. destruct eff_with as [-> ->]. reflexivity. Qed.
Lemma min_verse_true : forall g b c, flag_true g = true -> min_verse_num e b c (Some g) = min_verse_num e' b c (Some g).
Proof. intros g b c Hg. unfold min_verse_num. destruct (eff_true g Hg) as [-> ->]. reflexivity. Qed.
Lemma new_verse_with : forall b c v, new_verse e b c v (Some f) = new_verse e' b c v None.
Proof. intros b c v. unfold new_verse. rewrite min_verse_with. reflexivity. Qed.
Lemma new_verse_true : forall g b c v, flag_true g = true -> new_verse e b c v (Some g) = new_verse e' b c v (Some g).
Proof. intros g b c v Hg. unfold new_verse. rewrite (min_verse_true g) by assumption. reflexivity. Qed.
Lemma honour0_true : forall g v, flag_true g = true -> flag_true (honour0 g v) = true.
Proof. intros [[] []] v H; try discriminate; unfold honour0; destruct (vverse v =? 0); reflexivity. Qed.

Lemma add_loop_true : forall g, flag_true g = true -> forall fuel b c vn mx,
  add_loop e g fuel b c vn mx = add_loop e' g fuel b c vn mx.
Proof.
  intros g Hg. induction fuel as [|n IH]; intros b c vn mx; cbn [add_loop].
  - rewrite (new_verse_true g) by assumption. reflexivity.
  - destruct (vn >? mx); [|rewrite (new_verse_true g) by assumption; reflexivity].
    change (max_chap_num e' b) with (max_chap_num e b). change (next_book e' b) with (next_book e b).
    destruct (c + 1 >? max_chap_num e b).
    + destruct (negb (multibook g)); [reflexivity|]. unfold bind. destruct (next_book e b) as [[b'|]|]; auto.
      change (min_chap_num e' b') with (min_chap_num e b'). change (max_verse_num e' b') with (max_verse_num e b').
      rewrite (min_verse_true g) by assumption.
      destruct (min_verse_num e' b' (min_chap_num e b') (Some g)); auto.
      destruct (max_verse_num e b' (min_chap_num e b')); auto.
    + unfold bind. change (max_verse_num e' b) with (max_verse_num e b). rewrite (min_verse_true g) by assumption.
      destruct (min_verse_num e' b (c + 1) (Some g)); auto. destruct (max_verse_num e b (c + 1)); auto.
Qed.
Lemma add_with : forall v n, add e v n (Some f) = add e' v n None.
Proof.
  intros v n. unfold add. destruct eff_with as [-> ->].
  change (max_verse_num e' (vbook v) (vchap v)) with (max_verse_num e (vbook v) (vchap v)).
  change (nav_fuel e') with (nav_fuel e).
  destruct (max_verse_num e (vbook v) (vchap v)); auto. cbn [bind]. apply add_loop_true. apply honour0_true, flag_true_ne.
Qed.
Lemma new_range_with : forall s t, new_range e s t (Some f) = new_range e' s t None.
Proof. intros s t. unfold new_range. destruct eff_with as [-> ->]. reflexivity. Qed.
Lemma is_adjacent_with : forall a b, is_adjacent e a b (Some f) = is_adjacent e' a b None.
Proof.
  intros a b. unfold is_adjacent. change (order2 e' a b) with (order2 e a b). destruct (order2 e a b) as [lo hi].
  now rewrite add_with.
Qed.
Lemma union_with : forall a b, union e a b (Some f) = union e' a b None.
Proof.
  intros a b. unfold union. rewrite is_adjacent_with, new_range_with. reflexivity.
Qed.
Lemma intersection_with : forall a b, intersection e a b (Some f) = intersection e' a b None.
Proof. intros a b. unfold intersection. rewrite new_range_with. reflexivity. Qed.
Lemma book_verse_count_with : forall b, book_verse_count e b (Some f) = book_verse_count e' b None.
Proof.
  intros b. unfold book_verse_count. change (chap_count e' b) with (chap_count e b).
  induction (zrange 1 (chap_count e b)) as [|c cs IH]; [reflexivity|]. cbn [sum_chaps].
  change (max_verse_num e' b c) with (max_verse_num e b c). rewrite min_verse_with, IH. reflexivity.
Qed.

Lemma pieces_fun : forall ps qs ls, Forall2 piece_of ps ls -> Forall2 piece_of qs ls -> ps = qs.
Proof.
  intros ps qs ls H. revert qs. induction H as [|p l ps ls [H1 H2] H IH]; intros qs Hq; inversion Hq as [|q l' qs' ls' [Q1 Q2] Hq']; subst.
  - reflexivity.
  - f_equal; auto. destruct p as [s t], q as [s' t']. cbn [rstart rend] in *. congruence.
Qed.
Lemma split_with : forall fuel r by_book by_chap num l, wf_data (ed e) ->
  verses_of (ed e) (split_zero e r (Some f)) r l -> (length l <= fuel)%nat -> (forall n, num = Some n -> 1 <= n) ->
  split_items e fuel r by_book by_chap num (Some f) = split_items e' fuel r by_book by_chap num None.
Proof.
  intros fuel r by_book by_chap num l Hwf Hv Hl Hn.
  assert (Hz : split_zero e r (Some f) = split_zero e' r None).
  { unfold split_zero. rewrite <- !zero_on_eq. destruct eff_with as [-> ->]. reflexivity. }
  destruct (split_items_ok e Hwf r (Some f) l by_book by_chap num fuel Hv Hl Hn) as (ps & Hps & Hp).
  rewrite Hz in Hv.
  destruct (split_items_ok e' Hwf r None l by_book by_chap num fuel Hv Hl Hn) as (qs & Hqs & Hq).
  rewrite Hps, Hqs. f_equal. eapply pieces_fun; eauto.
Qed.
End Flags.
