(** * PropHash: references as elements of sets and keys of dictionaries (C100). *)
From Coq Require Import List Ascii ZArith Bool Lia.
From Verif Require Import Base Books Chars Data MVerse MRange PCore MNew SpecNew PNew2 MEq PropEq MHash.
Import ListNotations.
Open Scope Z_scope.
Open Scope list_scope.

(** None, numbers, texts and references. *)
Inductive single : pyval -> Prop :=
| sg_none : single VNone
| sg_int n : single (VInt n)
| sg_str s : single (VStr s)
| sg_book b : single (VBook b)
| sg_verse v : single (VVerse v)
| sg_range r : single (VRange r).
(** Each object once, in the order of first occurrence. *)
Inductive dedup : list pyval -> list pyval -> Prop :=
| dd_nil : dedup [] []
| dd_old l x s : dedup l s -> In x l -> dedup (l ++ [x]) s
| dd_new l x s : dedup l s -> ~ In x l -> dedup (l ++ [x]) (s ++ [x]).

Section Hashes.
Variables (hn ho : Z) (hi : Z -> Z) (hs : str -> Z) (hb : book -> Z) (ht : list Z -> Z).
Notation hash := (py_hash hn ho hi hs hb ht).
Notation isin := (in_set hn ho hi hs hb ht).
Notation add := (set_add hn ho hi hs hb ht).
Notation from := (set_from hn ho hi hs hb ht).
Notation set := (set_of hn ho hi hs hb ht).

Theorem C100_hash : forall x, (single x -> exists h, hash x = Ok h) /\
  ((exists l, x = VList l) \/ (exists l, x = VSeq l) -> hash x = Err TypeErr).
Proof. intros x. split; [intros H; destruct H; eexists; reflexivity|intros [(l & ->)|(l & ->)]; reflexivity]. Qed.
Lemma single_plain : forall x, single x -> plain_value x.
Proof. intros x H. destruct H; constructor. Qed.
Lemma single_eq : forall a b, single a -> single b -> exists q, py_eq a b = Ok q /\ (q = true <-> a = b).
Proof.
  intros a b A B. assert (E : exists q, py_eq a b = Ok q) by (destruct A, B; eexists; reflexivity). destruct E as (q & E). exists q. split; auto.
  rewrite <- (C96_equal a b (single_plain _ A) (single_plain _ B)), E. split; congruence.
Qed.
(** Every field counts: different verses, and different ranges, have equal hashes only if two different ints, books or tuples of the
    same length have. *)
Definition collide : Prop :=
  (exists i j, i <> j /\ hi i = hi j) \/ (exists b c, b <> c /\ hb b = hb c) \/ (exists l m, l <> m /\ length l = length m /\ ht l = ht m).
Lemma tuple_hash : forall l m, length l = length m -> ht l = ht m -> l = m \/ collide.
Proof. intros l m L E. destruct (list_eq_dec Z.eq_dec l m) as [D|D]; auto. right. right. right. now exists l, m. Qed.
Lemma verse_fields : forall v w, verse_hash hi hb ht v = verse_hash hi hb ht w -> v = w \/ collide.
Proof.
  intros [b c n] [b' c' n'] E. apply tuple_hash in E; [|reflexivity]. destruct E as [E|E]; auto. cbn [vbook vchap vverse] in E. injection E as Eb Ec En.
  destruct (book_eqb b b') eqn:B; [apply book_eqb_eq in B; subst b'|].
  - destruct (Z.eq_dec c c') as [->|D]; [|right; left; now exists c, c']. destruct (Z.eq_dec n n') as [->|D]; [auto|right; left; now exists n, n'].
  - right. right. left. exists b, b'. split; auto. intros ->. pose proof (proj2 (book_eqb_eq b' b') eq_refl). congruence.
Qed.
Theorem C100_fields :
  (forall v w, hash (VVerse v) = hash (VVerse w) -> v = w \/ collide) /\ (forall a b, hash (VRange a) = hash (VRange b) -> a = b \/ collide).
Proof.
  split; [intros v w E; injection E as E; now apply verse_fields|]. intros [a1 a2] [b1 b2] E. injection E as E.
  apply tuple_hash in E; [|reflexivity]. destruct E as [E|E]; auto. cbn [rstart rend] in E. injection E as E1 E2.
  destruct (verse_fields _ _ E1) as [->|]; auto. destruct (verse_fields _ _ E2) as [->|]; auto.
Qed.
(** Equal objects have equal hashes. *)
Theorem C100_equal : forall a b, py_eq a b = Ok true -> hash a = hash b.
Proof.
  intros a b. destruct a as [|m|s|k|v|r|l|l|l|], b as [|m'|s'|k'|v'|r'|l'|l'|l'|]; try discriminate; try reflexivity; intros E;
    apply C96_equal in E; try constructor; now injection E as ->.
Qed.
Lemma find_ok : forall s x h, Forall single s -> single x -> hash x = Ok h -> exists q, find_in hn ho hi hs hb ht h x s = Ok q /\ (q = true <-> In x s).
Proof.
  induction s as [|y s IH]; intros x h F Sx Hx; [exists false; split; auto; split; [discriminate|contradiction]|].
  inversion F as [|? ? Sy Fs]; subst. destruct (IH x h Fs Sx Hx) as (q & E & Q). cbn [find_in]. destruct (proj1 (C100_hash y) Sy) as (k & Hy). rewrite Hy. cbn [bind].
  destruct (single_eq y x Sy Sx) as (p & Ep & P). destruct (Z.eqb_spec k h) as [->|N].
  - rewrite Ep. cbn [bind]. destruct p.
    + exists true. split; auto. split; auto. intros _. left. now apply P.
    + exists q. split; auto. rewrite Q. split; [now right|]. intros [X|X]; auto. apply P in X. discriminate.
  - exists q. split; auto. rewrite Q. split; [now right|]. intros [X|X]; auto. subst y. congruence.
Qed.
(** An object is found in a set exactly if it was put in. *)
Theorem C100_in : forall s x, Forall single s -> single x -> exists q, isin x s = Ok q /\ (q = true <-> In x s).
Proof. intros s x F Sx. destruct (proj1 (C100_hash x) Sx) as (h & E). unfold in_set. rewrite E. cbn [bind]. now apply find_ok. Qed.
Lemma dedup_in : forall l s, dedup l s -> forall x, In x s <-> In x l.
Proof.
  intros l s H. induction H as [|l x s H IH N|l x s H IH N]; intros y; [tauto| |]; rewrite !in_app_iff, IH; cbn [In]; [|tauto].
  split; [auto|]. intros [X|[->|[]]]; auto.
Qed.
Lemma dedup_nodup : forall l s, dedup l s -> NoDup s.
Proof.
  intros l s H. induction H as [|l x s H IH N|l x s H IH N]; [constructor|auto|]. apply NoDup_Add with (a := x) (l := s); [|split; auto].
  - rewrite <- (app_nil_r s) at 1. apply Add_app.
  - rewrite (dedup_in _ _ H). exact N.
Qed.
Lemma from_ok : forall l l0 s0, Forall single l0 -> Forall single l -> dedup l0 s0 -> exists s, from s0 l = Ok s /\ dedup (l0 ++ l) s.
Proof.
  induction l as [|x l IH]; intros l0 s0 F0 F D; [exists s0; rewrite app_nil_r; auto|]. inversion F as [|? ? Sx Fl]; subst. cbn [set_from]. unfold set_add.
  assert (Fs : Forall single s0) by (apply Forall_forall; intros y Hy; apply (dedup_in _ _ D) in Hy; rewrite Forall_forall in F0; auto).
  destruct (C100_in s0 x Fs Sx) as (q & -> & Q). cbn [bind]. rewrite (dedup_in _ _ D) in Q. replace (l0 ++ x :: l) with ((l0 ++ [x]) ++ l) by now rewrite <- app_assoc.
  apply IH; auto; [apply Forall_app; auto|]. destruct q; [apply dd_old; tauto|apply dd_new; auto]. intros X. apply Q in X. discriminate.
Qed.
(** [set(l)] has every object of l once, whatever the hashes are. *)
Theorem C100_set : forall l, Forall single l -> exists s, set l = Ok s /\ dedup l s /\ NoDup s /\ (forall x, In x s <-> In x l).
Proof.
  intros l F. destruct (from_ok l [] [] (Forall_nil _) F dd_nil) as (s & E & D). cbn [app] in D. exists s. split; [exact E|]. split; auto. split; [eapply dedup_nodup; eauto|now apply dedup_in].
Qed.
(** A list of ranges cannot be put in or looked for. *)
Theorem C100_lists : forall g l m s, Forall single l -> set (l ++ VList g :: m) = Err TypeErr /\ isin (VList g) s = Err TypeErr.
Proof.
  intros g l m s F. split; [|reflexivity]. unfold set_of. assert (X : forall l0 s0, Forall single l0 -> dedup l0 s0 -> from s0 (l ++ VList g :: m) = Err TypeErr); [|apply (X [] []); constructor].
  induction l as [|x l IH]; intros l0 s0 F0 D; [reflexivity|]. inversion F as [|? ? Sx Fl]; subst. cbn [app set_from]. unfold set_add.
  assert (Fs : Forall single s0) by (apply Forall_forall; intros y Hy; apply (dedup_in _ _ D) in Hy; rewrite Forall_forall in F0; auto).
  destruct (C100_in s0 x Fs Sx) as (q & -> & Q). cbn [bind]. rewrite (dedup_in _ _ D) in Q.
  apply (IH Fl (l0 ++ [x])); [apply Forall_app; auto|]. destruct q; [apply dd_old; tauto|apply dd_new; auto]. intros X. apply Q in X. discriminate.
Qed.
End Hashes.
Example C100_ex : let v := VVerse (V Gen 1 1) in let r := VRange (R (V Gen 1 1) (V Gen 1 1)) in
  Forall single [v; r; v; VBook Gen] /\
  set_of 0 0 (fun n => n) (fun _ => 7) (fun b => 3) (fun l => fold_right Z.add 0 l) [v; r; v; VBook Gen] = Ok [v; r; VBook Gen] /\
  set_of 0 0 (fun n => 0) (fun _ => 0) (fun b => 0) (fun l => 0) [v; r; v; VBook Gen] = Ok [v; r; VBook Gen] /\
  in_set 0 0 (fun n => 0) (fun _ => 0) (fun b => 0) (fun l => 0) (VVerse (V Gen 1 2)) [v; r] = Ok false.
Proof. cbv zeta. split; [repeat constructor|]. repeat (split; [reflexivity|]). reflexivity. Qed.
Example C100_fields_ex : let h := py_hash 0 0 (fun n => n) (fun _ => 7) (fun _ => 3) (fold_right (fun x y => x + 1000 * y) 0) in
  h (VVerse (V Gen 1 2)) = Ok 2001003 /\ h (VVerse (V Gen 2 1)) = Ok 1002003 /\ h (VVerse (V Exod 1 2)) = Ok 2001003.
Proof. cbv zeta. repeat split; vm_compute; reflexivity. Qed.
