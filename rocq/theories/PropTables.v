(** * PropTables: changes made inside the tables after they were assigned (C95). *)
From Coq Require Import List ZArith Arith Bool Lia.
From Verif Require Import Base Books Data DefaultData MVerse MRange Spec PList PCore PVerse PDefault MTables.
Import ListNotations.
Import Spec.
Open Scope list_scope.

(** What the tables that [BibleData] holds say at the moment. *)
Definition says_max (t : tables) (b : book) : option (list Z) := option_map (o_nums t) (o_dicts t (t_max t) b).
Definition says_zeros (t : tables) (b : book) : list Z := match o_dicts t (t_zeros t) b with Some a => o_nums t a | None => [] end.
Definition says_order (t : tables) : list book := o_orders t (t_order t).
(** The books go by the tables. *)
Definition follows_verses (d : bibledata) (t : tables) : Prop :=
  forall b, max_verses (seen d t) b = says_max t b /\ verse_0s (seen d t) b = says_zeros t b.
Definition follows_order (d : bibledata) (t : tables) : Prop :=
  book_order (seen d t) = says_order t /\ forall b i, order (seen d t) b = Some i <-> nth_error (says_order t) i = Some b.
(** Refuted by C95_entries_refuted and C95_order_refuted. *)
Definition C95_statement : Prop := forall d t h, follows_verses d t -> follows_order d t ->
  follows_verses d (steps t h) /\ follows_order d (steps t h).

Lemma assign_order_eq : forall (d : bibledata) t a, NoDup (o_orders t a) -> exists o,
  assign_order t a = (mkTables (o_nums t) (o_dicts t) (o_orders t) a (t_max t) (t_zeros t) o (b_max t) (b_zeros t), Ok tt) /\
  forall b i, o b = Some i <-> nth_error (o_orders t a) i = Some b.
Proof.
  intros d t a N. destruct (set_order_ok (seen d t) (o_orders t a) N) as (d' & E & B & O & _).
  unfold set_book_order in E. unfold assign_order. cbn [order seen] in E.
  destruct (assign_orders 0 (o_orders t a) (b_order t) all_books) as [o [rest|x]]; [|discriminate E].
  exists (clear_orders o rest). split; auto. assert (E1 := f_equal fst E). cbn [fst] in E1. subst d'. unfold order_ok in O. cbn in O. exact O.
Qed.
Lemma assign_order_fields : forall t a, let t' := fst (assign_order t a) in
  o_nums t' = o_nums t /\ o_dicts t' = o_dicts t /\ o_orders t' = o_orders t /\ t_order t' = a /\ t_max t' = t_max t /\ t_zeros t' = t_zeros t /\
  b_max t' = b_max t /\ b_zeros t' = b_zeros t.
Proof.
  intros t a. unfold assign_order. destruct (assign_orders 0 (o_orders t a) (b_order t) all_books) as [o [rest|x]]; cbn; repeat split; reflexivity.
Qed.

(** ** When a change counts *)
(** A change inside the numbers of a chapter list or the set of chapters counts at once, for every book that has this object. *)
Theorem C95_numbers : forall d t a l b, let d1 := seen d t in let d2 := seen d (change_nums t a l) in
  max_verses d2 b = (match b_max t b with Some x => if (x =? a)%nat then Some l else max_verses d1 b | None => None end) /\
  verse_0s d2 b = (match b_zeros t b with Some x => if (x =? a)%nat then l else verse_0s d1 b | None => [] end) /\
  book_order d2 = book_order d1 /\ order d2 = order d1.
Proof.
  intros d t a l b. cbn. unfold upd. split; [|split; [|auto]].
  - destruct (b_max t b) as [x|]; auto. destruct (x =? a)%nat; auto.
  - destruct (b_zeros t b) as [x|]; auto.
Qed.
(** An entry put into a dictionary or removed from it does not count. *)
Theorem C95_entries : forall d t a b y, seen d (change_dict t a b y) = seen d t.
Proof. reflexivity. Qed.
(** It counts when the table is assigned, also to itself, whatever went before. *)
Theorem C95_assigned : forall d t h, let t1 := steps t h in
  (forall a b, max_verses (seen d (assign_max t1 a)) b = option_map (o_nums t1) (o_dicts t1 a b) /\
     says_max (assign_max t1 a) b = option_map (o_nums t1) (o_dicts t1 a b)) /\
  (forall a b, verse_0s (seen d (assign_zeros t1 a)) b = (match o_dicts t1 a b with Some x => o_nums t1 x | None => [] end) /\
     says_zeros (assign_zeros t1 a) b = (match o_dicts t1 a b with Some x => o_nums t1 x | None => [] end)) /\
  (forall a, NoDup (o_orders t1 a) -> snd (assign_order t1 a) = Ok tt /\ says_order (fst (assign_order t1 a)) = o_orders t1 a /\
     follows_order d (fst (assign_order t1 a))).
Proof.
  intros d t h t1. split; [|split].
  - intros a b. unfold says_max, says_zeros. cbn. destruct (o_dicts t1 a b); split; reflexivity.
  - intros a b. unfold says_max, says_zeros. cbn. destruct (o_dicts t1 a b); split; reflexivity.
  - intros a N. destruct (assign_order_eq d t1 a N) as (o & -> & O). cbn [fst snd]. split; auto. split; [reflexivity|]. split; [reflexivity|]. exact O.
Qed.
(** In particular, an entry that was put into a table counts, for its book only, once the table is assigned to itself. *)
Theorem C95_changed : forall d t b y b',
  (b' = b -> max_verses (seen d (steps t [ChDict (t_max t) b y; AsMax (t_max t)])) b' = option_map (o_nums t) y) /\
  (b' <> b -> max_verses (seen d (steps t [ChDict (t_max t) b y; AsMax (t_max t)])) b' = says_max t b') /\
  (b' = b -> verse_0s (seen d (steps t [ChDict (t_zeros t) b y; AsZeros (t_zeros t)])) b' = match y with Some a => o_nums t a | None => [] end) /\
  (b' <> b -> verse_0s (seen d (steps t [ChDict (t_zeros t) b y; AsZeros (t_zeros t)])) b' = says_zeros t b') /\
  forall l, NoDup l -> let t' := steps t [ChOrder (t_order t) l; AsOrder (t_order t)] in says_order t' = l /\ follows_order d t'.
Proof.
  intros d t b y b'. unfold says_max, says_zeros. cbn. unfold upd. rewrite !Nat.eqb_refl.
  split; [intros ->; rewrite (proj2 (book_eqb_eq b b) eq_refl); now destruct y|].
  split; [intros N; apply book_eqb_neq in N; rewrite N; now destruct (o_dicts t (t_max t) b')|].
  split; [intros ->; rewrite (proj2 (book_eqb_eq b b) eq_refl); now destruct y|].
  split; [intros N; apply book_eqb_neq in N; rewrite N; reflexivity|].
  intros l N. set (t1 := change_order t (t_order t) l). assert (E : o_orders t1 (t_order t) = l) by (cbn; unfold upd; now rewrite Nat.eqb_refl).
  destruct (assign_order_eq d t1 (t_order t)) as (o & -> & O); [now rewrite E|]. rewrite E in O. cbn [fst]. unfold follows_order, says_order.
  cbn [o_orders t_order seen book_order order b_order]. rewrite E. auto.
Qed.
(** All tables assigned to themselves: the books go by them again. *)
Theorem C95_again : forall d t h, let t1 := steps t h in NoDup (says_order t1) ->
  let t2 := steps t1 [AsMax (t_max t1); AsZeros (t_zeros t1); AsOrder (t_order t1)] in
  follows_verses d t2 /\ follows_order d t2 /\ says_order t2 = says_order t1 /\
  forall b, says_max t2 b = says_max t1 b /\ says_zeros t2 b = says_zeros t1 b.
Proof.
  intros d t h t1 N t2. unfold t2, steps. cbn [fold_left step]. set (t' := assign_zeros (assign_max t1 (t_max t1)) (t_zeros t1)).
  destruct (assign_order_eq d t' (t_order t1) N) as (o & -> & O). cbn [fst]. unfold follows_verses, follows_order, says_max, says_zeros, says_order.
  cbn. split; [|split; [|split]]; auto.
Qed.

(** ** Histories that keep the books in step *)
(** No entries of the dictionaries held, and nothing in the list of books held, is changed; every order assigned is without
    repetitions (see C54_order_refuted). *)
Definition quiet (t : tables) (c : change) : Prop :=
  match c with
  | ChDict a _ _ => a <> t_max t /\ a <> t_zeros t
  | ChOrder a _ => a <> t_order t
  | AsOrder a => NoDup (o_orders t a)
  | _ => True
  end.
Fixpoint quietly (t : tables) (h : list change) : Prop :=
  match h with [] => True | c :: h' => quiet t c /\ quietly (step t c) h' end.
(** The objects of the books are those of the tables. *)
Definition in_step (t : tables) : Prop :=
  (forall b, b_max t b = o_dicts t (t_max t) b) /\ (forall b, b_zeros t b = o_dicts t (t_zeros t) b) /\
  (forall b i, b_order t b = Some i <-> nth_error (o_orders t (t_order t)) i = Some b).
Lemma in_step_follows : forall d t, in_step t -> follows_verses d t /\ follows_order d t.
Proof.
  intros d t (M & Z & O). split.
  - intros b. unfold says_max, says_zeros. cbn. rewrite (M b), (Z b). destruct (o_dicts t (t_max t) b); auto.
  - split; [reflexivity|exact O].
Qed.
Lemma step_in_step : forall t c, in_step t -> quiet t c -> in_step (step t c).
Proof.
  intros t c (M & Z & O) Q. destruct c as [a l|a b y|a l|a|a|a]; cbn [step quiet] in *; unfold in_step, change_nums, change_dict, change_order, assign_max, assign_zeros, upd; cbn.
  - auto.
  - destruct Q as [Q1 Q2]. apply not_eq_sym, Nat.eqb_neq in Q1. apply not_eq_sym, Nat.eqb_neq in Q2. rewrite Q1, Q2. auto.
  - apply not_eq_sym, Nat.eqb_neq in Q. rewrite Q. auto.
  - auto.
  - auto.
  - destruct (assign_order_eq default_data t a Q) as (o & -> & O'). cbn. auto.
Qed.
Theorem C95_in_step_partial : forall d t h, in_step t -> quietly t h -> follows_verses d (steps t h) /\ follows_order d (steps t h).
Proof.
  intros d t h I Q. apply in_step_follows. revert t I Q. induction h as [|c h IH]; intros t I Q; [exact I|].
  destruct Q as [Q1 Q2]. apply (IH (step t c)); auto. now apply step_in_step.
Qed.
(** What the other theorems ask of the tables then follows from what the tables say. *)
Theorem C95_wf_partial : forall d t h, in_step t -> quietly t h ->
  (forall b, In b (says_order (steps t h)) -> exists l, says_max (steps t h) b = Some l /\ l <> [] /\ Forall (fun m => (1 <= m)%Z) l) ->
  wf_data (seen d (steps t h)).
Proof.
  intros d t h I Q G. destruct (C95_in_step_partial d t h I Q) as [F [_ O]]. split; [exact O|].
  intros b Hb. destruct (G b Hb) as (l & E & P). exists l. rewrite (proj1 (F b)). auto.
Qed.
(** Every real change inside the list of books held makes the order wrong. *)
Theorem C95_order_lost : forall d t l, follows_order d t -> l <> says_order t -> ~ follows_order d (change_order t (t_order t) l).
Proof.
  intros d t l (_ & O) N (_ & O'). apply N. unfold says_order, change_order, upd in O'. cbn in O'. rewrite Nat.eqb_refl in O'.
  cbn in O. assert (E : forall i, nth_error l i = nth_error (says_order t) i).
  { intros i. destruct (nth_error l i) as [b|] eqn:E1.
    - symmetry. apply O. now apply O'.
    - destruct (nth_error (says_order t) i) as [b|] eqn:E2; auto. apply O in E2. apply O' in E2. congruence. }
  clear O O' N. revert E. generalize (says_order t). induction l as [|x l IH]; intros [|y m] E; auto.
  - specialize (E 0%nat). discriminate.
  - specialize (E 0%nat). discriminate.
  - f_equal; [specialize (E 0%nat); cbn in E; congruence|]. apply IH. intros i. exact (E (S i)).
Qed.

(** ** The default tables as objects *)
(** Object [i] is the list of book number [i], 100 + [i] its set; dictionaries 0 and 1, list 0. *)
Definition default_tables : tables :=
  steps (mkTables (fun i => if (i <? 100)%nat then match nth_error all_books i with Some b => match max_verses default_data b with Some l => l | None => [] end | None => [] end
                            else match nth_error all_books (i - 100) with Some b => verse_0s default_data b | None => [] end)
                  (fun a b => match a with O => Some (book_idx b) | S O => Some (100 + book_idx b)%nat | _ => None end)
                  (fun a => match a with O => book_order default_data | _ => [] end)
                  9 9 9 (fun _ => None) (fun _ => None) (fun _ => None))
        [AsMax 0; AsZeros 1; AsOrder 0].
Lemma default_order_nodup : NoDup (book_order default_data).
Proof. destruct default_wf as [O _]. apply NoDup_nth_error. intros i j Hi E. destruct (nth_error (book_order default_data) i) as [b|] eqn:E1.
  - pose proof (proj2 (O b i) E1) as A. symmetry in E. pose proof (proj2 (O b j) E) as B. congruence.
  - apply nth_error_None in E1. lia.
Qed.
Lemma default_in_step : in_step default_tables.
Proof.
  unfold default_tables, steps. cbn [fold_left step]. set (t := assign_zeros _ _).
  destruct (assign_order_eq default_data t 0 default_order_nodup) as (o & -> & O). cbn [fst]. unfold in_step. cbn.
  split; [reflexivity|]. split; [reflexivity|exact O].
Qed.
Theorem C95_entries_refuted : exists d t c, in_step t /\ ~ follows_verses d (step t c).
Proof.
  exists default_data, default_tables, (ChDict 0 Gen (Some 1%nat)). split; [exact default_in_step|].
  intros F. destruct (F Gen) as [F1 _]. apply (f_equal (fun o => match o with Some l => length l | None => 0%nat end)) in F1.
  vm_compute in F1. discriminate F1.
Qed.
(** With the first book taken out of the list, the book after Exodus is not Leviticus. *)
Theorem C95_order_refuted : exists d t c, in_step t /\ follows_order d t /\
  hd_error (says_order (step t c)) = Some Exod /\ nth_error (says_order (step t c)) 1 = Some Lev /\
  next_book (mkEnv (seen d (step t c)) NONE) Exod = Ok (Some Num).
Proof.
  exists default_data, default_tables, (ChOrder 0 (tl (book_order default_data))). split; [exact default_in_step|].
  split; [exact (proj2 (in_step_follows default_data _ default_in_step))|]. vm_compute. auto.
Qed.
Example C95_ex :
  quietly default_tables [ChNums 0 [31; 26]%Z; ChNums 100 [2]%Z; ChDict 5 Gen (Some 0%nat); AsMax 5] /\
  max_verses (seen default_data (steps default_tables [ChNums 0 [31; 26]%Z; ChNums 100 [2]%Z])) Gen = Some [31; 26]%Z /\
  verse_0s (seen default_data (steps default_tables [ChNums 0 [31; 26]%Z; ChNums 100 [2]%Z])) Gen = [2]%Z /\
  max_verses (seen default_data (steps default_tables [ChDict 5 Gen (Some 0%nat); AsMax 5])) Exod = None /\
  NoDup (says_order (step default_tables (ChOrder 0 [Exod; Lev]))) /\
  next_book (mkEnv (seen default_data (steps default_tables [ChOrder 0 [Exod; Lev]; AsOrder 0])) NONE) Exod = Ok (Some Lev).
Proof.
  split; [cbn; repeat split; lia|]. split; [vm_compute; reflexivity|]. split; [vm_compute; reflexivity|]. split; [vm_compute; reflexivity|].
  split; [|vm_compute; reflexivity]. change (NoDup [Exod; Lev]). repeat constructor; cbn; intuition discriminate.
Qed.
