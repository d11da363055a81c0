(** * SpecList: specification of lists of ranges, independent of the algorithms. *)
From Coq Require Import List ZArith Bool Lia Sorted Permutation.
From Verif Require Import Base Books Data MVerse MRange Spec MSeq MList.
Import ListNotations.
Open Scope Z_scope.

(** ** Grouping *)
(** The range begins with (all of) the unit [u]; it ends with all of it. *)
Definition opens_with (d : bibledata) (z : bool) (u : unit_ref) (r : range) : Prop :=
  rstart r = unit_first d z u /\ vle d (unit_last d u) (rend r).
Definition closes_with (d : bibledata) (z : bool) (u : unit_ref) (r : range) : Prop :=
  rend r = unit_last d u /\ vle d (rstart r) (unit_first d z u).
Definition chap_at (v : verse) : unit_ref := UChap (vbook v) (vchap v).
Definition book_at (v : verse) : unit_ref := UBook (vbook v).

(** The first verses of the chapters and books of both ends can be made (see [can_start]). *)
Definition range_can_start (e : env) (fl : option flag) (r : range) : Prop :=
  can_start e fl (chap_at (rstart r)) /\ can_start e fl (book_at (rstart r)) /\
  can_start e fl (chap_at (rend r)) /\ can_start e fl (book_at (rend r)).

(** The range names a verse at its end: it does not end with a whole book, nor with a whole chapter that
    is written without its verses. *)
Definition open_after (e : env) (fl : option flag) (p : range) : Prop :=
  let z := zero_on e fl in
  ~ closes_with (ed e) z (book_at (rend p)) p /\
  ~ (closes_with (ed e) z (chap_at (rend p)) p /\
     (vbook (rstart p) <> vbook (rend p) \/
      (opens_with (ed e) z (chap_at (rstart p)) p /\
       closes_with (ed e) (verse0 (eg e)) (chap_at (rend p)) p))).

(** [x] continues the group of [p]: it consists of further verses of the chapter at the end of [p]. *)
Definition continues (e : env) (fl : option flag) (p x : range) : Prop :=
  open_after e fl p /\
  ~ opens_with (ed e) (zero_on e fl) (chap_at (rstart x)) x /\
  chap_at (rstart x) = chap_at (rend p) /\ chap_at (rend x) = chap_at (rstart x).

(** The neighbours [p], [x] (with [l1] before them and [l2] after them) are in one group of [g], or in two. *)
Definition together {A} (g : list (list A)) (l1 : list A) (p x : A) (l2 : list A) : Prop :=
  exists ga a b gb, g = ga ++ (a ++ p :: x :: b) :: gb /\ concat ga ++ a = l1 /\ b ++ concat gb = l2.
Definition apart {A} (g : list (list A)) (l1 : list A) (p x : A) (l2 : list A) : Prop :=
  exists ga a b gb, g = ga ++ (a ++ [p]) :: (x :: b) :: gb /\ concat ga ++ a = l1 /\ b ++ concat gb = l2.

(** ** Canonical lists *)
Definition one_book_range (r : range) : Prop := vbook (rstart r) = vbook (rend r).
(** No range spans books, or they are allowed to. *)
Definition mergeable (e : env) (fl : option flag) (l : list range) : Prop :=
  multi_on e fl = true \/ Forall one_book_range l.
(** [a] ends before [b] begins, and [b] does not begin directly after it. *)
Definition separate (e : env) (fl : option flag) (a b : range) : Prop :=
  vlt (ed e) (rend a) (rstart b) /\ ~ joins e fl a b.
Definition canonical (e : env) (fl : option flag) (l : list range) : Prop :=
  StronglySorted (separate e fl) l.
(** Two lists of ranges have the same verses (of universe [z]). *)
Definition same_verses (d : bibledata) (z : bool) (l m : list range) : Prop :=
  forall v, InB d z v -> (InL d v l <-> InL d v m).

(** ** References *)
(** The ranges of a verse, of a range, of a list. *)
Definition verse_range (v : verse) : range := R v v.
Definition ref_list (x : bref) : list range :=
  match x with BV v => [verse_range v] | BR r => [r] | BL l => items l end.

(** Ranges that end in the order in which they begin. *)
Definition staggered (d : bibledata) (l : list range) : Prop :=
  forall a b, In a l -> In b l -> vlt d (rstart a) (rstart b) -> vle d (rend a) (rend b).

(** [r] is the smallest range with property [Q] that contains all the verses of [l]. *)
Definition least_cover (d : bibledata) (z : bool) (Q : range -> Prop) (l : list range) (r : range) : Prop :=
  wf_range d z r /\ Q r /\ (forall v, InL d v l -> InR d v r) /\
  forall r', wf_range d z r' -> Q r' -> (forall v, InL d v l -> InR d v r') -> forall v, InR d v r -> InR d v r'.

(** Ranges of whole chapters, of whole books. *)
Definition whole_chaps (d : bibledata) (z : bool) (r : range) : Prop :=
  rstart r = unit_first d z (chap_at (rstart r)) /\ rend r = unit_last d (chap_at (rend r)).
Definition whole_books (d : bibledata) (z : bool) (r : range) : Prop :=
  rstart r = unit_first d z (book_at (rstart r)) /\ rend r = unit_last d (book_at (rend r)).

(** Two items of the list touch, one of them spans books, and ranges may not. *)
Definition clash (e : env) (fl : option flag) (l : list range) : Prop :=
  multi_on e fl = false /\
  exists a b r, Permutation l (a :: b :: r) /\ touching e fl a b /\ ~ (one_book_range a /\ one_book_range b).

(** No common part spans books unless this is allowed. *)
Definition meets_ok (e : env) (fl : option flag) (l m : list range) : Prop :=
  forall a b c, In a l -> In b m -> overlap (ed e) a b -> meet_of (ed e) a b c -> multi_on e fl = true \/ one_book_range c.

(** No two different ranges of the list touch. *)
Definition spread (e : env) (fl : option flag) (bs : list range) : Prop :=
  forall b b', In b bs -> In b' bs -> b = b' \/ ~ touching e fl b b'.
(** [a] lies in one of the ranges. *)
Definition inside (d : bibledata) (a b : range) : Prop := forall v, InR d v a -> InR d v b.
Definition inside_one (d : bibledata) (bs : list range) (a : range) : Prop := exists b, In b bs /\ inside d a b.
(** There are verses directly before and after each range, and no book boundary is in the way. *)
Definition interior (e : env) (fl : option flag) (bs : list range) : Prop := forall b, In b bs -> exists p q,
  follows (ed e) (zero_on e fl) p (rstart b) /\ follows (ed e) (zero_on e fl) (rend b) q /\
  (multi_on e fl = true /\ multibook (eg e) = true \/
   vbook p = vbook (rstart b) /\ vbook q = vbook (rend b) /\ one_book_range b).
Definition bookwise (e : env) (fl : option flag) (l : list range) : Prop :=
  multi_on e fl = true /\ multibook (eg e) = true \/ Forall one_book_range l.

(** The groups are not empty. *)
Definition full_groups {A} (g : list (list A)) : Prop := Forall (fun p => p <> []) g.
