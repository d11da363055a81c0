(** * SpecOrder: which books, ranges and lists of ranges can be compared. *)
From Coq Require Import List ZArith.
From Verif Require Import Base Books Data MVerse MRange.
Import ListNotations.

(** The book has a place in the order. *)
Definition listed (e : env) (b : book) : Prop := exists i, order (ed e) b = Some i.
(** Books that can all be compared: all have a place in the order, or there is only one. *)
Definition comparable (e : env) (bs : list book) : Prop := Forall (listed e) bs \/ exists b, Forall (eq b) bs.
Definition range_books (r : range) : list book := [vbook (rstart r); vbook (rend r)].
(** The ends of every range that is not copied from elsewhere have been compared by the constructor (ref.py 669). *)
Definition sound (e : env) (r : range) : Prop := comparable e (range_books r).
Definition comparable2 (e : env) (a b : range) : Prop := comparable e (range_books a ++ range_books b).
Definition comparable_all (e : env) (l : list range) : Prop := comparable e (flat_map range_books l).
(** The same Bible with [b] as its only book. *)
Definition alone (e : env) (b : book) : env :=
  let d := ed e in
  mkEnv (mkData [b] (fun x => if book_eqb x b then Some 0%nat else None) (max_verses d) (verse_0s d) (names d)
    (range_sep d) (major_list_sep d) (minor_list_sep d) (verse_sep_std d) (verse_sep_alt d)) (eg e).
Definition within (b : book) (r : range) : Prop := vbook (rstart r) = b /\ vbook (rend r) = b.
(** The same Bible with its books in another order: the list of [book_order] and the positions [order]. *)
Definition reorder (e : env) (bs : list book) (pos : book -> option nat) : env :=
  let d := ed e in
  mkEnv (mkData bs pos (max_verses d) (verse_0s d) (names d)
    (range_sep d) (major_list_sep d) (minor_list_sep d) (verse_sep_std d) (verse_sep_alt d)) (eg e).
