(** * MTables: the tables of verses and the order of the books as objects that are shared.

    The setters of [BibleData] store the objects they are given, and store their parts on the members of [BibleBook], without
    copying.  The other model files suppose that nobody changes these objects afterwards; here anybody may.  Objects have
    numbers as addresses.  Simplified: the name data stay as they are; a set is the list of its members. *)
From Coq Require Import List ZArith Arith Bool.
From Verif Require Import Base Books Data.
Import ListNotations.

Record tables := mkTables {
  o_nums : nat -> list Z;                 (* lists of verse numbers, and sets of chapters *)
  o_dicts : nat -> book -> option nat;    (* dictionaries: the object stored for a book *)
  o_orders : nat -> list book;            (* lists of books *)
  t_order : nat;                          (* data.py 18: the object held as book_order *)
  t_max : nat;                            (* data.py 20: max_verses *)
  t_zeros : nat;                          (* data.py 21: verse_0s *)
  b_order : book -> option nat;           (* attribute order of a book: its position *)
  b_max : book -> option nat;             (* attribute _max_verses: an object *)
  b_zeros : book -> option nat            (* attribute _verse_0s: an object; None is a set of its own, empty *)
}.

(** What a call sees: the list held as [book_order] (ref.py 211-223), and what the attributes hold.  The rest is that of [d]. *)
Definition seen (d : bibledata) (t : tables) : bibledata :=
  mkData (o_orders t (t_order t)) (b_order t)
         (fun b => match b_max t b with Some a => Some (o_nums t a) | None => None end)
         (fun b => match b_zeros t b with Some a => o_nums t a | None => [] end)
         (names d) (range_sep d) (major_list_sep d) (minor_list_sep d) (verse_sep_std d) (verse_sep_alt d).

Definition upd {A} (f : nat -> A) (a : nat) (x : A) : nat -> A := fun i => if (i =? a)%nat then x else f i.
(** The contents of a list or set become [l]: [append], [add], [remove], an assignment to an item, ...  Also a new object. *)
Definition change_nums (t : tables) (a : nat) (l : list Z) : tables :=
  mkTables (upd (o_nums t) a l) (o_dicts t) (o_orders t) (t_order t) (t_max t) (t_zeros t) (b_order t) (b_max t) (b_zeros t).
(** [x[b] = y], or [del x[b]]. *)
Definition change_dict (t : tables) (a : nat) (b : book) (y : option nat) : tables :=
  mkTables (o_nums t) (upd (o_dicts t) a (fun b' => if book_eqb b' b then y else o_dicts t a b')) (o_orders t)
           (t_order t) (t_max t) (t_zeros t) (b_order t) (b_max t) (b_zeros t).
Definition change_order (t : tables) (a : nat) (l : list book) : tables :=
  mkTables (o_nums t) (o_dicts t) (upd (o_orders t) a l) (t_order t) (t_max t) (t_zeros t) (b_order t) (b_max t) (b_zeros t).

(** data.py 178-186. *)
Definition assign_max (t : tables) (a : nat) : tables :=
  mkTables (o_nums t) (o_dicts t) (o_orders t) (t_order t) a (t_zeros t) (b_order t) (fun b => o_dicts t a b) (b_zeros t).
(** data.py 195-202. *)
Definition assign_zeros (t : tables) (a : nat) : tables :=
  mkTables (o_nums t) (o_dicts t) (o_orders t) (t_order t) (t_max t) a (b_order t) (b_max t) (fun b => o_dicts t a b).
(** data.py 85-99: as [set_book_order] of Data.v, with the object. *)
Definition assign_order (t : tables) (a : nat) : tables * res unit :=
  let '(o, r) := assign_orders 0 (o_orders t a) (b_order t) all_books in
  let held o' := mkTables (o_nums t) (o_dicts t) (o_orders t) a (t_max t) (t_zeros t) o' (b_max t) (b_zeros t) in
  match r with
  | Ok rest => (held (clear_orders o rest), Ok tt)
  | Err e => (held o, Err e)
  end.

(** Histories of assignments and changes. *)
Inductive change :=
| ChNums (a : nat) (l : list Z) | ChDict (a : nat) (b : book) (y : option nat) | ChOrder (a : nat) (l : list book)
| AsMax (a : nat) | AsZeros (a : nat) | AsOrder (a : nat).
Definition step (t : tables) (c : change) : tables :=
  match c with
  | ChNums a l => change_nums t a l
  | ChDict a b y => change_dict t a b y
  | ChOrder a l => change_order t a l
  | AsMax a => assign_max t a
  | AsZeros a => assign_zeros t a
  | AsOrder a => fst (assign_order t a)
  end.
Definition steps (t : tables) (h : list change) : tables := fold_left step h t.
