(** * MHash: [hash()] of references, and sets of references.

    Verses and ranges are dataclasses with [eq=True, frozen=True] (ref.py 292, 592): their hash is that of the tuple of their fields.
    Books have the hash of an Enum member, that of its name.  [GroupedList] defines [__eq__] (util.py 644) and no [__hash__],
    so that neither it nor [BibleRangeList] can be hashed.  Python lists ([VSeq]) and collections ([VIter], like sets) cannot either.
    The hash functions of Python are left open. *)
From Coq Require Import List ZArith Bool.
From Verif Require Import Base Books Chars Data MVerse MRange MNew MEq.
Import ListNotations.
Open Scope Z_scope.

Section Hash.
Variables (hash_none hash_other : Z) (hash_int : Z -> Z) (hash_str : str -> Z) (hash_book : book -> Z) (hash_tuple : list Z -> Z).
Definition verse_hash (v : verse) : Z := hash_tuple [hash_book (vbook v); hash_int (vchap v); hash_int (vverse v)].
Definition range_hash (r : range) : Z := hash_tuple [verse_hash (rstart r); verse_hash (rend r)].
(** [hash(x)]. *)
Definition py_hash (x : pyval) : res Z :=
  match x with
  | VNone => Ok hash_none
  | VInt n => Ok (hash_int n)
  | VStr s => Ok (hash_str s)
  | VBook b => Ok (hash_book b)
  | VVerse v => Ok (verse_hash v)
  | VRange r => Ok (range_hash r)
  | VOther => Ok hash_other
  | VList _ | VSeq _ | VIter _ => Err TypeErr
  end.
(** A set is the list of its elements.  An object is found if an element with the same hash is equal to it. *)
Fixpoint find_in (h : Z) (x : pyval) (s : list pyval) : res bool :=
  match s with
  | [] => Ok false
  | y :: s' =>
      k <- py_hash y ;;
      if k =? h then q <- py_eq y x ;; if q : bool then Ok true else find_in h x s' else find_in h x s'
  end.
(** [x in s] and [s.add(x)]. *)
Definition in_set (x : pyval) (s : list pyval) : res bool := h <- py_hash x ;; find_in h x s.
Definition set_add (x : pyval) (s : list pyval) : res (list pyval) := q <- in_set x s ;; Ok (if q : bool then s else s ++ [x]).
(** [set(l)]. *)
Fixpoint set_from (s l : list pyval) : res (list pyval) :=
  match l with [] => Ok s | x :: l' => t <- set_add x s ;; set_from t l' end.
Definition set_of (l : list pyval) : res (list pyval) := set_from [] l.
End Hash.
