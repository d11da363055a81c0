(** * MEq: [==] and [!=] between objects of any class, and methods of lists with indexes of any class.

    Books are members of an Enum and equal to themselves only.  The [__eq__] of verses and ranges (ref.py 292, 592: dataclasses), of
    None, ints, strings and of other objects answers NotImplemented for another class; Python then asks the other object.
    A [BibleRangeList] asks for the length of the other object before its class (util.py 644-657).  Objects of the class
    [VIter] are supposed to have a length, like sets.  Of two sequences both are Python lists or both are tuples. *)
From Coq Require Import List Ascii ZArith Bool.
From Verif Require Import Base Books Data MVerse MRange MSeq MList MGroup MNode MNew.
Import ListNotations.
Open Scope Z_scope.

(** [len(x)] does not raise. *)
Definition has_len (x : pyval) : bool := match x with VStr _ | VList _ | VSeq _ | VIter _ => true | _ => false end.
(** util.py 654-657 for an object that is no grouped list. *)
Definition list_eq_other (x : pyval) : res bool := if has_len x then Ok false else Err TypeErr.
(** [a == b]; for lists of ranges util.py 644-668, for lists and tuples item by item if the lengths are equal. *)
Fixpoint py_eq (a b : pyval) : res bool :=
  match a, b with
  | VNone, VNone => Ok true
  | VInt m, VInt n => Ok (m =? n)
  | VStr s, VStr t => Ok (same_by Ascii.eqb s t)
  | VBook x, VBook y => Ok (book_eqb x y)
  | VVerse v, VVerse w => Ok (verse_eqb v w)
  | VRange r, VRange q => Ok (range_eqb r q)
  | VList l, VList m => Ok (same_by (same_by range_eqb) l m)
  | VList _, x => list_eq_other x
  | x, VList _ => list_eq_other x
  | VSeq l, VSeq m =>
      if (length l =? length m)%nat then
        (fix items_eq (l m : list pyval) : res bool :=
           match l, m with
           | x :: l', y :: m' => q <- py_eq x y ;; if q : bool then items_eq l' m' else Ok false
           | _, _ => Ok true
           end) l m
      else Ok false
  | _, _ => Ok false
  end.
(** [a != b]: no class defines [__ne__]. *)
Definition py_ne (a b : pyval) : res bool := q <- py_eq a b ;; Ok (negb q).

(** ** Indexes *)
(** The comparison with 0 that comes first in util.py 216, 90 and 158: only ints have an order with ints. *)
Definition as_index (x : pyval) : res Z := match x with VInt i => Ok i | _ => Err TypeErr end.
(** util.py 683-691. *)
Definition x_get_item (x : pyval) (s : heap) : res range := i <- as_index x ;; get_item i s.
Definition x_set_item (x y : pyval) (s : heap) : run :=
  let_run s (check_type y) (fun r => let_run s (as_index x) (fun i => call (set_item i r) s)).
(** util.py 508-513; [None] is the last item. *)
Definition x_pop (x : pyval) (s : heap) : res (range * heap) :=
  match x with VNone => pop None s | _ => i <- as_index x ;; pop (Some i) s end.
Definition x_del_item (x : pyval) (s : heap) : res heap := q <- x_pop x s ;; Ok (snd q).
(** util.py 494-502; [index == 0] is false, or raises TypeError, for what is no int. *)
Definition x_insert (x y : pyval) (s : heap) : run :=
  let_run s (check_type y) (fun r => let_run s (as_index x) (fun i => call (insert i r) s)).
(** util.py 504-506: the default [None] is passed on. *)
Definition x_insert_group_at (o : option pyval) (s : heap) : res heap :=
  i <- as_index match o with Some x => x | None => VNone end ;; insert_group_at i s.
(** util.py 86-104, 113-115. *)
Definition x_group_at (x : pyval) (s : heap) : res (option nat) := i <- as_index x ;; group_at i s.
(** util.py 157-170. *)
Definition x_view_get (v : option nat) (x : pyval) (s : heap) : res range :=
  _ <- check_view v s ;; i <- as_index x ;; view_get v i s.
(** [x - 1] (util.py 440): for verses ref.py 546-549, for ranges 1121-1122, for lists of ranges 1546-1547; the result of a difference
    that does not raise would be a list of ranges, which has no order with 0.  No other class but int has such an operator. *)
Definition minus_one (e : env) (x : pyval) : res pyval :=
  match x with
  | VInt i => Ok (VInt (i - 1))
  | VVerse v => w <- subtract e v 1 None ;; Ok match w with Some w => VVerse w | None => VNone end
  | VRange r => l <- any_r_difference e r None (VInt 1) ;; Ok (VList l)
  | VList l => l <- any_l_difference e 0 l None (VInt 1) ;; Ok (VList l)
  | _ => Err TypeErr
  end.
(** util.py 431-449. *)
Definition x_index (e : env) (y lo hi : pyval) (s : heap) : res Z :=
  r <- check_type y ;;
  i <- match lo with VNone => Ok 0 | _ => as_index lo end ;;
  _ <- conform_index i s ;;
  match hi with
  | VNone => index range_eqb r (Some i) None s
  | _ => z <- minus_one e hi ;; j <- as_index z ;; index range_eqb r (Some i) (Some (j + 1)) s
  end.
