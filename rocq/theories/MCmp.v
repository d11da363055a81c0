(** * MCmp: [<], [<=], [>] and [>=] between objects of any class.

    Books (ref.py 244-266), verses and ranges (ref.py 292, 592: dataclasses with [order=True]) answer NotImplemented for objects of
    another class, as ints, strings and Python's lists do; grouped lists, None and other objects define no order.  Python
    raises TypeError if neither object answers.  Of two sequences both are Python lists or both are tuples. *)
From Coq Require Import List ZArith Bool.
From Verif Require Import Base Books Chars Data MVerse MRange MSeq MOrder MNew MEq.
Import ListNotations.
Open Scope Z_scope.

Inductive cmp_op := OLt | OLe | OGt | OGe.
Definition z_cmp (o : cmp_op) : Z -> Z -> bool := match o with OLt => Z.ltb | OLe => Z.leb | OGt => Z.gtb | OGe => Z.geb end.
(** Strings compare by code points. *)
Definition str_cmp (o : cmp_op) (s t : str) : bool :=
  match o with OLt => str_gtb t s | OLe => negb (str_gtb s t) | OGt => str_gtb s t | OGe => negb (str_gtb t s) end.
Definition book_cmp_by (o : cmp_op) : env -> book -> book -> res bool := match o with OLt => book_lt | OLe => book_le | OGt => book_gt | OGe => book_ge end.
Definition verse_cmp_by (o : cmp_op) : env -> verse -> verse -> res bool := match o with OLt => verse_lt | OLe => verse_le | OGt => verse_gt | OGe => verse_ge end.
Definition range_cmp_by (o : cmp_op) : env -> range -> range -> res bool := match o with OLt => range_lt | OLe => range_le | OGt => range_gt | OGe => range_ge end.
(** [a < b] and so on; of sequences the first items that are not equal ([==]) are compared, without such items the lengths. *)
Fixpoint py_cmp (o : cmp_op) (e : env) (a b : pyval) : res bool :=
  match a, b with
  | VInt m, VInt n => Ok (z_cmp o m n)
  | VStr s, VStr t => Ok (str_cmp o s t)
  | VBook x, VBook y => book_cmp_by o e x y
  | VVerse v, VVerse w => verse_cmp_by o e v w
  | VRange r, VRange q => range_cmp_by o e r q
  | VSeq l, VSeq m =>
      (fix seq_cmp (l m : list pyval) : res bool :=
         match l, m with
         | x :: l', y :: m' => q <- py_eq x y ;; if q : bool then seq_cmp l' m' else py_cmp o e x y
         | _, _ => Ok (z_cmp o (Z.of_nat (length l)) (Z.of_nat (length m)))
         end) l m
  | _, _ => Err TypeErr
  end.
