(** * Base: results with Python exceptions, and small list facts.

    Every modelled function that can raise returns [res A].  The constructors of
    [exn] name the exception classes of the code. *)
From Coq Require Import List ZArith Bool Lia.
Import ListNotations.
Open Scope Z_scope.

(** Exceptions.  [InvalidRef], [Multibook], [ParseErr]: ref.py 1852-1873 (the two positions of
    [ParseErr] are the attributes [start_pos] and [end_pos]).  [GroupViewErr]: util.py 711-715.
    The others are Python built-ins; [RecErr] is [RecursionError] and occurs in MStack.v only.  [Diverge] is no Python exception: it is the value of a loop
    that has used up its fuel, i.e. of a loop that has not terminated yet. *)
Inductive exn : Type :=
| InvalidRef
| Multibook
| ParseErr (start_pos end_pos : Z)
| SyntaxErr
| ValueErr
| TypeErr
| AttrErr
| KeyErr
| IndexErr
| GroupViewErr
| RecErr
| Diverge.

Inductive res (A : Type) : Type :=
| Ok (a : A)
| Err (e : exn).
Arguments Ok {A} _.
Arguments Err {A} _.

Definition bind {A B} (m : res A) (k : A -> res B) : res B :=
  match m with Ok a => k a | Err e => Err e end.

Notation "x <- m ;; k" := (bind m (fun x => k))
  (at level 61, m at next level, right associativity).

Definition is_ok {A} (m : res A) : bool := match m with Ok _ => true | Err _ => false end.

(** [mapM f l]: a Python list comprehension [[f x for x in l]] whose element may raise. *)
Fixpoint mapM {A B} (f : A -> res B) (l : list A) : res (list B) :=
  match l with
  | [] => Ok []
  | x :: xs => y <- f x ;; ys <- mapM f xs ;; Ok (y :: ys)
  end.

(** [zseq a n] is the list [a, a+1, ..., a+n-1]. *)
Fixpoint zseq (a : Z) (n : nat) : list Z :=
  match n with O => [] | S m => a :: zseq (a + 1) m end.

(** Python's [range(a, b+1)]: the integers from [a] to [b] inclusive. *)
Definition zrange (a b : Z) : list Z := zseq a (Z.to_nat (b - a + 1)).

(** Indexing a Python list by a non-negative index. *)
Definition znth {A} (l : list A) (i : Z) : option A :=
  if i <? 0 then None else nth_error l (Z.to_nat i).

Definition zlen {A} (l : list A) : Z := Z.of_nat (length l).

Fixpoint zmem (x : Z) (l : list Z) : bool :=
  match l with [] => false | y :: ys => (x =? y) || zmem x ys end.
