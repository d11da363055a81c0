(** * MIter: iterators of a [GroupedList] that is changed while they are in use.

    [__iter__], [__reversed__] and the iterators of views are generators: they run only when [next] is called, and
    stop at every [yield].  So an iterator is a place in the code, with the node it stands at; [next] reads the list
    as it is at that time.  MGroup.g_iter and its like are these iterators in a list that stays as it is.  A generator
    that has raised an exception or has come to its end is finished: [next] raises StopIteration. *)
From Coq Require Import List ZArith Bool Arith.
From Verif Require Import Base MSeq MGroup.
Import ListNotations.

(** Before the first [next]; at the [yield] of a node; finished. *)
Inductive cursor := CStart | CAt (a : nat) | CEnd.

Section Iter.
Context {A : Type}.
Notation gl := (glist A).

(** Up to the next [yield]: what [next] gives (None: StopIteration), and where the generator stands then. *)
Definition give (p : option nat) (s : gl) : res (option A) * cursor :=
  match p with
  | None => (Ok None, CEnd)
  | Some a => match value s a with Ok x => (Ok (Some x), CAt a) | Err e => (Err e, CEnd) end
  end.
(** util.py 638-642. *)
Definition iter_next (c : cursor) (s : gl) : res (option A) * cursor :=
  match c with
  | CStart => give (g_first s) s
  | CAt a => give (n_next s a) s
  | CEnd => (Ok None, CEnd)
  end.
(** util.py 693-697. *)
Definition reversed_next (c : cursor) (s : gl) : res (option A) * cursor :=
  match c with
  | CStart => give (g_last s) s
  | CAt a => give (n_prev s a) s
  | CEnd => (Ok None, CEnd)
  end.
(** util.py 148-155; [v] is the node of the view. *)
Definition view_next (v : option nat) (c : cursor) (s : gl) : res (option A) * cursor :=
  match c with
  | CStart => match check_view v s with Ok a => give (Some a) s | Err e => (Err e, CEnd) end
  | CAt a => match n_next s a with
             | None => (Ok None, CEnd)
             | Some b => if n_head s b then (Ok None, CEnd) else give (Some b) s
             end
  | CEnd => (Ok None, CEnd)
  end.
(** util.py 106-111: the view given is the node of the view. *)
Definition groups_next (c : cursor) (s : gl) : option nat * cursor :=
  match (match c with CStart => g_fhead s | CAt a => n_nh s a | CEnd => None end) with
  | None => (None, CEnd)
  | Some a => (Some a, CAt a)
  end.

(** [for x in lst: body(x)]: the items given, and the list after the loop.  [body] may change the list. *)
Fixpoint for_loop (fuel : nat) (body : A -> gl -> res gl) (c : cursor) (s : gl) : res (list A * gl) :=
  match fuel with
  | O => Err Diverge
  | S n =>
      match iter_next c s with
      | (Err e, _) => Err e
      | (Ok None, _) => Ok ([], s)
      | (Ok (Some x), c') => s <- body x s ;; q <- for_loop n body c' s ;; Ok (x :: fst q, snd q)
      end
  end.
(** [for view in lst.groups: body(view)] *)
Fixpoint for_groups (fuel : nat) (body : nat -> gl -> res gl) (c : cursor) (s : gl) : res (list nat * gl) :=
  match fuel with
  | O => Err Diverge
  | S n =>
      match groups_next c s with
      | (None, _) => Ok ([], s)
      | (Some v, c') => s <- body v s ;; q <- for_groups n body c' s ;; Ok (v :: fst q, snd q)
      end
  end.
End Iter.
