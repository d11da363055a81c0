(** * SpecStack: how deep a merge sort of the recursive kind nests its calls. *)
From Coq Require Import List Arith.
From Verif Require Import MSeq.
Import ListNotations.

(** Merging [l] and [m] takes one call per item that is merged, one inside the other, until a list is empty; each call compares two
    items, which takes [cmp a b] calls, and has then nothing else to call but the next. *)
Fixpoint merge_frames {B} (leb : B -> B -> bool) (cmp : B -> B -> nat) (l : list B) : list B -> nat :=
  match l with
  | [] => fun _ => 1
  | a :: l' =>
      fix aux (m : list B) : nat :=
        match m with
        | [] => 1
        | b :: m' => S (Nat.max (cmp a b) (if leb a b then merge_frames leb cmp l' m else aux m'))
        end
  end.
(** Sorting [l] ([n] is at least its length): nothing more for a list of one item or none; otherwise cutting it in two, which takes one
    call, or two ([cl]) for the groups; then sorting the halves and merging the results. *)
Fixpoint sort_frames {B} (leb : B -> B -> bool) (cmp : B -> B -> nat) (n : nat) (cl : bool) (l : list B) : nat :=
  match n with
  | O => 1
  | S n' =>
      match l with
      | [] => 1
      | [_] => 1
      | _ => let k := Nat.div2 (S (length l)) in
             S (Nat.max (if cl then 2 else 1) (Nat.max (sort_frames leb cmp n' false (firstn k l)) (Nat.max (sort_frames leb cmp n' false (skipn k l))
               (merge_frames leb cmp (merge_sort leb n' (firstn k l)) (merge_sort leb n' (skipn k l))))))
      end
  end.
(** A whole sort also makes the group anew, in two calls. *)
Definition stack_need {B} (leb : B -> B -> bool) (cmp : B -> B -> nat) (l : list B) : nat := Nat.max 2 (sort_frames leb cmp (length l) true l).
