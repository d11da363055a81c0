(** * MEq2: [BibleRangeList.equals] with an argument of any class (util.py 647-673).

    The list itself is its groups, as in MList.v; C99_nodes shows that the methods on nodes (MGroup.v) give the same. *)
From Coq Require Import List ZArith Bool Arith.
From Verif Require Import Base Books Chars Data MVerse MRange MSeq MList MNew MEq.
Import ListNotations.
Open Scope Z_scope.

(** [len(x)] (util.py 653). *)
Definition py_len (x : pyval) : option nat :=
  match x with
  | VStr s => Some (length s)
  | VList l => Some (length (items l))
  | VSeq l | VIter l => Some (length l)
  | _ => None
  end.
(** What [zip] takes from [x] (util.py 670); objects without a length do not come here. *)
Definition zip_items (x : pyval) : list pyval :=
  match x with
  | VStr s => map (fun c => VStr [c]) s
  | VList l => map VRange (items l)
  | VSeq l | VIter l => l
  | _ => []
  end.
(** util.py 670-673. *)
Fixpoint flat_loop (l : list range) (m : list pyval) : res bool :=
  match l, m with
  | r :: l', y :: m' => q <- py_ne (VRange r) y ;; if q : bool then Ok false else flat_loop l' m'
  | _, _ => Ok true
  end.
(** util.py 647-673. *)
Definition x_equals (cmp_groups : bool) (g : rlist) (x : pyval) : res bool :=
  match py_len x with
  | None => Err TypeErr
  | Some n =>
      if negb (length (items g) =? n)%nat then Ok false
      else if cmp_groups then match x with VList h => Ok (same_by (same_by range_eqb) g h) | _ => Ok false end
      else flat_loop (items g) (zip_items x)
  end.
