(** * MSeq: grouped sequences as lists of non-empty groups, with the operations of [GroupedList]
    (util.py) on them.

    The linked structure of util.py is modelled node by node in MGroup.v, where it is proved that its
    operations have the effect of the functions below. *)
From Coq Require Import List ZArith Bool Arith Lia.
From Verif Require Import Base.
Import ListNotations.

Section Seq.
Context {A : Type}.

(** The contents of a grouped list: its groups, each with its items. *)
Definition seq := list (list A).
Definition items (g : seq) : list A := concat g.

(** All items in one group (util.py 245-255). *)
Definition one_group (l : list A) : seq := match l with [] => [] | _ => [l] end.

(** util.py 470-478, 284-297. *)
Fixpoint snoc_last (x : A) (g : seq) : seq :=
  match g with
  | [] => [[x]]
  | [a] => [a ++ [x]]
  | a :: g' => a :: snoc_last x g'
  end.
Definition g_append (new_group : bool) (x : A) (g : seq) : seq :=
  match g with
  | [] => [[x]]
  | _ => if new_group then g ++ [[x]] else snoc_last x g
  end.

(** util.py 480-487. *)
Definition g_append_group (l : list A) (g : seq) : seq :=
  match l with
  | [] => g
  | x :: xs => fold_left (fun g y => g_append false y g) xs (g_append true x g)
  end.

(** util.py 489-492, for an iterable other than the list itself. *)
Definition g_extend (l : list A) (g : seq) : seq := fold_left (fun g y => g_append false y g) l g.

(** util.py 536-541. *)
Definition g_clear_groups (g : seq) : seq := one_group (items g).

(** util.py 607-629. *)
Fixpoint merge_lists (leb : A -> A -> bool) (l1 : list A) : list A -> list A :=
  match l1 with
  | [] => fun l2 => l2
  | a :: l1' =>
      fix aux (l2 : list A) : list A :=
        match l2 with
        | [] => l1
        | b :: l2' => if leb a b then a :: merge_lists leb l1' l2 else b :: aux l2'
        end
  end.

(** util.py 563-582, 584-605: the first half gets the middle item.  The recursion is on the length. *)
Fixpoint merge_sort (leb : A -> A -> bool) (n : nat) (l : list A) : list A :=
  match n with
  | O => l
  | S m =>
      match l with
      | [] => l
      | [_] => l
      | _ => let k := Nat.div2 (S (length l)) in
             merge_lists leb (merge_sort leb m (firstn k l)) (merge_sort leb m (skipn k l))
      end
  end.
Definition sort_items (leb : A -> A -> bool) (l : list A) : list A := merge_sort leb (length l) l.

(** One group, cut before every item that is marked (the mark of the first item is ignored):
    util.py 320-333 applied to the marked nodes in order. *)
Fixpoint cut_groups (l : list (bool * A)) : seq :=
  match l with
  | [] => []
  | (_, x) :: l' =>
      match l' with
      | [] => [[x]]
      | (b, _) :: _ =>
          if b then [x] :: cut_groups l'
          else match cut_groups l' with
               | [] => [[x]]
               | g :: gs => (x :: g) :: gs
               end
      end
  end.
End Seq.
Arguments seq : clear implicits.
