(** * SpecIter: what an iterator of a changing list gives.

    In a history of a list (SpecGroup) every item has a number.  Of every item that has been in the list we remember
    its value and its neighbours, as they were when the item was last in the list. *)
From Coq Require Import List ZArith Bool Arith.
From Verif Require Import Base MSeq SpecGroup.
Import ListNotations.

Section Iter.
Context {A : Type}.
Variable eqb leb : A -> A -> bool.
Local Notation tagged := (list (list (nat * A))).

(** The contents after each operation of a history that has changed them. *)
Fixpoint stages (os : list (op A)) (n : nat) (h : tagged) : list tagged :=
  match os with
  | [] => []
  | o :: os' =>
      match s_step eqb leb o n h with
      | Some (Ok (_, (n', h'))) => h' :: stages os' n' h'
      | Some (Err _) => stages os' n h
      | None => []
      end
  end.
(** An item of a list: its value, and the items before and after it. *)
Definition entry_of : Type := A * option nat * option nat.
Fixpoint look (a : nat) (before : option nat) (l : list (nat * A)) : option entry_of :=
  match l with
  | [] => None
  | (b, x) :: l' =>
      if Nat.eqb a b then Some (x, before, match l' with [] => None | (c, _) :: _ => Some c end)
      else look a (Some b) l'
  end.
(** The last that was seen of item [a] in the contents [hs], in this order. *)
Fixpoint last_seen (hs : list tagged) (a : nat) : option entry_of :=
  match hs with
  | [] => None
  | h :: hs' => match last_seen hs' a with
                | Some w => Some w
                | None => look a None (concat h)
                end
  end.
Definition remembered (os : list (op A)) : nat -> option entry_of := last_seen (stages os 0 []).

(** The first items of the groups. *)
Definition firsts (h : tagged) : list nat := flat_map (fun p => match p with [] => [] | (a, _) :: _ => [a] end) h.
(** The groups without the items that are not wanted, and without groups that have no item left. *)
Definition sift (keep : A -> bool) (g : list (list A)) : list (list A) :=
  filter (fun p => match p with [] => false | _ => true end) (map (filter keep) g).
End Iter.
