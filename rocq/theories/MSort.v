(** * MSort: [GroupedList.sort] for items that may not be comparable (util.py 563-629), with the state of the list when it raises.

    In MGroup.v the comparison of items is a total function.  Here [le x y] is Python's [x <= y], which may raise; an exception
    ends all calls that are under way, and every assignment made before it stays. *)
From Coq Require Import List ZArith Bool Arith.
From Verif Require Import Base MSeq MGroup.
Import ListNotations.
Open Scope Z_scope.

Section MaySort.
Context {A : Type}.
Variable le : A -> A -> res bool.

(** The list after a call, and what the call returns or raises. *)
Definition outcome (B : Type) : Type := glist A * res B.
Definition after {B C} (p : outcome B) (k : B -> glist A -> outcome C) : outcome C :=
  match p with (s, Ok b) => k b s | (s, Err x) => (s, Err x) end.
(** An expression that assigns nothing. *)
Definition look {B C} (q : res B) (s : glist A) (k : B -> outcome C) : outcome C :=
  match q with Ok b => k b | Err x => (s, Err x) end.

(** util.py 607-629.  Nodes compare by their values (util.py 63-64); the links are assigned when the recursive call has returned. *)
Fixpoint merge_x (fuel : nat) (fa la fb lb : option nat) (s : glist A) : outcome (option nat * option nat) :=
  match fa, fb with
  | None, _ => (s, Ok (fb, lb))
  | _, None => (s, Ok (fa, la))
  | Some a, Some b =>
      match fuel with
      | O => (s, Err Diverge)
      | S n =>
          look (x <- value s a ;; y <- value s b ;; le x y) s (fun c =>
          if c then
            after (merge_x n (n_next s a) la fb lb s) (fun q s =>
            let s := set_next a (fst q) s in
            look (deref (fst q)) s (fun c => (set_prev a None (set_prev c (Some a) s), Ok (Some a, snd q))))
          else
            after (merge_x n fa la (n_next s b) lb s) (fun q s =>
            let s := set_next b (fst q) s in
            look (deref (fst q)) s (fun c => (set_prev b None (set_prev c (Some b) s), Ok (Some b, snd q)))))
      end
  end.
(** util.py 569-582.  [_split] (util.py 584-605) compares nothing; it can only fail on a list that is not well linked, and the state
    is then not described. *)
Fixpoint merge_sort_x (fuel : nat) (first : option nat) (cl : bool) (s : glist A) : outcome (option nat * option nat) :=
  match first with
  | None => (s, Ok (first, first))
  | Some a =>
      match n_next s a with
      | None => (s, Ok (first, first))
      | Some _ =>
          match fuel with
          | O => (s, Err Diverge)
          | S n =>
              look (split_nodes a cl s) s (fun q =>
              after (merge_sort_x n first false (snd q)) (fun qa s =>
              after (merge_sort_x n (fst q) false s) (fun qb s =>
              merge_x (fresh s) (fst qa) (snd qa) (fst qb) (snd qb) s)))
          end
      end
  end.
(** util.py 563-567. *)
Definition sort_x (s : glist A) : outcome unit :=
  after (merge_sort_x (fresh s) (g_first s) true s) (fun q s =>
  let s := set_last (snd q) (set_first (fst q) s) in
  look (setup_single_group s) s (fun s => (s, Ok tt))).
End MaySort.
