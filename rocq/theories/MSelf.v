(** * MSelf: [l -= l], node by node. *)
From Coq Require Import List ZArith Bool.
From Verif Require Import Base Books Data MVerse MRange MSeq MList MGroup MNode.
Import ListNotations.

(** ref.py 1492-1503 when [other_ref] is the list itself: [for other_range in other_ref] runs through the nodes that are
    being changed.  [q] is the node at which the generator (util.py 637-642) is to yield next; it goes to [node.next] after
    the changes. *)
Fixpoint n_self_inner (e : env) (fl : option flag) (fuel : nat) (q : option nat) (a : nat) (s : heap) : heap * res nat :=
  match q with
  | None => (s, Ok a)
  | Some b =>
      match fuel with
      | O => (s, Err Diverge)
      | S n =>
          match x <- value s a ;; y <- value s b ;; difference e x y fl with
          | Err x => (s, Err x)
          | Ok [] => n_self_inner e fl n (n_next s b) a s
          | Ok ds =>
              match q <- n_put_before (rev ds) a s ;; r <- pop_node (Some a) (snd q) ;; Ok (fst q, snd r) with
              | Err x => (s, Err x)
              | Ok (a', s) => n_self_inner e fl n (n_next s b) a' s
              end
          end
      end
  end.
(** ref.py 1490-1504. *)
Fixpoint n_self_loop (e : env) (fl : option flag) (fuel : nat) (k : nat) (p : option nat) (s : heap) : run :=
  match p with
  | None => (s, Ok tt)
  | Some a =>
      match fuel with
      | O => raise s Diverge
      | S n =>
          match n_self_inner e fl k (g_first s) a s with
          | (s, Err x) => (s, Err x)
          | (s, Ok a) => n_self_loop e fl n k (n_next s a) s
          end
      end
  end.
(** ref.py 1465-1505 with [other_ref = self]; [fuel] bounds both loops. *)
Definition n_difference_update_self (e : env) (fuel : nat) (fl : option flag) (s : heap) : run :=
  seq_run (n_self_loop e fl fuel fuel (g_first s) s) (fun s => n_merge e None s).
