(** * MNode: the methods of [BibleRangeList] that change the list, on linked nodes (ref.py 1271-1533, 1570-1631).

    MList.v describes these methods on lists of groups.  Here they run on the nodes of MGroup.v, and the state of the
    list object is kept also when a call raises.  The other list of a call is an object other than [self]. *)
From Coq Require Import List ZArith Bool.
From Verif Require Import Base Books Data MVerse MRange MSeq MList MGroup.
Import ListNotations.
Open Scope Z_scope.

Definition heap := glist range.
(** The list object after a call, and what the call returns or raises. *)
Definition run : Type := heap * res unit.
(** Statement after statement. *)
Definition seq_run (p : run) (k : heap -> run) : run := match p with (s, Ok _) => k s | (s, Err x) => (s, Err x) end.
Definition raise (s : heap) (x : exn) : run := (s, Err x).
(** An expression that does not change the list. *)
Definition let_run {A} (s : heap) (q : res A) (k : A -> run) : run := match q with Ok a => k a | Err x => (s, Err x) end.
(** A call of a method of MGroup.v. *)
Definition call (f : heap -> res heap) (s : heap) : run := match f s with Ok t => (t, Ok tt) | Err x => (s, Err x) end.

(** ** regroup *)
(** ref.py 1585-1631: the loop from a node on.  [_node_iter] (util.py 408-413) looks for the next node afterwards. *)
Fixpoint n_rg_loop (e : env) (fl : option flag) (chap_count : range -> res Z) (fuel : nat) (st : rg_state) (p : option nat) (s : heap) : run :=
  match p with
  | None => (s, Ok tt)
  | Some a =>
      match fuel with
      | O => raise s Diverge
      | S n =>
          let_run s (value s a) (fun x =>
          let_run s (rg_open e fl chap_count st x) (fun q =>
          seq_run (if fst q then call (new_group_at_node (Some a)) s else (s, Ok tt)) (fun s =>
          let_run s (rg_close e fl (fst (snd q)) (snd (snd q)) x) (fun st =>
          n_rg_loop e fl chap_count n st (n_next s a) s))))
      end
  end.
(** ref.py 1570-1631; [chap_count] (ref.py 826-839) makes a list of the pieces (ref.py 929-932) and regroups it. *)
Fixpoint n_regroup_n (e : env) (depth : nat) (fl : option flag) (s : heap) : run :=
  let chap_count x :=
    match depth with
    | O => Err Diverge
    | S n =>
        ps <- split_items e (nav_fuel e) x false true None None ;;
        l <- g_init (map OneItem ps) ;;
        let (l, q) := n_regroup_n e n None l in _ <- q ;; Ok (g_cnt l)
    end in
  seq_run (call clear_groups s) (fun s => n_rg_loop e fl chap_count (fresh s) (RG None None false) (g_first s) s).
(** As in MList.v, depth 1 is enough. *)
Definition n_regroup (e : env) (fl : option flag) (s : heap) : run := n_regroup_n e 1 fl s.

(** ** sort and merge *)
(** ref.py 1339-1344. *)
Definition n_sort (e : env) (re : bool) (s : heap) : run :=
  seq_run (call (sort (rleb e)) s) (fun s => if re then n_regroup e None s else (s, Ok tt)).
(** ref.py 1352-1362. *)
Fixpoint n_merge_loop (e : env) (fl : option flag) (fuel : nat) (p : option nat) (s : heap) : run :=
  match p with
  | None => (s, Ok tt)
  | Some a =>
      match n_next s a with
      | None => (s, Ok tt)
      | Some b =>
          match fuel with
          | O => raise s Diverge
          | S n =>
              let_run s (value s a) (fun x =>
              let_run s (value s b) (fun y =>
              let_run s (union e x y fl) (fun u =>
              match u with
              | [h] =>
                  let s := set_val a h s in
                  seq_run (call (fun s => q <- pop_after (Some a) s ;; Ok (snd q)) s) (fun s => n_merge_loop e fl n (Some a) s)
              | _ => n_merge_loop e fl n (Some b) s
              end)))
          end
      end
  end.
(** ref.py 1346-1363. *)
Definition n_merge (e : env) (fl : option flag) (s : heap) : run :=
  seq_run (n_sort e false s) (fun s =>
  seq_run (n_merge_loop e fl (fresh s) (g_first s) s) (fun s =>
  n_regroup e None s)).

(** ** Copies *)
(** ref.py 1240-1243. *)
Fixpoint n_add_groups (gs : list (list range)) (s : heap) : res heap :=
  match gs with [] => Ok s | g :: gs' => s <- append_group g s ;; n_add_groups gs' s end.
Definition n_copy (s : heap) : res heap := gs <- to_nested_lists s ;; n_add_groups gs (clear g_new).

(** ** Set operations *)
(** ref.py 1402-1416. *)
Definition n_union_update (e : env) (x : bref) (fl : option flag) (s : heap) : run :=
  let_run s (ref_ranges e x) (fun ys => seq_run (call (extend ys) s) (fun s => n_merge e fl s)).
(** The same with the list itself as [other_ref] ([l.union_update(l)], [l |= l]): [extend] reads the list that it makes
    longer (MGroup.v: [extend_self]); [fuel] is the number of items it may add. *)
Definition n_union_update_self (e : env) (fuel : nat) (fl : option flag) (s : heap) : run :=
  seq_run (call (extend_self fuel) s) (fun s => n_merge e fl s).
(** ref.py 1392-1400: the new list; the old one is not changed. *)
Definition n_union (e : env) (x : bref) (fl : option flag) (s : heap) : res heap :=
  t <- n_copy s ;; let (t, q) := n_union_update e x fl t in _ <- q ;; Ok t.

(** ref.py 1437-1442. *)
Fixpoint n_meets_with (e : env) (fl : option flag) (a : range) (bs : list range) (t : heap) : res heap :=
  match bs with
  | [] => Ok t
  | b :: bs' =>
      i <- intersection e a b fl ;;
      t <- match i with [] => Ok t | m :: _ => append m false t end ;;
      n_meets_with e fl a bs' t
  end.
Fixpoint n_all_meets (e : env) (fl : option flag) (xs bs : list range) (t : heap) : res heap :=
  match xs with [] => Ok t | a :: xs' => t <- n_meets_with e fl a bs t ;; n_all_meets e fl xs' bs t end.
(** ref.py 1418-1444. *)
Definition n_intersection (e : env) (x : bref) (fl : option flag) (s : heap) : res heap :=
  ys <- ref_ranges e x ;;
  xs <- g_iter s ;;
  t <- n_all_meets e fl xs ys (clear g_new) ;;
  let (t, q) := n_merge e fl t in _ <- q ;; Ok t.
(** ref.py 1446-1454. *)
Definition n_intersection_update (e : env) (x : bref) (fl : option flag) (s : heap) : run :=
  let_run s (n_intersection e x fl s) (fun t =>
  seq_run (clear s, Ok tt) (fun s => let_run s (g_iter t) (fun l => call (extend l) s))).

(** ref.py 1500-1502: the items are put before the node, the last one first; the new [self_node] is the node before. *)
Fixpoint n_put_before (l : list range) (a : nat) (s : heap) : res (nat * heap) :=
  match l with
  | [] => Ok (a, s)
  | x :: l' => s <- insert_before (Some a) x false s ;; b <- deref (n_prev s a) ;; n_put_before l' b s
  end.
(** ref.py 1492-1503: one node against the ranges of the other list; the node to go on from. *)
Fixpoint n_diff_inner (e : env) (fl : option flag) (others : list range) (a : nat) (s : heap) : heap * res nat :=
  match others with
  | [] => (s, Ok a)
  | b :: bs =>
      match x <- value s a ;; difference e x b fl with
      | Err x => (s, Err x)
      | Ok [] => n_diff_inner e fl bs a s
      | Ok ds =>
          match q <- n_put_before (rev ds) a s ;; r <- pop_node (Some a) (snd q) ;; Ok (fst q, snd r) with
          | Err x => (s, Err x)
          | Ok (a', s) => n_diff_inner e fl bs a' s
          end
      end
  end.
(** ref.py 1490-1504. *)
Fixpoint n_diff_loop (e : env) (fl : option flag) (others : list range) (fuel : nat) (p : option nat) (s : heap) : run :=
  match p with
  | None => (s, Ok tt)
  | Some a =>
      match fuel with
      | O => raise s Diverge
      | S n =>
          match n_diff_inner e fl others a s with
          | (s, Err x) => (s, Err x)
          | (s, Ok a) => n_diff_loop e fl others n (n_next s a) s
          end
      end
  end.
(** ref.py 1465-1505. *)
Definition n_difference_update (e : env) (fuel : nat) (x : bref) (fl : option flag) (s : heap) : run :=
  let_run s (ref_ranges e x) (fun ys =>
  seq_run (n_diff_loop e fl ys fuel (g_first s) s) (fun s => n_merge e None s)).
(** ref.py 1456-1463. *)
Definition n_difference (e : env) (fuel : nat) (x : bref) (fl : option flag) (s : heap) : res heap :=
  t <- n_copy s ;; let (t, q) := n_difference_update e fuel x fl t in _ <- q ;; Ok t.
(** ref.py 1507-1523.  A list given to a method is read as the sequence of its groups. *)
Definition n_sym_difference (e : env) (fuel : nat) (x : bref) (fl : option flag) (s : heap) : res heap :=
  ys <- ref_ranges e x ;;
  u <- n_union e (BL [ys]) fl s ;;
  i <- n_intersection e (BL [ys]) fl s ;;
  gi <- to_nested_lists i ;;
  n_difference e fuel (BL gi) fl u.
(** ref.py 1525-1533. *)
Definition n_sym_difference_update (e : env) (fuel : nat) (x : bref) (fl : option flag) (s : heap) : run :=
  let_run s (n_sym_difference e fuel x fl s) (fun t =>
  seq_run (clear s, Ok tt) (fun s => let_run s (g_iter t) (fun l => call (extend l) s))).

(** ** Verse 0s *)
(** ref.py 1272-1285: [node.value = f(node.value)] for every node. *)
Fixpoint n_map_from (f : range -> res range) (fuel : nat) (p : option nat) (s : heap) : run :=
  match p with
  | None => (s, Ok tt)
  | Some a =>
      match fuel with
      | O => raise s Diverge
      | S n => let_run s (x <- value s a ;; f x) (fun y => let s := set_val a y s in n_map_from f n (n_next s a) s)
      end
  end.
Definition n_verse_0_to_1 (e : env) (s : heap) : run := n_map_from (r_verse_0_to_1 e) (fresh s) (g_first s) s.
Definition n_verse_1_to_0 (e : env) (s : heap) : run := n_map_from (r_verse_1_to_0 e) (fresh s) (g_first s) s.
