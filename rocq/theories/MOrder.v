(** * MOrder: operations of [BibleRange] and [BibleRangeList] with the exact comparisons of verses.

    MRange.v uses a total order of verses ([vltb]).  In Python the comparison of verses of two books of which one is not in
    [book_order] raises [TypeError] ([verse_lt]... of MVerse.v); here every comparison may raise. *)
From Coq Require Import List ZArith Bool.
From Verif Require Import Base Books Chars Regex Data MVerse MRange MSeq MList MGroup MNode MSort.
Import ListNotations.
Open Scope Z_scope.

(** ref.py 592 ([dataclass(order=True)]): ranges compare as the tuples (start, end): the first differing component decides. *)
Definition range_cmp (vop : env -> verse -> verse -> res bool) (e : env) (a b : range) : res bool :=
  if verse_eqb (rstart a) (rstart b) then vop e (rend a) (rend b) else vop e (rstart a) (rstart b).
Definition range_lt := range_cmp verse_lt.
Definition range_le := range_cmp verse_le.
Definition range_gt := range_cmp verse_gt.
Definition range_ge := range_cmp verse_ge.

(** Python's [min(a, b)] and [max(a, b)]: the first unless the second is less or greater (ref.py 1022-1023, 1046-1047). *)
Definition x_min (e : env) (a b : verse) : res verse := c <- verse_lt e b a ;; Ok (if c : bool then b else a).
Definition x_max (e : env) (a b : verse) : res verse := c <- verse_gt e b a ;; Ok (if c : bool then b else a).

(** "(self, other_ref) if self < other_ref else (other_ref, self)" (ref.py 943, 963, 1019). *)
Definition x_order2 (e : env) (a b : range) : res (range * range) := c <- range_lt e a b ;; Ok (if c : bool then (a, b) else (b, a)).
(** ref.py 942-944. *)
Definition x_is_disjoint (e : env) (a b : range) : res bool := q <- x_order2 e a b ;; verse_lt e (rend (fst q)) (rstart (snd q)).
(** ref.py 962-964. *)
Definition x_is_adjacent (e : env) (a b : range) (fl : option flag) : res bool :=
  q <- x_order2 e a b ;; o <- add e (rend (fst q)) 1 fl ;; Ok (overse_eqb o (rstart (snd q))).
(** ref.py 980-982. *)
Definition x_contains (e : env) (a b : range) : res bool :=
  andM (andM (verse_ge e (rstart b) (rstart a)) (verse_le e (rstart b) (rend a)))
       (andM (verse_ge e (rend b) (rstart a)) (verse_le e (rend b) (rend a))).
(** ref.py 996-998. *)
Definition x_surrounds (e : env) (a b : range) : res bool :=
  andM (andM (verse_gt e (rstart b) (rstart a)) (verse_lt e (rstart b) (rend a)))
       (andM (verse_gt e (rend b) (rstart a)) (verse_lt e (rend b) (rend a))).
(** ref.py 1017-1024. *)
Definition x_union (e : env) (a b : range) (fl : option flag) : res (list range) :=
  sep <- andM (x_is_disjoint e a b) (notM (x_is_adjacent e a b fl)) ;;
  if sep : bool then q <- x_order2 e a b ;; Ok [fst q; snd q]
  else s <- x_min e (rstart a) (rstart b) ;; t <- x_max e (rend a) (rend b) ;; r <- new_range e s t fl ;; Ok [r].
(** ref.py 1042-1048. *)
Definition x_intersection (e : env) (a b : range) (fl : option flag) : res (list range) :=
  d <- x_is_disjoint e a b ;;
  if d : bool then Ok []
  else s <- x_max e (rstart a) (rstart b) ;; t <- x_min e (rend a) (rend b) ;; r <- new_range e s t fl ;; Ok [r].
(** ref.py 1052-1078. *)
Definition x_difference (e : env) (a b : range) (fl : option flag) : res (list range) :=
  d <- x_is_disjoint e a b ;;
  if d : bool then Ok [a]
  else
    c <- x_contains e b a ;;
    if c : bool then Ok []
    else
      p <- subtract e (rstart b) 1 fl ;;
      lower <- new_range_opt e (Some (rstart a)) p None ;;
      q <- add e (rend b) 1 fl ;;
      upper <- new_range_opt e q (Some (rend a)) None ;;
      s <- x_surrounds e a b ;;
      if s : bool then Ok [lower; upper]
      else l <- range_lt e a b ;; Ok (if l : bool then [lower] else [upper]).
(** ref.py 1080-1102. *)
Definition x_sym_difference (e : env) (a b : range) (fl : option flag) : res (list range) :=
  if range_eqb a b then Ok []
  else
    u <- x_union e a b fl ;;
    i <- x_intersection e a b fl ;;
    match u, i with
    | [u0], i0 :: _ => x_difference e u0 i0 None
    | _, _ => Ok u
    end.
(** ref.py 1104-1108. *)
Fixpoint x_iter_loop (e : env) (fuel : nat) (v : option verse) (stop : verse) : res (list verse) :=
  match v with
  | None => Ok []
  | Some v1 =>
      c <- verse_le e v1 stop ;;
      if c : bool then
        match fuel with
        | O => Err Diverge
        | S n => o <- add e v1 1 (Some MULTIBOOK) ;; vs <- x_iter_loop e n o stop ;; Ok (v1 :: vs)
        end
      else Ok []
  end.
Definition x_iter_range (e : env) (fuel : nat) (r : range) : res (list verse) := x_iter_loop e fuel (Some (rstart r)) (rend r).

(** ** Lists *)
(** ref.py 1339-1344. *)
Definition x_sort (e : env) (re : bool) (s : heap) : run :=
  seq_run (sort_x (range_le e) s) (fun s => if re then n_regroup e None s else (s, Ok tt)).
(** ref.py 1352-1362. *)
Fixpoint x_merge_loop (e : env) (fl : option flag) (fuel : nat) (p : option nat) (s : heap) : run :=
  match p with
  | None => (s, Ok tt)
  | Some a =>
      match n_next s a with
      | None => (s, Ok tt)
      | Some b =>
          match fuel with
          | O => raise s Diverge
          | S n =>
              let_run s (value s a) (fun x =>
              let_run s (value s b) (fun y =>
              let_run s (x_union e x y fl) (fun u =>
              match u with
              | [h] =>
                  let s := set_val a h s in
                  seq_run (call (fun s => q <- pop_after (Some a) s ;; Ok (snd q)) s) (fun s => x_merge_loop e fl n (Some a) s)
              | _ => x_merge_loop e fl n (Some b) s
              end)))
          end
      end
  end.
(** ref.py 1346-1363. *)
Definition x_merge (e : env) (fl : option flag) (s : heap) : run :=
  seq_run (x_sort e false s) (fun s =>
  seq_run (x_merge_loop e fl (fresh s) (g_first s) s) (fun s =>
  n_regroup e None s)).
(** ref.py 1402-1416. *)
Definition x_union_update (e : env) (x : bref) (fl : option flag) (s : heap) : run :=
  let_run s (ref_ranges e x) (fun ys => seq_run (call (extend ys) s) (fun s => x_merge e fl s)).
