(** * MOrder2: the other methods of [BibleRangeList] with the exact comparisons of verses (MOrder.v).

    The methods are those of MList.v and MNode.v; every comparison of ranges or verses may raise [TypeError].  The other list of a
    call is an object other than [self]. *)
From Coq Require Import List ZArith Bool.
From Verif Require Import Base Books Chars Regex Data MVerse MRange MSeq MList MGroup MNode MSort MOrder.
Import ListNotations.
Open Scope Z_scope.

(** [all(f(y) for y in l)]: stops at the first false value or exception. *)
Fixpoint allM (f : range -> res bool) (l : list range) : res bool :=
  match l with [] => Ok true | y :: ys => andM (f y) (allM f ys) end.

(** ** Whole chapters and books *)
(** ref.py 787-791, 793-797, 805-809, 811-815. *)
Definition x_spans_start_chap (e : env) (r : range) (fl : option flag) : res bool :=
  andM (w <- first_verse e (vbook (rstart r)) (Some (vchap (rstart r))) fl ;; Ok (verse_eqb (rstart r) w))
       (w <- last_verse e (vbook (rstart r)) (Some (vchap (rstart r))) ;; verse_ge e (rend r) w).
Definition x_spans_end_chap (e : env) (r : range) (fl : option flag) : res bool :=
  andM (w <- last_verse e (vbook (rend r)) (Some (vchap (rend r))) ;; Ok (verse_eqb (rend r) w))
       (w <- first_verse e (vbook (rend r)) (Some (vchap (rend r))) fl ;; verse_le e (rstart r) w).
Definition x_spans_start_book (e : env) (r : range) (fl : option flag) : res bool :=
  andM (w <- first_verse e (vbook (rstart r)) None fl ;; Ok (verse_eqb (rstart r) w))
       (w <- last_verse e (vbook (rstart r)) None ;; verse_ge e (rend r) w).
Definition x_spans_end_book (e : env) (r : range) (fl : option flag) : res bool :=
  andM (w <- last_verse e (vbook (rend r)) None ;; Ok (verse_eqb (rend r) w))
       (w <- first_verse e (vbook (rend r)) None fl ;; verse_le e (rstart r) w).

(** ** Queries *)
(** ref.py 1365-1373: the pairs in the order of the two loops. *)
Definition x_l_is_disjoint (e : env) (x : bref) (s : heap) : res bool :=
  ys <- ref_ranges e x ;; xs <- g_iter s ;;
  allM (fun a => allM (fun b => x_is_disjoint e a b) ys) xs.
(** ref.py 1375-1390. *)
Definition x_l_contains (e : env) (x : bref) (fl : option flag) (s : heap) : res bool :=
  ys <- ref_ranges e x ;;
  t <- n_copy s ;;
  let (t, q) := x_merge e fl t in
  _ <- q ;; ms <- g_iter t ;;
  allM (fun b => anyM (fun a => x_contains e a b) ms) ys.
(** [min(self)] and [max(self)]: an item replaces the one found so far if it is less, or greater. *)
Fixpoint x_min_from (e : env) (m : range) (l : list range) : res range :=
  match l with [] => Ok m | x :: xs => c <- range_lt e x m ;; x_min_from e (if c : bool then x else m) xs end.
Fixpoint x_max_from (e : env) (m : range) (l : list range) : res range :=
  match l with [] => Ok m | x :: xs => c <- range_gt e x m ;; x_max_from e (if c : bool then x else m) xs end.
Definition x_l_min (e : env) (s : heap) : res range :=
  l <- g_iter s ;; match l with [] => Err ValueErr | x :: xs => x_min_from e x xs end.
Definition x_l_max (e : env) (s : heap) : res range :=
  l <- g_iter s ;; match l with [] => Err ValueErr | x :: xs => x_max_from e x xs end.
(** ref.py 1304-1311. *)
Definition x_l_range (e : env) (s : heap) : res range :=
  a <- x_l_min e s ;; b <- x_l_max e s ;; new_range e (rstart a) (rend b) (Some ALL).
(** ref.py 1313-1324. *)
Definition x_l_chap_range (e : env) (fl : option flag) (s : heap) : res range :=
  let f := flag_or (eff e fl) MULTIBOOK in
  a <- x_l_min e s ;; b <- x_l_max e s ;;
  v <- v_first_verse e (rstart a) None (Some f) ;; w <- v_last_verse e (rend b) None ;;
  new_range e v w (Some f).
(** ref.py 1326-1337. *)
Definition x_l_book_range (e : env) (fl : option flag) (s : heap) : res range :=
  let f := flag_or (eff e fl) MULTIBOOK in
  a <- x_l_min e s ;; b <- x_l_max e s ;;
  v <- first_verse e (vbook (rstart a)) None (Some f) ;; w <- last_verse e (vbook (rend b)) None ;;
  new_range e v w (Some f).

(** ** Set operations *)
(** ref.py 1392-1400. *)
Definition x_l_union (e : env) (x : bref) (fl : option flag) (s : heap) : res heap :=
  t <- n_copy s ;; let (t, q) := x_union_update e x fl t in _ <- q ;; Ok t.
(** ref.py 1437-1442. *)
Fixpoint x_meets_with (e : env) (fl : option flag) (a : range) (bs : list range) (t : heap) : res heap :=
  match bs with
  | [] => Ok t
  | b :: bs' =>
      i <- x_intersection e a b fl ;;
      t <- match i with [] => Ok t | m :: _ => append m false t end ;;
      x_meets_with e fl a bs' t
  end.
Fixpoint x_all_meets (e : env) (fl : option flag) (xs bs : list range) (t : heap) : res heap :=
  match xs with [] => Ok t | a :: xs' => t <- x_meets_with e fl a bs t ;; x_all_meets e fl xs' bs t end.
(** ref.py 1418-1444. *)
Definition x_l_intersection (e : env) (x : bref) (fl : option flag) (s : heap) : res heap :=
  ys <- ref_ranges e x ;;
  xs <- g_iter s ;;
  t <- x_all_meets e fl xs ys (clear g_new) ;;
  let (t, q) := x_merge e fl t in _ <- q ;; Ok t.
(** ref.py 1446-1454. *)
Definition x_intersection_update (e : env) (x : bref) (fl : option flag) (s : heap) : run :=
  let_run s (x_l_intersection e x fl s) (fun t =>
  seq_run (clear s, Ok tt) (fun s => let_run s (g_iter t) (fun l => call (extend l) s))).
(** ref.py 1492-1503. *)
Fixpoint x_diff_inner (e : env) (fl : option flag) (others : list range) (a : nat) (s : heap) : heap * res nat :=
  match others with
  | [] => (s, Ok a)
  | b :: bs =>
      match x <- value s a ;; x_difference e x b fl with
      | Err x => (s, Err x)
      | Ok [] => x_diff_inner e fl bs a s
      | Ok ds =>
          match q <- n_put_before (rev ds) a s ;; r <- pop_node (Some a) (snd q) ;; Ok (fst q, snd r) with
          | Err x => (s, Err x)
          | Ok (a', s) => x_diff_inner e fl bs a' s
          end
      end
  end.
(** ref.py 1490-1504. *)
Fixpoint x_diff_loop (e : env) (fl : option flag) (others : list range) (fuel : nat) (p : option nat) (s : heap) : run :=
  match p with
  | None => (s, Ok tt)
  | Some a =>
      match fuel with
      | O => raise s Diverge
      | S n =>
          match x_diff_inner e fl others a s with
          | (s, Err x) => (s, Err x)
          | (s, Ok a) => x_diff_loop e fl others n (n_next s a) s
          end
      end
  end.
(** ref.py 1465-1505. *)
Definition x_difference_update (e : env) (fuel : nat) (x : bref) (fl : option flag) (s : heap) : run :=
  let_run s (ref_ranges e x) (fun ys =>
  seq_run (x_diff_loop e fl ys fuel (g_first s) s) (fun s => x_merge e None s)).
(** ref.py 1456-1463. *)
Definition x_l_difference (e : env) (fuel : nat) (x : bref) (fl : option flag) (s : heap) : res heap :=
  t <- n_copy s ;; let (t, q) := x_difference_update e fuel x fl t in _ <- q ;; Ok t.
(** ref.py 1507-1523. *)
Definition x_l_sym_difference (e : env) (fuel : nat) (x : bref) (fl : option flag) (s : heap) : res heap :=
  ys <- ref_ranges e x ;;
  u <- x_l_union e (BL [ys]) fl s ;;
  i <- x_l_intersection e (BL [ys]) fl s ;;
  gi <- to_nested_lists i ;;
  x_l_difference e fuel (BL gi) fl u.
(** ref.py 1525-1533. *)
Definition x_sym_difference_update (e : env) (fuel : nat) (x : bref) (fl : option flag) (s : heap) : run :=
  let_run s (x_l_sym_difference e fuel x fl s) (fun t =>
  seq_run (clear s, Ok tt) (fun s => let_run s (g_iter t) (fun l => call (extend l) s))).

(** ** Methods of a range with a list *)
(** ref.py 937-938. *)
Definition x_r_is_disjoint (e : env) (a : range) (s : heap) : res bool := x_l_is_disjoint e (BR a) s.
(** ref.py 955-958. *)
Definition x_r_is_adjacent (e : env) (a : range) (s : heap) : res bool :=
  andM (x_l_is_disjoint e (BR a) s) (l <- g_iter s ;; anyM (fun b => x_is_adjacent e a b None) l).
(** ref.py 974-976. *)
Definition x_r_contains (e : env) (a : range) (s : heap) : res bool :=
  t <- g_init [OneItem a] ;; l <- g_iter s ;; x_l_contains e (BL [l]) None t.
(** ref.py 990-992. *)
Definition x_r_surrounds (e : env) (a : range) (s : heap) : res bool :=
  l <- g_iter s ;; allM (fun b => x_surrounds e a b) l.
