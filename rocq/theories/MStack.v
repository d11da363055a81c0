(** * MStack: sorting with the limited stack of Python (util.py 563-629).

    In MGroup.v and MSort.v calls nest as deep as they like.  Here [room] is the number of calls that can still be nested, i.e. Python's
    recursion limit less the calls under way; a call when there is no room raises [RecursionError].  The calls that the sort makes are all
    counted: of [_merge_sort], [_split], [clear_group_head], [_merge_sublists], [_setup_single_group] with its [__len__], and of the
    comparison of two nodes, which nests [cmp x y] calls, the methods of the items included.  Calls of built-in functions are not counted. *)
From Coq Require Import List ZArith Bool Arith.
From Verif Require Import Base Books Data MVerse MRange MSeq MList MGroup MNode MSort.
Import ListNotations.
Open Scope nat_scope.

Section Stack.
Context {A : Type}.
Variable leb : A -> A -> bool.
Variable cmp : A -> A -> nat.

(** util.py 607-629.  The recursion is on the room, so that no fuel is needed. *)
Fixpoint merge_k (room : nat) (fa la fb lb : option nat) (s : glist A) : outcome (option nat * option nat) :=
  match room with
  | O => (s, Err RecErr)
  | S r =>
      match fa, fb with
      | None, _ => (s, Ok (fb, lb))
      | _, None => (s, Ok (fa, la))
      | Some a, Some b =>
          look (x <- value s a ;; y <- value s b ;; (if r <? cmp x y then Err RecErr else Ok (leb x y))) s (fun c =>
          if c then
            after (merge_k r (n_next s a) la fb lb s) (fun q s =>
            let s := set_next a (fst q) s in
            look (deref (fst q)) s (fun c => (set_prev a None (set_prev c (Some a) s), Ok (Some a, snd q))))
          else
            after (merge_k r fa la (n_next s b) lb s) (fun q s =>
            let s := set_next b (fst q) s in
            look (deref (fst q)) s (fun c => (set_prev b None (set_prev c (Some b) s), Ok (Some b, snd q)))))
      end
  end.
(** util.py 569-582.  [_split] (util.py 584-605) calls [clear_group_head] (util.py 46-49) first of all if it is to clear the heads, and
    nothing otherwise. *)
Fixpoint merge_sort_k (room : nat) (first : option nat) (cl : bool) (s : glist A) : outcome (option nat * option nat) :=
  match room with
  | O => (s, Err RecErr)
  | S r =>
      match first with
      | None => (s, Ok (first, first))
      | Some a =>
          match n_next s a with
          | None => (s, Ok (first, first))
          | Some _ =>
              if r <? (if cl then 2 else 1) then (s, Err RecErr) else
              look (split_nodes a cl s) s (fun q =>
              after (merge_sort_k r first false (snd q)) (fun qa s =>
              after (merge_sort_k r (fst q) false s) (fun qb s =>
              merge_k r (fst qa) (snd qa) (fst qb) (snd qb) s)))
          end
      end
  end.
(** util.py 563-567; [_setup_single_group] (util.py 245-255) calls [len(self)]. *)
Definition sort_k (room : nat) (s : glist A) : outcome unit :=
  after (merge_sort_k room (g_first s) true s) (fun q s =>
  let s := set_last (snd q) (set_first (fst q) s) in
  if room <? 2 then (s, Err RecErr) else
  look (setup_single_group s) s (fun s => (s, Ok tt))).
End Stack.

(** ** Lists of ranges *)
(** Of these methods only the calls that lead to the sort are counted: the other calls they make nest less deep than the sort of any
    list with more than a few items.  The ranges are ones that can be compared. *)
Section Ranges.
Variable cmp : range -> range -> nat.
(** ref.py 1339-1344. *)
Definition k_sort (e : env) (room : nat) (re : bool) (s : heap) : run :=
  match room with
  | O => raise s RecErr
  | S r => seq_run (sort_k (rleb e) cmp r s) (fun s => if re then n_regroup e None s else (s, Ok tt))
  end.
(** ref.py 1346-1363. *)
Definition k_merge (e : env) (room : nat) (fl : option flag) (s : heap) : run :=
  match room with
  | O => raise s RecErr
  | S r =>
      seq_run (k_sort e r false s) (fun s =>
      seq_run (n_merge_loop e fl (fresh s) (g_first s) s) (fun s =>
      n_regroup e None s))
  end.
(** ref.py 1402-1416. *)
Definition k_union_update (e : env) (room : nat) (x : bref) (fl : option flag) (s : heap) : run :=
  let_run s (ref_ranges e x) (fun ys => seq_run (call (extend ys) s) (fun s =>
  match room with O => raise s RecErr | S r => k_merge e r fl s end)).
(** ref.py 1375-1390. *)
Definition k_contains (e : env) (room : nat) (x : bref) (fl : option flag) (s : heap) : res bool :=
  ys <- ref_ranges e x ;;
  t <- n_copy s ;;
  let (t, q) := match room with O => raise t RecErr | S r => k_merge e r fl t end in
  _ <- q ;; ms <- g_iter t ;;
  Ok (forallb (fun b => existsb (fun a => contains e a b) ms) ys).
End Ranges.
