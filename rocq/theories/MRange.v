(** * MRange: model of [BibleRange] (ref.py 592-1108) and of the range-valued methods of
    [BibleBook] and [BibleVerse].

    The result of a method that returns a [BibleRangeList] is modelled here as the list of its
    items; the grouping is added in MList.v. *)
From Coq Require Import List ZArith Bool Lia.
From Verif Require Import Base Books Chars Regex Data MVerse.
Import ListNotations.
Open Scope Z_scope.

(** ref.py 605-606. *)
Record range := R { rstart : verse; rend : verse }.

(** ref.py 592 (dataclass order): ranges compare as the pairs (start, end). *)
Definition range_eqb (a b : range) : bool := verse_eqb (rstart a) (rstart b) && verse_eqb (rend a) (rend b).
Definition rltb (e : env) (a b : range) : bool :=
  if verse_eqb (rstart a) (rstart b) then vltb e (rend a) (rend b) else vltb e (rstart a) (rstart b).
Definition rleb (e : env) (a b : range) : bool := negb (rltb e b a).

(** [min(a, b)] and [max(a, b)] on verses (ref.py 1022-1023, 1046-1047). *)
Definition vmin (e : env) (a b : verse) : verse := if vltb e b a then b else a.
Definition vmax (e : env) (a b : verse) : verse := if vltb e a b then b else a.

(** ref.py 665-673: [BibleRange(start=..., end=..., flags=...)]. *)
Definition new_range (e : env) (s t : verse) (fl : option flag) : res range :=
  let f := eff e fl in
  if negb (multibook f) && negb (book_eqb (vbook s) (vbook t)) then Err Multibook
  else x <- verse_gt e s t ;; Ok (if x then R t s else R s t).

(** The same constructor when an argument may be [None] (the result of [add] or [subtract]):
    ref.py 666 evaluates [start.book] first when MULTIBOOK is unset ([AttributeError] on [None]),
    otherwise line 669 compares with [None] ([TypeError]). *)
Definition new_range_opt (e : env) (s t : option verse) (fl : option flag) : res range :=
  match s, t with
  | Some s', Some t' => new_range e s' t' fl
  | _, _ => if multibook (eff e fl) then Err TypeErr else Err AttrErr
  end.

(** ref.py 708-720: swapping of the positional arguments; [new_range_pos] first raises the [TypeError] of the
    comparison of line 710 if a book has no order, so that [bord] only decides for books with an order. *)
Definition oz_gtb (a b : option Z) : bool :=
  match a, b with Some x, Some y => x >? y | _, _ => false end.
Definition o_is {A} (a : option A) : bool := match a with Some _ => true | None => false end.
Definition oz_eq_or_none (b a : option Z) : bool :=      (* "b is None or b == a" *)
  match b, a with None, _ => true | Some y, Some x => x =? y | Some _, None => false end.

Record pos_args := PA {
  pa_sb : book; pa_sc : option Z; pa_sv : option Z;
  pa_eb : option book; pa_ec : option Z; pa_ev : option Z }.

Definition swap_args (e : env) (a : pos_args) : pos_args :=
  match a with
  | PA sb sc sv eb ec ev =>
      match eb with
      | Some eb' =>
          if bord e eb' <? bord e sb then PA eb' ec ev (Some sb) sc sv
          else if book_eqb eb' sb && o_is sc then
            if oz_gtb sc ec then PA sb ec ev eb sc sv
            else if oz_eq_or_none ec sc && o_is sv then
              if oz_gtb sv ev then PA sb sc ev eb ec sv else a
            else a
          else a
      | None =>
          if o_is sc then
            if oz_gtb sc ec then PA sb ec ev eb sc sv
            else if oz_eq_or_none ec sc && o_is sv then
              if oz_gtb sv ev then PA sb sc ev eb ec sv else a
            else a
          else a
      end
  end.

(** ref.py 722-763: construction from the (swapped) positional arguments. *)
Definition new_range_swapped (e : env) (a : pos_args) (fl : option flag) : res range :=
  let f := eff e fl in
  match a with
  | PA sb sc sv eb ec ev =>
      let have_end := o_is eb || o_is ec || o_is ev in
      if negb (o_is sc) && o_is sv then Err InvalidRef
      else
        se <- match sc with
              | None =>
                  s <- first_verse e sb None (Some f) ;;
                  if have_end then Ok (s, None)
                  else t <- last_verse e sb None ;; Ok (s, Some t)
              | Some c =>
                  match sv with
                  | None =>
                      s <- first_verse e sb (Some c) (Some f) ;;
                      if have_end then Ok (s, None)
                      else t <- last_verse e sb (Some c) ;; Ok (s, Some t)
                  | Some v =>
                      s <- new_verse e sb c v (Some f) ;;
                      if have_end then Ok (s, None)
                      else t <- new_verse e sb c v (Some f) ;; Ok (s, Some t)
                  end
              end ;;
        let s := fst se in
        t <- match snd se with
             | Some t => Ok t
             | None =>
                 let eb' := match eb with Some x => x | None => sb end in
                 match ec, ev with
                 | None, None => last_verse e eb' None
                 | Some c, None => last_verse e eb' (Some c)
                 | None, Some v =>
                     if negb (book_eqb sb eb') then Err InvalidRef
                     else new_verse e eb' (vchap s) v (Some f)
                 | Some c, Some v => new_verse e eb' c v (Some f)
                 end
             end ;;
        if negb (multibook f) && negb (book_eqb (vbook s) (vbook t)) then Err Multibook
        else Ok (R s t)
  end.

(** ref.py 691-763: [BibleRange(start_book, start_chap, start_verse, end_book, end_chap, end_verse)]
    with [BibleBook] books; trailing arguments may be omitted ([None]). *)
Definition new_range_pos (e : env) (a : pos_args) (fl : option flag) : res range :=
  _ <- match pa_eb a with Some b => book_gt e (pa_sb a) b | None => Ok false end ;;
  new_range_swapped e (swap_args e a) fl.

(** ref.py 608-618. *)
Definition whole_bible (e : env) (fl : option flag) : res range :=
  let f := flag_or (eff e fl) MULTIBOOK in
  match book_order (ed e), rev (book_order (ed e)) with
  | b0 :: _, b1 :: _ =>
      s <- first_verse e b0 None (Some f) ;; t <- last_verse e b1 None ;; new_range e s t (Some f)
  | _, _ => Err IndexErr
  end.

(** ref.py 225-228. *)
Definition book_range (e : env) (b : book) (fl : option flag) : res range :=
  s <- first_verse e b None fl ;; t <- last_verse e b None ;; new_range e s t fl.

(** ref.py 230-233. *)
Definition book_chap_range (e : env) (b : book) (c : Z) (fl : option flag) : res range :=
  s <- first_verse e b (Some c) fl ;; t <- last_verse e b (Some c) ;; new_range e s t fl.

(** ref.py 451-454. *)
Definition v_chap_range (e : env) (v : verse) (fl : option flag) : res range :=
  s <- v_first_verse e v None fl ;; t <- v_last_verse e v None ;; new_range e s t fl.

(** ref.py 456-459. *)
Definition v_book_range (e : env) (v : verse) (fl : option flag) : res range := book_range e (vbook v) fl.

(** ref.py 765-769. *)
Definition r_verse_0_to_1 (e : env) (r : range) : res range :=
  s <- verse_0_to_1 e (rstart r) ;; t <- verse_0_to_1 e (rend r) ;; new_range e s t (Some ALL).

(** ref.py 771-775. *)
Definition r_verse_1_to_0 (e : env) (r : range) : res range :=
  s <- verse_1_to_0 e (rstart r) ;; t <- verse_1_to_0 e (rend r) ;; new_range e s t (Some ALL).

(** ref.py 777-779. *)
Definition is_single_verse (r : range) : bool := verse_eqb (rstart r) (rend r).

(** [a and b] of Python, where evaluating [a] or [b] may raise and [b] is evaluated only if [a] holds. *)
Definition andM (a : res bool) (b : res bool) : res bool :=
  x <- a ;; if x then b else Ok false.
Definition orM (a : res bool) (b : res bool) : res bool :=
  x <- a ;; if x then Ok true else b.
Definition notM (a : res bool) : res bool := x <- a ;; Ok (negb x).

(** ref.py 781-785. *)
Definition is_whole_chap (e : env) (r : range) (fl : option flag) : res bool :=
  let s := rstart r in let t := rend r in
  andM (Ok (book_eqb (vbook s) (vbook t)))
  (andM (w <- first_verse e (vbook s) (Some (vchap s)) fl ;; Ok (verse_eqb s w))
        (w <- last_verse e (vbook t) (Some (vchap s)) ;; Ok (verse_eqb t w))).

(** ref.py 787-791. *)
Definition spans_start_chap (e : env) (r : range) (fl : option flag) : res bool :=
  let s := rstart r in let t := rend r in
  andM (w <- first_verse e (vbook s) (Some (vchap s)) fl ;; Ok (verse_eqb s w))
       (w <- last_verse e (vbook s) (Some (vchap s)) ;; Ok (vleb e w t)).

(** ref.py 793-797. *)
Definition spans_end_chap (e : env) (r : range) (fl : option flag) : res bool :=
  let s := rstart r in let t := rend r in
  andM (w <- last_verse e (vbook t) (Some (vchap t)) ;; Ok (verse_eqb t w))
       (w <- first_verse e (vbook t) (Some (vchap t)) fl ;; Ok (vleb e s w)).

(** ref.py 799-803. *)
Definition is_whole_book (e : env) (r : range) (fl : option flag) : res bool :=
  let s := rstart r in let t := rend r in
  andM (Ok (book_eqb (vbook s) (vbook t)))
  (andM (w <- first_verse e (vbook s) None fl ;; Ok (verse_eqb s w))
        (w <- last_verse e (vbook t) None ;; Ok (verse_eqb t w))).

(** ref.py 805-809. *)
Definition spans_start_book (e : env) (r : range) (fl : option flag) : res bool :=
  let s := rstart r in let t := rend r in
  andM (w <- first_verse e (vbook s) None fl ;; Ok (verse_eqb s w))
       (w <- last_verse e (vbook s) None ;; Ok (vleb e w t)).

(** ref.py 811-815. *)
Definition spans_end_book (e : env) (r : range) (fl : option flag) : res bool :=
  let s := rstart r in let t := rend r in
  andM (w <- last_verse e (vbook t) None ;; Ok (verse_eqb t w))
       (w <- first_verse e (vbook t) None fl ;; Ok (vleb e s w)).

(** ref.py 855-862. *)
Definition r_chap_range (e : env) (r : range) (fl : option flag) : res range :=
  let f := flag_or (eff e fl) MULTIBOOK in
  s <- v_first_verse e (rstart r) None (Some f) ;; t <- v_last_verse e (rend r) None ;;
  new_range e s t (Some f).

(** ref.py 864-871. *)
Definition r_book_range (e : env) (r : range) (fl : option flag) : res range :=
  let f := flag_or (eff e fl) MULTIBOOK in
  s <- first_verse e (vbook (rstart r)) None (Some f) ;; t <- last_verse e (vbook (rend r)) None ;;
  new_range e s t (Some f).

(** ref.py 884-889: the local [flags] of [split]. *)
Definition split_flags (e : env) (r : range) (fl : option flag) : flag :=
  let f := eff e fl in
  let f1 := if negb (book_eqb (vbook (rstart r)) (vbook (rend r))) then flag_or f MULTIBOOK else f in
  if (vverse (rstart r) =? 0) || (vverse (rend r) =? 0) then flag_or f1 VERSE_0 else f1.

(** ref.py 895-902 and 907-914: splitting one range at the verses returned by [unit_end]
    (the last verse of the book, or of the chapter, of a verse).  A step after the last verse would be
    an [AttributeError] on [None]. *)
Fixpoint split_unit_loop (unit_end : verse -> res verse) (e : env) (f : flag) (fuel : nat)
         (s t stop : verse) : res (list range) :=
  if vltb e t stop then
    match fuel with
    | O => Err Diverge
    | S n =>
        r <- new_range e s t (Some f) ;;
        o <- add e t 1 (Some f) ;;
        match o with
        | None => Err AttrErr
        | Some s' => t' <- unit_end s' ;;
                     rs <- split_unit_loop unit_end e f n s' t' stop ;; Ok (r :: rs)
        end
    end
  else r <- new_range e s stop (Some f) ;; Ok [r].

Definition split_unit (unit_end : verse -> res verse) (e : env) (f : flag) (fuel : nat)
           (r : range) : res (list range) :=
  t <- unit_end (rstart r) ;; split_unit_loop unit_end e f fuel (rstart r) t (rend r).

Definition split_book1 (e : env) (f : flag) (fuel : nat) (r : range) : res (list range) :=
  split_unit (fun v => last_verse e (vbook v) None) e f fuel r.
Definition split_chap1 (e : env) (f : flag) (fuel : nat) (r : range) : res (list range) :=
  split_unit (fun v => v_last_verse e v None) e f fuel r.

(** ref.py 919-926: splitting one range after every [n] verses.  [s] can be [None] only when
    [range_end.add(1)] returned [None], which makes the next constructor call raise. *)
Fixpoint split_num_loop (e : env) (f : flag) (n : Z) (fuel : nat) (s t : option verse) (stop : verse)
  : res (list range) :=
  match t with
  | Some t1 =>
      if vltb e t1 stop then
        match fuel with
        | O => Err Diverge
        | S k =>
            r <- new_range_opt e s t (Some f) ;;
            s' <- add e t1 1 (Some f) ;;
            t' <- add e t1 n (Some f) ;;
            rs <- split_num_loop e f n k s' t' stop ;; Ok (r :: rs)
        end
      else r <- new_range_opt e s (Some stop) (Some f) ;; Ok [r]
  | None => r <- new_range_opt e s (Some stop) (Some f) ;; Ok [r]
  end.

Definition split_num1 (e : env) (f : flag) (n : Z) (fuel : nat) (r : range) : res (list range) :=
  t <- add e (rstart r) (n - 1) (Some f) ;;
  split_num_loop e f n fuel (Some (rstart r)) t (rend r).

(** Apply a splitting step to every range of [split_result]. *)
Definition split_all (g : range -> res (list range)) (l : list range) : res (list range) :=
  ls <- mapM g l ;; Ok (concat ls).

(** ref.py 873-929: the items of [r.split(by_book=, by_chap=, num_verses=, flags=)].
    [fuel] bounds the number of iterations of each of the three loops. *)
Definition split_items (e : env) (fuel : nat) (r : range) (by_book by_chap : bool)
           (num : option Z) (fl : option flag) : res (list range) :=
  let f := split_flags e r fl in
  l1 <- (if by_book then split_all (split_book1 e f fuel) [r] else Ok [r]) ;;
  l2 <- (if by_chap then split_all (split_chap1 e f fuel) l1 else Ok l1) ;;
  match num with
  | None => Ok l2
  | Some n => split_all (split_num1 e f n fuel) l2
  end.

(** ref.py 235-242: the items of [book.chap_ranges(flags=...)]. *)
Definition book_chap_ranges (e : env) (b : book) (fl : option flag) : res (list range) :=
  r <- book_range e b fl ;; split_items e (nav_fuel e) r false true None fl.

(** ref.py 817-824.  The [flags] argument is not used by the code.  [split] is called with
    [regroup=True]; regrouping does not change the items (see MList.v), so it is left out here. *)
Definition verse_count (e : env) (r : range) (fl : option flag) : res Z :=
  l <- split_items e (nav_fuel e) r false true None None ;;
  Ok (fold_left (fun n x => n + (vverse (rend x) - vverse (rstart x) + 1)) l 0).

Definition last_opt {A} (l : list A) : option A :=
  match rev l with [] => None | x :: _ => Some x end.

(** The counting of ref.py 832-839 and 846-853: pieces, minus a first or last piece that is not whole. *)
Definition count_pieces (whole : bool) (is_whole : range -> res bool) (l : list range) : res Z :=
  if whole then
    match l with
    | [] => Err IndexErr
    | x :: xs =>
        w <- is_whole x ;;
        let n := if w then zlen l else zlen l - 1 in
        match last_opt xs with
        | None => Ok n
        | Some y => w' <- is_whole y ;; Ok (if w' then n else n - 1)
        end
    end
  else Ok (zlen l).

(** ref.py 826-839 and 841-853. *)
Definition r_chap_count (e : env) (r : range) (whole : bool) (fl : option flag) : res Z :=
  l <- split_items e (nav_fuel e) r false true None None ;;
  count_pieces whole (fun x => is_whole_chap e x None) l.
Definition r_book_count (e : env) (r : range) (whole : bool) (fl : option flag) : res Z :=
  l <- split_items e (nav_fuel e) r true false None None ;;
  count_pieces whole (fun x => is_whole_book e x None) l.

(** ref.py 532-537: [v.subtract(w, flags)] for a verse [w]; [flags] is not used for this case. *)
Definition subtract_verse (e : env) (v w : verse) (fl : option flag) : res Z :=
  r <- new_range e v w None ;;
  n <- verse_count e r None ;;
  Ok (if vltb e v w then (n - 1) * -1 else n - 1).

(** ref.py 1104-1108: the verses produced by iterating over a range. *)
Fixpoint iter_loop (e : env) (fuel : nat) (v : option verse) (stop : verse) : res (list verse) :=
  match v with
  | None => Ok []
  | Some v1 =>
      if vleb e v1 stop then
        match fuel with
        | O => Err Diverge
        | S n => o <- add e v1 1 (Some MULTIBOOK) ;; vs <- iter_loop e n o stop ;; Ok (v1 :: vs)
        end
      else Ok []
  end.
Definition iter_range (e : env) (fuel : nat) (r : range) : res (list verse) :=
  iter_loop e fuel (Some (rstart r)) (rend r).

(** "(self, other_ref) if self < other_ref else (other_ref, self)" (ref.py 943, 963, 1019). *)
Definition order2 (e : env) (a b : range) : range * range := if rltb e a b then (a, b) else (b, a).

(** ref.py 942-944 (argument a range; a verse [v] is converted to [R v v], ref.py 939-941). *)
Definition is_disjoint (e : env) (a b : range) : bool :=
  let (lo, hi) := order2 e a b in vltb e (rend lo) (rstart hi).

Definition overse_eqb (o : option verse) (v : verse) : bool :=
  match o with Some w => verse_eqb w v | None => false end.

(** ref.py 962-964. *)
Definition is_adjacent (e : env) (a b : range) (fl : option flag) : res bool :=
  let (lo, hi) := order2 e a b in
  o <- add e (rend lo) 1 fl ;; Ok (overse_eqb o (rstart hi)).

(** ref.py 980-982. *)
Definition contains (e : env) (a b : range) : bool :=
  (vleb e (rstart a) (rstart b) && vleb e (rstart b) (rend a)) &&
  (vleb e (rstart a) (rend b) && vleb e (rend b) (rend a)).

(** ref.py 996-998. *)
Definition surrounds (e : env) (a b : range) : bool :=
  (vltb e (rstart a) (rstart b) && vltb e (rstart b) (rend a)) &&
  (vltb e (rstart a) (rend b) && vltb e (rend b) (rend a)).

(** ref.py 1017-1024. *)
Definition union (e : env) (a b : range) (fl : option flag) : res (list range) :=
  sep <- andM (Ok (is_disjoint e a b)) (notM (is_adjacent e a b fl)) ;;
  if sep then let (lo, hi) := order2 e a b in Ok [lo; hi]
  else r <- new_range e (vmin e (rstart a) (rstart b)) (vmax e (rend a) (rend b)) fl ;; Ok [r].

(** ref.py 1042-1048. *)
Definition intersection (e : env) (a b : range) (fl : option flag) : res (list range) :=
  if is_disjoint e a b then Ok []
  else r <- new_range e (vmax e (rstart a) (rstart b)) (vmin e (rend a) (rend b)) fl ;; Ok [r].

(** ref.py 1052-1078.  Both parts are computed before it is decided which are needed, and the
    constructor calls of lines 1071-1072 do not pass [flags]. *)
Definition difference (e : env) (a b : range) (fl : option flag) : res (list range) :=
  if is_disjoint e a b then Ok [a]
  else if contains e b a then Ok []
  else
    p <- subtract e (rstart b) 1 fl ;;
    lower <- new_range_opt e (Some (rstart a)) p None ;;
    q <- add e (rend b) 1 fl ;;
    upper <- new_range_opt e q (Some (rend a)) None ;;
    if surrounds e a b then Ok [lower; upper]
    else if rltb e a b then Ok [lower] else Ok [upper].

(** ref.py 1080-1102. *)
Definition sym_difference (e : env) (a b : range) (fl : option flag) : res (list range) :=
  if range_eqb a b then Ok []
  else
    u <- union e a b fl ;;
    i <- intersection e a b fl ;;
    match u, i with
    | [u0], i0 :: _ => difference e u0 i0 None
    | _, _ => Ok u
    end.
