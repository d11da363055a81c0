(** * MList: model of [BibleRangeList] (ref.py 1188-1846, without strings) and of the methods of
    [BibleRange] on any kind of reference.

    A list is the sequence of its groups (MSeq.v).  In-place methods return the new contents of the list.
    The same methods node by node, with the contents after an exception, are in MNode.v.  A list given as an
    argument is a list other than [self]. *)
From Coq Require Import List ZArith Bool Lia.
From Verif Require Import Base Books Chars Regex Data MVerse MRange MSeq.
Import ListNotations.
Open Scope Z_scope.

Definition rlist := seq range.

(** ref.py 1849 (type alias [BibleRef]). *)
Inductive bref := BV (v : verse) | BR (r : range) | BL (l : rlist).

(** ref.py 1368-1372, 1381-1385, 1407-1411, 1424-1428, 1471-1475, 1513-1517: a verse or range becomes a list. *)
Definition ref_ranges (e : env) (x : bref) : res (list range) :=
  match x with
  | BV v => r <- new_range e v v (Some ALL) ;; Ok [r]
  | BR r => Ok [r]
  | BL l => Ok (items l)
  end.

(** ** regroup (ref.py 1570-1631) *)
Record rg_state := RG { rg_book : option book; rg_chap : option Z; rg_verse : bool }.
Definition obook_eqb (o : option book) (b : book) : bool := match o with Some x => book_eqb x b | None => false end.
Definition oz_eqb (o : option Z) (z : Z) : bool := match o with Some x => x =? z | None => false end.

(** The first half of an iteration of the loop (ref.py 1586-1609): whether a new group begins at the item, the new value
    of [cur_chap], and the new value of [at_verse_level], which is also that of [show_start_verse].
    [chap_count] is [bible_range.chap_count(flags=flags)]. *)
Definition rg_open (e : env) (fl : option flag) (chap_count : range -> res Z) (st : rg_state) (x : range)
  : res (bool * (option Z * bool)) :=
  let s := rstart x in
  sb <- spans_start_book e x fl ;;
  if sb then Ok (true, (None, false))
  else
    sc <- spans_start_chap e x fl ;;
    if sc then Ok (true, (Some (vchap s), false))
    else
      nb <- (if obook_eqb (rg_book st) (vbook s) then
               if negb (rg_verse st) || negb (oz_eqb (rg_chap st) (vchap s)) then Ok true
               else n <- chap_count x ;; Ok (n >? 1)
             else Ok true) ;;
      Ok (nb, (Some (vchap s), true)).
(** The second half (ref.py 1611-1631): the new values of [cur_book], [cur_chap] and [at_verse_level]. *)
Definition rg_close (e : env) (fl : option flag) (cc : option Z) (av : bool) (x : range) : res rg_state :=
  let s := rstart x in let t := rend x in
  av2 <- (if av then Ok true else se <- spans_end_chap e x None ;; Ok (negb se)) ;;
  more <- andM (notM (is_whole_book e x fl)) (andM (notM (is_whole_chap e x fl)) (Ok (negb (is_single_verse x)))) ;;
  if more then
    let av3 := if book_eqb (vbook t) (vbook s) then av2 else false in
    eb <- spans_end_book e x fl ;;
    if eb then Ok (RG (Some (vbook t)) None false)
    else
      ec <- (if av3 then Ok false else spans_end_chap e x fl) ;;
      Ok (RG (Some (vbook t)) (Some (vchap t)) (negb ec))
  else Ok (RG (Some (vbook s)) cc av2).
(** One iteration of the loop (ref.py 1586-1631). *)
Definition rg_step (e : env) (fl : option flag) (chap_count : range -> res Z) (st : rg_state) (x : range)
  : res (bool * rg_state) :=
  p <- rg_open e fl chap_count st x ;;
  st' <- rg_close e fl (fst (snd p)) (snd (snd p)) x ;;
  Ok (fst p, st').

Fixpoint rg_loop (e : env) (fl : option flag) (chap_count : range -> res Z) (st : rg_state) (l : list range)
  : res (list (bool * range)) :=
  match l with
  | [] => Ok []
  | x :: xs =>
      p <- rg_step e fl chap_count st x ;;
      ys <- rg_loop e fl chap_count (snd p) xs ;;
      Ok ((fst p, x) :: ys)
  end.

(** [regroup] calls [chap_count], which calls [split], which calls [regroup] (ref.py 1602, 832, 931).
    [fuel] is the depth of this recursion. *)
Fixpoint regroup_n (e : env) (fuel : nat) (fl : option flag) (l : list range) : res rlist :=
  let chap_count x :=
    match fuel with
    | O => Err Diverge
    | S n =>
        ps <- split_items e (nav_fuel e) x false true None None ;;
        g <- regroup_n e n None ps ;;
        Ok (zlen (items g))
    end in
  ms <- rg_loop e fl chap_count (RG None None false) l ;;
  Ok (cut_groups ms).

(** Depth 1 is enough (PRegroup.v: [regroup_fuel]). *)
Definition regroup (e : env) (fl : option flag) (l : rlist) : res rlist := regroup_n e 1 fl (items l).

(** ref.py 873-932: [r.split(...)] with its groups. *)
Definition split (e : env) (fuel : nat) (r : range) (by_book by_chap : bool) (num : option Z) (re : bool)
           (fl : option flag) : res rlist :=
  l <- split_items e fuel r by_book by_chap num fl ;;
  if re then regroup e None (one_group l) else Ok (one_group l).

(** ref.py 235-242. *)
Definition book_chap_list (e : env) (b : book) (re : bool) (fl : option flag) : res rlist :=
  r <- book_range e b fl ;; split e (nav_fuel e) r false true None re fl.

(** ** Copying, sorting, merging *)
(** ref.py 1240-1243: [BibleRangeList(l)] for a [BibleRangeList] [l]. *)
Definition copy_list (l : rlist) : rlist := fold_left (fun g grp => g_append_group grp g) l [].

(** ref.py 1244-1247 with util.py 193-200: a list from an iterable of items, or of groups. *)
Definition list_of_items (l : list range) : rlist := g_extend l [].
Definition list_of_groups (l : list (list range)) : rlist := fold_left (fun g grp => g_append_group grp g) l [].

(** ref.py 1339-1344. *)
Definition l_sort (e : env) (re : bool) (l : rlist) : res rlist :=
  let g := one_group (sort_items (rleb e) (items l)) in
  if re then regroup e None g else Ok g.

(** ref.py 1352-1362. *)
Fixpoint merge_loop (e : env) (fl : option flag) (cur : range) (rest : list range) : res (list range) :=
  match rest with
  | [] => Ok [cur]
  | x :: rest' =>
      u <- union e cur x fl ;;
      match u with
      | [h] => merge_loop e fl h rest'
      | _ => m <- merge_loop e fl x rest' ;; Ok (cur :: m)
      end
  end.
Definition merge_items (e : env) (fl : option flag) (l : list range) : res (list range) :=
  match sort_items (rleb e) l with
  | [] => Ok []
  | x :: xs => merge_loop e fl x xs
  end.
(** ref.py 1346-1363. *)
Definition merge (e : env) (fl : option flag) (l : rlist) : res rlist :=
  m <- merge_items e fl (items l) ;; regroup e None (one_group m).

(** ** Queries *)
(** ref.py 1365-1373. *)
Definition l_is_disjoint (e : env) (l : rlist) (x : bref) : res bool :=
  ys <- ref_ranges e x ;;
  Ok (forallb (fun a => forallb (fun b => is_disjoint e a b) ys) (items l)).

(** ref.py 1375-1390. *)
Definition l_contains (e : env) (l : rlist) (x : bref) (fl : option flag) : res bool :=
  ys <- ref_ranges e x ;;
  m <- merge e fl (copy_list l) ;;
  Ok (forallb (fun b => existsb (fun a => contains e a b) (items m)) ys).

(** ref.py 1287-1302. *)
Definition sumM (l : list range) (f : range -> res Z) : res Z :=
  ns <- mapM f l ;; Ok (fold_right Z.add 0 ns).
Definition l_verse_count (e : env) (l : rlist) (fl : option flag) : res Z :=
  sumM (items l) (fun r => verse_count e r fl).
Definition l_chap_count (e : env) (l : rlist) (whole : bool) (fl : option flag) : res Z :=
  sumM (items l) (fun r => r_chap_count e r whole fl).
Definition l_book_count (e : env) (l : rlist) (whole : bool) (fl : option flag) : res Z :=
  sumM (items l) (fun r => r_book_count e r whole fl).

(** [min(self)] and [max(self)]: the first smallest and the first greatest item; ValueError if empty. *)
Fixpoint min_from (e : env) (m : range) (l : list range) : range :=
  match l with [] => m | x :: xs => min_from e (if rltb e x m then x else m) xs end.
Fixpoint max_from (e : env) (m : range) (l : list range) : range :=
  match l with [] => m | x :: xs => max_from e (if rltb e m x then x else m) xs end.
Definition l_min (e : env) (l : rlist) : res range :=
  match items l with [] => Err ValueErr | x :: xs => Ok (min_from e x xs) end.
Definition l_max (e : env) (l : rlist) : res range :=
  match items l with [] => Err ValueErr | x :: xs => Ok (max_from e x xs) end.

(** ref.py 1304-1311. *)
Definition l_range (e : env) (l : rlist) : res range :=
  a <- l_min e l ;; b <- l_max e l ;; new_range e (rstart a) (rend b) (Some ALL).

(** ref.py 1313-1324. *)
Definition l_chap_range (e : env) (l : rlist) (fl : option flag) : res range :=
  let f := flag_or (eff e fl) MULTIBOOK in
  a <- l_min e l ;; b <- l_max e l ;;
  s <- v_first_verse e (rstart a) None (Some f) ;; t <- v_last_verse e (rend b) None ;;
  new_range e s t (Some f).

(** ref.py 1326-1337. *)
Definition l_book_range (e : env) (l : rlist) (fl : option flag) : res range :=
  let f := flag_or (eff e fl) MULTIBOOK in
  a <- l_min e l ;; b <- l_max e l ;;
  s <- first_verse e (vbook (rstart a)) None (Some f) ;; t <- last_verse e (vbook (rend b)) None ;;
  new_range e s t (Some f).

(** ref.py 1272-1285. *)
Definition l_verse_0_to_1 (e : env) (l : rlist) : res rlist := mapM (mapM (r_verse_0_to_1 e)) l.
Definition l_verse_1_to_0 (e : env) (l : rlist) : res rlist := mapM (mapM (r_verse_1_to_0 e)) l.

(** ** Set operations *)
(** ref.py 1402-1416. *)
Definition union_update (e : env) (l : rlist) (x : bref) (fl : option flag) : res rlist :=
  ys <- ref_ranges e x ;; merge e fl (g_extend ys l).
(** ref.py 1392-1400. *)
Definition l_union (e : env) (l : rlist) (x : bref) (fl : option flag) : res rlist :=
  union_update e (copy_list l) x fl.

(** ref.py 1437-1442. *)
Fixpoint meets_with (e : env) (fl : option flag) (a : range) (bs : list range) : res (list range) :=
  match bs with
  | [] => Ok []
  | b :: bs' => i <- intersection e a b fl ;; r <- meets_with e fl a bs' ;;
                Ok (match i with [] => r | m :: _ => m :: r end)
  end.
Definition all_meets (e : env) (fl : option flag) (xs bs : list range) : res (list range) :=
  ls <- mapM (fun a => meets_with e fl a bs) xs ;; Ok (concat ls).
(** ref.py 1418-1444. *)
Definition l_intersection (e : env) (l : rlist) (x : bref) (fl : option flag) : res rlist :=
  ys <- ref_ranges e x ;;
  ms <- all_meets e fl (items l) ys ;;
  merge e fl (list_of_items ms).
(** ref.py 1446-1454. *)
Definition intersection_update (e : env) (l : rlist) (x : bref) (fl : option flag) : res rlist :=
  i <- l_intersection e l x fl ;; Ok (g_extend (items i) []).

(** ref.py 1492-1503: one node against all ranges of the other list; the new value of the node, and the nodes
    put directly after it.  If the difference is empty the node is left as it is. *)
Fixpoint diff_inner (e : env) (fl : option flag) (cur : range) (others : list range) : res (range * list range) :=
  match others with
  | [] => Ok (cur, [])
  | b :: bs =>
      ds <- difference e cur b fl ;;
      match ds with
      | [] => diff_inner e fl cur bs
      | x :: more => p <- diff_inner e fl x bs ;; Ok (fst p, snd p ++ more)
      end
  end.
(** ref.py 1490-1504. *)
Fixpoint diff_loop (e : env) (fl : option flag) (others : list range) (fuel : nat) (todo : list range)
  : res (list range) :=
  match todo with
  | [] => Ok []
  | x :: rest =>
      match fuel with
      | O => Err Diverge
      | S n =>
          p <- diff_inner e fl x others ;;
          done <- diff_loop e fl others n (snd p ++ rest) ;;
          Ok (fst p :: done)
      end
  end.
(** ref.py 1465-1505.  The final [merge] gets no flags. *)
Definition difference_update (e : env) (fuel : nat) (l : rlist) (x : bref) (fl : option flag) : res rlist :=
  ys <- ref_ranges e x ;;
  ds <- diff_loop e fl ys fuel (items l) ;;
  merge e None (one_group ds).
(** ref.py 1456-1463. *)
Definition l_difference (e : env) (fuel : nat) (l : rlist) (x : bref) (fl : option flag) : res rlist :=
  difference_update e fuel (copy_list l) x fl.

(** ref.py 1507-1523. *)
Definition l_sym_difference (e : env) (fuel : nat) (l : rlist) (x : bref) (fl : option flag) : res rlist :=
  ys <- ref_ranges e x ;;
  u <- l_union e l (BL (list_of_items ys)) fl ;;
  i <- l_intersection e l (BL (list_of_items ys)) fl ;;
  l_difference e fuel u (BL i) fl.
(** ref.py 1525-1533. *)
Definition sym_difference_update (e : env) (fuel : nat) (l : rlist) (x : bref) (fl : option flag) : res rlist :=
  i <- l_sym_difference e fuel l x fl ;; Ok (g_extend (items i) []).

(** ** Operators *)
(** The methods [..._update] return [None] (they have no return statement); the contents of the list object
    and the returned value.  Python assigns the value returned by [__ior__] etc. (ref.py 1552-1562) to the
    variable: [None] stands for Python's None. *)
Definition call_update (u : res rlist) : res (rlist * option rlist) := g <- u ;; Ok (g, None).
Definition op_ior (e : env) (l : rlist) (x : bref) := call_update (union_update e l x None).
Definition op_iand (e : env) (l : rlist) (x : bref) := call_update (intersection_update e l x None).
Definition op_isub (e : env) (fuel : nat) (l : rlist) (x : bref) := call_update (difference_update e fuel l x None).
Definition op_ixor (e : env) (fuel : nat) (l : rlist) (x : bref) := call_update (sym_difference_update e fuel l x None).

(** ** Methods of a range on any reference *)
(** ref.py 934-946. *)
Definition r_is_disjoint (e : env) (a : range) (x : bref) : res bool :=
  match x with
  | BL l => l_is_disjoint e l (BR a)
  | BV v => b <- new_range e v v (Some ALL) ;; Ok (is_disjoint e a b)
  | BR b => Ok (is_disjoint e a b)
  end.
(** [any(f(y) for y in l)]: stops at the first true value or exception. *)
Fixpoint anyM (f : range -> res bool) (l : list range) : res bool :=
  match l with [] => Ok false | y :: ys => orM (f y) (anyM f ys) end.
(** ref.py 948-966: for a list, [flags] is not passed on. *)
Definition r_is_adjacent (e : env) (a : range) (x : bref) (fl : option flag) : res bool :=
  match x with
  | BL l => andM (l_is_disjoint e l (BR a)) (anyM (fun b => is_adjacent e a b None) (items l))
  | BV v => b <- new_range e v v (Some ALL) ;; is_adjacent e a b fl
  | BR b => is_adjacent e a b fl
  end.
(** ref.py 968-984. *)
Definition r_contains (e : env) (a : range) (x : bref) : res bool :=
  match x with
  | BL l => l_contains e (list_of_items [a]) (BL l) None
  | BV v => b <- new_range e v v (Some ALL) ;; Ok (contains e a b)
  | BR b => Ok (contains e a b)
  end.
(** ref.py 986-1000. *)
Definition r_surrounds (e : env) (a : range) (x : bref) : res bool :=
  match x with
  | BL l => Ok (forallb (fun b => surrounds e a b) (items l))
  | BV v => b <- new_range e v v (Some ALL) ;; Ok (surrounds e a b)
  | BR b => Ok (surrounds e a b)
  end.
(** ref.py 1002-1026. *)
Definition r_union (e : env) (a : range) (x : bref) (fl : option flag) : res rlist :=
  match x with
  | BL l => l_union e l (BR a) fl
  | BV v => b <- new_range e v v (Some ALL) ;; l <- union e a b fl ;; Ok (list_of_items l)
  | BR b => l <- union e a b fl ;; Ok (list_of_items l)
  end.
(** ref.py 1028-1050. *)
Definition r_intersection (e : env) (a : range) (x : bref) (fl : option flag) : res rlist :=
  match x with
  | BL l => l_intersection e l (BR a) fl
  | BV v => b <- new_range e v v (Some ALL) ;; l <- intersection e a b fl ;; Ok (list_of_items l)
  | BR b => l <- intersection e a b fl ;; Ok (list_of_items l)
  end.
(** ref.py 1052-1078: a list has no attribute [start]. *)
Definition r_difference (e : env) (a : range) (x : bref) (fl : option flag) : res rlist :=
  match x with
  | BL l =>
      dj <- l_is_disjoint e l (BR a) ;;
      if dj then Ok (list_of_items [a])
      else ct <- l_contains e l (BR a) None ;; if ct then Ok [] else Err AttrErr
  | BV v => b <- new_range e v v (Some ALL) ;; l <- difference e a b fl ;; Ok (list_of_items l)
  | BR b => l <- difference e a b fl ;; Ok (list_of_items l)
  end.
(** ref.py 1080-1102: comparing a range with a list ends in [len(range)] (util.py 653). *)
Definition r_sym_difference (e : env) (a : range) (x : bref) (fl : option flag) : res rlist :=
  match x with
  | BL l => Err TypeErr
  | BV v => b <- new_range e v v (Some ALL) ;; l <- sym_difference e a b fl ;; Ok (list_of_items l)
  | BR b => l <- sym_difference e a b fl ;; Ok (list_of_items l)
  end.
