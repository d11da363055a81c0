(** * MStr: model of the [str] methods of verses, ranges and lists (ref.py 551-590, 1127-1182, 1564-1568,
    1633-1801). *)
From Coq Require Import List ZArith NArith Bool Ascii String Lia.
From Verif Require Import Base Books Chars Regex Data MVerse MRange MSeq MList.
Import ListNotations.
Open Scope Z_scope.

(** ref.py 276-289: [BibleVersePart]. *)
Record parts := P { p_book : bool; p_chap : bool; p_verse : bool }.
Definition P_BOOK := P true false false.
Definition P_CHAP := P false true false.
Definition P_VERSE := P false false true.
Definition P_FULL_REF := P true true true.
Definition P_BOOK_CHAP := P true true false.
Definition P_CHAP_VERSE := P false true true.

(** Python's [str] of an int. *)
Definition int_str (z : Z) : str := if z <? 0 then "-"%char :: dec (Z.to_N (- z)) else dec (Z.to_N z).
(** data.py 109-118: [abbrev] and [title] are None for a book without name data; [str(None)] is "None". *)
Definition book_name (d : bibledata) (abbrev : bool) (b : book) : str :=
  match names d b with
  | None => s2l "None"
  | Some n => if abbrev then n_abbrev n else n_title n
  end.
(** ref.py 587-590, 1179-1182, 1783-1786. *)
Definition spaced (nospace : bool) (s : str) : str := if nospace then remove_spaces s else strip s.

(** Options of the [str] methods: [abbrev], [alt_sep], [nospace]. *)
Record look := Look { lk_abbrev : bool; lk_alt : bool; lk_nospace : bool }.

(** ref.py 557-590. *)
Definition verse_str (e : env) (lk : look) (v : verse) (p : parts) : str :=
  let p := if chap_count e (vbook v) =? 1 then P (p_book p) false (p_verse p) else p in
  let name := if p_book p then book_name (ed e) (lk_abbrev lk) (vbook v) else [] in
  let chap_str := if p_chap p then int_str (vchap v) else [] in
  let verse_str := if p_verse p then int_str (vverse v) else [] in
  let sep := if p_chap p && p_verse p
             then [if lk_alt lk then verse_sep_alt (ed e) else verse_sep_std (ed e)] else [] in
  spaced (lk_nospace lk) (name ++ [space] ++ chap_str ++ sep ++ verse_str).

(** ref.py 1133-1182. *)
Definition range_str (e : env) (lk : look) (force : bool) (r : range) (fl : option flag) : res str :=
  let s := rstart r in let t := rend r in
  p <- (sb <- spans_start_book e r None ;;
        if sb then Ok (P_BOOK, false)
        else sc <- spans_start_chap e r None ;;
             if sc then
               ec <- (if force then spans_end_chap e r None else Ok true) ;;
               if ec then Ok (P_BOOK_CHAP, false) else Ok (P_FULL_REF, true)
             else Ok (P_FULL_REF, true)) ;;
  let start_str := verse_str e lk s (fst p) in
  single <- orM (is_whole_book e r fl) (orM (is_whole_chap e r fl) (Ok (is_single_verse r))) ;;
  if single then Ok (spaced (lk_nospace lk) start_str)
  else
    let vl := snd p && book_eqb (vbook t) (vbook s) in
    q <- (eb <- spans_end_book e r fl ;;
          if eb then Ok P_BOOK
          else ec <- (if vl then Ok false else spans_end_chap e r fl) ;;
               Ok (if ec then P_BOOK_CHAP else P_FULL_REF)) ;;
    let q := if book_eqb (vbook s) (vbook t) then
               P false (p_chap q && negb (vchap s =? vchap t)) (p_verse q)
             else q in
    let end_str := verse_str e lk t q in
    Ok (spaced (lk_nospace lk) (start_str ++ [range_sep (ed e)] ++ end_str)).

(** ref.py 1655-1661: the local variables of the loop; [ps_sep] is [list_sep]. *)
Record pstate := PS {
  ps_book : option book; ps_chap : option Z; ps_vl : bool;
  ps_sep : str; ps_dual : bool; ps_first : bool }.
Definition ps_init : pstate := PS None None false [] false true.
Definition str_eqb (s t : str) : bool := if list_eq_dec ascii_dec s t then true else false.

(** ref.py 1666-1736: what is shown of the start of a range; [pg] is [preserve_groups]. *)
Definition pick_start (e : env) (pg : bool) (fl : option flag) (st : pstate) (x : range) : res (parts * pstate) :=
  let s := rstart x in
  let major := [major_list_sep (ed e)] in
  let same := obook_eqb (ps_book st) (vbook s) in
  let sep := ps_sep st in
  let sep1 := if pg then sep else major in
  sb <- spans_start_book e x fl ;;
  if sb then Ok (P_BOOK, PS (Some (vbook s)) None false sep1 (ps_dual st) (ps_first st))
  else
    sc <- spans_start_chap e x fl ;;
    if sc then
      q <- (if same then
              if ps_vl st then
                if negb pg then Ok (P_CHAP, (false, major, ps_dual st))
                else if str_eqb sep major then Ok (P_CHAP, (false, sep, ps_dual st))
                else Ok (P_CHAP_VERSE, (true, sep, true))
              else
                if negb pg then Ok (P_CHAP, (false, major, ps_dual st))
                else if str_eqb sep major then Ok (P_CHAP, (false, sep, ps_dual st))
                else ec <- spans_end_chap e x fl ;;
                     if ec then Ok (P_CHAP, (false, sep, ps_dual st))
                     else Ok (P_CHAP_VERSE, (true, sep, true))
            else Ok (P_BOOK_CHAP, (false, sep1, ps_dual st))) ;;
      let '(p, (vl, sep', dual)) := q in
      Ok (p, PS (Some (vbook s)) (Some (vchap s)) vl sep' dual (ps_first st))
    else
      q <- (if same then
              if ps_vl st && oz_eqb (ps_chap st) (vchap s) then
                n <- r_chap_count e x false fl ;;
                Ok (if n >? 1 then (P_CHAP_VERSE, sep1) else (P_VERSE, sep))
              else Ok (P_CHAP_VERSE, sep1)
            else Ok (P_FULL_REF, sep1)) ;;
      Ok (fst q, PS (Some (vbook s)) (Some (vchap s)) true (snd q) (ps_dual st) (ps_first st)).

(** ref.py 1738-1743; line 1739 passes no flags. *)
Definition force_start (e : env) (force : bool) (x : range) (q : parts * pstate) : res (parts * pstate) :=
  let (p, st) := q in
  add <- (if force && negb (p_verse p) then notM (spans_end_chap e x None) else Ok false) ;;
  Ok (if add then (P (p_book p) (p_chap p) true, PS (ps_book st) (ps_chap st) true (ps_sep st) (ps_dual st) (ps_first st))
      else (p, st)).

(** ref.py 1747-1776: what is shown of the end of a range, if anything. *)
Definition pick_end (e : env) (fl : option flag) (st : pstate) (x : range) : res (option parts * pstate) :=
  let s := rstart x in let t := rend x in
  single <- (if ps_dual st then Ok false
             else orM (is_whole_book e x fl) (orM (is_whole_chap e x fl) (Ok (is_single_verse x)))) ;;
  if single then Ok (None, st)
  else
    let vl := ps_vl st && book_eqb (vbook t) (vbook s) in
    let same := obook_eqb (ps_book st) (vbook t) in
    eb <- spans_end_book e x fl ;;
    if eb then Ok (Some P_BOOK, PS (Some (vbook t)) None false (ps_sep st) (ps_dual st) (ps_first st))
    else
      ec <- (if vl then Ok false else spans_end_chap e x fl) ;;
      if ec then
        Ok (Some (if same then P_CHAP else P_BOOK_CHAP),
            PS (Some (vbook t)) (Some (vchap t)) false (ps_sep st) (ps_dual st) (ps_first st))
      else
        Ok (Some (if same then if oz_eqb (ps_chap st) (vchap t) then P_VERSE else P_CHAP_VERSE else P_FULL_REF),
            PS (Some (vbook t)) (Some (vchap t)) true (ps_sep st) (ps_dual st) (ps_first st)).

(** ref.py 1664-1788: one range; the text added, and the state for the next range. *)
Definition show_item (e : env) (lk : look) (force pg : bool) (fl : option flag) (st : pstate) (x : range)
  : res (str * pstate) :=
  q <- pick_start e pg fl st x ;;
  q <- force_start e force x q ;;
  let (p, st) := (q : parts * pstate) in
  let start_str := verse_str e lk (rstart x) p in
  q <- pick_end e fl st x ;;
  let (p, st) := (q : option parts * pstate) in
  let end_str := match p with None => [] | Some p => [range_sep (ed e)] ++ verse_str e lk (rend x) p end in
  let sep := if ps_first st then [] else ps_sep st in
  Ok (spaced (lk_nospace lk) (sep ++ [space] ++ start_str ++ end_str),
      PS (ps_book st) (ps_chap st) (ps_vl st) [minor_list_sep (ed e)] (ps_dual st) false).

Fixpoint show_group (e : env) (lk : look) (force pg : bool) (fl : option flag) (st : pstate) (l : list range)
  : res (str * pstate) :=
  match l with
  | [] => Ok ([], st)
  | x :: l' =>
      q <- show_item e lk force pg fl st x ;;
      r <- show_group e lk force pg fl (snd q) l' ;;
      Ok (fst q ++ fst r, snd r)
  end.
(** ref.py 1790-1793. *)
Definition end_group (e : env) (pg : bool) (st : pstate) : pstate :=
  if pg then PS (ps_book st) (ps_chap st) false [major_list_sep (ed e)] (ps_dual st) (ps_first st) else st.
Fixpoint show_groups (e : env) (lk : look) (force pg : bool) (fl : option flag) (st : pstate) (g : rlist)
  : res str :=
  match g with
  | [] => Ok []
  | l :: g' =>
      q <- show_group e lk force pg fl st l ;;
      r <- show_groups e lk force pg fl (end_group e pg (snd q)) g' ;;
      Ok (fst q ++ r)
  end.
(** ref.py 1633-1796. *)
Definition list_str (e : env) (lk : look) (pg force : bool) (l : rlist) (fl : option flag) : res str :=
  show_groups e lk force pg fl ps_init l.

(** ref.py 551-555, 1127-1131, 1564-1568: [str(x)] and [repr(x)]. *)
Definition plain : look := Look false false false.
Definition verse_text (e : env) (v : verse) : str := verse_str e plain v P_FULL_REF.
Definition range_text (e : env) (r : range) : res str := range_str e plain false r None.
Definition list_text (e : env) (l : rlist) : res str := list_str e plain true false l None.
Definition verse_repr (e : env) (v : verse) : str :=
  (s2l "BibleVerse(" ++ verse_str e (Look true false false) v P_FULL_REF ++ s2l ")")%list.
Definition range_repr (e : env) (r : range) : res str :=
  s <- range_text e r ;; Ok (s2l "BibleRange(" ++ s ++ s2l ")")%list.
Definition list_repr (e : env) (l : rlist) : res str :=
  s <- list_text e l ;; Ok (s2l "BibleRangeList(""" ++ s ++ s2l """)")%list.
