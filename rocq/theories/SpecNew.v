(** * SpecNew: what the constructors should do with their arguments (C62-C68). *)
From Coq Require Import List Ascii NArith ZArith Bool.
From Verif Require Import Base Books Chars Regex Data MVerse MRange Spec MSeq MList MParse MNew.
Import ListNotations.
Open Scope Z_scope.

(** ** Texts of integers *)
Definition int_white_codes : list N := [9; 10; 11; 12; 13; 32; 133; 160]%N.
Definition int_white (c : ascii) : Prop := In (N_of_ascii c) int_white_codes.
Definition digit_values : list (ascii * N) :=
  [("0", 0); ("1", 1); ("2", 2); ("3", 3); ("4", 4); ("5", 5); ("6", 6); ("7", 7); ("8", 8); ("9", 9)]%char%N.
(** Digits, with single underscores allowed between them. *)
Inductive numeral : str -> N -> Prop :=
| one_digit : forall c n, In (c, n) digit_values -> numeral [c] n
| next_digit : forall s m c n, numeral s m -> In (c, n) digit_values -> numeral (s ++ [c]) (10 * m + n)
| after_line : forall s m c n, numeral s m -> In (c, n) digit_values -> numeral (s ++ ["_"%char; c]) (10 * m + n).
(** White space, a sign, a numeral, white space. *)
Definition int_text (s : str) (z : Z) : Prop :=
  exists w sign t u n, s = w ++ sign ++ t ++ u /\ Forall int_white w /\ Forall int_white u /\ numeral t n /\
    ((sign = [] \/ sign = ["+"%char]) /\ z = Z.of_N n \/ sign = ["-"%char] /\ z = - Z.of_N n).

(** ** Arguments of the documented classes *)
(** A book, or the name of a book. *)
Definition names_book_arg (d : bibledata) (x : pyval) (b : book) : Prop :=
  x = VBook b \/ exists s, x = VStr s /\ from_str d s = Some b.
(** A book that may be left out or None; a number that may be left out or None. *)
Definition book_arg (d : bibledata) (x : pyval) (o : option book) : Prop :=
  match o with None => x = VNone | Some b => names_book_arg d x b end.
Definition num_arg (x : pyval) (o : option Z) : Prop := match o with None => x = VNone | Some n => x = VInt n end.
(** The [i]-th positional argument, None if it is left out. *)
Definition is_arg (args : list pyval) (i : nat) (x : pyval) : Prop :=
  nth_error args i = Some x \/ nth_error args i = None /\ x = VNone.
(** The positional arguments mean the parts [a]. *)
Definition means_parts (d : bibledata) (args : list pyval) (a : pos_args) : Prop :=
  exists sb sc sv eb ec ev,
    (is_arg args 0 sb /\ is_arg args 1 sc /\ is_arg args 2 sv /\ is_arg args 3 eb /\ is_arg args 4 ec /\ is_arg args 5 ev) /\
    names_book_arg d sb (pa_sb a) /\ num_arg sc (pa_sc a) /\ num_arg sv (pa_sv a) /\
    book_arg d eb (pa_eb a) /\ num_arg ec (pa_ec a) /\ num_arg ev (pa_ev a).

(** A verse of the Bible: with the verse 0s as the flags of the call, or the global ones, say. *)
Definition real (e : env) (fl : option flag) (v : verse) : Prop :=
  legal (ed e) (zero_on e fl) (vbook v) (vchap v) (vverse v) \/ legal (ed e) (zero_on e None) (vbook v) (vchap v) (vverse v).

(** ** Numbers written as texts *)
(** [x] is an int, or a text that [int()] takes. *)
Definition number (x : pyval) (n : Z) : Prop := x = VInt n \/ exists s, x = VStr s /\ int_text s n.
(** The argument with its number as an int. *)
Definition as_int (x y : pyval) : Prop := x = VNone /\ y = VNone \/ exists n, number x n /\ y = VInt n.
(** [t] comes after [s] by code points. *)
Inductive text_after : str -> str -> Prop :=
| longer : forall s c t, text_after (s ++ c :: t) s
| greater : forall s c t d u, (N_of_ascii d < N_of_ascii c)%N -> text_after (s ++ c :: t) (s ++ d :: u).
(** Python orders the values [x] and [y] as it would order the ints. *)
Definition same_order (x y : pyval) : Prop :=
  x = VNone \/ y = VNone \/ (exists m n, x = VInt m /\ y = VInt n) \/
  exists s t m n, x = VStr s /\ y = VStr t /\ int_text s m /\ int_text t n /\
    (text_after s t <-> m > n) /\ (s = t <-> m = n).

(** ** Lists *)
(** A sequence of ranges and of lists or tuples of ranges: a list or tuple that is not empty begins a group; [lead] are
    the ranges before the first group. *)
Inductive groups_in : list pyval -> list range -> rlist -> Prop :=
| in_none : groups_in [] [] []
| in_range : forall r l lead gs, groups_in l lead gs -> groups_in (VRange r :: l) (r :: lead) gs
| in_group : forall r rs l lead gs, groups_in l lead gs -> groups_in (VSeq (map VRange (r :: rs)) :: l) [] ((r :: rs ++ lead) :: gs)
| in_empty : forall l lead gs, groups_in l lead gs -> groups_in (VSeq [] :: l) lead gs.
(** The groups of the list made from such a sequence. *)
Definition groups_made (l : list pyval) (g : rlist) : Prop :=
  exists lead gs, groups_in l lead gs /\ g = match lead with [] => gs | _ => lead :: gs end.
(** Every item is a range, or a list or tuple of ranges. *)
Definition fit (x : pyval) : Prop := (exists r, x = VRange r) \/ exists l, x = VSeq l /\ Forall (fun y => exists r, y = VRange r) l.
(** The classes of references. *)
Definition is_reference (x : pyval) : Prop := (exists v, x = VVerse v) \/ (exists r, x = VRange r) \/ exists l, x = VList l.
(** The groups that are not empty. *)
Definition no_empty {A} (g : list (list A)) : list (list A) := filter (fun p => match p with [] => false | _ => true end) g.
(** The items of a new list: those of the only argument, or else the arguments. *)
Definition items_of (args l : list pyval) : Prop :=
  (exists x, args = [x] /\ (x = VSeq l \/ x = VIter l)) \/ (length args <> 1%nat /\ args = l).
(** The arguments that [BibleVerse] takes: a string, a verse, or a book or a string with two ints. *)
Definition verse_args (args : list pyval) : Prop :=
  (exists s, args = [VStr s]) \/ (exists v, args = [VVerse v]) \/
  exists b c v, args = [b; VInt c; VInt v] /\ ((exists s, b = VStr s) \/ exists k, b = VBook k).
(** The reference that a value is. *)
Definition refers (x : pyval) (y : bref) : Prop :=
  (exists v, x = VVerse v /\ y = BV v) \/ (exists r, x = VRange r /\ y = BR r) \/ exists l, x = VList l /\ y = BL l.
(** Values that cannot be iterated, of the classes that are no references. *)
Definition not_iterable (x : pyval) : Prop := x = VNone \/ (exists n, x = VInt n) \/ (exists b, x = VBook b) \/ x = VOther.
(** A list or tuple, or another iterable, of ranges. *)
Definition plain_ranges (x : pyval) (rs : list range) : Prop := x = VSeq (map VRange rs) \/ x = VIter (map VRange rs).

(** Nothing but None, numbers, texts, books, references and lists of these. *)
Inductive plain_value : pyval -> Prop :=
| pv_none : plain_value VNone
| pv_int n : plain_value (VInt n)
| pv_str s : plain_value (VStr s)
| pv_book b : plain_value (VBook b)
| pv_verse v : plain_value (VVerse v)
| pv_range r : plain_value (VRange r)
| pv_list l : plain_value (VList l)
| pv_seq l : Forall plain_value l -> plain_value (VSeq l).
(** [a > b] for lists: the first items that differ decide, else the lengths. *)
Definition lists_after (gt : pyval -> pyval -> res bool) (l m : list pyval) (q : res bool) : Prop :=
  exists p l' m', l = p ++ l' /\ m = p ++ m' /\ Forall plain_value p /\
    ((l' = [] /\ q = Ok false) \/ (l' <> [] /\ m' = [] /\ q = Ok true) \/
     exists x y l2 m2, l' = x :: l2 /\ m' = y :: m2 /\ ~ (x = y /\ plain_value x) /\ q = gt x y).
