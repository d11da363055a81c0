(** * MNew: constructors, set operations and list methods on arguments of any number and class.

    The other model files take arguments of the documented classes.  Here an argument is a [pyval]; the functions
    below make the tests of [isinstance] and [len(args)] in the order of the code and then call the functions of the
    other files. *)
From Coq Require Import List Ascii NArith ZArith Bool.
From Verif Require Import Base Books Chars Regex Data MVerse MRange MSeq MList MGroup MNode MSort MOrder MParse.
Import ListNotations.
Open Scope Z_scope.

(** Python values: None, ints, strings, books, verses, ranges, lists of ranges; [VSeq] is a list or tuple, [VIter] an
    object of another class that can be iterated (any number of times, and is not ordered), [VOther] an object of any
    other class that cannot be iterated, ordered or converted by [int()] and has no attribute [book], like [object()].
    Floats and bools are left out. *)
Inductive pyval :=
| VNone | VInt (n : Z) | VStr (s : str) | VBook (b : book) | VVerse (v : verse) | VRange (r : range) | VList (l : rlist)
| VSeq (l : list pyval) | VIter (l : list pyval) | VOther.
(** [x is not None] *)
Definition given (x : pyval) : bool := match x with VNone => false | _ => true end.

(** ** Conversions and comparisons of Python *)
(** White space skipped by [int()]: not, as by [str.strip], the characters 28 to 31. *)
Definition int_space (c : ascii) : bool := between 9 13 c || (code c =? 32)%N || (code c =? 133)%N || (code c =? 160)%N.
Fixpoint skip_space (s : str) : str := match s with c :: s' => if int_space c then skip_space s' else s | [] => [] end.
(** Digits, with single underscores allowed between them. *)
Fixpoint int_digits (s : str) : option str :=
  match s with
  | [] => None
  | c :: s' =>
      if is_digit c then
        match s' with
        | [] => Some [c]
        | u :: s'' => option_map (cons c) (if (code u =? 95)%N then int_digits s'' else int_digits s')
        end
      else None
  end.
(** [int(s)] for a string. *)
Definition int_of_str (s : str) : res Z :=
  let s := rev (skip_space (rev (skip_space s))) in
  let q := match s with
           | c :: s' => if (code c =? 43)%N then (1, s') else if (code c =? 45)%N then (-1, s') else (1, s)
           | [] => (1, [])
           end in
  match int_digits (snd q) with Some l => Ok (fst q * Z.of_N (undec l)) | None => Err ValueErr end.
(** [int(x)]. *)
Definition py_int (x : pyval) : res Z :=
  match x with VInt n => Ok n | VStr s => int_of_str s | _ => Err TypeErr end.

(** [a > b] on strings: by code points. *)
Fixpoint str_gtb (s t : str) : bool :=
  match s, t with
  | [], _ => false
  | _ :: _, [] => true
  | c :: s', d :: t' => if (code c =? code d)%N then str_gtb s' t' else (code d <? code c)%N
  end.
(** [a == b] (two objects of other classes are different). *)
Definition same_by {A B} (f : A -> B -> bool) : list A -> list B -> bool :=
  fix same (l : list A) (m : list B) : bool :=
    match l, m with
    | [], [] => true
    | a :: l', b :: m' => f a b && same l' m'
    | _, _ => false
    end.
Fixpoint py_eqb (a b : pyval) : bool :=
  match a, b with
  | VNone, VNone => true
  | VInt m, VInt n => m =? n
  | VStr s, VStr t => same_by Ascii.eqb s t
  | VBook x, VBook y => book_eqb x y
  | VVerse v, VVerse w => verse_eqb v w
  | VRange r, VRange q => range_eqb r q
  | VList l, VList m => same_by (same_by range_eqb) l m
  | VSeq l, VSeq m => same_by py_eqb l m
  | _, _ => false
  end.
(** [a > b]; sequences compare at the first place where they differ. *)
Fixpoint py_gt (e : env) (a b : pyval) : res bool :=
  match a, b with
  | VInt m, VInt n => Ok (m >? n)
  | VStr s, VStr t => Ok (str_gtb s t)
  | VBook x, VBook y => book_gt e x y
  | VVerse v, VVerse w => verse_gt e v w
  | VRange r, VRange q => range_gt e r q
  | VSeq l, VSeq m =>
      (fix seq_gt (l m : list pyval) : res bool :=
         match l, m with
         | [], _ => Ok false
         | _ :: _, [] => Ok true
         | x :: l', y :: m' => if py_eqb x y then seq_gt l' m' else py_gt e x y
         end) l m
  | _, _ => Err TypeErr
  end.
(** [for x in v].  Of the verses of a range only the first is listed (ref.py 1104-1108): all loops below stop there with
    an exception. *)
Definition py_items (e : env) (v : pyval) : res (list pyval) :=
  match v with
  | VStr s => Ok (map (fun c => VStr [c]) s)
  | VList l => Ok (map VRange (items l))
  | VSeq l | VIter l => Ok l
  | VRange r => x <- verse_le e (rstart r) (rend r) ;; Ok (if x then [VVerse (rstart r)] else [])
  | _ => Err TypeErr
  end.

(** ** BibleVerse *)
(** ref.py 308-359. *)
Definition any_verse (e : env) (fl : option flag) (st : tstate) (args : list pyval) : tstate * res verse :=
  match args with
  | [VStr s] => verse_from_str e fl st s
  | [VVerse v] => (st, Ok (V (vbook v) (vchap v) (vverse v)))
  | [_] => (st, Err ValueErr)
  | [b; c; v] =>
      (st,
       b <- match b with VStr s => from_str_raise (ed e) s | VBook b => Ok b | _ => Err ValueErr end ;;
       c <- match c with VInt c => Ok c | _ => Err ValueErr end ;;
       v <- match v with VInt v => Ok v | _ => Err ValueErr end ;;
       new_verse e b c v fl)
  | _ => (st, Err ValueErr)
  end.

(** ** BibleRange *)
(** ref.py 698-706. *)
Definition any_book (e : env) (x : pyval) : res (option book) :=
  match x with
  | VNone => Ok None
  | VStr s => b <- from_str_raise (ed e) s ;; Ok (Some b)
  | VBook b => Ok (Some b)
  | _ => Err InvalidRef
  end.
Record any_args := AA { aa_sb : option book; aa_sc : pyval; aa_sv : pyval; aa_eb : option book; aa_ec : pyval; aa_ev : pyval }.
(** [x is not None and y > x], as in ref.py 710, 715 and 719. *)
Definition gt_given (e : env) (y x : pyval) : res bool := if given x then py_gt e y x else Ok false.
(** ref.py 708-720. *)
Definition any_swap (e : env) (a : any_args) : res any_args :=
  match a with
  | AA sb sc sv eb ec ev =>
      match sb with
      | None => Ok a
      | Some b =>
          x <- match eb with Some b' => book_gt e b b' | None => Ok false end ;;
          if x : bool then Ok (AA eb ec ev sb sc sv)
          else if match eb with Some b' => book_eqb b' b | None => true end && given sc then
            x <- gt_given e sc ec ;;
            if x : bool then Ok (AA sb ec ev eb sc sv)
            else if (negb (given ec) || py_eqb ec sc) && given sv then
              x <- gt_given e sv ev ;;
              Ok (if x : bool then AA sb sc ev eb ec sv else a)
            else Ok a
          else Ok a
      end
  end.
(** ref.py 722-763. *)
Definition any_build (e : env) (a : any_args) (fl : option flag) : res range :=
  let f := eff e fl in
  match a with
  | AA sb sc sv eb ec ev =>
      let have_end := o_is eb || given ec || given ev in
      match sb with
      | None => Err InvalidRef
      | Some b =>
          if negb (given sc) && given sv then Err InvalidRef
          else
            se <- (if negb (given sc) then
                     s <- first_verse e b None (Some f) ;;
                     if have_end then Ok (s, None) else t <- last_verse e b None ;; Ok (s, Some t)
                   else if negb (given sv) then
                     c <- py_int sc ;;
                     s <- first_verse e b (Some c) (Some f) ;;
                     if have_end then Ok (s, None) else t <- last_verse e b (Some c) ;; Ok (s, Some t)
                   else
                     c <- py_int sc ;; v <- py_int sv ;;
                     s <- new_verse e b c v (Some f) ;;
                     if have_end then Ok (s, None) else t <- new_verse e b c v (Some f) ;; Ok (s, Some t)) ;;
            let s := fst se in
            t <- match snd se with
                 | Some t => Ok t
                 | None =>
                     let b' := match eb with Some b' => b' | None => b end in
                     if negb (given ec) && negb (given ev) then last_verse e b' None
                     else if negb (given ev) then c <- py_int ec ;; last_verse e b' (Some c)
                     else if negb (given ec) then
                       if negb (book_eqb b b') then Err InvalidRef
                       else v <- py_int ev ;; new_verse e b' (vchap s) v (Some f)
                     else c <- py_int ec ;; v <- py_int ev ;; new_verse e b' c v (Some f)
                 end ;;
            if negb (multibook f) && negb (book_eqb (vbook s) (vbook t)) then Err Multibook
            else Ok (R s t)
      end
  end.
(** [x.book]. *)
Definition py_book (x : pyval) : res book := match x with VVerse v => Ok (vbook v) | _ => Err AttrErr end.
(** ref.py 665-673: the attributes [start] and [end] of the new object. *)
Definition any_ends (e : env) (fl : option flag) (s t : pyval) : res (pyval * pyval) :=
  _ <- (if multibook (eff e fl) then Ok tt
        else b <- py_book s ;; b' <- py_book t ;; if book_eqb b b' then Ok tt else Err Multibook) ;;
  x <- py_gt e s t ;; Ok (if x : bool then (t, s) else (s, t)).
Definition ends_of (r : range) : pyval * pyval := (VVerse (rstart r), VVerse (rend r)).
Definition arg (args : list pyval) (i : nat) : pyval := nth i args VNone.
(** ref.py 691-763. *)
Definition any_parts (e : env) (fl : option flag) (args : list pyval) : res range :=
  sb <- any_book e (arg args 0) ;;
  eb <- any_book e (arg args 3) ;;
  a <- any_swap e (AA sb (arg args 1) (arg args 2) eb (arg args 4) (arg args 5)) ;;
  any_build e a fl.
(** ref.py 621-763; [s] and [t] are the keyword arguments [start] and [end] (None if they are left out). *)
Definition any_range (e : env) (fl : option flag) (st : tstate) (args : list pyval) (s t : pyval) : tstate * res (pyval * pyval) :=
  match args with
  | [] => (st, any_ends e fl s t)
  | [VStr x] => let (st, q) := range_from_str e fl st x in (st, r <- q ;; Ok (ends_of r))
  | [VRange r] => (st, Ok (ends_of r))
  | [VBook _] => (st, r <- any_parts e fl args ;; Ok (ends_of r))
  | [_] => (st, Err ValueErr)
  | _ => (st, if (6 <? length args)%nat then Err ValueErr else r <- any_parts e fl args ;; Ok (ends_of r))
  end.

(** ** BibleRangeList *)
(** ref.py 1268-1270. *)
Definition check_type (x : pyval) : res range := match x with VRange r => Ok r | _ => Err TypeErr end.
(** util.py 196-200, with the tests made by [append]; the list is thrown away when one of them fails. *)
Definition new_item (x : pyval) : res (@init_item range) :=
  match x with
  | VSeq l => g <- mapM check_type l ;; Ok (GroupItem g)
  | _ => r <- check_type x ;; Ok (OneItem r)
  end.
Definition new_items (l : list pyval) : res heap := l <- mapM new_item l ;; g_init l.
(** ref.py 1194-1247. *)
Definition any_list (e : env) (fl : option flag) (st : tstate) (args : list pyval) : tstate * res heap :=
  match args with
  | [VStr s] =>
      let (st, q) := parse e (Some (eff e fl)) st s in
      (st, gs <- q ;; fold_left (fun m g => h <- m ;; append_group g h) gs (Ok (clear g_new)))
  | [VList l] => (st, fold_left (fun m g => h <- m ;; append_group g h) l (Ok (clear g_new)))
  | [VNone] => (st, Ok (clear g_new))
  | [x] => (st, l <- py_items e x ;; new_items l)
  | _ => (st, new_items args)
  end.
(** util.py 470-492, 699-701: [append], [append_group], [extend] and [+=]. *)
Definition any_append (x : pyval) (ng : bool) (s : heap) : run := let_run s (check_type x) (fun r => call (append r ng) s).
Fixpoint any_add (l : list pyval) (ng : bool) (s : heap) : run :=
  match l with
  | [] => (s, Ok tt)
  | x :: l' => seq_run (any_append x ng s) (fun s => any_add l' false s)
  end.
Definition any_extend (e : env) (x : pyval) (s : heap) : run := let_run s (py_items e x) (fun l => any_add l false s).
Definition any_append_group (e : env) (x : pyval) (s : heap) : run := let_run s (py_items e x) (fun l => any_add l true s).
(** util.py 460-468, 494-502, 686-688, 172-175, 431-458, 515-525: the other methods that take an item. *)
Definition any_prepend (x : pyval) (ng : bool) (s : heap) : run := let_run s (check_type x) (fun r => call (prepend r ng) s).
Definition any_insert (i : Z) (x : pyval) (s : heap) : run := let_run s (check_type x) (fun r => call (insert i r) s).
Definition any_set_item (i : Z) (x : pyval) (s : heap) : run := let_run s (check_type x) (fun r => call (set_item i r) s).
Definition any_view_set (v : option nat) (i : Z) (x : pyval) (s : heap) : run :=
  let_run s (check_view v s) (fun _ => let_run s (check_type x) (fun r => call (view_set v i r) s)).
Definition any_remove (x : pyval) (s : heap) : run := let_run s (check_type x) (fun r => call (remove range_eqb r) s).
Definition any_index (x : pyval) (lo hi : option Z) (s : heap) : res Z := r <- check_type x ;; index range_eqb r lo hi s.
Definition any_count (x : pyval) (s : heap) : res Z := r <- check_type x ;; count range_eqb r s.

(** ** Set operations *)
(** The values that are a [BibleRef]. *)
Definition as_ref (x : pyval) : option bref :=
  match x with VVerse v => Some (BV v) | VRange r => Some (BR r) | VList l => Some (BL l) | _ => None end.
(** ref.py 934-1102: the last branch of the tests of the methods of a range, and of ref.py 1412, 1429, 1476, 1518. *)
Definition on_ref {A} (f : bref -> res A) (x : pyval) : res A := match as_ref x with Some y => f y | None => Err ValueErr end.
Definition any_r_is_disjoint (e : env) (a : range) : pyval -> res bool := on_ref (r_is_disjoint e a).
Definition any_r_is_adjacent (e : env) (a : range) (fl : option flag) : pyval -> res bool := on_ref (fun x => r_is_adjacent e a x fl).
Definition any_r_contains (e : env) (a : range) : pyval -> res bool := on_ref (r_contains e a).
Definition any_r_surrounds (e : env) (a : range) : pyval -> res bool := on_ref (r_surrounds e a).
Definition any_r_union (e : env) (a : range) (fl : option flag) : pyval -> res rlist := on_ref (fun x => r_union e a x fl).
Definition any_r_intersection (e : env) (a : range) (fl : option flag) : pyval -> res rlist := on_ref (fun x => r_intersection e a x fl).
(** ref.py 1052-1078: [is_disjoint] raises for other classes. *)
Definition any_r_difference (e : env) (a : range) (fl : option flag) (x : pyval) : res rlist :=
  match as_ref x with Some y => r_difference e a y fl | None => _ <- any_r_is_disjoint e a x ;; Err ValueErr end.
(** ref.py 1080-1102: a range is not equal to an object of another class; [union] raises. *)
Definition any_r_sym_difference (e : env) (a : range) (fl : option flag) (x : pyval) : res rlist :=
  match as_ref x with Some y => r_sym_difference e a y fl | None => any_r_union e a fl x end.
(** ref.py 1392-1533: new lists and updates. *)
Definition any_l_union (e : env) (l : rlist) (fl : option flag) : pyval -> res rlist := on_ref (fun x => l_union e l x fl).
Definition any_l_intersection (e : env) (l : rlist) (fl : option flag) : pyval -> res rlist := on_ref (fun x => l_intersection e l x fl).
Definition any_l_difference (e : env) (n : nat) (l : rlist) (fl : option flag) : pyval -> res rlist := on_ref (fun x => l_difference e n l x fl).
Definition any_l_sym_difference (e : env) (n : nat) (l : rlist) (fl : option flag) : pyval -> res rlist :=
  on_ref (fun x => l_sym_difference e n l x fl).
Definition on_ref_run (f : bref -> heap -> run) (x : pyval) (s : heap) : run :=
  match as_ref x with Some y => f y s | None => raise s ValueErr end.
Definition any_union_update (e : env) (fl : option flag) : pyval -> heap -> run := on_ref_run (fun x => n_union_update e x fl).
Definition any_intersection_update (e : env) (fl : option flag) : pyval -> heap -> run := on_ref_run (fun x => n_intersection_update e x fl).
Definition any_difference_update (e : env) (n : nat) (fl : option flag) : pyval -> heap -> run :=
  on_ref_run (fun x => n_difference_update e n x fl).
Definition any_sym_difference_update (e : env) (n : nat) (fl : option flag) : pyval -> heap -> run :=
  on_ref_run (fun x => n_sym_difference_update e n x fl).
(** [all] and [any] of a generator stop at the first false or true value. *)
Fixpoint all_of {A} (f : A -> res bool) (l : list A) : res bool :=
  match l with [] => Ok true | a :: l' => x <- f a ;; if x : bool then all_of f l' else Ok false end.
Fixpoint any_of {A} (f : A -> res bool) (l : list A) : res bool :=
  match l with [] => Ok false | a :: l' => x <- f a ;; if x : bool then Ok true else any_of f l' end.
(** ref.py 1365-1373: there is no test of the class. *)
Definition any_l_is_disjoint (e : env) (l : rlist) (x : pyval) : res bool :=
  match as_ref x with
  | Some y => l_is_disjoint e l y
  | None => all_of (fun a => ys <- py_items e x ;; all_of (any_r_is_disjoint e a) ys) (items l)
  end.
(** ref.py 1375-1390. *)
Definition any_l_contains (e : env) (l : rlist) (fl : option flag) (x : pyval) : res bool :=
  match as_ref x with
  | Some y => l_contains e l y fl
  | None => m <- merge e fl (copy_list l) ;; ys <- py_items e x ;; all_of (fun y => any_of (fun a => any_r_contains e a y) (items m)) ys
  end.
