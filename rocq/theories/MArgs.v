(** * MArgs: the methods of books and verses that take a chapter number or a book, with any argument or none.

    MVerse and MRange take chapter numbers and books only.  Here [Some x] is an argument [x] of any class of MNew and [None]
    an argument left out; [flags] is given by name.  A call without an argument that has no default raises [TypeError]. *)
From Coq Require Import List ZArith Bool.
From Verif Require Import Base Books Data MVerse MRange MNew.
Import ListNotations.
Open Scope Z_scope.

(** An argument with the default [None], and one without a default. *)
Definition or_none (o : option pyval) : pyval := match o with Some x => x | None => VNone end.
Definition required (o : option pyval) : res pyval := match o with Some x => Ok x | None => Err TypeErr end.

(** ref.py 180-181 and 187-188: [chap_num < lowest or chap_num > highest].  Only ints compare with ints; the chapter is given back. *)
Definition check_chap (e : env) (b : book) (x : pyval) : res Z :=
  low <- py_gt e (VInt (min_chap_num e b)) x ;;
  if low : bool then Err InvalidRef
  else
    high <- py_gt e x (VInt (max_chap_num e b)) ;;
    if high : bool then Err InvalidRef else match x with VInt c => Ok c | _ => Err TypeErr end.

(** ref.py 176-182. *)
Definition a_min_verse_num (e : env) (b : book) (o : option pyval) (fl : option flag) : res Z :=
  x <- required o ;; c <- check_chap e b x ;; Ok (if verse0 (eff e fl) && zmem c (verse_0s (ed e) b) then 0 else 1).
(** ref.py 184-189. *)
Definition a_max_verse_num (e : env) (b : book) (o : option pyval) : res Z :=
  x <- required o ;; c <- check_chap e b x ;;
  match max_verses (ed e) b with
  | None => Err TypeErr
  | Some l => match znth l (c - 1) with Some m => Ok m | None => Err IndexErr end
  end.
(** [BibleVerse(self, chap_num, n)] of ref.py 197 and 205: 328-341 want ints. *)
Definition a_new_verse (e : env) (b : book) (x : pyval) (n : Z) : res verse :=
  match x with VInt c => new_verse e b c n None | _ => Err ValueErr end.
(** ref.py 191-197. *)
Definition a_first_verse (e : env) (b : book) (o : option pyval) (fl : option flag) : res verse :=
  let x := match or_none o with VNone => VInt (min_chap_num e b) | x => x end in
  n <- a_min_verse_num e b (Some x) fl ;; a_new_verse e b x n.
(** ref.py 199-205. *)
Definition a_last_verse (e : env) (b : book) (o : option pyval) : res verse :=
  let x := match or_none o with VNone => VInt (max_chap_num e b) | x => x end in
  n <- a_max_verse_num e b (Some x) ;; a_new_verse e b x n.
(** ref.py 230-233. *)
Definition a_chap_range (e : env) (b : book) (o : option pyval) (fl : option flag) : res range :=
  x <- required o ;; s <- a_first_verse e b (Some x) fl ;; t <- a_last_verse e b (Some x) ;; new_range e s t fl.

(** [if chap_num is None: chap_num = self.chap_num] *)
Definition own_chap (v : verse) (x : pyval) : pyval := match x with VNone => VInt (vchap v) | x => x end.
(** ref.py 388-395. *)
Definition av_min_verse_num (e : env) (v : verse) (o : option pyval) (fl : option flag) : res Z :=
  a_min_verse_num e (vbook v) (Some (own_chap v (or_none o))) fl.
(** ref.py 397-403: [chap_num] has no default. *)
Definition av_max_verse_num (e : env) (v : verse) (o : option pyval) : res Z :=
  x <- required o ;; a_max_verse_num e (vbook v) (Some (own_chap v x)).
(** ref.py 405-412. *)
Definition av_first_verse (e : env) (v : verse) (o : option pyval) (fl : option flag) : res verse :=
  a_first_verse e (vbook v) (Some (own_chap v (or_none o))) fl.
(** ref.py 414-421. *)
Definition av_last_verse (e : env) (v : verse) (o : option pyval) : res verse :=
  a_last_verse e (vbook v) (Some (own_chap v (or_none o))).
(** ref.py 423-427. *)
Definition av_is_first_in_chap (e : env) (v : verse) (o : option pyval) (fl : option flag) : res bool :=
  w <- av_first_verse e v (Some (or_none o)) fl ;; Ok (verse_eqb v w).
(** ref.py 429-433. *)
Definition av_is_last_in_chap (e : env) (v : verse) (o : option pyval) : res bool :=
  w <- av_last_verse e v (Some (or_none o)) ;; Ok (verse_eqb v w).
(** ref.py 435-441: [book.first_verse(None, ...)] is looked up in what was given; verses have such a method too. *)
Definition av_is_first_in_book (e : env) (v : verse) (o : option pyval) (fl : option flag) : res bool :=
  w <- match or_none o with
       | VNone => a_first_verse e (vbook v) (Some VNone) fl
       | VBook b => a_first_verse e b (Some VNone) fl
       | VVerse u => av_first_verse e u (Some VNone) fl
       | _ => Err AttrErr
       end ;; Ok (verse_eqb v w).
(** ref.py 443-449. *)
Definition av_is_last_in_book (e : env) (v : verse) (o : option pyval) : res bool :=
  w <- match or_none o with
       | VNone => a_last_verse e (vbook v) (Some VNone)
       | VBook b => a_last_verse e b (Some VNone)
       | VVerse u => av_last_verse e u (Some VNone)
       | _ => Err AttrErr
       end ;; Ok (verse_eqb v w).
