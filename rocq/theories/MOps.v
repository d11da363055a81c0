(** * MOps: the operators of verses, ranges and lists. *)
From Coq Require Import List ZArith Bool.
From Verif Require Import Base Books Data MVerse MRange MSeq MList.
Open Scope Z_scope.

(** The right operand of [+] and [-] on verses: an int, a verse, or anything else. *)
Inductive operand := OInt (n : Z) | OVerse (w : verse) | OOther.
(** What [-] gives: a verse or None, or an int. *)
Inductive outcome := GotVerse (v : option verse) | GotInt (n : Z).
(** ref.py 541-544; after [NotImplemented] Python raises [TypeError] (no operand class has a reflected method). *)
Definition op_add (e : env) (v : verse) (x : operand) : res (option verse) :=
  match x with OInt n => add e v n None | _ => Err TypeErr end.
(** ref.py 546-549. *)
Definition op_sub (e : env) (v : verse) (x : operand) : res outcome :=
  match x with
  | OInt n => w <- subtract e v n None ;; Ok (GotVerse w)
  | OVerse w => n <- subtract_verse e v w None ;; Ok (GotInt n)
  | OOther => Err TypeErr
  end.
(** ref.py 1110-1125: the operators of a range. *)
Definition op_in (e : env) (x : bref) (a : range) : res bool := r_contains e a x.
Definition op_or (e : env) (a : range) (x : bref) : res rlist := r_union e a x None.
Definition op_and (e : env) (a : range) (x : bref) : res rlist := r_intersection e a x None.
Definition op_minus (e : env) (a : range) (x : bref) : res rlist := r_difference e a x None.
Definition op_xor (e : env) (a : range) (x : bref) : res rlist := r_sym_difference e a x None.
(** ref.py 1535-1550: the operators of a list that make a new list. *)
Definition op_l_in (e : env) (x : bref) (l : rlist) : res bool := l_contains e l x None.
Definition op_l_or (e : env) (l : rlist) (x : bref) : res rlist := l_union e l x None.
Definition op_l_and (e : env) (l : rlist) (x : bref) : res rlist := l_intersection e l x None.
Definition op_l_minus (e : env) (fuel : nat) (l : rlist) (x : bref) : res rlist := l_difference e fuel l x None.
Definition op_l_xor (e : env) (fuel : nat) (l : rlist) (x : bref) : res rlist := l_sym_difference e fuel l x None.
