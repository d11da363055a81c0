(** * Chars: strings as lists of Latin-1 characters.

    A Python [str] is a sequence of code points.  The model covers the code points 0..255; an
    [ascii] is such a code point.  The character classes below are those of Python's [re] and
    [str] methods restricted to Latin-1. *)
From Coq Require Import List Arith NArith Bool Ascii String Lia.
Import ListNotations.

Definition str := list ascii.
Definition s2l (s : string) : str := list_ascii_of_string s.
Coercion s2l : string >-> str.

Definition code (c : ascii) : N := N_of_ascii c.
Definition between (lo hi : N) (c : ascii) : bool := (lo <=? code c)%N && (code c <=? hi)%N.

(** [str.isspace], [str.strip], and [\s] of [re] (Unicode mode). *)
Definition is_space (c : ascii) : bool :=
  between 9 13 c || between 28 32 c || (code c =? 133)%N || (code c =? 160)%N.

(** [0-9] of the BOOK_NAME terminal and DIGIT of lark's [common] grammar. *)
Definition is_digit (c : ascii) : bool := between 48 57 c.

(** [\w] of [re] (Unicode mode): alphanumeric (letters, digits, other numerics) or underscore. *)
Definition is_word (c : ascii) : bool :=
  is_digit c || between 65 90 c || between 97 122 c || (code c =? 95)%N ||
  (code c =? 170)%N || between 178 179 c || (code c =? 181)%N || between 185 186 c ||
  between 188 190 c || between 192 214 c || between 216 246 c || between 248 255 c.

(** WS of lark's [common] grammar: [ \t\f\r\n]. *)
Definition is_ws (c : ascii) : bool :=
  (code c =? 32)%N || between 9 10 c || between 12 13 c.

(** Lower case, for [re.IGNORECASE]. *)
Definition lower (c : ascii) : ascii :=
  if between 65 90 c || (between 192 222 c && negb (code c =? 215)%N)
  then ascii_of_N (code c + 32) else c.

Definition ci_eqb (a b : ascii) : bool := Ascii.eqb (lower a) (lower b).

(** [str.strip()]. *)
Fixpoint lstrip (s : str) : str :=
  match s with c :: s' => if is_space c then lstrip s' else s | [] => [] end.
Definition rstrip (s : str) : str := rev (lstrip (rev s)).
Definition strip (s : str) : str := rstrip (lstrip s).

Definition space : ascii := " "%char.

(** [s.replace(" ", "")]. *)
Definition remove_spaces (s : str) : str := filter (fun c => negb (Ascii.eqb c space)) s.

(** Decimal representation: [str(n)] for [n >= 0]. *)
Definition digit_char (d : N) : ascii := ascii_of_N (48 + d).
Definition digit_val (c : ascii) : N := code c - 48.

Fixpoint dec_fuel (fuel : nat) (n : N) : str :=
  match fuel with
  | O => [digit_char (n mod 10)]
  | S f => if (n <? 10)%N then [digit_char n]
           else dec_fuel f (n / 10) ++ [digit_char (n mod 10)]
  end.
Definition dec (n : N) : str := dec_fuel (N.size_nat n) n.

(** [int(s)] for a string of ASCII digits (Python's limit on the number of digits is not modelled). *)
Definition undec (s : str) : N := fold_left (fun a c => 10 * a + digit_val c)%N s 0%N.
