(** * SpecPlace: the contract of Lark about the positions of syntax errors, as a relation on texts and rules. *)
From Coq Require Import List ZArith Bool Ascii.
From Verif Require Import Base Books Chars Regex Data MVerse MRange MSeq MList MParse SpecParse.
Import ListNotations.
Open Scope Z_scope.

(** Tokens at the beginning of a text, each the longest of its terminal at its place, with white space before and after
    them; [r] is the rest of the text. *)
Inductive scans (d : bibledata) : str -> list token -> str -> Prop :=
| Sc_end w r : white w -> scans d (w ++ r) [] r
| Sc_tok w k x i s ts r : white w -> in_term d k x -> longest d k x s -> scans d s ts r -> scans d (w ++ x ++ s) (Tok k x i :: ts) r.
(** The rules allow these tokens at the beginning of a text. *)
Definition viable (ts : list token) : Prop := exists more t, g_list (ts ++ more) t.
(** Tokens that are expected, and white space, can be found up to index [n]. *)
Definition reaches (d : bibledata) (s : str) (n : Z) : Prop :=
  exists ts r, scans d s ts r /\ viable ts /\ n + zlen r = zlen s.
(** The position of the error: as far as can be reached, or -1 if that is the end of the text. *)
Definition error_at (d : bibledata) (s : str) (p : Z) : Prop :=
  exists n, reaches d s n /\ (forall m, reaches d s m -> m <= n) /\ p = if n =? zlen s then -1 else n.
