(** * SpecName: which texts are names of a book, without regular expressions. *)
From Coq Require Import List ZArith NArith Bool Ascii String Lia.
From Verif Require Import Base Books Chars Regex Data.
Import ListNotations.
Open Scope list_scope.

(** A name as it may be written: letters in either case, and gaps of white space. *)
Inductive piece := Letter (c : ascii) | Gap1 | Gap0.
Inductive written : list piece -> str -> Prop :=
| W_nil : written [] []
| W_letter c x p s : lower c = lower x -> written p s -> written (Letter c :: p) (x :: s)
| W_gap1 w p s : w <> [] -> Forall (fun c => is_space c = true) w -> written p s -> written (Gap1 :: p) (w ++ s)
| W_gap0 w p s : Forall (fun c => is_space c = true) w -> written p s -> written (Gap0 :: p) (w ++ s).

(** In a title a blank stands for white space; in an extra abbreviation for optional white space. *)
Definition title_pieces (t : str) : list piece := map (fun c => if Ascii.eqb c space then Gap1 else Letter c) t.
Definition extra_pieces (a : str) : list piece := map (fun c => if Ascii.eqb c space then Gap0 else Letter c) a.

(** The number of a book: "1" with or without white space after it, or "I" with white space after it. *)
Definition romans : list (ascii * str) := [("1"%char, s2l "I"); ("2"%char, s2l "II"); ("3"%char, s2l "III")].
Inductive title_form : str -> list piece -> str -> Prop :=
| TF_digit c r t : In (c, r) romans -> title_form (c :: space :: t) [Letter c; Gap0] t
| TF_roman c r t : In (c, r) romans -> title_form (c :: space :: t) (map Letter r ++ [Gap1]) t
| TF_plain t : (forall c r t', In (c, r) romans -> t <> c :: space :: t') -> title_form t [] t.

(** A name: at least [n_min] characters of the title, or an extra abbreviation. *)
Definition names_book (n : name_entry) (s : str) : Prop :=
  (exists p t k, title_form (n_title n) p t /\ (n_min n <= k)%nat /\ written (p ++ title_pieces (firstn k t)) s) \/
  (exists a, In a (n_extra n) /\ written (extra_pieces a) s).

(** Texts that differ only in letter case. *)
Definition same_letters (s t : str) : Prop := map lower s = map lower t.
