(** * SpecAlike: texts that differ in what does not matter. *)
From Coq Require Import List ZArith NArith Bool Ascii Lia.
From Verif Require Import Base Books Chars Regex Data MVerse MRange MSeq MList MParse SpecParse SpecName.
Import ListNotations.
Open Scope Z_scope.
Open Scope list_scope.

(** The number that a text of digits stands for. *)
Inductive stands : str -> Z -> Prop :=
| St_nil : stands [] 0
| St_more s n c k : stands s n -> Z.of_N (N_of_ascii c) = 48 + k -> 0 <= k < 10 -> stands (s ++ [c]) (10 * n + k).
(** Names of the same book, or both of none. *)
Definition same_book (d : bibledata) (s t : str) : Prop := forall b, from_str d s = Some b <-> from_str d t = Some b.
(** Tokens of the same kind: names of the same book, the same number, any verse separator. *)
Definition alike (d : bibledata) (t u : token) : Prop :=
  tk t = tk u /\
  match tk t with
  | TName => same_book d (ttext t) (ttext u)
  | TNum => exists n, stands (ttext t) n /\ stands (ttext u) n
  | _ => True
  end.
(** The results of reading two texts with the tokens [ts] and [us]: equal, or both errors that blame the text from the
    [i]-th to the [j]-th token. *)
Definition same_outcome {A} (ts us : list token) (q r : res A) : Prop :=
  q = r \/ exists i j t u t' u', nth_error ts i = Some t /\ nth_error us i = Some t' /\ nth_error ts j = Some u /\ nth_error us j = Some u' /\
    q = Err (ParseErr (tpos t) (tend u)) /\ r = Err (ParseErr (tpos t') (tend u')).

(** Places of a text next to a separator, or with only white space before or after them. *)
Definition beside_sep (d : bibledata) (a b : str) : Prop :=
  white a \/ white b \/ (exists c x, a = x ++ [c] /\ is_sep d c) \/ (exists c x, b = c :: x /\ is_sep d c).
(** [w] is put into a text at position [n]: errors beyond it blame later positions. *)
Definition moved {A} (n : Z) (w : str) (q : res A) : res A :=
  match q with
  | Err (ParseErr i j) => Err (ParseErr (if i <? n then i else i + zlen w) (if j <=? n then j else j + zlen w))
  | _ => q
  end.
