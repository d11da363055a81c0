(** * MPlace: the positions of syntax errors (parser.py 42-51).

    [orig.pos_in_stream] is a value of the library Lark (1.1.5 or later).  Its Earley parser goes through the text from
    left to right; at every place it looks for the terminals that its rules expect there, each as long as possible, and
    for white space, which it skips.  When nothing that it has found ends after index [i], it raises UnexpectedCharacters
    with pos_in_stream = i; when the text ends before a reading is complete, UnexpectedEOF with pos_in_stream = -1.  That
    contract is a relation in SpecPlace.v; this file computes the position. *)
From Coq Require Import List ZArith NArith Bool Ascii.
From Verif Require Import Base Books Chars Regex Data MVerse MRange MSeq MList MParse MStr.
Import ListNotations.
Open Scope Z_scope.

(** What has been read of a reference; [dual]: there was a range separator (parser.py 210-228). *)
Inductive place :=
| PStart (dual : bool)      (* nothing *)
| PName (dual : bool)       (* a name *)
| PNum (dual : bool)        (* a number, after a name or not *)
| PSep (dual : bool)        (* and a verse separator *)
| PDone (dual : bool).      (* and another number *)
(** The terminals that may follow. *)
Definition step (q : place) (k : term) : option place :=
  match k, q with
  | TName, PStart u => Some (PName u)
  | TNum, PStart u | TNum, PName u => Some (PNum u)
  | TNum, PSep u => Some (PDone u)
  | TVerse, PNum u => Some (PSep u)
  | TRange, PName false | TRange, PNum false | TRange, PDone false => Some (PStart true)
  | TMajor, PName _ | TMajor, PNum _ | TMajor, PDone _ => Some (PStart false)
  | TMinor, PName _ | TMinor, PNum _ | TMinor, PDone _ => Some (PStart false)
  | _, _ => None
  end.
(** parser.py 228-242: is [x] a text of the terminal? *)
Definition is_term (d : bibledata) (k : term) (x : str) : bool :=
  match k with
  | TName => is_name d x
  | TNum => match x with [] => false | _ => forallb is_digit x end
  | TRange => str_eqb x [range_sep d]
  | TMajor => str_eqb x [major_list_sep d]
  | TMinor => str_eqb x [minor_list_sep d]
  | TVerse => str_eqb x [verse_sep_std d] || str_eqb x [verse_sep_alt d]
  end.
(** The length of the longest match at the beginning of the text. *)
Definition match_term (d : bibledata) (k : term) (s : str) : option nat :=
  find (fun n => is_term d k (firstn n s)) (rev (List.seq 1 (List.length s))).
Definition all_terms : list term := [TName; TNum; TRange; TMajor; TMinor; TVerse].
(** How far the matches reach, from place [q] and index [i]; [s] is the rest of the text. *)
Fixpoint far (d : bibledata) (fuel : nat) (q : place) (i : Z) (s : str) : Z :=
  let a := drop_ws s in
  let j := i + (zlen s - zlen a) in
  match fuel with
  | O => j
  | S n =>
      fold_right Z.max j (map (fun k =>
        match step q k, match_term d k a with
        | Some q', Some m => far d n q' (j + Z.of_nat m) (skipn m a)
        | _, _ => j
        end) all_terms)
  end.
(** [orig.pos_in_stream] *)
Definition error_pos (d : bibledata) (s : str) : Z :=
  let n := far d (List.length s) (PStart false) 0 s in
  if n =? zlen s then -1 else n.
(** parser.py 40-59, with the positions of lines 45-49. *)
Definition parse_p (e : env) (fl : option flag) (st : tstate) (s : str) : tstate * res (list (list range)) :=
  match read (ed e) s with
  | None => (st, Err (ParseErr (error_pos (ed e) s) (error_pos (ed e) s + 1)))
  | Some t => let (st, q) := t_children e (eff e fl) st t in (st, cs <- q ;; Ok (ref_list [] [] cs))
  end.
