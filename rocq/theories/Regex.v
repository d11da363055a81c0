(** * Regex: the fragment of [re] used for book names, and [fullmatch].

    data.py 120-170 builds a pattern text for every book and compiles it with
    [re.IGNORECASE].  The model builds the syntax tree of that pattern directly
    ([title_regex], [extra_regex], [book_regex]); names are assumed to be free of regex
    metacharacters, as all default names are. *)
From Coq Require Import List Arith NArith Bool Ascii String Lia.
From Verif Require Import Chars.
Import ListNotations.

Inductive regex : Type :=
| REmpty                       (* no string *)
| REps                         (* the empty string *)
| RCh (c : ascii)              (* a literal character, case-insensitive *)
| RSp                          (* \s *)
| RSeq (a b : regex)
| RAlt (a b : regex)
| RStar (a : regex).

Definition ROpt (r : regex) : regex := RAlt r REps.           (* r? *)
Definition RPlus (r : regex) : regex := RSeq r (RStar r).     (* r+ *)

(** Language of a regex (declarative semantics of [fullmatch]). *)
Inductive lang : regex -> str -> Prop :=
| LEps : lang REps []
| LCh c d : ci_eqb c d = true -> lang (RCh c) [d]
| LSp c : is_space c = true -> lang RSp [c]
| LSeq a b s t : lang a s -> lang b t -> lang (RSeq a b) (s ++ t)
| LAltL a b s : lang a s -> lang (RAlt a b) s
| LAltR a b s : lang b s -> lang (RAlt a b) s
| LStarNil a : lang (RStar a) []
| LStarCons a s t : lang a s -> lang (RStar a) t -> lang (RStar a) (s ++ t).

(** Executable matcher by derivatives. *)
Fixpoint nullable (r : regex) : bool :=
  match r with
  | REmpty | RCh _ | RSp => false
  | REps | RStar _ => true
  | RSeq a b => nullable a && nullable b
  | RAlt a b => nullable a || nullable b
  end.

Fixpoint deriv (r : regex) (c : ascii) : regex :=
  match r with
  | REmpty | REps => REmpty
  | RCh d => if ci_eqb d c then REps else REmpty
  | RSp => if is_space c then REps else REmpty
  | RSeq a b => if nullable a then RAlt (RSeq (deriv a c) b) (deriv b c) else RSeq (deriv a c) b
  | RAlt a b => RAlt (deriv a c) (deriv b c)
  | RStar a => RSeq (deriv a c) (RStar a)
  end.

(** [regex.fullmatch(s) is not None]. *)
Fixpoint fullmatch (r : regex) (s : str) : bool :=
  match s with [] => nullable r | c :: s' => fullmatch (deriv r c) s' end.

(** data.py 115-118, 132-134: one entry of [name_data]. *)
Record name_entry := mkName {
  n_abbrev : str;          (* Abbrev title *)
  n_title : str;           (* Full title *)
  n_min : nat;             (* Min unique chars (excl. numbers) *)
  n_extra : list str       (* extra recognised abbrevs *)
}.

(** data.py 158 ([full_title_pattern.replace(" ", r"\s+")]): one character of the title. *)
Definition title_char (c : ascii) : regex :=
  if Ascii.eqb c space then RPlus RSp else RCh c.

(** data.py 150 (the mandatory characters). *)
Fixpoint seq_chars (s : str) (k : regex) : regex :=
  match s with [] => k | c :: s' => RSeq (title_char c) (seq_chars s' k) end.

(** data.py 153-155: "(" + char for every further character, closed by ")?". *)
Fixpoint opt_chars (s : str) : regex :=
  match s with [] => REps | c :: s' => ROpt (RSeq (title_char c) (opt_chars s')) end.

(** data.py 150-158 for the title without a numeric prefix. *)
Definition title_body (t : str) (min : nat) : regex :=
  seq_chars (firstn min t) (opt_chars (skipn min t)).

(** data.py 143-145: "(1\s*|I\s+)", "(2\s*|II\s+)", "(3\s*|III\s+)". *)
Definition num_prefix (digit : ascii) (roman : str) : regex :=
  RAlt (RSeq (RCh digit) (RStar RSp)) (seq_chars roman (RPlus RSp)).

(** data.py 138-158. *)
Definition title_regex (t : str) (min : nat) : regex :=
  match t with
  | c1 :: c2 :: t' =>
      if Ascii.eqb c2 space then
        if Ascii.eqb c1 "1" then RSeq (num_prefix "1" (s2l "I")) (title_body t' min)
        else if Ascii.eqb c1 "2" then RSeq (num_prefix "2" (s2l "II")) (title_body t' min)
        else if Ascii.eqb c1 "3" then RSeq (num_prefix "3" (s2l "III")) (title_body t' min)
        else title_body t min
      else title_body t min
  | _ => title_body t min
  end.

(** data.py 164: an extra abbreviation, spaces replaced by [\s*]. *)
Fixpoint extra_regex (a : str) : regex :=
  match a with
  | [] => REps
  | c :: a' => RSeq (if Ascii.eqb c space then RStar RSp else RCh c) (extra_regex a')
  end.

(** data.py 160-166: all alternatives of a book. *)
Definition book_regex (n : name_entry) : regex :=
  fold_left (fun r a => RAlt r (extra_regex a)) (n_extra n) (title_regex (n_title n) (n_min n)).
