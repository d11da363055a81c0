(** * SpecDigits: numbers that are too long for [int()]. *)
From Coq Require Import List ZArith NArith Bool Ascii.
From Verif Require Import Base Books Chars Regex Data MVerse MRange MSeq MList MParse SpecParse SpecMean.
Import ListNotations.
Open Scope Z_scope.

(** A number of more digits than the limit; the limit 0 is none. *)
Definition too_long (lim : N) (m : token) : Prop :=
  tk m = TNum /\ lim <> 0%N /\ (N.to_nat lim < List.length (ttext m))%nat.

(** Among the tokens [ts] is a number that is too long, and it ends where or before an error of [q] ends. *)
Definition long_first {A} (lim : N) (ts : list token) (q : res A) : Prop :=
  exists m, In m ts /\ too_long lim m /\ forall i j, q = Err (ParseErr i j) -> tend m <= j.

(** The references and list separators of a text, from left to right. *)
Inductive event := ERef (a : single) | ESep (s : token).
Definition ref_events (x : ref_node) : list event := match x with One a => [ERef a] | Two a _ b => [ERef a; ERef b] end.
Fixpoint rest_events (l : list (token * ref_node)) : list event :=
  match l with [] => [] | (s, x) :: l' => ESep s :: ref_events x ++ rest_events l' end.
Definition events (t : tree) : list event :=
  ref_events (t_first t) ++ rest_events (t_rest t) ++ match t_trail t with Some s => [ESep s] | None => [] end.
(** What they leave in the transformer, without a limit. *)
Definition leaves (e : env) (fl : option flag) (st : tstate) (l : list event) : tstate :=
  fold_left (fun st x => match x with ERef a => fst (t_single e (eff e fl) st a) | ESep s => t_sep st s end) l st.
Definition event_toks (x : event) : list token := match x with ERef a => toks a | ESep s => [s] end.
