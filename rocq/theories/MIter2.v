(** * MIter2: an iterator over the verses of a range.

    ref.py 1104-1108 is a generator: it runs only when [next] is called, and stops at every [yield].  So the iterator is a
    place in the code, with the verse it stands at; [next] uses the global flags as they are at that time.  MRange.iter_range
    is this iterator while nothing changes.  A generator that has raised an exception or has come to its end is finished. *)
From Coq Require Import List ZArith Bool.
From Verif Require Import Base Books Data MVerse MRange.
Import ListNotations.
Open Scope Z_scope.

(** Before the first [next]; at the [yield] of a verse; finished. *)
Inductive stand := SNew | SAt (v : verse) | SEnd.
(** ref.py 1106: up to the next [yield] (None: StopIteration). *)
Definition give_verse (e : env) (r : range) (o : option verse) : res (option verse) * stand :=
  match o with
  | None => (Ok None, SEnd)
  | Some v => match verse_le e v (rend r) with
              | Ok true => (Ok (Some v), SAt v)
              | Ok false => (Ok None, SEnd)
              | Err x => (Err x, SEnd)
              end
  end.
(** ref.py 1104-1108. *)
Definition range_next (e : env) (r : range) (c : stand) : res (option verse) * stand :=
  match c with
  | SNew => give_verse e r (Some (rstart r))
  | SAt v => match add e v 1 (Some MULTIBOOK) with Ok o => give_verse e r o | Err x => (Err x, SEnd) end
  | SEnd => (Ok None, SEnd)
  end.
(** What the calls of [next] give, if the global flags are those of [gs], one after the other. *)
Fixpoint nexts (d : bibledata) (r : range) (gs : list flag) (c : stand) : list (res (option verse)) :=
  match gs with
  | [] => []
  | g :: gs' => let (q, c') := range_next (mkEnv d g) r c in q :: nexts d r gs' c'
  end.
