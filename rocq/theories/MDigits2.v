(** * MDigits2: the numbers given to [BibleRange] as strings, with Python's limit on the digits of [int()].

    As in MDigits, [lim] is the limit of the interpreter, 0 for none.  Signs, white space and underscores do not count, leading
    zeros do.  MNew is the case without a limit. *)
From Coq Require Import List ZArith NArith Bool Ascii.
From Verif Require Import Base Books Chars Regex Data MVerse MRange MSeq MList MParse MNode MGroup MOrder MNew MDigits.
Import ListNotations.
Open Scope Z_scope.

(** [int(s)] for a string. *)
Definition int_of_str_l (lim : N) (s : str) : res Z :=
  let s := rev (skip_space (rev (skip_space s))) in
  let q := match s with
           | c :: s' => if (code c =? 43)%N then (1, s') else if (code c =? 45)%N then (-1, s') else (1, s)
           | [] => (1, [])
           end in
  match int_digits (snd q) with
  | Some l => if (0 <? lim)%N && (lim <? N.of_nat (List.length l))%N then Err ValueErr else Ok (fst q * Z.of_N (undec l))
  | None => Err ValueErr
  end.
(** [int(x)]. *)
Definition py_int_l (lim : N) (x : pyval) : res Z :=
  match x with VInt n => Ok n | VStr s => int_of_str_l lim s | _ => Err TypeErr end.
(** ref.py 722-763. *)
Definition any_build_l (lim : N) (e : env) (a : any_args) (fl : option flag) : res range :=
  let f := eff e fl in
  match a with
  | AA sb sc sv eb ec ev =>
      let have_end := o_is eb || given ec || given ev in
      match sb with
      | None => Err InvalidRef
      | Some b =>
          if negb (given sc) && given sv then Err InvalidRef
          else
            se <- (if negb (given sc) then
                     s <- first_verse e b None (Some f) ;;
                     if have_end then Ok (s, None) else t <- last_verse e b None ;; Ok (s, Some t)
                   else if negb (given sv) then
                     c <- py_int_l lim sc ;;
                     s <- first_verse e b (Some c) (Some f) ;;
                     if have_end then Ok (s, None) else t <- last_verse e b (Some c) ;; Ok (s, Some t)
                   else
                     c <- py_int_l lim sc ;; v <- py_int_l lim sv ;;
                     s <- new_verse e b c v (Some f) ;;
                     if have_end then Ok (s, None) else t <- new_verse e b c v (Some f) ;; Ok (s, Some t)) ;;
            let s := fst se in
            t <- match snd se with
                 | Some t => Ok t
                 | None =>
                     let b' := match eb with Some b' => b' | None => b end in
                     if negb (given ec) && negb (given ev) then last_verse e b' None
                     else if negb (given ev) then c <- py_int_l lim ec ;; last_verse e b' (Some c)
                     else if negb (given ec) then
                       if negb (book_eqb b b') then Err InvalidRef
                       else v <- py_int_l lim ev ;; new_verse e b' (vchap s) v (Some f)
                     else c <- py_int_l lim ec ;; v <- py_int_l lim ev ;; new_verse e b' c v (Some f)
                 end ;;
            if negb (multibook f) && negb (book_eqb (vbook s) (vbook t)) then Err Multibook
            else Ok (R s t)
      end
  end.
(** ref.py 691-763. *)
Definition any_parts_l (lim : N) (e : env) (fl : option flag) (args : list pyval) : res range :=
  sb <- any_book e (arg args 0) ;;
  eb <- any_book e (arg args 3) ;;
  a <- any_swap e (AA sb (arg args 1) (arg args 2) eb (arg args 4) (arg args 5)) ;;
  any_build_l lim e a fl.
(** ref.py 621-763, as [any_range]. *)
Definition any_range_l (lim : N) (e : env) (fl : option flag) (st : tstate) (args : list pyval) (s t : pyval) : tstate * res (pyval * pyval) :=
  match args with
  | [] => (st, any_ends e fl s t)
  | [VStr x] => let (st, q) := range_from_str_l lim e fl st x in (st, r <- q ;; Ok (ends_of r))
  | [VRange r] => (st, Ok (ends_of r))
  | [VBook _] => (st, r <- any_parts_l lim e fl args ;; Ok (ends_of r))
  | [_] => (st, Err ValueErr)
  | _ => (st, if (6 <? length args)%nat then Err ValueErr else r <- any_parts_l lim e fl args ;; Ok (ends_of r))
  end.
