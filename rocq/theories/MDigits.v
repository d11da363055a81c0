(** * MDigits: reading texts with Python's limit on the digits of [int()].

    [int(s)] raises [ValueError] if [s] has more digits than the limit of the interpreter ([sys.set_int_max_str_digits],
    4300 unless changed, 0 for no limit).  Leading zeros count.  parser.py 199-200 calls [int(token)] for every number, and
    no [try] surrounds it: Lark wraps the exception in a [VisitError], and parser.py 58-59 raises it again.  MParse is the
    case without a limit. *)
From Coq Require Import List ZArith NArith Bool Ascii.
From Verif Require Import Base Books Chars Regex Data MVerse MRange MSeq MList MParse.
Import ListNotations.
Open Scope Z_scope.

(** parser.py 199-200. *)
Definition tok_num_l (lim : N) (m : token) : res Z :=
  if (0 <? lim)%N && (lim <? N.of_nat (List.length (ttext m)))%N then Err ValueErr else Ok (tok_num m).

(** The callbacks of the tokens, from left to right, and then that of the rule. *)
Definition t_single_l (lim : N) (e : env) (f : flag) (st : tstate) (a : single) : tstate * res range :=
  let make c := blame (s_pos a) (s_end a) (new_range_pos e c (Some f)) in
  let name n k := match tok_book (ed e) n with Err x => (st, Err x) | Ok b => k b end in
  let num m k := match tok_num_l lim m with Err x => (st, Err x) | Ok i => k i end in
  match a with
  | SBook n => name n (fun b => (TS (Some b) (ts_chap st) false, make (PB b None None)))      (* parser.py 106-114 *)
  | SBookNum n m =>                                                                           (* parser.py 116-133 *)
      name n (fun b => num m (fun i =>
        if chap_count e b =? 1 then
          (TS (Some b) (Some (min_chap_num e b)) true, make (PB b (Some (min_chap_num e b)) (Some i)))
        else (TS (Some b) (Some i) false, make (PB b (Some i) None))))
  | SFull n c _ v =>                                                                          (* parser.py 135-146 *)
      name n (fun b => num c (fun i => num v (fun j =>
        (TS (Some b) (Some i) true, make (PB b (Some i) (Some j))))))
  | SChapVerse c _ v =>                                                                       (* parser.py 148-160 *)
      num c (fun i => num v (fun j =>
        match ts_book st with
        | None => (st, Err (ParseErr (s_pos a) (s_end a)))
        | Some b => (TS (Some b) (Some i) true, make (PB b (Some i) (Some j)))
        end))
  | SNum m =>                                                                                 (* parser.py 162-182 *)
      num m (fun i =>
        match ts_book st with
        | None => (st, Err (ParseErr (s_pos a) (s_end a)))
        | Some b =>
            let one := chap_count e b =? 1 in
            if ts_vl st || one then
              if one then
                (TS (Some b) (Some (min_chap_num e b)) (ts_vl st), make (PB b (Some (min_chap_num e b)) (Some i)))
              else match ts_chap st with
                   | None => (st, Err (ParseErr (s_pos a) (s_end a)))
                   | Some c => (st, make (PB b (Some c) (Some i)))
                   end
            else (st, make (PB b (Some i) None))
        end)
  end.
(** parser.py 93-104. *)
Definition t_ref_l (lim : N) (e : env) (f : flag) (st : tstate) (x : ref_node) : tstate * res range :=
  match x with
  | One a => t_single_l lim e f st a
  | Two a _ b =>
      match t_single_l lim e f st a with
      | (st, Err x) => (st, Err x)
      | (st, Ok r1) =>
          match t_single_l lim e f st b with
          | (st, Err x) => (st, Err x)
          | (st, Ok r2) =>
              let s := rstart r1 in let t := rend r2 in
              (st, blame (s_pos a) (s_end b)
                     (new_range_pos e (PA (vbook s) (Some (vchap s)) (Some (vverse s))
                                          (Some (vbook t)) (Some (vchap t)) (Some (vverse t))) (Some f)))
          end
      end
  end.
Fixpoint t_rests_l (lim : N) (e : env) (f : flag) (st : tstate) (l : list (token * ref_node)) : tstate * res (list child) :=
  match l with
  | [] => (st, Ok [])
  | (s, x) :: l' =>
      let st := t_sep st s in
      match t_ref_l lim e f st x with
      | (st, Err z) => (st, Err z)
      | (st, Ok r) => let (st, q) := t_rests_l lim e f st l' in (st, cs <- q ;; Ok (sep_child s :: CRange r :: cs))
      end
  end.
Definition t_children_l (lim : N) (e : env) (f : flag) (st : tstate) (t : tree) : tstate * res (list child) :=
  match t_ref_l lim e f st (t_first t) with
  | (st, Err z) => (st, Err z)
  | (st, Ok r) =>
      match t_rests_l lim e f st (t_rest t) with
      | (st, Err z) => (st, Err z)
      | (st, Ok cs) =>
          match t_trail t with
          | None => (st, Ok (CRange r :: cs))
          | Some s => (t_sep st s, Ok (CRange r :: cs ++ [sep_child s]))
          end
      end
  end.
(** parser.py 42-60: line 59 raises the [ValueError]. *)
Definition parse_l (lim : N) (e : env) (fl : option flag) (st : tstate) (s : str) : tstate * res (list (list range)) :=
  match read (ed e) s with
  | None => (st, Err SyntaxErr)
  | Some t => let (st, q) := t_children_l lim e (eff e fl) st t in (st, cs <- q ;; Ok (ref_list [] [] cs))
  end.

(** ref.py 1231-1239. *)
Definition list_from_str_l (lim : N) (e : env) (fl : option flag) (st : tstate) (s : str) : tstate * res rlist :=
  let (st, q) := parse_l lim e (Some (eff e fl)) st s in (st, g <- q ;; Ok (list_of_groups g)).
(** ref.py 677-683. *)
Definition range_from_str_l (lim : N) (e : env) (fl : option flag) (st : tstate) (s : str) : tstate * res range :=
  let (st, q) := list_from_str_l lim e (Some (eff e fl)) st s in
  (st, l <- q ;; match items l with [r] => Ok r | _ => Err InvalidRef end).
(** ref.py 323-330. *)
Definition verse_from_str_l (lim : N) (e : env) (fl : option flag) (st : tstate) (s : str) : tstate * res verse :=
  let (st, q) := list_from_str_l lim e fl st s in
  (st, l <- q ;; match items l with
                 | [r] => if is_single_verse r then Ok (rstart r) else Err InvalidRef
                 | _ => Err InvalidRef
                 end).
