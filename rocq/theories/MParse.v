(** * MParse: model of parser.py and of the construction of references from strings.

    [_parser().parse] is a call of the library Lark.  Its contract, the grammar of parser.py 209-248 as a relation
    between texts and trees, is in SpecParse.v; [read] below is a reader for the same grammar, proved there to
    find exactly the trees of the relation.  Positions are the [start_pos] and [end_pos] that Lark gives to tokens,
    and to rules (from the first token to the last one). *)
From Coq Require Import List ZArith NArith Bool Ascii String Lia.
From Verif Require Import Base Books Chars Regex Data MVerse MRange MSeq MList.
Import ListNotations.
Open Scope Z_scope.

(** ** Names of books *)
(** ref.py 126-146: the first book, in the order of the enum, whose regex matches. *)
Definition name_matches (d : bibledata) (s : str) (b : book) : bool :=
  match names d b with None => false | Some n => fullmatch (book_regex n) s end.
Definition from_str (d : bibledata) (s : str) : option book := find (name_matches d (strip s)) all_books.
(** ref.py 141-143, with [raise_error=True]. *)
Definition from_str_raise (d : bibledata) (s : str) : res book :=
  match from_str d s with Some b => Ok b | None => Err InvalidRef end.

(** ** Terminals and trees *)
(** parser.py 230-242: the terminals. *)
Inductive term := TName | TNum | TRange | TMajor | TMinor | TVerse.
Record token := Tok { tk : term; ttext : str; tpos : Z }.
Definition tend (t : token) : Z := tpos t + zlen (ttext t).
(** parser.py 212-228. *)
Inductive single :=
| SBook (n : token)
| SBookNum (n m : token)
| SFull (n c s v : token)
| SChapVerse (c s v : token)
| SNum (m : token).
Inductive ref_node := One (a : single) | Two (a : single) (s : token) (b : single).
Record tree := Tree { t_first : ref_node; t_rest : list (token * ref_node); t_trail : option token }.

(** parser.py 232-236: the separators (single characters). *)
Definition sep_kind (d : bibledata) (c : ascii) : option term :=
  if Ascii.eqb c (range_sep d) then Some TRange
  else if Ascii.eqb c (major_list_sep d) then Some TMajor
  else if Ascii.eqb c (minor_list_sep d) then Some TMinor
  else if Ascii.eqb c (verse_sep_std d) || Ascii.eqb c (verse_sep_alt d) then Some TVerse
  else None.
(** parser.py 238, the last character of BOOK_NAME. *)
Definition name_end (d : bibledata) (c : ascii) : bool :=
  negb (is_digit c || is_space c || Ascii.eqb c (verse_sep_std d) || Ascii.eqb c (verse_sep_alt d) ||
        Ascii.eqb c (major_list_sep d) || Ascii.eqb c (minor_list_sep d) || Ascii.eqb c (range_sep d)).
(** parser.py 238: BOOK_NAME. *)
Fixpoint name_tail (d : bibledata) (s : str) : bool :=
  match s with
  | [] => false
  | [c] => name_end d c
  | c :: s' => (is_word c || is_space c) && name_tail d s'
  end.
Definition is_name (d : bibledata) (s : str) : bool :=
  match s with [] => false | c :: s' => is_word c && name_tail d s' end.

(** ** Reading *)
(** Text up to the first separator, and the separators with the texts that follow them. *)
Fixpoint cut_seps (d : bibledata) (s : str) : str * list (token * str) :=
  match s with
  | [] => ([], [])
  | c :: s' =>
      let (w, l) := cut_seps d s' in
      match sep_kind d c with
      | Some k => ([], (Tok k [c] (- zlen s), w) :: l)      (* position counted from the end of the text *)
      | None => (c :: w, l)
      end
  end.
Fixpoint drop_ws (s : str) : str := match s with c :: s' => if is_ws c then drop_ws s' else s | [] => [] end.
Fixpoint drop_digits (s : str) : str := match s with c :: s' => if is_digit c then drop_digits s' else s | [] => [] end.
(** The tokens of a text without separators that begins at position [i]. *)
Definition seg_tokens (d : bibledata) (i : Z) (w : str) : option (list token) :=
  let a := drop_ws w in
  let i := i + (zlen w - zlen a) in
  let a := rev (drop_ws (rev a)) in
  match a with
  | [] => Some []
  | _ =>
      let u := rev (drop_digits (rev a)) in
      let ds := skipn (List.length u) a in
      match u, ds with
      | [], _ => Some [Tok TNum ds i]
      | _, [] => if is_name d u then Some [Tok TName u i] else None
      | _, _ =>
          let n := rev (drop_ws (rev u)) in
          if is_name d n then Some [Tok TName n i; Tok TNum ds (i + zlen u)] else None
      end
  end.
Fixpoint seps_tokens (d : bibledata) (n : Z) (l : list (token * str)) : option (list token) :=
  match l with
  | [] => Some []
  | (Tok k s i, w) :: l' =>
      match seg_tokens d (n + i + 1) w, seps_tokens d n l' with
      | Some ts, Some us => Some (Tok k s (n + i) :: ts ++ us)
      | _, _ => None
      end
  end.
Definition lex (d : bibledata) (s : str) : option (list token) :=
  let (w, l) := cut_seps d s in
  match seg_tokens d 0 w, seps_tokens d (zlen s) l with
  | Some ts, Some us => Some (ts ++ us)
  | _, _ => None
  end.

(** parser.py 218-228. *)
Definition p_single (ts : list token) : option (single * list token) :=
  match ts with
  | (Tok TName _ _ as n) :: (Tok TNum _ _ as c) :: (Tok TVerse _ _ as s) :: (Tok TNum _ _ as v) :: r => Some (SFull n c s v, r)
  | (Tok TName _ _ as n) :: (Tok TNum _ _ as c) :: r => Some (SBookNum n c, r)
  | (Tok TName _ _ as n) :: r => Some (SBook n, r)
  | (Tok TNum _ _ as c) :: (Tok TVerse _ _ as s) :: (Tok TNum _ _ as v) :: r => Some (SChapVerse c s v, r)
  | (Tok TNum _ _ as m) :: r => Some (SNum m, r)
  | _ => None
  end.
(** parser.py 214-216. *)
Definition p_ref (ts : list token) : option (ref_node * list token) :=
  match p_single ts with
  | None => None
  | Some (a, (Tok TRange _ _ as s) :: r) => match p_single r with Some (b, r') => Some (Two a s b, r') | None => None end
  | Some (a, r) => Some (One a, r)
  end.
Definition is_list_sep (t : token) : bool := match tk t with TMajor | TMinor => true | _ => false end.
(** parser.py 212. *)
Fixpoint p_rest (fuel : nat) (ts : list token) : option (list (token * ref_node) * option token) :=
  match ts with
  | [] => Some ([], None)
  | s :: r =>
      if is_list_sep s then
        match r with
        | [] => Some ([], Some s)
        | _ =>
            match fuel with
            | O => None
            | S n => match p_ref r with
                     | Some (x, r') => match p_rest n r' with
                                       | Some (l, t) => Some ((s, x) :: l, t)
                                       | None => None
                                       end
                     | None => None
                     end
            end
        end
      else None
  end.
Definition p_list (ts : list token) : option tree :=
  match p_ref ts with
  | Some (x, r) => match p_rest (List.length r) r with Some (l, t) => Some (Tree x l t) | None => None end
  | None => None
  end.
(** [_parser().parse(s)]; None: [UnexpectedInput]. *)
Definition read (d : bibledata) (s : str) : option tree :=
  match lex d s with Some ts => p_list ts | None => None end.

(** ** The transformer *)
(** parser.py 70-72: the attributes that stay from one call to the next. *)
Record tstate := TS { ts_book : option book; ts_chap : option Z; ts_vl : bool }.
Definition ts_init : tstate := TS None None false.

(** parser.py 199-200. *)
Definition tok_num (t : token) : Z := Z.of_N (undec (ttext t)).
(** parser.py 192-197. *)
Definition tok_book (d : bibledata) (t : token) : res book :=
  match from_str d (ttext t) with Some b => Ok b | None => Err (ParseErr (tpos t) (tend t)) end.
(** [except Exception as e: raise BibleRefParsingError(str(e), ...)]. *)
Definition blame {A} (i j : Z) (m : res A) : res A := match m with Ok a => Ok a | Err _ => Err (ParseErr i j) end.
Definition PB (b : book) (c v : option Z) : pos_args := PA b c v None None None.

(** Position of the first and after the last token of a reference. *)
Definition s_pos (a : single) : Z := match a with SBook n | SBookNum n _ | SFull n _ _ _ | SChapVerse n _ _ | SNum n => tpos n end.
Definition s_end (a : single) : Z := match a with SBook n | SBookNum _ n | SFull _ _ _ n | SChapVerse _ _ n | SNum n => tend n end.

(** The callbacks of the tokens and of the rule, in Lark's order: bottom-up, from left to right. *)
Definition t_single (e : env) (f : flag) (st : tstate) (a : single) : tstate * res range :=
  let make c := blame (s_pos a) (s_end a) (new_range_pos e c (Some f)) in
  match a with
  | SBook n =>                                     (* parser.py 106-114 *)
      match tok_book (ed e) n with
      | Err x => (st, Err x)
      | Ok b => (TS (Some b) (ts_chap st) false, make (PB b None None))
      end
  | SBookNum n m =>                                (* parser.py 116-133 *)
      match tok_book (ed e) n with
      | Err x => (st, Err x)
      | Ok b =>
          if chap_count e b =? 1 then
            (TS (Some b) (Some (min_chap_num e b)) true, make (PB b (Some (min_chap_num e b)) (Some (tok_num m))))
          else (TS (Some b) (Some (tok_num m)) false, make (PB b (Some (tok_num m)) None))
      end
  | SFull n c _ v =>                               (* parser.py 135-146 *)
      match tok_book (ed e) n with
      | Err x => (st, Err x)
      | Ok b => (TS (Some b) (Some (tok_num c)) true, make (PB b (Some (tok_num c)) (Some (tok_num v))))
      end
  | SChapVerse c _ v =>                            (* parser.py 148-160 *)
      match ts_book st with
      | None => (st, Err (ParseErr (s_pos a) (s_end a)))
      | Some b => (TS (Some b) (Some (tok_num c)) true, make (PB b (Some (tok_num c)) (Some (tok_num v))))
      end
  | SNum m =>                                      (* parser.py 162-182 *)
      match ts_book st with
      | None => (st, Err (ParseErr (s_pos a) (s_end a)))
      | Some b =>
          let one := chap_count e b =? 1 in
          if ts_vl st || one then
            if one then
              (TS (Some b) (Some (min_chap_num e b)) (ts_vl st), make (PB b (Some (min_chap_num e b)) (Some (tok_num m))))
            else match ts_chap st with
                 | None => (st, Err (ParseErr (s_pos a) (s_end a)))
                 | Some c => (st, make (PB b (Some c) (Some (tok_num m))))
                 end
          else (st, make (PB b (Some (tok_num m)) None))
      end
  end.
(** parser.py 93-104: [dual_ref]. *)
Definition t_ref (e : env) (f : flag) (st : tstate) (x : ref_node) : tstate * res range :=
  match x with
  | One a => t_single e f st a
  | Two a _ b =>
      match t_single e f st a with
      | (st, Err x) => (st, Err x)
      | (st, Ok r1) =>
          match t_single e f st b with
          | (st, Err x) => (st, Err x)
          | (st, Ok r2) =>
              let s := rstart r1 in let t := rend r2 in
              (st, blame (s_pos a) (s_end b)
                     (new_range_pos e (PA (vbook s) (Some (vchap s)) (Some (vverse s))
                                          (Some (vbook t)) (Some (vchap t)) (Some (vverse t))) (Some f)))
          end
      end
  end.
(** parser.py 184-190: a list separator. *)
Definition t_sep (st : tstate) (s : token) : tstate :=
  match tk s with TMajor => TS (ts_book st) (ts_chap st) false | _ => st end.

(** Values of the children of [ref_list]. *)
Inductive child := CRange (r : range) | CMajor | CMinor.
Definition sep_child (s : token) : child := match tk s with TMajor => CMajor | _ => CMinor end.
Fixpoint t_rests (e : env) (f : flag) (st : tstate) (l : list (token * ref_node)) : tstate * res (list child) :=
  match l with
  | [] => (st, Ok [])
  | (s, x) :: l' =>
      let st := t_sep st s in
      match t_ref e f st x with
      | (st, Err z) => (st, Err z)
      | (st, Ok r) => let (st, q) := t_rests e f st l' in (st, cs <- q ;; Ok (sep_child s :: CRange r :: cs))
      end
  end.
Definition t_children (e : env) (f : flag) (st : tstate) (t : tree) : tstate * res (list child) :=
  match t_ref e f st (t_first t) with
  | (st, Err z) => (st, Err z)
  | (st, Ok r) =>
      match t_rests e f st (t_rest t) with
      | (st, Err z) => (st, Err z)
      | (st, Ok cs) =>
          match t_trail t with
          | None => (st, Ok (CRange r :: cs))
          | Some s => (t_sep st s, Ok (CRange r :: cs ++ [sep_child s]))
          end
      end
  end.
(** parser.py 75-91: [ref_list]; [done] is [parent_list], [cur] is [group_list]. *)
Definition flush (done : list (list range)) (cur : list range) : list (list range) :=
  match cur with [] => done | _ => done ++ [cur] end.
Fixpoint ref_list (done : list (list range)) (cur : list range) (cs : list child) : list (list range) :=
  match cs with
  | [] => flush done cur
  | CMajor :: cs' => ref_list (flush done cur) [] cs'
  | CMinor :: cs' => ref_list done cur cs'
  | CRange r :: cs' => ref_list done (cur ++ [r]) cs'
  end.

(** parser.py 42-60.  [SyntaxErr] stands for the [BibleRefParsingError] of lines 46-52, whose positions are
    Lark's and are not modelled. *)
Definition parse (e : env) (fl : option flag) (st : tstate) (s : str) : tstate * res (list (list range)) :=
  match read (ed e) s with
  | None => (st, Err SyntaxErr)
  | Some t => let (st, q) := t_children e (eff e fl) st t in (st, cs <- q ;; Ok (ref_list [] [] cs))
  end.

(** ** Construction from strings *)
(** ref.py 1231-1239. *)
Definition list_from_str (e : env) (fl : option flag) (st : tstate) (s : str) : tstate * res rlist :=
  let (st, q) := parse e (Some (eff e fl)) st s in (st, g <- q ;; Ok (list_of_groups g)).
(** ref.py 677-683. *)
Definition range_from_str (e : env) (fl : option flag) (st : tstate) (s : str) : tstate * res range :=
  let (st, q) := list_from_str e (Some (eff e fl)) st s in
  (st, l <- q ;; match items l with [r] => Ok r | _ => Err InvalidRef end).
(** ref.py 323-330. *)
Definition verse_from_str (e : env) (fl : option flag) (st : tstate) (s : str) : tstate * res verse :=
  let (st, q) := list_from_str e fl st s in
  (st, l <- q ;; match items l with
                 | [r] => if is_single_verse r then Ok (rstart r) else Err InvalidRef
                 | _ => Err InvalidRef
                 end).
(** ref.py 342-347: [BibleVerse("Mark", 2, 3)]. *)
Definition new_verse_named (e : env) (s : str) (c v : Z) (fl : option flag) : res verse :=
  b <- from_str_raise (ed e) s ;; new_verse e b c v fl.
