(** * MWorld: the state of the package between calls.

    The other model files describe one call in a given environment ([bibledata] and global flags).  Here are
    the [BibleData] singleton with its setters, the attributes that the setters store on the members of [BibleBook],
    the parser and the transformer singletons, and the global flags.
    Simplified: the dictionaries are functions (a missing key is None), the separators are single characters,
    [re.compile] and [Lark] do not fail, and tables are not changed in place after they have been assigned. *)
From Coq Require Import List ZArith NArith Bool Ascii String Lia.
From Verif Require Import Base Books Chars Regex Data DefaultData MVerse MRange MSeq MList MStr MParse.
Import ListNotations.
Open Scope Z_scope.

(** data.py 13-17: the separators; also what a parser object depends on (parser.py 202-248). *)
Record seps := Seps { sp_range : ascii; sp_major : ascii; sp_minor : ascii; sp_std : ascii; sp_alt : ascii }.

Record world := mkWorld {
  w_seps : seps;                              (* data.py 13-17 *)
  w_book_order : list book;                   (* data.py 18 *)
  w_name_data : book -> option name_entry;    (* data.py 19 *)
  w_max_verses : book -> option (list Z);     (* data.py 20 *)
  w_verse_0s : book -> option (list Z);       (* data.py 21 *)
  a_order : book -> option nat;               (* attributes of the members of BibleBook *)
  a_abbrev : book -> option str;
  a_title : book -> option str;
  a_regex : book -> option regex;
  a_max_verses : book -> option (list Z);
  a_verse_0s : book -> list Z;
  w_flags : flag;                             (* __init__.py 197: bibleref.flags *)
  w_parser : option seps;                     (* parser.py 16: _parser_obj *)
  w_trans : option (tstate * flag)            (* parser.py 31, 70-73: _transformer_obj, its state and flags *)
}.

(** What the calls of one moment see. *)
Definition data_of (w : world) : bibledata :=
  mkData (w_book_order w) (a_order w) (a_max_verses w) (a_verse_0s w) (w_name_data w)
         (sp_range (w_seps w)) (sp_major (w_seps w)) (sp_minor (w_seps w)) (sp_std (w_seps w)) (sp_alt (w_seps w)).
Definition env_of (w : world) : env := mkEnv (data_of w) (w_flags w).

(** ** Setters *)
(** data.py 29-32, 41-44, 53-56, 63-66, 73-76 with parser.py 202-248: the value is stored, then the parser is made again. *)
Definition recreate_parser (w : world) : world :=
  mkWorld (w_seps w) (w_book_order w) (w_name_data w) (w_max_verses w) (w_verse_0s w)
          (a_order w) (a_abbrev w) (a_title w) (a_regex w) (a_max_verses w) (a_verse_0s w)
          (w_flags w) (Some (w_seps w)) (w_trans w).
Definition with_seps (w : world) (s : seps) : world :=
  recreate_parser
    (mkWorld s (w_book_order w) (w_name_data w) (w_max_verses w) (w_verse_0s w)
             (a_order w) (a_abbrev w) (a_title w) (a_regex w) (a_max_verses w) (a_verse_0s w)
             (w_flags w) (w_parser w) (w_trans w)).
Definition set_range_sep (w : world) (c : ascii) : world :=
  let s := w_seps w in with_seps w (Seps c (sp_major s) (sp_minor s) (sp_std s) (sp_alt s)).
Definition set_major_sep (w : world) (c : ascii) : world :=
  let s := w_seps w in with_seps w (Seps (sp_range s) c (sp_minor s) (sp_std s) (sp_alt s)).
Definition set_minor_sep (w : world) (c : ascii) : world :=
  let s := w_seps w in with_seps w (Seps (sp_range s) (sp_major s) c (sp_std s) (sp_alt s)).
Definition set_verse_sep_std (w : world) (c : ascii) : world :=
  let s := w_seps w in with_seps w (Seps (sp_range s) (sp_major s) (sp_minor s) c (sp_alt s)).
Definition set_verse_sep_alt (w : world) (c : ascii) : world :=
  let s := w_seps w in with_seps w (Seps (sp_range s) (sp_major s) (sp_minor s) (sp_std s) c).

(** data.py 85-99, by [set_book_order] of Data.v. *)
Definition assign_book_order (w : world) (l : list book) : world * res unit :=
  let (d, r) := set_book_order (data_of w) l in
  (mkWorld (w_seps w) l (w_name_data w) (w_max_verses w) (w_verse_0s w)
           (order d) (a_abbrev w) (a_title w) (a_regex w) (a_max_verses w) (a_verse_0s w)
           (w_flags w) (w_parser w) (w_trans w), r).

(** data.py 107-170: the loops visit each member of [BibleBook] once. *)
Definition set_name_data (w : world) (t : book -> option name_entry) : world :=
  mkWorld (w_seps w) (w_book_order w) t (w_max_verses w) (w_verse_0s w)
          (a_order w)
          (fun b => match t b with None => None | Some n => Some (n_abbrev n) end)
          (fun b => match t b with None => None | Some n => Some (n_title n) end)
          (fun b => match t b with None => None | Some n => Some (book_regex n) end)
          (a_max_verses w) (a_verse_0s w) (w_flags w) (w_parser w) (w_trans w).

(** data.py 178-186. *)
Definition set_max_verses (w : world) (t : book -> option (list Z)) : world :=
  mkWorld (w_seps w) (w_book_order w) (w_name_data w) t (w_verse_0s w)
          (a_order w) (a_abbrev w) (a_title w) (a_regex w)
          (fun b => match t b with None => None | Some l => Some l end)
          (a_verse_0s w) (w_flags w) (w_parser w) (w_trans w).
(** data.py 195-202. *)
Definition set_verse_0s (w : world) (t : book -> option (list Z)) : world :=
  mkWorld (w_seps w) (w_book_order w) (w_name_data w) (w_max_verses w) t
          (a_order w) (a_abbrev w) (a_title w) (a_regex w) (a_max_verses w)
          (fun b => match t b with Some l => l | None => [] end)
          (w_flags w) (w_parser w) (w_trans w).
(** [bibleref.flags = f] (__init__.py 197). *)
Definition set_flags (w : world) (f : flag) : world :=
  mkWorld (w_seps w) (w_book_order w) (w_name_data w) (w_max_verses w) (w_verse_0s w)
          (a_order w) (a_abbrev w) (a_title w) (a_regex w) (a_max_verses w) (a_verse_0s w)
          f (w_parser w) (w_trans w).

(** ** Names *)
(** ref.py 126-146, with the stored regexes. *)
Definition w_from_str (w : world) (s : str) : option book :=
  find (fun b => match a_regex w b with None => false | Some r => fullmatch r (strip s) end) all_books.
(** ref.py 574: the stored [abbrev] or [title]. *)
Definition w_book_name (w : world) (abbrev : bool) (b : book) : str :=
  match (if abbrev then a_abbrev w b else a_title w b) with None => s2l "None" | Some s => s end.

(** ** Parsing *)
(** parser.py 18-29: [_parser]. *)
Definition the_parser (w : world) : world * seps :=
  match w_parser w with
  | Some p => (w, p)
  | None => (recreate_parser w, w_seps w)
  end.
(** The grammar of a parser object: the separators are those of the time of its creation. *)
Definition grammar_data (w : world) (p : seps) : bibledata :=
  mkData (w_book_order w) (a_order w) (a_max_verses w) (a_verse_0s w) (w_name_data w)
         (sp_range p) (sp_major p) (sp_minor p) (sp_std p) (sp_alt p).
(** parser.py 33-39: [_transformer]; a new object has no book and no chapter. *)
Definition the_transformer (w : world) : tstate := match w_trans w with Some (st, _) => st | None => ts_init end.
Definition with_trans (w : world) (st : tstate) (f : flag) : world :=
  mkWorld (w_seps w) (w_book_order w) (w_name_data w) (w_max_verses w) (w_verse_0s w)
          (a_order w) (a_abbrev w) (a_title w) (a_regex w) (a_max_verses w) (a_verse_0s w)
          (w_flags w) (w_parser w) (Some (st, f)).
(** parser.py 42-60: [_parse].  The flags are stored on the transformer before it runs. *)
Definition w_parse (w : world) (fl : option flag) (s : str) : world * res (list (list range)) :=
  let (w, p) := the_parser w in
  match read (grammar_data w p) s with
  | None => (w, Err SyntaxErr)
  | Some t =>
      let w := with_trans w (the_transformer w) (eff (env_of w) fl) in
      let f := match w_trans w with Some (_, f) => f | None => NONE end in
      let (st, q) := t_children (env_of w) f (the_transformer w) t in
      (with_trans w st f, cs <- q ;; Ok (ref_list [] [] cs))
  end.
(** ref.py 1231-1239, 677-683, 323-330: construction from a string. *)
Definition w_list_from_str (w : world) (fl : option flag) (s : str) : world * res rlist :=
  let (w', q) := w_parse w (Some (eff (env_of w) fl)) s in (w', g <- q ;; Ok (list_of_groups g)).
Definition w_range_from_str (w : world) (fl : option flag) (s : str) : world * res range :=
  let (w', q) := w_list_from_str w (Some (eff (env_of w) fl)) s in
  (w', l <- q ;; match items l with [r] => Ok r | _ => Err InvalidRef end).
Definition w_verse_from_str (w : world) (fl : option flag) (s : str) : world * res verse :=
  let (w', q) := w_list_from_str w fl s in
  (w', l <- q ;; match items l with
                 | [r] => if is_single_verse r then Ok (rstart r) else Err InvalidRef
                 | _ => Err InvalidRef
                 end).

(** ** Histories *)
Inductive action :=
| SetRangeSep (c : ascii) | SetMajorSep (c : ascii) | SetMinorSep (c : ascii)
| SetVerseSepStd (c : ascii) | SetVerseSepAlt (c : ascii)
| SetBookOrder (l : list book) | SetNameData (t : book -> option name_entry)
| SetMaxVerses (t : book -> option (list Z)) | SetVerse0s (t : book -> option (list Z))
| SetFlags (f : flag)
| ListFromStr (fl : option flag) (s : str) | RangeFromStr (fl : option flag) (s : str) | VerseFromStr (fl : option flag) (s : str).
(** The state after an action, whether it succeeds or raises. *)
Definition act (w : world) (a : action) : world :=
  match a with
  | SetRangeSep c => set_range_sep w c
  | SetMajorSep c => set_major_sep w c
  | SetMinorSep c => set_minor_sep w c
  | SetVerseSepStd c => set_verse_sep_std w c
  | SetVerseSepAlt c => set_verse_sep_alt w c
  | SetBookOrder l => fst (assign_book_order w l)
  | SetNameData t => set_name_data w t
  | SetMaxVerses t => set_max_verses w t
  | SetVerse0s t => set_verse_0s w t
  | SetFlags f => set_flags w f
  | ListFromStr fl s => fst (w_list_from_str w fl s)
  | RangeFromStr fl s => fst (w_range_from_str w fl s)
  | VerseFromStr fl s => fst (w_verse_from_str w fl s)
  end.
Definition acts (w : world) (h : list action) : world := fold_left act h w.

(** data.py 7-24, ref.py 38, parser.py 16, 31: before the tables are assigned. *)
Definition blank_world : world :=
  mkWorld (Seps "-" ";" "," ":" ".") [] (fun _ => None) (fun _ => None) (fun _ => None)
          (fun _ => None) (fun _ => None) (fun _ => None) (fun _ => None) (fun _ => None) (fun _ => [])
          NONE None None.
(** data.py 446-450: the state after the import of the package; the tables of DefaultData.v as dictionaries
    (a book without verse 0s is not in [default_verse_0s]). *)
Definition default_zeros (b : book) : option (list Z) := match default_verse_0s b with [] => None | l => Some l end.
Definition start_world : world :=
  acts blank_world [SetBookOrder default_book_order; SetNameData default_name_data;
                    SetMaxVerses default_max_verses; SetVerse0s default_zeros].
