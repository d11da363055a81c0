(** * SpecShow: the texts of verses, ranges and lists, independent of the algorithms. *)
From Coq Require Import List ZArith NArith Bool Ascii Lia.
From Verif Require Import Base Books Chars Regex Data MVerse MRange MSeq MList MStr Spec SpecList SpecMean.
Import ListNotations.
Import Spec.
Open Scope Z_scope.

(** ** Verses *)
(** Decimal numerals without leading zeros. *)
Definition digit_of (c : ascii) (k : Z) : Prop := Z.of_N (N_of_ascii c) = 48 + k /\ 0 <= k < 10.
Inductive digits : Z -> str -> Prop :=
| D_one c k : digit_of c k -> digits k [c]
| D_more n s c k : digits n s -> 0 < n -> digit_of c k -> digits (10 * n + k) (s ++ [c]).

(** Which parts of a reference are printed. *)
Inductive shown := ShBook | ShBookChap | ShBookVerse | ShFull | ShChap | ShVerse | ShChapVerse.
Definition has_verse (sh : shown) : bool := match sh with ShBookVerse | ShFull | ShVerse | ShChapVerse => true | _ => false end.
(** In a book of one chapter the chapter is not printed. *)
Definition single_chap (d : bibledata) (b : book) : bool := num_chaps d b =? 1.
Definition full_ref (d : bibledata) (b : book) : shown := if single_chap d b then ShBookVerse else ShFull.
Definition chap_verse (d : bibledata) (b : book) : shown := if single_chap d b then ShVerse else ShChapVerse.

(** The text of the parts of a verse: a blank between the name and the numbers, a separator between the numbers.
    Blanks are left out with [nospace], also if a separator is a blank. *)
Definition compact (ns : bool) (s : str) : str := if ns then filter (fun c => negb (Ascii.eqb c " "%char)) s else s.
Definition blank (ns : bool) : str := if ns then [] else [" "%char].
Definition called (d : bibledata) (lk : look) (b : book) (s : str) : Prop :=
  exists n, names d b = Some n /\ s = compact (lk_nospace lk) (if lk_abbrev lk then n_abbrev n else n_title n).
Definition printed (d : bibledata) (lk : look) (v : verse) (sh : shown) (s : str) : Prop :=
  exists name c w, called d lk (vbook v) name /\ digits (vchap v) c /\ digits (vverse v) w /\
  let gap := blank (lk_nospace lk) in
  let sep := compact (lk_nospace lk) [if lk_alt lk then verse_sep_alt d else verse_sep_std d] in
  s = match sh with
      | ShBook => name
      | ShBookChap => name ++ gap ++ c
      | ShBookVerse => name ++ gap ++ w
      | ShFull => name ++ gap ++ c ++ sep ++ w
      | ShChap => c
      | ShVerse => w
      | ShChapVerse => c ++ sep ++ w
      end.
(** A title and an abbreviation for each book, not empty, without white space at their ends. *)
Definition trimmed (s : str) : Prop :=
  (exists c t, s = c :: t /\ is_space c = false) /\ (exists t c, s = t ++ [c] /\ is_space c = false).
Definition tidy (d : bibledata) : Prop :=
  forall b, In b (book_order d) -> exists n, names d b = Some n /\ trimmed (n_title n) /\ trimmed (n_abbrev n).

(** ** Ranges *)
Section Shown.
Variable e : env.
Notation d := (ed e).
Notation z := (verse0 (eg e)).
Definition opens_book (x : range) : Prop := opens_with d z (book_at (rstart x)) x.
Definition opens_chap (x : range) : Prop := opens_with d z (chap_at (rstart x)) x.
Definition closes_book (x : range) : Prop := closes_with d z (book_at (rend x)) x.
Definition closes_chap (x : range) : Prop := closes_with d z (chap_at (rend x)) x.
(** One book, one chapter, one verse. *)
Definition all_of (u : unit_ref) (x : range) : Prop := x = R (unit_first d z u) (unit_last d u).
Definition lone_unit (x : range) : Prop :=
  all_of (book_at (rstart x)) x \/ all_of (chap_at (rstart x)) x \/ rstart x = rend x.

(** The start of a range on its own. *)
Inductive start_shown (force : bool) (x : range) : shown -> Prop :=
| St_book : opens_book x -> start_shown force x ShBook
| St_chap : ~ opens_book x -> opens_chap x -> (force = false \/ closes_chap x) -> start_shown force x ShBookChap
| St_full : ~ opens_book x -> ~ (opens_chap x /\ (force = false \/ closes_chap x)) ->
    start_shown force x (full_ref d (vbook (rstart x))).
(** The end of a range: not printed for a single unit, unless [dual]; [vs] says whether the start has a verse number. *)
Inductive end_shown (dual vs : bool) (x : range) : option shown -> Prop :=
| En_none : dual = false -> lone_unit x -> end_shown dual vs x None
| En_book : dual = true \/ ~ lone_unit x -> closes_book x -> end_shown dual vs x (Some ShBook)
| En_other_chap : dual = true \/ ~ lone_unit x -> ~ closes_book x -> closes_chap x ->
    vbook (rstart x) <> vbook (rend x) -> end_shown dual vs x (Some ShBookChap)
| En_chap : dual = true \/ ~ lone_unit x -> ~ closes_book x -> closes_chap x ->
    vbook (rstart x) = vbook (rend x) -> vs = false -> end_shown dual vs x (Some ShChap)
| En_full : dual = true \/ ~ lone_unit x -> ~ closes_book x -> ~ closes_chap x ->
    vbook (rstart x) <> vbook (rend x) -> end_shown dual vs x (Some (full_ref d (vbook (rend x))))
| En_chap_verse : dual = true \/ ~ lone_unit x -> ~ closes_book x -> (closes_chap x -> vs = true) ->
    vbook (rstart x) = vbook (rend x) -> vchap (rstart x) <> vchap (rend x) -> end_shown dual vs x (Some ShChapVerse)
| En_verse : dual = true \/ ~ lone_unit x -> ~ closes_book x -> (closes_chap x -> vs = true) ->
    vbook (rstart x) = vbook (rend x) -> vchap (rstart x) = vchap (rend x) -> end_shown dual vs x (Some ShVerse).
Definition ref_written (lk : look) (x : range) (sh : shown) (osh : option shown) (s : str) : Prop :=
  match osh with
  | None => printed d lk (rstart x) sh s
  | Some sh' => exists a b, printed d lk (rstart x) sh a /\ printed d lk (rend x) sh' b /\
      s = a ++ compact (lk_nospace lk) [range_sep d] ++ b
  end.
(** A separator at the end of a text: white space is stripped. *)
Definition trailing (ns : bool) (c : ascii) : str := if ns then compact true [c] else if is_space c then [] else [c].
(** A range that ends with its book, but starts with a verse 0 that the flags do not know, has no text after the
    separator: [dangling]. *)
Inductive range_written (lk : look) (force : bool) (x : range) (s : str) : Prop :=
| R_plain sh osh : start_shown force x sh -> end_shown false (has_verse sh) x osh ->
    ~ (osh = Some ShBook /\ vbook (rstart x) = vbook (rend x)) -> ref_written lk x sh osh s -> range_written lk force x s
| R_dangling sh a : start_shown force x sh -> end_shown false (has_verse sh) x (Some ShBook) ->
    vbook (rstart x) = vbook (rend x) -> printed d lk (rstart x) sh a ->
    s = a ++ trailing (lk_nospace lk) (range_sep d) -> range_written lk force x s.

(** ** Lists *)
(** [force]: the verse at which the range starts is added when the range does not end with a whole chapter. *)
Definition with_verse (sh : shown) : shown :=
  match sh with ShBook => ShBookVerse | ShBookChap => ShFull | ShChap => ShChapVerse | _ => sh end.
Inductive forced (force : bool) (x : range) (sh : shown) : shown -> Prop :=
| F_no : force = false \/ closes_chap x -> forced force x sh sh
| F_yes : force = true -> ~ closes_chap x -> forced force x sh (with_verse sh).
(** If the same character separates groups and items, a new group cannot be told from a new item. *)
Definition one_sep : Prop := minor_list_sep d = major_list_sep d.
(** A separator before an item, and a blank: white space is stripped. *)
Definition leading (ns : bool) (c : ascii) : str := if ns then compact true [c] else if is_space c then [] else [c; " "%char].
(** The start of a range after a text that leaves the context [c] behind; [new] says whether the range begins a
    group whose beginning is to be printed.  [start_item new c x sh major dual]: [sh] is written after a major
    or minor separator; [dual]: from this range on, the end is printed even for single units. *)
Inductive start_item (pg force new : bool) (c : ctx) (x : range) : shown -> bool -> bool -> Prop :=
| I_book sh : opens_book x -> forced force x ShBook sh -> start_item pg force new c x sh (new || negb pg) false
| I_other_chap sh : ~ opens_book x -> opens_chap x -> ctx_book c <> Some (vbook (rstart x)) ->
    forced force x ShBookChap sh -> start_item pg force new c x sh (new || negb pg) false
| I_chap sh : ~ opens_book x -> opens_chap x -> ctx_book c = Some (vbook (rstart x)) ->
    (pg = false \/ new = true \/ one_sep \/ (c = InBook (vbook (rstart x)) /\ closes_chap x)) ->
    forced force x ShChap sh -> start_item pg force new c x sh (new || negb pg) false
| I_chap_verses : ~ opens_book x -> opens_chap x -> ctx_book c = Some (vbook (rstart x)) ->
    pg = true -> new = false -> ~ one_sep -> ~ (c = InBook (vbook (rstart x)) /\ closes_chap x) ->
    start_item pg force new c x ShChapVerse false true
| I_full : ~ opens_chap x -> ctx_book c <> Some (vbook (rstart x)) ->
    start_item pg force new c x (full_ref d (vbook (rstart x))) (new || negb pg) false
| I_verse : ~ opens_chap x -> c = InChap (vbook (rstart x)) (vchap (rstart x)) -> chap_at (rstart x) = chap_at (rend x) ->
    start_item pg force new c x ShVerse false false
| I_chap_verse : ~ opens_chap x -> ctx_book c = Some (vbook (rstart x)) ->
    ~ (c = InChap (vbook (rstart x)) (vchap (rstart x)) /\ chap_at (rstart x) = chap_at (rend x)) ->
    start_item pg force new c x (chap_verse d (vbook (rstart x))) (new || negb pg) false.

(** What a verse of which [sh] is printed leaves behind. *)
Definition left_by (v : verse) (sh : shown) : ctx := if has_verse sh then InChap (vbook v) (vchap v) else InBook (vbook v).
Definition left_by_ref (x : range) (sh : shown) (osh : option shown) : ctx :=
  match osh with None => left_by (rstart x) sh | Some sh' => left_by (rend x) sh' end.
(** The ranges of a grouped list, marked if they begin a group. *)
Definition marked (g : list (list range)) : list (bool * range) :=
  concat (map (fun l => match l with [] => [] | x :: l' => (true, x) :: map (pair false) l' end) g).
Inductive items_written (lk : look) (pg force : bool) : bool -> bool -> ctx -> list (bool * range) -> str -> Prop :=
| W_nil first dual c : items_written lk pg force first dual c [] []
| W_cons first dual c m x l c0 new sh major dual1 osh body out :
    new = pg && m -> c0 = (if new then leave_chap c else c) ->
    start_item pg force new c0 x sh major dual1 ->
    end_shown (dual || dual1) (has_verse sh) x osh ->
    ref_written lk x sh osh body ->
    items_written lk pg force false (dual || dual1) (left_by_ref x sh osh) l out ->
    items_written lk pg force first dual c ((m, x) :: l)
      ((if first then [] else leading (lk_nospace lk) (if major then major_list_sep d else minor_list_sep d)) ++ body ++ out).
Definition list_written (lk : look) (pg force : bool) (g : list (list range)) (s : str) : Prop :=
  items_written lk pg force true false NoBook (marked g) s.
End Shown.
