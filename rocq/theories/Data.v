(** * Data: the [BibleData] singleton, flags, and the environment of a call. *)
From Coq Require Import List ZArith Bool Ascii String Lia.
From Verif Require Import Base Books Chars Regex.
Import ListNotations.
Open Scope Z_scope.

(** ref.py 17-36: [BibleFlag].  A flag value is a set of two members. *)
Record flag := mkFlag { multibook : bool; verse0 : bool }.
Definition NONE := mkFlag false false.
Definition MULTIBOOK := mkFlag true false.
Definition VERSE_0 := mkFlag false true.
Definition ALL := mkFlag true true.

(** Truth value of a [Flag]: false exactly for [NONE]. *)
Definition flag_true (f : flag) : bool := multibook f || verse0 f.
(** The operator [|] on flags. *)
Definition flag_or (f g : flag) : flag := mkFlag (multibook f || multibook g) (verse0 f || verse0 g).

(** data.py 7-24, and the attributes that the setters store on the [BibleBook] members.
    The separators are single characters. *)
Record bibledata := mkData {
  book_order : list book;                 (* data.py 84-99 *)
  order : book -> option nat;             (* attribute [order] of a book *)
  max_verses : book -> option (list Z);   (* attribute [_max_verses], data.py 178-186 *)
  verse_0s : book -> list Z;              (* attribute [_verse_0s], data.py 195-202 *)
  names : book -> option name_entry;      (* data.py 103-170 *)
  range_sep : ascii;
  major_list_sep : ascii;
  minor_list_sep : ascii;
  verse_sep_std : ascii;
  verse_sep_alt : ascii
}.

(** The state a call runs in: the data singleton and the global [bibleref.flags]
    (its value [None] behaves as [NONE]). *)
Record env := mkEnv { ed : bibledata; eg : flag }.

(** [flags = flags or bibleref.flags or BibleFlag.NONE] (ref.py 179, 473, 510, 612, 664, ...). *)
Definition eff (e : env) (f : option flag) : flag :=
  match f with
  | Some f' => if flag_true f' then f' else eg e
  | None => eg e
  end.

(** data.py 85-99: assignment to [BibleData.book_order].
    [books_left] is the local variable [book_set].  The loop assigns the order of each listed book and
    removes it from the set; removing a book twice raises [KeyError]. *)
Fixpoint remove_book (b : book) (l : list book) : list book :=
  match l with [] => [] | x :: xs => if book_eqb b x then xs else x :: remove_book b xs end.
Definition mem_book (b : book) (l : list book) : bool := existsb (book_eqb b) l.

Definition set_order (o : book -> option nat) (b : book) (v : option nat) : book -> option nat :=
  fun x => if book_eqb x b then v else o x.

(** Returns the new [order] attributes, the remaining set, and whether the loop raised [KeyError]. *)
Fixpoint assign_orders (i : nat) (l : list book) (o : book -> option nat) (books_left : list book)
  : (book -> option nat) * res (list book) :=
  match l with
  | [] => (o, Ok books_left)
  | b :: bs =>
      let o' := set_order o b (Some i) in
      if mem_book b books_left then assign_orders (S i) bs o' (remove_book b books_left)
      else (o', Err KeyErr)
  end.

Definition clear_orders (o : book -> option nat) (l : list book) : book -> option nat :=
  fold_left (fun o b => set_order o b None) l o.

(** The data after the assignment, and the outcome of the assignment statement. *)
Definition set_book_order (d : bibledata) (l : list book) : bibledata * res unit :=
  let '(o, r) := assign_orders 0 l (order d) all_books in
  let with_order o' := mkData l o' (max_verses d) (verse_0s d) (names d) (range_sep d)
                              (major_list_sep d) (minor_list_sep d) (verse_sep_std d) (verse_sep_alt d) in
  match r with
  | Ok rest => (with_order (clear_orders o rest), Ok tt)
  | Err e => (with_order o, Err e)
  end.

(** data.py 8-17: [BibleData.__init__] together with the class attributes before the setters ran. *)
Definition empty_data : bibledata :=
  mkData [] (fun _ => None) (fun _ => None) (fun _ => []) (fun _ => None)
         "-" ";" "," ":" ".".
