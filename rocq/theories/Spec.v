(** * Spec: what a Bible reference denotes, written without reference to the algorithms.

    The Bible is a finite list of verses, determined by the configured tables: books in order,
    chapters in order, verses in order.  A universe is selected by a Boolean [z]: are the verse 0s counted? *)
From Coq Require Import List ZArith Bool Lia.
From Verif Require Import Base Books Data MVerse MRange.
Import ListNotations.
Open Scope Z_scope.

(** Number of chapters of a book (0 if it has no table). *)
Definition num_chaps (d : bibledata) (b : book) : Z :=
  match max_verses d b with Some l => zlen l | None => 0 end.

(** Last verse number of chapter [c]; 0 if there is no such chapter. *)
Definition last_num (d : bibledata) (b : book) (c : Z) : Z :=
  match max_verses d b with
  | Some l => if (1 <=? c) then nth (Z.to_nat (c - 1)) l 0 else 0
  | None => 0
  end.

(** First verse number of chapter [c] in universe [z]. *)
Definition first_num (d : bibledata) (z : bool) (b : book) (c : Z) : Z :=
  if z && zmem c (verse_0s d b) then 0 else 1.

(** The verse exists (numerically). *)
Definition legal (d : bibledata) (z : bool) (b : book) (c v : Z) : Prop :=
  1 <= c <= num_chaps d b /\ first_num d z b c <= v <= last_num d b c.

(** The enumeration of all verses of a chapter, of a book, and of the Bible. *)
Definition chap_verses (d : bibledata) (z : bool) (b : book) (c : Z) : list verse :=
  map (V b c) (zrange (first_num d z b c) (last_num d b c)).
Definition book_verses (d : bibledata) (z : bool) (b : book) : list verse :=
  flat_map (chap_verses d z b) (zrange 1 (num_chaps d b)).
Definition bible_verses (d : bibledata) (z : bool) : list verse :=
  flat_map (book_verses d z) (book_order d).

(** Well-formed tables: no book is listed twice, [order] is the position in the list, and every listed book
    has at least one chapter, every chapter at least one verse. *)
Definition order_ok (d : bibledata) : Prop :=
  forall b i, order d b = Some i <-> nth_error (book_order d) i = Some b.
Definition wf_data (d : bibledata) : Prop :=
  order_ok d /\
  forall b, In b (book_order d) ->
    exists l, max_verses d b = Some l /\ l <> [] /\ Forall (fun m => 1 <= m) l.

(** [v] is a verse of the Bible (in universe [z]). *)
Definition InB (d : bibledata) (z : bool) (v : verse) : Prop := In v (bible_verses d z).

(** [v] is in position [i] of list [l]. *)
Definition at_pos {A} (l : list A) (i : nat) (v : A) : Prop := nth_error l i = Some v.

(** [a] is not after [b] in the Bible: it occurs at a position not greater. *)
Definition vle (d : bibledata) (a b : verse) : Prop :=
  exists i j, at_pos (bible_verses d true) i a /\ at_pos (bible_verses d true) j b /\ (i <= j)%nat.
Definition vlt (d : bibledata) (a b : verse) : Prop :=
  exists i j, at_pos (bible_verses d true) i a /\ at_pos (bible_verses d true) j b /\ (i < j)%nat.

(** [v] lies in the range [r]. *)
Definition InR (d : bibledata) (v : verse) (r : range) : Prop := vle d (rstart r) v /\ vle d v (rend r).
(** [v] lies in some range of a list. *)
Definition InL (d : bibledata) (v : verse) (l : list range) : Prop := exists r, In r l /\ InR d v r.

(** A legal range of universe [z]: both ends are verses of the Bible, in order. *)
Definition wf_range (d : bibledata) (z : bool) (r : range) : Prop :=
  InB d z (rstart r) /\ InB d z (rend r) /\ vle d (rstart r) (rend r).

(** The flags a call has in effect: a non-empty [flags] argument, otherwise the global flags. *)
Definition arg_given (fl : option flag) : option flag :=
  match fl with Some (mkFlag false false) => None | _ => fl end.
Definition multi_on (e : env) (fl : option flag) : bool :=
  match arg_given fl with Some f => multibook f | None => multibook (eg e) end.
Definition zero_on (e : env) (fl : option flag) : bool :=
  match arg_given fl with Some f => verse0 f | None => verse0 (eg e) end.

(** The sequence of verses along which [add] and [subtract] move: the whole Bible, or the book of [v];
    with the verse 0s if the flags say so or [v] itself is one. *)
Definition track0 (e : env) (fl : option flag) (v : verse) : bool := zero_on e fl || (vverse v =? 0).
Definition track (e : env) (fl : option flag) (v : verse) : list verse :=
  if multi_on e fl then bible_verses (ed e) (track0 e fl v)
  else book_verses (ed e) (track0 e fl v) (vbook v).

(** The verses on the way back from [v] when the verse 0s of the chapter of [v] are counted by the flags of the call and the
    others by the global flags. *)
Definition counts_back (e : env) (fl : option flag) (v w : verse) : bool :=
  (0 <? vverse w) || (if book_eqb (vbook w) (vbook v) && (vchap w =? vchap v) then track0 e fl v else verse0 (eg e)).
Definition back_track (e : env) (fl : option flag) (v : verse) : list verse :=
  filter (counts_back e fl v) (if multi_on e fl then bible_verses (ed e) true else book_verses (ed e) true (vbook v)).

(** [q] is the verse directly after [p] in universe [z]. *)
Definition follows (d : bibledata) (z : bool) (p q : verse) : Prop :=
  exists i, at_pos (bible_verses d z) i p /\ at_pos (bible_verses d z) (S i) q.

(** [b] begins directly after [a] ends; without MULTIBOOK only inside one book. *)
Definition joins (e : env) (fl : option flag) (a b : range) : Prop :=
  follows (ed e) (track0 e fl (rend a)) (rend a) (rstart b) /\
  (multi_on e fl = true \/ vbook (rend a) = vbook (rstart b)).

(** Two ranges with a common verse. *)
Definition overlap (d : bibledata) (a b : range) : Prop := exists v, InR d v a /\ InR d v b.

(** Ranges that form one stretch. *)
Definition touching (e : env) (fl : option flag) (a b : range) : Prop :=
  overlap (ed e) a b \/ joins e fl a b \/ joins e fl b a.

(** [h] reaches from the earlier start to the later end; [m] from the later start to the earlier end. *)
Definition hull_of (d : bibledata) (a b h : range) : Prop :=
  (rstart h = rstart a \/ rstart h = rstart b) /\ (rend h = rend a \/ rend h = rend b) /\
  vle d (rstart h) (rstart a) /\ vle d (rstart h) (rstart b) /\ vle d (rend a) (rend h) /\ vle d (rend b) (rend h).
Definition meet_of (d : bibledata) (a b m : range) : Prop :=
  (rstart m = rstart a \/ rstart m = rstart b) /\ (rend m = rend a \/ rend m = rend b) /\
  vle d (rstart a) (rstart m) /\ vle d (rstart b) (rstart m) /\ vle d (rend m) (rend a) /\ vle d (rend m) (rend b).

(** [l] is the list of all verses of range [r], in order: the stretch of the Bible from its start to its end. *)
Definition verses_of (d : bibledata) (z : bool) (r : range) (l : list verse) : Prop :=
  (exists l1 l3, bible_verses d z = l1 ++ l ++ l3) /\
  hd_error l = Some (rstart r) /\ hd_error (rev l) = Some (rend r).

(** ** Partition of a list of verses into pieces ([split]) *)
Definition one_book (l : list verse) : Prop := forall a b, In a l -> In b l -> vbook a = vbook b.
Definition one_chap (l : list verse) : Prop :=
  forall a b, In a l -> In b l -> vbook a = vbook b /\ vchap a = vchap b.

(** Between the end of [p] and the beginning of [q] a new book (or chapter) begins. *)
Definition new_book (p q : list verse) : Prop :=
  exists a b, hd_error (rev p) = Some a /\ hd_error q = Some b /\ vbook a <> vbook b.
Definition new_chap (p q : list verse) : Prop :=
  exists a b, hd_error (rev p) = Some a /\ hd_error q = Some b /\ (vbook a <> vbook b \/ vchap a <> vchap b).

(** [ls] is the partition of [l] into the pieces that the options ask for: no piece crosses a book or chapter
    or is longer than [num], and a new piece begins only where a book or chapter begins or the piece is full. *)
Record partition_of (by_book by_chap : bool) (num : option nat) (l : list verse) (ls : list (list verse)) : Prop := {
  part_concat : concat ls = l;
  part_nonempty : Forall (fun p => p <> []) ls;
  part_book : by_book = true -> Forall one_book ls;
  part_chap : by_chap = true -> Forall one_chap ls;
  part_num : forall n, num = Some n -> Forall (fun p => (length p <= n)%nat) ls;
  part_break : forall ls1 p q ls2, ls = ls1 ++ p :: q :: ls2 ->
    (by_book = true /\ new_book p q) \/ (by_chap = true /\ new_chap p q) \/ num = Some (length p)
}.

(** ** Counting *)
(** Exactly [n] values satisfy [P]. *)
Definition counted {K} (P : K -> Prop) (n : Z) : Prop :=
  exists ks, NoDup ks /\ (forall k, In k ks <-> P k) /\ n = zlen ks.

(** Chapters and books of which the range contains some verse, or all verses. *)
Definition touches_chap (d : bibledata) (r : range) (k : book * Z) : Prop :=
  exists v, InR d v r /\ vbook v = fst k /\ vchap v = snd k.
Definition covers_chap (d : bibledata) (z : bool) (r : range) (k : book * Z) : Prop :=
  In (fst k) (book_order d) /\ 1 <= snd k <= num_chaps d (fst k) /\
  forall v, In v (chap_verses d z (fst k) (snd k)) -> InR d v r.
Definition touches_book (d : bibledata) (r : range) (b : book) : Prop :=
  exists v, InR d v r /\ vbook v = b.
Definition covers_book (d : bibledata) (z : bool) (r : range) (b : book) : Prop :=
  In b (book_order d) /\ forall v, In v (book_verses d z b) -> InR d v r.

(** ** Units: what the positional arguments of [BibleRange] name *)
Inductive unit_ref := UBook (b : book) | UChap (b : book) (c : Z) | UVerse (b : book) (c v : Z).
Definition unit_book (u : unit_ref) : book :=
  match u with UBook b => b | UChap b _ => b | UVerse b _ _ => b end.
(** The unit exists (in universe [z]); its first and last verse. *)
Definition unit_ok (d : bibledata) (z : bool) (u : unit_ref) : Prop :=
  match u with
  | UBook b => True
  | UChap b c => 1 <= c <= num_chaps d b
  | UVerse b c v => legal d z b c v
  end.
Definition unit_first (d : bibledata) (z : bool) (u : unit_ref) : verse :=
  match u with
  | UBook b => V b 1 (first_num d z b 1)
  | UChap b c => V b c (first_num d z b c)
  | UVerse b c v => V b c v
  end.
Definition unit_last (d : bibledata) (u : unit_ref) : verse :=
  match u with
  | UBook b => V b (num_chaps d b) (last_num d b (num_chaps d b))
  | UChap b c => V b c (last_num d b c)
  | UVerse b c v => V b c v
  end.

(** The verses of a unit. *)
Definition unit_verses (d : bibledata) (z : bool) (u : unit_ref) : list verse :=
  match u with
  | UBook b => book_verses d z b
  | UChap b c => chap_verses d z b c
  | UVerse b c v => [V b c v]
  end.

(** The first verse of a book or chapter with a verse 0 is known to the global flags too.  (Needed because
    [first_verse], ref.py 191-197, constructs the verse without passing its [flags] on.) *)
Definition can_start (e : env) (fl : option flag) (u : unit_ref) : Prop :=
  match u with
  | UVerse _ _ _ => True
  | _ => zero_on e fl = true -> InB (ed e) (verse0 (eg e)) (unit_first (ed e) (zero_on e fl) u)
  end.

(** The unit named by a book, an optional chapter and an optional verse; a verse needs a chapter. *)
Definition named_unit (b : book) (c v : option Z) : option unit_ref :=
  match c, v with
  | None, None => Some (UBook b)
  | Some c, None => Some (UChap b c)
  | Some c, Some v => Some (UVerse b c v)
  | None, Some _ => None
  end.
(** The first unit is given by the first three arguments.  The second one is the first if no further argument
    is given; a missing end book is the start book, and in the same book an end verse without a chapter belongs
    to the start chapter (chapter 1 if none is given). *)
Definition first_unit (a : pos_args) : option unit_ref := named_unit (pa_sb a) (pa_sc a) (pa_sv a).
Definition second_unit (a : pos_args) : option unit_ref :=
  match pa_eb a, pa_ec a, pa_ev a with
  | None, None, None => first_unit a
  | eb, ec, ev =>
      let b := match eb with Some b => b | None => pa_sb a end in
      match ec, ev with
      | None, Some v => if book_eqb b (pa_sb a)
                        then Some (UVerse b match pa_sc a with Some c => c | None => 1 end v) else None
      | _, _ => named_unit b ec ev
      end
  end.

(** The books named are books of the Bible. *)
Definition books_listed (d : bibledata) (a : pos_args) : Prop :=
  In (pa_sb a) (book_order d) /\ forall b, pa_eb a = Some b -> In b (book_order d).
