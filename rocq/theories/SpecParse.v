(** * SpecParse: the grammar of references as a relation (the contract of Lark), without reference to the reader. *)
From Coq Require Import List ZArith NArith Bool Ascii Lia.
From Verif Require Import Base Books Chars Regex Data MVerse MRange MSeq MList MParse.
Import ListNotations.
Open Scope Z_scope.

Definition is_sep (d : bibledata) (c : ascii) : Prop :=
  c = range_sep d \/ c = major_list_sep d \/ c = minor_list_sep d \/ c = verse_sep_std d \/ c = verse_sep_alt d.

(** The separators are punctuation; they differ from each other, but the two verse separators may be the same. *)
Record good_seps (d : bibledata) : Prop := {
  gs_punct : forall c, is_sep d c -> is_word c = false /\ is_space c = false;
  gs_range_major : range_sep d <> major_list_sep d;
  gs_range_minor : range_sep d <> minor_list_sep d;
  gs_major_minor : major_list_sep d <> minor_list_sep d;
  gs_verse : forall c, c = verse_sep_std d \/ c = verse_sep_alt d ->
             c <> range_sep d /\ c <> major_list_sep d /\ c <> minor_list_sep d }.

(** parser.py 230-242: the texts of a terminal. *)
Definition in_term (d : bibledata) (k : term) (x : str) : Prop :=
  match k with
  | TName => exists c m z, x = c :: m ++ [z] /\ is_word c = true /\
               Forall (fun y => is_word y = true \/ is_space y = true) m /\
               is_digit z = false /\ is_space z = false /\ ~ is_sep d z
  | TNum => x <> [] /\ Forall (fun y => is_digit y = true) x
  | TRange => x = [range_sep d]
  | TMajor => x = [major_list_sep d]
  | TMinor => x = [minor_list_sep d]
  | TVerse => x = [verse_sep_std d] \/ x = [verse_sep_alt d]
  end.
Definition white (w : str) : Prop := Forall (fun c => is_ws c = true) w.

(** A text spells a list of tokens, with ignored white space before, between and after them (parser.py 244-246). *)
Inductive spells (d : bibledata) : Z -> str -> list token -> Prop :=
| Sp_end i w : white w -> spells d i w []
| Sp_tok i w k x s ts : white w -> in_term d k x -> spells d (i + zlen w + zlen x) s ts ->
                        spells d i (w ++ x ++ s) (Tok k x (i + zlen w) :: ts).

(** The rules, parser.py 210-228. *)
Inductive g_single : list token -> single -> Prop :=
| G_book n : tk n = TName -> g_single [n] (SBook n)
| G_book_num n m : tk n = TName -> tk m = TNum -> g_single [n; m] (SBookNum n m)
| G_full n c s v : tk n = TName -> tk c = TNum -> tk s = TVerse -> tk v = TNum -> g_single [n; c; s; v] (SFull n c s v)
| G_chap_verse c s v : tk c = TNum -> tk s = TVerse -> tk v = TNum -> g_single [c; s; v] (SChapVerse c s v)
| G_num m : tk m = TNum -> g_single [m] (SNum m).
Inductive g_ref : list token -> ref_node -> Prop :=
| G_one l a : g_single l a -> g_ref l (One a)
| G_two l m a s b : g_single l a -> tk s = TRange -> g_single m b -> g_ref (l ++ s :: m) (Two a s b).
Inductive g_rest : list token -> list (token * ref_node) -> option token -> Prop :=
| G_end : g_rest [] [] None
| G_trail s : tk s = TMajor \/ tk s = TMinor -> g_rest [s] [] (Some s)
| G_more s l x m r t : tk s = TMajor \/ tk s = TMinor -> g_ref l x -> g_rest m r t ->
                       g_rest (s :: l ++ m) ((s, x) :: r) t.
Inductive g_list : list token -> tree -> Prop :=
| G_list l x m r t : g_ref l x -> g_rest m r t -> g_list (l ++ m) (Tree x r t).

(** [t] is a reading of the text [s]. *)
Definition reads (d : bibledata) (s : str) (t : tree) : Prop := exists ts, spells d 0 s ts /\ g_list ts t.

(** The first token of [k :: ts] in [s] is the longest text of its terminal there. *)
Definition longest (d : bibledata) (k : term) (x s : str) : Prop :=
  forall y z, x ++ s = y ++ z -> in_term d k y -> (length y <= length x)%nat.
Inductive spells_longest (d : bibledata) : str -> list token -> Prop :=
| SL_end w : white w -> spells_longest d w []
| SL_tok w k x i s ts : white w -> in_term d k x -> longest d k x s -> spells_longest d s ts ->
                        spells_longest d (w ++ x ++ s) (Tok k x i :: ts).
