(** * SpecRecall: what the parser remembers of the texts it has read. *)
From Coq Require Import List ZArith Bool Ascii Lia.
From Verif Require Import Base Books Chars Regex Data MVerse MRange MSeq MList MParse MWorld Spec SpecName SpecParse SpecMean.
Import ListNotations.
Open Scope Z_scope.

(** ** The context that a text leaves behind, whether it is accepted or not *)
(** A reference that means something, even if there is no such chapter or verse, sets the context; any other leaves it. *)
Inductive single_left (d : bibledata) (c : ctx) (a : single) : ctx -> Prop :=
| L_meant k u c' : says d a k -> means d c k u c' -> single_left d c a c'
| L_stays : (forall k u c', says d a k -> ~ means d c k u c') -> single_left d c a c.
Inductive ref_left (e : env) (fl : option flag) (c : ctx) : ref_node -> ctx -> Prop :=
| L_one a c' : single_left (ed e) c a c' -> ref_left e fl c (One a) c'
| L_left a s b c' : (forall r c1, ~ m_single e fl c a r c1) -> single_left (ed e) c a c' -> ref_left e fl c (Two a s b) c'
| L_right a r c1 s b c' : m_single e fl c a r c1 -> single_left (ed e) c1 b c' -> ref_left e fl c (Two a s b) c'.
(** The transformer stops at the first reference that is not accepted. *)
Inductive rest_left (e : env) (fl : option flag) (trail : option token) : ctx -> list (token * ref_node) -> ctx -> Prop :=
| L_end c : rest_left e fl trail c [] (match trail with Some s => after_sep s c | None => c end)
| L_stop c s x l c' : (forall r c1, ~ m_ref e fl (after_sep s c) x r c1) -> ref_left e fl (after_sep s c) x c' ->
    rest_left e fl trail c ((s, x) :: l) c'
| L_go c s x r c1 l c' : m_ref e fl (after_sep s c) x r c1 -> rest_left e fl trail c1 l c' -> rest_left e fl trail c ((s, x) :: l) c'.
Inductive tree_left (e : env) (fl : option flag) (c : ctx) (t : tree) : ctx -> Prop :=
| L_first c' : (forall r c1, ~ m_ref e fl c (t_first t) r c1) -> ref_left e fl c (t_first t) c' -> tree_left e fl c t c'
| L_later r c1 c' : m_ref e fl c (t_first t) r c1 -> rest_left e fl (t_trail t) c1 (t_rest t) c' -> tree_left e fl c t c'.

(** ** Histories *)
Inductive reading : action -> option flag -> str -> Prop :=
| Reads_list fl s : reading (ListFromStr fl s) fl s
| Reads_range fl s : reading (RangeFromStr fl s) fl s
| Reads_verse fl s : reading (VerseFromStr fl s) fl s.
Definition setting (a : action) : Prop := forall fl s, ~ reading a fl s.
(** The settings after a history. *)
Definition settings (h : list action) : env := env_of (acts start_world h).
(** The book and chapter in which the next text is read. *)
Inductive remembers : list action -> ctx -> Prop :=
| Re_nothing : remembers [] NoBook
| Re_setting h a c : remembers h c -> setting a -> remembers (h ++ [a]) c
| Re_unread h a fl s c : remembers h c -> reading a fl s -> (forall t, ~ reads (ed (settings h)) s t) -> remembers (h ++ [a]) c
| Re_read h a fl s c t c' : remembers h c -> reading a fl s -> reads (ed (settings h)) s t -> tree_left (settings h) fl c t c' ->
    remembers (h ++ [a]) c'.
