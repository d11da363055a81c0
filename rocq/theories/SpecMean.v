(** * SpecMean: what a list of references means, in terms of the units of Spec.v. *)
From Coq Require Import List ZArith Bool Ascii Lia.
From Verif Require Import Base Books Chars Regex Data MVerse MRange MSeq MList MParse Spec SpecName SpecParse.
Import ListNotations.
Open Scope Z_scope.

(** What a reference says once the name of its book is known. *)
Inductive content :=
| KBook (b : book)
| KBookNum (b : book) (n : Z)
| KFull (b : book) (c v : Z)
| KChapVerse (c v : Z)
| KNum (n : Z).
(** The book that a token names: the first one with such a name. *)
Definition named (d : bibledata) (n : token) (b : book) : Prop := from_str d (ttext n) = Some b.
Inductive says (d : bibledata) : single -> content -> Prop :=
| Says_book n b : named d n b -> says d (SBook n) (KBook b)
| Says_book_num n m b : named d n b -> says d (SBookNum n m) (KBookNum b (tok_num m))
| Says_full n c s v b : named d n b -> says d (SFull n c s v) (KFull b (tok_num c) (tok_num v))
| Says_chap_verse c s v : says d (SChapVerse c s v) (KChapVerse (tok_num c) (tok_num v))
| Says_num m : says d (SNum m) (KNum (tok_num m)).

(** What the earlier references leave behind: a book, and perhaps a chapter in which bare numbers are verses. *)
Inductive ctx := NoBook | InBook (b : book) | InChap (b : book) (c : Z).
Definition ctx_book (c : ctx) : option book := match c with NoBook => None | InBook b | InChap b _ => Some b end.
Definition leave_chap (c : ctx) : ctx := match c with InChap b _ => InBook b | _ => c end.
Definition one_chap_book (d : bibledata) (b : book) : Prop := num_chaps d b = 1.

(** The unit that is meant.  In a book of one chapter, numbers are verses. *)
Inductive means (d : bibledata) : ctx -> content -> unit_ref -> ctx -> Prop :=
| M_book c b : means d c (KBook b) (UBook b) (InBook b)
| M_chap c b n : ~ one_chap_book d b -> means d c (KBookNum b n) (UChap b n) (InBook b)
| M_verse c b n : one_chap_book d b -> means d c (KBookNum b n) (UVerse b 1 n) (InChap b 1)
| M_full c b h v : means d c (KFull b h v) (UVerse b h v) (InChap b h)
| M_chap_verse c b h v : ctx_book c = Some b -> means d c (KChapVerse h v) (UVerse b h v) (InChap b h)
| M_num_chap b n : ~ one_chap_book d b -> means d (InBook b) (KNum n) (UChap b n) (InBook b)
| M_num_verse b h n : ~ one_chap_book d b -> means d (InChap b h) (KNum n) (UVerse b h n) (InChap b h)
| M_num_book1 b n : one_chap_book d b -> means d (InBook b) (KNum n) (UVerse b 1 n) (InBook b)
| M_num_chap1 b h n : one_chap_book d b -> means d (InChap b h) (KNum n) (UVerse b 1 n) (InChap b 1).

(** The range of a unit. *)
Definition unit_span (e : env) (fl : option flag) (u : unit_ref) (r : range) : Prop :=
  unit_ok (ed e) (zero_on e fl) u /\ can_start e fl u /\
  r = R (unit_first (ed e) (zero_on e fl) u) (unit_last (ed e) u).
Definition m_single (e : env) (fl : option flag) (c : ctx) (a : single) (r : range) (c' : ctx) : Prop :=
  exists k u, says (ed e) a k /\ means (ed e) c k u c' /\ unit_span e fl u r.
(** From the start of the first to the end of the second, or the other way round. *)
Definition joined (e : env) (fl : option flag) (s t : verse) (r : range) : Prop :=
  (multi_on e fl = true \/ vbook s = vbook t) /\
  ((vle (ed e) s t /\ r = R s t) \/ (vlt (ed e) t s /\ r = R t s)).
Inductive m_ref (e : env) (fl : option flag) : ctx -> ref_node -> range -> ctx -> Prop :=
| M_one c a r c' : m_single e fl c a r c' -> m_ref e fl c (One a) r c'
| M_two c a r1 c1 s b r2 c' r : m_single e fl c a r1 c1 -> m_single e fl c1 b r2 c' ->
    joined e fl (rstart r1) (rend r2) r -> m_ref e fl c (Two a s b) r c'.
Definition after_sep (s : token) (c : ctx) : ctx := match tk s with TMajor => leave_chap c | _ => c end.
Inductive m_rest (e : env) (fl : option flag) : ctx -> list (token * ref_node) -> list (term * range) -> ctx -> Prop :=
| M_nil c : m_rest e fl c [] [] c
| M_cons c s x r c1 l rs c' : m_ref e fl (after_sep s c) x r c1 -> m_rest e fl c1 l rs c' ->
    m_rest e fl c ((s, x) :: l) ((tk s, r) :: rs) c'.
(** Groups end at major separators. *)
Fixpoint groups_of (r : range) (l : list (term * range)) : list (list range) :=
  match l with
  | [] => [[r]]
  | (k, r') :: l' =>
      match k, groups_of r' l' with
      | TMajor, gs => [r] :: gs
      | _, g :: gs => (r :: g) :: gs
      | _, [] => [[r]]
      end
  end.
Definition m_tree (e : env) (fl : option flag) (c : ctx) (t : tree) (gs : list (list range)) (c' : ctx) : Prop :=
  exists r c1 rs c2, m_ref e fl c (t_first t) r c1 /\ m_rest e fl c1 (t_rest t) rs c2 /\ gs = groups_of r rs /\
  c' = match t_trail t with Some s => after_sep s c2 | None => c2 end.

(** ** What is to blame when a list means nothing *)
Definition name_of (a : single) : option token :=
  match a with SBook n | SBookNum n _ | SFull n _ _ _ => Some n | _ => None end.
Definition toks (a : single) : list token :=
  match a with SBook n => [n] | SBookNum n m => [n; m] | SFull n c s v => [n; c; s; v] | SChapVerse c s v => [c; s; v] | SNum m => [m] end.
Definition known_name (d : bibledata) (a : single) : Prop := forall n, name_of a = Some n -> exists b, named d n b.
(** [ts] are the tokens to blame. *)
Inductive single_blamed (e : env) (fl : option flag) (c : ctx) (a : single) : list token -> Prop :=
| B_name n : name_of a = Some n -> (forall b, ~ named (ed e) n b) -> single_blamed e fl c a [n]
| B_ref : known_name (ed e) a -> (forall r c', ~ m_single e fl c a r c') -> single_blamed e fl c a (toks a).
Inductive ref_blamed (e : env) (fl : option flag) (c : ctx) : ref_node -> list token -> Prop :=
| B_one a ts : single_blamed e fl c a ts -> ref_blamed e fl c (One a) ts
| B_left a s b ts : single_blamed e fl c a ts -> ref_blamed e fl c (Two a s b) ts
| B_right a r c1 s b ts : m_single e fl c a r c1 -> single_blamed e fl c1 b ts -> ref_blamed e fl c (Two a s b) ts
| B_both a r1 c1 s b r2 c2 : m_single e fl c a r1 c1 -> m_single e fl c1 b r2 c2 ->
    (forall r, ~ joined e fl (rstart r1) (rend r2) r) -> ref_blamed e fl c (Two a s b) (toks a ++ s :: toks b).
Inductive tree_blamed (e : env) (fl : option flag) (c : ctx) (t : tree) : list token -> Prop :=
| B_first ts : ref_blamed e fl c (t_first t) ts -> tree_blamed e fl c t ts
| B_later r c1 l s x l' rs c2 ts : m_ref e fl c (t_first t) r c1 -> t_rest t = l ++ (s, x) :: l' ->
    m_rest e fl c1 l rs c2 -> ref_blamed e fl (after_sep s c2) x ts -> tree_blamed e fl c t ts.
(** The tokens [ts] are the part [i:j] of the text, from the beginning of a token to the end of a token. *)
Definition part_of (d : bibledata) (s : str) (i j : Z) (ts : list token) : Prop :=
  exists p x q, s = p ++ x ++ q /\ zlen p = i /\ zlen x = j - i /\ spells d i x ts /\
    (forall c y, x = c :: y -> is_ws c = false) /\ (forall y c, x = y ++ [c] -> is_ws c = false).

(** All names that are configured are names of books of the Bible. *)
Definition names_listed (d : bibledata) : Prop := forall b n, names d b = Some n -> In b (book_order d).
