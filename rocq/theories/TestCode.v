(** * TestCode: the assertions of the project's own tests, evaluated on the model.

    The tests were read as text, not run.  Each [Example] is one assertion and is named after its line.  It checks the
    model against a value that the authors of the code expect.
    - [agree a b]: neither side raises, and both give the same value ([assertEqual], [assertListEqual], [assertIs]).
    - [holds a], [fails a]: the value is True or False ([assertTrue], [assertFalse]).
    - [raises x a]: an exception of the class of [x] ([assertRaises]). *)
From Coq Require Import List ZArith Bool Ascii String.
From Verif Require Import Base Books Chars Regex Data DefaultData MVerse MRange MSeq MList MGroup MNode MStr MParse MWorld MOps MNew.
Import ListNotations.
Open Scope list_scope.
Open Scope Z_scope.

Definition agree {A} (a b : res A) : Prop := match a, b with Ok x, Ok y => x = y | _, _ => False end.
Definition holds (a : res bool) : Prop := a = Ok true.
Definition fails (a : res bool) : Prop := a = Ok false.
Definition raises {A} (x : exn) (a : res A) : Prop := match a with Ok _ => False | Err y => y = x end.

(** The global flags are [NONE] unless a test sets them.  Each text is read by a new parser: all texts begin with a
    book. *)
Definition E : env := denv NONE.
Definition F : nat := 4000.
Definition mk_verse_in (e : env) (fl : option flag) (args : list pyval) : res verse := snd (any_verse e fl ts_init args).
Definition range_of (q : pyval * pyval) : res range := match q with (VVerse s, VVerse t) => Ok (R s t) | _ => Err TypeErr end.
Definition mk_range_in (e : env) (fl : option flag) (args : list pyval) : res range :=
  q <- snd (any_range e fl ts_init args VNone VNone) ;; range_of q.
Definition mk_list_in (e : env) (fl : option flag) (args : list pyval) : res rlist :=
  h <- snd (any_list e fl ts_init args) ;; to_nested_lists h.
Definition mk_verse := mk_verse_in E.
Definition mk_range := mk_range_in E.
Definition mk_list := mk_list_in E.
Definition mk_range_ends (fl : option flag) (s t : pyval) : res range := q <- snd (any_range E fl ts_init [] s t) ;; range_of q.
Definition some {A} (a : res (option A)) : res A := x <- a ;; match x with Some y => Ok y | None => Err TypeErr end.
Definition got_verse (a : res outcome) : res verse := x <- a ;; match x with GotVerse (Some v) => Ok v | _ => Err TypeErr end.
Definition got_int (a : res outcome) : res Z := x <- a ;; match x with GotInt n => Ok n | _ => Err TypeErr end.
Definition or_index {A} (o : option A) : res A := match o with Some x => Ok x | None => Err IndexErr end.
Definition first_of (l : rlist) : res range := or_index (hd_error (items l)).
Definition last_of (l : rlist) : res range := or_index (hd_error (rev (items l))).
Definition item_of (i j : Z) (l : rlist) : res range := g <- or_index (znth l i) ;; or_index (znth g j).
Definition nth_view (i : Z) (l : list nat) : res (option nat) := a <- or_index (znth l i) ;; Ok (Some a).
(** test_util.py 354-366: [verify_is_single_group]. *)
Fixpoint single_group_from (first : bool) (l : list nat) (s : glist Z) : bool :=
  match l with
  | [] => true
  | a :: l' =>
      (if first then oeqb (g_fhead s) (Some a) && oeqb (g_lhead s) (Some a) else true) && Bool.eqb (n_head s a) first &&
      oeqb (n_ph s a) None && oeqb (n_nh s a) None && single_group_from false l' s
  end.
Definition is_single_group (s : glist Z) : res bool := l <- node_iter s ;; Ok (single_group_from true l s).

(** test_bible_books: test/test_reference.py 10-13. *)
Example ref_11 : agree (from_str_raise default_data (s2l "Gen")) (Ok Gen).
Proof. vm_compute. reflexivity. Qed.
Example ref_12 : agree (from_str_raise default_data (s2l "Mt")) (Ok Matt).
Proof. vm_compute. reflexivity. Qed.
Example ref_13 : agree (from_str_raise default_data (s2l "Rev")) (Ok Rev).
Proof. vm_compute. reflexivity. Qed.

(** test_bible_book_ranges: test/test_reference.py 15-17. *)
Example ref_16 : agree (book_range E Matt None) (mk_range None [VStr (s2l "Matt 1:1-28:20")]).
Proof. vm_compute. reflexivity. Qed.
Example ref_17 : agree (book_chap_range E Matt 2 None) (mk_range None [VStr (s2l "Matt 2:1-23")]).
Proof. vm_compute. reflexivity. Qed.

(** test_bible_book_counts: test/test_reference.py 19-23. *)
Example ref_20 : agree (book_verse_count E Phil None) (Ok 104).
Proof. vm_compute. reflexivity. Qed.

(** test_bible_book_chap_ranges: test/test_reference.py 25-30. *)
Example ref_26 : agree (book_chap_list E Mark true None) (mk_list None [VStr (s2l "Mark 1; 2; 3; 4; 5; 6; 7; 8; 9; 10; 11; 12; 13; 14; 15; 16")]).
Proof. vm_compute. reflexivity. Qed.
Example ref_29 : agree (book_chap_list E Mark false None) (mk_list None [VStr (s2l "Mark 1, 2, 3, 4, 5, 6, 7, 8, 9, 10, 11, 12, 13, 14, 15, 16")]).
Proof. vm_compute. reflexivity. Qed.

(** test_bible_verses: test/test_reference.py 32-51. *)
Example ref_33 : raises ValueErr (mk_verse None [VBook Matt; VInt 2; VInt 3; VInt 4]).
Proof. vm_compute. reflexivity. Qed.
Example ref_34 : raises ValueErr (mk_verse None [VBook Matt; VInt 2]).
Proof. vm_compute. reflexivity. Qed.
Example ref_35 : raises ValueErr (mk_verse None [VInt 1]).
Proof. vm_compute. reflexivity. Qed.
Example ref_36 : raises InvalidRef (mk_verse None [VStr (s2l "Not real book"); VInt 2; VInt 3]).
Proof. vm_compute. reflexivity. Qed.
Example ref_37 : raises ValueErr (mk_verse None [VBook Matt; (VSeq []); (VSeq [])]).
Proof. vm_compute. reflexivity. Qed.
Example ref_38 : raises InvalidRef (mk_verse None [VBook Matt; VInt 50; VInt 3]).
Proof. vm_compute. reflexivity. Qed.
Example ref_39 : raises InvalidRef (mk_verse None [VBook Matt; VInt 2; VInt 100]).
Proof. vm_compute. reflexivity. Qed.
Example ref_40 : raises InvalidRef (mk_verse None [VStr (s2l "Matthew 2:3; 4:5")]).
Proof. vm_compute. reflexivity. Qed.
Example ref_41 : raises InvalidRef (mk_verse None [VStr (s2l "Matthew 2:3-4")]).
Proof. vm_compute. reflexivity. Qed.
Example ref_42 : agree (mk_verse None [VStr (s2l "Matthew"); VInt 2; VInt 3]) (mk_verse None [VBook Matt; VInt 2; VInt 3]).
Proof. vm_compute. reflexivity. Qed.
Example ref_43 : agree (mk_verse None [VStr (s2l "Matthew 2:3")]) (mk_verse None [VBook Matt; VInt 2; VInt 3]).
Proof. vm_compute. reflexivity. Qed.
Example ref_45 : agree (mk_verse (Some VERSE_0) [VStr (s2l "Ps 3:0")]) (mk_verse (Some VERSE_0) [VBook Psa; VInt 3; VInt 0]).
Proof. vm_compute. reflexivity. Qed.
Example ref_47 : raises InvalidRef (mk_verse (Some NONE) [VBook Psa; VInt 3; VInt 0]).
Proof. vm_compute. reflexivity. Qed.
Example ref_51 : agree (mk_verse None [VBook Mark; VInt 2; VInt 3]) (x2 <- (x1 <- mk_verse None [VBook Mark; VInt 2; VInt 3] ;; Ok (VVerse x1)) ;; mk_verse None [x2]).
Proof. vm_compute. reflexivity. Qed.

(** test_bible_verse_comparison: test/test_reference.py 53-76. *)
Example ref_54 : holds (x1 <- mk_verse None [VStr (s2l "Matt 2:3")] ;; x2 <- mk_verse None [VStr (s2l "Matt 2:4")] ;; verse_lt E x1 x2).
Proof. vm_compute. reflexivity. Qed.
Example ref_55 : holds (x1 <- mk_verse None [VStr (s2l "Matt 2:3")] ;; x2 <- mk_verse None [VStr (s2l "Matt 2:4")] ;; verse_le E x1 x2).
Proof. vm_compute. reflexivity. Qed.
Example ref_56 : fails (x1 <- mk_verse None [VStr (s2l "Matt 2:3")] ;; x2 <- mk_verse None [VStr (s2l "Matt 2:4")] ;; Ok (verse_eqb x1 x2)).
Proof. vm_compute. reflexivity. Qed.
Example ref_57 : fails (x1 <- mk_verse None [VStr (s2l "Matt 2:3")] ;; x2 <- mk_verse None [VStr (s2l "Matt 2:4")] ;; verse_ge E x1 x2).
Proof. vm_compute. reflexivity. Qed.
Example ref_58 : fails (x1 <- mk_verse None [VStr (s2l "Matt 2:3")] ;; x2 <- mk_verse None [VStr (s2l "Matt 2:4")] ;; verse_gt E x1 x2).
Proof. vm_compute. reflexivity. Qed.
Example ref_60 : holds (x1 <- mk_verse None [VStr (s2l "Matt 2:3")] ;; x2 <- mk_verse None [VStr (s2l "Matt 3:1")] ;; verse_lt E x1 x2).
Proof. vm_compute. reflexivity. Qed.
Example ref_61 : holds (x1 <- mk_verse None [VStr (s2l "Matt 2:3")] ;; x2 <- mk_verse None [VStr (s2l "Matt 3:1")] ;; verse_le E x1 x2).
Proof. vm_compute. reflexivity. Qed.
Example ref_62 : fails (x1 <- mk_verse None [VStr (s2l "Matt 2:3")] ;; x2 <- mk_verse None [VStr (s2l "Matt 3:1")] ;; Ok (verse_eqb x1 x2)).
Proof. vm_compute. reflexivity. Qed.
Example ref_63 : fails (x1 <- mk_verse None [VStr (s2l "Matt 2:3")] ;; x2 <- mk_verse None [VStr (s2l "Matt 3:1")] ;; verse_ge E x1 x2).
Proof. vm_compute. reflexivity. Qed.
Example ref_64 : fails (x1 <- mk_verse None [VStr (s2l "Matt 2:3")] ;; x2 <- mk_verse None [VStr (s2l "Matt 3:1")] ;; verse_gt E x1 x2).
Proof. vm_compute. reflexivity. Qed.
Example ref_66 : holds (x1 <- mk_verse None [VStr (s2l "Matt 2:3")] ;; x2 <- mk_verse None [VStr (s2l "Mark 1:2")] ;; verse_lt E x1 x2).
Proof. vm_compute. reflexivity. Qed.
Example ref_67 : holds (x1 <- mk_verse None [VStr (s2l "Matt 2:3")] ;; x2 <- mk_verse None [VStr (s2l "Mark 1:2")] ;; verse_le E x1 x2).
Proof. vm_compute. reflexivity. Qed.
Example ref_68 : fails (x1 <- mk_verse None [VStr (s2l "Matt 2:3")] ;; x2 <- mk_verse None [VStr (s2l "Mark 1:2")] ;; Ok (verse_eqb x1 x2)).
Proof. vm_compute. reflexivity. Qed.
Example ref_69 : fails (x1 <- mk_verse None [VStr (s2l "Matt 2:3")] ;; x2 <- mk_verse None [VStr (s2l "Mark 1:2")] ;; verse_ge E x1 x2).
Proof. vm_compute. reflexivity. Qed.
Example ref_70 : fails (x1 <- mk_verse None [VStr (s2l "Matt 2:3")] ;; x2 <- mk_verse None [VStr (s2l "Mark 1:2")] ;; verse_gt E x1 x2).
Proof. vm_compute. reflexivity. Qed.
Example ref_72 : fails (x1 <- mk_verse None [VStr (s2l "Matt 2:3")] ;; x2 <- mk_verse None [VStr (s2l "Matt 2:3")] ;; verse_lt E x1 x2).
Proof. vm_compute. reflexivity. Qed.
Example ref_73 : holds (x1 <- mk_verse None [VStr (s2l "Matt 2:3")] ;; x2 <- mk_verse None [VStr (s2l "Matt 2:3")] ;; verse_le E x1 x2).
Proof. vm_compute. reflexivity. Qed.
Example ref_74 : holds (x1 <- mk_verse None [VStr (s2l "Matt 2:3")] ;; x2 <- mk_verse None [VStr (s2l "Matt 2:3")] ;; Ok (verse_eqb x1 x2)).
Proof. vm_compute. reflexivity. Qed.
Example ref_75 : holds (x1 <- mk_verse None [VStr (s2l "Matt 2:3")] ;; x2 <- mk_verse None [VStr (s2l "Matt 2:3")] ;; verse_ge E x1 x2).
Proof. vm_compute. reflexivity. Qed.
Example ref_76 : fails (x1 <- mk_verse None [VStr (s2l "Matt 2:3")] ;; x2 <- mk_verse None [VStr (s2l "Matt 2:3")] ;; verse_gt E x1 x2).
Proof. vm_compute. reflexivity. Qed.

(** test_bible_verse_0: test/test_reference.py 78-85. *)
Example ref_82 : agree (x1 <- mk_verse (Some VERSE_0) [VBook Psa; VInt 3; VInt 0] ;; verse_0_to_1 E x1) (mk_verse None [VBook Psa; VInt 3; VInt 1]).
Proof. vm_compute. reflexivity. Qed.
Example ref_83 : agree (x1 <- mk_verse None [VBook Psa; VInt 3; VInt 1] ;; verse_1_to_0 E x1) (mk_verse (Some VERSE_0) [VBook Psa; VInt 3; VInt 0]).
Proof. vm_compute. reflexivity. Qed.
Example ref_84 : agree (x1 <- mk_verse None [VBook Matt; VInt 2; VInt 3] ;; verse_0_to_1 E x1) (mk_verse None [VBook Matt; VInt 2; VInt 3]).
Proof. vm_compute. reflexivity. Qed.
Example ref_85 : agree (x1 <- mk_verse None [VBook Matt; VInt 2; VInt 3] ;; verse_1_to_0 E x1) (mk_verse None [VBook Matt; VInt 2; VInt 3]).
Proof. vm_compute. reflexivity. Qed.

(** test_bible_verse_bool_tests: test/test_reference.py 87-96. *)
Example ref_88 : holds (x1 <- mk_verse None [VBook Matt; VInt 2; VInt 1] ;; is_first_in_chap E x1 None None).
Proof. vm_compute. reflexivity. Qed.
Example ref_89 : fails (x1 <- mk_verse None [VBook Matt; VInt 2; VInt 2] ;; is_first_in_chap E x1 None None).
Proof. vm_compute. reflexivity. Qed.
Example ref_90 : holds (x1 <- mk_verse None [VBook Matt; VInt 2; VInt 23] ;; is_last_in_chap E x1 None).
Proof. vm_compute. reflexivity. Qed.
Example ref_91 : fails (x1 <- mk_verse None [VBook Matt; VInt 2; VInt 22] ;; is_last_in_chap E x1 None).
Proof. vm_compute. reflexivity. Qed.
Example ref_93 : holds (x1 <- mk_verse None [VBook Matt; VInt 1; VInt 1] ;; is_first_in_book E x1 None None).
Proof. vm_compute. reflexivity. Qed.
Example ref_94 : fails (x1 <- mk_verse None [VBook Matt; VInt 1; VInt 2] ;; is_first_in_book E x1 None None).
Proof. vm_compute. reflexivity. Qed.
Example ref_95 : holds (x1 <- mk_verse None [VBook Matt; VInt 28; VInt 20] ;; is_last_in_book E x1 None).
Proof. vm_compute. reflexivity. Qed.
Example ref_96 : fails (x1 <- mk_verse None [VBook Matt; VInt 28; VInt 19] ;; is_last_in_book E x1 None).
Proof. vm_compute. reflexivity. Qed.

(** test_verse_ranges: test/test_reference.py 98-101. *)
Example ref_100 : agree (x1 <- mk_verse None [VStr (s2l "Matt 3:8")] ;; v_chap_range E x1 None) (mk_range None [VStr (s2l "Matt 3")]).
Proof. vm_compute. reflexivity. Qed.
Example ref_101 : agree (x1 <- mk_verse None [VStr (s2l "Matt 3:8")] ;; v_book_range E x1 None) (mk_range None [VStr (s2l "Matt")]).
Proof. vm_compute. reflexivity. Qed.

(** test_verse_arithmetic: test/test_reference.py 103-123. *)
Example ref_104 : agree (x1 <- mk_verse None [VStr (s2l "Ps 3:8")] ;; some (op_add E x1 (OInt 1))) (mk_verse None [VStr (s2l "Ps 4:1")]).
Proof. vm_compute. reflexivity. Qed.
Example ref_105 : agree (x1 <- mk_verse None [VStr (s2l "Ps 4:1")] ;; got_verse (op_sub E x1 (OInt 1))) (mk_verse None [VStr (s2l "Ps 3:8")]).
Proof. vm_compute. reflexivity. Qed.
Example ref_106 : agree (x1 <- mk_verse None [VStr (s2l "Ps 3:8")] ;; x2 <- mk_verse None [VStr (s2l "Ps 4:1")] ;; got_int (op_sub E x1 (OVerse x2))) (Ok (-1)).
Proof. vm_compute. reflexivity. Qed.
Example ref_107 : agree (x1 <- mk_verse None [VStr (s2l "Ps 4:1")] ;; x2 <- mk_verse None [VStr (s2l "Ps 3:8")] ;; got_int (op_sub E x1 (OVerse x2))) (Ok 1).
Proof. vm_compute. reflexivity. Qed.
Example ref_109 : agree (x1 <- mk_verse None [VStr (s2l "Ps 3:8")] ;; some (add E x1 1 (Some VERSE_0))) (mk_verse (Some VERSE_0) [VStr (s2l "Ps 4:0")]).
Proof. vm_compute. reflexivity. Qed.
Example ref_111 : agree (x1 <- mk_verse (Some VERSE_0) [VStr (s2l "Ps 4:0")] ;; got_verse (op_sub E x1 (OInt 1))) (mk_verse None [VStr (s2l "Ps 3:8")]).
Proof. vm_compute. reflexivity. Qed.
Example ref_112 : agree (x1 <- mk_verse None [VStr (s2l "Ps 3:8")] ;; x2 <- mk_verse (Some VERSE_0) [VStr (s2l "Ps 4:0")] ;; subtract_verse E x1 x2 (Some VERSE_0)) (Ok (-1)).
Proof. vm_compute. reflexivity. Qed.
Example ref_114 : agree (x1 <- mk_verse (Some VERSE_0) [VStr (s2l "Ps 4:0")] ;; x2 <- mk_verse None [VStr (s2l "Ps 3:8")] ;; subtract_verse E x1 x2 (Some VERSE_0)) (Ok 1).
Proof. vm_compute. reflexivity. Qed.
Example ref_117 : agree (x1 <- mk_verse None [VStr (s2l "John 1:50")] ;; some (op_add E x1 (OInt 11))) (mk_verse None [VStr (s2l "John 2:10")]).
Proof. vm_compute. reflexivity. Qed.
Example ref_118 : agree (x1 <- mk_verse None [VStr (s2l "John 1:50")] ;; x2 <- mk_verse None [VStr (s2l "John 2:10")] ;; got_int (op_sub E x1 (OVerse x2))) (Ok (-11)).
Proof. vm_compute. reflexivity. Qed.
Example ref_119 : agree (x1 <- mk_verse None [VStr (s2l "John 2:10")] ;; x2 <- mk_verse None [VStr (s2l "John 1:50")] ;; got_int (op_sub E x1 (OVerse x2))) (Ok 11).
Proof. vm_compute. reflexivity. Qed.
Example ref_121 : agree (x1 <- mk_verse None [VStr (s2l "John 2:10")] ;; got_verse (op_sub E x1 (OInt 12))) (mk_verse None [VStr (s2l "John 1:49")]).
Proof. vm_compute. reflexivity. Qed.
Example ref_122 : agree (x1 <- mk_verse None [VStr (s2l "John 2:10")] ;; x2 <- mk_verse None [VStr (s2l "John 1:49")] ;; got_int (op_sub E x1 (OVerse x2))) (Ok 12).
Proof. vm_compute. reflexivity. Qed.
Example ref_123 : agree (x1 <- mk_verse None [VStr (s2l "John 1:49")] ;; x2 <- mk_verse None [VStr (s2l "John 2:10")] ;; got_int (op_sub E x1 (OVerse x2))) (Ok (-12)).
Proof. vm_compute. reflexivity. Qed.

(** test_bible_verse_to_string: test/test_reference.py 125-138. *)
Example ref_127 : agree (x1 <- mk_verse None [VBook Matt; VInt 5; VInt 3] ;; Ok (verse_text E x1)) (Ok (s2l "Matthew 5:3")).
Proof. vm_compute. reflexivity. Qed.
Example ref_128 : agree (x1 <- mk_verse None [VBook Matt; VInt 5; VInt 3] ;; Ok (verse_str E (Look true false false) x1 P_FULL_REF)) (Ok (s2l "Matt 5:3")).
Proof. vm_compute. reflexivity. Qed.
Example ref_129 : agree (x1 <- mk_verse None [VBook Matt; VInt 5; VInt 3] ;; Ok (verse_str E (Look false true false) x1 P_FULL_REF)) (Ok (s2l "Matthew 5.3")).
Proof. vm_compute. reflexivity. Qed.
Example ref_130 : agree (x1 <- mk_verse None [VBook Matt; VInt 5; VInt 3] ;; Ok (verse_str E (Look false false true) x1 P_FULL_REF)) (Ok (s2l "Matthew5:3")).
Proof. vm_compute. reflexivity. Qed.
Example ref_131 : agree (x1 <- mk_verse None [VBook Matt; VInt 5; VInt 3] ;; Ok (verse_str E (Look false false false) x1 P_CHAP_VERSE)) (Ok (s2l "5:3")).
Proof. vm_compute. reflexivity. Qed.
Example ref_134 : agree (x1 <- mk_verse None [VBook IIIJn; VInt 1; VInt 4] ;; Ok (verse_text E x1)) (Ok (s2l "3 John 4")).
Proof. vm_compute. reflexivity. Qed.
Example ref_135 : agree (x1 <- mk_verse None [VBook IIIJn; VInt 1; VInt 4] ;; Ok (verse_str E (Look true false false) x1 P_FULL_REF)) (Ok (s2l "3Jn 4")).
Proof. vm_compute. reflexivity. Qed.
Example ref_136 : agree (x1 <- mk_verse None [VBook IIIJn; VInt 1; VInt 4] ;; Ok (verse_str E (Look false false false) x1 P_FULL_REF)) (Ok (s2l "3 John 4")).
Proof. vm_compute. reflexivity. Qed.
Example ref_137 : agree (x1 <- mk_verse None [VBook IIIJn; VInt 1; VInt 4] ;; Ok (verse_str E (Look false false true) x1 P_FULL_REF)) (Ok (s2l "3John4")).
Proof. vm_compute. reflexivity. Qed.
Example ref_138 : agree (x1 <- mk_verse None [VBook IIIJn; VInt 1; VInt 4] ;; Ok (verse_str E (Look false false false) x1 P_CHAP_VERSE)) (Ok (s2l "4")).
Proof. vm_compute. reflexivity. Qed.

(** test_bible_ranges: test/test_reference.py 140-211. *)
Example ref_142 : agree (mk_range None [VBook Matt; VNone; VNone; VNone; VNone; VNone]) (mk_range None [VBook Matt; VInt 1; VInt 1; VBook Matt; VInt 28; VInt 20]).
Proof. vm_compute. reflexivity. Qed.
Example ref_143 : agree (mk_range None [VBook Matt; VInt 2; VNone; VNone; VNone; VNone]) (mk_range None [VBook Matt; VInt 2; VInt 1; VBook Matt; VInt 2; VInt 23]).
Proof. vm_compute. reflexivity. Qed.
Example ref_144 : agree (mk_range None [VBook Matt; VInt 2; VInt 3; VNone; VNone; VNone]) (mk_range None [VBook Matt; VInt 2; VInt 3; VBook Matt; VInt 2; VInt 3]).
Proof. vm_compute. reflexivity. Qed.
Example ref_145 : agree (mk_range (Some MULTIBOOK) [VBook Matt; VNone; VNone; VBook John; VNone; VNone]) (mk_range (Some MULTIBOOK) [VBook Matt; VInt 1; VInt 1; VBook John; VInt 21; VInt 25]).
Proof. vm_compute. reflexivity. Qed.
Example ref_146 : agree (mk_range (Some MULTIBOOK) [VBook Matt; VInt 2; VNone; VBook John; VNone; VNone]) (mk_range (Some MULTIBOOK) [VBook Matt; VInt 2; VInt 1; VBook John; VInt 21; VInt 25]).
Proof. vm_compute. reflexivity. Qed.
Example ref_147 : agree (mk_range (Some MULTIBOOK) [VBook Matt; VInt 2; VInt 3; VBook John; VNone; VNone]) (mk_range (Some MULTIBOOK) [VBook Matt; VInt 2; VInt 3; VBook John; VInt 21; VInt 25]).
Proof. vm_compute. reflexivity. Qed.
Example ref_148 : agree (mk_range None [VBook Matt; VNone; VNone; VNone; VInt 4; VNone]) (mk_range None [VBook Matt; VInt 1; VInt 1; VBook Matt; VInt 4; VInt 25]).
Proof. vm_compute. reflexivity. Qed.
Example ref_149 : agree (mk_range None [VBook Matt; VInt 2; VNone; VNone; VInt 4; VNone]) (mk_range None [VBook Matt; VInt 2; VInt 1; VBook Matt; VInt 4; VInt 25]).
Proof. vm_compute. reflexivity. Qed.
Example ref_150 : agree (mk_range None [VBook Matt; VInt 2; VInt 3; VNone; VInt 4; VNone]) (mk_range None [VBook Matt; VInt 2; VInt 3; VBook Matt; VInt 4; VInt 25]).
Proof. vm_compute. reflexivity. Qed.
Example ref_151 : agree (mk_range None [VBook Matt; VNone; VNone; VNone; VNone; VInt 6]) (mk_range None [VBook Matt; VInt 1; VInt 1; VBook Matt; VInt 1; VInt 6]).
Proof. vm_compute. reflexivity. Qed.
Example ref_152 : agree (mk_range None [VBook Matt; VInt 2; VNone; VNone; VNone; VInt 6]) (mk_range None [VBook Matt; VInt 2; VInt 1; VBook Matt; VInt 2; VInt 6]).
Proof. vm_compute. reflexivity. Qed.
Example ref_153 : agree (mk_range None [VBook Matt; VInt 2; VInt 3; VNone; VNone; VInt 6]) (mk_range None [VBook Matt; VInt 2; VInt 3; VBook Matt; VInt 2; VInt 6]).
Proof. vm_compute. reflexivity. Qed.
Example ref_154 : agree (mk_range (Some MULTIBOOK) [VBook Matt; VNone; VNone; VBook John; VInt 5; VNone]) (mk_range (Some MULTIBOOK) [VBook Matt; VInt 1; VInt 1; VBook John; VInt 5; VInt 47]).
Proof. vm_compute. reflexivity. Qed.
Example ref_155 : agree (mk_range (Some MULTIBOOK) [VBook Matt; VInt 2; VNone; VBook John; VInt 5; VNone]) (mk_range (Some MULTIBOOK) [VBook Matt; VInt 2; VInt 1; VBook John; VInt 5; VInt 47]).
Proof. vm_compute. reflexivity. Qed.
Example ref_156 : agree (mk_range (Some MULTIBOOK) [VBook Matt; VInt 2; VInt 3; VBook John; VInt 5; VNone]) (mk_range (Some MULTIBOOK) [VBook Matt; VInt 2; VInt 3; VBook John; VInt 5; VInt 47]).
Proof. vm_compute. reflexivity. Qed.
Example ref_157 : agree (mk_range None [VBook Matt; VNone; VNone; VNone; VInt 6; VInt 7]) (mk_range None [VBook Matt; VInt 1; VInt 1; VBook Matt; VInt 6; VInt 7]).
Proof. vm_compute. reflexivity. Qed.
Example ref_158 : agree (mk_range None [VBook Matt; VInt 2; VNone; VNone; VInt 6; VInt 7]) (mk_range None [VBook Matt; VInt 2; VInt 1; VBook Matt; VInt 6; VInt 7]).
Proof. vm_compute. reflexivity. Qed.
Example ref_159 : agree (mk_range None [VBook Matt; VInt 2; VInt 3; VNone; VInt 6; VInt 7]) (mk_range None [VBook Matt; VInt 2; VInt 3; VBook Matt; VInt 6; VInt 7]).
Proof. vm_compute. reflexivity. Qed.
Example ref_160 : agree (mk_range (Some MULTIBOOK) [VBook Matt; VNone; VNone; VBook John; VInt 8; VInt 10]) (mk_range (Some MULTIBOOK) [VBook Matt; VInt 1; VInt 1; VBook John; VInt 8; VInt 10]).
Proof. vm_compute. reflexivity. Qed.
Example ref_161 : agree (mk_range (Some MULTIBOOK) [VBook Matt; VInt 2; VNone; VBook John; VInt 8; VInt 10]) (mk_range (Some MULTIBOOK) [VBook Matt; VInt 2; VInt 1; VBook John; VInt 8; VInt 10]).
Proof. vm_compute. reflexivity. Qed.
Example ref_162 : agree (mk_range (Some MULTIBOOK) [VBook Matt; VInt 2; VInt 3; VBook John; VInt 8; VInt 10]) (mk_range (Some MULTIBOOK) [VBook Matt; VInt 2; VInt 3; VBook John; VInt 8; VInt 10]).
Proof. vm_compute. reflexivity. Qed.
Example ref_163 : raises InvalidRef (mk_range None [VBook Matt; VNone; VInt 3; VNone; VNone; VNone]).
Proof. vm_compute. reflexivity. Qed.
Example ref_164 : raises InvalidRef (mk_range None [VBook Matt; VNone; VNone; VBook John; VNone; VInt 6]).
Proof. vm_compute. reflexivity. Qed.
Example ref_168 : agree (mk_range None [VStr (s2l "Matt 2:3-4:5")]) (x2 <- (x1 <- mk_range None [VStr (s2l "Matt 2:3-4:5")] ;; Ok (VRange x1)) ;; mk_range None [x2]).
Proof. vm_compute. reflexivity. Qed.
Example ref_171 : agree (mk_range None [VStr (s2l "Matt 2:3-4:5")]) (x3 <- (x1 <- mk_verse None [VStr (s2l "Matt 2:3")] ;; Ok (VVerse x1)) ;; x4 <- (x2 <- mk_verse None [VStr (s2l "Matt 4:5")] ;; Ok (VVerse x2)) ;; mk_range_ends None x3 x4).
Proof. vm_compute. reflexivity. Qed.
Example ref_175 : agree (mk_range (Some MULTIBOOK) [VStr (s2l "Matt"); VInt 2; VInt 3; VStr (s2l "Mark"); VInt 4; VInt 5]) (mk_range (Some MULTIBOOK) [VBook Matt; VInt 2; VInt 3; VBook Mark; VInt 4; VInt 5]).
Proof. vm_compute. reflexivity. Qed.
Example ref_177 : agree (mk_range (Some MULTIBOOK) [VStr (s2l "Matthew 2:3-Mark 4:5")]) (mk_range (Some MULTIBOOK) [VBook Matt; VInt 2; VInt 3; VBook Mark; VInt 4; VInt 5]).
Proof. vm_compute. reflexivity. Qed.
Example ref_179 : raises InvalidRef (mk_range None [VStr (s2l "Matthew 2:3-4:5; Mark 5:6")]).
Proof. vm_compute. reflexivity. Qed.
Example ref_182 : agree (mk_range (Some MULTIBOOK) [VStr (s2l "Matt-Mark")]) (mk_range (Some MULTIBOOK) [VBook Matt; VNone; VNone; VBook Mark]).
Proof. vm_compute. reflexivity. Qed.
Example ref_184 : raises Multibook (mk_range (Some NONE) [VBook Matt; VNone; VNone; VBook Mark]).
Proof. vm_compute. reflexivity. Qed.
Example ref_188 : agree (mk_range (Some VERSE_0) [VStr (s2l "Psa 3:0-3")]) (mk_range (Some VERSE_0) [VBook Psa; VInt 3; VInt 0; VNone; VNone; VInt 3]).
Proof. vm_compute. reflexivity. Qed.
Example ref_190 : raises InvalidRef (mk_range (Some NONE) [VBook Psa; VInt 3; VInt 0; VNone; VNone; VInt 3]).
Proof. vm_compute. reflexivity. Qed.
Example ref_194 : agree (mk_range None [VStr (s2l "Matt 2:3-4:5")]) (x3 <- (x1 <- mk_verse None [VStr (s2l "Matt 4:5")] ;; Ok (VVerse x1)) ;; x4 <- (x2 <- mk_verse None [VStr (s2l "Matt 2:3")] ;; Ok (VVerse x2)) ;; mk_range_ends None x3 x4).
Proof. vm_compute. reflexivity. Qed.
Example ref_196 : raises InvalidRef (mk_range None [VNone; VNone; VNone; VBook Matt; VNone; VNone]).
Proof. vm_compute. reflexivity. Qed.
Example ref_197 : agree (mk_range (Some MULTIBOOK) [VBook John; VNone; VNone; VBook Matt; VNone; VNone]) (mk_range (Some MULTIBOOK) [VStr (s2l "Matt-John")]).
Proof. vm_compute. reflexivity. Qed.
Example ref_198 : agree (mk_range (Some MULTIBOOK) [VBook John; VNone; VNone; VBook Matt; VInt 2; VNone]) (mk_range (Some MULTIBOOK) [VStr (s2l "Matt 2-John")]).
Proof. vm_compute. reflexivity. Qed.
Example ref_199 : agree (mk_range (Some MULTIBOOK) [VBook John; VNone; VNone; VBook Matt; VInt 2; VInt 3]) (mk_range (Some MULTIBOOK) [VStr (s2l "Matt 2:3-John")]).
Proof. vm_compute. reflexivity. Qed.
Example ref_200 : agree (mk_range None [VBook Matt; VInt 4; VNone; VNone; VInt 2; VNone]) (mk_range None [VStr (s2l "Matt 2-4")]).
Proof. vm_compute. reflexivity. Qed.
Example ref_201 : agree (mk_range None [VBook Matt; VInt 4; VNone; VNone; VInt 2; VInt 3]) (mk_range None [VStr (s2l "Matt 2:3-Matt 4")]).
Proof. vm_compute. reflexivity. Qed.
Example ref_202 : raises InvalidRef (mk_range None [VBook Matt; VNone; VInt 6; VNone; VNone; VNone]).
Proof. vm_compute. reflexivity. Qed.
Example ref_203 : agree (mk_range None [VBook Matt; VInt 2; VInt 6; VNone; VNone; VInt 3]) (mk_range None [VStr (s2l "Matt 2:3-6")]).
Proof. vm_compute. reflexivity. Qed.
Example ref_204 : agree (mk_range (Some MULTIBOOK) [VBook John; VInt 5; VNone; VBook Matt; VNone; VNone]) (mk_range (Some MULTIBOOK) [VStr (s2l "Matt-John 5")]).
Proof. vm_compute. reflexivity. Qed.
Example ref_205 : agree (mk_range (Some MULTIBOOK) [VBook John; VInt 5; VNone; VBook Matt; VInt 2; VNone]) (mk_range (Some MULTIBOOK) [VStr (s2l "Matt 2-John 5")]).
Proof. vm_compute. reflexivity. Qed.
Example ref_206 : agree (mk_range (Some MULTIBOOK) [VBook John; VInt 5; VNone; VBook Matt; VInt 2; VInt 3]) (mk_range (Some MULTIBOOK) [VStr (s2l "Matt 2:3-John 5")]).
Proof. vm_compute. reflexivity. Qed.
Example ref_207 : agree (mk_range None [VBook Matt; VInt 6; VInt 7; VNone; VInt 2; VNone]) (mk_range None [VStr (s2l "Matt 2-6:7")]).
Proof. vm_compute. reflexivity. Qed.
Example ref_208 : agree (mk_range None [VBook Matt; VInt 6; VInt 7; VNone; VInt 2; VInt 3]) (mk_range None [VStr (s2l "Matt 2:3-6:7")]).
Proof. vm_compute. reflexivity. Qed.
Example ref_209 : agree (mk_range (Some MULTIBOOK) [VBook John; VInt 8; VInt 10; VBook Matt; VNone; VNone]) (mk_range (Some MULTIBOOK) [VStr (s2l "Matt-John 8:10")]).
Proof. vm_compute. reflexivity. Qed.
Example ref_210 : agree (mk_range (Some MULTIBOOK) [VBook John; VInt 8; VInt 10; VBook Matt; VInt 2; VNone]) (mk_range (Some MULTIBOOK) [VStr (s2l "Matt 2-John 8:10")]).
Proof. vm_compute. reflexivity. Qed.
Example ref_211 : agree (mk_range (Some MULTIBOOK) [VBook John; VInt 8; VInt 10; VBook Matt; VInt 2; VInt 3]) (mk_range (Some MULTIBOOK) [VStr (s2l "Matt 2:3-John 8:10")]).
Proof. vm_compute. reflexivity. Qed.

(** test_bibleref_flags: test/test_reference.py 213-223. *)
Example ref_216 : raises Multibook (mk_range None [VBook Matt; VNone; VNone; VBook John]).
Proof. vm_compute. reflexivity. Qed.
Example ref_217 : raises InvalidRef (mk_verse None [VBook Psa; VInt 3; VInt 0]).
Proof. vm_compute. reflexivity. Qed.

(** test_whole_bible: test/test_reference.py 225-226. *)
Example ref_226 : agree (whole_bible E None) (mk_range (Some MULTIBOOK) [VStr (s2l "Gen-Rev")]).
Proof. vm_compute. reflexivity. Qed.

(** test_bible_range_comparison: test/test_reference.py 228-257. *)
Example ref_229 : holds (x1 <- mk_range None [VStr (s2l "Matt 2:3-4:5")] ;; x2 <- mk_range None [VStr (s2l "Matt 2:3-4:6")] ;; Ok (rltb E x1 x2)).
Proof. vm_compute. reflexivity. Qed.
Example ref_230 : holds (x1 <- mk_range None [VStr (s2l "Matt 2:3-4:5")] ;; x2 <- mk_range None [VStr (s2l "Matt 2:3-4:6")] ;; Ok (rleb E x1 x2)).
Proof. vm_compute. reflexivity. Qed.
Example ref_231 : fails (x1 <- mk_range None [VStr (s2l "Matt 2:3-4:5")] ;; x2 <- mk_range None [VStr (s2l "Matt 2:3-4:6")] ;; Ok (range_eqb x1 x2)).
Proof. vm_compute. reflexivity. Qed.
Example ref_232 : fails (x1 <- mk_range None [VStr (s2l "Matt 2:3-4:5")] ;; x2 <- mk_range None [VStr (s2l "Matt 2:3-4:6")] ;; Ok (rleb E x2 x1)).
Proof. vm_compute. reflexivity. Qed.
Example ref_233 : fails (x1 <- mk_range None [VStr (s2l "Matt 2:3-4:5")] ;; x2 <- mk_range None [VStr (s2l "Matt 2:3-4:6")] ;; Ok (rltb E x2 x1)).
Proof. vm_compute. reflexivity. Qed.
Example ref_235 : holds (x1 <- mk_range None [VStr (s2l "Matt 2:3-4:5")] ;; x2 <- mk_range None [VStr (s2l "Matt 2:3-5:1")] ;; Ok (rltb E x1 x2)).
Proof. vm_compute. reflexivity. Qed.
Example ref_236 : holds (x1 <- mk_range None [VStr (s2l "Matt 2:3-4:5")] ;; x2 <- mk_range None [VStr (s2l "Matt 2:3-5:1")] ;; Ok (rleb E x1 x2)).
Proof. vm_compute. reflexivity. Qed.
Example ref_237 : fails (x1 <- mk_range None [VStr (s2l "Matt 2:3-4:5")] ;; x2 <- mk_range None [VStr (s2l "Matt 2:3-5:1")] ;; Ok (range_eqb x1 x2)).
Proof. vm_compute. reflexivity. Qed.
Example ref_238 : fails (x1 <- mk_range None [VStr (s2l "Matt 2:3-4:5")] ;; x2 <- mk_range None [VStr (s2l "Matt 2:3-5:1")] ;; Ok (rleb E x2 x1)).
Proof. vm_compute. reflexivity. Qed.
Example ref_239 : fails (x1 <- mk_range None [VStr (s2l "Matt 2:3-4:5")] ;; x2 <- mk_range None [VStr (s2l "Matt 2:3-5:1")] ;; Ok (rltb E x2 x1)).
Proof. vm_compute. reflexivity. Qed.
Example ref_241 : holds (x1 <- mk_range None [VStr (s2l "Matt 2:3-4:5")] ;; x2 <- mk_range None [VStr (s2l "Matt 2:4-3:1")] ;; Ok (rltb E x1 x2)).
Proof. vm_compute. reflexivity. Qed.
Example ref_242 : holds (x1 <- mk_range None [VStr (s2l "Matt 2:3-4:5")] ;; x2 <- mk_range None [VStr (s2l "Matt 2:4-3:1")] ;; Ok (rleb E x1 x2)).
Proof. vm_compute. reflexivity. Qed.
Example ref_243 : fails (x1 <- mk_range None [VStr (s2l "Matt 2:3-4:5")] ;; x2 <- mk_range None [VStr (s2l "Matt 2:4-3:1")] ;; Ok (range_eqb x1 x2)).
Proof. vm_compute. reflexivity. Qed.
Example ref_244 : fails (x1 <- mk_range None [VStr (s2l "Matt 2:3-4:5")] ;; x2 <- mk_range None [VStr (s2l "Matt 2:4-3:1")] ;; Ok (rleb E x2 x1)).
Proof. vm_compute. reflexivity. Qed.
Example ref_245 : fails (x1 <- mk_range None [VStr (s2l "Matt 2:3-4:5")] ;; x2 <- mk_range None [VStr (s2l "Matt 2:4-3:1")] ;; Ok (rltb E x2 x1)).
Proof. vm_compute. reflexivity. Qed.
Example ref_247 : holds (x1 <- mk_range None [VStr (s2l "Matt 2:3-4:5")] ;; x2 <- mk_range None [VStr (s2l "Matt 3:1-3:2")] ;; Ok (rltb E x1 x2)).
Proof. vm_compute. reflexivity. Qed.
Example ref_248 : holds (x1 <- mk_range None [VStr (s2l "Matt 2:3-4:5")] ;; x2 <- mk_range None [VStr (s2l "Matt 3:1-3:2")] ;; Ok (rleb E x1 x2)).
Proof. vm_compute. reflexivity. Qed.
Example ref_249 : fails (x1 <- mk_range None [VStr (s2l "Matt 2:3-4:5")] ;; x2 <- mk_range None [VStr (s2l "Matt 3:1-3:3")] ;; Ok (range_eqb x1 x2)).
Proof. vm_compute. reflexivity. Qed.
Example ref_250 : fails (x1 <- mk_range None [VStr (s2l "Matt 2:3-4:5")] ;; x2 <- mk_range None [VStr (s2l "Matt 3:1-3:3")] ;; Ok (rleb E x2 x1)).
Proof. vm_compute. reflexivity. Qed.
Example ref_251 : fails (x1 <- mk_range None [VStr (s2l "Matt 2:3-4:5")] ;; x2 <- mk_range None [VStr (s2l "Matt 3:1-3:3")] ;; Ok (rltb E x2 x1)).
Proof. vm_compute. reflexivity. Qed.
Example ref_253 : holds (x1 <- mk_range None [VStr (s2l "Matt 2:3-4:5")] ;; x2 <- mk_range None [VStr (s2l "Mark 1:2-3:4")] ;; Ok (rltb E x1 x2)).
Proof. vm_compute. reflexivity. Qed.
Example ref_254 : holds (x1 <- mk_range None [VStr (s2l "Matt 2:3-4:5")] ;; x2 <- mk_range None [VStr (s2l "Mark 1:2-3:4")] ;; Ok (rleb E x1 x2)).
Proof. vm_compute. reflexivity. Qed.
Example ref_255 : fails (x1 <- mk_range None [VStr (s2l "Matt 2:3-4:5")] ;; x2 <- mk_range None [VStr (s2l "Mark 1:2-3:4")] ;; Ok (range_eqb x1 x2)).
Proof. vm_compute. reflexivity. Qed.
Example ref_256 : fails (x1 <- mk_range None [VStr (s2l "Matt 2:3-4:5")] ;; x2 <- mk_range None [VStr (s2l "Mark 1:2-3:4")] ;; Ok (rleb E x2 x1)).
Proof. vm_compute. reflexivity. Qed.
Example ref_257 : fails (x1 <- mk_range None [VStr (s2l "Matt 2:3-4:5")] ;; x2 <- mk_range None [VStr (s2l "Mark 1:2-3:4")] ;; Ok (rltb E x2 x1)).
Proof. vm_compute. reflexivity. Qed.

(** test_bible_range_verse_0: test/test_reference.py 259-266. *)
Example ref_263 : agree (x1 <- mk_range (Some VERSE_0) [VStr (s2l "Ps 3:0-4:0")] ;; r_verse_0_to_1 E x1) (mk_range (Some VERSE_0) [VStr (s2l "Ps 3:1-4:1")]).
Proof. vm_compute. reflexivity. Qed.
Example ref_264 : agree (x1 <- mk_range (Some VERSE_0) [VStr (s2l "Ps 3:1-4:1")] ;; r_verse_1_to_0 E x1) (mk_range (Some VERSE_0) [VStr (s2l "Ps 3:0-4:0")]).
Proof. vm_compute. reflexivity. Qed.
Example ref_265 : agree (x1 <- mk_range None [VStr (s2l "Matt 2:3-4:5")] ;; r_verse_0_to_1 E x1) (mk_range None [VStr (s2l "Matt 2:3-4:5")]).
Proof. vm_compute. reflexivity. Qed.
Example ref_266 : agree (x1 <- mk_range None [VStr (s2l "Matt 2:3-4:5")] ;; r_verse_1_to_0 E x1) (mk_range None [VStr (s2l "Matt 2:3-4:5")]).
Proof. vm_compute. reflexivity. Qed.

(** test_range_iteration: test/test_reference.py 268-296. *)
Example ref_278 : agree (x1 <- mk_range (Some MULTIBOOK) [VBook Matt; VInt 28; VInt 18; VBook Mark; VInt 1; VInt 3] ;; iter_range E F x1) (x1 <- mk_verse None [VBook Matt; VInt 28; VInt 18] ;; x2 <- mk_verse None [VBook Matt; VInt 28; VInt 19] ;; x3 <- mk_verse None [VBook Matt; VInt 28; VInt 20] ;; x4 <- mk_verse None [VBook Mark; VInt 1; VInt 1] ;; x5 <- mk_verse None [VBook Mark; VInt 1; VInt 2] ;; x6 <- mk_verse None [VBook Mark; VInt 1; VInt 3] ;; Ok [x1; x2; x3; x4; x5; x6]).
Proof. vm_compute. reflexivity. Qed.
Example ref_286 : agree (x1 <- mk_range None [VBook Matt; VInt 28; VInt 18; VNone; VInt 28; VInt 20] ;; iter_range E F x1) (x1 <- mk_verse None [VBook Matt; VInt 28; VInt 18] ;; x2 <- mk_verse None [VBook Matt; VInt 28; VInt 19] ;; x3 <- mk_verse None [VBook Matt; VInt 28; VInt 20] ;; Ok [x1; x2; x3]).
Proof. vm_compute. reflexivity. Qed.
Example ref_296 : agree (x1 <- mk_range None [VBook Rev; VInt 22; VInt 19; VNone; VInt 22; VInt 21] ;; iter_range E F x1) (x1 <- mk_verse None [VBook Rev; VInt 22; VInt 19] ;; x2 <- mk_verse None [VBook Rev; VInt 22; VInt 20] ;; x3 <- mk_verse None [VBook Rev; VInt 22; VInt 21] ;; Ok [x1; x2; x3]).
Proof. vm_compute. reflexivity. Qed.

(** test_range_ranges: test/test_reference.py 298-301. *)
Example ref_300 : agree (x1 <- mk_range (Some MULTIBOOK) [VStr (s2l "Matt 3:8-John 4:9")] ;; r_chap_range E x1 None) (mk_range (Some MULTIBOOK) [VStr (s2l "Matt 3-John 4")]).
Proof. vm_compute. reflexivity. Qed.
Example ref_301 : agree (x1 <- mk_range (Some MULTIBOOK) [VStr (s2l "Matt 3:8-John 4:9")] ;; r_book_range E x1 None) (mk_range (Some MULTIBOOK) [VStr (s2l "Matt-John")]).
Proof. vm_compute. reflexivity. Qed.

(** test_range_counts: test/test_reference.py 303-334. *)
Example ref_306 : agree (x1 <- mk_range (Some MULTIBOOK) [VStr (s2l "1 John 1:5-3 John 8")] ;; verse_count E x1 None) (Ok 122).
Proof. vm_compute. reflexivity. Qed.
Example ref_307 : agree (x1 <- mk_range (Some MULTIBOOK) [VStr (s2l "1 John 1:5-3 John 8")] ;; r_chap_count E x1 false None) (Ok 7).
Proof. vm_compute. reflexivity. Qed.
Example ref_308 : agree (x1 <- mk_range (Some MULTIBOOK) [VStr (s2l "1 John 1:5-3 John 8")] ;; r_chap_count E x1 true None) (Ok 5).
Proof. vm_compute. reflexivity. Qed.
Example ref_309 : agree (x1 <- mk_range (Some MULTIBOOK) [VStr (s2l "1 John 1:5-3 John 8")] ;; r_book_count E x1 false None) (Ok 3).
Proof. vm_compute. reflexivity. Qed.
Example ref_310 : agree (x1 <- mk_range (Some MULTIBOOK) [VStr (s2l "1 John 1:5-3 John 8")] ;; r_book_count E x1 true None) (Ok 1).
Proof. vm_compute. reflexivity. Qed.
Example ref_314 : agree (x1 <- mk_range (Some MULTIBOOK) [VStr (s2l "1 John 1:5-3:10")] ;; verse_count E x1 None) (Ok 45).
Proof. vm_compute. reflexivity. Qed.
Example ref_315 : agree (x1 <- mk_range (Some MULTIBOOK) [VStr (s2l "1 John 1:5-3:10")] ;; r_chap_count E x1 false None) (Ok 3).
Proof. vm_compute. reflexivity. Qed.
Example ref_316 : agree (x1 <- mk_range (Some MULTIBOOK) [VStr (s2l "1 John 1:5-3:10")] ;; r_chap_count E x1 true None) (Ok 1).
Proof. vm_compute. reflexivity. Qed.
Example ref_317 : agree (x1 <- mk_range (Some MULTIBOOK) [VStr (s2l "1 John 1:5-3:10")] ;; r_book_count E x1 false None) (Ok 1).
Proof. vm_compute. reflexivity. Qed.
Example ref_318 : agree (x1 <- mk_range (Some MULTIBOOK) [VStr (s2l "1 John 1:5-3:10")] ;; r_book_count E x1 true None) (Ok 0).
Proof. vm_compute. reflexivity. Qed.
Example ref_322 : agree (x1 <- mk_range (Some MULTIBOOK) [VStr (s2l "1 John 1:5-2:11")] ;; verse_count E x1 None) (Ok 17).
Proof. vm_compute. reflexivity. Qed.
Example ref_323 : agree (x1 <- mk_range (Some MULTIBOOK) [VStr (s2l "1 John 1:5-2:11")] ;; r_chap_count E x1 false None) (Ok 2).
Proof. vm_compute. reflexivity. Qed.
Example ref_324 : agree (x1 <- mk_range (Some MULTIBOOK) [VStr (s2l "1 John 1:5-2:11")] ;; r_chap_count E x1 true None) (Ok 0).
Proof. vm_compute. reflexivity. Qed.
Example ref_325 : agree (x1 <- mk_range (Some MULTIBOOK) [VStr (s2l "1 John 1:5-2:11")] ;; r_book_count E x1 false None) (Ok 1).
Proof. vm_compute. reflexivity. Qed.
Example ref_326 : agree (x1 <- mk_range (Some MULTIBOOK) [VStr (s2l "1 John 1:5-2:11")] ;; r_book_count E x1 true None) (Ok 0).
Proof. vm_compute. reflexivity. Qed.
Example ref_330 : agree (x1 <- mk_range None [VStr (s2l "3 John 5-10")] ;; verse_count E x1 None) (Ok 6).
Proof. vm_compute. reflexivity. Qed.
Example ref_331 : agree (x1 <- mk_range None [VStr (s2l "3 John 5-10")] ;; r_chap_count E x1 false None) (Ok 1).
Proof. vm_compute. reflexivity. Qed.
Example ref_332 : agree (x1 <- mk_range None [VStr (s2l "3 John 5-10")] ;; r_chap_count E x1 true None) (Ok 0).
Proof. vm_compute. reflexivity. Qed.
Example ref_333 : agree (x1 <- mk_range None [VStr (s2l "3 John 5-10")] ;; r_book_count E x1 false None) (Ok 1).
Proof. vm_compute. reflexivity. Qed.
Example ref_334 : agree (x1 <- mk_range None [VStr (s2l "3 John 5-10")] ;; r_book_count E x1 true None) (Ok 0).
Proof. vm_compute. reflexivity. Qed.

(** test_range_split: test/test_reference.py 336-355. *)
Example ref_339 : agree (x1 <- mk_range (Some MULTIBOOK) [VStr (s2l "Matt 1:5-John 10:11")] ;; split E F x1 false false None true None) (mk_list (Some MULTIBOOK) [VStr (s2l "Matt 1:5-John 10:11")]).
Proof. vm_compute. reflexivity. Qed.
Example ref_343 : agree (x1 <- mk_range (Some MULTIBOOK) [VStr (s2l "Matt 1:5-John 10:11")] ;; split E F x1 true false None true None) (mk_list None [VStr (s2l "Matt 1:5-28:20; Mark; Luke; John 1-10:11")]).
Proof. vm_compute. reflexivity. Qed.
Example ref_347 : agree (x1 <- mk_range None [VStr (s2l "John 1:11-10:5")] ;; split E F x1 false true None true None) (mk_list None [VStr (s2l "John 1:11-51; 2; 3; 4; 5; 6; 7; 8; 9; 10:1-5")]).
Proof. vm_compute. reflexivity. Qed.
Example ref_351 : agree (x1 <- mk_range None [VStr (s2l "John 1:1-11")] ;; split E F x1 false false (Some 10) true None) (mk_list None [VStr (s2l "John 1:1-10, 11")]).
Proof. vm_compute. reflexivity. Qed.
Example ref_355 : agree (x1 <- mk_range None [VStr (s2l "John 1:11-10:5")] ;; split E F x1 false false (Some 100) true None) (mk_list None [VStr (s2l "John 1:11-3:34; 3:35-5:44; 5:45-7:26; 7:27-9:14; 9:15-10:5")]).
Proof. vm_compute. reflexivity. Qed.

(** test_range_is_disjoint: test/test_reference.py 357-375. *)
Example ref_360 : holds (x2 <- mk_range None [VStr (s2l "Matt 1:10-15")] ;; x3 <- (x1 <- mk_verse None [VStr (s2l "Matt 1:9")] ;; Ok (BV x1)) ;; r_is_disjoint E x2 x3).
Proof. vm_compute. reflexivity. Qed.
Example ref_361 : fails (x2 <- mk_range None [VStr (s2l "Matt 1:10-15")] ;; x3 <- (x1 <- mk_verse None [VStr (s2l "Matt 1:10")] ;; Ok (BV x1)) ;; r_is_disjoint E x2 x3).
Proof. vm_compute. reflexivity. Qed.
Example ref_363 : holds (x2 <- mk_range None [VStr (s2l "Matt 1:10-15")] ;; x3 <- (x1 <- mk_range None [VStr (s2l "Matt 1:5-9")] ;; Ok (BR x1)) ;; r_is_disjoint E x2 x3).
Proof. vm_compute. reflexivity. Qed.
Example ref_364 : fails (x2 <- mk_range None [VStr (s2l "Matt 1:10-15")] ;; x3 <- (x1 <- mk_range None [VStr (s2l "Matt 1:5-10")] ;; Ok (BR x1)) ;; r_is_disjoint E x2 x3).
Proof. vm_compute. reflexivity. Qed.
Example ref_365 : fails (x2 <- mk_range None [VStr (s2l "Matt 1:10-15")] ;; x3 <- (x1 <- mk_range None [VStr (s2l "Matt 1:5-11")] ;; Ok (BR x1)) ;; r_is_disjoint E x2 x3).
Proof. vm_compute. reflexivity. Qed.
Example ref_366 : fails (x2 <- mk_range None [VStr (s2l "Matt 1:10-15")] ;; x3 <- (x1 <- mk_range None [VStr (s2l "Matt 1:10-12")] ;; Ok (BR x1)) ;; r_is_disjoint E x2 x3).
Proof. vm_compute. reflexivity. Qed.
Example ref_367 : fails (x2 <- mk_range None [VStr (s2l "Matt 1:10-15")] ;; x3 <- (x1 <- mk_range None [VStr (s2l "Matt 1:11-14")] ;; Ok (BR x1)) ;; r_is_disjoint E x2 x3).
Proof. vm_compute. reflexivity. Qed.
Example ref_368 : fails (x2 <- mk_range None [VStr (s2l "Matt 1:10-15")] ;; x3 <- (x1 <- mk_range None [VStr (s2l "Matt 1:13-15")] ;; Ok (BR x1)) ;; r_is_disjoint E x2 x3).
Proof. vm_compute. reflexivity. Qed.
Example ref_369 : fails (x2 <- mk_range None [VStr (s2l "Matt 1:10-15")] ;; x3 <- (x1 <- mk_range None [VStr (s2l "Matt 1:10-15")] ;; Ok (BR x1)) ;; r_is_disjoint E x2 x3).
Proof. vm_compute. reflexivity. Qed.
Example ref_370 : fails (x2 <- mk_range None [VStr (s2l "Matt 1:10-15")] ;; x3 <- (x1 <- mk_range None [VStr (s2l "Matt 1:14-20")] ;; Ok (BR x1)) ;; r_is_disjoint E x2 x3).
Proof. vm_compute. reflexivity. Qed.
Example ref_371 : fails (x2 <- mk_range None [VStr (s2l "Matt 1:10-15")] ;; x3 <- (x1 <- mk_range None [VStr (s2l "Matt 1:15-20")] ;; Ok (BR x1)) ;; r_is_disjoint E x2 x3).
Proof. vm_compute. reflexivity. Qed.
Example ref_372 : holds (x2 <- mk_range None [VStr (s2l "Matt 1:10-15")] ;; x3 <- (x1 <- mk_range None [VStr (s2l "Matt 1:16-20")] ;; Ok (BR x1)) ;; r_is_disjoint E x2 x3).
Proof. vm_compute. reflexivity. Qed.
Example ref_374 : holds (x2 <- mk_range None [VStr (s2l "Matt 1:10-15")] ;; x3 <- (x1 <- mk_list None [VStr (s2l "Matt 1:16-20; Mark 9-11; Luke 13-15; John 17-19")] ;; Ok (BL x1)) ;; r_is_disjoint E x2 x3).
Proof. vm_compute. reflexivity. Qed.
Example ref_375 : fails (x2 <- mk_range None [VStr (s2l "Matt 1:10-15")] ;; x3 <- (x1 <- mk_list None [VStr (s2l "Matt 1:15-20; Mark 9-11; Luke 12-15; John 17-19")] ;; Ok (BL x1)) ;; r_is_disjoint E x2 x3).
Proof. vm_compute. reflexivity. Qed.

(** test_range_is_adjacent: test/test_reference.py 377-398. *)
Example ref_380 : fails (x2 <- mk_range None [VStr (s2l "Matt 1:10-15")] ;; x3 <- (x1 <- mk_verse None [VStr (s2l "Matt 1:8")] ;; Ok (BV x1)) ;; r_is_adjacent E x2 x3 None).
Proof. vm_compute. reflexivity. Qed.
Example ref_381 : holds (x2 <- mk_range None [VStr (s2l "Matt 1:10-15")] ;; x3 <- (x1 <- mk_verse None [VStr (s2l "Matt 1:9")] ;; Ok (BV x1)) ;; r_is_adjacent E x2 x3 None).
Proof. vm_compute. reflexivity. Qed.
Example ref_383 : fails (x2 <- mk_range None [VStr (s2l "Matt 1:10-15")] ;; x3 <- (x1 <- mk_range None [VStr (s2l "Matt 1:5-8")] ;; Ok (BR x1)) ;; r_is_adjacent E x2 x3 None).
Proof. vm_compute. reflexivity. Qed.
Example ref_384 : holds (x2 <- mk_range None [VStr (s2l "Matt 1:10-15")] ;; x3 <- (x1 <- mk_range None [VStr (s2l "Matt 1:5-9")] ;; Ok (BR x1)) ;; r_is_adjacent E x2 x3 None).
Proof. vm_compute. reflexivity. Qed.
Example ref_385 : fails (x2 <- mk_range None [VStr (s2l "Matt 1:10-15")] ;; x3 <- (x1 <- mk_range None [VStr (s2l "Matt 1:5-10")] ;; Ok (BR x1)) ;; r_is_adjacent E x2 x3 None).
Proof. vm_compute. reflexivity. Qed.
Example ref_386 : fails (x2 <- mk_range None [VStr (s2l "Matt 1:10-15")] ;; x3 <- (x1 <- mk_range None [VStr (s2l "Matt 1:5-11")] ;; Ok (BR x1)) ;; r_is_adjacent E x2 x3 None).
Proof. vm_compute. reflexivity. Qed.
Example ref_387 : fails (x2 <- mk_range None [VStr (s2l "Matt 1:10-15")] ;; x3 <- (x1 <- mk_range None [VStr (s2l "Matt 1:10-12")] ;; Ok (BR x1)) ;; r_is_adjacent E x2 x3 None).
Proof. vm_compute. reflexivity. Qed.
Example ref_388 : fails (x2 <- mk_range None [VStr (s2l "Matt 1:10-15")] ;; x3 <- (x1 <- mk_range None [VStr (s2l "Matt 1:11-14")] ;; Ok (BR x1)) ;; r_is_adjacent E x2 x3 None).
Proof. vm_compute. reflexivity. Qed.
Example ref_389 : fails (x2 <- mk_range None [VStr (s2l "Matt 1:10-15")] ;; x3 <- (x1 <- mk_range None [VStr (s2l "Matt 1:13-15")] ;; Ok (BR x1)) ;; r_is_adjacent E x2 x3 None).
Proof. vm_compute. reflexivity. Qed.
Example ref_390 : fails (x2 <- mk_range None [VStr (s2l "Matt 1:10-15")] ;; x3 <- (x1 <- mk_range None [VStr (s2l "Matt 1:10-15")] ;; Ok (BR x1)) ;; r_is_adjacent E x2 x3 None).
Proof. vm_compute. reflexivity. Qed.
Example ref_391 : fails (x2 <- mk_range None [VStr (s2l "Matt 1:10-15")] ;; x3 <- (x1 <- mk_range None [VStr (s2l "Matt 1:14-20")] ;; Ok (BR x1)) ;; r_is_adjacent E x2 x3 None).
Proof. vm_compute. reflexivity. Qed.
Example ref_392 : fails (x2 <- mk_range None [VStr (s2l "Matt 1:10-15")] ;; x3 <- (x1 <- mk_range None [VStr (s2l "Matt 1:15-20")] ;; Ok (BR x1)) ;; r_is_adjacent E x2 x3 None).
Proof. vm_compute. reflexivity. Qed.
Example ref_393 : holds (x2 <- mk_range None [VStr (s2l "Matt 1:10-15")] ;; x3 <- (x1 <- mk_range None [VStr (s2l "Matt 1:16-20")] ;; Ok (BR x1)) ;; r_is_adjacent E x2 x3 None).
Proof. vm_compute. reflexivity. Qed.
Example ref_394 : fails (x2 <- mk_range None [VStr (s2l "Matt 1:10-15")] ;; x3 <- (x1 <- mk_range None [VStr (s2l "Matt 1:17-20")] ;; Ok (BR x1)) ;; r_is_adjacent E x2 x3 None).
Proof. vm_compute. reflexivity. Qed.
Example ref_396 : holds (x2 <- mk_range None [VStr (s2l "Matt 1:10-15")] ;; x3 <- (x1 <- mk_list None [VStr (s2l "Matt 1:16-20; Mark 2-4; Luke 6-8")] ;; Ok (BL x1)) ;; r_is_adjacent E x2 x3 None).
Proof. vm_compute. reflexivity. Qed.
Example ref_397 : holds (x2 <- mk_range None [VStr (s2l "Matt 1:10-15")] ;; x3 <- (x1 <- mk_list None [VStr (s2l "Matt 1:16-20; Mark 2-4; Matt 1:5-9")] ;; Ok (BL x1)) ;; r_is_adjacent E x2 x3 None).
Proof. vm_compute. reflexivity. Qed.
Example ref_398 : fails (x2 <- mk_range None [VStr (s2l "Matt 1:10-15")] ;; x3 <- (x1 <- mk_list None [VStr (s2l "Matt 1:16-20; Mark 2-4; Matt 1:5-10")] ;; Ok (BL x1)) ;; r_is_adjacent E x2 x3 None).
Proof. vm_compute. reflexivity. Qed.

(** test_range_contains: test/test_reference.py 400-426. *)
Example ref_402 : fails (x2 <- (x1 <- mk_verse None [VStr (s2l "Matt 2:19")] ;; Ok (BV x1)) ;; x3 <- mk_range None [VStr (s2l "Matt 2:20-3:7")] ;; op_in E x2 x3).
Proof. vm_compute. reflexivity. Qed.
Example ref_403 : holds (x2 <- (x1 <- mk_verse None [VStr (s2l "Matt 2:20")] ;; Ok (BV x1)) ;; x3 <- mk_range None [VStr (s2l "Matt 2:20-3:7")] ;; op_in E x2 x3).
Proof. vm_compute. reflexivity. Qed.
Example ref_404 : holds (x2 <- (x1 <- mk_verse None [VStr (s2l "Matt 3:1")] ;; Ok (BV x1)) ;; x3 <- mk_range None [VStr (s2l "Matt 2:20-3:7")] ;; op_in E x2 x3).
Proof. vm_compute. reflexivity. Qed.
Example ref_405 : holds (x2 <- (x1 <- mk_verse None [VStr (s2l "Matt 3:7")] ;; Ok (BV x1)) ;; x3 <- mk_range None [VStr (s2l "Matt 2:20-3:7")] ;; op_in E x2 x3).
Proof. vm_compute. reflexivity. Qed.
Example ref_406 : fails (x2 <- (x1 <- mk_verse None [VStr (s2l "Matt 3:8")] ;; Ok (BV x1)) ;; x3 <- mk_range None [VStr (s2l "Matt 2:20-3:7")] ;; op_in E x2 x3).
Proof. vm_compute. reflexivity. Qed.
Example ref_409 : fails (x2 <- (x1 <- mk_range None [VStr (s2l "Matt 1:5-8")] ;; Ok (BR x1)) ;; x3 <- mk_range None [VStr (s2l "Matt 1:10-15")] ;; op_in E x2 x3).
Proof. vm_compute. reflexivity. Qed.
Example ref_410 : fails (x2 <- (x1 <- mk_range None [VStr (s2l "Matt 1:5-9")] ;; Ok (BR x1)) ;; x3 <- mk_range None [VStr (s2l "Matt 1:10-15")] ;; op_in E x2 x3).
Proof. vm_compute. reflexivity. Qed.
Example ref_411 : fails (x2 <- (x1 <- mk_range None [VStr (s2l "Matt 1:5-10")] ;; Ok (BR x1)) ;; x3 <- mk_range None [VStr (s2l "Matt 1:10-15")] ;; op_in E x2 x3).
Proof. vm_compute. reflexivity. Qed.
Example ref_412 : fails (x2 <- (x1 <- mk_range None [VStr (s2l "Matt 1:5-11")] ;; Ok (BR x1)) ;; x3 <- mk_range None [VStr (s2l "Matt 1:10-15")] ;; op_in E x2 x3).
Proof. vm_compute. reflexivity. Qed.
Example ref_413 : holds (x2 <- (x1 <- mk_range None [VStr (s2l "Matt 1:10-12")] ;; Ok (BR x1)) ;; x3 <- mk_range None [VStr (s2l "Matt 1:10-15")] ;; op_in E x2 x3).
Proof. vm_compute. reflexivity. Qed.
Example ref_414 : holds (x2 <- (x1 <- mk_range None [VStr (s2l "Matt 1:11-14")] ;; Ok (BR x1)) ;; x3 <- mk_range None [VStr (s2l "Matt 1:10-15")] ;; op_in E x2 x3).
Proof. vm_compute. reflexivity. Qed.
Example ref_415 : holds (x2 <- (x1 <- mk_range None [VStr (s2l "Matt 1:13-15")] ;; Ok (BR x1)) ;; x3 <- mk_range None [VStr (s2l "Matt 1:10-15")] ;; op_in E x2 x3).
Proof. vm_compute. reflexivity. Qed.
Example ref_416 : holds (x2 <- (x1 <- mk_range None [VStr (s2l "Matt 1:10-15")] ;; Ok (BR x1)) ;; x3 <- mk_range None [VStr (s2l "Matt 1:10-15")] ;; op_in E x2 x3).
Proof. vm_compute. reflexivity. Qed.
Example ref_417 : fails (x2 <- (x1 <- mk_range None [VStr (s2l "Matt 1:14-20")] ;; Ok (BR x1)) ;; x3 <- mk_range None [VStr (s2l "Matt 1:10-15")] ;; op_in E x2 x3).
Proof. vm_compute. reflexivity. Qed.
Example ref_418 : fails (x2 <- (x1 <- mk_range None [VStr (s2l "Matt 1:15-20")] ;; Ok (BR x1)) ;; x3 <- mk_range None [VStr (s2l "Matt 1:10-15")] ;; op_in E x2 x3).
Proof. vm_compute. reflexivity. Qed.
Example ref_419 : fails (x2 <- (x1 <- mk_range None [VStr (s2l "Matt 1:16-20")] ;; Ok (BR x1)) ;; x3 <- mk_range None [VStr (s2l "Matt 1:10-15")] ;; op_in E x2 x3).
Proof. vm_compute. reflexivity. Qed.
Example ref_420 : fails (x2 <- (x1 <- mk_range None [VStr (s2l "Matt 1:17-20")] ;; Ok (BR x1)) ;; x3 <- mk_range None [VStr (s2l "Matt 1:10-15")] ;; op_in E x2 x3).
Proof. vm_compute. reflexivity. Qed.
Example ref_423 : holds (x2 <- (x1 <- mk_list None [VStr (s2l "Matt 4:1-5; 6:4-6; 8:10-12")] ;; Ok (BL x1)) ;; x3 <- mk_range None [VStr (s2l "Matt 4-8")] ;; op_in E x2 x3).
Proof. vm_compute. reflexivity. Qed.
Example ref_424 : fails (x2 <- (x1 <- mk_list None [VStr (s2l "Matt 3:1-4:5; 6:4-6; 8:10-12")] ;; Ok (BL x1)) ;; x3 <- mk_range None [VStr (s2l "Matt 4-8")] ;; op_in E x2 x3).
Proof. vm_compute. reflexivity. Qed.
Example ref_425 : fails (x2 <- (x1 <- mk_list None [VStr (s2l "Matt 4:1-5; 6:4-9:1; 8:10-12")] ;; Ok (BL x1)) ;; x3 <- mk_range None [VStr (s2l "Matt 4-8")] ;; op_in E x2 x3).
Proof. vm_compute. reflexivity. Qed.
Example ref_426 : fails (x2 <- (x1 <- mk_list None [VStr (s2l "Matt 4:1-5; 6:4-6; 8-9:1")] ;; Ok (BL x1)) ;; x3 <- mk_range None [VStr (s2l "Matt 4-8")] ;; op_in E x2 x3).
Proof. vm_compute. reflexivity. Qed.

(** test_range_surrounds: test/test_reference.py 428-456. *)
Example ref_430 : fails (x2 <- mk_range None [VStr (s2l "Matt 1:10-15")] ;; x3 <- (x1 <- mk_verse None [VStr (s2l "Matt 1:9")] ;; Ok (BV x1)) ;; r_surrounds E x2 x3).
Proof. vm_compute. reflexivity. Qed.
Example ref_431 : fails (x2 <- mk_range None [VStr (s2l "Matt 1:10-15")] ;; x3 <- (x1 <- mk_verse None [VStr (s2l "Matt 1:10")] ;; Ok (BV x1)) ;; r_surrounds E x2 x3).
Proof. vm_compute. reflexivity. Qed.
Example ref_432 : holds (x2 <- mk_range None [VStr (s2l "Matt 1:10-15")] ;; x3 <- (x1 <- mk_verse None [VStr (s2l "Matt 1:11")] ;; Ok (BV x1)) ;; r_surrounds E x2 x3).
Proof. vm_compute. reflexivity. Qed.
Example ref_433 : holds (x2 <- mk_range None [VStr (s2l "Matt 1:10-15")] ;; x3 <- (x1 <- mk_verse None [VStr (s2l "Matt 1:14")] ;; Ok (BV x1)) ;; r_surrounds E x2 x3).
Proof. vm_compute. reflexivity. Qed.
Example ref_434 : fails (x2 <- mk_range None [VStr (s2l "Matt 1:10-15")] ;; x3 <- (x1 <- mk_verse None [VStr (s2l "Matt 1:15")] ;; Ok (BV x1)) ;; r_surrounds E x2 x3).
Proof. vm_compute. reflexivity. Qed.
Example ref_435 : fails (x2 <- mk_range None [VStr (s2l "Matt 1:10-15")] ;; x3 <- (x1 <- mk_verse None [VStr (s2l "Matt 1:16")] ;; Ok (BV x1)) ;; r_surrounds E x2 x3).
Proof. vm_compute. reflexivity. Qed.
Example ref_437 : fails (x2 <- mk_range None [VStr (s2l "Matt 1:10-15")] ;; x3 <- (x1 <- mk_range None [VStr (s2l "Matt 1:5-8")] ;; Ok (BR x1)) ;; r_surrounds E x2 x3).
Proof. vm_compute. reflexivity. Qed.
Example ref_438 : fails (x2 <- mk_range None [VStr (s2l "Matt 1:10-15")] ;; x3 <- (x1 <- mk_range None [VStr (s2l "Matt 1:5-9")] ;; Ok (BR x1)) ;; r_surrounds E x2 x3).
Proof. vm_compute. reflexivity. Qed.
Example ref_439 : fails (x2 <- mk_range None [VStr (s2l "Matt 1:10-15")] ;; x3 <- (x1 <- mk_range None [VStr (s2l "Matt 1:5-10")] ;; Ok (BR x1)) ;; r_surrounds E x2 x3).
Proof. vm_compute. reflexivity. Qed.
Example ref_440 : fails (x2 <- mk_range None [VStr (s2l "Matt 1:10-15")] ;; x3 <- (x1 <- mk_range None [VStr (s2l "Matt 1:5-11")] ;; Ok (BR x1)) ;; r_surrounds E x2 x3).
Proof. vm_compute. reflexivity. Qed.
Example ref_441 : fails (x2 <- mk_range None [VStr (s2l "Matt 1:10-15")] ;; x3 <- (x1 <- mk_range None [VStr (s2l "Matt 1:10-12")] ;; Ok (BR x1)) ;; r_surrounds E x2 x3).
Proof. vm_compute. reflexivity. Qed.
Example ref_442 : holds (x2 <- mk_range None [VStr (s2l "Matt 1:10-15")] ;; x3 <- (x1 <- mk_range None [VStr (s2l "Matt 1:11-14")] ;; Ok (BR x1)) ;; r_surrounds E x2 x3).
Proof. vm_compute. reflexivity. Qed.
Example ref_443 : fails (x2 <- mk_range None [VStr (s2l "Matt 1:10-15")] ;; x3 <- (x1 <- mk_range None [VStr (s2l "Matt 1:13-15")] ;; Ok (BR x1)) ;; r_surrounds E x2 x3).
Proof. vm_compute. reflexivity. Qed.
Example ref_444 : fails (x2 <- mk_range None [VStr (s2l "Matt 1:10-15")] ;; x3 <- (x1 <- mk_range None [VStr (s2l "Matt 1:10-15")] ;; Ok (BR x1)) ;; r_surrounds E x2 x3).
Proof. vm_compute. reflexivity. Qed.
Example ref_445 : fails (x2 <- mk_range None [VStr (s2l "Matt 1:10-15")] ;; x3 <- (x1 <- mk_range None [VStr (s2l "Matt 1:14-20")] ;; Ok (BR x1)) ;; r_surrounds E x2 x3).
Proof. vm_compute. reflexivity. Qed.
Example ref_446 : fails (x2 <- mk_range None [VStr (s2l "Matt 1:10-15")] ;; x3 <- (x1 <- mk_range None [VStr (s2l "Matt 1:15-20")] ;; Ok (BR x1)) ;; r_surrounds E x2 x3).
Proof. vm_compute. reflexivity. Qed.
Example ref_447 : fails (x2 <- mk_range None [VStr (s2l "Matt 1:10-15")] ;; x3 <- (x1 <- mk_range None [VStr (s2l "Matt 1:16-20")] ;; Ok (BR x1)) ;; r_surrounds E x2 x3).
Proof. vm_compute. reflexivity. Qed.
Example ref_448 : fails (x2 <- mk_range None [VStr (s2l "Matt 1:10-15")] ;; x3 <- (x1 <- mk_range None [VStr (s2l "Matt 1:17-20")] ;; Ok (BR x1)) ;; r_surrounds E x2 x3).
Proof. vm_compute. reflexivity. Qed.
Example ref_451 : holds (x2 <- mk_range None [VStr (s2l "Matt 4-8")] ;; x3 <- (x1 <- mk_list None [VStr (s2l "Matt 4:2-5; 6:4-6; 8:10-33")] ;; Ok (BL x1)) ;; r_surrounds E x2 x3).
Proof. vm_compute. reflexivity. Qed.
Example ref_452 : fails (x2 <- mk_range None [VStr (s2l "Matt 4-8")] ;; x3 <- (x1 <- mk_list None [VStr (s2l "Matt 4:1-5; 6:4-6; 8:10-33")] ;; Ok (BL x1)) ;; r_surrounds E x2 x3).
Proof. vm_compute. reflexivity. Qed.
Example ref_453 : fails (x2 <- mk_range None [VStr (s2l "Matt 4-8")] ;; x3 <- (x1 <- mk_list None [VStr (s2l "Matt 4:2-5; 6:4-6; 8:10-34")] ;; Ok (BL x1)) ;; r_surrounds E x2 x3).
Proof. vm_compute. reflexivity. Qed.
Example ref_454 : fails (x2 <- mk_range None [VStr (s2l "Matt 4-8")] ;; x3 <- (x1 <- mk_list None [VStr (s2l "Matt 4:2-5; 6:4-6; 8:10-33; 9:1")] ;; Ok (BL x1)) ;; r_surrounds E x2 x3).
Proof. vm_compute. reflexivity. Qed.
Example ref_455 : fails (x2 <- mk_range None [VStr (s2l "Matt 4-8")] ;; x3 <- (x1 <- mk_list None [VStr (s2l "Matt 3:17; 4:2-5; 6:4-6; 8:10-33")] ;; Ok (BL x1)) ;; r_surrounds E x2 x3).
Proof. vm_compute. reflexivity. Qed.
Example ref_456 : fails (x2 <- mk_range None [VStr (s2l "Matt 4-8")] ;; x3 <- (x1 <- mk_list None [VStr (s2l "Matt 4:2-5; 6:4-9:1; 8:10-33")] ;; Ok (BL x1)) ;; r_surrounds E x2 x3).
Proof. vm_compute. reflexivity. Qed.

(** test_range_union: test/test_reference.py 458-486. *)
Example ref_461 : agree (x2 <- mk_range None [VStr (s2l "Matt 1:10-15")] ;; x3 <- (x1 <- mk_verse None [VStr (s2l "Matt 1:8")] ;; Ok (BV x1)) ;; op_or E x2 x3) (mk_list None [VStr (s2l "Matt 1:8, 10-15")]).
Proof. vm_compute. reflexivity. Qed.
Example ref_462 : agree (x2 <- mk_range None [VStr (s2l "Matt 1:10-15")] ;; x3 <- (x1 <- mk_verse None [VStr (s2l "Matt 1:9")] ;; Ok (BV x1)) ;; op_or E x2 x3) (mk_list None [VStr (s2l "Matt 1:9-15")]).
Proof. vm_compute. reflexivity. Qed.
Example ref_463 : agree (x2 <- mk_range None [VStr (s2l "Matt 1:10-15")] ;; x3 <- (x1 <- mk_verse None [VStr (s2l "Matt 1:10")] ;; Ok (BV x1)) ;; op_or E x2 x3) (mk_list None [VStr (s2l "Matt 1:10-15")]).
Proof. vm_compute. reflexivity. Qed.
Example ref_464 : agree (x2 <- mk_range None [VStr (s2l "Matt 1:10-15")] ;; x3 <- (x1 <- mk_verse None [VStr (s2l "Matt 1:11")] ;; Ok (BV x1)) ;; op_or E x2 x3) (mk_list None [VStr (s2l "Matt 1:10-15")]).
Proof. vm_compute. reflexivity. Qed.
Example ref_466 : agree (x2 <- mk_range None [VStr (s2l "Matt 1:10-15")] ;; x3 <- (x1 <- mk_range None [VStr (s2l "Matt 1:5-8")] ;; Ok (BR x1)) ;; op_or E x2 x3) (mk_list None [VStr (s2l "Matt 1:5-8, 10-15")]).
Proof. vm_compute. reflexivity. Qed.
Example ref_467 : agree (x2 <- mk_range None [VStr (s2l "Matt 1:10-15")] ;; x3 <- (x1 <- mk_range None [VStr (s2l "Matt 1:5-9")] ;; Ok (BR x1)) ;; op_or E x2 x3) (mk_list None [VStr (s2l "Matt 1:5-15")]).
Proof. vm_compute. reflexivity. Qed.
Example ref_468 : agree (x2 <- mk_range None [VStr (s2l "Matt 1:10-15")] ;; x3 <- (x1 <- mk_range None [VStr (s2l "Matt 1:5-10")] ;; Ok (BR x1)) ;; op_or E x2 x3) (mk_list None [VStr (s2l "Matt 1:5-15")]).
Proof. vm_compute. reflexivity. Qed.
Example ref_469 : agree (x2 <- mk_range None [VStr (s2l "Matt 1:10-15")] ;; x3 <- (x1 <- mk_range None [VStr (s2l "Matt 1:5-11")] ;; Ok (BR x1)) ;; op_or E x2 x3) (mk_list None [VStr (s2l "Matt 1:5-15")]).
Proof. vm_compute. reflexivity. Qed.
Example ref_470 : agree (x2 <- mk_range None [VStr (s2l "Matt 1:10-15")] ;; x3 <- (x1 <- mk_range None [VStr (s2l "Matt 1:10-12")] ;; Ok (BR x1)) ;; op_or E x2 x3) (mk_list None [VStr (s2l "Matt 1:10-15")]).
Proof. vm_compute. reflexivity. Qed.
Example ref_471 : agree (x2 <- mk_range None [VStr (s2l "Matt 1:10-15")] ;; x3 <- (x1 <- mk_range None [VStr (s2l "Matt 1:11-14")] ;; Ok (BR x1)) ;; op_or E x2 x3) (mk_list None [VStr (s2l "Matt 1:10-15")]).
Proof. vm_compute. reflexivity. Qed.
Example ref_472 : agree (x2 <- mk_range None [VStr (s2l "Matt 1:10-15")] ;; x3 <- (x1 <- mk_range None [VStr (s2l "Matt 1:13-15")] ;; Ok (BR x1)) ;; op_or E x2 x3) (mk_list None [VStr (s2l "Matt 1:10-15")]).
Proof. vm_compute. reflexivity. Qed.
Example ref_473 : agree (x2 <- mk_range None [VStr (s2l "Matt 1:10-15")] ;; x3 <- (x1 <- mk_range None [VStr (s2l "Matt 1:10-15")] ;; Ok (BR x1)) ;; op_or E x2 x3) (mk_list None [VStr (s2l "Matt 1:10-15")]).
Proof. vm_compute. reflexivity. Qed.
Example ref_474 : agree (x2 <- mk_range None [VStr (s2l "Matt 1:10-15")] ;; x3 <- (x1 <- mk_range None [VStr (s2l "Matt 1:14-20")] ;; Ok (BR x1)) ;; op_or E x2 x3) (mk_list None [VStr (s2l "Matt 1:10-20")]).
Proof. vm_compute. reflexivity. Qed.
Example ref_475 : agree (x2 <- mk_range None [VStr (s2l "Matt 1:10-15")] ;; x3 <- (x1 <- mk_range None [VStr (s2l "Matt 1:15-20")] ;; Ok (BR x1)) ;; op_or E x2 x3) (mk_list None [VStr (s2l "Matt 1:10-20")]).
Proof. vm_compute. reflexivity. Qed.
Example ref_476 : agree (x2 <- mk_range None [VStr (s2l "Matt 1:10-15")] ;; x3 <- (x1 <- mk_range None [VStr (s2l "Matt 1:16-20")] ;; Ok (BR x1)) ;; op_or E x2 x3) (mk_list None [VStr (s2l "Matt 1:10-20")]).
Proof. vm_compute. reflexivity. Qed.
Example ref_477 : agree (x2 <- mk_range None [VStr (s2l "Matt 1:10-15")] ;; x3 <- (x1 <- mk_range None [VStr (s2l "Matt 1:17-20")] ;; Ok (BR x1)) ;; op_or E x2 x3) (mk_list None [VStr (s2l "Matt 1:10-15, 17-20")]).
Proof. vm_compute. reflexivity. Qed.
Example ref_479 : agree (x2 <- mk_range None [VStr (s2l "Matt 1:10-15")] ;; x3 <- (x1 <- mk_list None [VStr (s2l "Matt 1:5-8; Mark 1-3")] ;; Ok (BL x1)) ;; op_or E x2 x3) (mk_list None [VStr (s2l "Matt 1:5-8, 10-15; Mark 1-3")]).
Proof. vm_compute. reflexivity. Qed.
Example ref_481 : agree (x2 <- mk_range None [VStr (s2l "Matt 1:10-15")] ;; x3 <- (x1 <- mk_list None [VStr (s2l "Matt 1:5-9; Mark 1-3")] ;; Ok (BL x1)) ;; op_or E x2 x3) (mk_list None [VStr (s2l "Matt 1:5-15; Mark 1-3")]).
Proof. vm_compute. reflexivity. Qed.
Example ref_483 : agree (x2 <- mk_range None [VStr (s2l "Matt 1:10-15")] ;; x3 <- (x1 <- mk_list None [VStr (s2l "Matt 1:5-10; Mark 1-3")] ;; Ok (BL x1)) ;; op_or E x2 x3) (mk_list None [VStr (s2l "Matt 1:5-15; Mark 1-3")]).
Proof. vm_compute. reflexivity. Qed.
Example ref_485 : agree (x2 <- mk_range None [VStr (s2l "Matt 1:10-15")] ;; x3 <- (x1 <- mk_list None [VStr (s2l "Mark 4-6; Matt 1:5-9, 16-20")] ;; Ok (BL x1)) ;; op_or E x2 x3) (mk_list None [VStr (s2l "Matt 1:5-20; Mark 4-6")]).
Proof. vm_compute. reflexivity. Qed.

(** test_range_intersection: test/test_reference.py 488-512. *)
Example ref_491 : agree (x2 <- mk_range None [VStr (s2l "Matt 1:10-15")] ;; x3 <- (x1 <- mk_verse None [VStr (s2l "Matt 1:8")] ;; Ok (BV x1)) ;; op_and E x2 x3) (mk_list None []).
Proof. vm_compute. reflexivity. Qed.
Example ref_492 : agree (x2 <- mk_range None [VStr (s2l "Matt 1:10-15")] ;; x3 <- (x1 <- mk_verse None [VStr (s2l "Matt 1:9")] ;; Ok (BV x1)) ;; op_and E x2 x3) (mk_list None []).
Proof. vm_compute. reflexivity. Qed.
Example ref_493 : agree (x2 <- mk_range None [VStr (s2l "Matt 1:10-15")] ;; x3 <- (x1 <- mk_verse None [VStr (s2l "Matt 1:10")] ;; Ok (BV x1)) ;; op_and E x2 x3) (mk_list None [VStr (s2l "Matt 1:10")]).
Proof. vm_compute. reflexivity. Qed.
Example ref_494 : agree (x2 <- mk_range None [VStr (s2l "Matt 1:10-15")] ;; x3 <- (x1 <- mk_verse None [VStr (s2l "Matt 1:11")] ;; Ok (BV x1)) ;; op_and E x2 x3) (mk_list None [VStr (s2l "Matt 1:11")]).
Proof. vm_compute. reflexivity. Qed.
Example ref_496 : agree (x2 <- mk_range None [VStr (s2l "Matt 1:10-15")] ;; x3 <- (x1 <- mk_range None [VStr (s2l "Matt 1:5-8")] ;; Ok (BR x1)) ;; op_and E x2 x3) (mk_list None []).
Proof. vm_compute. reflexivity. Qed.
Example ref_497 : agree (x2 <- mk_range None [VStr (s2l "Matt 1:10-15")] ;; x3 <- (x1 <- mk_range None [VStr (s2l "Matt 1:5-9")] ;; Ok (BR x1)) ;; op_and E x2 x3) (mk_list None []).
Proof. vm_compute. reflexivity. Qed.
Example ref_498 : agree (x2 <- mk_range None [VStr (s2l "Matt 1:10-15")] ;; x3 <- (x1 <- mk_range None [VStr (s2l "Matt 1:5-10")] ;; Ok (BR x1)) ;; op_and E x2 x3) (mk_list None [VStr (s2l "Matt 1:10")]).
Proof. vm_compute. reflexivity. Qed.
Example ref_499 : agree (x2 <- mk_range None [VStr (s2l "Matt 1:10-15")] ;; x3 <- (x1 <- mk_range None [VStr (s2l "Matt 1:5-11")] ;; Ok (BR x1)) ;; op_and E x2 x3) (mk_list None [VStr (s2l "Matt 1:10-11")]).
Proof. vm_compute. reflexivity. Qed.
Example ref_500 : agree (x2 <- mk_range None [VStr (s2l "Matt 1:10-15")] ;; x3 <- (x1 <- mk_range None [VStr (s2l "Matt 1:10-12")] ;; Ok (BR x1)) ;; op_and E x2 x3) (mk_list None [VStr (s2l "Matt 1:10-12")]).
Proof. vm_compute. reflexivity. Qed.
Example ref_501 : agree (x2 <- mk_range None [VStr (s2l "Matt 1:10-15")] ;; x3 <- (x1 <- mk_range None [VStr (s2l "Matt 1:11-14")] ;; Ok (BR x1)) ;; op_and E x2 x3) (mk_list None [VStr (s2l "Matt 1:11-14")]).
Proof. vm_compute. reflexivity. Qed.
Example ref_502 : agree (x2 <- mk_range None [VStr (s2l "Matt 1:10-15")] ;; x3 <- (x1 <- mk_range None [VStr (s2l "Matt 1:13-15")] ;; Ok (BR x1)) ;; op_and E x2 x3) (mk_list None [VStr (s2l "Matt 1:13-15")]).
Proof. vm_compute. reflexivity. Qed.
Example ref_503 : agree (x2 <- mk_range None [VStr (s2l "Matt 1:10-15")] ;; x3 <- (x1 <- mk_range None [VStr (s2l "Matt 1:10-15")] ;; Ok (BR x1)) ;; op_and E x2 x3) (mk_list None [VStr (s2l "Matt 1:10-15")]).
Proof. vm_compute. reflexivity. Qed.
Example ref_504 : agree (x2 <- mk_range None [VStr (s2l "Matt 1:10-15")] ;; x3 <- (x1 <- mk_range None [VStr (s2l "Matt 1:14-20")] ;; Ok (BR x1)) ;; op_and E x2 x3) (mk_list None [VStr (s2l "Matt 1:14-15")]).
Proof. vm_compute. reflexivity. Qed.
Example ref_505 : agree (x2 <- mk_range None [VStr (s2l "Matt 1:10-15")] ;; x3 <- (x1 <- mk_range None [VStr (s2l "Matt 1:15-20")] ;; Ok (BR x1)) ;; op_and E x2 x3) (mk_list None [VStr (s2l "Matt 1:15")]).
Proof. vm_compute. reflexivity. Qed.
Example ref_506 : agree (x2 <- mk_range None [VStr (s2l "Matt 1:10-15")] ;; x3 <- (x1 <- mk_range None [VStr (s2l "Matt 1:16-20")] ;; Ok (BR x1)) ;; op_and E x2 x3) (mk_list None []).
Proof. vm_compute. reflexivity. Qed.
Example ref_507 : agree (x2 <- mk_range None [VStr (s2l "Matt 1:10-15")] ;; x3 <- (x1 <- mk_range None [VStr (s2l "Matt 1:17-20")] ;; Ok (BR x1)) ;; op_and E x2 x3) (mk_list None []).
Proof. vm_compute. reflexivity. Qed.
Example ref_509 : agree (x2 <- mk_range None [VStr (s2l "Matt 1:10-15")] ;; x3 <- (x1 <- mk_list None [VStr (s2l "Matt 1:5-8; Mark 1-3")] ;; Ok (BL x1)) ;; op_and E x2 x3) (mk_list None []).
Proof. vm_compute. reflexivity. Qed.
Example ref_510 : agree (x2 <- mk_range None [VStr (s2l "Matt 1:10-15")] ;; x3 <- (x1 <- mk_list None [VStr (s2l "Matt 1:5-9; Mark 1-3")] ;; Ok (BL x1)) ;; op_and E x2 x3) (mk_list None []).
Proof. vm_compute. reflexivity. Qed.
Example ref_511 : agree (x2 <- mk_range None [VStr (s2l "Matt 1:10-15")] ;; x3 <- (x1 <- mk_list None [VStr (s2l "Matt 1:5-10; Mark 1-3; Matt 1:14-20")] ;; Ok (BL x1)) ;; op_and E x2 x3) (mk_list None [VStr (s2l "Matt 1:10, 14-15")]).
Proof. vm_compute. reflexivity. Qed.
Example ref_512 : agree (x2 <- mk_range None [VStr (s2l "Matt 1:10-15")] ;; x3 <- (x1 <- mk_list None [VStr (s2l "Mark 4-6; Matt 1:5-11, 16-20")] ;; Ok (BL x1)) ;; op_and E x2 x3) (mk_list None [VStr (s2l "Matt 1:10-11")]).
Proof. vm_compute. reflexivity. Qed.

(** test_range_difference: test/test_reference.py 514-531. *)
Example ref_516 : agree (x2 <- mk_range None [VStr (s2l "Matt 1:10-15")] ;; x3 <- (x1 <- mk_range None [VStr (s2l "Matt 1:5-8")] ;; Ok (BR x1)) ;; op_minus E x2 x3) (mk_list None [VStr (s2l "Matt 1:10-15")]).
Proof. vm_compute. reflexivity. Qed.
Example ref_517 : agree (x2 <- mk_range None [VStr (s2l "Matt 1:10-15")] ;; x3 <- (x1 <- mk_range None [VStr (s2l "Matt 1:5-9")] ;; Ok (BR x1)) ;; op_minus E x2 x3) (mk_list None [VStr (s2l "Matt 1:10-15")]).
Proof. vm_compute. reflexivity. Qed.
Example ref_518 : agree (x2 <- mk_range None [VStr (s2l "Matt 1:10-15")] ;; x3 <- (x1 <- mk_range None [VStr (s2l "Matt 1:5-10")] ;; Ok (BR x1)) ;; op_minus E x2 x3) (mk_list None [VStr (s2l "Matt 1:11-15")]).
Proof. vm_compute. reflexivity. Qed.
Example ref_519 : agree (x2 <- mk_range None [VStr (s2l "Matt 1:10-15")] ;; x3 <- (x1 <- mk_range None [VStr (s2l "Matt 1:5-11")] ;; Ok (BR x1)) ;; op_minus E x2 x3) (mk_list None [VStr (s2l "Matt 1:12-15")]).
Proof. vm_compute. reflexivity. Qed.
Example ref_520 : agree (x2 <- mk_range None [VStr (s2l "Matt 1:10-15")] ;; x3 <- (x1 <- mk_range None [VStr (s2l "Matt 1:10-12")] ;; Ok (BR x1)) ;; op_minus E x2 x3) (mk_list None [VStr (s2l "Matt 1:13-15")]).
Proof. vm_compute. reflexivity. Qed.
Example ref_521 : agree (x2 <- mk_range None [VStr (s2l "Matt 1:10-15")] ;; x3 <- (x1 <- mk_range None [VStr (s2l "Matt 1:10-14")] ;; Ok (BR x1)) ;; op_minus E x2 x3) (mk_list None [VStr (s2l "Matt 1:15")]).
Proof. vm_compute. reflexivity. Qed.
Example ref_522 : agree (x2 <- mk_range None [VStr (s2l "Matt 1:10-15")] ;; x3 <- (x1 <- mk_range None [VStr (s2l "Matt 1:11-14")] ;; Ok (BR x1)) ;; op_minus E x2 x3) (mk_list None [VStr (s2l "Matt 1:10, 15")]).
Proof. vm_compute. reflexivity. Qed.
Example ref_523 : agree (x2 <- mk_range None [VStr (s2l "Matt 1:10-15")] ;; x3 <- (x1 <- mk_range None [VStr (s2l "Matt 1:12-13")] ;; Ok (BR x1)) ;; op_minus E x2 x3) (mk_list None [VStr (s2l "Matt 1:10-11, 14-15")]).
Proof. vm_compute. reflexivity. Qed.
Example ref_524 : agree (x2 <- mk_range None [VStr (s2l "Matt 1:10-15")] ;; x3 <- (x1 <- mk_range None [VStr (s2l "Matt 1:11-15")] ;; Ok (BR x1)) ;; op_minus E x2 x3) (mk_list None [VStr (s2l "Matt 1:10")]).
Proof. vm_compute. reflexivity. Qed.
Example ref_525 : agree (x2 <- mk_range None [VStr (s2l "Matt 1:10-15")] ;; x3 <- (x1 <- mk_range None [VStr (s2l "Matt 1:13-15")] ;; Ok (BR x1)) ;; op_minus E x2 x3) (mk_list None [VStr (s2l "Matt 1:10-12")]).
Proof. vm_compute. reflexivity. Qed.
Example ref_526 : agree (x2 <- mk_range None [VStr (s2l "Matt 1:10-15")] ;; x3 <- (x1 <- mk_range None [VStr (s2l "Matt 1:10-15")] ;; Ok (BR x1)) ;; op_minus E x2 x3) (mk_list None []).
Proof. vm_compute. reflexivity. Qed.
Example ref_527 : agree (x2 <- mk_range None [VStr (s2l "Matt 1:10-15")] ;; x3 <- (x1 <- mk_range None [VStr (s2l "Matt 1:9-16")] ;; Ok (BR x1)) ;; op_minus E x2 x3) (mk_list None []).
Proof. vm_compute. reflexivity. Qed.
Example ref_528 : agree (x2 <- mk_range None [VStr (s2l "Matt 1:10-15")] ;; x3 <- (x1 <- mk_range None [VStr (s2l "Matt 1:14-20")] ;; Ok (BR x1)) ;; op_minus E x2 x3) (mk_list None [VStr (s2l "Matt 1:10-13")]).
Proof. vm_compute. reflexivity. Qed.
Example ref_529 : agree (x2 <- mk_range None [VStr (s2l "Matt 1:10-15")] ;; x3 <- (x1 <- mk_range None [VStr (s2l "Matt 1:15-20")] ;; Ok (BR x1)) ;; op_minus E x2 x3) (mk_list None [VStr (s2l "Matt 1:10-14")]).
Proof. vm_compute. reflexivity. Qed.
Example ref_530 : agree (x2 <- mk_range None [VStr (s2l "Matt 1:10-15")] ;; x3 <- (x1 <- mk_range None [VStr (s2l "Matt 1:16-20")] ;; Ok (BR x1)) ;; op_minus E x2 x3) (mk_list None [VStr (s2l "Matt 1:10-15")]).
Proof. vm_compute. reflexivity. Qed.
Example ref_531 : agree (x2 <- mk_range None [VStr (s2l "Matt 1:10-15")] ;; x3 <- (x1 <- mk_range None [VStr (s2l "Matt 1:17-20")] ;; Ok (BR x1)) ;; op_minus E x2 x3) (mk_list None [VStr (s2l "Matt 1:10-15")]).
Proof. vm_compute. reflexivity. Qed.

(** test_range_sym_difference: test/test_reference.py 533-550. *)
Example ref_535 : agree (x2 <- mk_range None [VStr (s2l "Matt 1:10-15")] ;; x3 <- (x1 <- mk_range None [VStr (s2l "Matt 1:5-8")] ;; Ok (BR x1)) ;; op_xor E x2 x3) (mk_list None [VStr (s2l "Matt 1:5-8, 10-15")]).
Proof. vm_compute. reflexivity. Qed.
Example ref_536 : agree (x2 <- mk_range None [VStr (s2l "Matt 1:10-15")] ;; x3 <- (x1 <- mk_range None [VStr (s2l "Matt 1:5-9")] ;; Ok (BR x1)) ;; op_xor E x2 x3) (mk_list None [VStr (s2l "Matt 1:5-15")]).
Proof. vm_compute. reflexivity. Qed.
Example ref_537 : agree (x2 <- mk_range None [VStr (s2l "Matt 1:10-15")] ;; x3 <- (x1 <- mk_range None [VStr (s2l "Matt 1:5-10")] ;; Ok (BR x1)) ;; op_xor E x2 x3) (mk_list None [VStr (s2l "Matt 1:5-9, 11-15")]).
Proof. vm_compute. reflexivity. Qed.
Example ref_538 : agree (x2 <- mk_range None [VStr (s2l "Matt 1:10-15")] ;; x3 <- (x1 <- mk_range None [VStr (s2l "Matt 1:5-11")] ;; Ok (BR x1)) ;; op_xor E x2 x3) (mk_list None [VStr (s2l "Matt 1:5-9, 12-15")]).
Proof. vm_compute. reflexivity. Qed.
Example ref_539 : agree (x2 <- mk_range None [VStr (s2l "Matt 1:10-15")] ;; x3 <- (x1 <- mk_range None [VStr (s2l "Matt 1:10-12")] ;; Ok (BR x1)) ;; op_xor E x2 x3) (mk_list None [VStr (s2l "Matt 1:13-15")]).
Proof. vm_compute. reflexivity. Qed.
Example ref_540 : agree (x2 <- mk_range None [VStr (s2l "Matt 1:10-15")] ;; x3 <- (x1 <- mk_range None [VStr (s2l "Matt 1:10-14")] ;; Ok (BR x1)) ;; op_xor E x2 x3) (mk_list None [VStr (s2l "Matt 1:15")]).
Proof. vm_compute. reflexivity. Qed.
Example ref_541 : agree (x2 <- mk_range None [VStr (s2l "Matt 1:10-15")] ;; x3 <- (x1 <- mk_range None [VStr (s2l "Matt 1:11-14")] ;; Ok (BR x1)) ;; op_xor E x2 x3) (mk_list None [VStr (s2l "Matt 1:10, 15")]).
Proof. vm_compute. reflexivity. Qed.
Example ref_542 : agree (x2 <- mk_range None [VStr (s2l "Matt 1:10-15")] ;; x3 <- (x1 <- mk_range None [VStr (s2l "Matt 1:12-13")] ;; Ok (BR x1)) ;; op_xor E x2 x3) (mk_list None [VStr (s2l "Matt 1:10-11, 14-15")]).
Proof. vm_compute. reflexivity. Qed.
Example ref_543 : agree (x2 <- mk_range None [VStr (s2l "Matt 1:10-15")] ;; x3 <- (x1 <- mk_range None [VStr (s2l "Matt 1:11-15")] ;; Ok (BR x1)) ;; op_xor E x2 x3) (mk_list None [VStr (s2l "Matt 1:10")]).
Proof. vm_compute. reflexivity. Qed.
Example ref_544 : agree (x2 <- mk_range None [VStr (s2l "Matt 1:10-15")] ;; x3 <- (x1 <- mk_range None [VStr (s2l "Matt 1:13-15")] ;; Ok (BR x1)) ;; op_xor E x2 x3) (mk_list None [VStr (s2l "Matt 1:10-12")]).
Proof. vm_compute. reflexivity. Qed.
Example ref_545 : agree (x2 <- mk_range None [VStr (s2l "Matt 1:10-15")] ;; x3 <- (x1 <- mk_range None [VStr (s2l "Matt 1:10-15")] ;; Ok (BR x1)) ;; op_xor E x2 x3) (mk_list None []).
Proof. vm_compute. reflexivity. Qed.
Example ref_546 : agree (x2 <- mk_range None [VStr (s2l "Matt 1:10-15")] ;; x3 <- (x1 <- mk_range None [VStr (s2l "Matt 1:9-16")] ;; Ok (BR x1)) ;; op_xor E x2 x3) (mk_list None [VStr (s2l "Matt 1:9, 16")]).
Proof. vm_compute. reflexivity. Qed.
Example ref_547 : agree (x2 <- mk_range None [VStr (s2l "Matt 1:10-15")] ;; x3 <- (x1 <- mk_range None [VStr (s2l "Matt 1:14-20")] ;; Ok (BR x1)) ;; op_xor E x2 x3) (mk_list None [VStr (s2l "Matt 1:10-13, 16-20")]).
Proof. vm_compute. reflexivity. Qed.
Example ref_548 : agree (x2 <- mk_range None [VStr (s2l "Matt 1:10-15")] ;; x3 <- (x1 <- mk_range None [VStr (s2l "Matt 1:15-20")] ;; Ok (BR x1)) ;; op_xor E x2 x3) (mk_list None [VStr (s2l "Matt 1:10-14, 16-20")]).
Proof. vm_compute. reflexivity. Qed.
Example ref_549 : agree (x2 <- mk_range None [VStr (s2l "Matt 1:10-15")] ;; x3 <- (x1 <- mk_range None [VStr (s2l "Matt 1:16-20")] ;; Ok (BR x1)) ;; op_xor E x2 x3) (mk_list None [VStr (s2l "Matt 1:10-20")]).
Proof. vm_compute. reflexivity. Qed.
Example ref_550 : agree (x2 <- mk_range None [VStr (s2l "Matt 1:10-15")] ;; x3 <- (x1 <- mk_range None [VStr (s2l "Matt 1:17-20")] ;; Ok (BR x1)) ;; op_xor E x2 x3) (mk_list None [VStr (s2l "Matt 1:10-15, 17-20")]).
Proof. vm_compute. reflexivity. Qed.

(** test_bible_range_to_string: test/test_reference.py 552-606. *)
Example ref_554 : agree (x1 <- mk_range None [VBook Rom; VInt 1; VInt 1; VNone; VInt 16; VInt 27] ;; range_text E x1) (Ok (s2l "Romans")).
Proof. vm_compute. reflexivity. Qed.
Example ref_557 : agree (x1 <- mk_range (Some MULTIBOOK) [VBook Matt; VInt 1; VInt 1; VBook John; VInt 21; VInt 25] ;; range_text E x1) (Ok (s2l "Matthew-John")).
Proof. vm_compute. reflexivity. Qed.
Example ref_560 : agree (x1 <- mk_range (Some MULTIBOOK) [VBook Matt; VInt 5; VInt 6; VBook John; VInt 21; VInt 25] ;; range_text E x1) (Ok (s2l "Matthew 5:6-John")).
Proof. vm_compute. reflexivity. Qed.
Example ref_563 : agree (x1 <- mk_range (Some MULTIBOOK) [VBook Matt; VInt 1; VInt 1; VBook John; VInt 10; VInt 11] ;; range_text E x1) (Ok (s2l "Matthew-John 10:11")).
Proof. vm_compute. reflexivity. Qed.
Example ref_566 : agree (x1 <- mk_range (Some MULTIBOOK) [VBook Matt; VInt 5; VInt 6; VBook John; VInt 10; VInt 11] ;; range_text E x1) (Ok (s2l "Matthew 5:6-John 10:11")).
Proof. vm_compute. reflexivity. Qed.
Example ref_569 : agree (x1 <- mk_range None [VBook Exod; VInt 7; VInt 1; VNone; VInt 7; VInt 25] ;; range_text E x1) (Ok (s2l "Exodus 7")).
Proof. vm_compute. reflexivity. Qed.
Example ref_572 : agree (x1 <- mk_range None [VBook Exod; VInt 7; VInt 1; VNone; VInt 10; VInt 29] ;; range_text E x1) (Ok (s2l "Exodus 7-10")).
Proof. vm_compute. reflexivity. Qed.
Example ref_575 : agree (x1 <- mk_range None [VBook Exod; VInt 7; VInt 4; VNone; VInt 10; VInt 29] ;; range_text E x1) (Ok (s2l "Exodus 7:4-10:29")).
Proof. vm_compute. reflexivity. Qed.
Example ref_578 : agree (x1 <- mk_range None [VBook Exod; VInt 7; VInt 4; VNone; VNone; VInt 8] ;; range_text E x1) (Ok (s2l "Exodus 7:4-8")).
Proof. vm_compute. reflexivity. Qed.
Example ref_581 : agree (x1 <- mk_range None [VBook Exod; VInt 7; VInt 1; VNone; VInt 10; VInt 12] ;; range_str E (Look false false false) false x1 None) (Ok (s2l "Exodus 7-10:12")).
Proof. vm_compute. reflexivity. Qed.
Example ref_582 : agree (x1 <- mk_range None [VBook Exod; VInt 7; VInt 1; VNone; VInt 10; VInt 12] ;; range_str E (Look false false false) true x1 None) (Ok (s2l "Exodus 7:1-10:12")).
Proof. vm_compute. reflexivity. Qed.
Example ref_585 : agree (x1 <- mk_range (Some MULTIBOOK) [VBook ICor; VInt 15; VInt 1; VBook IICor; VInt 1; VInt 24] ;; range_text E x1) (Ok (s2l "1 Corinthians 15-2 Corinthians 1")).
Proof. vm_compute. reflexivity. Qed.
Example ref_588 : agree (x1 <- mk_range None [VBook Obad; VInt 1; VInt 10; VNone; VInt 1; VInt 12] ;; range_text E x1) (Ok (s2l "Obadiah 10-12")).
Proof. vm_compute. reflexivity. Qed.
Example ref_591 : agree (x1 <- mk_range (Some MULTIBOOK) [VBook Obad; VInt 1; VInt 10; VBook Jonah; VInt 1; VInt 4] ;; range_text E x1) (Ok (s2l "Obadiah 10-Jonah 1:4")).
Proof. vm_compute. reflexivity. Qed.
Example ref_594 : agree (x1 <- mk_range (Some MULTIBOOK) [VBook Obad; VInt 1; VInt 10; VBook Jonah; VInt 2; VInt 10] ;; range_text E x1) (Ok (s2l "Obadiah 10-Jonah 2")).
Proof. vm_compute. reflexivity. Qed.
Example ref_597 : agree (x1 <- mk_range (Some MULTIBOOK) [VBook IJn; VInt 5; VInt 18; VBook IIIJn; VInt 1; VInt 14] ;; range_text E x1) (Ok (s2l "1 John 5:18-3 John")).
Proof. vm_compute. reflexivity. Qed.
Example ref_600 : agree (x1 <- mk_range (Some MULTIBOOK) [VBook IIJn; VInt 1; VInt 1; VBook IIIJn; VInt 1; VInt 14] ;; range_text E x1) (Ok (s2l "2 John-3 John")).
Proof. vm_compute. reflexivity. Qed.
Example ref_603 : agree (x1 <- mk_range (Some MULTIBOOK) [VBook IIJn; VInt 1; VInt 6; VBook IIIJn; VInt 1; VInt 14] ;; range_text E x1) (Ok (s2l "2 John 6-3 John")).
Proof. vm_compute. reflexivity. Qed.
Example ref_606 : agree (x1 <- mk_range (Some MULTIBOOK) [VBook IIJn; VInt 1; VInt 1; VBook IIIJn; VInt 1; VInt 8] ;; range_text E x1) (Ok (s2l "2 John-3 John 8")).
Proof. vm_compute. reflexivity. Qed.

(** test_bible_range_string_roundtrip: test/test_reference.py 608-625. *)

(** test_bible_range_list: test/test_reference.py 627-639. *)
Example ref_630 : agree (x1 <- mk_list None [VStr (s2l "Mark 3:1-4:2; Mark 5:6-8; Mark 5:10; Matt 4")] ;; list_str E (Look true false false) false false x1 None) (Ok (s2l "Mark 3-4:2; 5:6-8, 10; Matt 4")).
Proof. vm_compute. reflexivity. Qed.
Example ref_635 : agree (x1 <- (x9 <- (x5 <- (x1 <- mk_range None [VStr (s2l "Mark 3:1-4:2")] ;; Ok (VRange x1)) ;; x6 <- (x2 <- mk_range None [VStr (s2l "Mark 5:6-8")] ;; Ok (VRange x2)) ;; x7 <- (x3 <- mk_range None [VStr (s2l "Mark 5:10")] ;; Ok (VRange x3)) ;; x8 <- (x4 <- mk_range None [VStr (s2l "Matt 4")] ;; Ok (VRange x4)) ;; Ok (VSeq [x5; x6; x7; x8])) ;; mk_list None [x9]) ;; list_str E (Look true false false) false false x1 None) (Ok (s2l "Mark 3-4:2; 5:6-8, 10; Matt 4")).
Proof. vm_compute. reflexivity. Qed.
Example ref_639 : agree (mk_list None [VStr (s2l "Mark 3:1-4:2; Mark 5:6-8; Mark 5:10; Matt 4")]) (x2 <- (x1 <- mk_list None [VStr (s2l "Mark 3:1-4:2; Mark 5:6-8; Mark 5:10; Matt 4")] ;; Ok (VList x1)) ;; mk_list None [x2]).
Proof. vm_compute. reflexivity. Qed.

(** test_bible_range_list_verse_0: test/test_reference.py 641-653. *)
Example ref_646 : agree (x1 <- mk_list (Some VERSE_0) [VStr (s2l "Ps 3:0-4:0; Matt 2:3-4:5")] ;; l_verse_0_to_1 E x1) (mk_list (Some VERSE_0) [VStr (s2l "Ps 3:1-4:1; Matt 2:3-4:5")]).
Proof. vm_compute. reflexivity. Qed.
Example ref_649 : agree (mk_list (Some VERSE_0) [VStr (s2l "Ps 3:0-4:0; Matt 2:3-4:5")]) (x1 <- mk_list (Some VERSE_0) [VStr (s2l "Ps 3:1-4:1; Matt 2:3-4:5")] ;; l_verse_1_to_0 E x1).
Proof. vm_compute. reflexivity. Qed.
Example ref_651 : agree (x1 <- mk_list None [VStr (s2l "Matt 2:3-4:5; Mark 6:7-8:9")] ;; l_verse_0_to_1 E x1) (mk_list None [VStr (s2l "Matt 2:3-4:5; Mark 6:7-8:9")]).
Proof. vm_compute. reflexivity. Qed.
Example ref_653 : agree (x1 <- (x1 <- mk_list None [VStr (s2l "Matt 2:3-4:5; Mark 6:7-8:9")] ;; l_verse_0_to_1 E x1) ;; l_verse_1_to_0 E x1) (mk_list None [VStr (s2l "Matt 2:3-4:5; Mark 6:7-8:9")]).
Proof. vm_compute. reflexivity. Qed.

(** test_range_list_ranges: test/test_reference.py 655-659. *)
Example ref_657 : agree (x1 <- mk_list None [VStr (s2l "John 4:9; Luke 1:12; Mark 7:3; Matt 3:8")] ;; l_range E x1) (mk_range (Some MULTIBOOK) [VStr (s2l "Matt 3:8-John 4:9")]).
Proof. vm_compute. reflexivity. Qed.
Example ref_658 : agree (x1 <- mk_list None [VStr (s2l "John 4:9; Luke 1:12; Mark 7:3; Matt 3:8")] ;; l_chap_range E x1 None) (mk_range (Some MULTIBOOK) [VStr (s2l "Matt 3-John 4")]).
Proof. vm_compute. reflexivity. Qed.
Example ref_659 : agree (x1 <- mk_list None [VStr (s2l "John 4:9; Luke 1:12; Mark 7:3; Matt 3:8")] ;; l_book_range E x1 None) (mk_range (Some MULTIBOOK) [VStr (s2l "Matt-John")]).
Proof. vm_compute. reflexivity. Qed.

(** test_range_list_counts: test/test_reference.py 661-668. *)
Example ref_664 : agree (x1 <- mk_list (Some MULTIBOOK) [VStr (s2l "1 John 1:5-3 John 8; 1 John 1:5-3:10; 1 John 1:5-2:11; 3 John 5-10")] ;; l_verse_count E x1 None) (Ok 190).
Proof. vm_compute. reflexivity. Qed.
Example ref_665 : agree (x1 <- mk_list (Some MULTIBOOK) [VStr (s2l "1 John 1:5-3 John 8; 1 John 1:5-3:10; 1 John 1:5-2:11; 3 John 5-10")] ;; l_chap_count E x1 false None) (Ok 13).
Proof. vm_compute. reflexivity. Qed.
Example ref_666 : agree (x1 <- mk_list (Some MULTIBOOK) [VStr (s2l "1 John 1:5-3 John 8; 1 John 1:5-3:10; 1 John 1:5-2:11; 3 John 5-10")] ;; l_chap_count E x1 true None) (Ok 6).
Proof. vm_compute. reflexivity. Qed.
Example ref_667 : agree (x1 <- mk_list (Some MULTIBOOK) [VStr (s2l "1 John 1:5-3 John 8; 1 John 1:5-3:10; 1 John 1:5-2:11; 3 John 5-10")] ;; l_book_count E x1 false None) (Ok 6).
Proof. vm_compute. reflexivity. Qed.
Example ref_668 : agree (x1 <- mk_list (Some MULTIBOOK) [VStr (s2l "1 John 1:5-3 John 8; 1 John 1:5-3:10; 1 John 1:5-2:11; 3 John 5-10")] ;; l_book_count E x1 true None) (Ok 1).
Proof. vm_compute. reflexivity. Qed.

(** test_regroup: test/test_reference.py 670-677. *)
Example ref_673 : agree (x1 <- mk_list None [VStr (s2l "Matt 1:4-7, 9-15, 17-20, Luke, John")] ;; regroup E None x1) (mk_list None [VStr (s2l "Matt 1:4-7, 9-15, 17-20; Luke; John")]).
Proof. vm_compute. reflexivity. Qed.
Example ref_677 : agree (x1 <- mk_list None [VStr (s2l "Matt 1:4-7, 9-15, 17-20, John 2, 3, Luke 2:1-5, 6-10, 11-15")] ;; regroup E None x1) (mk_list None [VStr (s2l "Matt 1:4-7, 9-15, 17-20; John 2; 3; Luke 2:1-5, 6-10, 11-15")]).
Proof. vm_compute. reflexivity. Qed.

(** test_bible_range_list_merge: test/test_reference.py 679-694. *)
Example ref_683 : agree (x1 <- (x1 <- mk_list (Some MULTIBOOK) [VStr (s2l "John; Luke; Matt 1:17-20, 12-15, 9-11, 5-7, 4-6")] ;; l_sort E true x1) ;; merge E (Some NONE) x1) (mk_list None [VStr (s2l "Matt 1:4-7, 9-15, 17-20; Luke; John")]).
Proof. vm_compute. reflexivity. Qed.
Example ref_685 : agree (x1 <- (x1 <- (x1 <- mk_list (Some MULTIBOOK) [VStr (s2l "John; Luke; Matt 1:17-20, 12-15, 9-11, 5-7, 4-6")] ;; l_sort E true x1) ;; merge E (Some NONE) x1) ;; merge E (Some MULTIBOOK) x1) (mk_list (Some MULTIBOOK) [VStr (s2l "Matt 1:4-7, 9-15, 17-20; Luke-John")]).
Proof. vm_compute. reflexivity. Qed.
Example ref_690 : agree (x1 <- (x11 <- (x9 <- (x3 <- (x1 <- mk_range None [VStr (s2l "Mark 3:1-4:2")] ;; Ok (VRange x1)) ;; x4 <- (x2 <- mk_range None [VStr (s2l "Mark 5:6-8")] ;; Ok (VRange x2)) ;; Ok (VSeq [x3; x4])) ;; x10 <- (x7 <- (x5 <- mk_range None [VStr (s2l "Mark 5:10")] ;; Ok (VRange x5)) ;; x8 <- (x6 <- mk_range None [VStr (s2l "Matt 4")] ;; Ok (VRange x6)) ;; Ok (VSeq [x7; x8])) ;; Ok (VSeq [x9; x10])) ;; mk_list None [x11]) ;; Ok (zlen x1)) (Ok 2).
Proof. vm_compute. reflexivity. Qed.
Example ref_691 : agree (x1 <- (x11 <- (x9 <- (x3 <- (x1 <- mk_range None [VStr (s2l "Mark 3:1-4:2")] ;; Ok (VRange x1)) ;; x4 <- (x2 <- mk_range None [VStr (s2l "Mark 5:6-8")] ;; Ok (VRange x2)) ;; Ok (VSeq [x3; x4])) ;; x10 <- (x7 <- (x5 <- mk_range None [VStr (s2l "Mark 5:10")] ;; Ok (VRange x5)) ;; x8 <- (x6 <- mk_range None [VStr (s2l "Matt 4")] ;; Ok (VRange x6)) ;; Ok (VSeq [x7; x8])) ;; Ok (VSeq [x9; x10])) ;; mk_list None [x11]) ;; item_of 0 0 x1) (mk_range None [VStr (s2l "Mark 3:1-4:2")]).
Proof. vm_compute. reflexivity. Qed.
Example ref_692 : agree (x1 <- (x11 <- (x9 <- (x3 <- (x1 <- mk_range None [VStr (s2l "Mark 3:1-4:2")] ;; Ok (VRange x1)) ;; x4 <- (x2 <- mk_range None [VStr (s2l "Mark 5:6-8")] ;; Ok (VRange x2)) ;; Ok (VSeq [x3; x4])) ;; x10 <- (x7 <- (x5 <- mk_range None [VStr (s2l "Mark 5:10")] ;; Ok (VRange x5)) ;; x8 <- (x6 <- mk_range None [VStr (s2l "Matt 4")] ;; Ok (VRange x6)) ;; Ok (VSeq [x7; x8])) ;; Ok (VSeq [x9; x10])) ;; mk_list None [x11]) ;; item_of 0 1 x1) (mk_range None [VStr (s2l "Mark 5:6-8")]).
Proof. vm_compute. reflexivity. Qed.
Example ref_693 : agree (x1 <- (x11 <- (x9 <- (x3 <- (x1 <- mk_range None [VStr (s2l "Mark 3:1-4:2")] ;; Ok (VRange x1)) ;; x4 <- (x2 <- mk_range None [VStr (s2l "Mark 5:6-8")] ;; Ok (VRange x2)) ;; Ok (VSeq [x3; x4])) ;; x10 <- (x7 <- (x5 <- mk_range None [VStr (s2l "Mark 5:10")] ;; Ok (VRange x5)) ;; x8 <- (x6 <- mk_range None [VStr (s2l "Matt 4")] ;; Ok (VRange x6)) ;; Ok (VSeq [x7; x8])) ;; Ok (VSeq [x9; x10])) ;; mk_list None [x11]) ;; item_of 1 0 x1) (mk_range None [VStr (s2l "Mark 5:10")]).
Proof. vm_compute. reflexivity. Qed.
Example ref_694 : agree (x1 <- (x11 <- (x9 <- (x3 <- (x1 <- mk_range None [VStr (s2l "Mark 3:1-4:2")] ;; Ok (VRange x1)) ;; x4 <- (x2 <- mk_range None [VStr (s2l "Mark 5:6-8")] ;; Ok (VRange x2)) ;; Ok (VSeq [x3; x4])) ;; x10 <- (x7 <- (x5 <- mk_range None [VStr (s2l "Mark 5:10")] ;; Ok (VRange x5)) ;; x8 <- (x6 <- mk_range None [VStr (s2l "Matt 4")] ;; Ok (VRange x6)) ;; Ok (VSeq [x7; x8])) ;; Ok (VSeq [x9; x10])) ;; mk_list None [x11]) ;; item_of 1 1 x1) (mk_range None [VStr (s2l "Matt 4")]).
Proof. vm_compute. reflexivity. Qed.

(** test_bible_range_list_is_disjoint: test/test_reference.py 696-701. *)
Example ref_699 : holds (x2 <- mk_list None [VStr (s2l "Matt 2-4; Mark 6-8; Luke 10-12; John 14-16")] ;; x3 <- (x1 <- mk_list None [VStr (s2l "Matt 5-7; Mark 9-11; Luke 13-15; John 17-19")] ;; Ok (BL x1)) ;; l_is_disjoint E x2 x3).
Proof. vm_compute. reflexivity. Qed.
Example ref_700 : fails (x2 <- mk_list None [VStr (s2l "Matt 2-4; Mark 6-8; Luke 10-12; John 14-16")] ;; x3 <- (x1 <- mk_list None [VStr (s2l "Matt 5-7; Mark 9-11; Luke 12-15; John 17-19")] ;; Ok (BL x1)) ;; l_is_disjoint E x2 x3).
Proof. vm_compute. reflexivity. Qed.
Example ref_701 : fails (x2 <- mk_list None [VStr (s2l "Matt 2-4; Mark 6-8; Luke 10-12; John 14-16")] ;; x3 <- (x1 <- mk_list None [VStr (s2l "Matt 5-7; Mark 8:38-Mark 11; Luke 13-15; John 17-19")] ;; Ok (BL x1)) ;; l_is_disjoint E x2 x3).
Proof. vm_compute. reflexivity. Qed.

(** test_bible_range_list_contains: test/test_reference.py 703-710. *)
Example ref_706 : holds (x2 <- (x1 <- mk_list None [VStr (s2l "Matt 2-4; Mark 6-8; Luke 10-12; John 14-16")] ;; Ok (BL x1)) ;; x3 <- mk_list None [VStr (s2l "Matt 2-3, 4-5; Mark 5-9; Luke 9-11, 12-13; John")] ;; op_l_in E x2 x3).
Proof. vm_compute. reflexivity. Qed.
Example ref_707 : fails (x2 <- (x1 <- mk_list None [VStr (s2l "Matt 2-4; Mark 6-8; Luke 10-12; John 14-16")] ;; Ok (BL x1)) ;; x3 <- mk_list None [VStr (s2l "Matt 2-3, 5-7; Mark 5-9; Luke 9-11, 12-13; John")] ;; op_l_in E x2 x3).
Proof. vm_compute. reflexivity. Qed.
Example ref_708 : fails (x2 <- (x1 <- mk_list None [VStr (s2l "Matt 2-4; Mark 6-8; Luke 10-12; John 14-16")] ;; Ok (BL x1)) ;; x3 <- mk_list None [VStr (s2l "Matt 2-3, 4-5; Mark 7-9; Luke 9-11, 12-13; John")] ;; op_l_in E x2 x3).
Proof. vm_compute. reflexivity. Qed.
Example ref_709 : fails (x2 <- (x1 <- mk_list None [VStr (s2l "Matt 2-4; Mark 6-8; Luke 10-12; John 14-16")] ;; Ok (BL x1)) ;; x3 <- mk_list None [VStr (s2l "Matt 2-3, 4-5; Mark 6-9; Luke 10:2-Luke 12; John")] ;; op_l_in E x2 x3).
Proof. vm_compute. reflexivity. Qed.
Example ref_710 : fails (x2 <- (x1 <- mk_list None [VStr (s2l "Matt 2-4; Mark 6-8; Luke 10-12; John 14-16")] ;; Ok (BL x1)) ;; x3 <- mk_list None [VStr (s2l "Matt 2-3, 4-5; Mark 6-9; Luke 10:2-Luke 12; John 14:2-John 16")] ;; op_l_in E x2 x3).
Proof. vm_compute. reflexivity. Qed.

(** test_bible_range_list_union: test/test_reference.py 712-719. *)
Example ref_716 : agree (x2 <- mk_list None [VStr (s2l "Matt 2-4; Mark 6-8; Luke 10-12; John 14-16")] ;; x3 <- (x1 <- mk_list None [VStr (s2l "John 1-3; Luke 9; Matt 3-5; Mark 12")] ;; Ok (BL x1)) ;; op_l_or E x2 x3) (mk_list None [VStr (s2l "Matt 2-5; Mark 6-8; 12; Luke 9-12; John 1-3; 14-16")]).
Proof. vm_compute. reflexivity. Qed.
Example ref_719 : agree (x2 <- mk_list None [VStr (s2l "Matt 2-4; Mark 6-8; Luke 10-12; John 14-16")] ;; x3 <- (x1 <- mk_list None [VStr (s2l "John 12-13; Luke 13-15; Mark 1-3; Matt 15-16")] ;; Ok (BL x1)) ;; op_l_or E x2 x3) (mk_list None [VStr (s2l "Matt 2-4; 15-16; Mark 1-3; 6-8; Luke 10-15; John 12-16")]).
Proof. vm_compute. reflexivity. Qed.

(** test_bible_range_list_intersection: test/test_reference.py 721-728. *)
Example ref_725 : agree (x2 <- mk_list None [VStr (s2l "Matt 2-4; Mark 6-8; Luke 10-12; John 14-16")] ;; x3 <- (x1 <- mk_list None [VStr (s2l "John 1-3; Luke 9-10; Matt 3-5; Mark 12")] ;; Ok (BL x1)) ;; op_l_and E x2 x3) (mk_list None [VStr (s2l "Matt 3-4; Luke 10")]).
Proof. vm_compute. reflexivity. Qed.
Example ref_728 : agree (x2 <- mk_list None [VStr (s2l "Matt 2-4; Mark 6-8; Luke 10-12; John 14-16")] ;; x3 <- (x1 <- mk_list None [VStr (s2l "John 12-15; Luke 12-15; Mark 1-3; Matt 15-16")] ;; Ok (BL x1)) ;; op_l_and E x2 x3) (mk_list None [VStr (s2l "Luke 12; John 14-15")]).
Proof. vm_compute. reflexivity. Qed.

(** test_bible_range_list_difference: test/test_reference.py 730-737. *)
Example ref_734 : agree (x2 <- mk_list None [VStr (s2l "Matt 2-4; Mark 6-8; Luke 10-12; John 14-18")] ;; x3 <- (x1 <- mk_list None [VStr (s2l "John 1-3; Luke 9-10; Matt 3-5; Mark 12")] ;; Ok (BL x1)) ;; op_l_minus E F x2 x3) (mk_list None [VStr (s2l "Matt 2; Mark 6-8; Luke 11-12; John 14-18")]).
Proof. vm_compute. reflexivity. Qed.
Example ref_737 : agree (x2 <- mk_list None [VStr (s2l "Matt 2-4; Mark 6-8; Luke 10-12; John 14-18")] ;; x3 <- (x1 <- mk_list None [VStr (s2l "John 16; Luke 11; Mark 1-3; Matt 15-16")] ;; Ok (BL x1)) ;; op_l_minus E F x2 x3) (mk_list None [VStr (s2l "Matt 2-4; Mark 6-8; Luke 10; 12; John 14-15; 17-18")]).
Proof. vm_compute. reflexivity. Qed.

(** test_bible_range_list_sym_difference: test/test_reference.py 739-747. *)
Example ref_743 : agree (x2 <- mk_list None [VStr (s2l "Matt 2-4; Mark 6-8; Luke 10-12; John 14-18")] ;; x3 <- (x1 <- mk_list None [VStr (s2l "John 1-3; Luke 9-10; Matt 3-5; Mark 12")] ;; Ok (BL x1)) ;; op_l_xor E F x2 x3) (mk_list None [VStr (s2l "Matt 2; 5; Mark 6-8; 12; Luke 9; 11-12; John 1-3; 14-18")]).
Proof. vm_compute. reflexivity. Qed.
Example ref_746 : agree (x2 <- mk_list None [VStr (s2l "Matt 2-4; Mark 6-8; Luke 10-12; John 14-18")] ;; x3 <- (x1 <- mk_list None [VStr (s2l "John 16; Luke 11; Mark 1-3; Matt 15-16")] ;; Ok (BL x1)) ;; op_l_xor E F x2 x3) (mk_list None [VStr (s2l "Matt 2-4; 15-16; Mark 1-3; 6-8; Luke 10; 12; John 14-15; 17-18")]).
Proof. vm_compute. reflexivity. Qed.

(** test_bible_range_list_to_string: test/test_reference.py 749-929. *)
Example ref_751 : agree (x1 <- mk_list (Some MULTIBOOK) [VStr (s2l "Matthew 2:3-4:5; Matthew-Mark")] ;; list_str E (Look false false false) true false x1 None) (Ok (s2l "Matthew 2:3-4:5; Matthew-Mark")).
Proof. vm_compute. reflexivity. Qed.
Example ref_756 : agree (x1 <- mk_list None [VStr (s2l "Matthew 2:3, Matthew 3-4:5")] ;; list_str E (Look false false false) false false x1 None) (Ok (s2l "Matthew 2:3; 3-4:5")).
Proof. vm_compute. reflexivity. Qed.
Example ref_759 : agree (x1 <- mk_list None [VStr (s2l "Matthew 2:3, Matthew 3-4:5")] ;; list_str E (Look false false false) false true x1 None) (Ok (s2l "Matthew 2:3; 3:1-4:5")).
Proof. vm_compute. reflexivity. Qed.
Example ref_762 : agree (x1 <- mk_list None [VStr (s2l "Matthew 2:3; Matthew 3-4:5")] ;; list_str E (Look false false false) true false x1 None) (Ok (s2l "Matthew 2:3; 3-4:5")).
Proof. vm_compute. reflexivity. Qed.
Example ref_765 : agree (x1 <- mk_list None [VStr (s2l "Matthew 2:3; Matthew 3-4:5")] ;; list_str E (Look false false false) true true x1 None) (Ok (s2l "Matthew 2:3; 3:1-4:5")).
Proof. vm_compute. reflexivity. Qed.
Example ref_768 : agree (x1 <- mk_list None [VStr (s2l "Matthew 2:3, Matthew 3-4")] ;; list_str E (Look false false false) true false x1 None) (Ok (s2l "Matthew 2:3, 3:1-4:25")).
Proof. vm_compute. reflexivity. Qed.
Example ref_772 : agree (x1 <- mk_list None [VStr (s2l "Matthew 2, Matthew 3-4:5")] ;; list_str E (Look false false false) false false x1 None) (Ok (s2l "Matthew 2; 3-4:5")).
Proof. vm_compute. reflexivity. Qed.
Example ref_775 : agree (x1 <- mk_list None [VStr (s2l "Matthew 2, Matthew 3-4:5")] ;; list_str E (Look false false false) false true x1 None) (Ok (s2l "Matthew 2; 3:1-4:5")).
Proof. vm_compute. reflexivity. Qed.
Example ref_778 : agree (x1 <- mk_list None [VStr (s2l "Matthew 2; Matthew 3-4:5")] ;; list_str E (Look false false false) false false x1 None) (Ok (s2l "Matthew 2; 3-4:5")).
Proof. vm_compute. reflexivity. Qed.
Example ref_781 : agree (x1 <- mk_list None [VStr (s2l "Matthew 2; Matthew 3-4:5")] ;; list_str E (Look false false false) false true x1 None) (Ok (s2l "Matthew 2; 3:1-4:5")).
Proof. vm_compute. reflexivity. Qed.
Example ref_784 : agree (x1 <- mk_list None [VStr (s2l "Matthew 2, Matthew 3:1-4:25")] ;; list_str E (Look false false false) true false x1 None) (Ok (s2l "Matthew 2, 3-4")).
Proof. vm_compute. reflexivity. Qed.
Example ref_787 : agree (x1 <- mk_list None [VStr (s2l "Matthew 2, Matthew 3:1-4:25")] ;; list_str E (Look false false false) true true x1 None) (Ok (s2l "Matthew 2, 3-4")).
Proof. vm_compute. reflexivity. Qed.
Example ref_790 : agree (x1 <- mk_list None [VStr (s2l "Matthew 2, Matthew 3:1-4:5")] ;; list_str E (Look false false false) true false x1 None) (Ok (s2l "Matthew 2, 3:1-4:5")).
Proof. vm_compute. reflexivity. Qed.
Example ref_794 : agree (x1 <- mk_list None [VStr (s2l "Matthew 2:3, Mark 3-4:5")] ;; list_str E (Look false false false) false false x1 None) (Ok (s2l "Matthew 2:3; Mark 3-4:5")).
Proof. vm_compute. reflexivity. Qed.
Example ref_797 : agree (x1 <- mk_list None [VStr (s2l "Matthew 2:3, Mark 3-4:5")] ;; list_str E (Look false false false) false true x1 None) (Ok (s2l "Matthew 2:3; Mark 3:1-4:5")).
Proof. vm_compute. reflexivity. Qed.
Example ref_800 : agree (x1 <- mk_list None [VStr (s2l "Matthew 2:3, Mark 3-4:5")] ;; list_str E (Look false false false) true false x1 None) (Ok (s2l "Matthew 2:3, Mark 3-4:5")).
Proof. vm_compute. reflexivity. Qed.
Example ref_803 : agree (x1 <- mk_list None [VStr (s2l "Matthew 2:3, Mark 3-4:5")] ;; list_str E (Look false false false) true true x1 None) (Ok (s2l "Matthew 2:3, Mark 3:1-4:5")).
Proof. vm_compute. reflexivity. Qed.
Example ref_808 : agree (x1 <- mk_list None [VStr (s2l "Matthew 2:3, Matthew 2:6-10")] ;; list_str E (Look false false false) true false x1 None) (Ok (s2l "Matthew 2:3, 6-10")).
Proof. vm_compute. reflexivity. Qed.
Example ref_811 : agree (x1 <- mk_list None [VStr (s2l "Matthew 2:3, Matthew 2:6-5:7")] ;; list_str E (Look false false false) true false x1 None) (Ok (s2l "Matthew 2:3, 2:6-5:7")).
Proof. vm_compute. reflexivity. Qed.
Example ref_814 : agree (x1 <- mk_list None [VStr (s2l "Matthew 2:3, Matthew 2:6-5:7")] ;; list_str E (Look false false false) false false x1 None) (Ok (s2l "Matthew 2:3; 2:6-5:7")).
Proof. vm_compute. reflexivity. Qed.
Example ref_817 : agree (x1 <- mk_list (Some MULTIBOOK) [VStr (s2l "Matthew 2:3, Matthew 2:6-John 5:7")] ;; list_str E (Look false false false) true false x1 None) (Ok (s2l "Matthew 2:3, 2:6-John 5:7")).
Proof. vm_compute. reflexivity. Qed.
Example ref_820 : agree (x1 <- mk_list None [VStr (s2l "Matthew 2, Matthew 2:6-5:7")] ;; list_str E (Look false false false) false false x1 None) (Ok (s2l "Matthew 2; 2:6-5:7")).
Proof. vm_compute. reflexivity. Qed.
Example ref_823 : agree (x1 <- mk_list None [VStr (s2l "Matthew 2, Matthew 2:6-5:7")] ;; list_str E (Look false false false) true false x1 None) (Ok (s2l "Matthew 2, 2:6-5:7")).
Proof. vm_compute. reflexivity. Qed.
Example ref_826 : agree (x1 <- mk_list None [VStr (s2l "Matthew 2:3, Matthew 3:6-5:7")] ;; list_str E (Look false false false) false false x1 None) (Ok (s2l "Matthew 2:3; 3:6-5:7")).
Proof. vm_compute. reflexivity. Qed.
Example ref_829 : agree (x1 <- mk_list None [VStr (s2l "Matthew 2:3, Matthew 3:6-5:7")] ;; list_str E (Look false false false) true false x1 None) (Ok (s2l "Matthew 2:3, 3:6-5:7")).
Proof. vm_compute. reflexivity. Qed.
Example ref_833 : agree (x1 <- mk_list None [VStr (s2l "Matthew 2:3, Mark 2:6-5:7")] ;; list_str E (Look false false false) false false x1 None) (Ok (s2l "Matthew 2:3; Mark 2:6-5:7")).
Proof. vm_compute. reflexivity. Qed.
Example ref_836 : agree (x1 <- mk_list None [VStr (s2l "Matthew 2:3, Mark 2:6-5:7")] ;; list_str E (Look false false false) true false x1 None) (Ok (s2l "Matthew 2:3, Mark 2:6-5:7")).
Proof. vm_compute. reflexivity. Qed.
Example ref_841 : agree (x1 <- mk_list None [VStr (s2l "Matthew 2:3-4:5; Matthew")] ;; list_str E (Look false false false) true false x1 None) (Ok (s2l "Matthew 2:3-4:5; Matthew")).
Proof. vm_compute. reflexivity. Qed.
Example ref_845 : agree (x1 <- mk_list None [VStr (s2l "Matthew 2:3-4:5; Matthew 7")] ;; list_str E (Look false false false) true false x1 None) (Ok (s2l "Matthew 2:3-4:5; 7")).
Proof. vm_compute. reflexivity. Qed.
Example ref_848 : agree (x1 <- mk_list None [VStr (s2l "Matthew 2:3-4:5, Matthew 7")] ;; list_str E (Look false false false) false false x1 None) (Ok (s2l "Matthew 2:3-4:5; 7")).
Proof. vm_compute. reflexivity. Qed.
Example ref_851 : agree (x1 <- mk_list None [VStr (s2l "Matthew 2:3-4:5, Matthew 7")] ;; list_str E (Look false false false) true false x1 None) (Ok (s2l "Matthew 2:3-4:5, 7:1-29")).
Proof. vm_compute. reflexivity. Qed.
Example ref_855 : agree (x1 <- mk_list None [VStr (s2l "Matthew 2:3-4:5; Matthew 10:3")] ;; list_str E (Look false false false) true false x1 None) (Ok (s2l "Matthew 2:3-4:5; 10:3")).
Proof. vm_compute. reflexivity. Qed.
Example ref_858 : agree (x1 <- mk_list None [VStr (s2l "Matthew 2:3-4:5, Matthew 10:3")] ;; list_str E (Look false false false) false false x1 None) (Ok (s2l "Matthew 2:3-4:5; 10:3")).
Proof. vm_compute. reflexivity. Qed.
Example ref_861 : agree (x1 <- mk_list None [VStr (s2l "Matthew 2:3-4:5, Matthew 10:3")] ;; list_str E (Look false false false) true false x1 None) (Ok (s2l "Matthew 2:3-4:5, 10:3")).
Proof. vm_compute. reflexivity. Qed.
Example ref_866 : agree (x1 <- mk_list (Some MULTIBOOK) [VStr (s2l "Matthew 2:3-4:5; 6:7-Mark")] ;; list_str E (Look false false false) true false x1 None) (Ok (s2l "Matthew 2:3-4:5; 6:7-Mark")).
Proof. vm_compute. reflexivity. Qed.
Example ref_870 : agree (x1 <- mk_list None [VStr (s2l "Matthew 2:3-4:5; Matthew 6-9")] ;; list_str E (Look false false false) true false x1 None) (Ok (s2l "Matthew 2:3-4:5; 6-9")).
Proof. vm_compute. reflexivity. Qed.
Example ref_873 : agree (x1 <- mk_list (Some MULTIBOOK) [VStr (s2l "Matthew 2:3-4:5; Matthew 6-Mark 3")] ;; list_str E (Look false false false) true false x1 None) (Ok (s2l "Matthew 2:3-4:5; 6-Mark 3")).
Proof. vm_compute. reflexivity. Qed.
Example ref_877 : agree (x1 <- mk_list None [VStr (s2l "Matthew 2:3-4:5; Matthew 6:2-9:38")] ;; list_str E (Look false false false) true false x1 None) (Ok (s2l "Matthew 2:3-4:5; 6:2-9:38")).
Proof. vm_compute. reflexivity. Qed.
Example ref_880 : agree (x1 <- mk_list (Some MULTIBOOK) [VStr (s2l "Matthew 2:3-4:5; Matthew 6:4-Mark 3")] ;; list_str E (Look false false false) true false x1 None) (Ok (s2l "Matthew 2:3-4:5; 6:4-Mark 3")).
Proof. vm_compute. reflexivity. Qed.
Example ref_884 : agree (x1 <- mk_list None [VStr (s2l "Matthew 2:3-4:5; Matthew 6:2-9:5")] ;; list_str E (Look false false false) true false x1 None) (Ok (s2l "Matthew 2:3-4:5; 6:2-9:5")).
Proof. vm_compute. reflexivity. Qed.
Example ref_887 : agree (x1 <- mk_list (Some MULTIBOOK) [VStr (s2l "Matthew 2:3-4:5; Matthew 6:4-Mark 3:8")] ;; list_str E (Look false false false) true false x1 None) (Ok (s2l "Matthew 2:3-4:5; 6:4-Mark 3:8")).
Proof. vm_compute. reflexivity. Qed.
Example ref_892 : agree (x1 <- mk_list None [VStr (s2l "Matthew 2:3-4:5, 7, 9; 11-12")] ;; list_str E (Look false false false) true false x1 None) (Ok (s2l "Matthew 2:3-4:5, 7, 9; 11-12")).
Proof. vm_compute. reflexivity. Qed.
Example ref_897 : agree (x1 <- mk_list None [VStr (s2l "Matthew 2:3-4:5, 7; Matthew 4:9, Matthew 11-12")] ;; list_str E (Look false false false) true false x1 None) (Ok (s2l "Matthew 2:3-4:5, 7; 4:9, 11:1-12:50")).
Proof. vm_compute. reflexivity. Qed.
Example ref_900 : agree (x1 <- mk_list None [VStr (s2l "Matthew 2:3-4:5, 7; Matthew 4:9, Matthew 11-12")] ;; list_str E (Look false false false) false false x1 None) (Ok (s2l "Matthew 2:3-4:5, 7, 9; 11-12")).
Proof. vm_compute. reflexivity. Qed.
Example ref_906 : agree (x1 <- mk_list None [(VStr ((s2l "Matthew; Mark 2; Jude 5; 8; Obadiah 2-3; John 3:16-18; 10-14:2; ") ++ (s2l "Romans 1:10-22; 2; 3:20-22, 24, 4:2-5:2, 10")))] ;; list_str E (Look false false false) true false x1 None) (Ok ((s2l "Matthew; Mark 2; Jude 5; 8; Obadiah 2-3; John 3:16-18; 10-14:2; ") ++ (s2l "Romans 1:10-22; 2; 3:20-22, 24, 4:2-5:2, 10"))).
Proof. vm_compute. reflexivity. Qed.
Example ref_912 : agree (x1 <- mk_list None [(VStr ((s2l "Matthew; Mark 2; Jude 5; 8; Obadiah 2-3; John 3:16-18; 10-14:2; ") ++ (s2l "Romans 1:10-22; 2; 3:20-22, 24, 4:2-5:2, 10")))] ;; list_str E (Look true false false) true false x1 None) (Ok ((s2l "Matt; Mark 2; Jude 5; 8; Obad 2-3; John 3:16-18; 10-14:2; ") ++ (s2l "Rom 1:10-22; 2; 3:20-22, 24, 4:2-5:2, 10"))).
Proof. vm_compute. reflexivity. Qed.
Example ref_918 : agree (x1 <- mk_list None [(VStr ((s2l "Matthew; Mark 2; Jude 5; 8; Obadiah 2-3; John 3:16-18; 10-14:2; ") ++ (s2l "Romans 1:10-22; 2; 3:20-22, 24, 4:2-5:2, 10")))] ;; list_str E (Look true true false) true false x1 None) (Ok ((s2l "Matt; Mark 2; Jude 5; 8; Obad 2-3; John 3.16-18; 10-14.2; ") ++ (s2l "Rom 1.10-22; 2; 3.20-22, 24, 4.2-5.2, 10"))).
Proof. vm_compute. reflexivity. Qed.
Example ref_924 : agree (x1 <- mk_list None [(VStr ((s2l "Matthew; Mark 2; Jude 5; 8; Obadiah 2-3; John 3:16-18; 10-14:2; ") ++ (s2l "Romans 1:10-22; 2; 3:20-22, 24, 4:2-5:2, 10")))] ;; list_str E (Look true true true) true false x1 None) (Ok ((s2l "Matt;Mark2;Jude5;8;Obad2-3;John3.16-18;10-14.2;") ++ (s2l "Rom1.10-22;2;3.20-22,24,4.2-5.2,10"))).
Proof. vm_compute. reflexivity. Qed.

(** test_bible_range_list_sort: test/test_reference.py 931-941. *)
Example ref_939 : agree (x1 <- (x1 <- mk_list None [(VStr ((s2l "Matt 2:3-4:5; Mark 3:4-5:6; Mark 3:4-5:5; Gen 1:2-3:4; ") ++ (s2l "Matt 2:3-4:4; 1 Sam 2:2-3:3; Matt 1:2-11:1")))] ;; l_sort E true x1) ;; list_str E (Look true false false) false false x1 None) (Ok ((s2l "Gen 1:2-3:4; 1Sam 2:2-3:3; Matt 1:2-11:1; 2:3-4:4; ") ++ (s2l "2:3-4:5; Mark 3:4-5:5; 3:4-5:6"))).
Proof. vm_compute. reflexivity. Qed.
Example ref_940 : agree (x1 <- (x1 <- mk_list None [(VStr ((s2l "Matt 2:3-4:5; Mark 3:4-5:6; Mark 3:4-5:5; Gen 1:2-3:4; ") ++ (s2l "Matt 2:3-4:4; 1 Sam 2:2-3:3; Matt 1:2-11:1")))] ;; l_sort E true x1) ;; first_of x1) (mk_range None [VStr (s2l "Gen 1:2-3:4")]).
Proof. vm_compute. reflexivity. Qed.
Example ref_941 : agree (x1 <- (x1 <- mk_list None [(VStr ((s2l "Matt 2:3-4:5; Mark 3:4-5:6; Mark 3:4-5:5; Gen 1:2-3:4; ") ++ (s2l "Matt 2:3-4:4; 1 Sam 2:2-3:3; Matt 1:2-11:1")))] ;; l_sort E true x1) ;; last_of x1) (mk_range None [VStr (s2l "Mark 3:4-5:6")]).
Proof. vm_compute. reflexivity. Qed.

(** test_construction: test/test_util.py 7-11. *)
Example util_8 : agree (x1 <- (@g_init Z []) ;; g_iter x1) (Ok []).
Proof. vm_compute. reflexivity. Qed.
Example util_9 : agree (x1 <- (g_init (map OneItem [1])) ;; g_iter x1) (Ok [1]).
Proof. vm_compute. reflexivity. Qed.
Definition list_7_1 : res (glist Z) := (g_init (map OneItem [5; 8; 2; 7; 3; 10])).
Example util_11 : agree (x1 <- list_7_1 ;; g_iter x1) (Ok [5; 8; 2; 7; 3; 10]).
Proof. vm_compute. reflexivity. Qed.

(** test_conform_index: test/test_util.py 13-16. *)
Definition list_13_1 : res (glist Z) := (g_init (map OneItem [5; 8; 2; 7; 3; 10])).
Example util_15 : agree (x1 <- list_13_1 ;; conform_index (-2) x1) (x3 <- (x2 <- list_13_1 ;; Ok (g_cnt x2)) ;; Ok ((-2) + x3)).
Proof. vm_compute. reflexivity. Qed.
Example util_16 : raises IndexErr (x2 <- list_13_1 ;; x3 <- (x1 <- list_13_1 ;; Ok (g_cnt x1)) ;; conform_index x3 x2).
Proof. vm_compute. reflexivity. Qed.

(** test_node_at: test/test_util.py 18-22. *)
Definition list_18_1 : res (glist Z) := (g_init (map OneItem [5; 8; 2; 7; 3; 10])).
Example util_20 : agree (x1 <- list_18_1 ;; node_at 0 x1) (x2 <- list_18_1 ;; Ok (g_first x2)).
Proof. vm_compute. reflexivity. Qed.
Example util_21 : agree (x1 <- list_18_1 ;; node_at (-1) x1) (x2 <- list_18_1 ;; Ok (g_last x2)).
Proof. vm_compute. reflexivity. Qed.
Example util_22 : agree (x1 <- list_18_1 ;; node_at 2 x1) (x5 <- (x3 <- (x2 <- list_18_1 ;; Ok (g_first x2)) ;; x4 <- list_18_1 ;; k <- deref x3 ;; Ok (n_next x4 k)) ;; x6 <- list_18_1 ;; k <- deref x5 ;; Ok (n_next x6 k)).
Proof. vm_compute. reflexivity. Qed.

(** test_insert_first: test/test_util.py 24-29. *)
Definition list_24_1 : res (glist Z) := (@g_init Z []).
Definition list_24_2 : res (glist Z) := (x1 <- list_24_1 ;; insert_first 6 x1).
Example util_27 : agree (x1 <- list_24_2 ;; Ok (g_first x1)) (x2 <- list_24_2 ;; Ok (g_last x2)).
Proof. vm_compute. reflexivity. Qed.
Example util_28 : agree (x2 <- (x1 <- list_24_2 ;; Ok (g_first x1)) ;; x3 <- list_24_2 ;; k <- deref x2 ;; value x3 k) (Ok 6).
Proof. vm_compute. reflexivity. Qed.
Example util_29 : agree (x1 <- list_24_2 ;; Ok (g_cnt x1)) (Ok 1).
Proof. vm_compute. reflexivity. Qed.

(** test_insert_before: test/test_util.py 31-36. *)
Definition list_31_1 : res (glist Z) := (g_init (map OneItem [5; 8; 2; 7; 3; 10])).
Definition list_31_2 : res (glist Z) := (x2 <- list_31_1 ;; x3 <- (x1 <- list_31_1 ;; node_at 3 x1) ;; insert_before x3 12 false x2).
Example util_34 : agree (x1 <- list_31_2 ;; g_iter x1) (Ok [5; 8; 2; 12; 7; 3; 10]).
Proof. vm_compute. reflexivity. Qed.
Definition list_31_3 : res (glist Z) := (x2 <- list_31_2 ;; x3 <- (x1 <- list_31_2 ;; node_at 0 x1) ;; insert_before x3 14 false x2).
Example util_36 : agree (x1 <- list_31_3 ;; g_iter x1) (Ok [14; 5; 8; 2; 12; 7; 3; 10]).
Proof. vm_compute. reflexivity. Qed.

(** test_insert_after: test/test_util.py 38-43. *)
Definition list_38_1 : res (glist Z) := (g_init (map OneItem [5; 8; 2; 7; 3; 10])).
Definition list_38_2 : res (glist Z) := (x2 <- list_38_1 ;; x3 <- (x1 <- list_38_1 ;; node_at 3 x1) ;; insert_after x3 12 false x2).
Example util_41 : agree (x1 <- list_38_2 ;; g_iter x1) (Ok [5; 8; 2; 7; 12; 3; 10]).
Proof. vm_compute. reflexivity. Qed.
Definition list_38_3 : res (glist Z) := (x2 <- list_38_2 ;; x3 <- (x1 <- list_38_2 ;; node_at (-1) x1) ;; insert_after x3 14 false x2).
Example util_43 : agree (x1 <- list_38_3 ;; g_iter x1) (Ok [5; 8; 2; 7; 12; 3; 10; 14]).
Proof. vm_compute. reflexivity. Qed.

(** test_pop_node: test/test_util.py 45-61. *)
Definition list_45_1 : res (glist Z) := (g_init (map OneItem [1])).
Definition list_45_2 : res (glist Z) := (x5 <- (x2 <- list_45_1 ;; x3 <- (x1 <- list_45_1 ;; node_at 0 x1) ;; pop_node x3 x2) ;; Ok (snd x5)).
Example util_48 : agree (x4 <- (x2 <- list_45_1 ;; x3 <- (x1 <- list_45_1 ;; node_at 0 x1) ;; pop_node x3 x2) ;; Ok (fst x4)) (Ok 1).
Proof. vm_compute. reflexivity. Qed.
Example util_49 : agree (x1 <- list_45_2 ;; g_iter x1) (Ok []).
Proof. vm_compute. reflexivity. Qed.
Example util_50 : holds (x1 <- list_45_2 ;; x2 <- (@g_init Z []) ;; equals Z.eqb true x1 x2).
Proof. vm_compute. reflexivity. Qed.
Example util_51 : agree (x1 <- list_45_2 ;; Ok (g_cnt x1)) (Ok 0).
Proof. vm_compute. reflexivity. Qed.
Definition list_45_3 : res (glist Z) := (g_init (map OneItem [5; 8; 2; 7; 3; 10])).
Definition list_45_4 : res (glist Z) := (x5 <- (x2 <- list_45_3 ;; x3 <- (x1 <- list_45_3 ;; node_at 0 x1) ;; pop_node x3 x2) ;; Ok (snd x5)).
Example util_55 : agree (x4 <- (x2 <- list_45_3 ;; x3 <- (x1 <- list_45_3 ;; node_at 0 x1) ;; pop_node x3 x2) ;; Ok (fst x4)) (Ok 5).
Proof. vm_compute. reflexivity. Qed.
Example util_56 : agree (x1 <- list_45_4 ;; g_iter x1) (Ok [8; 2; 7; 3; 10]).
Proof. vm_compute. reflexivity. Qed.
Example util_57 : agree (x1 <- list_45_4 ;; Ok (g_cnt x1)) (Ok 5).
Proof. vm_compute. reflexivity. Qed.
Definition list_45_5 : res (glist Z) := (x5 <- (x2 <- list_45_4 ;; x3 <- (x1 <- list_45_4 ;; node_at (-1) x1) ;; pop_node x3 x2) ;; Ok (snd x5)).
Example util_59 : agree (x4 <- (x2 <- list_45_4 ;; x3 <- (x1 <- list_45_4 ;; node_at (-1) x1) ;; pop_node x3 x2) ;; Ok (fst x4)) (Ok 10).
Proof. vm_compute. reflexivity. Qed.
Example util_60 : agree (x1 <- list_45_5 ;; g_iter x1) (Ok [8; 2; 7; 3]).
Proof. vm_compute. reflexivity. Qed.
Example util_61 : agree (x1 <- list_45_5 ;; Ok (g_cnt x1)) (Ok 4).
Proof. vm_compute. reflexivity. Qed.

(** test_pop_before: test/test_util.py 63-68. *)
Definition list_63_1 : res (glist Z) := (g_init (map OneItem [5; 8; 2; 7; 3; 10])).
Example util_65 : raises IndexErr (x2 <- list_63_1 ;; x3 <- (x1 <- list_63_1 ;; node_at 0 x1) ;; pop_before x3 x2).
Proof. vm_compute. reflexivity. Qed.
Definition list_63_2 : res (glist Z) := (x5 <- (x2 <- list_63_1 ;; x3 <- (x1 <- list_63_1 ;; node_at 3 x1) ;; pop_before x3 x2) ;; Ok (snd x5)).
Example util_67 : agree (x4 <- (x2 <- list_63_1 ;; x3 <- (x1 <- list_63_1 ;; node_at 3 x1) ;; pop_before x3 x2) ;; Ok (fst x4)) (Ok 2).
Proof. vm_compute. reflexivity. Qed.
Example util_68 : agree (x1 <- list_63_2 ;; g_iter x1) (Ok [5; 8; 7; 3; 10]).
Proof. vm_compute. reflexivity. Qed.

(** test_pop_after: test/test_util.py 70-75. *)
Definition list_70_1 : res (glist Z) := (g_init (map OneItem [5; 8; 2; 7; 3; 10])).
Example util_72 : raises IndexErr (x2 <- list_70_1 ;; x3 <- (x1 <- list_70_1 ;; node_at (-1) x1) ;; pop_after x3 x2).
Proof. vm_compute. reflexivity. Qed.
Definition list_70_2 : res (glist Z) := (x5 <- (x2 <- list_70_1 ;; x3 <- (x1 <- list_70_1 ;; node_at 2 x1) ;; pop_after x3 x2) ;; Ok (snd x5)).
Example util_74 : agree (x4 <- (x2 <- list_70_1 ;; x3 <- (x1 <- list_70_1 ;; node_at 2 x1) ;; pop_after x3 x2) ;; Ok (fst x4)) (Ok 7).
Proof. vm_compute. reflexivity. Qed.
Example util_75 : agree (x1 <- list_70_2 ;; g_iter x1) (Ok [5; 8; 2; 3; 10]).
Proof. vm_compute. reflexivity. Qed.

(** test_prepend: test/test_util.py 77-82. *)
Definition list_77_1 : res (glist Z) := (@g_init Z []).
Definition list_77_2 : res (glist Z) := (x1 <- list_77_1 ;; prepend 1 false x1).
Example util_80 : agree (x1 <- list_77_2 ;; g_iter x1) (Ok [1]).
Proof. vm_compute. reflexivity. Qed.
Definition list_77_3 : res (glist Z) := (x1 <- list_77_2 ;; prepend 2 false x1).
Example util_82 : agree (x1 <- list_77_3 ;; g_iter x1) (Ok [2; 1]).
Proof. vm_compute. reflexivity. Qed.

(** test_append: test/test_util.py 84-89. *)
Definition list_84_1 : res (glist Z) := (@g_init Z []).
Definition list_84_2 : res (glist Z) := (x1 <- list_84_1 ;; append 1 false x1).
Example util_87 : agree (x1 <- list_84_2 ;; g_iter x1) (Ok [1]).
Proof. vm_compute. reflexivity. Qed.
Definition list_84_3 : res (glist Z) := (x1 <- list_84_2 ;; append 2 false x1).
Example util_89 : agree (x1 <- list_84_3 ;; g_iter x1) (Ok [1; 2]).
Proof. vm_compute. reflexivity. Qed.

(** test_insert: test/test_util.py 91-99. *)
Definition list_91_1 : res (glist Z) := (@g_init Z []).
Definition list_91_2 : res (glist Z) := (x1 <- list_91_1 ;; insert 0 1 x1).
Example util_94 : agree (x1 <- list_91_2 ;; g_iter x1) (Ok [1]).
Proof. vm_compute. reflexivity. Qed.
Definition list_91_3 : res (glist Z) := (x1 <- list_91_2 ;; insert 0 2 x1).
Definition list_91_4 : res (glist Z) := (x1 <- list_91_3 ;; insert 1 3 x1).
Example util_97 : agree (x1 <- list_91_4 ;; g_iter x1) (Ok [2; 3; 1]).
Proof. vm_compute. reflexivity. Qed.
Definition list_91_5 : res (glist Z) := (x1 <- list_91_4 ;; insert 3 4 x1).
Example util_99 : agree (x1 <- list_91_5 ;; g_iter x1) (Ok [2; 3; 1; 4]).
Proof. vm_compute. reflexivity. Qed.

(** test_index: test/test_util.py 101-106. *)
Definition list_101_1 : res (glist Z) := (g_init (map OneItem [5; 3; 6; 3; 1; 7; 1; 6; 9; 3])).
Example util_103 : agree (x1 <- list_101_1 ;; index Z.eqb 3 None None x1) (Ok 1).
Proof. vm_compute. reflexivity. Qed.
Example util_104 : agree (x1 <- list_101_1 ;; index Z.eqb 3 (Some 2) None x1) (Ok 3).
Proof. vm_compute. reflexivity. Qed.
Example util_105 : agree (x2 <- list_101_1 ;; x3 <- (x1 <- list_101_1 ;; Ok (g_cnt x1)) ;; index Z.eqb 3 (Some 4) (Some x3) x2) (Ok 9).
Proof. vm_compute. reflexivity. Qed.
Example util_106 : raises ValueErr (x1 <- list_101_1 ;; index Z.eqb 3 (Some 4) (Some (-1)) x1).
Proof. vm_compute. reflexivity. Qed.

(** test_count: test/test_util.py 108-114. *)
Definition list_108_1 : res (glist Z) := (g_init (map OneItem [5; 3; 6; 3; 1; 7; 1; 6; 9; 3])).
Example util_110 : agree (x1 <- list_108_1 ;; count Z.eqb 5 x1) (Ok 1).
Proof. vm_compute. reflexivity. Qed.
Example util_111 : agree (x1 <- list_108_1 ;; count Z.eqb 3 x1) (Ok 3).
Proof. vm_compute. reflexivity. Qed.
Example util_112 : agree (x1 <- list_108_1 ;; count Z.eqb 6 x1) (Ok 2).
Proof. vm_compute. reflexivity. Qed.
Example util_113 : agree (x1 <- list_108_1 ;; count Z.eqb 1 x1) (Ok 2).
Proof. vm_compute. reflexivity. Qed.
Example util_114 : agree (x1 <- list_108_1 ;; count Z.eqb 10 x1) (Ok 0).
Proof. vm_compute. reflexivity. Qed.

(** test_pop: test/test_util.py 116-126. *)
Definition list_116_1 : res (glist Z) := (g_init (map OneItem [5; 8; 2; 7; 3; 10])).
Definition list_116_2 : res (glist Z) := (x3 <- (x1 <- list_116_1 ;; pop None x1) ;; Ok (snd x3)).
Example util_119 : agree (x2 <- (x1 <- list_116_1 ;; pop None x1) ;; Ok (fst x2)) (Ok 10).
Proof. vm_compute. reflexivity. Qed.
Example util_120 : agree (x1 <- list_116_2 ;; g_iter x1) (Ok [5; 8; 2; 7; 3]).
Proof. vm_compute. reflexivity. Qed.
Definition list_116_3 : res (glist Z) := (x3 <- (x1 <- list_116_2 ;; pop (Some 0) x1) ;; Ok (snd x3)).
Example util_122 : agree (x2 <- (x1 <- list_116_2 ;; pop (Some 0) x1) ;; Ok (fst x2)) (Ok 5).
Proof. vm_compute. reflexivity. Qed.
Example util_123 : agree (x1 <- list_116_3 ;; g_iter x1) (Ok [8; 2; 7; 3]).
Proof. vm_compute. reflexivity. Qed.
Definition list_116_4 : res (glist Z) := (x3 <- (x1 <- list_116_3 ;; pop (Some 2) x1) ;; Ok (snd x3)).
Example util_125 : agree (x2 <- (x1 <- list_116_3 ;; pop (Some 2) x1) ;; Ok (fst x2)) (Ok 7).
Proof. vm_compute. reflexivity. Qed.
Example util_126 : agree (x1 <- list_116_4 ;; g_iter x1) (Ok [8; 2; 3]).
Proof. vm_compute. reflexivity. Qed.

(** test_clear: test/test_util.py 128-131. *)
Definition list_128_1 : res (glist Z) := (g_init (map OneItem [5; 8; 2; 7; 3; 10])).
Definition list_128_2 : res (glist Z) := (x1 <- list_128_1 ;; Ok (clear x1)).
Example util_131 : agree (x1 <- list_128_2 ;; g_iter x1) (Ok []).
Proof. vm_compute. reflexivity. Qed.

(** test_len: test/test_util.py 133-135. *)
Definition list_133_1 : res (glist Z) := (g_init (map OneItem [5; 8; 2; 7; 3; 10])).
Example util_135 : agree (x1 <- list_133_1 ;; Ok (g_cnt x1)) (Ok 6).
Proof. vm_compute. reflexivity. Qed.

(** test_len: test/test_util.py 137-140. *)
Definition list_137_1 : res (glist Z) := (g_init (map OneItem [5; 8; 2; 7; 3; 10])).
Example util_139 : holds (x1 <- list_137_1 ;; mem Z.eqb 2 x1).
Proof. vm_compute. reflexivity. Qed.
Example util_140 : fails (x1 <- list_137_1 ;; mem Z.eqb 9 x1).
Proof. vm_compute. reflexivity. Qed.

(** test_get_set: test/test_util.py 142-152. *)
Definition list_142_1 : res (glist Z) := (g_init (map OneItem [5; 8; 2; 7; 3; 10])).
Example util_144 : agree (x1 <- list_142_1 ;; get_item 0 x1) (Ok 5).
Proof. vm_compute. reflexivity. Qed.
Example util_145 : agree (x1 <- list_142_1 ;; get_item 5 x1) (Ok 10).
Proof. vm_compute. reflexivity. Qed.
Example util_146 : agree (x1 <- list_142_1 ;; get_item 3 x1) (Ok 7).
Proof. vm_compute. reflexivity. Qed.
Definition list_142_2 : res (glist Z) := (x1 <- list_142_1 ;; set_item 0 20 x1).
Definition list_142_3 : res (glist Z) := (x1 <- list_142_2 ;; set_item 5 30 x1).
Definition list_142_4 : res (glist Z) := (x1 <- list_142_3 ;; set_item 3 40 x1).
Example util_150 : agree (x1 <- list_142_4 ;; get_item 0 x1) (Ok 20).
Proof. vm_compute. reflexivity. Qed.
Example util_151 : agree (x1 <- list_142_4 ;; get_item 5 x1) (Ok 30).
Proof. vm_compute. reflexivity. Qed.
Example util_152 : agree (x1 <- list_142_4 ;; get_item 3 x1) (Ok 40).
Proof. vm_compute. reflexivity. Qed.

(** test_del: test/test_util.py 154-161. *)
Definition list_154_1 : res (glist Z) := (g_init (map OneItem [5; 8; 2; 7; 3; 10])).
Definition list_154_2 : res (glist Z) := (x1 <- list_154_1 ;; del_item 0 x1).
Example util_157 : agree (x1 <- list_154_2 ;; g_iter x1) (Ok [8; 2; 7; 3; 10]).
Proof. vm_compute. reflexivity. Qed.
Definition list_154_3 : res (glist Z) := (x1 <- list_154_2 ;; del_item 4 x1).
Example util_159 : agree (x1 <- list_154_3 ;; g_iter x1) (Ok [8; 2; 7; 3]).
Proof. vm_compute. reflexivity. Qed.
Definition list_154_4 : res (glist Z) := (x1 <- list_154_3 ;; del_item 2 x1).
Example util_161 : agree (x1 <- list_154_4 ;; g_iter x1) (Ok [8; 2; 3]).
Proof. vm_compute. reflexivity. Qed.

(** test_reversed: test/test_util.py 163-165. *)
Definition list_163_1 : res (glist Z) := (g_init (map OneItem [5; 8; 2; 7; 3; 10])).
Example util_165 : agree (x1 <- list_163_1 ;; g_reversed x1) (Ok [10; 3; 7; 2; 8; 5]).
Proof. vm_compute. reflexivity. Qed.

(** test_extend: test/test_util.py 167-170. *)
Definition list_167_1 : res (glist Z) := (g_init (map OneItem [5; 8; 2; 7; 3; 10])).
Definition list_167_2 : res (glist Z) := (x1 <- list_167_1 ;; extend [12; 9; 20] x1).
Example util_170 : agree (x1 <- list_167_2 ;; g_iter x1) (Ok [5; 8; 2; 7; 3; 10; 12; 9; 20]).
Proof. vm_compute. reflexivity. Qed.

(** test_remove: test/test_util.py 172-175. *)
Definition list_172_1 : res (glist Z) := (g_init (map OneItem [5; 8; 2; 7; 3; 10; 2])).
Definition list_172_2 : res (glist Z) := (x1 <- list_172_1 ;; remove Z.eqb 2 x1).
Example util_175 : agree (x1 <- list_172_2 ;; g_iter x1) (Ok [5; 8; 7; 3; 10; 2]).
Proof. vm_compute. reflexivity. Qed.

(** test_reverse: test/test_util.py 177-180. *)
Definition list_177_1 : res (glist Z) := (g_init (map OneItem [5; 8; 2; 7; 3; 10])).
Definition list_177_2 : res (glist Z) := (x1 <- list_177_1 ;; reverse x1).
Example util_180 : agree (x1 <- list_177_2 ;; g_iter x1) (Ok [10; 3; 7; 2; 8; 5]).
Proof. vm_compute. reflexivity. Qed.

(** test_iadd: test/test_util.py 182-185. *)
Definition list_182_1 : res (glist Z) := (g_init (map OneItem [5; 8; 2; 7; 3; 10])).
Definition list_182_2 : res (glist Z) := (x1 <- list_182_1 ;; extend [12; 9; 20] x1).
Example util_185 : agree (x1 <- list_182_2 ;; g_iter x1) (Ok [5; 8; 2; 7; 3; 10; 12; 9; 20]).
Proof. vm_compute. reflexivity. Qed.

(** test_group_construction: test/test_util.py 187-189. *)
Definition list_187_1 : res (glist Z) := (g_init (map GroupItem [[2; 8; 4]; [1; 9; 6]; [3; 7; 5]])).
Example util_189 : agree (x1 <- list_187_1 ;; to_nested_lists x1) (Ok [[2; 8; 4]; [1; 9; 6]; [3; 7; 5]]).
Proof. vm_compute. reflexivity. Qed.

(** test_groups_view: test/test_util.py 191-198. *)
Definition list_191_1 : res (glist Z) := (g_init (map GroupItem [[2; 8; 4]; [1; 9; 6]; [3; 7; 5]])).
Example util_193 : agree (x1 <- list_191_1 ;; Ok (group_count x1)) (Ok 3).
Proof. vm_compute. reflexivity. Qed.
Example util_194 : agree (x2 <- (x1 <- list_191_1 ;; group_at 2 x1) ;; x3 <- list_191_1 ;; k <- deref x2 ;; value x3 k) (Ok 3).
Proof. vm_compute. reflexivity. Qed.
Example util_196 : agree (x2 <- (x1 <- (x1 <- list_191_1 ;; group_heads x1) ;; nth_view 0 x1) ;; x3 <- list_191_1 ;; k <- deref x2 ;; value x3 k) (Ok 2).
Proof. vm_compute. reflexivity. Qed.
Example util_197 : agree (x2 <- (x1 <- (x1 <- list_191_1 ;; group_heads x1) ;; nth_view 1 x1) ;; x3 <- list_191_1 ;; k <- deref x2 ;; value x3 k) (Ok 1).
Proof. vm_compute. reflexivity. Qed.
Example util_198 : agree (x2 <- (x1 <- (x1 <- list_191_1 ;; group_heads x1) ;; nth_view 2 x1) ;; x3 <- list_191_1 ;; k <- deref x2 ;; value x3 k) (Ok 3).
Proof. vm_compute. reflexivity. Qed.

(** test_group_view: test/test_util.py 200-209. *)
Definition list_200_1 : res (glist Z) := (g_init (map GroupItem [[2; 8; 4]; [1; 9; 6]; [3; 7; 5]])).
Example util_203 : agree (x1 <- (x1 <- list_200_1 ;; group_at 0 x1) ;; x2 <- list_200_1 ;; view_get x1 0 x2) (Ok 2).
Proof. vm_compute. reflexivity. Qed.
Example util_204 : agree (x1 <- (x1 <- list_200_1 ;; group_at 0 x1) ;; x2 <- list_200_1 ;; view_get x1 1 x2) (Ok 8).
Proof. vm_compute. reflexivity. Qed.
Example util_205 : agree (x1 <- (x1 <- list_200_1 ;; group_at 0 x1) ;; x2 <- list_200_1 ;; view_get x1 2 x2) (Ok 4).
Proof. vm_compute. reflexivity. Qed.
Example util_207 : agree (x2 <- (x1 <- list_200_1 ;; group_at 2 x1) ;; x3 <- list_200_1 ;; view_get x2 0 x3) (Ok 3).
Proof. vm_compute. reflexivity. Qed.
Example util_208 : agree (x2 <- (x1 <- list_200_1 ;; group_at 2 x1) ;; x3 <- list_200_1 ;; view_get x2 1 x3) (Ok 7).
Proof. vm_compute. reflexivity. Qed.
Example util_209 : agree (x2 <- (x1 <- list_200_1 ;; group_at 2 x1) ;; x3 <- list_200_1 ;; view_get x2 2 x3) (Ok 5).
Proof. vm_compute. reflexivity. Qed.

(** test_group_head_deletion: test/test_util.py 211-242. *)
Definition list_211_1 : res (glist Z) := (g_init (map GroupItem [[2; 8; 4]; [1; 9; 6]; [3; 7; 5]])).
Example util_215 : agree (x1 <- list_211_1 ;; to_nested_lists x1) (Ok [[2; 8; 4]; [1; 9; 6]; [3; 7; 5]]).
Proof. vm_compute. reflexivity. Qed.
Example util_216 : agree (x1 <- list_211_1 ;; Ok (group_count x1)) (Ok 3).
Proof. vm_compute. reflexivity. Qed.
Example util_217 : agree (x1 <- (x1 <- list_211_1 ;; group_at 1 x1) ;; x2 <- list_211_1 ;; view_get x1 0 x2) (Ok 1).
Proof. vm_compute. reflexivity. Qed.
Example util_218 : agree (x1 <- (x1 <- list_211_1 ;; group_at 2 x1) ;; x2 <- list_211_1 ;; view_get x1 0 x2) (Ok 3).
Proof. vm_compute. reflexivity. Qed.
Definition list_211_2 : res (glist Z) := (x1 <- list_211_1 ;; del_item 3 x1).
Example util_221 : agree (x1 <- list_211_2 ;; to_nested_lists x1) (Ok [[2; 8; 4]; [9; 6]; [3; 7; 5]]).
Proof. vm_compute. reflexivity. Qed.
Example util_222 : agree (x1 <- list_211_2 ;; Ok (group_count x1)) (Ok 3).
Proof. vm_compute. reflexivity. Qed.
Example util_223 : raises GroupViewErr (x1 <- (x1 <- list_211_1 ;; group_at 1 x1) ;; x2 <- list_211_2 ;; view_get x1 0 x2).
Proof. vm_compute. reflexivity. Qed.
Example util_224 : agree (x1 <- (x1 <- list_211_1 ;; group_at 2 x1) ;; x2 <- list_211_2 ;; view_get x1 0 x2) (Ok 3).
Proof. vm_compute. reflexivity. Qed.
Definition list_211_3 : res (glist Z) := (x1 <- list_211_2 ;; del_item 3 x1).
Example util_227 : agree (x1 <- list_211_3 ;; to_nested_lists x1) (Ok [[2; 8; 4]; [6]; [3; 7; 5]]).
Proof. vm_compute. reflexivity. Qed.
Example util_228 : agree (x1 <- list_211_3 ;; Ok (group_count x1)) (Ok 3).
Proof. vm_compute. reflexivity. Qed.
Example util_229 : raises GroupViewErr (x1 <- (x1 <- list_211_1 ;; group_at 1 x1) ;; x2 <- list_211_3 ;; view_get x1 0 x2).
Proof. vm_compute. reflexivity. Qed.
Example util_230 : agree (x1 <- (x1 <- list_211_1 ;; group_at 2 x1) ;; x2 <- list_211_3 ;; view_get x1 0 x2) (Ok 3).
Proof. vm_compute. reflexivity. Qed.
Definition list_211_4 : res (glist Z) := (x1 <- list_211_3 ;; del_item 3 x1).
Example util_233 : agree (x1 <- list_211_4 ;; to_nested_lists x1) (Ok [[2; 8; 4]; [3; 7; 5]]).
Proof. vm_compute. reflexivity. Qed.
Example util_234 : agree (x1 <- list_211_4 ;; Ok (group_count x1)) (Ok 2).
Proof. vm_compute. reflexivity. Qed.
Example util_235 : raises GroupViewErr (x1 <- (x1 <- list_211_1 ;; group_at 1 x1) ;; x2 <- list_211_4 ;; view_get x1 0 x2).
Proof. vm_compute. reflexivity. Qed.
Example util_236 : agree (x1 <- (x1 <- list_211_1 ;; group_at 2 x1) ;; x2 <- list_211_4 ;; view_get x1 0 x2) (Ok 3).
Proof. vm_compute. reflexivity. Qed.
Definition list_211_5 : res (glist Z) := (x1 <- list_211_4 ;; del_item 3 x1).
Definition list_211_6 : res (glist Z) := (x1 <- list_211_5 ;; del_item 3 x1).
Definition list_211_7 : res (glist Z) := (x1 <- list_211_6 ;; del_item 3 x1).
Example util_241 : agree (x1 <- list_211_7 ;; Ok (group_count x1)) (Ok 1).
Proof. vm_compute. reflexivity. Qed.
Example util_242 : agree (x1 <- list_211_7 ;; to_nested_lists x1) (Ok [[2; 8; 4]]).
Proof. vm_compute. reflexivity. Qed.

(** test_group_prepend: test/test_util.py 244-250. *)
Definition list_244_1 : res (glist Z) := (g_init (map GroupItem [[2; 8; 4]; [1; 9; 6]])).
Example util_246 : agree (x1 <- list_244_1 ;; to_nested_lists x1) (Ok [[2; 8; 4]; [1; 9; 6]]).
Proof. vm_compute. reflexivity. Qed.
Definition list_244_2 : res (glist Z) := (x1 <- list_244_1 ;; prepend 3 false x1).
Example util_248 : agree (x1 <- list_244_2 ;; to_nested_lists x1) (Ok [[3; 2; 8; 4]; [1; 9; 6]]).
Proof. vm_compute. reflexivity. Qed.
Definition list_244_3 : res (glist Z) := (x1 <- list_244_2 ;; prepend 7 true x1).
Example util_250 : agree (x1 <- list_244_3 ;; to_nested_lists x1) (Ok [[7]; [3; 2; 8; 4]; [1; 9; 6]]).
Proof. vm_compute. reflexivity. Qed.

(** test_group_insert_before: test/test_util.py 252-282. *)
Definition list_252_1 : res (glist Z) := (g_init (map GroupItem [[2; 8; 4]; [1; 9; 6]])).
Example util_254 : agree (x1 <- list_252_1 ;; to_nested_lists x1) (Ok [[2; 8; 4]; [1; 9; 6]]).
Proof. vm_compute. reflexivity. Qed.
Example util_255 : agree (x1 <- list_252_1 ;; Ok (g_fhead x1)) (x2 <- list_252_1 ;; node_at 0 x2).
Proof. vm_compute. reflexivity. Qed.
Example util_256 : agree (x1 <- list_252_1 ;; Ok (g_lhead x1)) (x2 <- list_252_1 ;; node_at 3 x2).
Proof. vm_compute. reflexivity. Qed.
Definition list_252_2 : res (glist Z) := (x2 <- list_252_1 ;; x3 <- (x1 <- list_252_1 ;; node_at 3 x1) ;; insert_before x3 7 false x2).
Example util_259 : agree (x1 <- list_252_2 ;; to_nested_lists x1) (Ok [[2; 8; 4]; [7; 1; 9; 6]]).
Proof. vm_compute. reflexivity. Qed.
Example util_260 : agree (x1 <- list_252_2 ;; Ok (g_fhead x1)) (x2 <- list_252_2 ;; node_at 0 x2).
Proof. vm_compute. reflexivity. Qed.
Example util_261 : agree (x1 <- list_252_2 ;; Ok (g_lhead x1)) (x2 <- list_252_2 ;; node_at 3 x2).
Proof. vm_compute. reflexivity. Qed.
Definition list_252_3 : res (glist Z) := (x2 <- list_252_2 ;; x3 <- (x1 <- list_252_2 ;; node_at 3 x1) ;; insert_before x3 5 true x2).
Example util_264 : agree (x1 <- list_252_3 ;; to_nested_lists x1) (Ok [[2; 8; 4]; [5]; [7; 1; 9; 6]]).
Proof. vm_compute. reflexivity. Qed.
Example util_265 : agree (x1 <- list_252_3 ;; Ok (g_fhead x1)) (x2 <- list_252_3 ;; node_at 0 x2).
Proof. vm_compute. reflexivity. Qed.
Example util_266 : agree (x1 <- list_252_3 ;; Ok (g_lhead x1)) (x2 <- list_252_3 ;; node_at 4 x2).
Proof. vm_compute. reflexivity. Qed.
Definition list_252_4 : res (glist Z) := (x2 <- list_252_3 ;; x3 <- (x1 <- list_252_3 ;; node_at 2 x1) ;; insert_before x3 3 false x2).
Example util_269 : agree (x1 <- list_252_4 ;; to_nested_lists x1) (Ok [[2; 8; 3; 4]; [5]; [7; 1; 9; 6]]).
Proof. vm_compute. reflexivity. Qed.
Example util_270 : agree (x1 <- list_252_4 ;; Ok (g_fhead x1)) (x2 <- list_252_4 ;; node_at 0 x2).
Proof. vm_compute. reflexivity. Qed.
Example util_271 : agree (x1 <- list_252_4 ;; Ok (g_lhead x1)) (x2 <- list_252_4 ;; node_at 5 x2).
Proof. vm_compute. reflexivity. Qed.
Definition list_252_5 : res (glist Z) := (x2 <- list_252_4 ;; x3 <- (x1 <- list_252_4 ;; node_at 2 x1) ;; insert_before x3 10 true x2).
Example util_274 : agree (x1 <- list_252_5 ;; to_nested_lists x1) (Ok [[2; 8]; [10; 3; 4]; [5]; [7; 1; 9; 6]]).
Proof. vm_compute. reflexivity. Qed.
Example util_275 : agree (x1 <- list_252_5 ;; Ok (g_fhead x1)) (x2 <- list_252_5 ;; node_at 0 x2).
Proof. vm_compute. reflexivity. Qed.
Example util_276 : agree (x1 <- list_252_5 ;; Ok (g_lhead x1)) (x2 <- list_252_5 ;; node_at 6 x2).
Proof. vm_compute. reflexivity. Qed.
Definition list_252_6 : res (glist Z) := (g_init (map OneItem [5])).
Definition list_252_7 : res (glist Z) := (x2 <- list_252_6 ;; x3 <- (x1 <- list_252_6 ;; node_at 0 x1) ;; insert_before x3 6 false x2).
Example util_280 : agree (x1 <- list_252_7 ;; to_nested_lists x1) (Ok [[6; 5]]).
Proof. vm_compute. reflexivity. Qed.
Example util_281 : agree (x1 <- list_252_7 ;; Ok (g_fhead x1)) (x2 <- list_252_7 ;; node_at 0 x2).
Proof. vm_compute. reflexivity. Qed.
Example util_282 : agree (x1 <- list_252_7 ;; Ok (g_lhead x1)) (x2 <- list_252_7 ;; node_at 0 x2).
Proof. vm_compute. reflexivity. Qed.

(** test_group_pop_node: test/test_util.py 284-292. *)
Definition list_284_1 : res (glist Z) := (g_init (map GroupItem [[2; 8; 4]; [1; 9; 6]])).
Example util_286 : agree (x1 <- list_284_1 ;; to_nested_lists x1) (Ok [[2; 8; 4]; [1; 9; 6]]).
Proof. vm_compute. reflexivity. Qed.
Example util_287 : agree (x1 <- list_284_1 ;; Ok (g_fhead x1)) (x2 <- list_284_1 ;; node_at 0 x2).
Proof. vm_compute. reflexivity. Qed.
Example util_288 : agree (x1 <- list_284_1 ;; Ok (g_lhead x1)) (x2 <- list_284_1 ;; node_at 3 x2).
Proof. vm_compute. reflexivity. Qed.
Definition list_284_2 : res (glist Z) := (x1 <- list_284_1 ;; q <- pop (Some 0) x1 ;; Ok (snd q)).
Example util_290 : agree (x1 <- list_284_2 ;; to_nested_lists x1) (Ok [[8; 4]; [1; 9; 6]]).
Proof. vm_compute. reflexivity. Qed.
Example util_291 : agree (x1 <- list_284_2 ;; Ok (g_fhead x1)) (x2 <- list_284_2 ;; node_at 0 x2).
Proof. vm_compute. reflexivity. Qed.
Example util_292 : agree (x1 <- list_284_2 ;; Ok (g_lhead x1)) (x2 <- list_284_2 ;; node_at 2 x2).
Proof. vm_compute. reflexivity. Qed.

(** test_group_item_modify: test/test_util.py 294-301. *)
Definition list_294_1 : res (glist Z) := (g_init (map GroupItem [[2; 8; 4]; [1; 9; 6]; [3; 7; 5]])).
Example util_296 : agree (x1 <- list_294_1 ;; to_nested_lists x1) (Ok [[2; 8; 4]; [1; 9; 6]; [3; 7; 5]]).
Proof. vm_compute. reflexivity. Qed.
Definition list_294_2 : res (glist Z) := (x2 <- (x1 <- list_294_1 ;; group_at 1 x1) ;; x3 <- list_294_1 ;; view_set x2 2 20 x3).
Example util_298 : agree (x1 <- list_294_2 ;; to_nested_lists x1) (Ok [[2; 8; 4]; [1; 9; 20]; [3; 7; 5]]).
Proof. vm_compute. reflexivity. Qed.
Definition list_294_3 : res (glist Z) := (x2 <- (x1 <- list_294_2 ;; group_at 1 x1) ;; x3 <- list_294_2 ;; view_del x2 2 x3).
Example util_301 : agree (x1 <- list_294_3 ;; to_nested_lists x1) (Ok [[2; 8; 4]; [1; 9]; [3; 7; 5]]).
Proof. vm_compute. reflexivity. Qed.

(** test_group_equals: test/test_util.py 303-312. *)
Definition list_303_1 : res (glist Z) := (g_init (map GroupItem [[1; 2; 3]; [4; 5; 6]; [7; 8]; [9; 10]])).
Definition list_303_2 : res (glist Z) := (g_init (map GroupItem [[1; 2; 3]; [4; 5; 6]; [7; 8; 9]; [10]])).
Example util_306 : fails (x1 <- list_303_1 ;; x2 <- list_303_2 ;; equals Z.eqb true x1 x2).
Proof. vm_compute. reflexivity. Qed.
Example util_307 : holds (x1 <- list_303_1 ;; x2 <- list_303_2 ;; equals Z.eqb false x1 x2).
Proof. vm_compute. reflexivity. Qed.
Example util_308 : holds (x1 <- list_303_1 ;; equals_plain Z.eqb false x1 [1; 2; 3; 4; 5; 6; 7; 8; 9; 10]).
Proof. vm_compute. reflexivity. Qed.
Definition list_303_3 : res (glist Z) := (g_init (map OneItem [1; 2; 3; 4; 5; 6; 7; 8; 9; 10])).
Definition list_303_4 : res (glist Z) := (g_init (map OneItem [1; 2; 3; 4; 5; 6; 7; 8; 9; 11])).
Example util_312 : fails (x1 <- list_303_3 ;; x2 <- list_303_4 ;; equals Z.eqb true x1 x2).
Proof. vm_compute. reflexivity. Qed.

(** test_group_insert_at_index: test/test_util.py 314-318. *)
Definition list_314_1 : res (glist Z) := (g_init (map OneItem [1; 2; 3; 4; 5; 6; 7; 8; 9; 10])).
Definition list_314_2 : res (glist Z) := (x1 <- list_314_1 ;; insert_group_at 3 x1).
Definition list_314_3 : res (glist Z) := (x1 <- list_314_2 ;; insert_group_at 7 x1).
Example util_318 : holds (x1 <- list_314_3 ;; x2 <- (g_init (map GroupItem [[1; 2; 3]; [4; 5; 6; 7]; [8; 9; 10]])) ;; equals Z.eqb true x1 x2).
Proof. vm_compute. reflexivity. Qed.

(** test_clear: test/test_util.py 320-323. *)
Definition list_320_1 : res (glist Z) := (g_init (map GroupItem [[1; 2; 3]; [4; 5; 6]; [7; 8]; [9; 10]])).
Definition list_320_2 : res (glist Z) := (x1 <- list_320_1 ;; Ok (clear x1)).
Example util_323 : holds (x1 <- list_320_2 ;; x2 <- (@g_init Z []) ;; equals Z.eqb true x1 x2).
Proof. vm_compute. reflexivity. Qed.

(** test_clear_groups: test/test_util.py 325-328. *)
Definition list_325_1 : res (glist Z) := (g_init (map GroupItem [[1; 2; 3]; [4; 5; 6]; [7; 8]; [9; 10]])).
Definition list_325_2 : res (glist Z) := (x1 <- list_325_1 ;; clear_groups x1).
Example util_328 : holds (x1 <- list_325_2 ;; x2 <- (g_init (map OneItem [1; 2; 3; 4; 5; 6; 7; 8; 9; 10])) ;; equals Z.eqb true x1 x2).
Proof. vm_compute. reflexivity. Qed.

(** test_basic_sort: test/test_util.py 330-337. *)
Definition list_330_1 : res (glist Z) := (g_init (map OneItem [10; 1; 9; 2; 8; 3; 7; 4; 6; 5])).
Definition list_330_2 : res (glist Z) := (x1 <- list_330_1 ;; sort Z.leb x1).
Example util_334 : holds (x1 <- list_330_2 ;; x2 <- (g_init (map OneItem [1; 2; 3; 4; 5; 6; 7; 8; 9; 10])) ;; equals Z.eqb true x1 x2).
Proof. vm_compute. reflexivity. Qed.
Example util_335 : agree (x2 <- (x1 <- list_330_2 ;; Ok (g_first x1)) ;; x3 <- list_330_2 ;; k <- deref x2 ;; value x3 k) (Ok 1).
Proof. vm_compute. reflexivity. Qed.
Example util_336 : agree (x2 <- (x1 <- list_330_2 ;; Ok (g_last x1)) ;; x3 <- list_330_2 ;; k <- deref x2 ;; value x3 k) (Ok 10).
Proof. vm_compute. reflexivity. Qed.
Example util_337 : holds (x1 <- list_330_2 ;; is_single_group x1).
Proof. vm_compute. reflexivity. Qed.

(** test_sort_of_groups: test/test_util.py 339-345. *)
Definition list_339_1 : res (glist Z) := (g_init (map GroupItem [[12; 3; 20]; [18; 5; 11]; [1; 8]; [15]; [2; 6; 14]])).
Definition list_339_2 : res (glist Z) := (x1 <- list_339_1 ;; sort Z.leb x1).
Example util_342 : holds (x1 <- list_339_2 ;; x2 <- (g_init (map OneItem [1; 2; 3; 5; 6; 8; 11; 12; 14; 15; 18; 20])) ;; equals Z.eqb true x1 x2).
Proof. vm_compute. reflexivity. Qed.
Example util_343 : agree (x2 <- (x1 <- list_339_2 ;; Ok (g_first x1)) ;; x3 <- list_339_2 ;; k <- deref x2 ;; value x3 k) (Ok 1).
Proof. vm_compute. reflexivity. Qed.
Example util_344 : agree (x2 <- (x1 <- list_339_2 ;; Ok (g_last x1)) ;; x3 <- list_339_2 ;; k <- deref x2 ;; value x3 k) (Ok 20).
Proof. vm_compute. reflexivity. Qed.
Example util_345 : holds (x1 <- list_339_2 ;; is_single_group x1).
Proof. vm_compute. reflexivity. Qed.

(** ** The loops over all books: test/test_reference.py 21-23, 608-625. *)
Definition for_books (f : book -> Prop) : Prop := fold_right (fun b p => f b /\ p) True all_books.
Ltac for_books := unfold for_books; cbv [all_books fold_right]; repeat (split; [vm_compute; try split; reflexivity|]); exact I.
Definition text_range (s : str) : res range := mk_range None [VStr s].
Example ref_22 : for_books (fun b =>
  agree (book_verse_count E b None) (x <- text_range (book_name default_data false b) ;; verse_count E x None)).
Proof. for_books. Qed.
Example ref_23 : for_books (fun b =>
  agree (Ok (chap_count E b)) (x <- text_range (book_name default_data false b) ;; r_chap_count E x false None)).
Proof. for_books. Qed.
Definition orig_range (b : book) : res range := mk_range None [VBook b; VInt 1; VInt 1; VNone; VInt 1; VInt 2].
Definition there_and_back (abbrev : bool) (b : book) : res range :=
  x <- orig_range b ;; s <- range_str E (Look abbrev false false) false x None ;; text_range s.
Example ref_620 : for_books (fun b => agree (orig_range b) (there_and_back true b)).
Proof. for_books. Qed.
Example ref_625 : for_books (fun b => agree (orig_range b) (there_and_back false b)).
Proof. for_books. Qed.

(** test_bibleref_flags: no exception with the flags ALL (test/test_reference.py 219-221). *)
Example ref_220 : is_ok (mk_range_in (denv ALL) None [VBook Matt; VNone; VNone; VBook John]) = true.
Proof. vm_compute. reflexivity. Qed.
Example ref_221 : is_ok (mk_verse_in (denv ALL) None [VBook Psa; VInt 3; VInt 0]) = true.
Proof. vm_compute. reflexivity. Qed.

(** ** test/test_parser.py *)
Definition rng := mk_range None.
Example parser_36 :
  agree (snd (parse E None ts_init (s2l "Matthew; Mark 2; Jude 5; 8; Obadiah 2-3; John 3.16-18; 10-14:2;" ++
                                    s2l "Romans 1:10-22; 2; 3:20-22, 24, 4:2-5:2, 10")))
        (mapM (mapM rng) [
           [[VBook Matt]];
           [[VBook Mark; VInt 2]];
           [[VBook Jude; VInt 1; VInt 5]];
           [[VBook Jude; VInt 1; VInt 8]];
           [[VBook Obad; VInt 1; VInt 2; VNone; VNone; VInt 3]];
           [[VBook John; VInt 3; VInt 16; VNone; VNone; VInt 18]];
           [[VBook John; VInt 10; VInt 1; VNone; VInt 14; VInt 2]];
           [[VBook Rom; VInt 1; VInt 10; VNone; VNone; VInt 22]];
           [[VBook Rom; VInt 2]];
           [[VBook Rom; VInt 3; VInt 20; VNone; VNone; VInt 22];
            [VBook Rom; VInt 3; VInt 24];
            [VBook Rom; VInt 4; VInt 2; VNone; VInt 5; VInt 2];
            [VBook Rom; VInt 5; VInt 10]]]).
Proof. vm_compute. reflexivity. Qed.
Example parser_47 : raises (ParseErr 8 10) (snd (parse E None ts_init (s2l "Mark 2, 20, 3"))).
Proof. vm_compute. reflexivity. Qed.

(** ** test/test_bibleref.py *)
(** The same package through both calls: the second text is read with the new separators. *)
Definition read_1 := w_list_from_str start_world None (s2l "Mark 3:1-4:2; 5:6-8, 10; Matt 4").
Definition read_2 :=
  let w := set_range_sep (fst read_1) "_"%char in
  let w := set_major_sep w "|"%char in
  let w := set_minor_sep w "/"%char in
  let w := set_verse_sep_std w ","%char in
  let w := set_verse_sep_alt w "*"%char in
  w_list_from_str w None (s2l "Mark 3,1_4,2| 5,6_8/ 10| Matt 4").
Example bibleref_28 : agree (snd read_1) (snd read_2).
Proof. vm_compute. reflexivity. Qed.

(** ** The examples of README.md *)
Definition lst (s : string) : res rlist := mk_list None [VStr (s2l s)].
Definition vrs (s : string) : res verse := mk_verse None [VStr (s2l s)].
Definition text (s : string) : res str := Ok (s2l s).
Definition nth_range (i : Z) (l : rlist) : res range := or_index (znth (items l) i).
Definition list_1 := lst "Mark 2-3:6; 4; 6:1-6, 30-44, 56; Luke 2".
Example readme_33 : agree (l <- list_1 ;; list_text E l) (text "Mark 2-3:6; 4; 6:1-6, 30-44, 56; Luke 2").
Proof. vm_compute. reflexivity. Qed.
Example readme_35 : agree (l <- list_1 ;; Ok (zlen (items l))) (Ok 6).
Proof. vm_compute. reflexivity. Qed.
Example readme_37 : agree (l <- list_1 ;; x <- nth_range 0 l ;; range_repr E x) (text "BibleRange(Mark 2-3:6)").
Proof. vm_compute. reflexivity. Qed.
Example readme_39 : agree (l <- list_1 ;; x <- nth_range 1 l ;; range_repr E x) (text "BibleRange(Mark 4)").
Proof. vm_compute. reflexivity. Qed.
Example readme_41 : agree (l <- list_1 ;; x <- nth_range 5 l ;; Ok (verse_repr E (rstart x))) (text "BibleVerse(Luke 2:1)").
Proof. vm_compute. reflexivity. Qed.
Example readme_43 : agree (l <- list_1 ;; x <- nth_range 5 l ;; Ok (verse_repr E (rend x))) (text "BibleVerse(Luke 2:52)").
Proof. vm_compute. reflexivity. Qed.
Example readme_45 : agree (l <- list_1 ;; x <- nth_range 5 l ;; Ok (rend x)) (Ok (V Luke 2 52)).
Proof. vm_compute. reflexivity. Qed.
Example readme_51 : agree (l <- list_1 ;; Ok (zlen l)) (Ok 4).
Proof. vm_compute. reflexivity. Qed.
Example readme_53 : agree (l <- list_1 ;; g <- or_index (znth l 2) ;; mapM (range_repr E) g)
  (Ok (map s2l ["BibleRange(Mark 6:1-6)"; "BibleRange(Mark 6:30-44)"; "BibleRange(Mark 6:56)"]%string)).
Proof. vm_compute. reflexivity. Qed.
Example readme_61 : agree (v <- vrs "Mark 2:23" ;; w <- some (op_add E v (OInt 10)) ;; Ok (verse_repr E w)) (text "BibleVerse(Mark 3:5)").
Proof. vm_compute. reflexivity. Qed.
Example readme_63 : agree (v <- vrs "Mark 3:5" ;; w <- vrs "Mark 2:23" ;; got_int (op_sub E v (OVerse w))) (Ok 10).
Proof. vm_compute. reflexivity. Qed.
(** Line 64 leaves [regroup] at its default, True (ref.py 874); the text in line 65 is that of [regroup=False]. *)
Definition split_1_john (re : bool) : res str :=
  x <- text_range (s2l "1 John") ;; l <- split E F x false true (Some 15) re None ;; list_repr E l.
Example readme_65 : agree (split_1_john false)
  (text "BibleRangeList(""1 John 1, 2:1-15, 16-29, 3:1-15, 16-24, 4:1-15, 16-21, 5:1-15, 16-21"")").
Proof. vm_compute. reflexivity. Qed.
Example readme_65_default : agree (split_1_john true)
  (text "BibleRangeList(""1 John 1; 2:1-15, 16-29; 3:1-15, 16-24; 4:1-15, 16-21; 5:1-15, 16-21"")").
Proof. vm_compute. reflexivity. Qed.
Example readme_67 : agree (x <- text_range (s2l "Mark 6:1-3") ;; l <- iter_range E F x ;; Ok (map (verse_text E) l))
  (Ok (map s2l ["Mark 6:1"; "Mark 6:2"; "Mark 6:3"]%string)).
Proof. vm_compute. reflexivity. Qed.
(** From here on with the global flags MULTIBOOK. *)
Definition M : env := denv MULTIBOOK.
Definition mlst (s : string) : res rlist := mk_list_in M None [VStr (s2l s)].
Example readme_74 : agree (x <- mk_range_in M None [VStr (s2l "Matt 10-John 10")] ;; range_repr M x) (text "BibleRange(Matthew 10-John 10)").
Proof. vm_compute. reflexivity. Qed.
Definition list_2 := mlst "Matt 2-4; Mark 6-8; Luke 10-12; John 14-16".
Definition list_3 := mlst "John 1-3; Luke 9; Matt 3-5; Mark 12".
Example readme_78 : agree (l <- list_2 ;; m <- list_3 ;; n <- op_l_or M l (BL m) ;; list_repr M n)
  (text "BibleRangeList(""Matthew 2-5; Mark 6-8; 12; Luke 9-12; John 1-3; 14-16"")").
Proof. vm_compute. reflexivity. Qed.
Example readme_80 : agree (l <- list_2 ;; m <- list_3 ;; n <- op_l_and M l (BL m) ;; list_repr M n) (text "BibleRangeList(""Matthew 3-4"")").
Proof. vm_compute. reflexivity. Qed.
Example readme_82 : agree (l <- list_2 ;; m <- list_3 ;; n <- op_l_minus M F l (BL m) ;; list_repr M n)
  (text "BibleRangeList(""Matthew 2; Mark 6-8; Luke 10-12; John 14-16"")").
Proof. vm_compute. reflexivity. Qed.
Example readme_84 : agree (l <- list_2 ;; m <- list_3 ;; n <- op_l_xor M F l (BL m) ;; list_repr M n)
  (text "BibleRangeList(""Matthew 2; 5; Mark 6-8; 12; Luke 9-12; John 1-3; 14-16"")").
Proof. vm_compute. reflexivity. Qed.
Definition list_4 := mlst "Mark 3:2-4:5; 1 John 1:5-3 John 8;".
Example readme_87 : agree (l <- list_4 ;; l_verse_count M l None) (Ok 161).
Proof. vm_compute. reflexivity. Qed.
Example readme_89 : agree (l <- list_4 ;; l_chap_count M l false None) (Ok 9).
Proof. vm_compute. reflexivity. Qed.
Example readme_91 : agree (l <- list_4 ;; l_chap_count M l true None) (Ok 5).
Proof. vm_compute. reflexivity. Qed.
Example readme_93 : agree (l <- list_4 ;; l_book_count M l false None) (Ok 4).
Proof. vm_compute. reflexivity. Qed.
Example readme_95 : agree (l <- list_4 ;; l_book_count M l true None) (Ok 1).
Proof. vm_compute. reflexivity. Qed.
(** README.md, "List Grouping". *)
Definition reprs (s : string) : res (list (list str)) := l <- lst s ;; mapM (mapM (range_repr E)) l.
Example readme_118 : agree (reprs "Matt 2:3-4, 5-7, 9-12")
  (Ok [map s2l ["BibleRange(Matthew 2:3-4)"; "BibleRange(Matthew 2:5-7)"; "BibleRange(Matthew 2:9-12)"]%string]).
Proof. vm_compute. reflexivity. Qed.
Example readme_127 : agree (reprs "Matt 2:3-4; 5-7, 9-12")
  (Ok [map s2l ["BibleRange(Matthew 2:3-4)"]%string; map s2l ["BibleRange(Matthew 5-7)"; "BibleRange(Matthew 9-12)"]%string]).
Proof. vm_compute. reflexivity. Qed.
Example readme_142 : agree (reprs "Matt 2:3-4, Matt 5-7, 9-12")
  (Ok [map s2l ["BibleRange(Matthew 2:3-4)"; "BibleRange(Matthew 5-7)"; "BibleRange(Matthew 9-12)"]%string]).
Proof. vm_compute. reflexivity. Qed.
