(** * MText: the texts of grouped lists and of the views of their groups. *)
From Coq Require Import List ZArith Bool Ascii String.
From Verif Require Import Base Books Chars Data MVerse MRange MSeq MList MStr MGroup MNode.
Import ListNotations.
Open Scope list_scope.

(** Python's [str] of a list, from the [repr]s of the items. *)
Fixpoint joined (sep : str) (l : list str) : str :=
  match l with
  | [] => []
  | [x] => x
  | x :: l' => x ++ sep ++ joined sep l'
  end.
Definition list_of_texts (l : list str) : str := s2l "[" ++ joined (s2l ", ") l ++ s2l "]".
Section Texts.
Context {A : Type}.
(** [repr] of an item. *)
Variable item_repr : A -> res str.
(** util.py 185-186, 182-183: [str] and [repr] of a GroupView. *)
Definition view_text (v : option nat) (s : glist A) : res str :=
  l <- view_iter v s ;; ts <- mapM item_repr l ;; Ok (list_of_texts ts).
Definition view_repr (v : option nat) (s : glist A) : res str :=
  t <- view_text v s ;; Ok (s2l "GroupView(" ++ t ++ s2l ")").
(** util.py 120-121, 117-118: [str] and [repr] of GroupViews. *)
Definition views_text (s : glist A) : res str :=
  hs <- group_heads s ;; ts <- mapM (fun h => view_repr (Some h) s) hs ;; Ok (list_of_texts ts).
Definition views_repr (s : glist A) : res str :=
  t <- views_text s ;; Ok (s2l "GroupViews(" ++ t ++ s2l ")").
(** util.py 706-707, 703-704: [str] and [repr] of a GroupedList. *)
Definition grouped_text (s : glist A) : res str :=
  gs <- to_nested_lists s ;; ts <- mapM (fun g => ts <- mapM item_repr g ;; Ok (list_of_texts ts)) gs ;; Ok (list_of_texts ts).
Definition grouped_repr (s : glist A) : res str :=
  t <- grouped_text s ;; Ok (s2l "GroupedList(" ++ t ++ s2l ")").
End Texts.
(** ref.py 1564-1568: BibleRangeList has its own; the text is made from the groups (ref.py 1633-1796). *)
Definition n_text (e : env) (s : heap) : res str := gs <- to_nested_lists s ;; list_text e gs.
Definition n_repr (e : env) (s : heap) : res str := gs <- to_nested_lists s ;; list_repr e gs.
