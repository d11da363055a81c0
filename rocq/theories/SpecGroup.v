(** * SpecGroup: operations on lists of groups, the specification of [GroupedList].

    A grouped list is a list of non-empty lists.  Item number [i] is item [i] of [concat g]. *)
From Coq Require Import List ZArith Bool Arith Lia.
From Verif Require Import Base MSeq MGroup.
Import ListNotations.

Section Ops.
Context {B : Type}.
Notation groups := (list (list B)).

(** A new first item: a group of its own, or in the first group. *)
Definition s_prepend (new_group : bool) (x : B) (g : groups) : groups :=
  match g with
  | [] => [[x]]
  | p :: g' => if new_group then [x] :: g else (x :: p) :: g'
  end.
(** A new last item. *)
Fixpoint s_append (new_group : bool) (x : B) (g : groups) : groups :=
  match g with
  | [] => [[x]]
  | p :: g' => match g' with
               | [] => if new_group then [p; [x]] else [p ++ [x]]
               | _ => p :: s_append new_group x g'
               end
  end.
(** Items after the last one, in its group. *)
Definition s_extend (l : list B) (g : groups) : groups := fold_left (fun g x => s_append false x g) l g.
(** A new last group. *)
Definition s_append_group (l : list B) (g : groups) : groups := match l with [] => g | _ => g ++ [l] end.
(** A new item before item [i], in the group of item [i]. *)
Fixpoint s_insert (i : nat) (x : B) (g : groups) : groups :=
  match g with
  | [] => []
  | p :: g' => if (i <? length p)%nat then (firstn i p ++ x :: skipn i p) :: g' else p :: s_insert (i - length p) x g'
  end.
(** A new item after item [i], in the group of item [i]. *)
Fixpoint s_insert_after (i : nat) (x : B) (g : groups) : groups :=
  match g with
  | [] => []
  | p :: g' => if (i <? length p)%nat then (firstn (S i) p ++ x :: skipn (S i) p) :: g' else p :: s_insert_after (i - length p) x g'
  end.
(** Without item [i]; its group goes with it if it has no other item. *)
Fixpoint s_delete (i : nat) (g : groups) : groups :=
  match g with
  | [] => []
  | p :: g' => if (i <? length p)%nat then
                 match firstn i p ++ skipn (S i) p with [] => g' | p' => p' :: g' end
               else p :: s_delete (i - length p) g'
  end.
(** Another item [i]. *)
Fixpoint s_replace (i : nat) (x : B) (g : groups) : groups :=
  match g with
  | [] => []
  | p :: g' => if (i <? length p)%nat then (firstn i p ++ x :: skipn (S i) p) :: g' else p :: s_replace (i - length p) x g'
  end.
(** A group begins at item [i]. *)
Fixpoint s_cut (i : nat) (g : groups) : groups :=
  match g with
  | [] => []
  | p :: g' => if (i <? length p)%nat then
                 match i with O => p :: g' | _ => firstn i p :: skipn i p :: g' end
               else p :: s_cut (i - length p) g'
  end.
(** Does a group other than the first begin at item [i]? *)
Fixpoint later_head (i : nat) (g : groups) : bool :=
  match g with
  | [] => false
  | p :: g' => if (i <? length p)%nat then false
               else match (i - length p)%nat with O => match g' with [] => false | _ => true end | j => later_head j g' end
  end.
End Ops.

(** ** Searching and construction *)
Section Search.
Context {A : Type}.
(** Item [k] is the first equal one at or after [lo] and before [hi]. *)
Definition found (eqb : A -> A -> bool) (x : A) (lo hi : Z) (l : list A) (k : Z) : Prop :=
  (0 <= k)%Z /\ (lo <= k < hi)%Z /\ (exists y, nth_error l (Z.to_nat k) = Some y /\ eqb y x = true) /\
  forall j y, (0 <= j)%Z -> (lo <= j < k)%Z -> nth_error l (Z.to_nat j) = Some y -> eqb y x = false.
Definition not_found (eqb : A -> A -> bool) (x : A) (lo hi : Z) (l : list A) : Prop :=
  forall j y, (0 <= j)%Z -> (lo <= j < hi)%Z -> nth_error l (Z.to_nat j) = Some y -> eqb y x = false.
(** The window that [index] searches: bounds are counted from the end if negative and put in order. *)
Definition window (n lo hi : Z) : option (Z * Z) :=
  if (n <=? lo)%Z || (n <? hi)%Z then None
  else let a := (if (lo <? 0)%Z then lo + n else lo)%Z in
       let b := (if (hi <=? 0)%Z then hi + n else hi)%Z in
       Some (Z.min a b, Z.max a b).
(** The contents of [GroupedList(l)], added to [g]. *)
Fixpoint s_init (l : list (@init_item A)) (g : list (list A)) : list (list A) :=
  match l with
  | [] => g
  | OneItem x :: l' => s_init l' (s_append false x g)
  | GroupItem p :: l' => s_init l' (s_append_group p g)
  end.
End Search.

(** ** Histories of a list

    Every item put into a list gets the next serial number; the specification of a list is a sequence of groups of
    numbered items. *)
Section History.
Context {A : Type}.
Variable eqb leb : A -> A -> bool.
Local Notation tagged := (list (list (nat * A))).

Inductive op :=
| OAppend (new_group : bool) (x : A) | OPrepend (new_group : bool) (x : A)
| OExtend (l : list A) | OAppendGroup (l : list A)
| OInsert (i : Z) (x : A) | OPop (i : option Z) | ODel (i : Z) | OSet (i : Z) (x : A) | ORemove (x : A)
| OClear | OClearGroups | OInsertGroupAt (i : Z) | OReverse | OSort
| OViewSet (i j : Z) (x : A) | OViewDel (i j : Z).

Definition number (n : nat) (l : list A) : list (nat * A) := combine (List.seq n (length l)) l.
Definition values (h : tagged) : list (list A) := map (map snd) h.
Definition serials (h : tagged) : list (list nat) := map (map fst) h.
(** The item that index [i] means in a list of [n] items; None is an index too large.  An index below [-n] means
    the first item. *)
Definition spot (n i : Z) : option nat :=
  if (n <=? i)%Z then None else Some (Z.to_nat (if (i <? 0)%Z then Z.max 0 (i + n) else i)).
(** The same for operations that count from the end twice. *)
Definition spot_twice (n i : Z) : option nat :=
  if (n <=? i)%Z then None
  else Some (Z.to_nat (if (i <? - n)%Z then Z.max 0 (i + n + n) else if (i <? 0)%Z then i + n else i)).
Fixpoint first_place (f : A -> bool) (l : list A) : option nat :=
  match l with
  | [] => None
  | x :: l' => if f x then Some O else option_map S (first_place f l')
  end.

(** What an operation gives: an item or nothing, with the new contents; or an exception, with the contents as they
    were.  None: the structure gets damaged. *)
Definition outcome := res (option A * (nat * tagged)).
Definition s_pop (i : Z) (n : nat) (h : tagged) : outcome :=
  match spot_twice (zlen (concat h)) i with
  | None => Err IndexErr
  | Some k => match nth_error (concat h) k with
              | None => Err ValueErr
              | Some tx => Ok (Some (snd tx), (n, s_delete k h))
              end
  end.
(** Item [j] of group [i]. *)
Definition s_view (i j : Z) (h : tagged) : res nat :=
  match spot (zlen h) i with
  | None => Err IndexErr
  | Some k => match nth_error h k with
              | None => Err AttrErr
              | Some p => if (j <? 0)%Z || (zlen p <=? j)%Z then Err IndexErr
                          else Ok (length (concat (firstn k h)) + Z.to_nat j)%nat
              end
  end.
Definition s_set (k : nat) (x : A) (h : tagged) : tagged :=
  match nth_error (concat h) k with Some tx => s_replace k (fst tx, x) h | None => h end.
Definition s_step (o : op) (n : nat) (h : tagged) : option outcome :=
  let len := zlen (concat h) in
  match o with
  | OAppend ng x => Some (Ok (None, (S n, s_append ng (n, x) h)))
  | OPrepend ng x => Some (Ok (None, (S n, s_prepend ng (n, x) h)))
  | OExtend l => Some (Ok (None, (n + length l, s_extend (number n l) h)%nat))
  | OAppendGroup l => Some (Ok (None, (n + length l, s_append_group (number n l) h)%nat))
  | OInsert i x =>
      Some (if (i =? 0)%Z then Ok (None, (S n, s_prepend false (n, x) h))
            else if (i =? len)%Z then Ok (None, (S n, s_append false (n, x) h))
            else match spot len i with
                 | None => Err IndexErr
                 | Some k => match h with [] => Err ValueErr | _ => Ok (None, (S n, s_insert k (n, x) h)) end
                 end)
  | OPop i => Some (s_pop (match i with None => len - 1 | Some i => i end) n h)
  | ODel i => Some (q <- s_pop i n h ;; Ok (None, snd q))
  | OSet i x =>
      Some (match spot len i with
            | None => Err IndexErr
            | Some k => match h with [] => Err AttrErr | _ => Ok (None, (n, s_set k x h)) end
            end)
  | ORemove x =>
      Some (match first_place (fun y => eqb y x) (concat (values h)) with
            | None => Err ValueErr
            | Some k => Ok (None, (n, s_delete k h))
            end)
  | OClear => Some (Ok (None, (n, [])))
  | OClearGroups => Some (Ok (None, (n, one_group (concat h))))
  | OInsertGroupAt i =>
      match spot_twice len i with
      | None => Some (Err IndexErr)
      | Some k => if later_head k h then None else Some (Ok (None, (n, s_cut k h)))
      end
  | OReverse => Some (Ok (None, (n, one_group (rev (concat h)))))
  | OSort => Some (Ok (None, (n, one_group (sort_items (fun a b => leb (snd a) (snd b)) (concat h)))))
  | OViewSet i j x => Some (k <- s_view i j h ;; Ok (None, (n, s_set k x h)))
  | OViewDel i j => Some (k <- s_view i j h ;; Ok (None, (n, s_delete k h)))
  end.
(** The results of a history, and the contents after it. *)
Fixpoint s_run (os : list op) (n : nat) (h : tagged) : option (list (res (option A)) * (nat * tagged)) :=
  match os with
  | [] => Some ([], (n, h))
  | o :: os' =>
      match s_step o n h with
      | None => None
      | Some (Err e) => option_map (fun q => (Err e :: fst q, snd q)) (s_run os' n h)
      | Some (Ok (r, (n', h'))) => option_map (fun q => (Ok r :: fst q, snd q)) (s_run os' n' h')
      end
  end.

(** The same operations of the model; [groups[i][j]] is written through the view.  After an exception the history
    goes on with the list as it was: all exceptions of these operations are raised before the first change. *)
Definition h_step (o : op) (s : glist A) : res (option A * glist A) :=
  match o with
  | OAppend ng x => s <- append x ng s ;; Ok (None, s)
  | OPrepend ng x => s <- prepend x ng s ;; Ok (None, s)
  | OExtend l => s <- extend l s ;; Ok (None, s)
  | OAppendGroup l => s <- append_group l s ;; Ok (None, s)
  | OInsert i x => s <- insert i x s ;; Ok (None, s)
  | OPop i => q <- pop i s ;; Ok (Some (fst q), snd q)
  | ODel i => s <- del_item i s ;; Ok (None, s)
  | OSet i x => s <- set_item i x s ;; Ok (None, s)
  | ORemove x => s <- remove eqb x s ;; Ok (None, s)
  | OClear => Ok (None, clear s)
  | OClearGroups => s <- clear_groups s ;; Ok (None, s)
  | OInsertGroupAt i => s <- insert_group_at i s ;; Ok (None, s)
  | OReverse => s <- reverse s ;; Ok (None, s)
  | OSort => s <- sort leb s ;; Ok (None, s)
  | OViewSet i j x => v <- group_at i s ;; s <- view_set v j x s ;; Ok (None, s)
  | OViewDel i j => v <- group_at i s ;; s <- view_del v j s ;; Ok (None, s)
  end.
Fixpoint h_run (os : list op) (s : glist A) : list (res (option A)) * glist A :=
  match os with
  | [] => ([], s)
  | o :: os' =>
      match h_step o s with
      | Err e => let q := h_run os' s in (Err e :: fst q, snd q)
      | Ok (r, s') => let q := h_run os' s' in (Ok r :: fst q, snd q)
      end
  end.
End History.
Arguments op : clear implicits.
