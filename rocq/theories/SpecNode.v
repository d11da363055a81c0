(** * SpecNode: what a list holds after an operation that was broken off by an exception. *)
From Coq Require Import List ZArith Bool.
From Verif Require Import Base Books Data MVerse MRange MSeq MList MGroup SpecGroup MNode.
Import ListNotations.

(** ranges with which [f] did not fail are replaced. *)
Fixpoint map_left (f : range -> res range) (l : list range) : list range :=
  match l with
  | [] => []
  | x :: l' => match f x with Ok y => y :: map_left f l' | Err _ => l end
  end.
(** Sorted ranges, merged up to the first two that cannot be compared. *)
Fixpoint merge_left (e : env) (fl : option flag) (cur : range) (rest : list range) : list range :=
  match rest with
  | [] => [cur]
  | x :: rest' =>
      match union e cur x fl with
      | Err _ => cur :: rest
      | Ok [h] => merge_left e fl h rest'
      | Ok _ => cur :: merge_left e fl x rest'
      end
  end.
Definition merge_rest (e : env) (fl : option flag) (l : list range) : list range :=
  match sort_items (rleb e) l with [] => [] | x :: xs => merge_left e fl x xs end.
(** The pieces of one range, taken apart up to the first failure. *)
Fixpoint pieces_left (e : env) (fl : option flag) (cur : range) (others : list range) : list range :=
  match others with
  | [] => [cur]
  | b :: bs =>
      match difference e cur b fl with
      | Err _ => [cur]
      | Ok [] => pieces_left e fl cur bs
      | Ok (x :: more) => pieces_left e fl x bs ++ more
      end
  end.
Fixpoint diff_left (e : env) (fl : option flag) (others : list range) (fuel : nat) (todo : list range) : list range :=
  match todo with
  | [] => []
  | x :: rest =>
      match fuel with
      | O => todo
      | S n =>
          match diff_inner e fl x others with
          | Err _ => pieces_left e fl x others ++ rest
          | Ok p => fst p :: diff_left e fl others n (snd p ++ rest)
          end
      end
  end.
(** What is in the list after [difference_update]. *)
Definition diff_rest (e : env) (n : nat) (x : bref) (fl : option flag) (l : list range) : list range :=
  match ref_ranges e x with
  | Err _ => l
  | Ok ys => match diff_loop e fl ys n l with Err _ => diff_left e fl ys n l | Ok ds => merge_rest e None ds end
  end.

(** ** Histories of lists of ranges *)
(** The operations of a grouped list, and those of [BibleRangeList] that change the list. *)
Inductive lop :=
| LBase (o : op range) | LSort (re : bool) | LRegroup (fl : option flag) | LMerge (fl : option flag)
| LUnion (x : bref) (fl : option flag) | LInter (x : bref) (fl : option flag)
| LDiff (n : nat) (x : bref) (fl : option flag) | LSym (n : nat) (x : bref) (fl : option flag)
| LZeroToOne | LOneToZero.

Definition done (r : run) : res (option range) * heap := (match snd r with Ok _ => Ok None | Err x => Err x end, fst r).
(** The model: what the operation returns or raises, and the list afterwards. *)
Definition n_step (eqb : range -> range -> bool) (e : env) (o : lop) (s : heap) : res (option range) * heap :=
  match o with
  | LBase o => match h_step eqb (rleb e) o s with Ok (r, t) => (Ok r, t) | Err x => (Err x, s) end
  | LSort re => done (n_sort e re s)
  | LRegroup fl => done (n_regroup e fl s)
  | LMerge fl => done (n_merge e fl s)
  | LUnion x fl => done (n_union_update e x fl s)
  | LInter x fl => done (n_intersection_update e x fl s)
  | LDiff n x fl => done (n_difference_update e n x fl s)
  | LSym n x fl => done (n_sym_difference_update e n x fl s)
  | LZeroToOne => done (n_verse_0_to_1 e s)
  | LOneToZero => done (n_verse_1_to_0 e s)
  end.
Fixpoint n_run eqb e (os : list lop) (s : heap) : list (res (option range)) * heap :=
  match os with
  | [] => ([], s)
  | o :: os' => let q := n_step eqb e o s in let r := n_run eqb e os' (snd q) in (fst q :: fst r, snd r)
  end.

(** The specification: contents [g] before and [g'] after, as lists of groups.  [m] are the contents after a call that
    returns; [rest] are the items in any case. *)
Definition effect (m : res rlist) (rest : list range) (out : res (option range)) (g' : rlist) : Prop :=
  out = match m with Ok _ => Ok None | Err x => Err x end /\ concat g' = rest /\ forall k, m = Ok k -> g' = k.
Definition l_effect (eqb : range -> range -> bool) (e : env) (o : lop) (g : rlist) (out : res (option range)) (g' : rlist) : Prop :=
  match o with
  | LBase o => exists n h, values h = g /\
      match s_step eqb (rleb e) o n h with
      | Some (Ok (r, (_, h'))) => out = Ok r /\ g' = values h'
      | Some (Err x) => out = Err x /\ g' = g
      | None => False
      end
  | LSort re => effect (l_sort e re g) (sort_items (rleb e) (concat g)) out g'
  | LRegroup fl => effect (regroup e fl g) (concat g) out g'
  | LMerge fl => effect (merge e fl g) (merge_rest e fl (concat g)) out g'
  | LUnion x fl => effect (union_update e g x fl) (match ref_ranges e x with Ok ys => merge_rest e fl (concat g ++ ys) | Err _ => concat g end) out g'
  | LInter x fl => let m := intersection_update e g x fl in
      effect m (match m with Ok k => concat k | Err _ => concat g end) out g' /\ (forall x, m = Err x -> g' = g)
  | LDiff n x fl => effect (difference_update e n g x fl) (diff_rest e n x fl (concat g)) out g'
  | LSym n x fl => let m := sym_difference_update e n g x fl in
      effect m (match m with Ok k => concat k | Err _ => concat g end) out g' /\ (forall x, m = Err x -> g' = g)
  | LZeroToOne => effect (l_verse_0_to_1 e g) (map_left (r_verse_0_to_1 e) (concat g)) out g'
  | LOneToZero => effect (l_verse_1_to_0 e g) (map_left (r_verse_1_to_0 e) (concat g)) out g'
  end.
Inductive l_history (eqb : range -> range -> bool) (e : env) : list lop -> rlist -> list (res (option range)) -> rlist -> Prop :=
| no_op : forall g, l_history eqb e [] g [] g
| one_op : forall o os g out g1 outs g2, l_effect eqb e o g out g1 -> l_history eqb e os g1 outs g2 -> l_history eqb e (o :: os) g (out :: outs) g2.
(** [insert_group_at] is not called for an item that begins a group other than the first. *)
Definition unharmed (o : lop) (g : rlist) : Prop :=
  forall i k, o = LBase (OInsertGroupAt i) -> spot_twice (zlen (concat g)) i = Some k -> later_head k g = false.
