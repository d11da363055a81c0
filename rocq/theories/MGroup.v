(** * MGroup: model of [GroupedList] (util.py 10-708), node by node.

    Nodes are addresses; every attribute of [_Node] is a map from addresses, kept with the list.  The items
    are of an arbitrary type [A]; [eqb] and [leb] are Python's [==] and [<=] on them.  [_check_type] (which
    BibleRangeList overrides with an isinstance test) always succeeds: items are typed.  [parent] is a boolean:
    is the parent this list (a node never moves to another list).  Following a link of None raises
    AttributeError.  The state after an exception is not modelled.

    A loop over nodes gets the number of nodes ever made as fuel: a traversal that makes more steps comes back
    to a node it has met and never ends. *)
From Coq Require Import List ZArith Bool Arith Lia.
From Verif Require Import Base MSeq.
Import ListNotations.
Open Scope Z_scope.

Section Grouped.
Context {A : Type}.

Record glist := GL {
  g_first : option nat; g_last : option nat; g_cnt : Z;
  g_fhead : option nat; g_lhead : option nat; g_gcnt : Z;
  n_val : nat -> option A;
  n_prev : nat -> option nat; n_next : nat -> option nat;
  n_par : nat -> bool; n_head : nat -> bool;
  n_ph : nat -> option nat; n_nh : nat -> option nat;
  fresh : nat }.

Definition upd {B} (f : nat -> B) (a : nat) (b : B) : nat -> B := fun x => if Nat.eqb x a then b else f x.
Definition oeqb (p q : option nat) : bool :=
  match p, q with Some a, Some b => Nat.eqb a b | None, None => true | _, _ => false end.

(** Assignments to attributes. *)
Definition set_first p s := GL p (g_last s) (g_cnt s) (g_fhead s) (g_lhead s) (g_gcnt s) (n_val s) (n_prev s) (n_next s) (n_par s) (n_head s) (n_ph s) (n_nh s) (fresh s).
Definition set_last p s := GL (g_first s) p (g_cnt s) (g_fhead s) (g_lhead s) (g_gcnt s) (n_val s) (n_prev s) (n_next s) (n_par s) (n_head s) (n_ph s) (n_nh s) (fresh s).
Definition set_cnt z s := GL (g_first s) (g_last s) z (g_fhead s) (g_lhead s) (g_gcnt s) (n_val s) (n_prev s) (n_next s) (n_par s) (n_head s) (n_ph s) (n_nh s) (fresh s).
Definition set_fhead p s := GL (g_first s) (g_last s) (g_cnt s) p (g_lhead s) (g_gcnt s) (n_val s) (n_prev s) (n_next s) (n_par s) (n_head s) (n_ph s) (n_nh s) (fresh s).
Definition set_lhead p s := GL (g_first s) (g_last s) (g_cnt s) (g_fhead s) p (g_gcnt s) (n_val s) (n_prev s) (n_next s) (n_par s) (n_head s) (n_ph s) (n_nh s) (fresh s).
Definition set_gcnt z s := GL (g_first s) (g_last s) (g_cnt s) (g_fhead s) (g_lhead s) z (n_val s) (n_prev s) (n_next s) (n_par s) (n_head s) (n_ph s) (n_nh s) (fresh s).
Definition set_val a x s := GL (g_first s) (g_last s) (g_cnt s) (g_fhead s) (g_lhead s) (g_gcnt s) (upd (n_val s) a (Some x)) (n_prev s) (n_next s) (n_par s) (n_head s) (n_ph s) (n_nh s) (fresh s).
Definition set_prev a p s := GL (g_first s) (g_last s) (g_cnt s) (g_fhead s) (g_lhead s) (g_gcnt s) (n_val s) (upd (n_prev s) a p) (n_next s) (n_par s) (n_head s) (n_ph s) (n_nh s) (fresh s).
Definition set_next a p s := GL (g_first s) (g_last s) (g_cnt s) (g_fhead s) (g_lhead s) (g_gcnt s) (n_val s) (n_prev s) (upd (n_next s) a p) (n_par s) (n_head s) (n_ph s) (n_nh s) (fresh s).
Definition set_par a b s := GL (g_first s) (g_last s) (g_cnt s) (g_fhead s) (g_lhead s) (g_gcnt s) (n_val s) (n_prev s) (n_next s) (upd (n_par s) a b) (n_head s) (n_ph s) (n_nh s) (fresh s).
Definition set_head a b s := GL (g_first s) (g_last s) (g_cnt s) (g_fhead s) (g_lhead s) (g_gcnt s) (n_val s) (n_prev s) (n_next s) (n_par s) (upd (n_head s) a b) (n_ph s) (n_nh s) (fresh s).
Definition set_ph a p s := GL (g_first s) (g_last s) (g_cnt s) (g_fhead s) (g_lhead s) (g_gcnt s) (n_val s) (n_prev s) (n_next s) (n_par s) (n_head s) (upd (n_ph s) a p) (n_nh s) (fresh s).
Definition set_nh a p s := GL (g_first s) (g_last s) (g_cnt s) (g_fhead s) (g_lhead s) (g_gcnt s) (n_val s) (n_prev s) (n_next s) (n_par s) (n_head s) (n_ph s) (upd (n_nh s) a p) (fresh s).

(** Assignment through a link that may be None, where the code has tested it ([if p is not None: p.x = v]). *)
Definition on_some (p : option nat) (f : nat -> glist -> glist) (s : glist) : glist :=
  match p with Some a => f a s | None => s end.
(** An attribute of None. *)
Definition deref (p : option nat) : res nat := match p with Some a => Ok a | None => Err AttrErr end.

(** util.py 37-44: a new node of this list. *)
Definition alloc (x : A) (p n : option nat) (s : glist) : nat * glist :=
  let a := fresh s in
  (a, GL (g_first s) (g_last s) (g_cnt s) (g_fhead s) (g_lhead s) (g_gcnt s)
         (upd (n_val s) a (Some x)) (upd (n_prev s) a p) (upd (n_next s) a n) (upd (n_par s) a true)
         (upd (n_head s) a false) (upd (n_ph s) a None) (upd (n_nh s) a None) (S a)).
(** util.py 46-49. *)
Definition clear_group_head (a : nat) (s : glist) : glist := set_nh a None (set_ph a None (set_head a false s)).

(** util.py 527-534: [clear] resets the attributes of the list and leaves the nodes as they are. *)
Definition clear (s : glist) : glist := set_gcnt 0 (set_lhead None (set_fhead None (set_cnt 0 (set_last None (set_first None s))))).
(** util.py 188-195, for no iterable. *)
Definition g_new : glist :=
  GL None None 0 None None 0 (fun _ => None) (fun _ => None) (fun _ => None) (fun _ => false) (fun _ => false)
     (fun _ => None) (fun _ => None) 0.

(** util.py 208-210. *)
Definition check_child (p : option nat) (s : glist) : res nat :=
  match p with Some a => if n_par s a then Ok a else Err ValueErr | None => Err ValueErr end.
(** util.py 212-220: no lower bound is checked. *)
Definition conform_index (i : Z) (s : glist) : res Z :=
  let i' := if i <? 0 then i + g_cnt s else i in
  if i' >=? g_cnt s then Err IndexErr else Ok i'.
(** [for i in range(n): node = node.f] *)
Fixpoint follow (f : nat -> option nat) (n : nat) (p : option nat) : res (option nat) :=
  match n with
  | O => Ok p
  | S m => a <- deref p ;; follow f m (f a)
  end.
(** util.py 222-235. *)
Definition node_at (i : Z) (s : glist) : res (option nat) :=
  i <- conform_index i s ;;
  if i <=? g_cnt s / 2 then follow (n_next s) (Z.to_nat i) (g_first s)
  else follow (n_prev s) (Z.to_nat (g_cnt s - i - 1)) (g_last s).

(** util.py 245-255. *)
Definition setup_single_group (s : glist) : res glist :=
  if g_cnt s >? 0 then
    a <- deref (g_first s) ;;
    Ok (set_gcnt 1 (set_lhead (Some a) (set_fhead (Some a) (set_nh a None (set_ph a None (set_head a true s))))))
  else Ok s.
(** util.py 237-243. *)
Definition insert_first (x : A) (s : glist) : res glist :=
  let (a, s) := alloc x None None s in
  let s := set_last (Some a) (set_first (Some a) s) in
  setup_single_group (set_cnt (g_cnt s + 1) s).

(** util.py 335-339. *)
Fixpoint find_group_head (fuel : nat) (p : option nat) (s : glist) : res (option nat) :=
  match p with
  | None => Ok None
  | Some a =>
      if n_head s a then Ok (Some a)
      else match fuel with O => Err Diverge | S n => find_group_head n (n_prev s a) s end
  end.
(** util.py 299-318. *)
Definition new_group_before_head (node : nat) (keep : bool) (s : glist) : res glist :=
  old <- deref (n_next s node) ;;
  let s := set_head node true s in
  let s := set_ph node (n_ph s old) s in
  let s := on_some (n_ph s old) (fun h => set_nh h (Some node)) s in
  let s :=
    if keep then
      let s := set_ph old (Some node) (set_nh node (Some old) s) in
      set_gcnt (g_gcnt s + 1) s
    else
      let s := set_nh node (n_nh s old) s in
      let s := match n_nh s old with
               | Some h => set_ph h (Some node) s
               | None => if oeqb (g_lhead s) (Some old) then set_lhead (Some node) s else s
               end in
      clear_group_head old s in
  Ok (if oeqb (g_fhead s) (Some old) then set_fhead (Some node) s else s).
(** util.py 320-333. *)
Definition new_group_at_node (p : option nat) (s : glist) : res glist :=
  if oeqb p (g_first s) then Ok s
  else
    node <- deref p ;;
    let s := set_head node true s in
    ph <- find_group_head (fresh s) (n_prev s node) s ;;
    let s := set_ph node ph s in
    h <- deref ph ;;
    let s := set_nh node (n_nh s h) s in
    let s := on_some (n_nh s h) (fun k => set_ph k (Some node)) s in
    let s := set_nh h (Some node) s in
    let s := if oeqb (g_lhead s) (Some h) then set_lhead (Some node) s else s in
    Ok (set_gcnt (g_gcnt s + 1) s).
(** util.py 257-282. *)
Definition insert_before (p : option nat) (x : A) (new_group : bool) (s : glist) : res glist :=
  node <- check_child p s ;;
  let inserting_first := oeqb (Some node) (g_first s) in
  let (new, s) := alloc x (n_prev s node) (Some node) s in
  let s := on_some (n_prev s node) (fun b => set_next b (Some new)) s in
  let s := set_prev node (Some new) s in
  let s := if oeqb (Some node) (g_first s) then set_first (Some new) s else s in
  let s := set_cnt (g_cnt s + 1) s in
  if new_group then
    if inserting_first then new_group_before_head new true s else new_group_at_node (Some new) s
  else
    match n_next s new with
    | Some b => if n_head s b then new_group_before_head new false s else Ok s
    | None => Ok s
    end.
(** util.py 284-297. *)
Definition insert_after (p : option nat) (x : A) (new_group : bool) (s : glist) : res glist :=
  node <- check_child p s ;;
  let (new, s) := alloc x (Some node) (n_next s node) s in
  let s := on_some (n_next s node) (fun b => set_prev b (Some new)) s in
  let s := set_next node (Some new) s in
  let s := if oeqb (Some node) (g_last s) then set_last (Some new) s else s in
  let s := set_cnt (g_cnt s + 1) s in
  if new_group then new_group_at_node (Some new) s else Ok s.

(** util.py 341-392. *)
Definition pop_node (p : option nat) (s : glist) : res (A * glist) :=
  node <- check_child p s ;;
  s <- (if g_cnt s =? 1 then
          Ok (set_lhead None (set_fhead None (set_last None (set_first None s))))
        else if oeqb (Some node) (g_first s) then
          let s := set_first (n_next s node) s in
          f <- deref (g_first s) ;; Ok (set_prev f None s)
        else if oeqb (Some node) (g_last s) then
          l <- deref (g_last s) ;;
          let s := set_last (n_prev s l) s in
          l <- deref (g_last s) ;; Ok (set_next l None s)
        else
          b <- deref (n_prev s node) ;;
          let s := set_next b (n_next s node) s in
          c <- deref (n_next s node) ;; Ok (set_prev c (n_prev s node) s)) ;;
  let s := set_par node false s in
  let s := set_cnt (g_cnt s - 1) s in
  s <- (if n_head s node then
          let lost := match n_next s node with None => true | Some b => n_head s b end in
          q <- (if lost then Ok (set_gcnt (g_gcnt s - 1) s, (n_nh s node, n_ph s node))
                else b <- deref (n_next s node) ;;
                     let s := set_head b true s in
                     let s := set_ph b (n_ph s node) s in
                     let s := set_nh b (n_nh s node) s in
                     Ok (s, (Some b, Some b))) ;;
          let s := fst q in
          let next_link := fst (snd q) in
          let prev_link := snd (snd q) in
          let s := if oeqb (g_fhead s) (Some node) then set_fhead next_link s else s in
          let s := if oeqb (g_lhead s) (Some node) then set_lhead prev_link s else s in
          let s := on_some (n_ph s node) (fun h => set_nh h next_link) s in
          let s := on_some (n_nh s node) (fun h => set_ph h prev_link) s in
          Ok (clear_group_head node s)
        else Ok s) ;;
  match n_val s node with Some x => Ok (x, s) | None => Err AttrErr end.
(** util.py 394-406. *)
Definition pop_before (p : option nat) (s : glist) : res (A * glist) :=
  node <- check_child p s ;;
  if oeqb (Some node) (g_first s) then Err IndexErr else pop_node (n_prev s node) s.
Definition pop_after (p : option nat) (s : glist) : res (A * glist) :=
  node <- check_child p s ;;
  if oeqb (Some node) (g_last s) then Err IndexErr else pop_node (n_next s node) s.

(** The addresses met by following [f] from [p] until None. *)
Fixpoint trail (f : nat -> option nat) (fuel : nat) (p : option nat) : res (list nat) :=
  match p with
  | None => Ok []
  | Some a => match fuel with O => Err Diverge | S n => l <- trail f n (f a) ;; Ok (a :: l) end
  end.
(** util.py 408-413, 638-642, 693-697. *)
Definition node_iter (s : glist) : res (list nat) := trail (n_next s) (fresh s) (g_first s).
Definition value (s : glist) (a : nat) : res A := match n_val s a with Some x => Ok x | None => Err AttrErr end.
Definition g_iter (s : glist) : res (list A) := l <- node_iter s ;; mapM (value s) l.
Definition g_reversed (s : glist) : res (list A) := l <- trail (n_prev s) (fresh s) (g_last s) ;; mapM (value s) l.

(** ** Views of groups *)
(** util.py 138-140. *)
Definition check_view (v : option nat) (s : glist) : res nat :=
  a <- deref v ;; if n_head s a && n_par s a then Ok a else Err GroupViewErr.
(** util.py 153-155. *)
Fixpoint group_rest (fuel : nat) (a : nat) (s : glist) : res (list nat) :=
  match n_next s a with
  | None => Ok []
  | Some b =>
      if n_head s b then Ok []
      else match fuel with O => Err Diverge | S n => l <- group_rest n b s ;; Ok (b :: l) end
  end.
(** util.py 148-155, 142-146. *)
Definition view_nodes (v : option nat) (s : glist) : res (list nat) :=
  a <- check_view v s ;; l <- group_rest (fresh s) a s ;; Ok (a :: l).
Definition view_iter (v : option nat) (s : glist) : res (list A) := l <- view_nodes v s ;; mapM (value s) l.
Definition view_len (v : option nat) (s : glist) : res Z := l <- view_iter v s ;; Ok (zlen l).
(** util.py 157-166. *)
Fixpoint view_follow (n : nat) (a : nat) (s : glist) : res nat :=
  match n with
  | O => Ok a
  | S m => match n_next s a with
           | None => Err IndexErr
           | Some b => if n_head s b then Err IndexErr else view_follow m b s
           end
  end.
Definition view_node_at (v : option nat) (i : Z) (s : glist) : res nat :=
  if i <? 0 then Err IndexErr else a <- check_view v s ;; view_follow (Z.to_nat i) a s.
(** util.py 168-180. *)
Definition view_get (v : option nat) (i : Z) (s : glist) : res A :=
  _ <- check_view v s ;; a <- view_node_at v i s ;; value s a.
Definition view_set (v : option nat) (i : Z) (x : A) (s : glist) : res glist :=
  _ <- check_view v s ;; a <- view_node_at v i s ;; Ok (set_val a x s).
Definition view_del (v : option nat) (i : Z) (s : glist) : res glist :=
  _ <- check_view v s ;; a <- view_node_at v i s ;; q <- pop_node (Some a) s ;; Ok (snd q).
(** util.py 86-104, 113-115: [groups[i]] is the view of the node returned. *)
Definition group_at (i : Z) (s : glist) : res (option nat) :=
  let i' := if i <? 0 then i + g_gcnt s else i in
  if i' >=? g_gcnt s then Err IndexErr else follow (n_nh s) (Z.to_nat i') (g_fhead s).
Definition group_count (s : glist) : Z := g_gcnt s.
(** util.py 106-111. *)
Definition group_heads (s : glist) : res (list nat) := trail (n_nh s) (fresh s) (g_fhead s).
(** util.py 420-429. *)
Definition to_nested_lists (s : glist) : res (list (list A)) :=
  hs <- group_heads s ;; mapM (fun h => view_iter (Some h) s) hs.

(** ** Operations of the list *)
(** util.py 460-468. *)
Definition prepend (x : A) (ng : bool) (s : glist) : res glist :=
  if g_cnt s =? 0 then insert_first x s else insert_before (g_first s) x ng s.
(** util.py 470-478. *)
Definition append (x : A) (ng : bool) (s : glist) : res glist :=
  if g_cnt s =? 0 then insert_first x s else insert_after (g_last s) x ng s.
(** util.py 489-492, 699-701, for an iterable other than the list. *)
Fixpoint extend (l : list A) (s : glist) : res glist :=
  match l with [] => Ok s | x :: l' => s <- append x false s ;; extend l' s end.
(** util.py 480-487. *)
Definition append_group (l : list A) (s : glist) : res glist :=
  match l with [] => Ok s | x :: l' => s <- append x true s ;; extend l' s end.
(** util.py 188-200. *)
Inductive init_item := OneItem (x : A) | GroupItem (l : list A).
Fixpoint add_all (l : list init_item) (s : glist) : res glist :=
  match l with
  | [] => Ok s
  | OneItem x :: l' => s <- append x false s ;; add_all l' s
  | GroupItem g :: l' => s <- append_group g s ;; add_all l' s
  end.
Definition g_init (l : list init_item) : res glist := add_all l (clear g_new).
(** util.py 489-492 with the list itself as iterable: the iterator (util.py 638-642) stands at a node and goes on
    to what is its next node then. *)
Fixpoint extend_self_from (fuel : nat) (p : option nat) (s : glist) : res glist :=
  match p with
  | None => Ok s
  | Some a =>
      match fuel with
      | O => Err Diverge
      | S n => x <- value s a ;; s <- append x false s ;; extend_self_from n (n_next s a) s
      end
  end.
Definition extend_self (fuel : nat) (s : glist) : res glist := extend_self_from fuel (g_first s) s.
(** util.py 494-502. *)
Definition insert (i : Z) (x : A) (s : glist) : res glist :=
  if i =? 0 then prepend x false s
  else if i =? g_cnt s then append x false s
  else a <- node_at i s ;; insert_before a x false s.
(** util.py 504-506. *)
Definition insert_group_at (i : Z) (s : glist) : res glist :=
  i <- conform_index i s ;; a <- node_at i s ;; new_group_at_node a s.
(** util.py 508-513, 690-691. *)
Definition pop (i : option Z) (s : glist) : res (A * glist) :=
  let i := match i with None => g_cnt s - 1 | Some i => i end in
  i <- conform_index i s ;; a <- node_at i s ;; pop_node a s.
Definition del_item (i : Z) (s : glist) : res glist := q <- pop (Some i) s ;; Ok (snd q).
(** util.py 683-688. *)
Definition get_item (i : Z) (s : glist) : res A := p <- node_at i s ;; a <- deref p ;; value s a.
Definition set_item (i : Z) (x : A) (s : glist) : res glist := p <- node_at i s ;; a <- deref p ;; Ok (set_val a x s).
(** util.py 536-541. *)
Definition clear_groups (s : glist) : res glist :=
  l <- node_iter s ;; setup_single_group (fold_left (fun s a => clear_group_head a s) l s).
(** util.py 551-555. *)
Fixpoint reverse_from (fuel : nat) (p : option nat) (s : glist) : res glist :=
  match p with
  | None => Ok s
  | Some a =>
      match fuel with
      | O => Err Diverge
      | S n =>
          let nx := n_prev s a in
          let s := set_prev a (n_next s a) (set_next a nx s) in
          let s := clear_group_head a s in
          reverse_from n (n_next s a) s
      end
  end.
(** util.py 543-557. *)
Definition reverse (s : glist) : res glist :=
  if g_cnt s =? 0 then Ok s
  else
    s <- reverse_from (fresh s) (g_last s) s ;;
    setup_single_group (set_last (g_first s) (set_first (g_last s) s)).

Section Eq.
Variable eqb : A -> A -> bool.
(** util.py 443-449: [k] counts up to the limit. *)
Fixpoint index_from (x : A) (lo : Z) (s : glist) (n : nat) (k : Z) (p : option nat) : res Z :=
  match n with
  | O => Err ValueErr
  | S m =>
      a <- deref p ;; y <- value s a ;;
      if eqb y x && (k >=? lo) then Ok k else index_from x lo s m (k + 1) (n_next s a)
  end.
(** util.py 431-449. *)
Definition index (x : A) (min_i limit_i : option Z) (s : glist) : res Z :=
  let lo := match min_i with None => 0 | Some i => i end in
  let hi := match limit_i with None => g_cnt s | Some i => i end in
  lo <- conform_index lo s ;;
  hi <- conform_index (hi - 1) s ;;
  let hi := hi + 1 in
  let (hi, lo) := if lo >? hi then (lo, hi) else (hi, lo) in
  index_from x lo s (Z.to_nat hi) 0 (g_first s).
(** util.py 451-458, 675-681. *)
Definition count (x : A) (s : glist) : res Z := l <- g_iter s ;; Ok (zlen (filter (fun y => eqb y x) l)).
Definition mem (x : A) (s : glist) : res bool := l <- g_iter s ;; Ok (existsb (fun y => eqb y x) l).
(** util.py 515-525. *)
Fixpoint remove_from (fuel : nat) (x : A) (p : option nat) (s : glist) : res glist :=
  match p with
  | None => Err ValueErr
  | Some a =>
      match fuel with
      | O => Err Diverge
      | S n => y <- value s a ;;
               if eqb y x then q <- pop_node (Some a) s ;; Ok (snd q) else remove_from n x (n_next s a) s
      end
  end.
Definition remove (x : A) (s : glist) : res glist := remove_from (fresh s) x (g_first s) s.

(** util.py 670-672: [zip] stops at the shorter one; 664-668: [strict]. *)
Fixpoint zip_equal (strict : bool) (l m : list A) : bool :=
  match l, m with
  | x :: l', y :: m' => eqb x y && zip_equal strict l' m'
  | [], [] => true
  | _, _ => negb strict
  end.
(** util.py 662-668. *)
Fixpoint groups_equal (hs ks : list nat) (s t : glist) : res bool :=
  match hs with
  | [] => Ok true
  | h :: hs' =>
      l <- view_iter (Some h) s ;;
      match ks with
      | [] => Err IndexErr
      | k :: ks' =>
          m <- view_iter (Some k) t ;;
          if zip_equal true l m then groups_equal hs' ks' s t else Ok false
      end
  end.
(** util.py 644-673 for another grouped list; [!=] is the negation of [==]. *)
Definition equals (cmp_groups : bool) (s t : glist) : res bool :=
  if negb (g_cnt s =? g_cnt t) then Ok false
  else if cmp_groups then
    if negb (g_gcnt s =? g_gcnt t) then Ok false
    else hs <- group_heads s ;; ks <- group_heads t ;; groups_equal hs ks s t
  else l <- g_iter s ;; m <- g_iter t ;; Ok (zip_equal false l m).
(** util.py 644-673 for another kind of sequence. *)
Definition equals_plain (cmp_groups : bool) (s : glist) (m : list A) : res bool :=
  if negb (g_cnt s =? zlen m) then Ok false
  else if cmp_groups then Ok false
  else l <- g_iter s ;; Ok (zip_equal false l m).
End Eq.

(** ** Sorting *)
Section Sort.
Variable leb : A -> A -> bool.
Definition clear_if (b : bool) (a : nat) (s : glist) : glist := if b then clear_group_head a s else s.
(** util.py 592-600. *)
Fixpoint split_loop (fuel : nat) (cl : bool) (slow : nat) (fast : option nat) (s : glist) : res (nat * glist) :=
  match fast with
  | None => Ok (slow, s)
  | Some f =>
      match fuel with
      | O => Err Diverge
      | S n =>
          let s := clear_if cl f s in
          match n_next s f with
          | None => split_loop n cl slow None s
          | Some f' =>
              let s := clear_if cl f' s in
              slow' <- deref (n_next s slow) ;;
              split_loop n cl slow' (n_next s f') s
          end
      end
  end.
(** util.py 584-605. *)
Definition split_nodes (first : nat) (cl : bool) (s : glist) : res (option nat * glist) :=
  let s := clear_if cl first s in
  q <- split_loop (fresh s) cl first (n_next s first) s ;;
  let slow := fst q in let s := snd q in
  let b := n_next s slow in
  let s := set_next slow None s in
  b' <- deref b ;; Ok (b, set_prev b' None s).
(** util.py 607-629. *)
Fixpoint merge_sublists (fuel : nat) (fa la fb lb : option nat) (s : glist) : res (option nat * option nat * glist) :=
  match fa, fb with
  | None, _ => Ok (fb, lb, s)
  | _, None => Ok (fa, la, s)
  | Some a, Some b =>
      match fuel with
      | O => Err Diverge
      | S n =>
          x <- value s a ;; y <- value s b ;;
          if leb x y then
            q <- merge_sublists n (n_next s a) la fb lb s ;;
            let '(nf, nl, s) := q in
            let s := set_next a nf s in
            c <- deref nf ;;
            Ok (Some a, nl, set_prev a None (set_prev c (Some a) s))
          else
            q <- merge_sublists n fa la (n_next s b) lb s ;;
            let '(nf, nl, s) := q in
            let s := set_next b nf s in
            c <- deref nf ;;
            Ok (Some b, nl, set_prev b None (set_prev c (Some b) s))
      end
  end.
(** util.py 569-582. *)
Fixpoint merge_sort_nodes (fuel : nat) (first : option nat) (cl : bool) (s : glist) : res (option nat * option nat * glist) :=
  match first with
  | None => Ok (first, first, s)
  | Some a =>
      match n_next s a with
      | None => Ok (first, first, s)
      | Some _ =>
          match fuel with
          | O => Err Diverge
          | S n =>
              q <- split_nodes a cl s ;;
              let fb := fst q in let s := snd q in
              qa <- merge_sort_nodes n first false s ;;
              let '(fa, la, s) := qa in
              qb <- merge_sort_nodes n fb false s ;;
              let '(fb, lb, s) := qb in
              merge_sublists (fresh s) fa la fb lb s
          end
      end
  end.
(** util.py 563-567. *)
Definition sort (s : glist) : res glist :=
  q <- merge_sort_nodes (fresh s) (g_first s) true s ;;
  let '(f, l, s) := q in
  setup_single_group (set_last l (set_first f s)).
End Sort.
End Grouped.
Arguments glist : clear implicits.
