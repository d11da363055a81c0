(** * MVerse: model of [BibleBook] methods and of [BibleVerse] (ref.py 41-540).

    A function models the method of the same name; [e] is the environment (data singleton and
    global flags), [fl : option flag] the [flags] argument ([None] when omitted). *)
From Coq Require Import List ZArith Bool Lia.
From Verif Require Import Base Books Chars Regex Data.
Import ListNotations.
Open Scope Z_scope.

(** ref.py 304-306: the attributes of a [BibleVerse]. *)
Record verse := V { vbook : book; vchap : Z; vverse : Z }.

(** ref.py 160-166. *)
Definition min_chap_num (e : env) (b : book) : Z :=
  match max_verses (ed e) b with None => 0 | Some _ => 1 end.

(** ref.py 168-174. *)
Definition max_chap_num (e : env) (b : book) : Z :=
  match max_verses (ed e) b with None => 0 | Some l => zlen l end.

(** ref.py 155-158. *)
Definition chap_count (e : env) (b : book) : Z := max_chap_num e b - min_chap_num e b + 1.

(** The test [chap_num < self.min_chap_num() or chap_num > self.max_chap_num()] (ref.py 180, 187, 353). *)
Definition bad_chap (e : env) (b : book) (c : Z) : bool :=
  (c <? min_chap_num e b) || (c >? max_chap_num e b).

(** ref.py 176-182. *)
Definition min_verse_num (e : env) (b : book) (c : Z) (fl : option flag) : res Z :=
  let f := eff e fl in
  if bad_chap e b c then Err InvalidRef
  else Ok (if verse0 f && zmem c (verse_0s (ed e) b) then 0 else 1).

(** ref.py 184-189.  [None[...]] raises [TypeError]. *)
Definition max_verse_num (e : env) (b : book) (c : Z) : res Z :=
  if bad_chap e b c then Err InvalidRef
  else match max_verses (ed e) b with
       | None => Err TypeErr
       | Some l => match znth l (c - 1) with Some m => Ok m | None => Err IndexErr end
       end.

(** ref.py 148-153. *)
Fixpoint sum_chaps (e : env) (b : book) (fl : option flag) (cs : list Z) : res Z :=
  match cs with
  | [] => Ok 0
  | c :: cs' =>
      mx <- max_verse_num e b c ;; mn <- min_verse_num e b c fl ;;
      r <- sum_chaps e b fl cs' ;; Ok (mx - mn + 1 + r)
  end.
Definition book_verse_count (e : env) (b : book) (fl : option flag) : res Z :=
  sum_chaps e b fl (zrange 1 (chap_count e b)).

(** ref.py 341-359: [BibleVerse(book, chap_num, verse_num, flags=...)] with a [BibleBook] and ints. *)
Definition new_verse (e : env) (b : book) (c v : Z) (fl : option flag) : res verse :=
  if bad_chap e b c then Err InvalidRef
  else mn <- min_verse_num e b c fl ;;
       if v <? mn then Err InvalidRef
       else mx <- max_verse_num e b c ;;
            if v >? mx then Err InvalidRef else Ok (V b c v).

(** ref.py 191-197.  The verse is constructed without passing [flags] on. *)
Definition first_verse (e : env) (b : book) (oc : option Z) (fl : option flag) : res verse :=
  let c := match oc with None => min_chap_num e b | Some c => c end in
  mn <- min_verse_num e b c fl ;; new_verse e b c mn None.

(** ref.py 199-205. *)
Definition last_verse (e : env) (b : book) (oc : option Z) : res verse :=
  let c := match oc with None => max_chap_num e b | Some c => c end in
  mx <- max_verse_num e b c ;; new_verse e b c mx None.

(** ref.py 207-214. *)
Definition next_book (e : env) (b : book) : res (option book) :=
  match order (ed e) b with
  | None => Ok None
  | Some o =>
      if Z.of_nat o =? zlen (book_order (ed e)) - 1 then Ok None
      else match nth_error (book_order (ed e)) (S o) with
           | Some b' => Ok (Some b')
           | None => Err IndexErr
           end
  end.

(** ref.py 216-223. *)
Definition prev_book (e : env) (b : book) : res (option book) :=
  match order (ed e) b with
  | None => Ok None
  | Some O => Ok None
  | Some (S o) => match nth_error (book_order (ed e)) o with
                  | Some b' => Ok (Some b')
                  | None => Err IndexErr
                  end
  end.

(** ref.py 244-266: comparison operators of books; comparing with [None] raises [TypeError]. *)
Definition book_cmp (op : nat -> nat -> bool) (e : env) (a b : book) : res bool :=
  match order (ed e) a, order (ed e) b with
  | Some i, Some j => Ok (op i j)
  | _, _ => Err TypeErr
  end.
Definition book_lt := book_cmp Nat.ltb.
Definition book_le := book_cmp Nat.leb.
Definition book_gt := book_cmp (fun i j => Nat.ltb j i).
Definition book_ge := book_cmp (fun i j => Nat.leb j i).

(** ref.py 292 ([dataclass(eq=True, order=True)]): verses compare as the tuples
    (book, chap_num, verse_num): the first differing component decides. *)
Definition verse_eqb (a b : verse) : bool :=
  book_eqb (vbook a) (vbook b) && (vchap a =? vchap b) && (vverse a =? vverse b).

Definition verse_cmp (bop : env -> book -> book -> res bool) (zop : Z -> Z -> bool)
           (e : env) (a b : verse) : res bool :=
  if book_eqb (vbook a) (vbook b) then
    if vchap a =? vchap b then Ok (zop (vverse a) (vverse b))
    else Ok (zop (vchap a) (vchap b))
  else bop e (vbook a) (vbook b).
Definition verse_lt := verse_cmp book_lt Z.ltb.
Definition verse_le := verse_cmp book_le Z.leb.
Definition verse_gt := verse_cmp book_gt Z.gtb.
Definition verse_ge := verse_cmp book_ge Z.geb.

(** Total versions, used in the rest of the model.  They differ from [verse_lt] and [verse_le] only on
    two different books of which one has no order, where Python raises [TypeError]
    (see [verse_lt_total], [verse_le_total] in PVerse.v). *)
Definition bord (e : env) (b : book) : Z :=
  match order (ed e) b with Some i => Z.of_nat i | None => -1 end.
Definition vltb (e : env) (a b : verse) : bool :=
  if book_eqb (vbook a) (vbook b) then
    if vchap a =? vchap b then vverse a <? vverse b else vchap a <? vchap b
  else bord e (vbook a) <? bord e (vbook b).
Definition vleb (e : env) (a b : verse) : bool := negb (vltb e b a).

(** ref.py 361-367. *)
Definition verse_0_to_1 (e : env) (v : verse) : res verse :=
  if vverse v =? 0 then new_verse e (vbook v) (vchap v) 1 None else Ok v.

(** ref.py 369-376. *)
Definition verse_1_to_0 (e : env) (v : verse) : res verse :=
  if vverse v =? 1 then
    mn <- min_verse_num e (vbook v) (vchap v) (Some VERSE_0) ;;
    if mn =? 0 then new_verse e (vbook v) (vchap v) 0 (Some VERSE_0) else Ok v
  else Ok v.

(** ref.py 405-412. *)
Definition v_first_verse (e : env) (v : verse) (oc : option Z) (fl : option flag) : res verse :=
  first_verse e (vbook v) (Some match oc with None => vchap v | Some c => c end) fl.

(** ref.py 414-421. *)
Definition v_last_verse (e : env) (v : verse) (oc : option Z) : res verse :=
  last_verse e (vbook v) (Some match oc with None => vchap v | Some c => c end).

(** ref.py 423-427. *)
Definition is_first_in_chap (e : env) (v : verse) (oc : option Z) (fl : option flag) : res bool :=
  w <- v_first_verse e v oc fl ;; Ok (verse_eqb v w).

(** ref.py 429-433. *)
Definition is_last_in_chap (e : env) (v : verse) (oc : option Z) : res bool :=
  w <- v_last_verse e v oc ;; Ok (verse_eqb v w).

(** ref.py 435-441. *)
Definition is_first_in_book (e : env) (v : verse) (ob : option book) (fl : option flag) : res bool :=
  w <- first_verse e match ob with None => vbook v | Some b => b end None fl ;; Ok (verse_eqb v w).

(** ref.py 443-449. *)
Definition is_last_in_book (e : env) (v : verse) (ob : option book) : res bool :=
  w <- last_verse e match ob with None => vbook v | Some b => b end None ;; Ok (verse_eqb v w).

(** Fuel for the loops that move chapter by chapter: more than the number of chapters of all books. *)
Definition nchaps (e : env) (b : book) : nat :=
  match max_verses (ed e) b with None => 1%nat | Some l => length l end.
Definition sum_nchaps (e : env) (bs : list book) : nat :=
  fold_right (fun b n => (nchaps e b + n)%nat) 0%nat bs.
Definition nav_fuel (e : env) : nat := S (sum_nchaps e (book_order (ed e)) + sum_nchaps e all_books)%nat.

(** ref.py 480-494: the loop of [add]; [f] is the effective flag value. *)
Fixpoint add_loop (e : env) (f : flag) (fuel : nat) (b : book) (c vn mx : Z) : res (option verse) :=
  if vn >? mx then
    match fuel with
    | O => Err Diverge
    | S n =>
        let c1 := c + 1 in
        if c1 >? max_chap_num e b then
          if negb (multibook f) then Ok None
          else nb <- next_book e b ;;
               match nb with
               | None => Ok None
               | Some b' =>
                   let c' := min_chap_num e b' in
                   mn <- min_verse_num e b' c' (Some f) ;;
                   mx' <- max_verse_num e b' c' ;;
                   add_loop e f n b' c' (vn - mx + mn - 1) mx'
               end
        else
          mn <- min_verse_num e b c1 (Some f) ;;
          mx' <- max_verse_num e b c1 ;;
          add_loop e f n b c1 (vn - mx + mn - 1) mx'
    end
  else v <- new_verse e b c vn (Some f) ;; Ok (Some v).

(** Local [flags] after "honour existing verse 0s" (ref.py 476-477, 514-515). *)
Definition honour0 (f : flag) (v : verse) : flag :=
  if vverse v =? 0 then flag_or f VERSE_0 else f.

(** ref.py 461-494: [v.add(n, flags)]. *)
Definition add (e : env) (v : verse) (n : Z) (fl : option flag) : res (option verse) :=
  let f := honour0 (eff e fl) v in
  mx <- max_verse_num e (vbook v) (vchap v) ;;
  add_loop e f (nav_fuel e) (vbook v) (vchap v) (vverse v + n) mx.

(** ref.py 518-531: the loop of [subtract] for an int.  Line 530 calls [min_verse_num]
    without [flags]. *)
Fixpoint sub_loop (e : env) (f : flag) (fuel : nat) (b : book) (c vn mn : Z) : res (option verse) :=
  if vn <? mn then
    match fuel with
    | O => Err Diverge
    | S n =>
        let c1 := c - 1 in
        if c1 <? min_chap_num e b then
          if negb (multibook f) then Ok None
          else pb <- prev_book e b ;;
               match pb with
               | None => Ok None
               | Some b' =>
                   let c' := max_chap_num e b' in
                   mx <- max_verse_num e b' c' ;;
                   mn' <- min_verse_num e b' c' None ;;
                   sub_loop e f n b' c' (vn + mx - mn + 1) mn'
               end
        else
          mx <- max_verse_num e b c1 ;;
          mn' <- min_verse_num e b c1 None ;;
          sub_loop e f n b c1 (vn + mx - mn + 1) mn'
    end
  else v <- new_verse e b c vn (Some f) ;; Ok (Some v).

(** ref.py 496-531: [v.subtract(n, flags)] for an int [n]. *)
Definition subtract (e : env) (v : verse) (n : Z) (fl : option flag) : res (option verse) :=
  let f := honour0 (eff e fl) v in
  mn <- min_verse_num e (vbook v) (vchap v) (Some f) ;;
  sub_loop e f (nav_fuel e) (vbook v) (vchap v) (vverse v - n) mn.
