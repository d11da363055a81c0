(** * PropNew: constructors, set operations and list methods on arguments of any number and class (C62-C68). *)
From Coq Require Import List Ascii String NArith ZArith Bool Arith Lia.
From Verif Require Import Base Books Chars Regex Data DefaultData MVerse MRange Spec PList PCore PVerse PDefault PropVerse PUnit PropUnit MSeq MList SpecList
  MGroup SpecGroup PGroup PGroup2 PGroup6 PGroup8 PropGroup MNode SpecNode PNode PNode2 PropNode MStr MParse SpecName SpecParse SpecMean PLex PName PParse PParse2 PropParse MNew SpecNew PNew PNew2.
Import ListNotations.
Import Spec.
Open Scope Z_scope.
Open Scope list_scope.

(** ** C62: BibleVerse *)
Theorem C62_copy : forall e fl st v, any_verse e fl st [VVerse v] = (st, Ok v).
Proof. intros e fl st [b c v]. reflexivity. Qed.
(** The tables must know the book: see C01_no_table_refuted. *)
Theorem C62_numbers_partial : forall e fl st x b l c v, names_book_arg (ed e) x b -> max_verses (ed e) b = Some l ->
  fst (any_verse e fl st [x; VInt c; VInt v]) = st /\
  (forall w, snd (any_verse e fl st [x; VInt c; VInt v]) = Ok w <-> w = V b c v /\ legal (ed e) (zero_on e fl) b c v) /\
  (~ legal (ed e) (zero_on e fl) b c v -> snd (any_verse e fl st [x; VInt c; VInt v]) = Err InvalidRef).
Proof.
  intros e fl st x b l c v Hx Hl. assert (E : any_verse e fl st [x; VInt c; VInt v] = (st, new_verse e b c v fl)).
  { destruct Hx as [->|(s & -> & Hs)]; cbn; auto. unfold from_str_raise. now rewrite Hs. }
  rewrite E. cbn [fst snd]. split; auto. split; [intros w; exact (C01_constructible_iff_exists e b l c v fl w Hl)|exact (C01_otherwise_invalid_partial e b l c v fl Hl)].
Qed.
(** Without a table [TypeError] is raised for a verse that does not exist. *)
Theorem C62_refuted : exists e fl st b c v, ~ legal (ed e) (zero_on e fl) b c v /\ any_verse e fl st [VBook b; VInt c; VInt v] = (st, Err TypeErr).
Proof.
  destruct C01_no_table_refuted as (e & b & c & v & fl & N & E). exists e, fl, ts_init, b, c, v. split; auto. cbn [any_verse]. rewrite <- E. reflexivity.
Qed.
Theorem C62_unknown_name : forall e fl st s c v, from_str (ed e) s = None -> any_verse e fl st [VStr s; c; v] = (st, Err InvalidRef).
Proof. intros e fl st s c v H. cbn. unfold from_str_raise. now rewrite H. Qed.
Theorem C62_otherwise : forall e fl st args, ~ verse_args args -> (forall s c v, args = [VStr s; c; v] -> exists b, from_str (ed e) s = Some b) ->
  any_verse e fl st args = (st, Err ValueErr).
Proof.
  intros e fl st args N U. unfold verse_args in N. destruct args as [|x [|y [|z [|t l]]]]; [reflexivity| |destruct x; reflexivity| |destruct x; reflexivity].
  - destruct x; cbn; auto; exfalso; apply N; eauto.
  - assert (E : any_verse e fl st [x; y; z] = (st,
       b <- match x with VStr s => from_str_raise (ed e) s | VBook b => Ok b | _ => Err ValueErr end ;;
       c <- match y with VInt c => Ok c | _ => Err ValueErr end ;; v <- match z with VInt v => Ok v | _ => Err ValueErr end ;; new_verse e b c v fl)) by (destruct x; reflexivity).
    rewrite E. f_equal. destruct x; cbn; auto.
    + destruct (U _ _ _ eq_refl) as (b & Hb). unfold from_str_raise. rewrite Hb. cbn. destruct y; cbn; auto. destruct z; cbn; auto. exfalso. apply N. right. right. eauto 10.
    + destruct y; cbn; auto. destruct z; cbn; auto. exfalso. apply N. right. right. eauto 10.
Qed.
(** A string means what the parser makes of it (C46). *)
Theorem C62_string_partial : forall e fl st s, wf_data (ed e) -> names_listed (ed e) -> good_seps (ed e) -> sane (ed e) st ->
  let q := any_verse e fl st [VStr s] in
  fst q = fst (parse e fl st s) /\
  (forall x, snd (parse e fl st s) = Err x -> snd q = Err x) /\
  (forall v, snd q = Ok v <-> snd (parse e fl st s) = Ok [[R v v]]) /\
  (forall gs, snd (parse e fl st s) = Ok gs -> (forall v, gs <> [[R v v]]) -> snd q = Err InvalidRef).
Proof. exact C46_verse_from_str. Qed.
Example C62_ex :
  any_verse (denv NONE) None ts_init [VStr (s2l " matt"); VInt 28; VInt 20] = (ts_init, Ok (V Matt 28 20)) /\
  any_verse (denv NONE) None ts_init [VStr (s2l "Matt"); VInt 28; VInt 21] = (ts_init, Err InvalidRef) /\
  any_verse (denv NONE) None ts_init [VStr (s2l "Matthias"); VStr (s2l "x"); VNone] = (ts_init, Err InvalidRef) /\
  any_verse (denv NONE) None ts_init [VBook Matt; VStr (s2l "28"); VInt 2] = (ts_init, Err ValueErr) /\
  any_verse (denv NONE) None ts_init [VBook Matt; VInt 28] = (ts_init, Err ValueErr) /\
  any_verse (denv NONE) None ts_init [] = (ts_init, Err ValueErr) /\
  any_verse (denv NONE) None ts_init [VRange (R (V Matt 1 1) (V Matt 1 1))] = (ts_init, Err ValueErr) /\
  snd (any_verse (denv NONE) None ts_init [VStr (s2l "Matt 28:20")]) = Ok (V Matt 28 20).
Proof. vm_compute. repeat split. Qed.

(** ** C63: BibleRange *)
Theorem C63_copy : forall e fl st r s t, any_range e fl st [VRange r] s t = (st, Ok (VVerse (rstart r), VVerse (rend r))).
Proof. reflexivity. Qed.
Theorem C63_two_verses : forall e fl st s t,
  any_range e fl st [] (VVerse s) (VVerse t) = (st, r <- new_range e s t fl ;; Ok (VVerse (rstart r), VVerse (rend r))).
Proof.
  intros e fl st s t. cbn [any_range]. f_equal. unfold any_ends, new_range. cbn [py_book bind py_gt].
  destruct (multibook (eff e fl)); cbn [negb andb bind]; [|destruct (book_eqb (vbook s) (vbook t)); cbn [negb bind]; [|reflexivity]];
    (destruct (verse_gt e s t) as [[|]|]; reflexivity).
Qed.
(** Books, names of books, ints and None mean the parts; what becomes of them is in C08 and C09. *)
Theorem C63_parts : forall e fl st args a s t, means_parts (ed e) args a -> (1 <= List.length args <= 6)%nat -> (forall x, args <> [VStr x]) ->
  any_range e fl st args s t = (st, r <- new_range_pos e a fl ;; Ok (VVerse (rstart r), VVerse (rend r))).
Proof.
  intros e fl st args a s t M L N. rewrite <- (any_parts_typed e fl args a M). destruct args as [|x [|y args]]; [cbn in L; lia| |].
  - destruct M as (sb & sc & sv & eb & ec & ev & ([A0|(A0 & _)] & _) & B & _); [|discriminate]. cbn in A0. injection A0 as <-.
    destruct B as [->|(z & -> & _)]; [reflexivity|]. exfalso. now apply (N z).
  - assert (E : any_range e fl st (x :: y :: args) s t =
      (st, if (6 <? List.length (x :: y :: args))%nat then Err ValueErr else r <- any_parts e fl (x :: y :: args) ;; Ok (ends_of r))) by (destruct x; reflexivity).
    rewrite E. destruct (Nat.ltb_spec 6 (List.length (x :: y :: args))); [lia|reflexivity].
Qed.
Theorem C63_string_partial : forall e fl st x s t, wf_data (ed e) -> names_listed (ed e) -> good_seps (ed e) -> sane (ed e) st ->
  let q := any_range e fl st [VStr x] s t in
  fst q = fst (parse e fl st x) /\
  (forall ex, snd (parse e fl st x) = Err ex -> snd q = Err ex) /\
  (forall p, snd q = Ok p <-> exists r, snd (parse e fl st x) = Ok [[r]] /\ p = (VVerse (rstart r), VVerse (rend r))) /\
  (forall gs, snd (parse e fl st x) = Ok gs -> (List.length (List.concat gs) > 1)%nat -> snd q = Err InvalidRef).
Proof.
  intros e fl st x s t W N G S. cbn [any_range]. destruct (C46_range_from_str e fl st x W N G S) as (H1 & H2 & H3 & H4).
  destruct (range_from_str e fl st x) as (st', q). cbn [fst snd] in *. split; auto. split; [|split].
  - intros ex E. now rewrite (H2 ex E).
  - intros p. split.
    + destruct q as [r|]; cbn; [|discriminate]. intros E. injection E as <-. exists r. split; auto. now apply H3.
    + intros (r & E & ->). apply H3 in E. rewrite E. reflexivity.
  - intros gs E L. now rewrite (H4 gs E L).
Qed.
(** Too many arguments, or one argument of another class. *)
Theorem C63_wrong_number : forall e fl st args s t, (List.length args > 6)%nat -> any_range e fl st args s t = (st, Err ValueErr).
Proof.
  intros e fl st args s t L. destruct args as [|x [|y args]]; cbn in L; try lia.
  assert (E : any_range e fl st (x :: y :: args) s t =
    (st, if (6 <? List.length (x :: y :: args))%nat then Err ValueErr else r <- any_parts e fl (x :: y :: args) ;; Ok (ends_of r))) by (destruct x; reflexivity).
  rewrite E. destruct (Nat.ltb_spec 6 (List.length (x :: y :: args))); [reflexivity|cbn in *; lia].
Qed.
Theorem C63_one_wrong : forall e fl st x s t, (forall y, x <> VStr y) -> (forall y, x <> VRange y) -> (forall y, x <> VBook y) ->
  any_range e fl st [x] s t = (st, Err ValueErr).
Proof. intros e fl st x s t H1 H2 H3. destruct x; try reflexivity; exfalso; [eapply H1|eapply H3|eapply H2]; reflexivity. Qed.
(** Every other wrong argument raises, but not always [ValueError]: two to six arguments of any classes, or one book. *)
Theorem C63_raised : forall e fl st args s t x, (forall y, args <> [VStr y]) -> args <> [] -> snd (any_range e fl st args s t) = Err x ->
  x = InvalidRef \/ x = Multibook \/ x = ValueErr \/ x = TypeErr.
Proof.
  intros e fl st args s t x N N' H. assert (P : forall l, snd (st, r <- any_parts e fl l ;; Ok (ends_of r)) = Err x -> raised_by_parts x).
  { intros l E. cbn in E. destruct (any_parts e fl l) eqn:Ep; [discriminate|]. cbn in E. injection E as <-. eapply any_parts_err; eauto. }
  destruct args as [|y [|z args]]; [contradiction| |].
  - destruct y; cbn in H; try (injection H as <-; auto; fail); try discriminate; [exfalso; eapply N; reflexivity|]. apply (P [VBook b]). exact H.
  - assert (E : any_range e fl st (y :: z :: args) s t =
      (st, if (6 <? List.length (y :: z :: args))%nat then Err ValueErr else r <- any_parts e fl (y :: z :: args) ;; Ok (ends_of r))) by (destruct y; reflexivity).
    rewrite E in H. destruct (6 <? _)%nat; [cbn in H; injection H as <-; auto|]. exact (P _ H).
Qed.
(** No book at the first place: [InvalidReferenceError]. *)
Theorem C63_no_book : forall e fl st x y args s t, (List.length args <= 4)%nat -> (forall b, ~ names_book_arg (ed e) x b) ->
  any_range e fl st (x :: y :: args) s t = (st, Err InvalidRef).
Proof.
  intros e fl st x y args s t L N. assert (E : any_range e fl st (x :: y :: args) s t =
    (st, if (6 <? List.length (x :: y :: args))%nat then Err ValueErr else r <- any_parts e fl (x :: y :: args) ;; Ok (ends_of r))) by (destruct x; reflexivity).
  rewrite E. destruct (Nat.ltb_spec 6 (List.length (x :: y :: args))) as [B|_]; [cbn in B; lia|]. f_equal. unfold any_parts. change (arg (x :: y :: args) 0) with x.
  assert (F : any_book e x = Ok None \/ any_book e x = Err InvalidRef).
  { destruct x; cbn; auto; [|exfalso; eapply N; left; reflexivity]. unfold from_str_raise. destruct (from_str (ed e) s0) eqn:Ef; [|auto]. exfalso. eapply N. right. eauto. }
  destruct F as [-> | ->]; [|reflexivity]. cbn [bind]. destruct (any_book e (arg (x :: y :: args) 3)) as [eb|ex] eqn:E3; cbn [bind]; [reflexivity|].
  apply any_book_err in E3. now subst.
Qed.
(** The documentation: "If arguments are of an incorrect number or type, a ValueError is raised." *)
Theorem C63_wrong_refuted : exists e,
  snd (any_range e None ts_init [VInt 3; VInt 4] VNone VNone) = Err InvalidRef /\
  snd (any_range e None ts_init [] VNone VNone) = Err AttrErr /\
  snd (any_range e (Some MULTIBOOK) ts_init [] VNone VNone) = Err TypeErr /\
  snd (any_range e None ts_init [VBook Gen; VInt 1; VNone; VNone; VStr (s2l "2")] VNone VNone) = Err TypeErr /\
  snd (any_range e None ts_init [VBook Gen; VSeq [VInt 1]] VNone VNone) = Err TypeErr.
Proof. exists (denv NONE). vm_compute. repeat split. Qed.
Example C63_ex : means_parts default_data [VStr (s2l "Matt"); VInt 2; VNone; VNone; VInt 3] (PA Matt (Some 2) None None (Some 3) None) /\
  any_range (denv NONE) None ts_init [VStr (s2l "Matt"); VInt 2; VNone; VNone; VInt 3] VNone VNone = (ts_init, Ok (VVerse (V Matt 2 1), VVerse (V Matt 3 17))) /\
  any_range (denv NONE) None ts_init [VBook Jude] VNone VNone = (ts_init, Ok (VVerse (V Jude 1 1), VVerse (V Jude 1 25))) /\
  any_range (denv NONE) None ts_init [] (VVerse (V Jude 1 5)) (VVerse (V Jude 1 2)) = (ts_init, Ok (VVerse (V Jude 1 2), VVerse (V Jude 1 5))) /\
  any_range (denv NONE) None ts_init [VInt 3] VNone VNone = (ts_init, Err ValueErr) /\
  snd (any_range (denv NONE) None ts_init [VStr (s2l "Matt 2-3")] VNone VNone) = Ok (VVerse (V Matt 2 1), VVerse (V Matt 3 17)).
Proof.
  split.
  - exists (VStr (s2l "Matt")), (VInt 2), VNone, VNone, (VInt 3), VNone. split; [repeat split; try (left; reflexivity); right; split; reflexivity|].
    split; [right; exists (s2l "Matt"); split; [auto|vm_compute; auto]|]. repeat split.
  - vm_compute. repeat split.
Qed.

(** The comparisons that decide how the parts are read. *)
Theorem C63_equal_parts : forall a b, py_eqb a b = true <-> a = b /\ plain_value a.
Proof. exact py_eqb_spec. Qed.
Theorem C63_later_parts : forall e,
  (forall m n, py_gt e (VInt m) (VInt n) = Ok (n <? m)) /\ (forall s t, exists b, py_gt e (VStr s) (VStr t) = Ok b /\ (b = true <-> text_after s t)) /\
  (forall l m q, py_gt e (VSeq l) (VSeq m) = q <-> lists_after (py_gt e) l m q) /\
  (forall n s, py_gt e (VInt n) (VStr s) = Err TypeErr /\ py_gt e (VStr s) (VInt n) = Err TypeErr) /\ (forall x, py_gt e VNone x = Err TypeErr /\ py_gt e x VNone = Err TypeErr).
Proof.
  intros e. split; [intros m n; cbn; now rewrite Z.gtb_ltb|]. split; [intros s t; exists (str_gtb s t); split; auto; apply str_gtb_spec|].
  split; [apply py_gt_lists|]. split; [auto|]. intros x. split; auto. destruct x; auto.
Qed.
Example C63_parts_ex : py_eqb (VSeq [VInt 1; VStr (s2l "a")]) (VSeq [VInt 1; VStr (s2l "a")]) = true /\ py_eqb (VSeq [VOther]) (VSeq [VOther]) = false /\
  py_gt (denv NONE) (VSeq [VInt 1; VInt 3]) (VSeq [VInt 1; VInt 2; VInt 9]) = Ok true /\ py_gt (denv NONE) (VSeq [VInt 1; VInt 3]) (VSeq [VInt 1; VNone]) = Err TypeErr.
Proof. vm_compute. auto. Qed.

(** ** C64: numbers as texts *)
(** What [int()] takes. *)
Theorem C64_int_white : forall c, int_space c = true <-> int_white c.
Proof. exact space_in. Qed.
Theorem C64_int_text : forall s,
  (forall z, int_of_str s = Ok z <-> int_text s z) /\ ((forall z, ~ int_text s z) -> int_of_str s = Err ValueErr).
Proof.
  intros s. split; [intros z; apply int_of_str_ok|]. intros N. destruct (int_of_str s) as [z|x] eqn:E.
  - apply int_of_str_ok in E. exfalso. eapply N; eauto.
  - now rewrite (int_of_str_err _ _ E).
Qed.
Theorem C64_text_order : forall s t, str_gtb s t = true <-> text_after s t.
Proof. exact str_gtb_spec. Qed.
(** Missing: the two chapters and the two verses must be ordered as texts as they are as numbers. *)
Theorem C64_same_range_partial : forall e fl st args args' s t, List.length args = List.length args' ->
  arg args 0 = arg args' 0 -> arg args 3 = arg args' 3 -> (forall i, i <> 0%nat -> i <> 3%nat -> as_int (arg args i) (arg args' i)) ->
  same_order (arg args 1) (arg args 4) -> same_order (arg args 2) (arg args 5) ->
  any_range e fl st args s t = any_range e fl st args' s t.
Proof.
  intros e fl st args args' s t L E0 E3 I O1 O2. pose proof (any_parts_ints e fl args args' E0 E3 I O1 O2) as P.
  destruct args as [|x [|y args]], args' as [|x' [|y' args']]; try discriminate; auto.
  - unfold arg in E0. cbn in E0. now subst.
  - assert (E : forall a b l, any_range e fl st (a :: b :: l) s t =
      (st, if (6 <? List.length (a :: b :: l))%nat then Err ValueErr else r <- any_parts e fl (a :: b :: l) ;; Ok (ends_of r))) by (intros [] ? ?; reflexivity).
    rewrite !E, P, L. reflexivity.
Qed.
Theorem C64_same_range_refuted : exists e, 
  snd (any_range e None ts_init [VStr (s2l "Matt"); VInt 9; VNone; VNone; VInt 10] VNone VNone) = Ok (VVerse (V Matt 9 1), VVerse (V Matt 10 42)) /\
  snd (any_range e None ts_init [VStr (s2l "Matt"); VStr (s2l "9"); VNone; VNone; VStr (s2l "10")] VNone VNone) = Ok (VVerse (V Matt 10 1), VVerse (V Matt 9 38)) /\
  snd (any_range e None ts_init [VStr (s2l "Matt"); VStr (s2l "9"); VNone; VNone; VInt 10] VNone VNone) = Err TypeErr.
Proof. exists (denv NONE). vm_compute. repeat split. Qed.
Example C64_ex : int_text (s2l " +1_0 ") 10 /\ same_order (VStr (s2l "10")) (VStr (s2l "11")) /\
  snd (any_range (denv NONE) None ts_init [VStr (s2l "Matt"); VStr (s2l "10"); VNone; VNone; VStr (s2l "11")] VNone VNone) =
  snd (any_range (denv NONE) None ts_init [VStr (s2l "Matt"); VInt 10; VNone; VNone; VInt 11] VNone VNone).
Proof.
  assert (A : forall a b, int_of_str a = Ok b -> int_text a b) by (intros a b; apply int_of_str_ok). split; [apply A; vm_compute; auto|]. split; [|vm_compute; auto].
  right. right. right. exists (s2l "10"), (s2l "11"), 10, 11. split; auto. split; auto. split; [apply A; vm_compute; auto|]. split; [apply A; vm_compute; auto|]. split.
  - rewrite <- str_gtb_spec. split; [vm_compute; discriminate|lia].
  - split; [vm_compute; discriminate|lia].
Qed.

(** ** C65: what a constructed range is *)
(** Positional arguments of any classes: both ends are verses of the Bible. *)
Theorem C65_positional_partial : forall e fl st args s t p, (2 <= List.length args)%nat \/ (exists b, args = [VBook b]) ->
  snd (any_range e fl st args s t) = Ok p ->
  exists v w, p = (VVerse v, VVerse w) /\ real e fl v /\ real e fl w /\ (multi_on e fl = false -> vbook v = vbook w).
Proof.
  intros e fl st args s t p L H. assert (P : forall l, snd (st, r <- any_parts e fl l ;; Ok (ends_of r)) = Ok p ->
    exists v w, p = (VVerse v, VVerse w) /\ real e fl v /\ real e fl w /\ (multi_on e fl = false -> vbook v = vbook w)).
  { intros l E. cbn in E. destruct (any_parts e fl l) as [r|] eqn:Ep; [|discriminate]. cbn in E. injection E as <-. apply any_parts_real in Ep. exists (rstart r), (rend r). split; auto. }
  destruct L as [L|(b & ->)]; [|exact (P [VBook b] H)]. destruct args as [|x [|y args]]; cbn in L; try lia.
  assert (E : any_range e fl st (x :: y :: args) s t =
    (st, if (6 <? List.length (x :: y :: args))%nat then Err ValueErr else r <- any_parts e fl (x :: y :: args) ;; Ok (ends_of r))) by (destruct x; reflexivity).
  rewrite E in H. destruct (6 <? _)%nat; [discriminate|]. exact (P _ H).
Qed.
(** With numbers that are ints the start is not after the end. *)
Theorem C65_ordered_partial : forall e fl st args a s t p, wf_data (ed e) -> means_parts (ed e) args a -> books_listed (ed e) a ->
  (1 <= List.length args <= 6)%nat -> (forall x, args <> [VStr x]) -> snd (any_range e fl st args s t) = Ok p ->
  exists r, p = (VVerse (rstart r), VVerse (rend r)) /\ wf_range (ed e) (zero_on e fl) r.
Proof.
  intros e fl st args a s t p W M B L N H. rewrite (C63_parts e fl st args a s t M L N) in H. cbn in H.
  destruct (new_range_pos e a fl) as [r|] eqn:E; [|discriminate]. cbn in H. injection H as <-. exists r. split; auto. exact (proj1 (C08_positional e a fl r W B E)).
Qed.
(** Keyword arguments of any classes, without MULTIBOOK. *)
Theorem C65_keywords_partial : forall e fl st s t p, multi_on e fl = false -> snd (any_range e fl st [] s t) = Ok p ->
  exists v w, vbook v = vbook w /\ (s, t) = (VVerse v, VVerse w) /\ new_range e v w fl = Ok (R v w) /\ p = (VVerse v, VVerse w) \/
              vbook v = vbook w /\ (s, t) = (VVerse v, VVerse w) /\ new_range e v w fl = Ok (R w v) /\ p = (VVerse w, VVerse v).
Proof.
  intros e fl st s t p M H. rewrite <- multi_on_eq in M. cbn in H. unfold any_ends in H. rewrite M in H. destruct s; try discriminate. destruct t; try discriminate. cbn in H.
  exists v, v0. unfold new_range. rewrite M. cbn [negb andb]. destruct (book_eqb (vbook v) (vbook v0)) eqn:E; [|discriminate]. cbn in *. apply book_eqb_eq in E.
  destruct (verse_gt e v v0) as [[|]|]; [| |discriminate]; cbn in *; injection H as <-; auto 10.
Qed.
(** "A constructed range has two verses, the first not after the second" is false. *)
Theorem C65_refuted : exists e,
  snd (any_range e (Some MULTIBOOK) ts_init [] (VInt 4) (VInt 3)) = Ok (VInt 3, VInt 4) /\
  exists v w, snd (any_range e None ts_init [VStr (s2l "Matt"); VStr (s2l "9"); VNone; VNone; VStr (s2l "10")] VNone VNone) = Ok (VVerse v, VVerse w) /\
    verse_gt e v w = Ok true.
Proof. exists (denv NONE). split; [vm_compute; auto|]. exists (V Matt 10 1), (V Matt 9 38). vm_compute. split; reflexivity. Qed.
Example C65_ex : any_range (denv NONE) None ts_init [VStr (s2l "Matt"); VStr (s2l "2"); VInt 3; VNone; VNone; VInt 5] VNone VNone =
    (ts_init, Ok (VVerse (V Matt 2 3), VVerse (V Matt 2 5))) /\
  any_range (denv NONE) None ts_init [] (VVerse (V Matt 2 5)) (VVerse (V Matt 2 3)) = (ts_init, Ok (VVerse (V Matt 2 3), VVerse (V Matt 2 5))).
Proof. vm_compute. split; reflexivity. Qed.

(** ** C66: BibleRangeList *)
Theorem C66_items : forall e fl st args l, items_of args l ->
  (Forall fit l -> exists s g, any_list e fl st args = (st, Ok s) /\ groups_made l g /\ shows s g) /\
  (~ Forall fit l -> any_list e fl st args = (st, Err TypeErr)).
Proof.
  intros e fl st args l H. assert (E : any_list e fl st args = (st, new_items l)).
  { destruct H as [(x & -> & [-> | ->])|(N & ->)]; [reflexivity|reflexivity|]. destruct l as [|x [|y l]]; [reflexivity|contradiction (N eq_refl)|]. destruct x; reflexivity. }
  rewrite E. split; intros F.
  - destruct (groups_exist l F) as (lead & gs & G). destruct (new_items_made l _ (ex_intro _ lead (ex_intro _ gs (conj G eq_refl)))) as (s & Es & Sh).
    rewrite Es. exists s. eexists. split; [reflexivity|]. split; [|exact Sh]. exists lead, gs. auto.
  - unfold new_items. now rewrite (items_unfit l F).
Qed.
Theorem C66_groups_unique : forall l g g', groups_made l g -> groups_made l g' -> g = g'.
Proof. exact groups_made_unique. Qed.
Theorem C66_none : forall e fl st, exists s, any_list e fl st [VNone] = (st, Ok s) /\ shows s [].
Proof. intros e fl st. exists (clear g_new). split; [reflexivity|exact empty_shows]. Qed.
(** A list of ranges has no empty groups (C27), so [no_empty l] is [l]. *)
Theorem C66_copy : forall e fl st l, (exists s, any_list e fl st [VList l] = (st, Ok s) /\ shows s (no_empty l)) /\ (full_groups l -> no_empty l = l).
Proof.
  intros e fl st l. split; [|apply no_empty_full]. destruct (added_groups l) as (s & E & H). exists s. split; auto. cbn [any_list]. now rewrite E.
Qed.
Theorem C66_string : forall e fl st x, fst (any_list e fl st [VStr x]) = fst (parse e fl st x) /\
  (forall ex, snd (parse e fl st x) = Err ex -> snd (any_list e fl st [VStr x]) = Err ex) /\
  (forall gs, snd (parse e fl st x) = Ok gs -> exists s, snd (any_list e fl st [VStr x]) = Ok s /\ shows s (no_empty gs)).
Proof.
  intros e fl st x. cbn [any_list]. assert (E : parse e (Some (eff e fl)) st x = parse e fl st x) by (unfold parse; now rewrite PCore.eff_eff). rewrite E.
  destruct (parse e fl st x) as (st', [gs|ex]); cbn [fst snd bind]; (split; [auto|]); (split; [|]); intros y H; inversion H; subst; auto.
  apply added_groups.
Qed.
(** Objects that cannot be iterated, and a range (iterating it gives verses). *)
Theorem C66_others : forall e fl st x, (exists n, x = VInt n) \/ (exists b, x = VBook b) \/ (exists v, x = VVerse v) \/ x = VOther \/
  (exists r, x = VRange r /\ verse_le e (rstart r) (rend r) <> Ok false) -> any_list e fl st [x] = (st, Err TypeErr).
Proof.
  intros e fl st x [(n & ->)|[(b & ->)|[(v & ->)|[->|(r & -> & H)]]]]; try reflexivity. cbn. f_equal. destruct (verse_le e (rstart r) (rend r)) as [[|]|y] eqn:E; cbn; auto; [contradiction|].
  unfold verse_le, verse_cmp, book_le, book_cmp in E. destruct (book_eqb _ _); [destruct (_ =? _); discriminate|].
  destruct (order (ed e) (vbook (rstart r))), (order (ed e) (vbook (rend r))); congruence.
Qed.
Example C66_ex : let a := R (V Matt 1 1) (V Matt 1 2) in let b := R (V Mark 1 1) (V Mark 1 2) in let c := R (V Luke 1 1) (V Luke 1 2) in
  groups_made [VRange a; VSeq [VRange b]; VRange c; VSeq []; VRange a] [[a]; [b; c; a]] /\
  (s <- snd (any_list (denv NONE) None ts_init [VRange a; VSeq [VRange b]; VRange c; VSeq []; VRange a]) ;; to_nested_lists s) = Ok [[a]; [b; c; a]] /\
  snd (any_list (denv NONE) None ts_init [VSeq [VRange a; VIter [VRange b]]]) = Err TypeErr /\
  snd (any_list (denv NONE) None ts_init [VRange a]) = Err TypeErr /\
  (s <- snd (any_list (denv NONE) None ts_init [VStr (s2l "Matt 1:1-2; Mark 1:1,3")]) ;; to_nested_lists s) =
    Ok [[a]; [R (V Mark 1 1) (V Mark 1 1); R (V Mark 1 3) (V Mark 1 3)]].
Proof.
  intros a b c. split.
  - exists [a], [[b; c; a]]. split; auto. apply in_range. change [b; c; a] with (b :: [] ++ [c; a]). apply (in_group b []). apply in_range. apply in_empty. apply in_range. apply in_none.
  - vm_compute. repeat split.
Qed.

(** ** C67: set operations *)
Lemma no_ref : forall x, ~ is_reference x -> as_ref x = None.
Proof. intros x N. unfold is_reference in N. destruct x; cbn; auto; exfalso; apply N; eauto. Qed.
Theorem C67_ranges : forall e a fl x, ~ is_reference x ->
  any_r_is_disjoint e a x = Err ValueErr /\ any_r_is_adjacent e a fl x = Err ValueErr /\ any_r_contains e a x = Err ValueErr /\ any_r_surrounds e a x = Err ValueErr /\
  any_r_union e a fl x = Err ValueErr /\ any_r_intersection e a fl x = Err ValueErr /\ any_r_difference e a fl x = Err ValueErr /\ any_r_sym_difference e a fl x = Err ValueErr.
Proof.
  intros e a fl x N. apply no_ref in N. unfold any_r_is_disjoint, any_r_is_adjacent, any_r_contains, any_r_surrounds, any_r_union, any_r_intersection, any_r_difference, any_r_sym_difference,
    any_r_union, any_r_is_disjoint, on_ref. rewrite N. auto 10.
Qed.
Theorem C67_lists : forall e n l fl x, ~ is_reference x ->
  any_l_union e l fl x = Err ValueErr /\ any_l_intersection e l fl x = Err ValueErr /\ any_l_difference e n l fl x = Err ValueErr /\ any_l_sym_difference e n l fl x = Err ValueErr.
Proof. intros e n l fl x N. apply no_ref in N. unfold any_l_union, any_l_intersection, any_l_difference, any_l_sym_difference, on_ref. rewrite N. auto. Qed.
Theorem C67_updates : forall e n fl x s, ~ is_reference x ->
  any_union_update e fl x s = (s, Err ValueErr) /\ any_intersection_update e fl x s = (s, Err ValueErr) /\
  any_difference_update e n fl x s = (s, Err ValueErr) /\ any_sym_difference_update e n fl x s = (s, Err ValueErr).
Proof. intros e n fl x s N. apply no_ref in N. unfold any_union_update, any_intersection_update, any_difference_update, any_sym_difference_update, on_ref_run. rewrite N. auto. Qed.
(** References get the results of the other properties. *)
Theorem C67_references : forall e n a l fl s v x, refers v x ->
  any_r_is_disjoint e a v = r_is_disjoint e a x /\ any_r_is_adjacent e a fl v = r_is_adjacent e a x fl /\ any_r_contains e a v = r_contains e a x /\
  any_r_surrounds e a v = r_surrounds e a x /\ any_r_union e a fl v = r_union e a x fl /\ any_r_intersection e a fl v = r_intersection e a x fl /\
  any_r_difference e a fl v = r_difference e a x fl /\ any_r_sym_difference e a fl v = r_sym_difference e a x fl /\
  any_l_is_disjoint e l v = l_is_disjoint e l x /\ any_l_contains e l fl v = l_contains e l x fl /\
  any_l_union e l fl v = l_union e l x fl /\ any_l_intersection e l fl v = l_intersection e l x fl /\
  any_l_difference e n l fl v = l_difference e n l x fl /\ any_l_sym_difference e n l fl v = l_sym_difference e n l x fl /\
  any_union_update e fl v s = n_union_update e x fl s /\ any_intersection_update e fl v s = n_intersection_update e x fl s /\
  any_difference_update e n fl v s = n_difference_update e n x fl s /\ any_sym_difference_update e n fl v s = n_sym_difference_update e n x fl s.
Proof. intros e n a l fl s v x [(q & -> & ->)|[(q & -> & ->)|(q & -> & ->)]]; repeat split. Qed.
(** What [BibleRangeList.is_disjoint] and [contains] do instead. *)
Lemma all_of_ok : forall A (f : A -> res bool) g l, (forall x, f x = Ok (g x)) -> all_of f l = Ok (forallb g l).
Proof. intros A f g l H. induction l as [|x l IH]; auto. cbn. rewrite H. cbn. destruct (g x); auto. Qed.
Lemma any_of_ok : forall A (f : A -> res bool) g l, (forall x, f x = Ok (g x)) -> any_of f l = Ok (existsb g l).
Proof. intros A f g l H. induction l as [|x l IH]; auto. cbn. rewrite H. cbn. destruct (g x); auto. Qed.
Lemma all_of_map : forall A B (f : B -> res bool) (h : A -> B) l, all_of f (map h l) = all_of (fun x => f (h x)) l.
Proof. intros A B f h l. induction l as [|x l IH]; auto. cbn. destruct (f (h x)) as [[|]|]; auto. Qed.
Theorem C67_plain_ranges : forall e l fl x rs, plain_ranges x rs ->
  any_l_is_disjoint e l x = l_is_disjoint e l (BL [rs]) /\ any_l_contains e l fl x = l_contains e l (BL [rs]) fl.
Proof.
  intros e l fl x rs H. assert (E : as_ref x = None /\ py_items e x = Ok (map VRange rs)) by (destruct H as [-> | ->]; auto). destruct E as (E1 & E2).
  unfold any_l_is_disjoint, any_l_contains, l_is_disjoint, l_contains. rewrite E1, E2. cbn [bind ref_ranges]. assert (I : items [rs] = rs) by apply app_nil_r. rewrite I. split.
  - apply all_of_ok. intros a. rewrite all_of_map. apply all_of_ok. reflexivity.
  - destruct (merge e fl (copy_list l)) as [m|]; [|reflexivity]. cbn [bind]. rewrite all_of_map. apply all_of_ok. intros b. now apply any_of_ok.
Qed.
Theorem C67_not_iterable : forall e l fl x, not_iterable x ->
  any_l_is_disjoint e l x = (match items l with [] => Ok true | _ => Err TypeErr end) /\
  any_l_contains e l fl x = (_ <- merge e fl (copy_list l) ;; Err TypeErr).
Proof.
  intros e l fl x H. assert (E : as_ref x = None /\ py_items e x = Err TypeErr) by (destruct H as [->|[(n & ->)|[(b & ->)| ->]]]; auto). destruct E as (E1 & E2).
  unfold any_l_is_disjoint, any_l_contains. rewrite E1, E2. split; auto. destruct (items l); reflexivity.
Qed.
Theorem C67_lists_refuted : exists e x y a, ~ is_reference x /\ ~ is_reference y /\
  any_l_is_disjoint e [] x = Ok true /\ any_l_is_disjoint e [[a]] x = Err TypeErr /\ any_l_contains e [[a]] None x = Err TypeErr /\
  any_l_is_disjoint e [[a]] y = Ok false /\ any_l_contains e [[a]] None y = Ok true.
Proof.
  exists (denv NONE), (VInt 5), (VSeq [VRange (R (V Matt 1 1) (V Matt 1 2))]), (R (V Matt 1 1) (V Matt 1 2)).
  split; [intros [(? & H)|[(? & H)|(? & H)]]; discriminate|]. split; [intros [(? & H)|[(? & H)|(? & H)]]; discriminate|]. vm_compute. repeat split.
Qed.
Example C67_ex : ~ is_reference (VStr (s2l "Matt 1")) /\
  any_r_union (denv NONE) (R (V Matt 1 1) (V Matt 1 2)) None (VStr (s2l "Matt 1")) = Err ValueErr /\
  any_r_contains (denv NONE) (R (V Matt 1 1) (V Matt 1 2)) (VVerse (V Matt 1 2)) = Ok true /\
  any_l_union (denv NONE) [[R (V Matt 1 1) (V Matt 1 2)]] None (VRange (R (V Matt 1 3) (V Matt 1 4))) = Ok [[R (V Matt 1 1) (V Matt 1 4)]].
Proof. split; [intros [(? & H)|[(? & H)|(? & H)]]; discriminate|]. vm_compute. repeat split. Qed.

(** ** C68: items of lists *)
(** Methods that take one item. *)
Theorem C68_refused : forall x ng i s, (forall r, x <> VRange r) ->
  any_append x ng s = (s, Err TypeErr) /\ any_prepend x ng s = (s, Err TypeErr) /\ any_insert i x s = (s, Err TypeErr) /\ any_set_item i x s = (s, Err TypeErr) /\
  any_remove x s = (s, Err TypeErr) /\ (forall lo hi, any_index x lo hi s = Err TypeErr) /\ any_count x s = Err TypeErr /\
  (forall v a, check_view v s = Ok a -> any_view_set v i x s = (s, Err TypeErr)) /\ (forall v ex, check_view v s = Err ex -> any_view_set v i x s = (s, Err ex)).
Proof.
  intros x ng i s H. assert (E : check_type x = Err TypeErr) by (destruct x; auto; exfalso; eapply H; reflexivity).
  unfold any_append, any_prepend, any_insert, any_set_item, any_remove, any_index, any_count, any_view_set, let_run. rewrite E. repeat split; auto; intros ? ? ->; reflexivity.
Qed.
Theorem C68_taken : forall r ng i s,
  any_append (VRange r) ng s = call (append r ng) s /\ any_prepend (VRange r) ng s = call (prepend r ng) s /\ any_insert i (VRange r) s = call (insert i r) s /\
  any_set_item i (VRange r) s = call (set_item i r) s /\ any_remove (VRange r) s = call (remove range_eqb r) s /\
  (forall lo hi, any_index (VRange r) lo hi s = index range_eqb r lo hi s) /\ any_count (VRange r) s = count range_eqb r s /\
  (forall v a, check_view v s = Ok a -> any_view_set v i (VRange r) s = call (view_set v i r) s).
Proof. intros r ng i s. repeat split. intros v a H. unfold any_view_set, let_run. now rewrite H. Qed.
(** Methods that take several items: those that cannot be iterated. *)
Theorem C68_no_items : forall e x s, not_iterable x \/ (exists v, x = VVerse v) ->
  any_extend e x s = (s, Err TypeErr) /\ any_append_group e x s = (s, Err TypeErr).
Proof. intros e x s [[->|[(n & ->)|[(b & ->)| ->]]]|(v & ->)]; split; reflexivity. Qed.
(** ... those that are ranges throughout ... *)
Theorem C68_all_ranges : forall eqb e os s g x rs, kept_list eqb e os s g -> plain_ranges x rs \/ (exists l, x = VList l /\ rs = List.concat l) ->
  any_extend e x s = call (extend rs) s /\ any_append_group e x s = call (append_group rs) s.
Proof.
  intros eqb e os s g x rs K H. destruct (kept_state _ _ _ _ _ K) as (h & O & S & _).
  assert (E : py_items e x = Ok (map VRange rs)) by (destruct H as [[-> | ->]|(l & -> & ->)]; auto).
  unfold any_extend, any_append_group, let_run. rewrite E. split.
  - destruct (any_add_good rs false s h O [] S) as (t & h' & E1 & _ & _ & E2). rewrite app_nil_r in E1. cbn [any_add] in E1. now rewrite E1, (E2 eq_refl).
  - destruct (any_add_good rs true s h O [] S) as (t & h' & E1 & _ & _ & E2). rewrite app_nil_r in E1. cbn [any_add] in E1. now rewrite E1, (E2 eq_refl).
Qed.
(** ... and those with another item: the ranges before it stay in the list. *)
Theorem C68_stops : forall eqb e os s g x rs y rest, kept_list eqb e os s g -> (forall r, y <> VRange r) ->
  x = VSeq (map VRange rs ++ y :: rest) \/ x = VIter (map VRange rs ++ y :: rest) ->
  (exists t, any_extend e x s = (t, Err TypeErr) /\ shows t (s_extend rs g)) /\
  (exists t, any_append_group e x s = (t, Err TypeErr) /\ shows t (s_append_group rs g)).
Proof.
  intros eqb e os s g x rs y rest K N H. destruct (kept_state _ _ _ _ _ K) as (h & O & S & <-).
  assert (E : py_items e x = Ok (map VRange rs ++ y :: rest)) by (destruct H as [-> | ->]; auto).
  assert (B : forall ng t, any_add (y :: rest) ng t = (t, Err TypeErr)).
  { intros ng t. cbn [any_add]. unfold any_append, let_run. assert (Ey : check_type y = Err TypeErr) by (destruct y; auto; exfalso; eapply N; reflexivity). now rewrite Ey. }
  unfold any_extend, any_append_group, let_run. rewrite E. split.
  - destruct (any_add_good rs false s h O (y :: rest) S) as (t & h' & E1 & S' & V & _). exists t. rewrite E1, B. split; auto. rewrite <- V. eapply state_shows; eauto.
  - destruct (any_add_good rs true s h O (y :: rest) S) as (t & h' & E1 & S' & V & _). exists t. rewrite E1, B. split; auto. rewrite <- V. eapply state_shows; eauto.
Qed.
(** The characters of a text and the verses of a range are no ranges. *)
Theorem C68_texts : forall e x s, any_extend e (VStr x) s = (s, match x with [] => Ok tt | _ => Err TypeErr end) /\
  any_append_group e (VStr x) s = (s, match x with [] => Ok tt | _ => Err TypeErr end).
Proof. intros e [|c x] s; split; reflexivity. Qed.
Theorem C68_one_range : forall e r s, wf_data (ed e) -> wf_range (ed e) true r ->
  any_extend e (VRange r) s = (s, Err TypeErr) /\ any_append_group e (VRange r) s = (s, Err TypeErr).
Proof.
  intros e r s W (A & B & C). assert (E : verse_le e (rstart r) (rend r) = Ok true).
  { destruct C as (i & j & Hi & Hj & L). destruct (C02_verse_order e i j _ _ W Hi Hj) as (_ & -> & _). f_equal. now apply Nat.leb_le. }
  unfold any_extend, any_append_group, py_items, let_run. rewrite E. split; reflexivity.
Qed.
(** "A method that raises TypeError for an item leaves the list unchanged" is false of [extend] and [append_group]. *)
Theorem C68_unchanged_refuted : exists e x r,
  (forall s, s = clear g_new -> snd (any_extend e x s) = Err TypeErr /\ to_nested_lists (fst (any_extend e x s)) = Ok [[r]] /\
    snd (any_append_group e x s) = Err TypeErr /\ to_nested_lists (fst (any_append_group e x s)) = Ok [[r]]) /\ to_nested_lists (clear (@g_new range)) = Ok [].
Proof.
  exists (denv NONE), (VSeq [VRange (R (V Matt 1 1) (V Matt 1 2)); VInt 5]), (R (V Matt 1 1) (V Matt 1 2)). split; [|vm_compute; auto]. intros s ->. vm_compute. repeat split.
Qed.
Example C68_ex : let a := R (V Matt 1 1) (V Matt 1 2) in
  (exists s, kept_list range_eqb (denv NONE) [LBase (OAppend false a)] s [[a]]) /\
  any_append (VVerse (V Matt 1 1)) false g_new = (g_new, Err TypeErr) /\ any_count (VStr (s2l "Matt 1:1")) g_new = Err TypeErr /\
  any_extend (denv NONE) (VStr (s2l "Matt")) g_new = (g_new, Err TypeErr) /\ any_extend (denv NONE) (VRange a) g_new = (g_new, Err TypeErr).
Proof.
  intros a. split; [|vm_compute; auto]. eexists. split; [|split; [reflexivity|vm_compute; reflexivity]]. cbn. split; [|exact I]. intros g _ i k H. discriminate.
Qed.
