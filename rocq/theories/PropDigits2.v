(** * PropDigits2: numbers given to BibleRange as strings, under the limit of int() (C92). *)
From Coq Require Import List ZArith NArith Bool Ascii String Lia.
From Verif Require Import Base Books Chars Regex Data DefaultData MVerse MRange MSeq MList MParse MNode MGroup MOrder MNew MDigits MDigits2 Spec SpecNew
  PNew PropNew PropWorld PropDigits.
Import ListNotations.
Open Scope Z_scope.
Open Scope list_scope.

(** The digits in a text; the text is too long for [int()]. *)
Definition digits_in (s : str) : list ascii := filter (fun c => existsb (fun p => Ascii.eqb c (fst p)) digit_values) s.
Definition long_text (lim : N) (x : pyval) : Prop := exists s, x = VStr s /\ lim <> 0%N /\ (N.to_nat lim < List.length (digits_in s))%nat.
(** A chapter or verse number among the arguments is. *)
Definition long_number (lim : N) (args : list pyval) : Prop := exists i, In i [1; 2; 4; 5]%nat /\ long_text lim (arg args i).

Lemma digit_in : forall c, existsb (fun p => Ascii.eqb c (fst p)) digit_values = is_digit c.
Proof. intros [[] [] [] [] [] [] [] []]; vm_compute; reflexivity. Qed.
Lemma digits_filter : forall s, digits_in s = filter is_digit s.
Proof. intros s. unfold digits_in. apply filter_ext. exact digit_in. Qed.
Lemma digits_all : forall n s l, (List.length s <= n)%nat -> int_digits s = Some l -> filter is_digit s = l.
Proof.
  induction n as [|n IH]; intros [|c s] l L E; cbn [List.length] in L; try lia; try discriminate. cbn [int_digits] in E. cbn [filter].
  destruct (is_digit c); [|discriminate]. destruct s as [|u s]; [injection E as <-; reflexivity|].
  destruct (code u =? 95)%N eqn:U.
  - assert (D : is_digit u = false) by (revert U; clear; destruct u as [[] [] [] [] [] [] [] []]; vm_compute; congruence). cbn [filter]. rewrite D.
    destruct (int_digits s) as [m|] eqn:M; [|discriminate]. injection E as <-. f_equal. apply IH; auto. cbn in L; lia.
  - destruct (int_digits (u :: s)) as [m|] eqn:M; [|discriminate]. injection E as <-. f_equal. apply IH; auto. cbn in *; lia.
Qed.
Lemma skip_digits : forall s, filter is_digit (skip_space s) = filter is_digit s.
Proof.
  induction s as [|c s IH]; [reflexivity|]. cbn [skip_space]. destruct (int_space c) eqn:S; [|reflexivity]. cbn [filter].
  assert (D : is_digit c = false) by (revert S; clear; destruct c as [[] [] [] [] [] [] [] []]; vm_compute; congruence). now rewrite D.
Qed.
Lemma filter_rev_len : forall (f : ascii -> bool) l, List.length (filter f (rev l)) = List.length (filter f l).
Proof. intros f. induction l as [|a l IH]; [reflexivity|]. cbn [rev filter]. rewrite filter_app, app_length, IH. cbn [filter]. destruct (f a); cbn; lia. Qed.
Lemma int_l : forall lim s, int_of_str_l lim s = if (0 <? lim)%N && (lim <? N.of_nat (List.length (digits_in s)))%N then Err ValueErr else int_of_str s.
Proof.
  intros lim s. unfold int_of_str_l, int_of_str. rewrite digits_filter. set (w := rev (skip_space (rev (skip_space s)))).
  assert (W : List.length (filter is_digit w) = List.length (filter is_digit s)) by (unfold w; now rewrite filter_rev_len, skip_digits, filter_rev_len, skip_digits).
  rewrite <- W. clear W. generalize w. clear s w. intros w.
  set (q := match w with [] => (1, []) | c :: s' => if (code c =? 43)%N then (1, s') else if (code c =? 45)%N then (-1, s') else (1, w) end).
  assert (Q : filter is_digit (snd q) = filter is_digit w).
  { unfold q. destruct w as [|c w]; [reflexivity|]. destruct (code c =? 43)%N eqn:P; [|destruct (code c =? 45)%N eqn:M; [|reflexivity]]; cbn [snd filter];
      (assert (D : is_digit c = false) by (revert P; try revert M; clear; destruct c as [[] [] [] [] [] [] [] []]; vm_compute; congruence)); now rewrite D. }
  destruct (int_digits (snd q)) as [l|] eqn:E; [|now destruct (_ && _)].
  rewrite <- Q, (digits_all _ _ _ (le_n _) E). reflexivity.
Qed.
Lemma long_iff : forall lim s, ((0 <? lim)%N && (lim <? N.of_nat (List.length (digits_in s)))%N) = true <-> long_text lim (VStr s).
Proof.
  intros lim s. rewrite andb_true_iff, !N.ltb_lt. unfold long_text. split; [intros (A & B); exists s; split; [reflexivity|lia]|].
  intros (s' & [= <-] & A & B). lia.
Qed.
Lemma py_int_cases : forall lim x, (long_text lim x /\ py_int_l lim x = Err ValueErr) \/ (~ long_text lim x /\ py_int_l lim x = py_int x).
Proof.
  intros lim x. destruct x; try (right; split; [intros (s' & E & _); discriminate|reflexivity]). cbn [py_int_l py_int]. rewrite int_l. pose proof (long_iff lim s) as H.
  destruct (_ && _); [left|right]; (split; [|reflexivity]); [now apply H|]. intros L. apply H in L. discriminate.
Qed.

(** The first is the result without a limit. *)
Definition limited {A} (q q' : res A) : Prop := q' = q \/ q' = Err ValueErr.
Lemma limited_bind : forall {A B} (q q' : res A) (k k' : A -> res B), limited q q' -> (forall a, limited (k a) (k' a)) -> limited (bind q k) (bind q' k').
Proof. intros A B q q' k k' [-> | ->] K; [|right; reflexivity]. destruct q as [a|x]; cbn; [apply K|now left]. Qed.
Lemma limited_refl : forall {A} (q : res A), limited q q.
Proof. intros. now left. Qed.
Lemma limited_int : forall lim x, limited (py_int x) (py_int_l lim x).
Proof. intros lim x. destruct (py_int_cases lim x) as [(_ & ->)|(_ & ->)]; [now right|now left]. Qed.
Lemma build_limited : forall lim e a fl, limited (any_build e a fl) (any_build_l lim e a fl).
Proof.
  intros lim e [sb sc sv eb ec ev] fl. unfold any_build, any_build_l. destruct sb as [b|]; [|apply limited_refl]. destruct (negb (given sc) && given sv); [apply limited_refl|].
  apply limited_bind.
  - destruct (negb (given sc)); [apply limited_refl|]. destruct (negb (given sv)).
    + apply limited_bind; [apply limited_int|intros; apply limited_refl].
    + apply limited_bind; [apply limited_int|intros]. apply limited_bind; [apply limited_int|intros; apply limited_refl].
  - intros (s & t). cbn [fst snd]. apply limited_bind; [|intros; apply limited_refl]. destruct t; [apply limited_refl|].
    destruct (negb (given ec) && negb (given ev)); [apply limited_refl|]. destruct (negb (given ev)); [apply limited_bind; [apply limited_int|intros; apply limited_refl]|].
    destruct (negb (given ec)); [destruct (negb (book_eqb b _)); [apply limited_refl|]; apply limited_bind; [apply limited_int|intros; apply limited_refl]|].
    apply limited_bind; [apply limited_int|intros]. apply limited_bind; [apply limited_int|intros; apply limited_refl].
Qed.
Definition args_long (lim : N) (a : any_args) : Prop := long_text lim (aa_sc a) \/ long_text lim (aa_sv a) \/ long_text lim (aa_ec a) \/ long_text lim (aa_ev a).
Lemma build_short : forall lim e a fl, ~ args_long lim a -> any_build_l lim e a fl = any_build e a fl.
Proof.
  intros lim e [sb sc sv eb ec ev] fl. unfold args_long. cbn [aa_sc aa_sv aa_ec aa_ev]. intros N.
  assert (I : forall x, ~ long_text lim x -> py_int_l lim x = py_int x) by (intros x Hx; destruct (py_int_cases lim x) as [(L & _)|(_ & ->)]; [contradiction|reflexivity]).
  unfold any_build_l, any_build. rewrite (I sc), (I sv), (I ec), (I ev) by tauto. reflexivity.
Qed.
Lemma end_long : forall lim ec ev (E : res verse) (F : Z -> res verse) (G : Z -> res verse) (H : Z -> Z -> res verse) (same : bool) t,
  (if negb (given ec) && negb (given ev) then E else if negb (given ev) then c <- py_int ec ;; F c
   else if negb (given ec) then if negb same then Err InvalidRef else v <- py_int ev ;; G v else c <- py_int ec ;; v <- py_int ev ;; H c v) = Ok t ->
  long_text lim ec \/ long_text lim ev ->
  (if negb (given ec) && negb (given ev) then E else if negb (given ev) then c <- py_int_l lim ec ;; F c
   else if negb (given ec) then if negb same then Err InvalidRef else v <- py_int_l lim ev ;; G v else c <- py_int_l lim ec ;; v <- py_int_l lim ev ;; H c v) = Err ValueErr.
Proof.
  intros lim ec ev E F G H same t. assert (Gv : forall x, long_text lim x -> given x = true) by (intros x (s & -> & _); reflexivity).
  pose proof (Gv ec) as G1. pose proof (Gv ev) as G2. clear Gv.
  destruct (py_int_cases lim ec) as [(Lc & ->)|(Nc & ->)], (py_int_cases lim ev) as [(Lv & ->)|(Nv & ->)]; destruct (given ec), (given ev); cbn [negb andb bind];
    try (intros _ _; reflexivity); try (intros _ [?|?]; contradiction); try (specialize (G1 Lc); discriminate); try (specialize (G2 Lv); discriminate).
  - intros X _. destruct (py_int ec) as [c|x]; cbn [bind] in *; [reflexivity|discriminate].
  - intros X _. destruct same; cbn [negb] in *; [reflexivity|discriminate].
Qed.
Lemma build_long : forall lim e a fl r, any_build e a fl = Ok r -> args_long lim a -> any_build_l lim e a fl = Err ValueErr.
Proof.
  intros lim e [sb sc sv eb ec ev] fl r. unfold args_long. cbn [aa_sc aa_sv aa_ec aa_ev]. unfold any_build, any_build_l.
  destruct sb as [b|]; [|discriminate].
  assert (G : forall x, long_text lim x -> given x = true) by (intros x (s & -> & _); reflexivity).
  assert (Gs : long_text lim sc -> given sc = true) by auto. assert (Gt : long_text lim sv -> given sv = true) by auto.
  assert (He : long_text lim ec \/ long_text lim ev -> o_is eb || given ec || given ev = true).
  { intros [L|L]; rewrite (G _ L); now rewrite !orb_true_r. }
  clear G. destruct (negb (given sc) && given sv) eqn:E0; [discriminate|].
  destruct (py_int_cases lim sc) as [(Lc & ->)|(Nc & ->)].
  { intros _ _. rewrite (Gs Lc). cbn [negb]. now destruct (given sv). }
  destruct (py_int_cases lim sv) as [(Lv & ->)|(Nv & ->)].
  { intros H _. rewrite (Gt Lv) in *. destruct (given sc); cbn [negb andb] in *; [|discriminate]. destruct (py_int sc); cbn [bind] in *; [reflexivity|discriminate]. }
  intros H L. assert (L' : long_text lim ec \/ long_text lim ev) by tauto. clear L. rewrite (He L') in *.
  match type of H with bind ?m _ = _ => set (start := m) in * end.
  assert (S : forall p, start = Ok p -> snd p = None).
  { intros p. unfold start. clear. destruct (given sc), (given sv); cbn [negb]; repeat match goal with |- context [bind ?m _] => destruct m; cbn [bind]; try discriminate end; now intros [= <-]. }
  destruct start as [(s & t)|x]; cbn [bind fst snd] in *; [|discriminate]. specialize (S _ eq_refl). cbn in S. subst t.
  match type of H with bind ?m _ = _ => destruct m as [t|x] eqn:Et; cbn [bind] in H; [|discriminate] end.
  rewrite (end_long lim ec ev _ _ _ _ _ _ Et L'). reflexivity.
Qed.
Lemma swap_args : forall e a b, any_swap e a = Ok b -> forall x, In x [aa_sc a; aa_sv a; aa_ec a; aa_ev a] <-> In x [aa_sc b; aa_sv b; aa_ec b; aa_ev b].
Proof.
  intros e [sb sc sv eb ec ev] b. unfold any_swap. destruct sb as [bk|]; [|intros [= <-]; reflexivity].
  repeat match goal with |- context [bind ?m _] => destruct m as [[|]|]; cbn [bind]; try discriminate | |- context [if ?c then _ else _] => destruct c end;
    intros [= <-] x; cbn [aa_sc aa_sv aa_ec aa_ev In]; tauto.
Qed.
Lemma long_swap : forall lim e args sb eb a, any_swap e (AA sb (arg args 1) (arg args 2) eb (arg args 4) (arg args 5)) = Ok a -> (long_number lim args <-> args_long lim a).
Proof.
  intros lim e args sb eb a E. pose proof (swap_args _ _ _ E) as S. cbn [aa_sc aa_sv aa_ec aa_ev] in S.
  assert (K : forall x y z w, (exists v, In v [x; y; z; w] /\ long_text lim v) <-> long_text lim x \/ long_text lim y \/ long_text lim z \/ long_text lim w).
  { intros x y z w. split; [intros (v & I & L); cbn in I; repeat destruct I as [<-|I]; tauto|]. intros [L|[L|[L|L]]]; eexists; (split; [|exact L]); cbn; tauto. }
  unfold args_long. rewrite <- K. split.
  - intros (i & I & L). exists (arg args i). split; [|exact L]. apply S. cbn in I. cbn. repeat destruct I as [<-|I]; tauto.
  - intros (v & I & L). apply S in I. cbn in I. unfold long_number. repeat destruct I as [<-|I]; [exists 1%nat|exists 2%nat|exists 4%nat|exists 5%nat|contradiction]; (split; [cbn; tauto|exact L]).
Qed.
Lemma parts_cases : forall lim e fl args,
  limited (any_parts e fl args) (any_parts_l lim e fl args) /\
  (~ long_number lim args -> any_parts_l lim e fl args = any_parts e fl args) /\
  (forall r, any_parts e fl args = Ok r -> long_number lim args -> any_parts_l lim e fl args = Err ValueErr).
Proof.
  intros lim e fl args. unfold any_parts, any_parts_l. destruct (any_book e (arg args 0)) as [sb|x]; cbn [bind]; [|split; [now left|split; [reflexivity|discriminate]]].
  destruct (any_book e (arg args 3)) as [eb|x]; cbn [bind]; [|split; [now left|split; [reflexivity|discriminate]]].
  destruct (any_swap e _) as [a|x] eqn:E; cbn [bind]; [|split; [now left|split; [reflexivity|discriminate]]].
  pose proof (long_swap lim e args sb eb a E) as L. split; [apply build_limited|]. split.
  - intros N. apply build_short. now rewrite <- L.
  - intros r H N. apply (build_long lim e a fl r H). now rewrite <- L.
Qed.

(** ** C92 *)
(** What [int()] takes under a limit. *)
Theorem C92_int : forall lim s,
  (forall z, int_of_str_l lim s = Ok z <-> int_text s z /\ ~ long_text lim (VStr s)) /\
  ((forall z, ~ int_text s z) \/ long_text lim (VStr s) -> int_of_str_l lim s = Err ValueErr).
Proof.
  intros lim s. destruct (C64_int_text s) as (A & B). pose proof (long_iff lim s) as L. rewrite int_l. destruct (_ && _).
  - assert (long_text lim (VStr s)) by now apply L. split; [|reflexivity]. intros z. split; [discriminate|]. tauto.
  - assert (N : ~ long_text lim (VStr s)) by (intros X; apply L in X; discriminate). split; [intros z; rewrite A; tauto|]. intros [H|H]; [auto|contradiction].
Qed.
(** [BibleRange] of several arguments is as without a limit if no chapter or verse number is a string with more digits
    than the limit; if it would make a range, and one is, it raises [ValueError]; no other exception comes in. *)
Theorem C92_range : forall lim e fl st args s t, (forall x, args <> [VStr x]) ->
  (~ long_number lim args -> any_range_l lim e fl st args s t = any_range e fl st args s t) /\
  (forall p, snd (any_range e fl st args s t) = Ok p -> long_number lim args -> any_range_l lim e fl st args s t = (st, Err ValueErr)) /\
  (any_range_l lim e fl st args s t = any_range e fl st args s t \/ any_range_l lim e fl st args s t = (st, Err ValueErr)).
Proof.
  intros lim e fl st args s t N.
  assert (K : forall l, args = l -> any_range_l lim e fl st args s t = (st, r <- any_parts_l lim e fl l ;; Ok (ends_of r)) ->
                any_range e fl st args s t = (st, r <- any_parts e fl l ;; Ok (ends_of r)) -> 
     (~ long_number lim args -> any_range_l lim e fl st args s t = any_range e fl st args s t) /\
  (forall p, snd (any_range e fl st args s t) = Ok p -> long_number lim args -> any_range_l lim e fl st args s t = (st, Err ValueErr)) /\
  (any_range_l lim e fl st args s t = any_range e fl st args s t \/ any_range_l lim e fl st args s t = (st, Err ValueErr))).
  { intros l <- -> ->. destruct (parts_cases lim e fl args) as (A & B & C). split; [intros H; now rewrite (B H)|]. split.
    - intros p H L. cbn [snd] in H. destruct (any_parts e fl args) as [r|x]; [|discriminate]. now rewrite (C r eq_refl L).
    - destruct A as [-> | ->]; auto. }
  assert (Z : forall q, any_range_l lim e fl st args s t = (st, q) -> any_range e fl st args s t = (st, q) -> ((forall p, q <> Ok p) \/ ~ long_number lim args) ->
     (~ long_number lim args -> any_range_l lim e fl st args s t = any_range e fl st args s t) /\
  (forall p, snd (any_range e fl st args s t) = Ok p -> long_number lim args -> any_range_l lim e fl st args s t = (st, Err ValueErr)) /\
  (any_range_l lim e fl st args s t = any_range e fl st args s t \/ any_range_l lim e fl st args s t = (st, Err ValueErr))).
  { intros q -> -> H. split; [reflexivity|]. split; [|now left]. cbn [snd]. intros p E L. destruct H as [H|H]; [now destruct (H p)|contradiction]. }
  assert (F : forall x, ~ long_number lim [x] /\ ~ long_number lim []).
  { intros x. split; intros (i & I & s' & E & _); cbn in I; repeat destruct I as [<-|I]; try discriminate E; exact I. }
  destruct args as [|x [|y args]].
  - apply (Z (any_ends e fl s t)); [reflexivity|reflexivity|right; apply (F VNone)].
  - destruct x; try (eapply Z; [reflexivity|reflexivity|right; apply F]). exfalso. eapply N. reflexivity.
  - assert (E1 : any_range_l lim e fl st (x :: y :: args) s t =
      (st, if (6 <? List.length (x :: y :: args))%nat then Err ValueErr else r <- any_parts_l lim e fl (x :: y :: args) ;; Ok (ends_of r))) by (destruct x; reflexivity).
    assert (E2 : any_range e fl st (x :: y :: args) s t =
      (st, if (6 <? List.length (x :: y :: args))%nat then Err ValueErr else r <- any_parts e fl (x :: y :: args) ;; Ok (ends_of r))) by (destruct x; reflexivity).
    destruct (6 <? List.length (x :: y :: args))%nat; [|now apply (K (x :: y :: args))]. apply (Z (Err ValueErr)); auto. left. discriminate.
Qed.
(** One string is read with the limit of C80. *)
Theorem C92_string : forall lim e fl st x s t,
  (snd (parse_l lim e fl st x) = Err ValueErr -> any_range_l lim e fl st [VStr x] s t = (fst (parse_l lim e fl st x), Err ValueErr)) /\
  (snd (parse_l lim e fl st x) <> Err ValueErr -> any_range_l lim e fl st [VStr x] s t = any_range e fl st [VStr x] s t).
Proof.
  intros lim e fl st x s t. destruct (C80_constructors lim e fl st x) as (A & B). cbn [any_range_l any_range]. split.
  - intros H. destruct (A H) as (_ & -> & _). reflexivity.
  - intros H. destruct (B H) as (_ & -> & _). reflexivity.
Qed.
(** Without a limit, nothing is different. *)
Theorem C92_no_limit : forall e fl st args s t, any_range_l 0 e fl st args s t = any_range e fl st args s t.
Proof.
  intros e fl st args s t. assert (D : (exists x, args = [VStr x]) \/ forall x, args <> [VStr x]).
  { destruct args as [|[] [|y l]]; try (right; discriminate). left; eauto. }
  destruct D as [(x & ->)|D].
  - apply C92_string. rewrite (proj1 (C80_no_limit e fl st x)). intros V. destruct (C46_no_other_exception _ _ _ _ _ V) as [X|(i & j & X)]; discriminate.
  - apply C92_range; auto. intros (i & _ & s' & _ & Z & _). now apply Z.
Qed.
(** For every limit there are numbers that are refused for their zeros alone. *)
Definition zeros_1 (lim : N) : str := repeat "0"%char (N.to_nat lim) ++ ["1"%char].
Theorem C92_every_limit : forall lim, lim <> 0%N -> let args := [VStr (s2l "Mark"); VStr (zeros_1 lim)] in
  any_range (denv NONE) None ts_init args VNone VNone = (ts_init, Ok (VVerse (V Mark 1 1), VVerse (V Mark 1 45))) /\
  any_range_l lim (denv NONE) None ts_init args VNone VNone = (ts_init, Err ValueErr).
Proof.
  intros lim L args.
  assert (E : any_range (denv NONE) None ts_init args VNone VNone = (ts_init, Ok (VVerse (V Mark 1 1), VVerse (V Mark 1 45)))).
  { assert (I : py_int (VStr (zeros_1 lim)) = py_int (VInt 1)).
    { cbn [py_int]. apply (proj1 (C64_int_text _)). exists [], [], (zeros_1 lim), [], 1%N. split; [cbn; now rewrite app_nil_r|]. do 2 (split; [constructor|]). split; [|left; auto].
      unfold zeros_1. destruct (N.to_nat lim) as [|n]; [apply one_digit; cbn; auto|]. apply (next_digit _ 0%N _ 1%N); [|cbn; auto].
      induction n as [|n IH]; [apply one_digit; cbn; auto|]. change (repeat "0"%char (S (S n))) with ("0"%char :: repeat "0"%char (S n)). rewrite repeat_cons. apply (next_digit _ 0%N _ 0%N IH). cbn; auto. }
    unfold args. cbn [any_range]. change (6 <? List.length [VStr (s2l "Mark"); VStr (zeros_1 lim)])%nat with false. cbv iota. unfold any_parts, arg. cbn [nth].
    assert (B : any_book (denv NONE) (VStr (s2l "Mark")) = Ok (Some Mark)) by (vm_compute; reflexivity). rewrite B. cbn [bind any_book any_swap gt_given given andb orb negb].
    unfold any_build. cbn [given andb orb negb o_is]. rewrite I. cbn [py_int bind]. vm_compute. reflexivity. }
  split; [exact E|]. apply (proj1 (proj2 (C92_range lim (denv NONE) None ts_init args VNone VNone ltac:(discriminate))) (VVerse (V Mark 1 1), VVerse (V Mark 1 45))); [now rewrite E|].
  exists 1%nat. split; [now left|]. exists (zeros_1 lim). split; [reflexivity|]. split; [exact L|]. rewrite digits_filter. unfold zeros_1. rewrite filter_app, app_length.
  assert (R : forall n, filter is_digit (repeat "0"%char n) = repeat "0"%char n) by (induction n as [|n IH]; [reflexivity|cbn [repeat filter]; rewrite IH; reflexivity]).
  rewrite R, repeat_length. change (List.length (filter is_digit ["1"%char])) with 1%nat. lia.
Qed.
Example C92_ex : let e := denv NONE in let m := VStr (s2l "Mark") in
  any_range_l 3 e None ts_init [m; VStr (s2l "002"); VStr (s2l " +0_0_3 ")] VNone VNone = (ts_init, Ok (VVerse (V Mark 2 3), VVerse (V Mark 2 3))) /\
  any_range_l 3 e None ts_init [m; VStr (s2l "0002")] VNone VNone = (ts_init, Err ValueErr) /\
  any_range e None ts_init [m; VStr (s2l "0002")] VNone VNone = (ts_init, Ok (VVerse (V Mark 2 1), VVerse (V Mark 2 28))) /\
  (* the wrong chapter is found first *)
  any_range_l 3 e None ts_init [m; VStr (s2l "99"); VNone; VNone; VStr (s2l "9999")] VNone VNone = (ts_init, Err InvalidRef) /\
  any_range_l 3 e None ts_init [m; VInt 0; VNone; VNone; VInt 12345] VNone VNone = (ts_init, Err InvalidRef).
Proof. cbv zeta. repeat split; vm_compute; reflexivity. Qed.
