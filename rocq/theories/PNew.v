(** * PNew: lemmas on texts of integers and on arguments of any class. *)
From Coq Require Import List Ascii NArith ZArith Bool Arith Lia.
From Verif Require Import Base Books Chars PropChars Regex Data MVerse MRange Spec PList PCore PVerse PUnit MSeq MList MParse MGroup MNode MNew SpecNew.
Import ListNotations.
Open Scope Z_scope.

(** ** Digits *)
Lemma digit_in : forall c, is_digit c = true <-> In (c, digit_val c) digit_values.
Proof.
  intros c. rewrite C38_digit_table. split.
  - intros H. assert (E : c = ascii_of_N (N_of_ascii c)) by now rewrite ascii_N_embedding.
    unfold digit_val, code. cbn [digit_codes In] in H. rewrite E at 1.
    repeat (destruct H as [<-|H]; [cbn; tauto|]). destruct H.
  - cbn. intros H. repeat (destruct H as [H|H]; [injection H as <- _; cbn; tauto|]). destruct H.
Qed.
Lemma digit_value : forall c n, In (c, n) digit_values -> is_digit c = true /\ digit_val c = n.
Proof. cbn. intros c n H. repeat (destruct H as [H|H]; [injection H as <- <-; split; reflexivity|]). destruct H. Qed.
Lemma digit_not_line : forall c, is_digit c = true -> (code c =? 95)%N = false.
Proof. intros c H. apply C38_digit_table in H. unfold code. cbn in H. repeat (destruct H as [<-|H]; [reflexivity|]). destruct H. Qed.
Lemma digit_not_space : forall c, is_digit c = true -> int_space c = false.
Proof. intros c H. unfold int_space, between, code. apply C38_digit_table in H. cbn in H. repeat (destruct H as [<-|H]; [reflexivity|]). destruct H. Qed.
Lemma space_in : forall c, int_space c = true <-> int_white c.
Proof. apply by_code. vm_compute. reflexivity. Qed.
Lemma line_char : forall c, (code c =? 95)%N = true -> c = "_"%char.
Proof. intros c H. apply N.eqb_eq in H. unfold code in H. rewrite <- (ascii_N_embedding c), H. reflexivity. Qed.

Definition put (a : N) (c : ascii) : N := (10 * a + digit_val c)%N.
Lemma numeral_more : forall k s, (length s <= k)%nat -> forall l, int_digits s = Some l ->
  forall p m, numeral p m -> numeral (p ++ s) (fold_left put l m) /\ numeral (p ++ "_"%char :: s) (fold_left put l m).
Proof.
  induction k as [|k IH]; intros s Hk l Hl p m Hp; (destruct s as [|c s]; [discriminate|]); [cbn in Hk; lia|].
  cbn [int_digits] in Hl. destruct (is_digit c) eqn:Ec; [|discriminate]. apply digit_in in Ec.
  assert (A : numeral (p ++ [c]) (put m c)) by now apply next_digit.
  assert (B : numeral (p ++ ["_"%char; c]) (put m c)) by now apply after_line.
  destruct s as [|u s]; [injection Hl as <-; cbn [fold_left]; auto|].
  destruct (code u =? 95)%N eqn:Eu.
  - destruct (int_digits s) as [l'|] eqn:Es; [|discriminate]. injection Hl as <-. cbn [fold_left]. apply line_char in Eu. subst u.
    destruct (IH s ltac:(cbn in Hk; lia) l' Es _ _ A) as (_ & A'). destruct (IH s ltac:(cbn in Hk; lia) l' Es _ _ B) as (_ & B').
    rewrite <- !app_assoc in *. auto.
  - destruct (int_digits (u :: s)) as [l'|] eqn:Es; [|discriminate]. injection Hl as <-. cbn [fold_left].
    destruct (IH (u :: s) ltac:(cbn in *; lia) l' Es _ _ A) as (A' & _). destruct (IH (u :: s) ltac:(cbn in *; lia) l' Es _ _ B) as (B' & _).
    rewrite <- !app_assoc in *. auto.
Qed.
Lemma digits_sound : forall s l, int_digits s = Some l -> numeral s (undec l).
Proof.
  intros s l H. destruct s as [|c s]; [discriminate|]. cbn [int_digits] in H. destruct (is_digit c) eqn:Ec; [|discriminate]. apply digit_in in Ec.
  pose proof (one_digit _ _ Ec) as A. assert (Z : put 0 c = digit_val c) by (unfold put; lia). unfold undec. change (fun a c => (10 * a + digit_val c)%N) with put.
  destruct s as [|u s]; [injection H as <-; cbn [fold_left]; now rewrite Z|]. destruct (code u =? 95)%N eqn:Eu.
  - destruct (int_digits s) as [l'|] eqn:Es; [|discriminate]. injection H as <-. cbn [fold_left]. rewrite Z. apply line_char in Eu. subst u.
    exact (proj2 (numeral_more _ s (le_n _) l' Es _ _ A)).
  - destruct (int_digits (u :: s)) as [l'|] eqn:Es; [|discriminate]. injection H as <-. cbn [fold_left]. rewrite Z.
    exact (proj1 (numeral_more _ (u :: s) (le_n _) l' Es _ _ A)).
Qed.
Lemma digits_snoc : forall k s, (length s <= k)%nat -> forall l c, int_digits s = Some l -> is_digit c = true ->
  int_digits (s ++ [c]) = Some (l ++ [c]) /\ int_digits (s ++ ["_"%char; c]) = Some (l ++ [c]).
Proof.
  induction k as [|k IH]; intros s Hk l c Hl Hc; (destruct s as [|x s]; [discriminate|]); [cbn in Hk; lia|].
  cbn [int_digits app] in *. destruct (is_digit x); [|discriminate]. destruct s as [|u s].
  - injection Hl as <-. cbn [app]. rewrite (digit_not_line c Hc). cbn [int_digits]. rewrite Hc. auto.
  - cbn [app]. destruct (code u =? 95)%N.
    + destruct (int_digits s) as [l'|] eqn:Es; [|discriminate]. injection Hl as <-. destruct (IH s ltac:(cbn in Hk; lia) l' c Es Hc) as (-> & ->). auto.
    + destruct (int_digits (u :: s)) as [l'|] eqn:Es; [|discriminate]. injection Hl as <-.
      destruct (IH (u :: s) ltac:(cbn in *; lia) l' c Es Hc) as (A & B). cbn [app] in A, B. now rewrite A, B.
Qed.
Lemma digits_complete : forall s n, numeral s n -> exists l, int_digits s = Some l /\ undec l = n.
Proof.
  induction 1 as [c n Hc|s m c n _ (l & E & U) Hc|s m c n _ (l & E & U) Hc]; apply digit_value in Hc; destruct Hc as (D & V).
  - exists [c]. cbn [int_digits]. rewrite D. split; auto.
  - exists (l ++ [c]). split; [exact (proj1 (digits_snoc _ s (le_n _) l c E D))|]. unfold undec in *. rewrite fold_left_app. cbn [fold_left]. lia.
  - exists (l ++ [c]). split; [exact (proj2 (digits_snoc _ s (le_n _) l c E D))|]. unfold undec in *. rewrite fold_left_app. cbn [fold_left]. lia.
Qed.
Lemma numeral_ends : forall s n, numeral s n -> (exists c s', s = c :: s' /\ is_digit c = true) /\ (exists c s', s = s' ++ [c] /\ is_digit c = true).
Proof.
  induction 1 as [c n Hc|s m c n _ ((x & s' & -> & Dx) & _) Hc|s m c n _ ((x & s' & -> & Dx) & _) Hc]; apply digit_value in Hc; destruct Hc as (D & _).
  - split; [exists c, []; auto|exists c, []; auto].
  - split; [exists x, (s' ++ [c]); auto|exists c, (x :: s'); auto].
  - split; [exists x, (s' ++ ["_"%char; c]); auto|exists c, ((x :: s') ++ ["_"%char]); split; auto; now rewrite <- app_assoc].
Qed.

(** ** White space around *)
Lemma skip_white : forall w s, Forall int_white w -> skip_space (w ++ s) = skip_space s.
Proof. intros w s H. induction H as [|c w Hc _ IH]; auto. cbn. apply space_in in Hc. now rewrite Hc. Qed.
Lemma skip_split : forall s, exists w, Forall int_white w /\ s = w ++ skip_space s.
Proof.
  induction s as [|c s (w & H & E)]; [exists []; auto|]. cbn. destruct (int_space c) eqn:Ec.
  - exists (c :: w). split; [constructor; auto; now apply space_in|]. cbn. now rewrite <- E.
  - exists []. auto.
Qed.
Lemma trim_split : forall s, exists w u, Forall int_white w /\ Forall int_white u /\ s = w ++ rev (skip_space (rev (skip_space s))) ++ u.
Proof.
  intros s. destruct (skip_split s) as (w & Hw & E). destruct (skip_split (rev (skip_space s))) as (u & Hu & E'). exists w, (rev u).
  split; auto. split; [now apply Forall_rev|]. rewrite E at 1. f_equal. rewrite <- (rev_involutive (skip_space s)) at 1. rewrite E' at 1. now rewrite rev_app_distr.
Qed.
Lemma trim_core : forall w c u x y s, Forall int_white w -> Forall int_white u -> c = x :: s -> (exists s', c = s' ++ [y]) ->
  int_space x = false -> int_space y = false -> rev (skip_space (rev (skip_space (w ++ c ++ u)))) = c.
Proof.
  intros w c u x y s Hw Hu Ec (s' & Ec') Hx Hy. rewrite skip_white by auto.
  assert (E : skip_space (c ++ u) = c ++ u) by (rewrite Ec; cbn; now rewrite Hx). rewrite E, rev_app_distr, skip_white by now apply Forall_rev.
  assert (E' : skip_space (rev c) = rev c) by (rewrite Ec', rev_app_distr; cbn; now rewrite Hy). now rewrite E', rev_involutive.
Qed.
Lemma plus_char : forall c, (code c =? 43)%N = true -> c = "+"%char.
Proof. intros c H. apply N.eqb_eq in H. unfold code in H. rewrite <- (ascii_N_embedding c), H. reflexivity. Qed.
Lemma minus_char : forall c, (code c =? 45)%N = true -> c = "-"%char.
Proof. intros c H. apply N.eqb_eq in H. unfold code in H. rewrite <- (ascii_N_embedding c), H. reflexivity. Qed.
Lemma digit_no_sign : forall c, is_digit c = true -> (code c =? 43)%N = false /\ (code c =? 45)%N = false.
Proof. intros c H. apply C38_digit_table in H. unfold code. cbn in H. repeat (destruct H as [<-|H]; [split; reflexivity|]). destruct H. Qed.

Lemma int_of_str_ok : forall s z, int_of_str s = Ok z <-> int_text s z.
Proof.
  intros s z. split.
  - unfold int_of_str. destruct (trim_split s) as (w & u & Hw & Hu & E). revert E. generalize (rev (skip_space (rev (skip_space s)))). intros core E.
    destruct core as [|x c]; [discriminate|]. destruct (code x =? 43)%N eqn:E1; [|destruct (code x =? 45)%N eqn:E2]; cbn [fst snd].
    + destruct (int_digits c) as [l|] eqn:El; [|discriminate]. intros H. assert (Hz : z = 1 * Z.of_N (undec l)) by congruence. clear H. apply plus_char in E1. subst x. exists w, ["+"%char], c, u, (undec l).
      split; [exact E|]. split; auto. split; auto. split; [now apply digits_sound|]. left. split; [auto|lia].
    + destruct (int_digits c) as [l|] eqn:El; [|discriminate]. intros H. assert (Hz : z = -1 * Z.of_N (undec l)) by congruence. clear H. apply minus_char in E2. subst x. exists w, ["-"%char], c, u, (undec l).
      split; [exact E|]. split; auto. split; auto. split; [now apply digits_sound|]. right. split; [auto|lia].
    + destruct (int_digits (x :: c)) as [l|] eqn:El; [|discriminate]. intros H. assert (Hz : z = 1 * Z.of_N (undec l)) by congruence. clear H. exists w, [], (x :: c), u, (undec l).
      split; [exact E|]. split; auto. split; auto. split; [now apply digits_sound|]. left. split; [auto|lia].
  - intros (w & sg & t & u & n & -> & Hw & Hu & Hn & Hs). destruct (numeral_ends t n Hn) as ((x & t' & Et & Dx) & (y & t'' & Et' & Dy)).
    destruct (digits_complete t n Hn) as (l & El & Ul).
    assert (T : rev (skip_space (rev (skip_space (w ++ sg ++ t ++ u)))) = sg ++ t).
    { rewrite (app_assoc sg t u). destruct Hs as [([-> | ->] & _)|(-> & _)].
      - apply (trim_core w ([] ++ t) u x y t'); auto; [now exists t''|now apply digit_not_space|now apply digit_not_space].
      - apply (trim_core w (["+"%char] ++ t) u "+"%char y t); auto; [exists ("+"%char :: t''); now rewrite Et'|now apply digit_not_space].
      - apply (trim_core w (["-"%char] ++ t) u "-"%char y t); auto; [exists ("-"%char :: t''); now rewrite Et'|now apply digit_not_space]. }
    unfold int_of_str. rewrite T. destruct Hs as [([-> | ->] & ->)|(-> & ->)]; cbn [app].
    + rewrite Et. destruct (digit_no_sign x Dx) as (-> & ->). cbn [fst snd]. rewrite <- Et, El. f_equal. lia.
    + change (code "+" =? 43)%N with true. cbn [fst snd]. rewrite El. f_equal. lia.
    + change (code "-" =? 43)%N with false. change (code "-" =? 45)%N with true. cbn [fst snd]. rewrite El. f_equal. lia.
Qed.
Lemma int_of_str_err : forall s x, int_of_str s = Err x -> x = ValueErr.
Proof. intros s x. unfold int_of_str. destruct (int_digits _); congruence. Qed.
Lemma int_text_unique : forall s m n, int_text s m -> int_text s n -> m = n.
Proof. intros s m n H H'. apply int_of_str_ok in H, H'. congruence. Qed.

(** ** Order of texts *)
Lemma str_gtb_spec : forall s t, str_gtb s t = true <-> text_after s t.
Proof.
  induction s as [|c s IH]; intros t; cbn.
  - split; [discriminate|]. intros H. inversion H as [a b c E|a b c d f L E]; destruct a; discriminate.
  - destruct t as [|d t].
    + split; auto. intros _. apply (longer [] c s).
    + unfold code. destruct (N.eqb_spec (N_of_ascii c) (N_of_ascii d)) as [E|E].
      * assert (c = d) by (rewrite <- (ascii_N_embedding c), E; apply ascii_N_embedding). subst d. rewrite IH. split; intros H.
        -- inversion H; subst; [apply (longer (c :: t) c0 t0)|now apply (greater (c :: s0) c0 t0 d u)].
        -- inversion H as [a b f E1 E2|a b f g h L E1 E2].
           ++ destruct a as [|a0 a]; [discriminate|]. injection E2 as -> ->. injection E1 as <-. apply longer.
           ++ destruct a as [|a0 a]; cbn in *; [injection E1 as -> ->; injection E2 as -> ->; lia|]. injection E1 as -> <-. injection E2 as <-. now apply greater.
      * rewrite N.ltb_lt. split; intros H.
        -- apply (greater [] c s d t H).
        -- inversion H as [a b f E1 E2|a b f g h L E1 E2].
           ++ destruct a as [|a0 a]; [discriminate|]. injection E2 as -> ->. injection E1 as -> _. now destruct E.
           ++ destruct a as [|a0 a]; cbn in *; [injection E1 as -> ->; injection E2 as -> ->; auto|]. injection E1 as -> <-. injection E2 as -> <-. now destruct E.
Qed.
Lemma same_by_eq : forall A (f : A -> A -> bool), (forall a b, f a b = true <-> a = b) -> forall l m, same_by f l m = true <-> l = m.
Proof.
  intros A f H. induction l as [|a l IH]; intros [|b m]; try (cbn; split; congruence). change (same_by f (a :: l) (b :: m)) with (f a b && same_by f l m). rewrite andb_true_iff, H, IH. split; [intros (-> & ->); auto|intros X; injection X; auto].
Qed.

(** ** Arguments *)
Lemma is_arg_nth : forall args i x, is_arg args i x -> arg args i = x.
Proof.
  intros args i x [H|(H & ->)]; unfold arg.
  - now apply nth_error_nth.
  - apply nth_overflow. now apply nth_error_None.
Qed.
Lemma arg_is_arg : forall args i, is_arg args i (arg args i).
Proof.
  intros args i. unfold is_arg, arg. destruct (nth_error args i) as [x|] eqn:E.
  - left. f_equal. symmetry. now apply nth_error_nth.
  - right. split; auto. apply nth_overflow. now apply nth_error_None.
Qed.
Lemma any_book_named : forall e x b, names_book_arg (ed e) x b -> any_book e x = Ok (Some b).
Proof. intros e x b [->|(s & -> & H)]; cbn; auto. unfold from_str_raise. now rewrite H. Qed.
Lemma any_book_arg : forall e x o, book_arg (ed e) x o -> any_book e x = Ok o.
Proof. intros e x [b|] H; [now apply any_book_named|]. cbn in H. now rewrite H. Qed.
Definition val (o : option Z) : pyval := match o with Some n => VInt n | None => VNone end.
Lemma num_arg_val : forall x o, num_arg x o -> x = val o.
Proof. intros x [n|] H; exact H. Qed.
Lemma given_val : forall o, given (val o) = o_is o.
Proof. intros [n|]; reflexivity. Qed.
Definition lift (a : pos_args) : any_args :=
  AA (Some (pa_sb a)) (val (pa_sc a)) (val (pa_sv a)) (pa_eb a) (val (pa_ec a)) (val (pa_ev a)).
Lemma gt_given_val : forall e a b, gt_given e (val (Some a)) (val b) = Ok (oz_gtb (Some a) b).
Proof. intros e a [b|]; reflexivity. Qed.
Lemma eq_val : forall a b, negb (given (val b)) || py_eqb (val b) (val (Some a)) = oz_eq_or_none b (Some a).
Proof. intros a [b|]; cbn; auto. apply Z.eqb_sym. Qed.
Lemma book_gt_bord : forall e a b x, book_gt e a b = Ok x -> x = (bord e b <? bord e a).
Proof.
  intros e a b x. unfold book_gt, book_cmp, bord. destruct (order (ed e) a) as [i|]; [|discriminate]. destruct (order (ed e) b) as [j|]; [|discriminate].
  intros H. injection H as <-. destruct (Nat.ltb_spec j i), (Z.ltb_spec (Z.of_nat j) (Z.of_nat i)); auto; lia.
Qed.
Lemma any_swap_typed : forall e a, any_swap e (lift a) =
  (_ <- match pa_eb a with Some b => book_gt e (pa_sb a) b | None => Ok false end ;; Ok (lift (swap_args e a))).
Proof.
  assert (R : forall e sb c sv eb ec ev,
    (x <- gt_given e (val (Some c)) (val ec) ;;
     if x then Ok (AA (Some sb) (val ec) (val ev) eb (val (Some c)) (val sv))
     else if (negb (given (val ec)) || py_eqb (val ec) (val (Some c))) && given (val sv) then
            x <- gt_given e (val sv) (val ev) ;; Ok (if x : bool then AA (Some sb) (val (Some c)) (val ev) eb (val ec) (val sv) else lift (PA sb (Some c) sv eb ec ev))
          else Ok (lift (PA sb (Some c) sv eb ec ev))) =
    Ok (lift (if oz_gtb (Some c) ec then PA sb ec ev eb (Some c) sv
        else if oz_eq_or_none ec (Some c) && o_is sv then if oz_gtb sv ev then PA sb (Some c) ev eb ec sv else PA sb (Some c) sv eb ec ev
        else PA sb (Some c) sv eb ec ev))).
  { intros e sb c sv eb ec ev. rewrite gt_given_val. cbn [bind]. destruct (oz_gtb (Some c) ec); [reflexivity|]. rewrite eq_val, given_val.
    destruct (oz_eq_or_none ec (Some c)); [|reflexivity]. destruct sv as [v|]; cbn [o_is andb]; [|reflexivity]. rewrite gt_given_val. cbn [bind].
    destruct (oz_gtb (Some v) ev); reflexivity. }
  intros e [sb sc sv eb ec ev]. cbn [lift any_swap pa_sb pa_sc pa_sv pa_eb pa_ec pa_ev].
  destruct eb as [b|]; [destruct (book_gt e sb b) as [x|x] eqn:E; [apply book_gt_bord in E; subst x|reflexivity]|]; cbn [bind].
  - unfold swap_args. destruct (bord e b <? bord e sb); [reflexivity|]. rewrite given_val. destruct (book_eqb b sb); [|reflexivity]. cbn [andb].
    destruct sc as [c|]; cbn [o_is]; [|reflexivity]. exact (R e sb c sv (Some b) ec ev).
  - rewrite given_val. cbn [andb]. destruct sc as [c|]; cbn [o_is swap_args]; [|reflexivity]. exact (R e sb c sv None ec ev).
Qed.
Lemma any_build_typed : forall e a fl, any_build e (lift a) fl = new_range_swapped e a fl.
Proof.
  intros e [sb sc sv eb ec ev] fl. destruct sc as [c|], sv as [v|], ec as [c'|], ev as [v'|]; reflexivity.
Qed.
Lemma any_parts_typed : forall e fl args a, means_parts (ed e) args a -> any_parts e fl args = new_range_pos e a fl.
Proof.
  intros e fl args a (sb & sc & sv & eb & ec & ev & (A0 & A1 & A2 & A3 & A4 & A5) & B0 & B1 & B2 & B3 & B4 & B5). unfold any_parts.
  rewrite (is_arg_nth _ _ _ A0), (is_arg_nth _ _ _ A1), (is_arg_nth _ _ _ A2), (is_arg_nth _ _ _ A3), (is_arg_nth _ _ _ A4), (is_arg_nth _ _ _ A5).
  rewrite (any_book_named _ _ _ B0), (any_book_arg _ _ _ B3). cbn [bind]. apply num_arg_val in B1, B2, B4, B5. subst.
  change (AA (Some (pa_sb a)) _ _ (pa_eb a) _ _) with (lift a). rewrite any_swap_typed. unfold new_range_pos.
  destruct (match pa_eb a with Some b => book_gt e (pa_sb a) b | None => Ok false end) as [x|x]; [|reflexivity]. cbn [bind]. apply any_build_typed.
Qed.

(** ** Numbers as texts *)
Lemma py_int_number : forall x n, number x n -> py_int x = Ok n.
Proof. intros x n [->|(s & -> & H)]; auto. cbn. now apply int_of_str_ok. Qed.
Lemma as_int_val : forall x y, as_int x y -> given x = given y /\ (given x = true -> py_int x = py_int y).
Proof.
  intros x y [(-> & ->)|(n & H & ->)]; [split; auto|]. split.
  - destruct H as [->|(s & -> & _)]; reflexivity.
  - intros _. now apply py_int_number.
Qed.
Lemma order_kept : forall e x y x' y', as_int x x' -> as_int y y' -> same_order x y -> given x = true ->
  gt_given e x y = gt_given e x' y' /\ (negb (given y) || py_eqb y x) = (negb (given y') || py_eqb y' x').
Proof.
  intros e x y x' y' Hx Hy Ho Gx. unfold gt_given. destruct (as_int_val _ _ Hx) as (Ex & _), (as_int_val _ _ Hy) as (Ey & _). rewrite <- Ey.
  destruct (given y) eqn:Gy; [|auto]. destruct Hx as [(-> & _)|(m & Nx & ->)]; [discriminate|]. destruct Hy as [(-> & _)|(n & Ny & ->)]; [discriminate|].
  destruct Ho as [->|[->|[(m' & n' & -> & ->)|(s & t & m' & n' & -> & -> & Hs & Ht & Hgt & Heq)]]]; try discriminate.
  - destruct Nx as [X|(? & X & _)]; [|discriminate]. destruct Ny as [Y|(? & Y & _)]; [|discriminate]. injection X as ->. injection Y as ->. auto.
  - destruct Nx as [X|(s' & X & Nx)]; [discriminate|]. destruct Ny as [Y|(t' & Y & Ny)]; [discriminate|]. injection X as <-. injection Y as <-.
    pose proof (int_text_unique _ _ _ Hs Nx). pose proof (int_text_unique _ _ _ Ht Ny). subst m' n'. cbn [py_gt py_eqb]. split.
    + f_equal. destruct (str_gtb s t) eqn:E.
      * apply str_gtb_spec, Hgt in E. destruct (Z.gtb_spec m n); [auto|lia].
      * destruct (Z.gtb_spec m n) as [L|L]; [|auto]. assert (L' : m > n) by lia. apply Hgt, str_gtb_spec in L'. congruence.
    + cbn [negb orb]. pose proof (same_by_eq _ Ascii.eqb Ascii.eqb_eq t s) as Q. destruct (same_by Ascii.eqb t s) eqn:E.
      * symmetry. apply Z.eqb_eq. symmetry. apply Heq. symmetry. now apply Q.
      * symmetry. apply Z.eqb_neq. intros L. symmetry in L. apply Heq in L. symmetry in L. apply Q in L. discriminate.
Qed.
Definition ints (a a' : any_args) : Prop :=
  aa_sb a = aa_sb a' /\ aa_eb a = aa_eb a' /\ as_int (aa_sc a) (aa_sc a') /\ as_int (aa_sv a) (aa_sv a') /\ as_int (aa_ec a) (aa_ec a') /\ as_int (aa_ev a) (aa_ev a').
Lemma any_swap_ints : forall e a a', ints a a' -> same_order (aa_sc a) (aa_ec a) -> same_order (aa_sv a) (aa_ev a) ->
  match any_swap e a, any_swap e a' with Ok b, Ok b' => ints b b' | Err x, Err x' => x = x' | _, _ => False end.
Proof.
  intros e [sb sc sv eb ec ev] [sb' sc' sv' eb' ec' ev'] (E1 & E2 & I1 & I2 & I3 & I4) O1 O2. cbn in *. subst sb' eb'.
  destruct (as_int_val _ _ I1) as (G1 & _), (as_int_val _ _ I2) as (G2 & _).
  destruct sb as [b|]; [|unfold ints; auto 10]. destruct (match eb with Some b' => book_gt e b b' | None => Ok false end) as [x|x]; [|reflexivity]. cbn [bind].
  destruct x; [unfold ints; cbn; auto 10|]. rewrite <- G1. destruct (match eb with Some b' => book_eqb b' b | None => true end); [|unfold ints; cbn; auto 10]. cbn [andb].
  destruct (given sc) eqn:Gs; [|unfold ints; cbn; auto 10]. destruct (order_kept e _ _ _ _ I1 I3 O1 Gs) as (<- & <-).
  destruct (gt_given e sc ec) as [x|x]; [|reflexivity]. cbn [bind]. destruct x; [unfold ints; cbn; auto 10|]. rewrite <- G2.
  destruct (negb (given ec) || py_eqb ec sc); [|unfold ints; cbn; auto 10]. cbn [andb]. destruct (given sv) eqn:Gv; [|unfold ints; cbn; auto 10].
  destruct (order_kept e _ _ _ _ I2 I4 O2 Gv) as (<- & _). destruct (gt_given e sv ev) as [x|x]; [|reflexivity]. cbn [bind]. destruct x; unfold ints; cbn; auto 10.
Qed.
Lemma any_build_ints : forall e a a' fl, ints a a' -> any_build e a fl = any_build e a' fl.
Proof.
  intros e [sb sc sv eb ec ev] [sb' sc' sv' eb' ec' ev'] fl (E1 & E2 & I1 & I2 & I3 & I4). cbn in E1, E2, I1, I2, I3, I4. subst sb' eb'.
  destruct (as_int_val _ _ I1) as (G1 & P1), (as_int_val _ _ I2) as (G2 & P2), (as_int_val _ _ I3) as (G3 & P3), (as_int_val _ _ I4) as (G4 & P4).
  unfold any_build. rewrite <- G1, <- G2, <- G3, <- G4. destruct (given sc); [rewrite (P1 eq_refl)|]; (destruct (given sv); [rewrite (P2 eq_refl)|]);
    (destruct (given ec); [rewrite (P3 eq_refl)|]); (destruct (given ev); [rewrite (P4 eq_refl)|]); reflexivity.
Qed.
Lemma any_parts_ints : forall e fl args args', arg args 0 = arg args' 0 -> arg args 3 = arg args' 3 ->
  (forall i, i <> 0%nat -> i <> 3%nat -> as_int (arg args i) (arg args' i)) ->
  same_order (arg args 1) (arg args 4) -> same_order (arg args 2) (arg args 5) -> any_parts e fl args = any_parts e fl args'.
Proof.
  intros e fl args args' E0 E3 I O1 O2. unfold any_parts. rewrite E0, E3. destruct (any_book e (arg args' 0)) as [sb|x]; [|reflexivity]. cbn [bind].
  destruct (any_book e (arg args' 3)) as [eb|x]; [|reflexivity]. cbn [bind].
  pose proof (any_swap_ints e (AA sb (arg args 1) (arg args 2) eb (arg args 4) (arg args 5)) (AA sb (arg args' 1) (arg args' 2) eb (arg args' 4) (arg args' 5))) as S.
  specialize (S ltac:(unfold ints; cbn; repeat split; apply I; discriminate) O1 O2).
  destruct (any_swap e (AA sb (arg args 1) _ _ _ _)) as [b|x], (any_swap e (AA sb (arg args' 1) _ _ _ _)) as [b'|x']; try contradiction; cbn [bind].
  - now apply any_build_ints.
  - now subst.
Qed.
