(** * PropCmp: the order of objects of any class (C98). *)
From Coq Require Import List Ascii NArith ZArith Bool Arith Lia.
From Verif Require Import Base Books Chars Data DefaultData MVerse MRange Spec PVerse PCore PDefault MSeq MOrder POrder MNew SpecNew PNew PNew2 MEq PropEq MWorld MCmp.
Import ListNotations.
Import Spec.
Open Scope Z_scope.
Open Scope list_scope.

(** No two books have the same position. *)
Definition distinct_places (e : env) : Prop := forall b b' i, order (ed e) b = Some i -> order (ed e) b' = Some i -> b = b'.
Definition opposite (r : res bool) : res bool := match r with Ok q => Ok (negb q) | Err x => Err x end.

Record ordered {A} (eqb : A -> A -> bool) (cmp : cmp_op -> A -> A -> res bool) (inj : Prop) : Prop := {
  o_gt : forall a b, cmp OGt a b = cmp OLt b a;
  o_ge : forall a b, cmp OGe a b = cmp OLe b a;
  o_le : forall a b, cmp OLe a b = opposite (cmp OLt b a);
  o_ne : forall a b, cmp OLt a b = Ok true -> eqb a b = false;
  o_as : forall a b, cmp OLt a b = Ok true -> cmp OLt b a = Ok false;
  o_tri : inj -> forall a b, cmp OLt a b = Ok false -> cmp OLt b a = Ok false -> eqb a b = true;
  o_tr : forall a b c, cmp OLt a b = Ok true -> cmp OLt b c = Ok true -> cmp OLt a c = Ok true;
  o_err : forall o a b x, cmp o a b = Err x -> x = TypeErr }.
Lemma ordered_int : forall P, ordered Z.eqb (fun o m n => Ok (z_cmp o m n)) P.
Proof.
  intros P. constructor; unfold z_cmp, opposite; intros.
  - now rewrite Z.gtb_ltb.
  - now rewrite Z.geb_leb.
  - now rewrite Z.ltb_antisym, negb_involutive.
  - injection H as H. apply Z.ltb_lt in H. apply Z.eqb_neq. lia.
  - injection H as H. f_equal. apply Z.ltb_lt in H. apply Z.ltb_ge. lia.
  - injection H0 as H0. injection H1 as H1. apply Z.ltb_ge in H0, H1. apply Z.eqb_eq. lia.
  - injection H as H. injection H0 as H0. f_equal. apply Z.ltb_lt in H, H0. apply Z.ltb_lt. lia.
  - discriminate.
Qed.
Lemma code_eq : forall c d, code c = code d <-> c = d.
Proof. intros c d. unfold code. split; [|congruence]. intros H. rewrite <- (ascii_N_embedding c), <- (ascii_N_embedding d). now rewrite H. Qed.
Lemma gtb_irr : forall s, str_gtb s s = false.
Proof. induction s as [|c s IH]; cbn [str_gtb]; auto. now rewrite N.eqb_refl. Qed.
Lemma gtb_tri : forall s t, str_gtb s t = false -> str_gtb t s = false -> s = t.
Proof.
  induction s as [|c s IH]; intros [|d t]; cbn [str_gtb]; intros H1 H2; try discriminate; auto.
  rewrite N.eqb_sym in H2. destruct (N.eqb_spec (code c) (code d)) as [E|E].
  - apply code_eq in E. subst. f_equal. auto.
  - apply N.ltb_ge in H1, H2. lia.
Qed.
Lemma gtb_tr : forall s t u, str_gtb s t = true -> str_gtb t u = true -> str_gtb s u = true.
Proof.
  induction s as [|c s IH]; intros [|d t] [|f u]; cbn [str_gtb]; intros H1 H2; try discriminate; auto.
  destruct (N.eqb_spec (code c) (code d)), (N.eqb_spec (code d) (code f)), (N.eqb_spec (code c) (code f)); try lia; eauto;
    rewrite ?N.ltb_lt in *; try lia.
Qed.
Lemma ordered_str : forall P, ordered (same_by Ascii.eqb) (fun o s t => Ok (str_cmp o s t)) P.
Proof.
  intros P. assert (As : forall s t, str_gtb s t = true -> str_gtb t s = false).
  { intros s t H. destruct (str_gtb t s) eqn:E; auto. pose proof (gtb_tr _ _ _ H E). now rewrite gtb_irr in H0. }
  constructor; unfold str_cmp, opposite; intros; auto.
  - destruct (same_by Ascii.eqb a b) eqn:E; auto. apply (same_by_spec _ Ascii.eqb_eq) in E. subst. rewrite gtb_irr in H. discriminate.
  - injection H as H. f_equal. auto.
  - injection H0 as H0. injection H1 as H1. apply (same_by_spec _ Ascii.eqb_eq). apply gtb_tri; auto.
  - injection H as H. injection H0 as H0. f_equal. eapply gtb_tr; eauto.
  - discriminate.
Qed.
Lemma ordered_book : forall e, ordered book_eqb (fun o => book_cmp_by o e) (distinct_places e).
Proof.
  intros e. constructor; unfold book_cmp_by, book_lt, book_le, book_gt, book_ge, book_cmp, opposite; intros.
  - destruct (order (ed e) a), (order (ed e) b); auto.
  - destruct (order (ed e) a), (order (ed e) b); auto.
  - destruct (order (ed e) a) as [i|], (order (ed e) b) as [j|]; auto. f_equal. now rewrite Nat.leb_antisym.
  - apply book_eqb_neq. intros ->. destruct (order (ed e) b); [|discriminate]. rewrite Nat.ltb_irrefl in H. discriminate.
  - destruct (order (ed e) a) as [i|], (order (ed e) b) as [j|]; try discriminate. f_equal. injection H as H. apply Nat.ltb_lt in H. apply Nat.ltb_ge. lia.
  - destruct (order (ed e) a) as [i|] eqn:Ea, (order (ed e) b) as [j|] eqn:Eb; try discriminate. injection H0 as H0. injection H1 as H1.
    apply Nat.ltb_ge in H0, H1. apply book_eqb_eq. assert (i = j) by lia. subst. eapply H; eauto.
  - destruct (order (ed e) a) as [i|], (order (ed e) b) as [j|], (order (ed e) c) as [k|]; try discriminate. injection H as H. injection H0 as H0. f_equal.
    apply Nat.ltb_lt in H, H0. apply Nat.ltb_lt. lia.
  - destruct o, (order (ed e) a), (order (ed e) b); cbn in H; congruence.
Qed.
Lemma ordered_verse : forall e, ordered verse_eqb (fun o => verse_cmp_by o e) (distinct_places e).
Proof.
  intros e. assert (K : forall a b q, verse_lt e a b = Ok q -> vkind e a = vkind e b /\ vltb e a b = q).
  { intros a b q E. assert (D : {vkind e a = vkind e b} + {vkind e a <> vkind e b}) by (repeat decide equality). destruct D as [D|D].
    - split; auto. destruct (vcmp_ok e a b D) as (X & _). congruence.
    - destruct (vcmp_err e a b D) as (X & _). congruence. }
  constructor; unfold verse_cmp_by.
  - apply verse_gt_swap.
  - apply verse_ge_swap.
  - intros a b. assert (D : {vkind e b = vkind e a} + {vkind e b <> vkind e a}) by (repeat decide equality). destruct D as [D|D].
    + destruct (vcmp_ok e b a D) as (-> & _). destruct (vcmp_ok e a b (eq_sym D)) as (_ & -> & _). reflexivity.
    + destruct (vcmp_err e b a D) as (-> & _). destruct (vcmp_err e a b (not_eq_sym D)) as (_ & -> & _). reflexivity.
  - intros a b H. apply K in H. destruct H as (_ & H). destruct (verse_eqb a b) eqn:E; auto. apply verse_eqb_eq in E. subst. now rewrite vltb_irrefl in H.
  - intros a b H. apply K in H. destruct H as (D & H). destruct (vcmp_ok e b a (eq_sym D)) as (-> & _). now rewrite (vltb_asym _ _ _ H).
  - intros I a b H H'. apply K in H, H'. destruct H as (D & H), H' as (_ & H'). apply verse_eqb_eq. destruct a as [x c v], b as [y c' v'].
    unfold vltb in H, H'. cbn [vbook vchap vverse] in H, H'. rewrite (book_eqb_sym y) in H'. destruct (book_eqb x y) eqn:Eb.
    + apply book_eqb_eq in Eb. subst. rewrite (Z.eqb_sym c') in H'. destruct (Z.eqb_spec c c') as [->|N].
      * apply Z.ltb_ge in H, H'. f_equal. lia.
      * apply Z.ltb_ge in H, H'. lia.
    + exfalso. apply book_eqb_neq in Eb. unfold vkind, bkind in D. cbn [vbook] in D. unfold bord in H, H'.
      destruct (order (ed e) x) as [i|] eqn:Ex, (order (ed e) y) as [j|] eqn:Ey; try congruence.
      apply Z.ltb_ge in H, H'. assert (i = j) by lia. subst. apply Eb. eapply I; eauto.
  - intros a b c H H'. apply K in H, H'. destruct H as (D & H), H' as (D' & H'). destruct (vcmp_ok e a c (eq_trans D D')) as (-> & _).
    now rewrite (vltb_trans _ _ _ _ H H').
  - intros o a b x H. assert (D : {vkind e a = vkind e b} + {vkind e a <> vkind e b}) by (repeat decide equality). destruct D as [D|D].
    + destruct (vcmp_ok e a b D) as (X1 & X2 & X3 & X4). destruct o; congruence.
    + destruct (vcmp_err e a b D) as (X1 & X2 & X3 & X4). destruct o; congruence.
Qed.
Lemma range_by : forall o e a b, range_cmp_by o e a b = if verse_eqb (rstart a) (rstart b) then verse_cmp_by o e (rend a) (rend b) else verse_cmp_by o e (rstart a) (rstart b).
Proof. intros [] e a b; reflexivity. Qed.
Lemma verse_eqb_comm : forall a b, verse_eqb a b = verse_eqb b a.
Proof. exact (sym_bool _ verse_eqb_eq). Qed.
Lemma ordered_range : forall e, ordered range_eqb (fun o => range_cmp_by o e) (distinct_places e).
Proof.
  intros e. destruct (ordered_verse e) as [Gt Ge Le Ne As Tri Tr Er]. constructor.
  - intros a b. rewrite !range_by, (verse_eqb_comm (rstart b)), !Gt. reflexivity.
  - intros a b. rewrite !range_by, (verse_eqb_comm (rstart b)), !Ge. reflexivity.
  - intros a b. rewrite !range_by, (verse_eqb_comm (rstart b)), !Le. now destruct (verse_eqb (rstart a) (rstart b)).
  - intros a b. rewrite range_by. unfold range_eqb. destruct (verse_eqb (rstart a) (rstart b)); intros H; [now rewrite (Ne _ _ H)|reflexivity].
  - intros a b. rewrite !range_by, (verse_eqb_comm (rstart b)). destruct (verse_eqb (rstart a) (rstart b)); apply As.
  - intros I a b. rewrite !range_by, (verse_eqb_comm (rstart b)). unfold range_eqb. destruct (verse_eqb (rstart a) (rstart b)) eqn:E; intros H H'.
    + now rewrite (Tri I _ _ H H').
    + rewrite (Tri I _ _ H H') in E. discriminate.
  - intros a b c. rewrite !range_by. destruct (verse_eqb (rstart a) (rstart b)) eqn:E1.
    + apply verse_eqb_eq in E1. rewrite E1. destruct (verse_eqb (rstart b) (rstart c)); [apply Tr|intros _ H; exact H].
    + destruct (verse_eqb (rstart b) (rstart c)) eqn:E2.
      * apply verse_eqb_eq in E2. rewrite <- E2, E1. auto.
      * intros H H'. pose proof (Tr _ _ _ H H') as T. now rewrite (Ne _ _ T).
  - intros o a b x. rewrite range_by. destruct (verse_eqb _ _); apply Er.
Qed.

(** ** Sequences *)
Definition seq_cmp (o : cmp_op) (e : env) : list pyval -> list pyval -> res bool :=
  fix seq_cmp (l m : list pyval) : res bool :=
    match l, m with
    | x :: l', y :: m' => q <- py_eq x y ;; if q : bool then seq_cmp l' m' else py_cmp o e x y
    | _, _ => Ok (z_cmp o (Z.of_nat (length l)) (Z.of_nat (length m)))
    end.
Lemma py_cmp_seq : forall o e l m, py_cmp o e (VSeq l) (VSeq m) = seq_cmp o e l m.
Proof. reflexivity. Qed.
Lemma seq_cons : forall o e x y l m, seq_cmp o e (x :: l) (y :: m) = q <- py_eq x y ;; if q : bool then seq_cmp o e l m else py_cmp o e x y.
Proof. reflexivity. Qed.
Lemma seq_nil : forall o e l, seq_cmp o e [] l = Ok (z_cmp o 0 (Z.of_nat (length l))) /\ seq_cmp o e l [] = Ok (z_cmp o (Z.of_nat (length l)) 0).
Proof. intros o e [|x l]; split; reflexivity. Qed.

Theorem C98_greater : forall e a b, py_cmp OGt e a b = py_cmp OLt e b a /\ py_cmp OGe e a b = py_cmp OLe e b a.
Proof.
  intros e. induction a as [a Ha|l IH] using pyval_lists; intros b.
  - destruct a as [|m|s|k|v|r|l|l|l|], b as [|m'|s'|k'|v'|r'|l'|l'|l'|]; try (split; reflexivity); try (now destruct (Ha l)); cbn [py_cmp].
    + split; [apply (o_gt _ _ _ (ordered_int True))|apply (o_ge _ _ _ (ordered_int True))].
    + split; [apply (o_gt _ _ _ (ordered_book e))|apply (o_ge _ _ _ (ordered_book e))].
    + split; [apply (o_gt _ _ _ (ordered_verse e))|apply (o_ge _ _ _ (ordered_verse e))].
    + split; [apply (o_gt _ _ _ (ordered_range e))|apply (o_ge _ _ _ (ordered_range e))].
  - destruct b as [|m|s|k|v|r|m|m|m|]; try (split; reflexivity). rewrite !py_cmp_seq. revert m. induction l as [|x l IHl]; intros m.
    + destruct (seq_nil OGt e m) as (-> & _), (seq_nil OGe e m) as (-> & _), (seq_nil OLt e m) as (_ & ->), (seq_nil OLe e m) as (_ & ->).
      unfold z_cmp. now rewrite Z.gtb_ltb, Z.geb_leb.
    + destruct m as [|y m].
      * destruct (seq_nil OGt e (x :: l)) as (_ & ->), (seq_nil OGe e (x :: l)) as (_ & ->), (seq_nil OLt e (x :: l)) as (-> & _), (seq_nil OLe e (x :: l)) as (-> & _).
        unfold z_cmp. now rewrite Z.gtb_ltb, Z.geb_leb.
      * inversion IH as [|? ? IHx IHr]; subst. rewrite !seq_cons, (C96_symmetric y x). destruct (py_eq x y) as [[|]|z]; cbn [bind]; auto.
Qed.
Theorem C98_not : forall e a b, py_cmp OLe e a b = opposite (py_cmp OLt e b a).
Proof.
  intros e. induction a as [a Ha|l IH] using pyval_lists; intros b.
  - destruct a as [|m|s|k|v|r|l|l|l|], b as [|m'|s'|k'|v'|r'|l'|l'|l'|]; try reflexivity; try (now destruct (Ha l)); cbn [py_cmp].
    + apply (o_le _ _ _ (ordered_int True)).
    + apply (o_le _ _ _ (ordered_book e)).
    + apply (o_le _ _ _ (ordered_verse e)).
    + apply (o_le _ _ _ (ordered_range e)).
  - destruct b as [|m|s|k|v|r|m|m|m|]; try reflexivity. rewrite !py_cmp_seq. revert m. induction l as [|x l IHl]; intros m.
    + destruct (seq_nil OLe e m) as (-> & _), (seq_nil OLt e m) as (_ & ->). cbn [opposite]. unfold z_cmp. f_equal. apply Z.leb_antisym.
    + destruct m as [|y m].
      * destruct (seq_nil OLe e (x :: l)) as (_ & ->), (seq_nil OLt e (x :: l)) as (-> & _). cbn [opposite]. unfold z_cmp. now rewrite (Z.leb_antisym 0).
      * inversion IH as [|? ? IHx IHr]; subst. rewrite !seq_cons, (C96_symmetric y x). destruct (py_eq x y) as [[|]|z]; cbn [bind]; auto.
Qed.
(** What is less is not greater and not equal. *)
Theorem C98_strict : forall e a b, py_cmp OLt e a b = Ok true -> py_cmp OLt e b a = Ok false /\ py_eq a b = Ok false.
Proof.
  intros e. induction a as [a Ha|l IH] using pyval_lists; intros b.
  - destruct a as [|m|s|k|v|r|l|l|l|], b as [|m'|s'|k'|v'|r'|l'|l'|l'|]; try discriminate; try (now destruct (Ha l)); cbn [py_cmp py_eq]; intros H.
    + split; [apply (o_as _ _ _ (ordered_int True) _ _ H)|f_equal; apply (o_ne _ _ _ (ordered_int True) _ _ H)].
    + split; [apply (o_as _ _ _ (ordered_str True) _ _ H)|f_equal; apply (o_ne _ _ _ (ordered_str True) _ _ H)].
    + split; [apply (o_as _ _ _ (ordered_book e) _ _ H)|f_equal; apply (o_ne _ _ _ (ordered_book e) _ _ H)].
    + split; [apply (o_as _ _ _ (ordered_verse e) _ _ H)|f_equal; apply (o_ne _ _ _ (ordered_verse e) _ _ H)].
    + split; [apply (o_as _ _ _ (ordered_range e) _ _ H)|f_equal; apply (o_ne _ _ _ (ordered_range e) _ _ H)].
  - destruct b as [|m|s|k|v|r|m|m|m|]; try discriminate. rewrite !py_cmp_seq, py_eq_seq. revert m. induction l as [|x l IHl]; intros m.
    + destruct (seq_nil OLt e m) as (-> & ->). unfold z_cmp. intros H. injection H as H. apply Z.ltb_lt in H. split; [f_equal; apply Z.ltb_ge; lia|].
      destruct m; [cbn in H; lia|reflexivity].
    + destruct m as [|y m].
      * destruct (seq_nil OLt e (x :: l)) as (_ & ->). unfold z_cmp. intros H. injection H as H. apply Z.ltb_lt in H. lia.
      * inversion IH as [|? ? IHx IHr]; subst. rewrite !seq_cons, (C96_symmetric y x). cbn [length Nat.eqb items_eq].
        destruct (py_eq x y) as [[|]|z] eqn:E; cbn [bind]; [apply IHl; auto| |discriminate]. intros H. split; [now apply IHx|now destruct (length l =? length m)%nat].
Qed.
Lemma eq_true : forall a b, py_eq a b = Ok true -> a = b /\ plain_value a.
Proof.
  induction a as [a Ha|l IH] using pyval_lists; intros b.
  - destruct a as [|m|s|k|v|r|l|l|l|], b as [|m'|s'|k'|v'|r'|l'|l'|l'|]; try discriminate; try (now destruct (Ha l));
      intros E; (split; [|constructor]); apply C96_equal in E; try constructor; auto.
  - destruct b as [|m|s|k|v|r|m|m|m|]; try discriminate. rewrite py_eq_seq. destruct (length l =? length m)%nat eqn:L; [|discriminate]. apply Nat.eqb_eq in L.
    revert m L. induction l as [|x l IHl]; intros [|y m] L; try discriminate L.
    + split; auto. constructor. constructor.
    + inversion IH as [|? ? IHx IHr]; subst. cbn [items_eq]. destruct (py_eq x y) as [[|]|z] eqn:E; cbn [bind]; try discriminate. intros H.
      apply IHx in E. destruct E as (-> & P). injection L as L. destruct (IHl IHr m L H) as (Q & P'). injection Q as ->. split; auto. inversion P'; subst. constructor. now constructor.
Qed.
Theorem C98_transitive : forall e a b c, py_cmp OLt e a b = Ok true -> py_cmp OLt e b c = Ok true -> py_cmp OLt e a c = Ok true.
Proof.
  intros e. induction a as [a Ha|l IH] using pyval_lists; intros b c.
  - destruct a as [|m|s|k|v|r|l|l|l|], b as [|m'|s'|k'|v'|r'|l'|l'|l'|]; try discriminate; try (now destruct (Ha l));
      destruct c as [|m2|s2|k2|v2|r2|l2|l2|l2|]; try discriminate; cbn [py_cmp].
    + apply (o_tr _ _ _ (ordered_int True)).
    + apply (o_tr _ _ _ (ordered_str True)).
    + apply (o_tr _ _ _ (ordered_book e)).
    + apply (o_tr _ _ _ (ordered_verse e)).
    + apply (o_tr _ _ _ (ordered_range e)).
  - destruct b as [|m|s|k|v|r|m|m|m|]; try discriminate. destruct c as [|n|s|k|v|r|n|n|n|]; try discriminate. rewrite !py_cmp_seq.
    revert m n. induction l as [|x l IHl]; intros m n.
    + destruct (seq_nil OLt e m) as (-> & _), (seq_nil OLt e n) as (-> & _). unfold z_cmp. intros H H'. injection H as H. apply Z.ltb_lt in H.
      destruct n; [|f_equal; apply Z.ltb_lt; cbn [length]; lia]. destruct (seq_nil OLt e m) as (_ & X). rewrite X in H'. unfold z_cmp in H'. injection H' as H'. apply Z.ltb_lt in H'. cbn [length] in H'. lia.
    + destruct m as [|y m].
      { destruct (seq_nil OLt e (x :: l)) as (_ & ->). unfold z_cmp. intros H. injection H as H. apply Z.ltb_lt in H. lia. }
      destruct n as [|z n].
      { intros _. destruct (seq_nil OLt e (y :: m)) as (_ & ->). unfold z_cmp. intros H. injection H as H. apply Z.ltb_lt in H. lia. }
      inversion IH as [|? ? IHx IHr]; subst. rewrite !seq_cons. destruct (py_eq x y) as [[|]|w] eqn:E1; cbn [bind]; [| |discriminate].
      * apply eq_true in E1. destruct E1 as (-> & P). destruct (py_eq y z) as [[|]|w]; cbn [bind]; [apply IHl; auto|auto|discriminate].
      * intros H. destruct (py_eq y z) as [[|]|w] eqn:E2; cbn [bind]; [| |discriminate].
        -- apply eq_true in E2. destruct E2 as (<- & P). intros _. rewrite E1. exact H.
        -- intros H'. pose proof (IHx _ _ H H') as T. destruct (C98_strict _ _ _ T) as (_ & ->). exact T.
Qed.

(** ** What can be compared *)
Definition placed (e : env) (b : book) : Prop := exists i, order (ed e) b = Some i.
Definition verses_compare (e : env) (v w : verse) : Prop := vbook v = vbook w \/ placed e (vbook v) /\ placed e (vbook w).
Inductive can_compare (e : env) : pyval -> pyval -> Prop :=
| cc_int m n : can_compare e (VInt m) (VInt n)
| cc_str s t : can_compare e (VStr s) (VStr t)
| cc_book x y : placed e x -> placed e y -> can_compare e (VBook x) (VBook y)
| cc_verse v w : verses_compare e v w -> can_compare e (VVerse v) (VVerse w)
| cc_start r q : rstart r <> rstart q -> verses_compare e (rstart r) (rstart q) -> can_compare e (VRange r) (VRange q)
| cc_end r q : rstart r = rstart q -> verses_compare e (rend r) (rend q) -> can_compare e (VRange r) (VRange q)
| cc_empty l : can_compare e (VSeq []) (VSeq l)
| cc_longer l : can_compare e (VSeq l) (VSeq [])
| cc_same x l m : plain_value x -> can_compare e (VSeq l) (VSeq m) -> can_compare e (VSeq (x :: l)) (VSeq (x :: m))
| cc_differ x y l m : x <> y -> can_compare e x y -> can_compare e (VSeq (x :: l)) (VSeq (y :: m)).

Lemma book_can : forall o e x y, (exists q, book_cmp_by o e x y = Ok q) <-> placed e x /\ placed e y.
Proof.
  intros o e x y. unfold placed. assert (X : book_cmp_by o e x y = match order (ed e) x, order (ed e) y with Some i, Some j => book_cmp_by o e x y | _, _ => Err TypeErr end).
  { unfold book_cmp_by, book_lt, book_le, book_gt, book_ge, book_cmp. destruct o, (order (ed e) x), (order (ed e) y); reflexivity. }
  split.
  - intros (q & E). rewrite X in E. destruct (order (ed e) x), (order (ed e) y); try discriminate. eauto.
  - intros ((i & Ei) & (j & Ej)). destruct o; unfold book_cmp_by, book_lt, book_le, book_gt, book_ge, book_cmp; rewrite Ei, Ej; eauto.
Qed.
Lemma verse_can : forall o e v w, (exists q, verse_cmp_by o e v w = Ok q) <-> verses_compare e v w.
Proof.
  intros o e v w. unfold verses_compare. rewrite <- (book_can o).
  assert (X : verse_cmp_by o e v w = if book_eqb (vbook v) (vbook w) then if vchap v =? vchap w then Ok (z_cmp o (vverse v) (vverse w)) else Ok (z_cmp o (vchap v) (vchap w)) else book_cmp_by o e (vbook v) (vbook w))
    by (destruct o; reflexivity).
  rewrite X. destruct (book_eqb (vbook v) (vbook w)) eqn:E.
  - apply book_eqb_eq in E. split; [auto|]. intros _. destruct (vchap v =? vchap w); eauto.
  - apply book_eqb_neq in E. split; [auto|]. intros [H|H]; [congruence|exact H].
Qed.
Lemma range_can : forall o e r q, (exists x, range_cmp_by o e r q = Ok x) <-> can_compare e (VRange r) (VRange q).
Proof.
  intros o e r q. rewrite range_by. destruct (verse_eqb (rstart r) (rstart q)) eqn:E; rewrite verse_can.
  - apply verse_eqb_eq in E. split; [intros H; now apply cc_end|intros H; inversion H; subst; auto; congruence].
  - assert (N : rstart r <> rstart q) by (intros X; apply verse_eqb_eq in X; congruence).
    split; [intros H; now apply cc_start|intros H; inversion H; subst; auto; congruence].
Qed.
Lemma plain_eq : forall x, plain_value x -> py_eq x x = Ok true.
Proof. intros x P. now apply C96_equal. Qed.
Lemma can_eq : forall e a b, can_compare e a b -> exists q, py_eq a b = Ok q.
Proof.
  intros e a b H. induction H; try (eexists; reflexivity).
  - destruct l; eexists; reflexivity.
  - destruct l; eexists; reflexivity.
  - destruct IHcan_compare as (q & E). rewrite py_eq_seq in *. cbn [length Nat.eqb items_eq]. rewrite (plain_eq x H). cbn [bind]. eauto.
  - destruct IHcan_compare as (q & E). rewrite py_eq_seq. cbn [length Nat.eqb items_eq]. rewrite E. cbn [bind].
    destruct q; [apply eq_true in E; tauto|]. destruct (length l =? length m)%nat; eauto.
Qed.
Lemma can_self : forall e x, can_compare e x x -> plain_value x.
Proof.
  intros e. induction x as [a Ha|l IH] using pyval_lists; intros H.
  - destruct a; try constructor; try (now destruct (Ha l)); inversion H.
  - constructor. clear IH. induction l as [|x l IHl]; [constructor|]. inversion H; subst; [|congruence]. constructor; auto.
Qed.
(** A comparison succeeds exactly for these pairs and raises TypeError otherwise. *)
Theorem C98_when : forall o e a b, (exists q, py_cmp o e a b = Ok q) <-> can_compare e a b.
Proof.
  intros o e a b. split.
  - revert b. induction a as [a Ha|l IH] using pyval_lists; intros b (q & H).
    + destruct a as [|m|s|k|v|r|l|l|l|], b as [|m'|s'|k'|v'|r'|l'|l'|l'|]; try discriminate; try (now destruct (Ha l)); cbn [py_cmp] in H.
      * constructor.
      * constructor.
      * apply ex_intro with (P := fun q => book_cmp_by o e k k' = Ok q) in H. apply book_can in H. destruct H. now constructor.
      * apply ex_intro with (P := fun q => verse_cmp_by o e v v' = Ok q) in H. apply verse_can in H. now constructor.
      * apply ex_intro with (P := fun q => range_cmp_by o e r r' = Ok q) in H. now apply range_can in H.
    + destruct b as [|m|s|k|v|r|m|m|m|]; try discriminate. rewrite py_cmp_seq in H. revert m H. induction l as [|x l IHl]; intros m H; [constructor|].
      destruct m as [|y m]; [constructor|]. inversion IH as [|? ? IHx IHr]; subst. rewrite seq_cons in H. destruct (py_eq x y) as [[|]|z] eqn:E; cbn [bind] in H; [| |discriminate].
      * apply eq_true in E. destruct E as (-> & P). apply cc_same; auto.
      * assert (C : can_compare e x y) by (apply IHx; eauto). apply cc_differ; auto. intros ->. apply can_self in C. rewrite (plain_eq _ C) in E. discriminate.
  - intros H. induction H; try (eexists; reflexivity).
    + cbn [py_cmp]. apply book_can. auto.
    + cbn [py_cmp]. now apply verse_can.
    + cbn [py_cmp]. apply range_can. now apply cc_start.
    + cbn [py_cmp]. apply range_can. now apply cc_end.
    + rewrite py_cmp_seq. destruct (seq_nil o e l) as (_ & ->). eauto.
    + rewrite py_cmp_seq in *. rewrite seq_cons, (plain_eq _ H). exact IHcan_compare.
    + rewrite py_cmp_seq, seq_cons. destruct (can_eq _ _ _ H0) as ([|] & E); rewrite E; cbn [bind]; auto. apply eq_true in E. tauto.
Qed.
Lemma eq_err : forall a b x, py_eq a b = Err x -> x = TypeErr.
Proof.
  induction a as [a Ha|l IH] using pyval_lists; intros b x H.
  - pose proof (C96_raises a b Ha) as R. rewrite H in R. tauto.
  - destruct b as [|m|s|k|v|r|m|m|m|]; cbn [py_eq list_eq_other has_len] in H; try discriminate H. change (py_eq (VSeq l) (VSeq m) = Err x) in H. rewrite py_eq_seq in H.
    destruct (length l =? length m)%nat; [|discriminate]. revert m H. induction l as [|y l IHl]; intros [|z m] H; try discriminate H.
    inversion IH as [|? ? IHx IHr]; subst. cbn [items_eq] in H. destruct (py_eq y z) as [[|]|w] eqn:E; cbn [bind] in H; try discriminate; eauto. injection H as <-. eauto.
Qed.
Theorem C98_otherwise : forall o e a b, ~ can_compare e a b -> py_cmp o e a b = Err TypeErr.
Proof.
  intros o e a b N. destruct (py_cmp o e a b) as [q|x] eqn:E; [exfalso; apply N, (C98_when o); eauto|]. f_equal. clear N. revert b x E.
  induction a as [a Ha|l IH] using pyval_lists; intros b z H.
  - destruct a as [|m|s|k|v|r|l|l|l|], b as [|m'|s'|k'|v'|r'|l'|l'|l'|]; cbn [py_cmp] in H; try discriminate H; try (injection H as <-; reflexivity); try (now destruct (Ha l)).
    + apply (o_err _ _ _ (ordered_book e) _ _ _ _ H).
    + apply (o_err _ _ _ (ordered_verse e) _ _ _ _ H).
    + apply (o_err _ _ _ (ordered_range e) _ _ _ _ H).
  - destruct b as [|m|s|k|v|r|m|m|m|]; try (cbn [py_cmp] in H; injection H as <-; reflexivity). rewrite py_cmp_seq in H. revert m H. induction l as [|x l IHl]; intros m H.
    + destruct (seq_nil o e m) as (X & _). congruence.
    + destruct m as [|y m]; [destruct (seq_nil o e (x :: l)) as (_ & X); congruence|]. inversion IH as [|? ? IHx IHr]; subst. rewrite seq_cons in H.
      destruct (py_eq x y) as [[|]|w] eqn:E; cbn [bind] in H; eauto. injection H as <-. eapply eq_err; eauto.
Qed.
(** Of two objects that can be compared one is less, or they are equal. *)
Theorem C98_total : forall e a b, distinct_places e -> can_compare e a b ->
  py_cmp OLt e a b = Ok true \/ py_eq a b = Ok true \/ py_cmp OLt e b a = Ok true.
Proof.
  intros e a b I C.
  assert (A : exists q, py_cmp OLt e a b = Ok q) by now apply C98_when.
  assert (B : exists q, py_cmp OLt e b a = Ok q) by (destruct (C98_greater e a b) as (<- & _); now apply C98_when).
  destruct A as ([|] & A); [auto|]. destruct B as ([|] & B); [auto|]. right. left. clear C. revert b A B.
  induction a as [a Ha|l IH] using pyval_lists; intros b.
  - destruct a as [|m|s|k|v|r|l|l|l|], b as [|m'|s'|k'|v'|r'|l'|l'|l'|]; try discriminate; try (now destruct (Ha l)); cbn [py_cmp py_eq]; intros H H'; f_equal.
    + apply (o_tri _ _ _ (ordered_int True) Logic.I _ _ H H').
    + apply (o_tri _ _ _ (ordered_str True) Logic.I _ _ H H').
    + apply (o_tri _ _ _ (ordered_book e) I _ _ H H').
    + apply (o_tri _ _ _ (ordered_verse e) I _ _ H H').
    + apply (o_tri _ _ _ (ordered_range e) I _ _ H H').
  - destruct b as [|m|s|k|v|r|m|m|m|]; try discriminate. rewrite !py_cmp_seq, py_eq_seq. revert m. induction l as [|x l IHl]; intros m.
    + destruct (seq_nil OLt e m) as (-> & ->). destruct m; [reflexivity|]. intros H. discriminate H.
    + destruct m as [|y m].
      * intros _. destruct (seq_nil OLt e (x :: l)) as (-> & _). discriminate.
      * inversion IH as [|? ? IHx IHr]; subst. rewrite !seq_cons, (C96_symmetric y x). cbn [length Nat.eqb items_eq].
        destruct (py_eq x y) as [[|]|z] eqn:E; cbn [bind]; [apply IHl; auto| |discriminate]. intros H H'. rewrite (IHx _ H H') in E. discriminate.
Qed.
(** The comparison in the constructor of ranges (MNew) is this one. *)
Theorem C98_constructor : forall e a b, py_gt e a b = py_cmp OGt e a b.
Proof.
  intros e. induction a as [a Ha|l IH] using pyval_lists; intros b.
  - destruct a, b; try reflexivity. now destruct (Ha l).
  - destruct b as [|m|s|k|v|r|m|m|m|]; try reflexivity. rewrite py_cmp_seq. cbn [py_gt]. revert m. induction l as [|x l IHl]; intros m.
    + destruct (seq_nil OGt e m) as (-> & _). cbn [z_cmp]. f_equal. symmetry. rewrite Z.gtb_ltb. apply Z.ltb_ge. lia.
    + destruct m as [|y m]; [reflexivity|]. inversion IH as [|? ? IHx IHr]; subst. rewrite seq_cons. specialize (IHl IHr m).
      destruct (py_eq x y) as [[|]|z] eqn:E; cbn [bind].
      * apply eq_true in E. rewrite (proj2 (py_eqb_spec x y) E). exact IHl.
      * destruct (py_eqb x y) eqn:E'; [|apply IHx]. apply py_eqb_spec in E'. destruct E' as (-> & P). rewrite (plain_eq _ P) in E. discriminate.
      * destruct (py_eqb x y) eqn:E'; [apply py_eqb_spec in E'; destruct E' as (-> & P); rewrite (plain_eq _ P) in E; discriminate|].
        rewrite IHx. rewrite (eq_err _ _ _ E). apply C98_otherwise. intros C. apply can_eq in C. destruct C. congruence.
Qed.
(** Verses follow the Bible (C02), books their places, ints and texts as usual. *)
Theorem C98_meaning : forall e,
  (forall m n, py_cmp OLt e (VInt m) (VInt n) = Ok (m <? n)) /\
  (forall s t, exists q, py_cmp OLt e (VStr s) (VStr t) = Ok q /\ (q = true <-> text_after t s)) /\
  (forall x y i j, order (ed e) x = Some i -> order (ed e) y = Some j -> py_cmp OLt e (VBook x) (VBook y) = Ok (i <? j)%nat) /\
  (forall i j a b, wf_data (ed e) -> at_pos (bible_verses (ed e) true) i a -> at_pos (bible_verses (ed e) true) j b -> py_cmp OLt e (VVerse a) (VVerse b) = Ok (i <? j)%nat) /\
  (forall a b, rstart a <> rstart b -> py_cmp OLt e (VRange a) (VRange b) = py_cmp OLt e (VVerse (rstart a)) (VVerse (rstart b))) /\
  (forall a b, rstart a = rstart b -> py_cmp OLt e (VRange a) (VRange b) = py_cmp OLt e (VVerse (rend a)) (VVerse (rend b))) /\
  (forall p l m, Forall plain_value p -> py_cmp OLt e (VSeq (p ++ l)) (VSeq (p ++ m)) = py_cmp OLt e (VSeq l) (VSeq m)) /\
  (forall x l, py_cmp OLt e (VSeq []) (VSeq (x :: l)) = Ok true) /\
  (forall x y l m, can_compare e x y -> x <> y -> py_cmp OLt e (VSeq (x :: l)) (VSeq (y :: m)) = py_cmp OLt e x y).
Proof.
  intros e. split; [reflexivity|]. split; [intros s t; exists (str_gtb t s); split; [reflexivity|apply str_gtb_spec]|].
  split; [intros x y i j E1 E2; cbn [py_cmp book_cmp_by]; unfold book_lt, book_cmp; now rewrite E1, E2|].
  split; [intros i j a b W A B; apply (PVerse.verse_order_any e true i j a b W A B)|].
  assert (Q : forall a b, py_cmp OLt e (VRange a) (VRange b) = if verse_eqb (rstart a) (rstart b) then verse_lt e (rend a) (rend b) else verse_lt e (rstart a) (rstart b)) by reflexivity.
  split; [intros a b N; rewrite Q; destruct (verse_eqb (rstart a) (rstart b)) eqn:E; [apply verse_eqb_eq in E; congruence|reflexivity]|].
  split; [intros a b E; rewrite Q; apply verse_eqb_eq in E; rewrite E; reflexivity|].
  split; [|split].
  - intros p l m F. rewrite !py_cmp_seq. induction F as [|x p P F IH]; [reflexivity|]. cbn [app]. rewrite seq_cons, (plain_eq _ P). exact IH.
  - intros x l. reflexivity.
  - intros x y l m C N. rewrite py_cmp_seq, seq_cons. destruct (can_eq _ _ _ C) as ([|] & E); rewrite E; cbn [bind]; auto. apply eq_true in E. tauto.
Qed.
(** Places differ whenever they are those of the list of books; after an assignment that failed (C54_order_fails) two books
    may have one place, and neither is less. *)
Theorem C98_places : forall e, order_ok (ed e) -> distinct_places e.
Proof. intros e O b b' i E E'. apply O in E, E'. congruence. Qed.
Theorem C98_same_place : exists h a b, let e := env_of (acts start_world h) in
  can_compare e a b /\ a <> b /\ py_eq a b = Ok false /\ py_cmp OLt e a b = Ok false /\ py_cmp OLt e b a = Ok false.
Proof.
  exists [SetBookOrder [Gen; Gen]], (VBook Gen), (VBook Exod). cbv zeta. split; [constructor; exists 1%nat; vm_compute; reflexivity|].
  split; [discriminate|]. split; [reflexivity|]. split; vm_compute; reflexivity.
Qed.
Example C98_ex : let e := denv NONE in
  order_ok (ed e) /\ can_compare e (VSeq [VNone; VInt 1]) (VSeq [VNone; VInt 2; VOther]) /\ ~ can_compare e (VInt 1) (VStr []) /\
  py_cmp OLt e (VSeq [VNone; VInt 1]) (VSeq [VNone; VInt 2; VOther]) = Ok true /\ py_cmp OLt e (VSeq [VNone; VInt 2]) (VSeq [VNone; VInt 2; VOther]) = Ok true /\
  py_cmp OLe e (VVerse (V Exod 1 1)) (VVerse (V Gen 50 1)) = Ok false /\ py_cmp OGe e (VBook Exod) (VBook Gen) = Ok true /\
  py_cmp OGt e (VRange (R (V Gen 1 1) (V Gen 1 5))) (VRange (R (V Gen 1 1) (V Gen 1 3))) = Ok true /\
  py_cmp OLt e (VRange (R (V Gen 1 1) (V Gen 1 5))) (VVerse (V Gen 1 3)) = Err TypeErr /\ py_cmp OLt e (VList []) (VList []) = Err TypeErr.
Proof.
  cbv zeta. split; [exact (proj1 default_wf)|]. split; [apply cc_same; [constructor|]; apply cc_differ; [discriminate|constructor]|].
  split; [intros H; inversion H|]. repeat (split; [vm_compute; reflexivity|]). vm_compute; reflexivity.
Qed.
