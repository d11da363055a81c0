(** * PropLaws: the laws of union and intersection of lists (C73). *)
From Coq Require Import List ZArith Bool Lia Sorted Permutation.
From Verif Require Import Base Books Data DefaultData MVerse MRange Spec PList PCore PNav PVerse PRange PDefault
  PSetOps PSetSpec PRuns PSplit PCount PUnit PUnit2 MSeq MList PSort SpecList PRegroup PMerge PMerge2 PListOps PListDiff
  PropRange PropUnit PropList.
Import ListNotations.
Import Spec.
Open Scope Z_scope.

(** ** C73 *)
(** Expressions of verses, ranges and lists; the first operand of an operation has to be a list. *)
Inductive expr := Lst (l : rlist) | Or (a b : expr) | And (a b : expr) | Or_ref (a : expr) (x : bref) | And_ref (a : expr) (x : bref).
Fixpoint value (e : env) (fl : option flag) (t : expr) : res rlist :=
  match t with
  | Lst l => Ok l
  | Or a b => x <- value e fl a ;; y <- value e fl b ;; l_union e x (BL y) fl
  | And a b => x <- value e fl a ;; y <- value e fl b ;; l_intersection e x (BL y) fl
  | Or_ref a r => x <- value e fl a ;; l_union e x r fl
  | And_ref a r => x <- value e fl a ;; l_intersection e x r fl
  end.
(** The set of verses that an expression stands for. *)
Fixpoint stands_for (d : bibledata) (t : expr) (v : verse) : Prop :=
  match t with
  | Lst l => InL d v (items l)
  | Or a b => stands_for d a v \/ stands_for d b v
  | And a b => stands_for d a v /\ stands_for d b v
  | Or_ref a r => stands_for d a v \/ InL d v (ref_list r)
  | And_ref a r => stands_for d a v /\ InL d v (ref_list r)
  end.
(** The ranges that occur in it. *)
Fixpoint atoms (t : expr) : list range :=
  match t with
  | Lst l => items l
  | Or a b | And a b => atoms a ++ atoms b
  | Or_ref a r | And_ref a r => atoms a ++ ref_list r
  end.
Definition compound (t : expr) : Prop := match t with Lst _ => False | _ => True end.
Definition sound (e : env) (fl : option flag) (t : expr) : Prop :=
  legal_list e (zero_on e fl) (atoms t) /\ (multi_on e fl = true \/ Forall one_book_range (atoms t)).

Section Laws.
Variable e : env.
Variable fl : option flag.
Hypothesis Hwf : wf_data (ed e).
Notation z := (zero_on e fl).
Notation d := (ed e).

Lemma union_value : forall l x (S T : verse -> Prop), legal_list e z (items l) -> mergeable e fl (items l) -> legal_list e z (ref_list x) -> mergeable e fl (ref_list x) ->
  (forall v, InB d z v -> (InL d v (items l) <-> S v)) -> (forall v, InB d z v -> (InL d v (ref_list x) <-> T v)) ->
  exists g m, l_union e l x fl = Ok g /\ merged e fl m g /\ legal_list e z m /\ mergeable e fl (items g) /\
    forall v, InB d z v -> (InL d v m <-> S v \/ T v).
Proof.
  intros l x S T Hl Ml Hx Mx HS HT. assert (Hw : legal_list e z (items l ++ ref_list x)) by now apply Forall_app.
  destruct (union_ok e Hwf fl l x (legal_true _ _ _ Hw)) as (g & _ & E & M); [now apply (mergeable_app e)|].
  exists g, (items l ++ ref_list x). split; [exact E|]. split; [exact M|]. split; [exact Hw|]. split; [apply M|].
  intros v Hv. rewrite InL_app, (HS v Hv), (HT v Hv). tauto.
Qed.
Lemma inter_value : forall l x (S T : verse -> Prop), legal_list e z (items l) -> mergeable e fl (items l) -> legal_list e z (ref_list x) -> mergeable e fl (ref_list x) ->
  (forall v, InB d z v -> (InL d v (items l) <-> S v)) -> (forall v, InB d z v -> (InL d v (ref_list x) <-> T v)) ->
  exists g m, l_intersection e l x fl = Ok g /\ merged e fl m g /\ legal_list e z m /\ mergeable e fl (items g) /\
    forall v, InB d z v -> (InL d v m <-> S v /\ T v).
Proof.
  intros l x S T Hl Ml Hx Mx HS HT. pose proof (legal_true _ _ _ Hl) as Tl. pose proof (legal_true _ _ _ Hx) as Tx.
  destruct (intersection_ok e Hwf fl l x Tl Tx) as (g & m & E & M & W & V); [now apply (meets_ok_mergeable e Hwf)|].
  exists g, m. split; [exact E|]. split; [exact M|]. split; [now apply W|]. split; [apply M|].
  intros v Hv. now rewrite V, (HS v Hv), (HT v Hv).
Qed.
Lemma value_ok : forall t, sound e fl t -> exists g, value e fl t = Ok g /\ legal_list e z (items g) /\ mergeable e fl (items g) /\
  (forall v, InB d z v -> (InL d v (items g) <-> stands_for d t v)) /\
  (compound t -> exists m, merged e fl m g /\ legal_list e z m /\ forall v, InB d z v -> (InL d v m <-> stands_for d t v)).
Proof.
  assert (Fin : forall t r (S : verse -> Prop), (exists g m, r = Ok g /\ merged e fl m g /\ legal_list e z m /\ mergeable e fl (items g) /\ forall v, InB d z v -> (InL d v m <-> S v)) ->
    (forall v, InB d z v -> (S v <-> stands_for d t v)) ->
    exists g, r = Ok g /\ legal_list e z (items g) /\ mergeable e fl (items g) /\ (forall v, InB d z v -> (InL d v (items g) <-> stands_for d t v)) /\
      (compound t -> exists m, merged e fl m g /\ legal_list e z m /\ forall v, InB d z v -> (InL d v m <-> stands_for d t v))).
  { intros t r S (g & m & E & M & W & Mg & V) HS. exists g. split; [exact E|]. pose proof M as (_ & _ & Wg & _ & _ & Sv).
    split; [now apply Wg|]. split; [exact Mg|]. split; [intros v Hv; rewrite (Sv v Hv), (V v Hv); auto|].
    intros _. exists m. split; [exact M|]. split; [exact W|]. intros v Hv. rewrite (V v Hv). auto. }
  assert (Sp : forall l m, legal_list e z (l ++ m) /\ (multi_on e fl = true \/ Forall one_book_range (l ++ m)) ->
     (legal_list e z l /\ (multi_on e fl = true \/ Forall one_book_range l)) /\ (legal_list e z m /\ (multi_on e fl = true \/ Forall one_book_range m))).
  { intros l m (H1 & H2). apply Forall_app in H1. destruct H1 as (A & B). destruct H2 as [H2|H2]; [tauto|]. apply Forall_app in H2. tauto. }
  induction t as [l|a IHa b IHb|a IHa b IHb|a IHa x|a IHa x]; unfold sound; cbn [atoms value]; intros Hs.
  - exists l. destruct Hs as (A & B). split; [reflexivity|]. split; [exact A|]. split; [exact B|]. split; [intros; reflexivity|]. intros [].
  - apply Sp in Hs. destruct Hs as (Sa & Sb). destruct (IHa Sa) as (ga & -> & Wa & Ma & Va & _). destruct (IHb Sb) as (gb & -> & Wb & Mb & Vb & _). cbn [bind].
    eapply Fin; [apply (union_value ga (BL gb)); cbn [ref_list]; eauto|]. intros; reflexivity.
  - apply Sp in Hs. destruct Hs as (Sa & Sb). destruct (IHa Sa) as (ga & -> & Wa & Ma & Va & _). destruct (IHb Sb) as (gb & -> & Wb & Mb & Vb & _). cbn [bind].
    eapply Fin; [apply (inter_value ga (BL gb)); cbn [ref_list]; eauto|]. intros; reflexivity.
  - apply Sp in Hs. destruct Hs as (Sa & Sx & Mx). destruct (IHa Sa) as (ga & -> & Wa & Ma & Va & _). cbn [bind].
    eapply Fin; [apply (union_value ga x (stands_for d a) (fun v => InL d v (ref_list x))); eauto; intros; reflexivity|]. intros; reflexivity.
  - apply Sp in Hs. destruct Hs as (Sa & Sx & Mx). destruct (IHa Sa) as (ga & -> & Wa & Ma & Va & _). cbn [bind].
    eapply Fin; [apply (inter_value ga x (stands_for d a) (fun v => InL d v (ref_list x))); eauto; intros; reflexivity|]. intros; reflexivity.
Qed.
End Laws.

(** Every expression of unions and intersections has a value; its verses are those that the expression stands for, and
    it is in canonical form. *)
Theorem C73_value : forall e fl t, wf_data (ed e) -> sound e fl t ->
  exists g, value e fl t = Ok g /\ (forall v, InB (ed e) (zero_on e fl) v -> (InL (ed e) v (items g) <-> stands_for (ed e) t v)) /\
    (compound t -> full_groups g /\ regroup e None g = Ok g /\ canonical e fl (items g) /\ legal_list e (zero_on e fl) (items g)).
Proof.
  intros e fl t Hwf Hs. destruct (value_ok e fl Hwf t Hs) as (g & E & W & _ & V & C). exists g. split; [exact E|]. split; [exact V|].
  intros Hc. destruct (C Hc) as (m & M & _). apply merged_form in M. destruct M as (A & B & _ & D & _). auto.
Qed.
(** Expressions that stand for the same verses have the same value: the same ranges in the same groups. *)
Theorem C73_same : forall e fl s t, wf_data (ed e) -> sound e fl s -> sound e fl t -> compound s -> compound t ->
  (forall v, InB (ed e) (zero_on e fl) v -> (stands_for (ed e) s v <-> stands_for (ed e) t v)) ->
  exists g, value e fl s = Ok g /\ value e fl t = Ok g.
Proof.
  intros e fl s t Hwf Hs Ht Cs Ct H. destruct (value_ok e fl Hwf s Hs) as (g & E & _ & _ & _ & C). destruct (value_ok e fl Hwf t Ht) as (g' & E' & _ & _ & _ & C').
  destruct (C Cs) as (m & M & W & V). destruct (C' Ct) as (m' & M' & W' & V').
  exists g. split; [exact E|]. rewrite E'. f_equal. symmetry. eapply (merged_unique e Hwf); [exact W|exact W'|exact M|exact M'|].
  intros v Hv. rewrite (V v Hv), (V' v Hv). auto.
Qed.
(** So unions and intersections obey the laws of a distributive lattice. *)
Theorem C73_laws : forall e fl a b c, wf_data (ed e) -> sound e fl a -> sound e fl b -> sound e fl c ->
  Forall (fun '(s, t) => exists g, value e fl s = Ok g /\ value e fl t = Ok g)
    [(Or a b, Or b a); (And a b, And b a);
     (Or a (Or b c), Or (Or a b) c); (And a (And b c), And (And a b) c);
     (And a (Or b c), Or (And a b) (And a c)); (Or a (And b c), And (Or a b) (Or a c));
     (Or a (And a b), Or a a); (And a (Or a b), And a a); (Or a a, And a a);
     (Or a (Lst []), Or a a); (And a (Lst []), And (Lst []) a)].
Proof.
  intros e fl a b c Hwf Ha Hb Hc.
  assert (S2 : forall s t, sound e fl s -> sound e fl t -> sound e fl (Or s t) /\ sound e fl (And s t)).
  { intros s t (A1 & A2) (B1 & B2). assert (sound e fl (Or s t)); [|split; assumption]. split; [now apply Forall_app|].
    destruct A2 as [A2|A2]; [now left|]. destruct B2 as [B2|B2]; [now left|]. right. now apply Forall_app. }
  assert (S0 : sound e fl (Lst [])) by (split; [constructor|right; constructor]).
  assert (O : forall s t, sound e fl s -> sound e fl t -> sound e fl (Or s t)) by (intros; now apply S2).
  assert (A : forall s t, sound e fl s -> sound e fl t -> sound e fl (And s t)) by (intros; now apply S2).
  assert (N : forall v, ~ InL (ed e) v (items [])) by (intros v (x & [] & _)).
  clear S2. repeat (apply Forall_cons; [apply C73_same; auto; try exact I; intros v _; cbn [stands_for]; specialize (N v); tauto|]). constructor.
Qed.
(** The condition of [sound] is needed: without MULTIBOOK a range over several books has no union with itself. *)
Example C73_needed : let a := Lst [[R (V Gen 50 26) (V Exod 1 1)]] in legal_list (denv NONE) false (atoms a) /\
  value (denv NONE) None (Or a (Lst [])) = Ok [[R (V Gen 50 26) (V Exod 1 1)]] /\
  value (denv NONE) None (Or a a) = Err Multibook /\ value (denv NONE) None (And a a) = Err Multibook /\
  sound (denv MULTIBOOK) None a /\ value (denv MULTIBOOK) None (Or a a) = Ok [[R (V Gen 50 26) (V Exod 1 1)]].
Proof. cbv zeta. split; [cbn [atoms items concat app]; legal|]. do 3 (split; [vm_compute; reflexivity|]). split; [split; [cbn [atoms items concat app]; legal|now left]|vm_compute; reflexivity]. Qed.
Example C73_ex : let a := Lst [[R (V Gen 1 2) (V Gen 1 9)]; [R (V Gen 3 1) (V Gen 3 4)]] in let b := Lst [[R (V Gen 3 5) (V Gen 4 1)]] in
  let c := Lst [[R (V Gen 1 5) (V Gen 1 7)]; [R (V Gen 4 1) (V Gen 4 3)]] in
  sound (denv NONE) None (And a (Or b c)) /\ compound (And a (Or b c)) /\
  value (denv NONE) None (Or a b) = Ok [[R (V Gen 1 2) (V Gen 1 9)]; [R (V Gen 3 1) (V Gen 4 1)]] /\
  value (denv NONE) None (And a (Or b c)) = Ok [[R (V Gen 1 5) (V Gen 1 7)]] /\
  value (denv NONE) None (Or (And a b) (And a c)) = Ok [[R (V Gen 1 5) (V Gen 1 7)]] /\
  value (denv NONE) None (And_ref (Or_ref b (BV (V Gen 4 2))) (BR (R (V Gen 4 1) (V Gen 50 1)))) = Ok [[R (V Gen 4 1) (V Gen 4 2)]].
Proof.
  cbv zeta. split; [split; [cbn [atoms items concat app]; legal|right; repeat constructor]|]. vm_compute. auto.
Qed.
