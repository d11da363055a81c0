(** * PropNumber: the numbers of verses of lists, unions and intersections (C84). *)
From Coq Require Import List ZArith Bool Lia Sorted.
From Verif Require Import Base Books Chars Regex Data DefaultData MVerse MRange MSeq MList Spec SpecList PList PCore PVerse PRange PSetOps PSplit PTerm PDefault PropVerse PropRange PMerge PropList PropLaws.
Import ListNotations.
Open Scope Z_scope.

(** [n] is the number of the verses of the Bible that have property [P]. *)
Definition number (d : bibledata) (z : bool) (P : verse -> Prop) (n : Z) : Prop :=
  exists vs, NoDup vs /\ (forall v, In v vs <-> InB d z v /\ P v) /\ n = zlen vs.

Lemma number_fun : forall d z P Q m n, number d z P m -> number d z Q n -> (forall v, InB d z v -> (P v <-> Q v)) -> m = n.
Proof.
  intros d z P Q m n (vs & N1 & I1 & ->) (ws & N2 & I2 & ->) H. unfold zlen. f_equal.
  apply Nat.le_antisymm; apply NoDup_incl_length; auto; intros v Hv; apply I1 in Hv || apply I2 in Hv; [apply I2|apply I1]; destruct Hv as (A & B); split; auto; now apply (H v A).
Qed.
Lemma book_eq_dec : forall a b : verse, {a = b} + {a <> b}.
Proof. intros [b c v] [b' c' v']. destruct (Z.eq_dec c c') as [->|]; [|right; congruence]. destruct (Z.eq_dec v v') as [->|]; [|right; congruence].
  assert (X : {b = b'} + {b <> b'}) by decide equality. destruct X as [->|]; [now left|right; congruence]. Qed.
Lemma in_out : forall (l m : list verse), NoDup l -> zlen l = zlen (filter (fun v => if in_dec book_eq_dec v m then true else false) l) + zlen (filter (fun v => if in_dec book_eq_dec v m then false else true) l).
Proof. intros l m _. unfold zlen. induction l as [|x l IH]; cbn; [reflexivity|]. destruct (in_dec book_eq_dec x m); cbn [length]; lia. Qed.
Lemma filter_nodup : forall {B} (f : B -> bool) l, NoDup l -> NoDup (filter f l).
Proof. intros B f l H. induction H as [|x l Hx H IH]; cbn; [constructor|]. destruct (f x); auto. constructor; auto. intros X. apply filter_In in X. tauto. Qed.
(** Counting with two properties. *)
Lemma number_both : forall d z P Q m n, number d z P m -> number d z Q n ->
  exists i u, number d z (fun v => P v /\ Q v) i /\ number d z (fun v => P v \/ Q v) u /\ u + i = m + n /\ i <= m /\ i <= n.
Proof.
  intros d z P Q m n (vs & N1 & I1 & ->) (ws & N2 & I2 & ->).
  set (both := filter (fun v => if in_dec book_eq_dec v ws then true else false) vs). set (only := filter (fun v => if in_dec book_eq_dec v ws then false else true) vs).
  assert (Hb : forall v, In v both <-> In v vs /\ In v ws) by (intros v; unfold both; rewrite filter_In; destruct (in_dec book_eq_dec v ws); intuition discriminate).
  assert (Ho : forall v, In v only <-> In v vs /\ ~ In v ws) by (intros v; unfold only; rewrite filter_In; destruct (in_dec book_eq_dec v ws); intuition discriminate).
  assert (E : zlen vs = zlen both + zlen only) by (apply in_out; auto).
  assert (Nb : NoDup both) by now apply filter_nodup. assert (No : NoDup only) by now apply filter_nodup.
  exists (zlen both), (zlen (only ++ ws)). split; [|split; [|split; [|split]]].
  - exists both. split; auto. split; auto. intros v. rewrite Hb, I1, I2. tauto.
  - exists (only ++ ws). split; [|split; auto].
    + clear -No N2 Ho. assert (D : forall v, In v only -> ~ In v ws) by (intros v Hv; apply Ho in Hv; tauto). clearbody only. clear Ho. induction No as [|x l Hx No IH]; cbn; auto. constructor; [|apply IH; intros v Hv; apply D; now right].
      rewrite in_app_iff. intros [X|X]; [contradiction|]. apply (D x); [now left|auto].
    + intros v. rewrite in_app_iff, Ho, I1, I2. destruct (in_dec book_eq_dec v ws) as [Hw|Hw]; rewrite I2 in Hw; tauto.
  - unfold zlen in *. rewrite app_length. lia.
  - unfold zlen in *. lia.
  - unfold zlen. assert (X : (length both <= length ws)%nat); [|lia]. apply NoDup_incl_length; auto. intros v Hv. apply Hb in Hv. tauto.
Qed.

Section Count.
Variable e : env.
Hypothesis Hwf : wf_data (ed e).
Notation d := (ed e).
Notation z := (verse0 (eg e)).

Lemma legal_zero : forall r, wf_range d z r -> count_zero e r = z.
Proof.
  intros r (A & B & _). unfold count_zero. cbn [zero_on arg_given]. destruct z eqn:Ez; [reflexivity|]. cbn [orb].
  apply (InB_false_verse e) in A; apply (InB_false_verse e) in B. destruct A as (_ & A). destruct B as (_ & B). apply Z.eqb_neq in A. apply Z.eqb_neq in B. now rewrite A, B.
Qed.
Lemma range_number : forall r, wf_range d z r -> exists vs, verses_of d z r vs /\ NoDup vs /\ (forall v, In v vs <-> InB d z v /\ InR d v r) /\ vs <> [].
Proof.
  intros r Hr. assert (Ht : wf_range d true r) by (eapply (wf_range_mono e); eauto). destruct (C11_verses e r Hwf Ht) as (l & A & B & C). rewrite (legal_zero r Hr) in *. exists l. split; auto. split; auto. split; auto.
  intros ->. destruct A as (_ & X & _). discriminate.
Qed.
Lemma legal_overlap : forall a b, wf_range d z a -> wf_range d z b -> overlap d a b -> exists v, InB d z v /\ InR d v a /\ InR d v b.
Proof.
  intros a b Ha Hb (v & (A1 & A2) & B1 & B2). pose proof (wf_range_mono e z a Ha) as Ta. pose proof (wf_range_mono e z b Hb) as Tb.
  destruct (vle_total e (rstart a) (rstart b)) as [L|L]; [exact (proj1 Ta)|exact (proj1 Tb)| |].
  - exists (rstart b). split; [apply Hb|]. split; [|now apply (InR_start e Hwf)]. split; auto. apply (vle_trans e Hwf _ v); auto.
  - exists (rstart a). split; [apply Ha|]. split; [now apply (InR_start e Hwf)|]. split; auto. apply (vle_trans e Hwf _ v); auto.
Qed.
(** The count of a list against the number of its verses. *)
Lemma list_number : forall l, Forall (wf_range d z) l -> exists k n vss, Forall2 (verses_of d z) l vss /\ k = fold_right Z.add 0 (map zlen vss) /\
  number d z (fun v => InL d v l) n /\ n <= k /\ (n = k <-> ForallOrdPairs (fun a b => ~ overlap d a b) l).
Proof.
  induction l as [|r l IH]; intros H.
  - exists 0, 0, []. split; [constructor|]. split; [reflexivity|]. split; [|split; [lia|split; auto; constructor]]. exists []. split; [constructor|]. split; [|reflexivity].
    intros v. cbn. split; [intros []|]. intros (_ & x & [] & _).
  - inversion H as [|? ? Hr Hl]; subst. destruct (IH Hl) as (k & n & vss & F & -> & Nn & Le & Iff). destruct (range_number r Hr) as (vs & Vr & Nd & Iv & _).
    assert (Nr : number d z (fun v => InR d v r) (zlen vs)) by (exists vs; auto).
    destruct (number_both d z _ _ _ _ Nr Nn) as (i & u & Ni & Nu & Es & _ & _). exists (zlen vs + fold_right Z.add 0 (map zlen vss)), u, (vs :: vss).
    split; [now constructor|]. split; [reflexivity|]. assert (Hi : 0 <= i) by (destruct Ni as (? & _ & _ & ->); unfold zlen; lia). split.
    { destruct Nu as (us & A & B & ->). exists us. split; auto. split; auto. intros v. rewrite B. apply and_iff_compat_l. unfold InL. split.
      - intros [X|(x & X & Y)]; [exists r|exists x]; cbn; auto.
      - intros (x & [->|X] & Y); eauto. }
    split; [lia|]. assert (I0 : i = 0 <-> Forall (fun b => ~ overlap d r b) l).
    { destruct Ni as (is & A & B & ->). split.
      - intros E. assert (is = []) by (destruct is; [auto|unfold zlen in E; cbn [length] in E; lia]). subst is. rewrite Forall_forall. intros b Hb O.
        destruct (legal_overlap r b) as (v & Hv & X & Y); auto. { rewrite Forall_forall in Hl. auto. } assert (Z : In v []) by (apply B; split; auto; split; auto; now exists b). destruct Z.
      - intros F0. destruct is as [|v is]; [reflexivity|]. exfalso. assert (X : In v (v :: is)) by now left. apply B in X. destruct X as (_ & X & b & Hb & Y). rewrite Forall_forall in F0. apply (F0 b Hb). now exists v. }
    split.
    + intros E. assert (E0 : i = 0) by lia. assert (E1 : n = fold_right Z.add 0 (map zlen vss)) by lia. constructor; [now apply I0|now apply Iff].
    + intros F0. inversion F0 as [|? ? A B]; subst. apply I0 in A. apply Iff in B. lia.
Qed.
End Count.

(** A list counts the verses of all its ranges.  That is the number of its verses exactly if no two ranges overlap. *)
Theorem C84_list_partial : forall e l fl, wf_data (ed e) -> legal_list e (verse0 (eg e)) (items l) ->
  exists k n, l_verse_count e l fl = Ok k /\ number (ed e) (verse0 (eg e)) (fun v => InL (ed e) v (items l)) n /\ n <= k /\
    (n = k <-> ForallOrdPairs (fun a b => ~ overlap (ed e) a b) (items l)).
Proof.
  intros e l fl Hwf Hl. destruct (list_number e Hwf (items l) Hl) as (k & n & vss & F & -> & Nn & Le & Iff). exists (fold_right Z.add 0 (map zlen vss)), n. split; [|auto].
  apply C11_list_verse_count; auto. clear -F Hl Hwf. induction F as [|r vs l' vss V F IH]; constructor; inversion Hl; subst; auto. rewrite legal_zero; auto.
Qed.

(** Lists in canonical form have no overlaps. *)
Lemma canonical_apart : forall e fl l, wf_data (ed e) -> legal_list e true l -> canonical e fl l -> ForallOrdPairs (fun a b => ~ overlap (ed e) a b) l.
Proof.
  intros e fl l Hwf Hl H. induction H as [|a l H IH Ha]; [constructor|]. inversion Hl as [|? ? Wa Wl]; subst. constructor; auto.
  rewrite Forall_forall in *. intros b Hb (v & (A1 & A2) & B1 & B2). destruct (Ha b Hb) as (L & _).
  assert (X : vle (ed e) (rstart b) (rend a)) by (apply (vle_trans e Hwf _ v); auto). apply (vle_pos e Hwf) in X. apply (vlt_pos e Hwf) in L. lia.
Qed.
(** Missing in the theorems on expressions: flags that differ from the global flags about verse 0s.
    An expression of unions and intersections counts each verse that it stands for once. *)
Theorem C84_value_partial : forall e fl fl' t, wf_data (ed e) -> zero_on e fl = verse0 (eg e) -> sound e fl t -> compound t ->
  exists g n, value e fl t = Ok g /\ l_verse_count e g fl' = Ok n /\ number (ed e) (verse0 (eg e)) (stands_for (ed e) t) n.
Proof.
  intros e fl fl' t Hwf Hz Hs Hc. destruct (C73_value e fl t Hwf Hs) as (g & E & V & Q). destruct (Q Hc) as (_ & _ & C & L). rewrite Hz in *.
  destruct (C84_list_partial e g fl' Hwf L) as (k & n & Ek & Nn & _ & Iff). exists g, n. split; auto.
  assert (n = k) by (apply Iff; apply (canonical_apart e fl); auto; now apply (legal_true e (verse0 (eg e)))). subst k. split; auto.
  destruct Nn as (vs & A & B & ->). exists vs. split; auto. split; auto. intros v. rewrite B. split; intros (X & Y); split; auto; now apply (V v X).
Qed.
(** The union and the intersection of two lists have as many verses as the two, each freed of overlaps. *)
Theorem C84_laws_partial : forall e fl fl' s t, wf_data (ed e) -> zero_on e fl = verse0 (eg e) -> sound e fl s -> sound e fl t ->
  let count x := g <- value e fl x ;; l_verse_count e g fl' in
  exists m n i u, count (Or s s) = Ok m /\ count (Or t t) = Ok n /\ count (And s t) = Ok i /\ count (Or s t) = Ok u /\
    u + i = m + n /\ 0 <= i <= m /\ i <= n /\
    (i = 0 <-> forall v, InB (ed e) (verse0 (eg e)) v -> stands_for (ed e) s v -> ~ stands_for (ed e) t v) /\
    (i = m <-> forall v, InB (ed e) (verse0 (eg e)) v -> stands_for (ed e) s v -> stands_for (ed e) t v).
Proof.
  intros e fl fl' s t Hwf Hz Hs Ht count.
  assert (S2 : forall a b, sound e fl a -> sound e fl b -> sound e fl (Or a b) /\ sound e fl (And a b)).
  { intros a b (A1 & A2) (B1 & B2). assert (sound e fl (Or a b)); [|split; assumption]. split; [now apply Forall_app|].
    destruct A2 as [A2|A2]; [now left|]. destruct B2 as [B2|B2]; [now left|]. right. now apply Forall_app. }
  assert (K : forall a b, sound e fl a -> sound e fl b -> (exists n, count (Or a b) = Ok n /\ number (ed e) (verse0 (eg e)) (fun v => stands_for (ed e) a v \/ stands_for (ed e) b v) n) /\
     (exists n, count (And a b) = Ok n /\ number (ed e) (verse0 (eg e)) (fun v => stands_for (ed e) a v /\ stands_for (ed e) b v) n)).
  { intros a b Sa Sb. destruct (S2 a b Sa Sb) as (So & Sn). split.
    - destruct (C84_value_partial e fl fl' (Or a b) Hwf Hz So I) as (g & n & E & C & N). exists n. split; auto. unfold count. now rewrite E.
    - destruct (C84_value_partial e fl fl' (And a b) Hwf Hz Sn I) as (g & n & E & C & N). exists n. split; auto. unfold count. now rewrite E. }
  destruct (K s s Hs Hs) as ((m & Em & Nm) & _). destruct (K t t Ht Ht) as ((n & En & Nn) & _). destruct (K s t Hs Ht) as ((u & Eu & Nu) & i & Ei & Ni).
  assert (Ns : number (ed e) (verse0 (eg e)) (stands_for (ed e) s) m) by (destruct Nm as (vs & A & B & C); exists vs; split; auto; split; auto; intros v; rewrite B; tauto).
  assert (Nt : number (ed e) (verse0 (eg e)) (stands_for (ed e) t) n) by (destruct Nn as (vs & A & B & C); exists vs; split; auto; split; auto; intros v; rewrite B; tauto).
  destruct (number_both _ _ _ _ _ _ Ns Nt) as (i' & u' & Ni' & Nu' & Es & L1 & L2).
  assert (i' = i) by (eapply number_fun; eauto; intros; reflexivity). assert (u' = u) by (eapply number_fun; eauto; intros; reflexivity). subst i' u'.
  exists m, n, i, u. repeat (split; [auto; fail|]). split; [split; [destruct Ni as (? & _ & _ & ->); unfold zlen; lia|lia]|]. split; [lia|]. split.
  - destruct Ni as (vs & A & B & ->). split.
    + intros E v Hv X Y. assert (Z : In v vs) by (apply B; auto). destruct vs; [destruct Z|unfold zlen in E; cbn [length] in E; lia].
    + intros H. destruct vs as [|v vs]; [reflexivity|]. exfalso. assert (Z : In v (v :: vs)) by now left. apply B in Z. destruct Z as (Z1 & Z2 & Z3). apply (H v); auto.
  - destruct Ni as (vs & A & B & ->). destruct Ns as (ws & C & D & ->). split.
    + intros E v Hv X. assert (Inc : incl ws vs). { apply NoDup_length_incl; auto; [unfold zlen in E; lia|]. intros w Hw. apply B in Hw. apply D. tauto. }
      assert (Z : In v vs) by (apply Inc, D; auto). apply B in Z. tauto.
    + intros H. unfold zlen. f_equal. apply Nat.le_antisymm; apply NoDup_incl_length; auto; intros w Hw; [apply B in Hw; apply D; tauto|]. apply D in Hw. apply B. destruct Hw as (X & Y). auto.
Qed.

(** With VERSE_0 only as an argument: verse_count does not use it. *)
Theorem C84_refuted : exists e fl s t, wf_data (ed e) /\ sound e fl s /\ sound e fl t /\
  let count x := g <- value e fl x ;; l_verse_count e g fl in
  count (Or s s) = Ok 3 /\ count (Or t t) = Ok 9 /\ count (And s t) = Ok 2 /\ count (Or s t) = Ok 11.
Proof.
  exists (denv NONE), (Some VERSE_0), (Lst [[R (V Psa 3 0) (V Psa 3 2)]]), (Lst [[R (V Psa 3 1) (V Psa 4 1)]]).
  split; [exact default_wf|]. split; [split; [cbn [atoms items concat app]; legal|right; repeat constructor]|].
  split; [split; [cbn [atoms items concat app]; legal|right; repeat constructor]|]. cbv zeta. vm_compute. auto.
Qed.
Example C84_ex : let s := Lst [[R (V Gen 1 2) (V Gen 1 9)]; [R (V Gen 1 5) (V Gen 2 4)]] in let t := Lst [[R (V Gen 2 1) (V Gen 2 10); R (V Gen 2 4) (V Gen 2 4)]] in
  let count x := g <- value (denv NONE) None x ;; l_verse_count (denv NONE) g None in
  sound (denv NONE) None s /\ sound (denv NONE) None t /\ zero_on (denv NONE) None = verse0 (eg (denv NONE)) /\
  count s = Ok 39 /\ count (Or s s) = Ok 34 /\ count t = Ok 11 /\ count (Or t t) = Ok 10 /\ count (And s t) = Ok 4 /\ count (Or s t) = Ok 40.
Proof.
  cbv zeta. split; [split; [cbn [atoms items concat app]; legal|right; repeat constructor]|].
  split; [split; [cbn [atoms items concat app]; legal|right; repeat constructor]|]. vm_compute. auto 10.
Qed.
