(** * PNode3: the verses of a list after an operation that was broken off. *)
From Coq Require Import List ZArith Bool Lia Sorted Permutation.
From Verif Require Import Base Books Data MVerse MRange Spec PList PCore PNav PVerse PRange
  PSetOps PSetSpec MSeq MList PSort SpecList PRegroup PMerge PListOps PMerge2 PListDiff SpecNode.
Import ListNotations.
Import Spec.
Open Scope Z_scope.

Section Left.
Variable e : env.
Notation d := (ed e).
Hypothesis Hwf : wf_data d.
Notation wft := (wf_range d true).

Lemma merge_left_same : forall fl z l x, (zero_on e fl = true -> z = true) -> wf_range d z x -> Forall (wf_range d z) l ->
  Forall (wf_range d z) (merge_left e fl x l) /\ same_verses d (zero_on e fl) (merge_left e fl x l) (x :: l).
Proof.
  intros fl z l. assert (Mono : forall r, wf_range d z r -> wft r) by (intros; eapply (wf_range_mono e); eauto).
  induction l as [|y l IH]; intros x Hz Hx Hl; cbn [merge_left].
  - split; [repeat (apply Forall_cons || apply Forall_nil); auto|]. intros v _. reflexivity.
  - inversion Hl as [|? ? Hy Hl']; subst. destruct (union e x y fl) as [u|] eqn:Eu.
    2:{ split; [constructor; auto|]. intros v _. reflexivity. }
    destruct (union_cases e Hwf x y fl (Mono _ Hx) (Mono _ Hy)) as [(Ht & E)|(Ht & E)]; rewrite E in Eu.
    + destruct (_ && _); [discriminate|]. injection Eu as <-.
      destruct (IH (hull e x y) Hz (hull_wf e Hwf z x y Hx Hy) Hl') as (W & S). split; [exact W|]. intros v Hv. rewrite (S v Hv), !InL_cons.
      pose proof (hull_sound e Hwf fl x y v (Mono _ Hx) (Mono _ Hy) Ht Hv). tauto.
    + destruct (IH y Hz Hy Hl') as (W & S). injection Eu as <-.
      assert (X : Forall (wf_range d z) (x :: merge_left e fl y l) /\ same_verses d (zero_on e fl) (x :: merge_left e fl y l) (x :: y :: l)).
      { split; [constructor; auto|]. intros v Hv. rewrite (InL_cons e), (S v Hv), (InL_cons e v x (y :: l)). reflexivity. }
      destruct (pos e (rstart x) <? pos e (rstart y)); exact X.
Qed.
Lemma sort_same : forall z l, Forall wft l -> same_verses d z (sort_items (rleb e) l) l.
Proof.
  intros z l Hl v _. destruct (sort_ok e Hwf l Hl) as (P & _). unfold InL. split; intros (r & Hr & Hv); exists r; split; auto.
  - eapply Permutation_in; [exact P|exact Hr].
  - eapply Permutation_in; [apply Permutation_sym; exact P|exact Hr].
Qed.
Lemma merge_rest_same : forall fl z l, (zero_on e fl = true -> z = true) -> Forall (wf_range d z) l ->
  Forall (wf_range d z) (merge_rest e fl l) /\ same_verses d (zero_on e fl) (merge_rest e fl l) l.
Proof.
  intros fl z l Hz Hl. assert (Ht : Forall wft l) by (eapply Forall_impl; [|exact Hl]; intros; eapply (wf_range_mono e); eauto).
  pose proof (sort_same (zero_on e fl) l Ht) as Ss. destruct (sort_ok e Hwf l Ht) as (P & _). unfold sorted_l in P.
  assert (Hs : Forall (wf_range d z) (sort_items (rleb e) l)) by (eapply Permutation_Forall; [apply Permutation_sym; exact P|exact Hl]).
  unfold merge_rest. destruct (sort_items (rleb e) l) as [|x xs].
  - split; [constructor|exact Ss].
  - inversion Hs; subst. destruct (merge_left_same fl z xs x Hz) as (W & S); auto. split; auto. intros v Hv. rewrite (S v Hv). now apply Ss.
Qed.

Section Diff.
Variable fl : option flag.
Notation z := (zero_on e fl).
Hypothesis Hz : z = verse0 (eg e).
Notation wfz := (wf_range d z).
Lemma pieces_left_between : forall bs cur, wfz cur -> Forall wfz bs ->
  Forall wfz (pieces_left e fl cur bs) /\ (forall v, InL d v (pieces_left e fl cur bs) -> InR d v cur) /\
  (forall v, InB d z v -> InR d v cur -> ~ InL d v bs -> InL d v (pieces_left e fl cur bs)).
Proof.
  assert (One : forall cur bs, wfz cur -> Forall wfz [cur] /\ (forall v, InL d v [cur] -> InR d v cur) /\
    (forall v, InB d z v -> InR d v cur -> ~ InL d v bs -> InL d v [cur])).
  { intros cur bs Hc. split; [repeat (apply Forall_cons || apply Forall_nil); auto|]. split; intros v; rewrite InL_1; auto. }
  induction bs as [|b bs IH]; intros cur Hc Hb; cbn [pieces_left]; [now apply One|].
  inversion Hb as [|? ? B1 B2]; subst. destruct (difference e cur b fl) as [ds|] eqn:Ed; [|now apply One].
  assert (Skip : forall l, (forall v, InB d z v -> InR d v cur -> ~ InL d v bs -> InL d v l) -> (forall v, InB d z v -> InR d v cur -> ~ InL d v (b :: bs) -> InL d v l)).
  { intros l H v Hv Hcv Hn. apply H; auto. intros K. apply Hn. apply InL_cons. now right. }
  destruct (diff_struct e Hwf fl Hz cur b ds Hc B1 Ed) as [(Hn & ->)|[(Hi & ->)|(Ho & Hi & Hne & Hp & Hs)]].
  - rewrite app_nil_r. destruct (IH cur Hc B2) as (W1 & W2 & W3). auto.
  - destruct (IH cur Hc B2) as (W1 & W2 & W3). auto.
  - destruct ds as [|x ds]; [congruence|]. inversion Hp as [|? ? P1 P2]; subst. destruct P1 as (Wx & Nx & _). destruct (IH x Wx B2) as (W1 & W2 & W3).
    assert (Tc : wft cur) by (eapply (wf_range_mono e); eauto). split; [|split].
    + apply Forall_app. split; auto. eapply Forall_impl; [|exact P2]. intros y Hy. apply Hy.
    + intros v Hv. apply InL_app in Hv. destruct Hv as [Hv|(y & Hy & Hv)].
      * eapply (InR_within e Hwf); [exact Tc|exact Nx|auto].
      * rewrite Forall_forall in P2. eapply (InR_within e Hwf); [exact Tc|apply P2; exact Hy|auto].
    + intros v Hv Hcv Hnb. apply InL_app.
      assert (Hd : InL d v (x :: ds)).
      { apply (difference_sound e Hwf cur b fl (x :: ds) v Hz Hc B1 Ed Hv). split; [exact Hcv|]. intros K. apply Hnb. apply InL_cons. now left. }
      apply InL_cons in Hd. destruct Hd as [Hd|Hd]; [left|now right]. apply W3; auto. intros K. apply Hnb. apply InL_cons. now right.
Qed.
Lemma diff_left_between : forall others, Forall wfz others -> forall n todo, Forall wfz todo ->
  Forall wfz (diff_left e fl others n todo) /\ (forall v, InL d v (diff_left e fl others n todo) -> InL d v todo) /\
  (forall v, InB d z v -> InL d v todo -> ~ InL d v others -> InL d v (diff_left e fl others n todo)).
Proof.
  intros others Ho. induction n as [|n IH]; intros [|x rest] Ht; cbn [diff_left]; auto.
  inversion Ht as [|? ? T1 T2]; subst. destruct (diff_inner e fl x others) as [[c more]|] eqn:Ei.
  - destruct (inner_ok e Hwf fl Hz others x c more T1 Ho Ei) as (W1 & W2 & W3 & W4 & W5 & W6). cbn [fst snd].
    destruct (IH (more ++ rest)) as (L1 & L2 & L3); [apply Forall_app; auto|]. assert (Tx : wft x) by (eapply (wf_range_mono e); eauto).
    split; [now constructor|]. split.
    + intros v H. apply InL_cons in H. apply InL_cons. destruct H as [H|H].
      * left. eapply (InR_within e Hwf); [exact Tx|exact W3|exact H].
      * apply L2 in H. apply InL_app in H. destruct H as [(y & Hy & H)|H]; [|now right].
        left. rewrite Forall_forall in W4. eapply (InR_within e Hwf); [exact Tx|apply W4; exact Hy|exact H].
    + intros v Hv H Hn. apply InL_cons in H. apply InL_cons. destruct H as [H|H].
      * destruct (W6 v Hv H Hn) as [K|K]; [now left|right]. apply L3; auto. apply InL_app. now left.
      * right. apply L3; auto. apply InL_app. now right.
  - destruct (pieces_left_between others x T1 Ho) as (W1 & W2 & W3). split; [apply Forall_app; auto|]. split.
    + intros v H. apply InL_app in H. apply InL_cons. destruct H as [H|H]; auto.
    + intros v Hv H Hn. apply InL_cons in H. apply InL_app. destruct H as [H|H]; auto.
Qed.
(** [difference_update], whatever happens: verses of the list only, and all that are not in the other reference. *)
Lemma diff_rest_between : forall n x l, Forall wfz l -> Forall wfz (ref_list x) ->
  Forall wfz (diff_rest e n x fl l) /\ (forall v, InB d z v -> InL d v (diff_rest e n x fl l) -> InL d v l) /\
  (forall v, InB d z v -> InL d v l -> ~ InL d v (ref_list x) -> InL d v (diff_rest e n x fl l)).
Proof.
  intros n x l Hl Hx. unfold diff_rest. rewrite (ref_ranges_ok e Hwf) by (eapply Forall_impl; [|exact Hx]; intros; eapply (wf_range_mono e); eauto).
  destruct (diff_loop e fl (ref_list x) n l) as [ds|] eqn:Ed.
  - destruct (diff_loop_between e Hwf fl Hz _ Hx n l ds Hl Ed) as (W1 & W2 & W3).
    assert (Hz0 : zero_on e None = z) by (rewrite Hz; reflexivity).
    destruct (merge_rest_same None z ds) as (M1 & M2); auto; [rewrite Hz0; auto|]. rewrite Hz0 in M2. split; auto. split; intros v Hv H.
    + apply W2; auto. now apply M2.
    + intros K. apply M2; auto.
  - destruct (diff_left_between (ref_list x) Hx n l Hl) as (W1 & W2 & W3). auto.
Qed.
End Diff.
End Left.
