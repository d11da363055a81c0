(** * PListDiff: difference and symmetric difference of range lists. *)
From Coq Require Import List ZArith Bool Lia Sorted Permutation.
From Verif Require Import Base Books Data MVerse MRange Spec PList PCore PNav PVerse PRange
  PSetOps PSetSpec MSeq MList PSort SpecList PRegroup PMerge PListOps PMerge2.
Import ListNotations.
Import Spec.
Open Scope Z_scope.

Section Diff.
Variable e : env.
Notation d := (ed e).
Hypothesis Hwf : wf_data d.
Notation pos := (pos e).
Notation wft := (wf_range d true).
Variable fl : option flag.
Notation z := (zero_on e fl).
Hypothesis Hz : z = verse0 (eg e).
Notation wfz := (wf_range d z).

Definition within (x a : range) : Prop := pos (rstart a) <= pos (rstart x) /\ pos (rend x) <= pos (rend a).
Notation inside := (SpecList.inside d).
Definition size (r : range) : nat := Z.to_nat (pos (rend r) - pos (rstart r) + 1).
Fixpoint sizes (l : list range) : nat := match l with [] => O | r :: l' => (size r + sizes l')%nat end.
Lemma sizes_app : forall l m, sizes (l ++ m) = (sizes l + sizes m)%nat.
Proof. induction l as [|y l IHl]; intros m; cbn [app sizes]; [reflexivity|]. rewrite IHl. lia. Qed.

Lemma wfz_t : forall r, wfz r -> wft r.
Proof. intros r H. eapply (wf_range_mono e); eauto. Qed.
Lemma inside_pos : forall a b, wft a -> wft b -> (inside a b <-> within a b).
Proof.
  intros a b Ha Hb. unfold SpecList.inside, within. pose proof (contains_spec e Hwf b a Hb Ha) as H.
  rewrite (contains_pos e Hwf) in H by auto. rewrite andb_true_iff, !Z.leb_le in H. tauto.
Qed.
Lemma inside_dec : forall a b, wft a -> wft b -> inside a b \/ ~ inside a b.
Proof. intros a b Ha Hb. rewrite (inside_pos a b) by auto. unfold within. lia. Qed.

(** What the difference of two ranges consists of. *)
Definition piece (a b x : range) : Prop := wfz x /\ within x a /\ (joins e fl x b \/ joins e fl b x).
Lemma diff_struct : forall a b l, wfz a -> wfz b -> difference e a b fl = Ok l ->
  (~ overlap d a b /\ l = [a]) \/ (inside a b /\ l = []) \/
  (overlap d a b /\ ~ inside a b /\ l <> [] /\ Forall (piece a b) l /\ (sizes l <= size a)%nat).
Proof.
  intros a b l Ha Hb E. pose proof (wfz_t a Ha) as Ta. pose proof (wfz_t b Hb) as Tb.
  destruct (overlap_dec e Hwf a b Ta Tb) as [Ho|Ho].
  2:{ left. split; [exact Ho|]. rewrite (difference_disjoint e Hwf) in E by auto. congruence. }
  right. destruct (inside_dec a b Ta Tb) as [Hi|Hi].
  { left. split; [exact Hi|]. rewrite (difference_covered e Hwf) in E by auto. congruence. }
  right. split; [exact Ho|]. split; [exact Hi|].
  pose proof Ha as (A1 & A2 & _). pose proof Hb as (B1 & B2 & _).
  assert (Hto : track0 e fl (rstart b) = verse0 (eg e)) by (rewrite (zero_track e Hwf) by auto; exact Hz).
  destruct (sub_1 e Hwf (rstart b) fl (InB_mono e _ _ B1) Hto) as (op & Eop & Hop).
  destruct (add_1 e Hwf (rend b) fl (InB_mono e _ _ B2)) as (oq & Eoq & Hoq).
  rewrite (difference_exact e Hwf a b fl Hz Ha Hb Ho Hi op oq Eop Eoq) in E.
  destruct op as [p|]; [|discriminate].
  destruct oq as [q|]; [|destruct (negb _ && _); discriminate].
  destruct (negb _ && negb (book_eqb (vbook (rstart a)) (vbook p))); [discriminate|].
  destruct (negb _ && negb (book_eqb (vbook q) (vbook (rend a)))); [discriminate|]. injection E as <-.
  rewrite (zero_track e Hwf) in Hop, Hoq by auto. destruct Hop as (Fp & Mp). destruct Hoq as (Fq & Mq).
  pose proof (succ_in e _ _ _ Fp) as (Ip & _). pose proof (succ_in e _ _ _ Fq) as (_ & Iq).
  pose proof (succ_split e Hwf _ _ _ (rstart a) Fp A1) as (Sp & Lp).
  pose proof (succ_split e Hwf _ _ _ (rend a) Fq A2) as (Sq & Lq).
  pose proof Ta as Pa. apply (wf_range_pos e Hwf) in Pa. pose proof Tb as Pb. apply (wf_range_pos e Hwf) in Pb.
  apply (overlap_pos e Hwf) in Ho; auto. unfold disjb in Ho. rewrite orb_false_iff, !Z.ltb_ge in Ho.
  assert (Plow : pos (rstart a) < pos (rstart b) -> piece a b (R (rstart a) p)).
  { intros K. split; [apply (wf_range_pos e Hwf); cbn; repeat split; auto; lia|]. split; [unfold within; cbn; lia|].
    left. unfold joins. cbn. rewrite (zero_track e Hwf) by auto. split; [exact Fp|exact Mp]. }
  assert (Phi : pos (rend b) < pos (rend a) -> piece a b (R q (rend a))).
  { intros K. split; [apply (wf_range_pos e Hwf); cbn; repeat split; auto; lia|]. split; [unfold within; cbn; lia|].
    right. unfold joins. cbn. rewrite (zero_track e Hwf) by auto. split; [exact Fq|]. destruct Mq; auto. }
  rewrite inside_pos in Hi by auto. unfold within in Hi.
  destruct (pos (rstart a) <? pos (rstart b)) eqn:E1; destruct (pos (rend b) <? pos (rend a)) eqn:E2;
    rewrite ?Z.ltb_lt, ?Z.ltb_ge in *; cbn [app]; (split; [try discriminate; lia|]);
    (split; [repeat (apply Forall_cons || apply Forall_nil); auto|cbn [sizes]; unfold size; cbn [rstart rend]; lia]).
Qed.

Lemma InR_within : forall x a v, wft a -> within x a -> InR d v x -> InR d v a.
Proof. intros x a v Ha (H1 & H2) Hv. apply (InR_pos e Hwf) in Hv. apply (InR_wf e Hwf); auto. split; [tauto|lia]. Qed.

(** ** One node *)
Lemma inner_ok : forall bs cur c more, wfz cur -> Forall wfz bs -> diff_inner e fl cur bs = Ok (c, more) ->
  wfz c /\ Forall wfz more /\ within c cur /\ Forall (fun x => within x cur) more /\
  (size c + sizes more <= size cur)%nat /\
  (forall v, InB d z v -> InR d v cur -> ~ InL d v bs -> InR d v c \/ InL d v more).
Proof.
  induction bs as [|b bs IH]; intros cur c more Hc Hb E; cbn [diff_inner] in E.
  - injection E as <- <-. split; [exact Hc|]. split; [constructor|]. split; [unfold within; lia|]. split; [constructor|].
    split; [cbn [sizes]; lia|auto].
  - inversion Hb as [|? ? B1 B2]; subst. destruct (difference e cur b fl) as [ds|] eqn:Ed; [|discriminate]. cbn [bind] in E.
    destruct (diff_struct cur b ds Hc B1 Ed) as [(Hn & ->)|[(Hi & ->)|(Ho & Hi & Hne & Hp & Hs)]].
    + destruct (diff_inner e fl cur bs) as [[c' m']|] eqn:Ei; [|discriminate]. cbn in E. injection E as <- <-.
      rewrite app_nil_r. destruct (IH cur c' m' Hc B2 Ei) as (W1 & W2 & W3 & W4 & W5 & W6).
      do 2 (split; [assumption|]). split; [exact W3|]. do 2 (split; [assumption|]). intros v Hv Hcv Hnb. apply W6; auto. intros K. apply Hnb. apply InL_cons. now right.
    + destruct (IH cur c more Hc B2 E) as (W1 & W2 & W3 & W4 & W5 & W6).
      do 2 (split; [assumption|]). split; [exact W3|]. do 2 (split; [assumption|]). intros v Hv Hcv Hnb. apply W6; auto. intros K. apply Hnb. apply InL_cons. now right.
    + destruct ds as [|x ds]; [congruence|]. destruct (diff_inner e fl x bs) as [[c' m']|] eqn:Ei; [|discriminate].
      cbn in E. injection E as <- <-. inversion Hp as [|? ? P1 P2]; subst. destruct P1 as (Wx & Nx & _).
      destruct (IH x c' m' Wx B2 Ei) as (W1 & W2 & W3 & W4 & W5 & W6).
      split; [exact W1|]. split; [apply Forall_app; split; [exact W2|eapply Forall_impl; [|exact P2]; intros y Hy; apply Hy]|].
      split; [unfold within in *; lia|]. split.
      { apply Forall_app. split; [eapply Forall_impl; [|exact W4]; intros y (K1 & K2); destruct Nx; split; lia|].
        eapply Forall_impl; [|exact P2]. intros y Hy. apply Hy. }
      split.
      { rewrite sizes_app. cbn [sizes] in Hs. lia. }
      intros v Hv Hcv Hnb. rewrite InL_app.
      assert (Hd : InL d v (x :: ds)).
      { apply (difference_sound e Hwf cur b fl (x :: ds) v Hz Hc B1 Ed Hv). split; [exact Hcv|]. intros K. apply Hnb. apply InL_cons. now left. }
      apply InL_cons in Hd. destruct Hd as [Hd|Hd]; [|tauto].
      destruct (W6 v Hv Hd) as [K|K]; [|tauto|tauto]. intros K. apply Hnb. apply InL_cons. now right.
Qed.

Notation spread := (SpecList.spread e fl).
Notation stuck := (inside_one d).

Lemma piece_free : forall bs a b x, Forall wfz bs -> spread bs -> In b bs -> wfz a -> piece a b x -> ~ stuck bs x.
Proof.
  intros bs a b x Hbs Hsp Hb Ha (Wx & Nx & Hj) (b' & Hb' & Hin).
  rewrite Forall_forall in Hbs. pose proof (wfz_t _ (Hbs b Hb)) as Tb. pose proof (wfz_t _ (Hbs b' Hb')) as Tb'.
  pose proof (wfz_t _ Wx) as Tx. apply inside_pos in Hin; auto. destruct Hin as (I1 & I2).
  pose proof Tx as Px. apply (wf_range_pos e Hwf) in Px. pose proof Tb as Pb. apply (wf_range_pos e Hwf) in Pb.
  assert (Hdis : pos (rend x) < pos (rstart b) \/ pos (rend b) < pos (rstart x)).
  { destruct Hj as [J|J]; apply (joins_lt e Hwf) in J; auto. }
  destruct (Hsp b b' Hb Hb') as [->|Hn]; [lia|]. apply Hn. apply touching_sym.
  (* [b'] contains the piece, so it joins or overlaps [b] *)
  destruct (overlap_dec e Hwf b' b Tb' Tb) as [Ho|Ho]; [now left|].
  assert (Hd : disjb e b' b = true).
  { destruct (disjb e b' b) eqn:E; [reflexivity|]. exfalso. apply Ho. apply (overlap_pos e Hwf); auto. }
  unfold disjb in Hd. apply orb_true_iff in Hd. rewrite !Z.ltb_lt in Hd.
  destruct (Hbs b Hb) as (B1 & B2 & _). destruct (Hbs b' Hb') as (C1 & C2 & _). destruct Wx as (X1 & X2 & _).
  destruct Hj as [J|J].
  - right. left. pose proof J as (F & _). rewrite (zero_track e Hwf) in F by exact X2.
    pose proof (succ_split e Hwf _ _ _ (rend b') F C2) as (S1 & S2).
    assert (Eb : rend b' = rend x) by (apply (pos_eq e); try (eapply (InB_mono e); eassumption); lia).
    unfold joins in *. rewrite Eb. exact J.
  - right. right. pose proof J as (F & _). rewrite (zero_track e Hwf) in F by exact B2.
    pose proof (succ_split e Hwf _ _ _ (rstart b') F C1) as (S1 & S2).
    unfold joins in *. replace (rstart b') with (rstart x); [exact J|].
    apply (pos_eq e); try (eapply (InB_mono e); eassumption); lia.
Qed.

Lemma inner_free : forall others bs cur c more, Forall wfz others -> spread others -> (forall b, In b bs -> In b others) ->
  wfz cur -> ~ stuck others cur -> diff_inner e fl cur bs = Ok (c, more) ->
  ~ stuck others c /\ Forall (fun x => ~ stuck others x) more /\ (forall b, In b bs -> ~ overlap d c b).
Proof.
  intros others. induction bs as [|b bs IH]; intros cur c more Ho Hsp Hin Hc Hst E; cbn [diff_inner] in E.
  - injection E as <- <-. split; [exact Hst|]. split; [constructor|intros b []].
  - assert (Bo : In b others) by (apply Hin; now left).
    assert (Hwo : forall b, In b others -> wfz b) by (now apply Forall_forall).
    assert (Hbw : Forall wfz bs) by (apply Forall_forall; intros y Hy; apply Hwo; apply Hin; now right).
    assert (Hin' : forall b, In b bs -> In b others) by (intros y Hy; apply Hin; now right).
    destruct (difference e cur b fl) as [ds|] eqn:Ed; [|discriminate]. cbn [bind] in E.
    destruct (diff_struct cur b ds Hc (Hwo b Bo) Ed) as [(Hn & ->)|[(Hi & ->)|(Hov & Hi & Hne & Hp & Hs)]].
    + destruct (diff_inner e fl cur bs) as [[c' m']|] eqn:Ei; [|discriminate]. cbn in E. injection E as <- <-.
      rewrite app_nil_r. destruct (IH cur c' m' Ho Hsp Hin' Hc Hst Ei) as (S1 & S2 & S3).
      destruct (inner_ok bs cur c' m' Hc Hbw Ei) as (W1 & W2 & W3 & _).
      split; [exact S1|]. split; [exact S2|]. intros y [<-|Hy]; [|now apply S3].
      intros (v & V1 & V2). apply Hn. exists v. split; [eapply InR_within; [now apply wfz_t|exact W3|exact V1]|exact V2].
    + exfalso. apply Hst. exists b. auto.
    + destruct ds as [|x ds]; [congruence|]. destruct (diff_inner e fl x bs) as [[c' m']|] eqn:Ei; [|discriminate].
      cbn in E. injection E as <- <-. inversion Hp as [|? ? P1 P2]; subst.
      assert (Hfree : forall y, piece cur b y -> ~ stuck others y) by (intros y Hy; eapply piece_free; eauto).
      destruct (IH x c' m' Ho Hsp Hin' (proj1 P1) (Hfree x P1) Ei) as (S1 & S2 & S3).
      destruct (inner_ok bs x c' m' (proj1 P1) Hbw Ei) as (W1 & W2 & W3 & _).
      split; [exact S1|]. split.
      { apply Forall_app. split; [exact S2|]. eapply Forall_impl; [|exact P2]. exact Hfree. }
      intros y [<-|Hy]; [|now apply S3]. intros (v & V1 & V2).
      assert (Vx : InR d v x) by (eapply InR_within; [apply wfz_t; apply P1|exact W3|exact V1]).
      destruct P1 as (_ & _ & [J|J]); apply (joins_lt e Hwf) in J; apply (InR_pos e Hwf) in Vx, V2; lia.
Qed.

Lemma inner_stuck : forall others bs cur, Forall wfz others -> spread others -> (forall b, In b bs -> In b others) ->
  wfz cur -> stuck others cur -> diff_inner e fl cur bs = Ok (cur, []).
Proof.
  intros others. induction bs as [|b bs IH]; intros cur Ho Hsp Hin Hc (b0 & Hb0 & Hi0); cbn [diff_inner]; [reflexivity|].
  assert (Bo : In b others) by (apply Hin; now left).
  rewrite Forall_forall in Ho. pose proof (wfz_t _ (Ho b Bo)) as Tb. pose proof (wfz_t _ Hc) as Tc.
  assert (IH' : diff_inner e fl cur bs = Ok (cur, [])).
  { apply IH; auto; [now apply Forall_forall|intros y Hy; apply Hin; now right|exists b0; auto]. }
  destruct (Hsp b b0 Bo Hb0) as [->|Hn].
  - rewrite (difference_covered e Hwf) by auto. cbn [bind]. exact IH'.
  - rewrite (difference_disjoint e Hwf) by (auto; intros (v & V1 & V2); apply Hn; left; exists v; auto). cbn [bind].
    rewrite IH'. reflexivity.
Qed.

Lemma stuck_dec : forall bs a, Forall wfz bs -> wfz a -> stuck bs a \/ ~ stuck bs a.
Proof.
  intros bs a Hb Ha. induction Hb as [|b bs Hb Hbs IH]; [right; intros (b & [] & _)|].
  destruct (inside_dec a b (wfz_t _ Ha) (wfz_t _ Hb)) as [H|H]; [left; exists b; split; [now left|auto]|].
  destruct IH as [(b' & H1 & H2)|IH]; [left; exists b'; split; [now right|auto]|].
  right. intros (b' & [<-|H1] & H2); [auto|]. apply IH. exists b'. auto.
Qed.

(** ** The loop over the nodes *)
Lemma size_pos : forall r, wfz r -> (1 <= size r)%nat.
Proof. intros r H. apply wfz_t in H. apply (wf_range_pos e Hwf) in H. unfold size. lia. Qed.

Lemma difference_no_diverge : forall a b, wfz a -> wfz b -> difference e a b fl <> Err Diverge.
Proof.
  intros a b Ha Hb. pose proof (wfz_t a Ha) as Ta. pose proof (wfz_t b Hb) as Tb.
  destruct (overlap_dec e Hwf a b Ta Tb) as [Ho|Ho]; [|now rewrite (difference_disjoint e Hwf) by auto].
  destruct (inside_dec a b Ta Tb) as [Hi|Hi]; [now rewrite (difference_covered e Hwf) by auto|].
  pose proof Ha as (A1 & A2 & _). pose proof Hb as (B1 & B2 & _).
  assert (Hto : track0 e fl (rstart b) = verse0 (eg e)) by (rewrite (zero_track e Hwf) by auto; exact Hz).
  destruct (sub_1 e Hwf (rstart b) fl (InB_mono e _ _ B1) Hto) as (op & Eop & _).
  destruct (add_1 e Hwf (rend b) fl (InB_mono e _ _ B2)) as (oq & Eoq & _).
  rewrite (difference_exact e Hwf a b fl Hz Ha Hb Ho Hi op oq Eop Eoq).
  destruct op, oq; repeat (match goal with |- context [if ?c then _ else _] => destruct c end); discriminate.
Qed.
Lemma inner_no_diverge : forall bs cur, wfz cur -> Forall wfz bs -> diff_inner e fl cur bs <> Err Diverge.
Proof.
  induction bs as [|b bs IH]; intros cur Hc Hb; cbn [diff_inner]; [discriminate|].
  inversion Hb as [|? ? B1 B2]; subst. pose proof (difference_no_diverge cur b Hc B1) as Hd.
  destruct (difference e cur b fl) as [ds|] eqn:Ed; cbn [bind]; [|congruence].
  destruct ds as [|x ds]; [now apply IH|].
  assert (Wx : wfz x).
  { destruct (diff_struct cur b _ Hc B1 Ed) as [(_ & [= -> ->])|[(_ & ?)|(_ & _ & _ & Hp & _)]]; [exact Hc|discriminate|].
    inversion Hp as [|? ? P _]; subst. apply P. }
  pose proof (IH x Wx B2). destruct (diff_inner e fl x bs); cbn [bind]; [discriminate|congruence].
Qed.

Lemma diff_loop_fuel : forall others, Forall wfz others -> forall n todo, Forall wfz todo -> (sizes todo <= n)%nat ->
  diff_loop e fl others n todo <> Err Diverge /\
  forall n', (sizes todo <= n')%nat -> diff_loop e fl others n' todo = diff_loop e fl others n todo.
Proof.
  intros others Ho. induction n as [|n IH]; intros todo Ht Hs.
  - destruct todo as [|x todo]; [|exfalso; inversion Ht; subst; pose proof (size_pos x); cbn [sizes] in Hs; intuition lia].
    split; [discriminate|]. intros [|n'] _; reflexivity.
  - destruct todo as [|x rest]; [split; [discriminate|intros [|n'] _; reflexivity]|].
    inversion Ht as [|? ? T1 T2]; subst. pose proof (size_pos x T1) as Hx. cbn [sizes] in Hs.
    cbn [diff_loop]. pose proof (inner_no_diverge others x T1 Ho) as Hnd.
    destruct (diff_inner e fl x others) as [[c more]|] eqn:Ei; cbn [bind fst snd].
    + destruct (inner_ok others x c more T1 Ho Ei) as (W1 & W2 & W3 & W4 & W5 & _). pose proof (size_pos c W1).
      assert (Hf : Forall wfz (more ++ rest)) by (apply Forall_app; auto).
      assert (Hsz : (sizes (more ++ rest) <= n)%nat) by (rewrite sizes_app; lia).
      destruct (IH (more ++ rest) Hf Hsz) as (D1 & D2). split.
      * destruct (diff_loop e fl others n (more ++ rest)); cbn [bind]; [discriminate|congruence].
      * intros n' Hn'. cbn [sizes] in Hn'. destruct n' as [|n']; [lia|].
        cbn [diff_loop]. rewrite Ei. cbn [bind fst snd]. rewrite (D2 n'); [reflexivity|rewrite sizes_app; lia].
    + split; [congruence|]. intros n' Hn'. destruct n' as [|n']; [cbn [sizes] in Hn'; lia|]. cbn [diff_loop]. now rewrite Ei.
Qed.

Lemma diff_loop_between : forall others, Forall wfz others -> forall n todo ds, Forall wfz todo ->
  diff_loop e fl others n todo = Ok ds ->
  Forall wfz ds /\ (forall v, InB d z v -> InL d v ds -> InL d v todo) /\
  (forall v, InB d z v -> InL d v todo -> ~ InL d v others -> InL d v ds).
Proof.
  intros others Ho. induction n as [|n IH]; intros todo ds Ht E.
  - destruct todo; [|discriminate]. injection E as <-. repeat split; auto.
  - destruct todo as [|x rest]; [injection E as <-; repeat split; auto|]. cbn [diff_loop] in E.
    inversion Ht as [|? ? T1 T2]; subst. destruct (diff_inner e fl x others) as [[c more]|] eqn:Ei; [|discriminate].
    cbn [bind fst snd] in E. destruct (diff_loop e fl others n (more ++ rest)) as [ds'|] eqn:El; [|discriminate].
    cbn in E. injection E as <-. destruct (inner_ok others x c more T1 Ho Ei) as (W1 & W2 & W3 & W4 & W5 & W6).
    destruct (IH (more ++ rest) ds') as (L1 & L2 & L3); auto; [apply Forall_app; auto|].
    split; [now constructor|]. split.
    + intros v Hv H. apply InL_cons in H. apply InL_cons. destruct H as [H|H].
      * left. eapply InR_within; [now apply wfz_t|exact W3|exact H].
      * apply L2 in H; auto. apply InL_app in H. destruct H as [(y & Hy & H)|H]; [|now right].
        left. rewrite Forall_forall in W4. eapply InR_within; [now apply wfz_t|apply W4; exact Hy|exact H].
    + intros v Hv H Hn. apply InL_cons in H. apply InL_cons. destruct H as [H|H].
      * destruct (W6 v Hv H Hn) as [K|K]; [now left|right]. apply L3; auto. apply InL_app. now left.
      * right. apply L3; auto. apply InL_app. now right.
Qed.

Lemma diff_loop_exact : forall others, Forall wfz others -> spread others -> forall n todo ds, Forall wfz todo ->
  diff_loop e fl others n todo = Ok ds ->
  forall v, InB d z v ->
    (InL d v ds <-> exists a, In a todo /\ InR d v a /\ (stuck others a \/ ~ InL d v others)).
Proof.
  intros others Ho Hsp. induction n as [|n IH]; intros todo ds Ht E v Hv.
  - destruct todo; [|discriminate]. injection E as <-. split; [intros H; now apply InL_nil in H|intros (a & [] & _)].
  - destruct todo as [|x rest].
    { injection E as <-. split; [intros H; now apply InL_nil in H|intros (a & [] & _)]. }
    cbn [diff_loop] in E. inversion Ht as [|? ? T1 T2]; subst.
    destruct (diff_inner e fl x others) as [[c more]|] eqn:Ei; [|discriminate].
    cbn [bind fst snd] in E. destruct (diff_loop e fl others n (more ++ rest)) as [ds'|] eqn:El; [|discriminate].
    cbn in E. injection E as <-. destruct (inner_ok others x c more T1 Ho Ei) as (W1 & W2 & W3 & W4 & W5 & W6).
    specialize (IH (more ++ rest) ds' ltac:(apply Forall_app; auto) El v Hv). rewrite InL_cons, IH. clear IH.
    destruct (stuck_dec others x Ho T1) as [Hst|Hst].
    + rewrite (inner_stuck others others x Ho Hsp ltac:(auto) T1 Hst) in Ei. injection Ei as <- <-. cbn [app]. split.
      * intros [H|(a & Ha & H)]; [exists x; split; [now left|auto]|exists a; split; [now right|auto]].
      * intros (a & [<-|Ha] & H1 & H2); [now left|right; exists a; auto].
    + destruct (inner_free others others x c more Ho Hsp ltac:(auto) T1 Hst Ei) as (S1 & S2 & S3). split.
      * intros [H|(a & Ha & H1 & H2)].
        -- exists x. split; [now left|]. split; [eapply InR_within; [now apply wfz_t|exact W3|exact H]|].
           right. intros (b & Hb & Ib). apply (S3 b Hb). exists v. auto.
        -- apply in_app_or in Ha. destruct Ha as [Ha|Ha]; [|exists a; split; [now right|auto]].
           exists x. split; [now left|]. rewrite Forall_forall in S2, W4. split; [eapply InR_within; [now apply wfz_t|exact (W4 a Ha)|exact H1]|].
           destruct H2 as [H2|H2]; [exfalso; now apply (S2 a Ha)|now right].
      * intros (a & [<-|Ha] & H1 & H2); [|right; exists a; split; [apply in_or_app; now right|auto]].
        destruct H2 as [H2|H2]; [contradiction|]. destruct (W6 v Hv H1 H2) as [K|(y & Hy & K)]; [now left|right].
        exists y. split; [apply in_or_app; now left|auto].
Qed.

(** ** When it succeeds *)
Notation interior := (SpecList.interior e fl).
Notation bookwise := (SpecList.bookwise e fl).

Lemma difference_total : forall a b, wfz a -> wfz b -> interior [b] -> bookwise [a] ->
  exists l, difference e a b fl = Ok l /\ bookwise l.
Proof.
  intros a b Ha Hb Hi Hbw. pose proof (wfz_t a Ha) as Ta. pose proof (wfz_t b Hb) as Tb.
  destruct (overlap_dec e Hwf a b Ta Tb) as [Ho|Ho].
  2:{ rewrite (difference_disjoint e Hwf) by auto. exists [a]. auto. }
  destruct (inside_dec a b Ta Tb) as [Hin|Hin].
  { rewrite (difference_covered e Hwf) by auto. exists []. split; [reflexivity|right; constructor]. }
  destruct (Hi b (or_introl eq_refl)) as (p & q & Fp & Fq & Hc).
  assert (Hcond : multi_on e fl = true /\ multibook (eg e) = true \/
     vbook p = vbook (rstart b) /\ vbook q = vbook (rend b) /\ vbook (rstart a) = vbook p /\ vbook (rend a) = vbook q).
  { destruct Hc as [Hc|(C1 & C2 & C3)]; [now left|]. destruct Hbw as [Hbw|Hbw]; [now left|right].
    inversion Hbw as [|? ? Oa _]; subst. destruct Ho as (v & V1 & V2).
    assert (Ea : vbook v = vbook (rstart a)) by (apply (one_book_in e Hwf a); auto; now apply (InR_start e Hwf)).
    assert (Eb : vbook v = vbook (rstart b)) by (apply (one_book_in e Hwf b); auto; now apply (InR_start e Hwf)).
    unfold one_book_range in *. repeat split; congruence. }
  destruct (difference_succeeds e Hwf a b fl p q Hz Ha Hb Fp Fq Hcond) as (l & E). exists l. split; [exact E|].
  destruct Hbw as [Hbw|Hbw]; [now left|right]. inversion Hbw as [|? ? Oa _]; subst.
  destruct (diff_struct a b l Ha Hb E) as [(_ & ->)|[(_ & ->)|(_ & _ & _ & Hp & _)]]; auto.
  eapply Forall_impl; [|exact Hp]. intros x (Wx & Nx & _). apply wfz_t in Wx.
  apply (one_book_in e Hwf a); auto; apply (InR_within x a); auto; [now apply (InR_start e Hwf)|now apply (InR_end e Hwf)].
Qed.
Lemma bookwise_cons : forall x l, bookwise (x :: l) <-> bookwise [x] /\ bookwise l.
Proof.
  intros x l. unfold SpecList.bookwise. split.
  - intros [H|H]; [auto|]. inversion H; subst. split; right; auto.
  - intros ([H|H] & [H'|H']); auto. right. inversion H; subst. now constructor.
Qed.
Lemma bookwise_app : forall l m, bookwise (l ++ m) <-> bookwise l /\ bookwise m.
Proof.
  induction l as [|x l IH]; intros m; cbn [app].
  - split; [intros H; split; [right; constructor|exact H]|tauto].
  - rewrite (bookwise_cons x (l ++ m)), IH, (bookwise_cons x l). tauto.
Qed.
Lemma inner_total : forall bs cur, wfz cur -> Forall wfz bs -> interior bs -> bookwise [cur] ->
  exists c more, diff_inner e fl cur bs = Ok (c, more) /\ bookwise (c :: more).
Proof.
  induction bs as [|b bs IH]; intros cur Hc Hb Hi Hbw; cbn [diff_inner]; [eexists; eexists; split; [reflexivity|exact Hbw]|].
  inversion Hb as [|? ? B1 B2]; subst.
  assert (Hi' : interior bs) by (intros y Hy; apply Hi; now right).
  destruct (difference_total cur b Hc B1) as (ds & Ed & Bd); auto; [intros y [<-|[]]; apply Hi; now left|].
  rewrite Ed. cbn [bind]. destruct ds as [|x ds]; [now apply IH|].
  assert (Wx : wfz x).
  { destruct (diff_struct cur b _ Hc B1 Ed) as [(_ & [= -> ->])|[(_ & ?)|(_ & _ & _ & Hp & _)]]; [exact Hc|discriminate|].
    inversion Hp as [|? ? P _]; subst. apply P. }
  apply bookwise_cons in Bd. destruct Bd as (Bx & Bds). destruct (IH x Wx B2 Hi' Bx) as (c & more & E & B). rewrite E. cbn [bind fst snd].
  eexists; eexists. split; [reflexivity|]. apply bookwise_cons in B. apply bookwise_cons. rewrite bookwise_app. tauto.
Qed.
Lemma diff_loop_total : forall others, Forall wfz others -> interior others -> forall n todo, Forall wfz todo -> bookwise todo ->
  (sizes todo <= n)%nat -> exists ds, diff_loop e fl others n todo = Ok ds /\ bookwise ds.
Proof.
  intros others Ho Hi. induction n as [|n IH]; intros todo Ht Hb Hs.
  - destruct todo as [|x todo]; [exists []; split; [reflexivity|right; constructor]|].
    exfalso. inversion Ht; subst; pose proof (size_pos x). cbn [sizes] in Hs. intuition lia.
  - destruct todo as [|x rest]; [exists []; split; [reflexivity|right; constructor]|].
    inversion Ht as [|? ? T1 T2]; subst. apply bookwise_cons in Hb. destruct Hb as (Bx & Br).
    destruct (inner_total others x T1 Ho Hi Bx) as (c & more & Ei & Bc).
    destruct (inner_ok others x c more T1 Ho Ei) as (W1 & W2 & W3 & W4 & W5 & _). pose proof (size_pos c W1).
    apply bookwise_cons in Bc. destruct Bc as (Bc & Bm).
    destruct (IH (more ++ rest)) as (ds & E & B); [apply Forall_app; auto|now apply bookwise_app|rewrite sizes_app; cbn [sizes] in Hs; lia|].
    cbn [diff_loop]. rewrite Ei. cbn [bind fst snd]. rewrite E. cbn [bind]. eexists. split; [reflexivity|]. now apply bookwise_cons.
Qed.

(** ** difference_update *)
Lemma zero_none : zero_on e None = z.
Proof. rewrite Hz. reflexivity. Qed.
Lemma multi_none : multi_on e None = multibook (eg e).
Proof. reflexivity. Qed.

Definition settled (g : rlist) : Prop :=
  nonempty_groups g /\ regroup e None g = Ok g /\ Forall wfz (items g) /\ canonical e None (items g).

Lemma difference_update_ok : forall n l x g, Forall wfz (items l) -> Forall wfz (ref_list x) ->
  difference_update e n l x fl = Ok g ->
  settled g /\
  (forall v, InB d z v -> InL d v (items g) -> InL d v (items l)) /\
  (forall v, InB d z v -> InL d v (items l) -> ~ InL d v (ref_list x) -> InL d v (items g)) /\
  (spread (ref_list x) -> forall v, InB d z v ->
    (InL d v (items g) <-> exists a, In a (items l) /\ InR d v a /\ (stuck (ref_list x) a \/ ~ InL d v (ref_list x)))).
Proof.
  intros n l x g Hl Hx E. unfold difference_update in E.
  assert (Tx : Forall wft (ref_list x)) by (eapply Forall_impl; [|exact Hx]; exact wfz_t).
  rewrite (ref_ranges_ok e Hwf) in E by auto. cbn [bind] in E.
  destruct (diff_loop e fl (ref_list x) n (items l)) as [ds|] eqn:Ed; [|discriminate]. cbn [bind] in E.
  destruct (diff_loop_between _ Hx n (items l) ds Hl Ed) as (W & B1 & B2).
  assert (Tw : Forall wft ds) by (eapply Forall_impl; [|exact W]; exact wfz_t).
  destruct (merge_any e Hwf None (one_group ds)) as [(g' & Eg & G1 & G2 & G3 & G4 & G5 & _)|(Eg & _)];
    rewrite ?items_one_group in *; auto; [|congruence].
  assert (g' = g) by congruence. subst g'. rewrite zero_none in G5.
  split; [split; [exact G1|]; split; [exact G2|]; split; [now apply G3|exact G4]|]. split.
  { intros v Hv H. apply B1; auto. now apply G5. }
  split.
  { intros v Hv H Hn. apply G5; auto. }
  intros Hsp v Hv. rewrite (G5 v Hv). now apply (diff_loop_exact _ Hx Hsp n (items l) ds Hl Ed).
Qed.
Lemma difference_update_fuel : forall l x, Forall wfz (items l) -> Forall wfz (ref_list x) ->
  exists n, difference_update e n l x fl <> Err Diverge /\
    forall n', (n <= n')%nat -> difference_update e n' l x fl = difference_update e n l x fl.
Proof.
  intros l x Hl Hx. exists (sizes (items l)). unfold difference_update.
  assert (Tx : Forall wft (ref_list x)) by (eapply Forall_impl; [|exact Hx]; exact wfz_t).
  rewrite (ref_ranges_ok e Hwf) by auto. cbn [bind].
  destruct (diff_loop_fuel _ Hx (sizes (items l)) (items l) Hl (Nat.le_refl _)) as (D1 & D2). split.
  - destruct (diff_loop e fl (ref_list x) (sizes (items l)) (items l)) as [ds|] eqn:Ed; cbn [bind]; [|congruence].
    destruct (diff_loop_between _ Hx _ (items l) ds Hl Ed) as (W & _).
    destruct (merge_any e Hwf None (one_group ds)) as [(g' & Eg & _)|(Eg & _)]; rewrite ?items_one_group; try congruence.
    eapply Forall_impl; [|exact W]. exact wfz_t.
  - intros n' Hn. rewrite (D2 n') by lia. reflexivity.
Qed.
Lemma difference_update_total : forall l x, Forall wfz (items l) -> Forall wfz (ref_list x) ->
  interior (ref_list x) -> bookwise (items l) ->
  exists n g, forall n', (n <= n')%nat -> difference_update e n' l x fl = Ok g.
Proof.
  intros l x Hl Hx Hi Hb. exists (sizes (items l)).
  assert (Tx : Forall wft (ref_list x)) by (eapply Forall_impl; [|exact Hx]; exact wfz_t).
  destruct (diff_loop_total _ Hx Hi (sizes (items l)) (items l) Hl Hb (Nat.le_refl _)) as (ds & Ed & Bd).
  destruct (diff_loop_between _ Hx _ (items l) ds Hl Ed) as (W & _).
  assert (Tw : Forall wft ds) by (eapply Forall_impl; [|exact W]; exact wfz_t).
  destruct (merge_any e Hwf None (one_group ds)) as [(g & Eg & _)|(Eg & Hc)]; rewrite ?items_one_group in *; auto.
  - exists g. intros n' Hn. unfold difference_update. rewrite (ref_ranges_ok e Hwf) by auto. cbn [bind].
    destruct (diff_loop_fuel _ Hx (sizes (items l)) (items l) Hl (Nat.le_refl _)) as (_ & D2).
    rewrite (D2 n') by lia. rewrite Ed. cbn [bind]. exact Eg.
  - exfalso. eapply mergeable_no_clash; [|exact Hc]. destruct Bd as [(_ & K)|K]; [left; exact K|now right].
Qed.
Lemma difference_copy : forall n l x, l_difference e n l x fl = difference_update e n l x fl.
Proof.
  intros n l x. unfold l_difference, difference_update. now rewrite items_copy.
Qed.

(** ** Symmetric difference *)
Lemma separate_apart : forall a b, wft a -> wft b -> separate e fl a b -> ~ touching e fl a b.
Proof.
  intros a b Ha Hb (Hlt & Hj). apply (vlt_pos e Hwf) in Hlt. apply (wf_range_pos e Hwf) in Ha, Hb.
  intros [(v & V1 & V2)|[J|J]]; [|now apply Hj|].
  - apply (InR_pos e Hwf) in V1, V2. lia.
  - apply (joins_lt e Hwf) in J. lia.
Qed.
Lemma canonical_spread : forall l, Forall wft l -> canonical e fl l -> spread l.
Proof.
  intros l Hw Hc. induction Hc as [|a l Hc IH Ha]; [intros b b' []|].
  inversion Hw as [|? ? Wa Wl]; subst. rewrite Forall_forall in *.
  intros b b' [<-|Hb] [<-|Hb']; [now left| | |apply IH; auto].
  - right. apply separate_apart; auto.
  - right. intros T. apply touching_sym in T. revert T. apply separate_apart; auto.
Qed.

Lemma sym_difference_ok : forall n l x g, Forall wfz (items l) -> Forall wfz (ref_list x) ->
  mergeable e fl (items l ++ ref_list x) -> l_sym_difference e n l x fl = Ok g ->
  exists gu gi, l_union e l x fl = Ok gu /\ l_intersection e l x fl = Ok gi /\
  merged e fl (items l ++ ref_list x) gu /\ settled g /\ canonical e fl (items gi) /\ Forall wfz (items gi) /\
  (forall v, InB d z v -> (InL d v (items gi) <-> InL d v (items l) /\ InL d v (ref_list x))) /\
  forall v, InB d z v ->
    (InL d v (items g) <->
     ((InL d v (items l) /\ ~ InL d v (ref_list x)) \/ (InL d v (ref_list x) /\ ~ InL d v (items l))) \/
     exists c, In c (items gu) /\ InR d v c /\ stuck (items gi) c).
Proof.
  intros n l x g Hl Hx Hm E. unfold l_sym_difference in E.
  assert (Tx : Forall wft (ref_list x)) by (eapply Forall_impl; [|exact Hx]; exact wfz_t).
  assert (Tl : Forall wft (items l)) by (eapply Forall_impl; [|exact Hl]; exact wfz_t).
  rewrite (ref_ranges_ok e Hwf) in E by auto. cbn [bind] in E.
  set (y := BL (list_of_items (ref_list x))) in *.
  assert (Ey : ref_list y = ref_list x) by (unfold y; cbn; apply items_of_items).
  assert (Rx : forall r, Forall wft (ref_list r) -> ref_ranges e r = Ok (ref_list r)) by (intros; now apply (ref_ranges_ok e Hwf)).
  assert (Eu : l_union e l y fl = l_union e l x fl).
  { unfold l_union, union_update. rewrite !Rx by (rewrite ?Ey; auto). now rewrite Ey. }
  assert (Ei : l_intersection e l y fl = l_intersection e l x fl).
  { unfold l_intersection. rewrite !Rx by (rewrite ?Ey; auto). now rewrite Ey. }
  rewrite Eu, Ei in E.
  destruct (union_ok e Hwf fl l x) as (gu & _ & EU & MU); [now apply Forall_app|exact Hm|].
  rewrite EU in E. cbn [bind] in E.
  destruct (l_intersection e l x fl) as [gi|] eqn:EI; [|discriminate]. cbn [bind] in E.
  rewrite difference_copy in E.
  assert (Hmeets : SpecList.meets_ok e fl (items l) (ref_list x)).
  { apply (meets_ok_mergeable e Hwf); auto. eapply (mergeable_incl e); [|exact Hm]. intros r Hr. apply in_or_app. now left. }
  destruct (intersection_ok e Hwf fl l x Tl Tx Hmeets) as (gi' & ms & EI' & MI & WI & VI).
  assert (gi' = gi) by congruence. subst gi'. pose proof MU as (_ & _ & U3 & _ & _ & U6). destruct MI as (_ & _ & I3 & _ & I5 & I6).
  assert (Wu : Forall wfz (items gu)) by (apply U3; now apply Forall_app).
  assert (Wi : Forall wfz (items gi)) by (apply I3; now apply WI).
  destruct (difference_update_ok n gu (BL gi) g Wu Wi E) as (S & _ & _ & X). cbn [ref_list] in X.
  assert (Vi : forall v, InB d z v -> (InL d v (items gi) <-> InL d v (items l) /\ InL d v (ref_list x))).
  { intros v Hv. rewrite (I6 v Hv). apply VI. }
  exists gu, gi. split; [exact EU|]. split; [reflexivity|]. split; [exact MU|]. split; [exact S|].
  split; [exact I5|]. split; [exact Wi|]. split; [exact Vi|]. intros v Hv.
  rewrite X; auto.
  2:{ apply canonical_spread; [|exact I5]. eapply Forall_impl; [exact wfz_t|exact Wi]. }
  specialize (Vi v Hv). specialize (U6 v Hv). rewrite InL_app in U6.
  assert (Dec : InL d v (items gi) \/ ~ InL d v (items gi)) by (apply (InL_dec e Hwf); eapply Forall_impl; [|exact Wi]; exact wfz_t).
  split.
  - intros (a & Ha & Hva & [Hs|Hn]); [right; exists a; auto|left].
    assert (InL d v (items gu)) by (exists a; auto). tauto.
  - intros [H|(c & Hc & Hvc & Hs)]; [|exists c; auto].
    assert (Hu : InL d v (items gu)) by tauto. destruct Hu as (a & Ha & Hva). exists a. split; [exact Ha|]. split; [exact Hva|].
    right. tauto.
Qed.
Lemma sym_difference_total : forall l x, Forall wfz (items l) -> Forall wfz (ref_list x) ->
  mergeable e fl (items l ++ ref_list x) -> multi_on e fl = multibook (eg e) ->
  (forall gi, l_intersection e l x fl = Ok gi -> interior (items gi)) ->
  exists n g, forall n', (n <= n')%nat -> l_sym_difference e n' l x fl = Ok g.
Proof.
  intros l x Hl Hx Hm Hm0 Hint.
  assert (Tx : Forall wft (ref_list x)) by (eapply Forall_impl; [|exact Hx]; exact wfz_t).
  assert (Tl : Forall wft (items l)) by (eapply Forall_impl; [|exact Hl]; exact wfz_t).
  set (y := BL (list_of_items (ref_list x))).
  assert (Ey : ref_list y = ref_list x) by (unfold y; cbn; apply items_of_items).
  assert (Rx : forall r, Forall wft (ref_list r) -> ref_ranges e r = Ok (ref_list r)) by (intros; now apply (ref_ranges_ok e Hwf)).
  assert (Eu : l_union e l y fl = l_union e l x fl).
  { unfold l_union, union_update. rewrite !Rx by (rewrite ?Ey; auto). now rewrite Ey. }
  assert (Ei : l_intersection e l y fl = l_intersection e l x fl).
  { unfold l_intersection. rewrite !Rx by (rewrite ?Ey; auto). now rewrite Ey. }
  destruct (union_ok e Hwf fl l x) as (gu & _ & EU & MU); [now apply Forall_app|exact Hm|].
  assert (Hmeets : SpecList.meets_ok e fl (items l) (ref_list x)).
  { apply (meets_ok_mergeable e Hwf); auto. eapply (mergeable_incl e); [|exact Hm]. intros r Hr. apply in_or_app. now left. }
  destruct (intersection_ok e Hwf fl l x Tl Tx Hmeets) as (gi & ms & EI & MI & WI & VI).
  pose proof MU as (_ & _ & U3 & U4 & _ & U6). destruct MI as (_ & _ & I3 & _ & I5 & I6).
  assert (Wu : Forall wfz (items gu)) by (apply U3; now apply Forall_app).
  assert (Wi : Forall wfz (items gi)) by (apply I3; now apply WI).
  assert (Bu : bookwise (items gu)).
  { destruct U4 as [U4|U4]; [left; rewrite <- Hm0; auto|now right]. }
  destruct (difference_update_total gu (BL gi) Wu Wi (Hint gi EI) Bu) as (n & g & Eg).
  exists n, g. intros n' Hn. unfold l_sym_difference. rewrite Rx by auto. cbn [bind]. fold y. rewrite Eu, Ei, EU, EI. cbn [bind].
  rewrite difference_copy. now apply Eg.
Qed.
End Diff.
