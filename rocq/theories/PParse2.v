(** * PParse2: parsing succeeds exactly when the text means something; blame; histories of parses. *)
From Coq Require Import List ZArith Bool Ascii Lia.
From Verif Require Import Base Books Chars Regex Data MVerse MRange MSeq MList MParse Spec SpecName SpecParse SpecMean PList PCore PNav PVerse PRange PUnit PUnit2 PLex PName PParse.
Import ListNotations.
Open Scope Z_scope.

(** ** What is blamed means nothing, and only one thing is blamed *)
Lemma single_blamed_none : forall e fl c a ts, single_blamed e fl c a ts -> forall r c', ~ m_single e fl c a r c'.
Proof.
  intros e fl c a ts H. destruct H as [n N U|K U]; auto. intros r c' (k & u & S & _). destruct S; cbn in N; try discriminate; injection N as ->; eapply U; eassumption.
Qed.
Lemma single_blamed_unique : forall e fl c a ts ts', single_blamed e fl c a ts -> single_blamed e fl c a ts' -> ts = ts'.
Proof.
  intros e fl c a ts ts' H H'. destruct H as [n N U|K U], H' as [n' N' U'|K' U']; auto.
  - congruence.
  - destruct (K' n N) as (b & Hb). now apply U in Hb.
  - destruct (K n' N') as (b & Hb). now apply U' in Hb.
Qed.
Ltac uniq := repeat match goal with
  | A : m_single ?e ?fl ?c ?a _ _, B : m_single ?e ?fl ?c ?a _ _ |- _ => destruct (m_single_unique _ _ _ _ _ _ _ _ A B) as (-> & ->); clear A
  | A : single_blamed ?e ?fl ?c ?a _, B : m_single ?e ?fl ?c ?a _ _ |- _ => exfalso; exact (single_blamed_none _ _ _ _ _ A _ _ B)
  | A : single_blamed ?e ?fl ?c ?a _, B : single_blamed ?e ?fl ?c ?a _ |- _ => rewrite (single_blamed_unique _ _ _ _ _ _ A B) in *; clear A
  end.
Lemma ref_blamed_none : forall e fl c x ts, ref_blamed e fl c x ts -> forall r c', ~ m_ref e fl c x r c'.
Proof.
  intros e fl c x ts H r c' M. inversion H; subst; inversion M; subst; uniq.
  match goal with J : joined _ _ _ _ _, N : forall r, ~ joined _ _ _ _ r |- _ => exact (N _ J) end.
Qed.
Lemma ref_blamed_unique : forall e fl c x ts ts', ref_blamed e fl c x ts -> ref_blamed e fl c x ts' -> ts = ts'.
Proof. intros e fl c x ts ts' H H'. inversion H; subst; inversion H'; subst; uniq; reflexivity. Qed.
Lemma m_rest_app : forall e fl l l' c rs c', m_rest e fl c (l ++ l') rs c' -> exists rs1 c1 rs2, m_rest e fl c l rs1 c1 /\ m_rest e fl c1 l' rs2 c'.
Proof.
  induction l as [|(s, x) l IH]; intros l' c rs c' H.
  - exists [], c, rs. split; [constructor|exact H].
  - inversion H as [|? ? ? r c1 ? rs0 ? R H0]; subst. destruct (IH _ _ _ _ H0) as (rs1 & c2 & rs2 & A & B). exists ((tk s, r) :: rs1), c2, rs2. split; [econstructor; eauto|auto].
Qed.
Lemma rest_blamed_none : forall e fl l c ts, wf_data (ed e) -> rest_blamed e fl c l ts -> forall rs c', ~ m_rest e fl c l rs c'.
Proof.
  intros e fl l c ts Hwf H rs c' M. destruct H as [c l rs0 c2 s x l' ts M0 B]. apply m_rest_app in M. destruct M as (rs1 & c1 & rs2 & M1 & M2).
  destruct (m_rest_unique _ _ _ _ _ _ Hwf M0 _ _ M1) as (<- & <-). inversion M2; subst. eapply ref_blamed_none; eauto.
Qed.
Lemma rest_blamed_unique : forall e fl l c ts ts', wf_data (ed e) -> rest_blamed e fl c l ts -> rest_blamed e fl c l ts' -> ts = ts'.
Proof.
  intros e fl. induction l as [|(s, x) l IH]; intros c ts ts' Hwf H H'.
  - inversion H as [c0 l0 r0 c2 s0 x0 l' t0 M0 B0 E1 E2]. destruct l0; discriminate.
  - assert (C : forall ts0, rest_blamed e fl c ((s, x) :: l) ts0 ->
       ref_blamed e fl (after_sep s c) x ts0 \/ exists r c1, m_ref e fl (after_sep s c) x r c1 /\ rest_blamed e fl c1 l ts0).
    { intros ts0 B. inversion B as [c0 l0 rs0 c2 s0 x0 l' ts1 M0 RB Q1 Q2]; subst. destruct l0 as [|(s1, x1) l0]; inversion Q2; subst.
      - left. now inversion M0; subst.
      - right. inversion M0 as [|? ? ? r c1 ? rs1 ? R M1]; subst. exists r, c1. split; auto. econstructor; eauto. }
    destruct (C _ H) as [B|(r & c1 & M & B)], (C _ H') as [B'|(r' & c1' & M' & B')].
    + eapply ref_blamed_unique; eauto.
    + exfalso. eapply ref_blamed_none; eauto.
    + exfalso. eapply ref_blamed_none; eauto.
    + destruct (m_ref_unique _ _ _ _ _ _ _ _ Hwf M M') as (<- & <-). eapply IH; eauto.
Qed.
Lemma tree_blamed_cases : forall e fl c t ts, tree_blamed e fl c t ts <->
  ref_blamed e fl c (t_first t) ts \/ exists r c1, m_ref e fl c (t_first t) r c1 /\ rest_blamed e fl c1 (t_rest t) ts.
Proof.
  intros e fl c t ts. split.
  - intros [ts' H|r c1 l s x l' rs c2 ts' M E R B]; auto. right. exists r, c1. split; auto. rewrite E. econstructor; eauto.
  - intros [H|(r & c1 & M & B)]; [now apply B_first|]. inversion B as [c0 l0 rs0 c2 s0 x0 l' ts1 M0 RB Q1 Q2]; subst. symmetry in Q2. eapply B_later; eauto.
Qed.
Lemma tree_blamed_none : forall e fl c t ts, wf_data (ed e) -> tree_blamed e fl c t ts -> forall gs c', ~ m_tree e fl c t gs c'.
Proof.
  intros e fl c t ts Hwf H gs c' (r & c1 & rs & c2 & M & R & _). apply tree_blamed_cases in H. destruct H as [B|(r' & c1' & M' & B)].
  - eapply ref_blamed_none; eauto.
  - destruct (m_ref_unique _ _ _ _ _ _ _ _ Hwf M M') as (<- & <-). eapply rest_blamed_none; eauto.
Qed.
Lemma tree_blamed_unique : forall e fl c t ts ts', wf_data (ed e) -> tree_blamed e fl c t ts -> tree_blamed e fl c t ts' -> ts = ts'.
Proof.
  intros e fl c t ts ts' Hwf H H'. apply tree_blamed_cases in H, H'. destruct H as [B|(r & c1 & M & B)], H' as [B'|(r' & c1' & M' & B')].
  - eapply ref_blamed_unique; eauto.
  - exfalso. eapply ref_blamed_none; eauto.
  - exfalso. eapply ref_blamed_none; eauto.
  - destruct (m_ref_unique _ _ _ _ _ _ _ _ Hwf M M') as (<- & <-). eapply rest_blamed_unique; eauto.
Qed.

(** ** The part of the text *)
Lemma term_ends : forall d k x, good_seps d -> in_term d k x ->
  x <> [] /\ (forall c y, x = c :: y -> is_ws c = false) /\ (forall y c, x = y ++ [c] -> is_ws c = false).
Proof.
  intros d k x G H.
  assert (SEP : forall c, is_sep d c -> [c] <> [] /\ (forall c0 y, [c] = c0 :: y -> is_ws c0 = false) /\ (forall y c0, [c] = y ++ [c0] -> is_ws c0 = false)).
  { intros c S. assert (W : is_ws c = false). { destruct (gs_punct d G c S) as (_ & P). destruct (is_ws c) eqn:E; auto. apply ws_space in E. congruence. }
    split; [discriminate|]. split.
    - intros c0 y E. now inversion E; subst.
    - intros [|a y] c0 E; [now inversion E; subst|]. inversion E as [[E1 E2]]. destruct y; discriminate. }
  destruct k; cbn in H.
  - pose proof H as (c & m & z & -> & _). split; [discriminate|]. split; intros; [eapply name_first|eapply name_last]; eauto.
  - destruct H as (N & F). split; auto. split.
    + intros c y ->. apply digit_not_ws. now inversion F.
    + intros y c E. eapply digits_last; eauto.
  - subst. apply SEP. now left.
  - subst. apply SEP. right. now left.
  - subst. apply SEP. right. right. now left.
  - destruct H as [->| ->]; apply SEP; unfold is_sep; auto 10.
Qed.
Lemma last_app : forall A (x y : list A) z c, y <> [] -> x ++ y = z ++ [c] -> exists z', y = z' ++ [c].
Proof.
  intros A x y z c N E. destruct (exists_last N) as (z' & c' & ->). exists z'. rewrite app_assoc in E. apply app_inj_tail in E. destruct E as (_ & ->). reflexivity.
Qed.
Lemma rev_cons_hd : forall A (a b : A) l, hd_error (rev (a :: b :: l)) = hd_error (rev (b :: l)).
Proof. intros A a b l. cbn [rev]. destruct (rev l) as [|x y] eqn:E; cbn; reflexivity. Qed.
Lemma spells_tight : forall d, good_seps d -> forall ts i s, spells d i s ts -> ts <> [] ->
  exists w x w', s = w ++ x ++ w' /\ white w /\ white w' /\ spells d (i + zlen w) x ts /\
    (forall c y, x = c :: y -> is_ws c = false) /\ (forall y c, x = y ++ [c] -> is_ws c = false) /\ x <> [] /\
    spanned ts (i + zlen w) (i + zlen w + zlen x).
Proof.
  intros d G. induction ts as [|t ts IH]; intros i s H N; [contradiction|]. destruct t as [k x j]. apply spells_gap in H. destruct H as (w & s' & -> & W & T & -> & H).
  destruct (term_ends d k x G T) as (Nx & F & L). destruct ts as [|t2 ts].
  - apply spells_nil in H. exists w, x, s'. repeat split; auto.
    + rewrite <- (app_nil_r x) at 1. apply spells_one; auto. constructor.
    + exists (Tok k x (i + zlen w)), (Tok k x (i + zlen w)). cbn. auto.
  - destruct (IH _ _ H) as (w1 & x1 & w' & -> & W1 & W' & H1 & F1 & L1 & N1 & S1); [discriminate|]. exists w, (x ++ w1 ++ x1), w'. rewrite <- !app_assoc. repeat split; auto.
    + apply spells_head; auto. apply spells_white; auto.
    + intros c y E. destruct x as [|a x]; [contradiction|]. inversion E; subst. eapply F; eauto.
    + intros y c E. rewrite app_assoc in E. destruct (last_app _ _ _ _ _ N1 E) as (z' & E'). eauto.
    + destruct x; [contradiction|discriminate].
    + destruct S1 as (a & z & _ & Z & _ & E). exists (Tok k x (i + zlen w)), z. split; [reflexivity|]. split; [now rewrite rev_cons_hd|]. split; [reflexivity|].
      rewrite <- E. rewrite !zlen_app'. lia.
Qed.
Lemma spanned_unique : forall ts i j i' j', spanned ts i j -> spanned ts i' j' -> i = i' /\ j = j'.
Proof. intros ts i j i' j' (a & z & A & Z & -> & ->) (a' & z' & A' & Z' & -> & ->). split; congruence. Qed.
Lemma part_spanned : forall d s i j ts, good_seps d -> ts <> [] -> part_of d s i j ts -> spanned ts i j.
Proof.
  intros d s i j ts G N (p & x & q & -> & <- & Lx & H & F & L). destruct (spells_tight d G ts _ _ H N) as (w & y & w' & -> & W & W' & _ & _ & _ & Ny & S).
  destruct w as [|c w]; [|exfalso; inversion W as [|? ? Wc]; rewrite (F c (w ++ y ++ w') eq_refl) in Wc; discriminate].
  destruct w' as [|c w'] using rev_ind.
  - cbn [app] in *. rewrite app_nil_r in Lx. unfold zlen at 2 in S. cbn [length] in S. unfold zlen at 3 in S. cbn [length] in S. replace j with (zlen p + Z.of_nat 0 + zlen y) by lia. replace (zlen p) with (zlen p + Z.of_nat 0) at 1 by lia. exact S.
  - exfalso. unfold white in W'. apply Forall_app in W'. destruct W' as (_ & W'). inversion W' as [|? ? Wc]. rewrite (L ([] ++ y ++ w') c) in Wc; [discriminate|]. now rewrite <- !app_assoc.
Qed.
Lemma spanned_part : forall d s p ts q i j, good_seps d -> spells d 0 s (p ++ ts ++ q) -> spanned ts i j -> part_of d s i j ts.
Proof.
  intros d s p ts q i j G H S. assert (N : ts <> []) by (destruct S as (a & z & A & _); destruct ts; [discriminate|discriminate]).
  apply spells_app_inv in H. destruct H as (s1 & s2 & -> & _ & H). apply spells_app_inv in H. destruct H as (s3 & s4 & -> & H & _).
  destruct (spells_tight d G ts _ _ H N) as (w & x & w' & -> & W & W' & Hx & F & L & _ & S'). destruct (spanned_unique _ _ _ _ _ S S') as (-> & ->).
  exists (s1 ++ w), x, (w' ++ s4). rewrite <- !app_assoc. split; [reflexivity|]. rewrite zlen_app'. replace (zlen s1 + zlen w) with (0 + zlen s1 + zlen w) by lia. repeat split; auto. lia.
Qed.
(** The blamed tokens are consecutive tokens of the text. *)
Lemma g_single_toks : forall l a, g_single l a -> l = toks a.
Proof. intros l a []; reflexivity. Qed.
Lemma single_blamed_sub : forall e fl c a ts, single_blamed e fl c a ts -> exists p q, toks a = p ++ ts ++ q.
Proof.
  intros e fl c a ts [n N U|K U].
  - destruct a; cbn in N; try discriminate; injection N as ->; cbn; exists []; eexists; reflexivity.
  - exists [], []. now rewrite app_nil_r.
Qed.
Lemma sub_app : forall A (x a : list A) y p q, a = p ++ y ++ q -> forall z, exists p' q', x ++ a ++ z = p' ++ y ++ q'.
Proof. intros A x a y p q -> z. exists (x ++ p), (q ++ z). now rewrite <- !app_assoc. Qed.
Lemma ref_blamed_sub : forall e fl c l x ts, g_ref l x -> ref_blamed e fl c x ts -> exists p q, l = p ++ ts ++ q.
Proof.
  intros e fl c l x ts G H. destruct G as [l a G|l m a s b G T G'].
  - apply g_single_toks in G. subst. inversion H; subst. eapply single_blamed_sub; eauto.
  - apply g_single_toks in G, G'. subst. inversion H as [|? ? ? ? B|? ? ? ? ? ? M B|? ? ? ? ? ? ? M M' N]; subst.
    + destruct (single_blamed_sub _ _ _ _ _ B) as (p & q & E). exact (sub_app _ [] _ _ _ _ E (s :: toks b)).
    + destruct (single_blamed_sub _ _ _ _ _ B) as (p & q & E). destruct (sub_app _ (toks a ++ [s]) _ _ _ _ E []) as (p' & q' & E'). exists p', q'. rewrite <- E', app_nil_r, <- app_assoc. reflexivity.
    + exists [], []. now rewrite app_nil_r.
Qed.
Lemma rest_blamed_sub : forall e fl m l t, g_rest m l t -> forall c ts, rest_blamed e fl c l ts -> exists p q, m = p ++ ts ++ q.
Proof.
  intros e fl m l t G. induction G as [|s Hs|s l x m r t Hs Gr G IH]; intros c ts H.
  - inversion H as [c0 l0 r0 c2 s0 x0 l' t0 M0 B0 E1 E2]. destruct l0; discriminate.
  - inversion H as [c0 l0 r0 c2 s0 x0 l' t0 M0 B0 E1 E2]. destruct l0; discriminate.
  - inversion H as [c0 l0 rs0 c2 s0 x0 l' ts1 M0 RB Q1 Q2]; subst. destruct l0 as [|(s1, x1) l0]; inversion Q2; subst.
    + destruct (ref_blamed_sub _ _ _ _ _ _ Gr RB) as (p & q & E). exact (sub_app _ [s] _ _ _ _ E m).
    + inversion M0 as [|? ? ? r' c1 ? rs1 ? R M1]; subst. destruct (IH c1 ts) as (p & q & E); [econstructor; eauto|].
      destruct (sub_app _ (s :: l) _ _ _ _ E []) as (p' & q' & E'). exists p', q'. rewrite <- E', app_nil_r. reflexivity.
Qed.
Lemma tree_blamed_sub : forall e fl c l t ts, g_list l t -> tree_blamed e fl c t ts -> exists p q, l = p ++ ts ++ q.
Proof.
  intros e fl c l t ts G H. destruct G as [l x m r t Gr G]. apply tree_blamed_cases in H. cbn in H. destruct H as [B|(r' & c1 & M & B)].
  - destruct (ref_blamed_sub _ _ _ _ _ _ Gr B) as (p & q & E). exact (sub_app _ [] _ _ _ _ E m).
  - destruct (rest_blamed_sub _ _ _ _ _ G _ _ B) as (p & q & E). destruct (sub_app _ l _ _ _ _ E []) as (p' & q' & E'). exists p', q'. now rewrite <- E', app_nil_r.
Qed.

Section Parse2.
Variable e : env.
Variable fl : option flag.
Notation d := (ed e).
Hypothesis Hwf : wf_data d.
Hypothesis Hnl : names_listed d.
Hypothesis Hgs : good_seps d.

Theorem parse_ok : forall st s gs, sane d st ->
  snd (parse e fl st s) = Ok gs <-> exists t c', reads d s t /\ m_tree e fl (ctx_of st) t gs c'.
Proof.
  intros st s gs S. pose proof (parse_spec e fl Hwf Hnl st s S Hgs) as H. destruct (parse e fl st s) as (st', q). destruct H as (S' & H). cbn [snd]. split.
  - intros ->. destruct H as (t & R & M). eauto.
  - intros (t & c' & R & M). destruct q as [gs'|z].
    + destruct H as (t' & R' & M'). pose proof (reads_unique _ _ _ _ Hgs R R') as <-. destruct (m_tree_unique _ _ _ _ _ _ _ _ Hwf M M') as (-> & _). reflexivity.
    + exfalso. destruct H as [(_ & _ & H)|(t' & ts & i & j & R' & B & _)]; [eapply H; eauto|].
      pose proof (reads_unique _ _ _ _ Hgs R R') as <-. eapply tree_blamed_none; eauto.
Qed.
Theorem parse_next : forall st s gs t c', sane d st -> reads d s t -> m_tree e fl (ctx_of st) t gs c' ->
  ctx_of (fst (parse e fl st s)) = c'.
Proof.
  intros st s gs t c' S R M. assert (Q : snd (parse e fl st s) = Ok gs) by (apply parse_ok; eauto).
  pose proof (parse_spec e fl Hwf Hnl st s S Hgs) as H. destruct (parse e fl st s) as (st', q). cbn [snd] in Q. subst q. destruct H as (_ & t' & R' & M').
  pose proof (reads_unique _ _ _ _ Hgs R R') as <-. destruct (m_tree_unique _ _ _ _ _ _ _ _ Hwf M M') as (_ & ->). reflexivity.
Qed.
Lemma blamed_nonempty : forall c t ts, tree_blamed e fl c t ts -> ts <> [].
Proof.
  assert (A : forall c a ts, single_blamed e fl c a ts -> ts <> []) by (intros c a ts [n N U|K U]; [|destruct a]; discriminate).
  assert (B : forall c x ts, ref_blamed e fl c x ts -> ts <> []).
  { intros c x ts H. inversion H; subst; eauto. destruct a; discriminate. }
  intros c t ts H. apply tree_blamed_cases in H. destruct H as [H|(r & c1 & _ & [? ? ? ? ? ? ? ? ? H])]; eauto.
Qed.
Theorem parse_err : forall st s x, sane d st ->
  snd (parse e fl st s) = Err x <->
  (x = SyntaxErr /\ forall t, ~ reads d s t) \/
  (exists t ts i j, reads d s t /\ tree_blamed e fl (ctx_of st) t ts /\ part_of d s i j ts /\ x = ParseErr i j).
Proof.
  intros st s x S. pose proof (parse_spec e fl Hwf Hnl st s S Hgs) as H. destruct (parse e fl st s) as (st', q). destruct H as (S' & H). cbn [snd]. split.
  - intros ->. destruct H as [(-> & _ & H)|(t & ts & i & j & R & B & P & ->)]; [auto|]. right. exists t, ts, i, j. split; auto. split; auto. split; auto.
    destruct R as (l & Sp & G). destruct (tree_blamed_sub _ _ _ _ _ _ G B) as (p & q & ->). eapply spanned_part; eauto.
  - intros H'. destruct q as [gs|z].
    + exfalso. destruct H as (t & R & M). destruct H' as [(_ & N)|(t' & ts & i & j & R' & B & _)]; [eapply N; eauto|].
      pose proof (reads_unique _ _ _ _ Hgs R R') as <-. eapply tree_blamed_none; eauto.
    + f_equal. destruct H as [(-> & _ & H)|(t & ts & i & j & R & B & P & ->)], H' as [(-> & N)|(t' & ts' & i' & j' & R' & B' & P' & ->)].
      * reflexivity.
      * exfalso. eapply H; eauto.
      * exfalso. eapply N; eauto.
      * pose proof (reads_unique _ _ _ _ Hgs R R') as <-. pose proof (tree_blamed_unique _ _ _ _ _ _ Hwf B B') as <-.
        apply part_spanned in P'; auto; [|eapply blamed_nonempty; eauto]. destruct (spanned_unique _ _ _ _ _ P P') as (-> & ->). reflexivity.
Qed.
(** Only the two kinds of [BibleRefParsingError] escape. *)
Theorem parse_exn : forall st s x, sane d st -> snd (parse e fl st s) = Err x -> x = SyntaxErr \/ exists i j, x = ParseErr i j.
Proof. intros st s x S H. apply parse_err in H; auto. destruct H as [(-> & _)|(t & ts & i & j & _ & _ & _ & ->)]; eauto. Qed.

(** ** What earlier parses can change *)
Theorem parse_ctx : forall st st' s, sane d st -> sane d st' -> ctx_of st = ctx_of st' -> snd (parse e fl st s) = snd (parse e fl st' s).
Proof.
  intros st st' s S S' E. destruct (snd (parse e fl st' s)) as [gs|x] eqn:Q.
  - apply parse_ok in Q; auto. apply parse_ok; auto. now rewrite E.
  - apply parse_err in Q; auto. apply parse_err; auto. now rewrite E.
Qed.
Definition first_single (t : tree) : single := match t_first t with One a => a | Two a _ _ => a end.
Definition names_its_book (t : tree) : Prop := name_of (first_single t) <> None.
Lemma m_single_named : forall c c0 a r c', name_of a <> None -> m_single e fl c a r c' -> m_single e fl c0 a r c'.
Proof.
  intros c c0 a r c' N (k & u & S & M & U). exists k, u. split; auto. split; auto. destruct S; cbn in N; try contradiction; inversion M; subst; now constructor.
Qed.
Lemma m_ref_named : forall c c0 x r c', name_of (match x with One a => a | Two a _ _ => a end) <> None -> m_ref e fl c x r c' -> m_ref e fl c0 x r c'.
Proof.
  intros c c0 x r c' N H. inversion H; subst.
  - constructor. eapply m_single_named; eauto.
  - eapply M_two; eauto. eapply m_single_named; eauto.
Qed.
Lemma m_tree_named : forall c c0 t gs c', names_its_book t -> m_tree e fl c t gs c' -> m_tree e fl c0 t gs c'.
Proof. intros c c0 t gs c' N (r & c1 & rs & c2 & M & H). exists r, c1, rs, c2. split; auto. eapply m_ref_named; eauto. Qed.
Lemma single_blamed_named : forall c c0 a ts, name_of a <> None -> single_blamed e fl c a ts -> single_blamed e fl c0 a ts.
Proof.
  intros c c0 a ts N [n E U|K U]; [now apply B_name|]. apply B_ref; auto. intros r c' M. eapply U, m_single_named; eauto.
Qed.
Lemma ref_blamed_named : forall c c0 x ts, name_of (match x with One a => a | Two a _ _ => a end) <> None -> ref_blamed e fl c x ts -> ref_blamed e fl c0 x ts.
Proof.
  intros c c0 x ts N H. inversion H; subst.
  - constructor. eapply single_blamed_named; eauto.
  - apply B_left. eapply single_blamed_named; eauto.
  - eapply B_right; eauto. eapply m_single_named; eauto.
  - eapply B_both; eauto. eapply m_single_named; eauto.
Qed.
Lemma tree_blamed_named : forall c c0 t ts, names_its_book t -> tree_blamed e fl c t ts -> tree_blamed e fl c0 t ts.
Proof.
  intros c c0 t ts N [ts' H|r c1 l s x l' rs c2 ts' M E R B].
  - apply B_first. eapply ref_blamed_named; eauto.
  - eapply B_later; eauto. eapply m_ref_named; eauto.
Qed.
Theorem parse_named : forall st st' s t, sane d st -> sane d st' -> reads d s t -> names_its_book t ->
  snd (parse e fl st s) = snd (parse e fl st' s).
Proof.
  intros st st' s t S S' R N. destruct (snd (parse e fl st' s)) as [gs|x] eqn:Q.
  - apply parse_ok in Q; auto. apply parse_ok; auto. destruct Q as (t' & c' & R' & M). pose proof (reads_unique _ _ _ _ Hgs R R') as <-. exists t, c'. split; auto. eapply m_tree_named; eauto.
  - apply parse_err in Q; auto. apply parse_err; auto. destruct Q as [Q|(t' & ts & i & j & R' & B & H)]; auto. right. pose proof (reads_unique _ _ _ _ Hgs R R') as <-.
    exists t, ts, i, j. split; auto. split; auto. eapply tree_blamed_named; eauto.
Qed.
Theorem parse_unread : forall st s, (forall t, ~ reads d s t) -> parse e fl st s = (st, Err SyntaxErr).
Proof. intros st s N. unfold parse. destruct (read d s) as [t|] eqn:R; auto. apply read_sound in R. exfalso. eapply N; eauto. Qed.
Theorem parse_sane : forall st s, sane d st -> sane d (fst (parse e fl st s)).
Proof. intros st s S. pose proof (parse_spec e fl Hwf Hnl st s S Hgs) as H. destruct (parse e fl st s) as (st', q). apply H. Qed.
End Parse2.

Lemma sane_init : forall d, sane d ts_init.
Proof. intros d. split; cbn; discriminate. Qed.
