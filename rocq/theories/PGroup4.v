(** * PGroup4: regrouping into one group, reversing and sorting. *)
From Coq Require Import List ZArith Bool Arith Lia Permutation.
From Verif Require Import Base MSeq MGroup SpecGroup PSort PGroup PGroup2.
Import ListNotations.

Lemma bw_rev : forall f l p, bw f p l -> fw f (rev l) p.
Proof.
  induction l as [|a l IH]; intros p H; cbn; auto. destruct H as (E & H). apply fw_app. split; [cbn; now apply IH|]. cbn. auto.
Qed.
Lemma fw_rev : forall f l n, fw f l n -> bw f n (rev l).
Proof.
  induction l as [|a l IH]; intros n H; cbn; auto. destruct H as (E & H). apply bw_app. split; [now apply IH|].
  cbn. split; auto. rewrite E. clear. destruct l as [|b l]; auto. cbn [rev entry]. now rewrite exit_snoc.
Qed.
Lemma entry_rev : forall l, entry (rev l) None = exit None l.
Proof. intros l. destruct l as [|a l] using rev_ind; auto. now rewrite rev_app_distr, exit_snoc. Qed.
Lemma exit_rev : forall l, exit None (rev l) = entry l None.
Proof. intros [|a l]; auto. cbn [rev entry]. apply exit_snoc. Qed.

Section One.
Context {A : Type}.
Notation gl := (glist A).

(** util.py 245-255. *)
Lemma setup_rep : forall (s : gl) l, linked s l -> Forall (fun b => n_head s b = false) (tl l) -> (l = [] -> grouped s []) ->
  exists t, setup_single_group s = Ok t /\ linked t l /\ grouped t (one_group l) /\ n_val t = n_val s /\ kept s t.
Proof.
  intros s l L F G. unfold setup_single_group. rewrite (k_cnt _ _ L). unfold zlen. destruct l as [|a l].
  - exists s. cbn. repeat split; auto; try apply G; auto; apply L.
  - replace (Z.of_nat (length (a :: l)) >? 0)%Z with true by (symmetry; apply Z.gtb_lt; cbn; lia).
    rewrite (k_first _ _ L). cbn [entry deref bind]. eexists. split; [reflexivity|]. split; [|split; [|split; [reflexivity|split; reflexivity]]].
    + apply (linked_same s); auto.
    + cbn [one_group]. constructor; try reflexivity.
      * constructor; [discriminate|constructor].
      * constructor; [|constructor]. cbn. split; [apply upd_eq|]. cbn in F. pose proof (k_nodup _ _ L) as N. inv N.
        rewrite Forall_forall in *. intros y Hy. rewrite upd_neq; auto. intros ->. contradiction.
      * cbn. rewrite upd_eq. auto.
      * cbn. rewrite upd_eq. auto.
Qed.

Lemma clear_heads : forall l (s : gl), let t := fold_left (fun s a => clear_group_head a s) l s in
  same_list s t /\ g_fhead t = g_fhead s /\ g_lhead t = g_lhead s /\ g_gcnt t = g_gcnt s /\
  (forall a, In a l -> n_head t a = false) /\ (forall a, n_head s a = false -> n_head t a = false).
Proof.
  induction l as [|a l IH]; intros s; cbn [fold_left].
  - cbn. unfold same_list. repeat split; auto. intros a [].
  - cbn zeta in *. destruct (IH (clear_group_head a s)) as (S1 & S2 & S3 & S4 & S5 & S6). split; [|split; [|split; [|split; [|split]]]]; auto.
    + intros b [->|H]; auto. apply S6. cbn. apply upd_eq.
    + intros b H. apply S6. cbn. unfold upd. destruct (b =? a)%nat; auto.
Qed.
Lemma one_group_F2 : forall (s : gl) l xs, Forall2 (fun a x => n_val s a = Some x) l xs -> valued s (one_group l) (one_group xs).
Proof. intros s l xs H. inv H; constructor; auto. Qed.
Lemma concat_one_group : forall {B} (l : list B), concat (one_group l) = l.
Proof. intros B [|a l]; auto. cbn. now rewrite app_nil_r. Qed.
Lemma nil_groups : forall (s : gl) ns, grouped s ns -> concat ns = [] -> ns = [].
Proof. intros s ns G E. pose proof (k_ne _ _ G) as F. destruct ns as [|p ns]; auto. inv F. destruct p; [contradiction|discriminate]. Qed.

(** util.py 536-541. *)
Lemma clear_groups_rep : forall (s : gl) ns g, rep s ns g ->
  exists t, clear_groups s = Ok t /\ rep t (one_group (concat ns)) (one_group (items g)) /\ kept s t.
Proof.
  intros s ns g (L & G & V). unfold clear_groups. rewrite (node_iter_rep _ _ L). cbn [bind].
  destruct (clear_heads (concat ns) s) as (S1 & S2 & S3 & S4 & S5 & S6). cbn zeta in *.
  set (u := fold_left (fun s a => clear_group_head a s) (concat ns) s) in *. clearbody u.
  destruct (setup_rep u (concat ns)) as (t & E & Lt & Gt & Vt & K).
  - apply (same_list_linked s); auto.
  - rewrite Forall_forall. intros b Hb. apply S5. destruct (concat ns); [contradiction|]. now right.
  - intros E. assert (ns = []) by (eapply nil_groups; eauto). subst ns. destruct G. constructor; rewrite ?S2, ?S3, ?S4; auto; constructor.
  - exists t. split; auto. split; [|destruct S1 as (_ & _ & P3 & _ & _ & _ & P7 & _); destruct K; split; congruence].
    split; [now rewrite concat_one_group|split; auto]. apply one_group_F2. apply (concat_F2 t). apply (valued_ext s); auto.
    intros y _. destruct S1 as (_ & _ & _ & _ & _ & _ & _ & P8). congruence.
Qed.

Lemma reverse_from_rep : forall l (s : gl) n, NoDup l -> bw (n_prev s) None l -> (length l <= n)%nat ->
  exists t, reverse_from n (exit None l) s = Ok t /\
    (forall a, In a l -> n_next t a = n_prev s a /\ n_prev t a = n_next s a /\ n_head t a = false) /\
    (forall a, ~ In a l -> n_next t a = n_next s a /\ n_prev t a = n_prev s a /\ n_head t a = n_head s a) /\
    g_first t = g_first s /\ g_last t = g_last s /\ g_cnt t = g_cnt s /\ n_val t = n_val s /\ kept s t.
Proof.
  induction l as [|a l IH] using rev_ind; intros s n N B Hn.
  - exists s. destruct n; cbn; repeat split; auto; contradiction.
  - rewrite app_length in Hn. cbn in Hn. destruct n as [|n]; [lia|]. rewrite exit_snoc. cbn [reverse_from].
    apply bw_app in B. destruct B as (B & Ea & _). apply nodup_app in N. destruct N as (N & _ & Hd).
    assert (Hna : ~ In a l) by (intros H; apply (Hd a H); now left).
    set (u := clear_group_head a (set_prev a (n_next s a) (set_next a (n_prev s a) s))).
    assert (U : n_next u = upd (n_next s) a (n_prev s a) /\ n_prev u = upd (n_prev s) a (n_next s a) /\ n_head u = upd (n_head s) a false /\
      g_first u = g_first s /\ g_last u = g_last s /\ g_cnt u = g_cnt s /\ n_val u = n_val s /\ n_par u = n_par s /\ fresh u = fresh s)
      by (repeat split).
    clearbody u. destruct U as (U1 & U2 & U3 & U4 & U5 & U6 & U7 & U8 & U9).
    assert (En : n_next u a = exit None l) by (now rewrite U1, upd_eq). rewrite En.
    destruct (IH u n) as (t & E & T1 & T2 & T3 & T4 & T5 & T6 & T7); [auto| |lia|].
    { eapply bw_ext; [|exact B]. intros y Hy. rewrite U2, upd_neq; auto. intros ->. contradiction. }
    exists t. split; auto. split; [|split; [|destruct T7; repeat split; congruence]].
    + intros y Hy. apply in_app_iff in Hy. destruct (Nat.eq_dec y a) as [->|Hne].
      * destruct (T2 a Hna) as (-> & -> & ->). rewrite U1, U2, U3, !upd_eq. auto.
      * destruct Hy as [Hy|[->|[]]]; [|contradiction]. destruct (T1 y Hy) as (-> & -> & ->). rewrite U1, U2, !upd_neq; auto.
    + intros y Hy. rewrite in_app_iff in Hy. cbn in Hy. destruct (T2 y) as (-> & -> & ->); [tauto|]. rewrite U1, U2, U3, !upd_neq; auto.
Qed.

(** util.py 543-557. *)
Lemma reverse_rep : forall (s : gl) ns g, rep s ns g ->
  exists t, reverse s = Ok t /\ rep t (one_group (rev (concat ns))) (one_group (rev (items g))) /\ kept s t.
Proof.
  intros s ns g H. destruct (cnt_zero _ _ _ H) as (Hc & Hg). pose proof H as (L & G & V). unfold reverse. destruct (g_cnt s =? 0)%Z.
  - assert (g = []) by now apply Hc. assert (ns = []) by now apply Hg. subst. exists s. split; auto. split; auto. split; auto.
  - pose proof (k_nodup _ _ L) as N. pose proof (linked_len _ _ L) as Hn. rewrite (k_last _ _ L).
    destruct (reverse_from_rep (concat ns) s (fresh s) N (k_prev _ _ L) Hn) as (u & E & T1 & T2 & T3 & T4 & T5 & T6 & T7).
    rewrite E. cbn [bind]. clear E.
    destruct (setup_rep (set_last (g_first u) (set_first (g_last u) u)) (rev (concat ns))) as (t & E & Lt & Gt & Vt & K).
    + destruct T7 as (K1 & K2). constructor.
      * now apply NoDup_rev.
      * cbn. rewrite K1. apply Forall_rev, L.
      * cbn. apply bw_rev. eapply bw_ext; [|apply L]. intros y Hy. now apply T1.
      * cbn. apply fw_rev. eapply fw_ext; [|apply L]. intros y Hy. now apply T1.
      * cbn. rewrite entry_rev, T4. apply L.
      * cbn. rewrite exit_rev, T3. apply L.
      * cbn. rewrite T5, (k_cnt _ _ L). unfold zlen. now rewrite rev_length.
      * cbn. rewrite K2. apply Forall_rev, L.
    + cbn. rewrite Forall_forall. intros y Hy. apply T1. apply in_rev. destruct (rev (concat ns)); [contradiction|now right].
    + intros E. exfalso. assert (concat ns = []) by (rewrite <- (rev_involutive (concat ns)), E; reflexivity).
      assert (ns = []) by (eapply nil_groups; eauto). apply Hg in H1. apply Hc in H1. discriminate.
    + exists t. split; auto. split; [|destruct T7, K; split; cbn in *; congruence]. split; [now rewrite concat_one_group|]. split; auto.
      apply one_group_F2, F2_rev. apply (concat_F2 t). apply (valued_ext s); auto. intros y _. rewrite Vt. cbn. congruence.
Qed.
End One.
