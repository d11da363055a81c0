(** * PGroup3: removing a node. *)
From Coq Require Import List ZArith Bool Arith Lia.
From Verif Require Import Base MSeq MGroup SpecGroup PGroup PGroup2.
Import ListNotations.

Section Pop.
Context {A : Type}.
Notation gl := (glist A).

(** util.py 349-365: taking the node out of the chain. *)
Definition unlink (node : nat) (s : gl) : res gl :=
  if (g_cnt s =? 1)%Z then
    Ok (set_lhead None (set_fhead None (set_last None (set_first None s))))
  else if oeqb (Some node) (g_first s) then
    let s := set_first (n_next s node) s in
    f <- deref (g_first s) ;; Ok (set_prev f None s)
  else if oeqb (Some node) (g_last s) then
    l <- deref (g_last s) ;;
    let s := set_last (n_prev s l) s in
    l <- deref (g_last s) ;; Ok (set_next l None s)
  else
    b <- deref (n_prev s node) ;;
    let s := set_next b (n_next s node) s in
    c <- deref (n_next s node) ;; Ok (set_prev c (n_prev s node) s).
(** util.py 367-390: taking it out of the groups. *)
Definition unhead (node : nat) (s : gl) : res gl :=
  if n_head s node then
    let lost := match n_next s node with None => true | Some b => n_head s b end in
    q <- (if lost then Ok (set_gcnt (g_gcnt s - 1) s, (n_nh s node, n_ph s node))
          else b <- deref (n_next s node) ;;
               let s := set_head b true s in
               let s := set_ph b (n_ph s node) s in
               let s := set_nh b (n_nh s node) s in
               Ok (s, (Some b, Some b))) ;;
    let s := fst q in
    let next_link := fst (snd q) in
    let prev_link := snd (snd q) in
    let s := if oeqb (g_fhead s) (Some node) then set_fhead next_link s else s in
    let s := if oeqb (g_lhead s) (Some node) then set_lhead prev_link s else s in
    let s := on_some (n_ph s node) (fun h => set_nh h next_link) s in
    let s := on_some (n_nh s node) (fun h => set_ph h prev_link) s in
    Ok (clear_group_head node s)
  else Ok s.
Lemma pop_parts : forall p (s : gl), pop_node p s =
  (node <- check_child p s ;; s <- unlink node s ;;
   s <- unhead node (let s := set_par node false s in set_cnt (g_cnt s - 1) s) ;;
   match n_val s node with Some x => Ok (x, s) | None => Err AttrErr end).
Proof. reflexivity. Qed.

Lemma unlink_rep : forall (s : gl) l1 a l2, linked s (l1 ++ a :: l2) ->
  exists t, unlink a s = Ok t /\
    g_first t = entry (l1 ++ l2) None /\ g_last t = exit None (l1 ++ l2) /\
    n_next t = upd_opt (n_next s) (exit None l1) (entry l2 None) /\
    n_prev t = upd_opt (n_prev s) (entry l2 None) (exit None l1) /\
    g_fhead t = (match l1, l2 with [], [] => None | _, _ => g_fhead s end) /\
    g_lhead t = (match l1, l2 with [], [] => None | _, _ => g_lhead s end) /\
    g_cnt t = g_cnt s /\ g_gcnt t = g_gcnt s /\ n_val t = n_val s /\ n_par t = n_par s /\ n_head t = n_head s /\
    n_ph t = n_ph s /\ n_nh t = n_nh s /\ fresh t = fresh s.
Proof.
  intros s l1 a l2 L. pose proof (k_next _ _ L) as F. pose proof (k_prev _ _ L) as B. pose proof (k_nodup _ _ L) as N.
  apply fw_app in F. destruct F as (F1 & Ea & F2). apply bw_app in B. destruct B as (B1 & Eb & B2).
  pose proof (k_cnt _ _ L) as C. pose proof (k_first _ _ L) as Ef. pose proof (k_last _ _ L) as El.
  rewrite entry_app in Ef. cbn [entry] in Ef. rewrite exit_app in El. cbn [exit] in El.
  unfold zlen in C. rewrite app_length in C. cbn [length] in C. unfold unlink.
  destruct l1 as [|b l1] using rev_ind.
  - cbn [app entry exit length] in *. destruct l2 as [|c l2].
    + replace (g_cnt s =? 1)%Z with true by (symmetry; apply Z.eqb_eq; rewrite C; reflexivity).
      eexists. split; [reflexivity|].
      cbn [set_lhead set_fhead set_last set_first g_first g_last g_cnt g_fhead g_lhead g_gcnt n_val n_prev n_next n_par n_head n_ph n_nh fresh upd_opt entry exit app].
      repeat split.
    + replace (g_cnt s =? 1)%Z with false by (symmetry; apply Z.eqb_neq; rewrite C; cbn [length]; lia).
      rewrite Ef, oeqb_refl. cbn [set_first g_first]. rewrite Ea. cbn [entry deref bind]. eexists. split; [reflexivity|].
      cbn [set_prev set_first g_first g_last g_cnt g_fhead g_lhead g_gcnt n_val n_prev n_next n_par n_head n_ph n_nh fresh upd_opt entry exit].
      repeat split. exact El.
  - clear IHl1. assert (Hne : forall (B : Type) (x y : B), match l1 ++ [b], l2 with [], [] => x | _, _ => y end = y) by (intros; destruct l1; auto).
    rewrite !Hne. rewrite exit_snoc in *. rewrite !app_length in C. cbn [length] in C.
    replace (g_cnt s =? 1)%Z with false by (symmetry; apply Z.eqb_neq; rewrite C; lia).
    assert (Hf : oeqb (Some a) (g_first s) = false).
    { rewrite Ef. apply oeqb_neq. intros E. rewrite entry_app in E. cbn [entry] in E. apply NoDup_remove_2 in N. apply N.
      apply in_app_iff. left. apply in_app_iff. destruct l1; cbn in *; inv E; auto. }
    rewrite Hf. destruct l2 as [|c l2].
    + cbn [exit entry app] in *. rewrite El, oeqb_refl. cbn [deref bind set_last g_last]. rewrite Eb. cbn [deref bind]. eexists. split; [reflexivity|].
      cbn [set_next set_last g_first g_last g_cnt g_fhead g_lhead g_gcnt n_val n_prev n_next n_par n_head n_ph n_nh fresh upd_opt].
      rewrite app_nil_r, exit_snoc. repeat split. rewrite Ef. destruct l1; reflexivity.
    + assert (Hl : oeqb (Some a) (g_last s) = false).
      { rewrite El. apply oeqb_neq. intros E. rewrite (exit_any (c :: l2) _ None) in E by discriminate. symmetry in E. apply exit_in in E. apply NoDup_remove_2 in N. apply N.
        apply in_app_iff. auto. }
      rewrite Hl, Eb. cbn [deref bind set_next n_next n_prev].
      assert (Hba : a <> b). { intros ->. apply NoDup_remove_2 in N. apply N. rewrite !in_app_iff. left. right. now left. }
      rewrite upd_neq, Ea by auto. cbn [entry deref bind]. eexists. split; [reflexivity|].
      cbn [set_next set_prev g_first g_last g_cnt g_fhead g_lhead g_gcnt n_val n_prev n_next n_par n_head n_ph n_nh fresh upd_opt].
      rewrite ?Ea, ?Eb. repeat split; auto.
      * rewrite Ef, !entry_app. destruct l1; reflexivity.
      * rewrite El, exit_app. apply exit_any. discriminate.
Qed.

Definition dropped (a : nat) (s t : gl) : Prop := fresh t = fresh s /\ n_par t = upd (n_par s) a false.

Lemma delete_valued : forall (s t : gl) ns g i, valued s ns g -> n_val t = n_val s -> valued t (s_delete i ns) (s_delete i g).
Proof. intros s t ns g i V E. apply (valued_ext s); [intros; now rewrite E|]. now apply delete_par. Qed.

(** util.py 341-392. *)
Lemma pop_node_rep : forall (s : gl) n1 p a q n2 g, rep s (n1 ++ (p ++ a :: q) :: n2) g ->
  exists t x, pop_node (Some a) s = Ok (x, t) /\ nth_error (items g) (length (concat n1 ++ p)) = Some x /\
    rep t (s_delete (length (concat n1 ++ p)) (n1 ++ (p ++ a :: q) :: n2)) (s_delete (length (concat n1 ++ p)) g) /\ dropped a s t.
Proof.
  intros s n1 p a q n2 g (L & G & V). set (ns := n1 ++ (p ++ a :: q) :: n2) in *.
  assert (Ec : concat ns = (concat n1 ++ p) ++ a :: (q ++ concat n2)) by apply concat_split.
  assert (Ia : In a (concat ns)) by (rewrite Ec; apply in_app_iff; right; now left).
  pose proof (k_nodup _ _ L) as N. rewrite pop_parts, (child_rep s _ a L Ia). cbn [bind].
  pose proof L as L'. rewrite Ec in L'. destruct (unlink_rep s _ a _ L') as (u & Eu & U1 & U2 & U3 & U4 & U5 & U6 & U7 & U8 & U9 & U10 & U11 & U12 & U13 & U14).
  rewrite Eu. cbn [bind]. clear Eu. set (l1 := concat n1 ++ p) in *. set (l2 := q ++ concat n2) in *.
  pose proof (k_nodup _ _ L') as N'. pose proof (NoDup_remove_1 _ _ _ N') as N1. pose proof (NoDup_remove_2 _ _ _ N') as N2.
  assert (Hx : exists x, n_val s a = Some x /\ nth_error (items g) (length l1) = Some x).
  { pose proof (concat_F2 _ _ _ V) as F. rewrite Ec in F. apply Forall2_app_inv_l in F. destruct F as (x1 & x2 & F1 & F2 & E).
    inv F2. exists y. split; auto. unfold items. rewrite E, nth_error_app2; rewrite (Forall2_length F1); auto. now rewrite Nat.sub_diag. }
  destruct Hx as (x & Ex & Enx).
  set (v := let s0 := set_par a false u in set_cnt (g_cnt s0 - 1) s0) in *.
  assert (HV : g_first v = g_first u /\ g_last v = g_last u /\ n_next v = n_next u /\ n_prev v = n_prev u /\ g_fhead v = g_fhead u /\ g_lhead v = g_lhead u /\
    g_cnt v = (g_cnt u - 1)%Z /\ g_gcnt v = g_gcnt u /\ n_val v = n_val u /\ n_par v = upd (n_par u) a false /\ n_head v = n_head u /\
    n_ph v = n_ph u /\ n_nh v = n_nh u /\ fresh v = fresh u) by (repeat split).
  clearbody v. destruct HV as (V1 & V2 & V3 & V4 & V5 & V6 & V7 & V8 & V9 & V10 & V11 & V12 & V13 & V14).
  assert (Lv : linked v (l1 ++ l2)).
  { constructor.
    - exact N1.
    - rewrite V14, U14. pose proof (k_lt _ _ L') as F. rewrite Forall_app in *. destruct F as (F1 & F2). inv F2. auto.
    - rewrite V3, U3. apply (fw_delete (n_next s) l1 a l2); auto. apply L'.
    - rewrite V4, U4. apply (bw_delete (n_prev s) l1 a l2); auto. apply L'.
    - congruence.
    - congruence.
    - rewrite V7, U7, (k_cnt _ _ L'). unfold zlen. rewrite !app_length. cbn. lia.
    - rewrite V10, U10. pose proof (k_par _ _ L') as F. rewrite Forall_forall in *. intros y Hy. rewrite upd_neq.
      + apply F. rewrite in_app_iff in *. cbn. tauto.
      + intros ->. contradiction. }
  assert (Rest : forall t, unhead a v = Ok t -> same_list v t -> grouped t (s_delete (length l1) ns) ->
    exists t x, (s0 <- unhead a v ;; match n_val s0 a with Some x => Ok (x, s0) | None => Err AttrErr end) = Ok (x, t) /\ nth_error (items g) (length l1) = Some x /\
    rep t (s_delete (length l1) ns) (s_delete (length l1) g) /\ dropped a s t).
  { intros t Et K Gt. exists t, x. rewrite Et. cbn [bind]. destruct K as (K1 & K2 & K3 & K4 & K5 & K6 & K7 & K8).
    rewrite K8, V9, U9, Ex. split; auto. split; auto. split; [|split; congruence]. split; [|split; auto].
    - assert (Ed : concat (s_delete (length l1) ns) = l1 ++ l2).
      { unfold ns, l1, l2. rewrite delete_dec, concat_app. destruct (p ++ q) as [|z r] eqn:E.
        - apply app_eq_nil in E. destruct E as (-> & ->). cbn. now rewrite app_nil_r.
        - cbn [concat]. rewrite <- E, <- !app_assoc. reflexivity. }
      rewrite Ed. apply (same_list_linked v); auto. repeat split; auto.
    - apply (delete_valued s); auto. congruence. }
  clear Enx Ex. apply (fun H => H) in Rest.
  pose proof (k_head _ _ G) as HH. apply Forall_app in HH. destruct HH as (HH1 & HH2). inv HH2. rename H1 into HHp. rename H2 into HH2.
  pose proof (k_ne _ _ G) as Hne. apply Forall_app in Hne. destruct Hne as (Hne1 & Hne2). inv Hne2. rename H2 into Hne2. clear H1.
  destruct p as [|h p].
  - (* the head of its group *)
    cbn [app] in *. destruct HHp as (Eha & Fq).
    assert (Nh : heads ns = heads n1 ++ a :: heads n2) by (unfold ns; now rewrite heads_app).
    assert (Nhd : NoDup (heads ns)) by (apply heads_nodup; auto). rewrite Nh in Nhd. pose proof (NoDup_remove_2 _ _ _ Nhd) as Nha.
    assert (Enh : n_nh s a = entry (heads n2) None).
    { pose proof (k_nh _ _ G) as B. rewrite Nh in B. apply fw_app in B. destruct B as (_ & E & _). exact E. }
    assert (Eph : n_ph s a = exit None (heads n1)).
    { pose proof (k_ph _ _ G) as B. rewrite Nh in B. apply bw_app in B. destruct B as (_ & E & _). exact E. }
    assert (Hpa : exit None (heads n1) <> Some a).
    { intros E. apply exit_in in E. apply Nha. apply in_app_iff. auto. }
    assert (Hqa : entry (heads n2) None <> Some a).
    { intros E. apply entry_in in E. apply Nha. apply in_app_iff. auto. }
    assert (Ena : n_next v a = entry l2 None).
    { rewrite V3, U3, upd_opt_out.
      - pose proof (k_next _ _ L') as B. apply fw_app in B. destruct B as (_ & E & _). exact E.
      - intros E. apply exit_in in E. apply N2. apply in_app_iff. auto. }
    assert (El1 : l1 = concat n1) by (unfold l1; now rewrite app_nil_r).
    assert (Ef : g_fhead v = match l1, l2 with [], [] => None | _, _ => match heads n1 with [] => Some a | _ => entry (heads n1) None end end).
    { rewrite V5, U5, (k_fhead _ _ G), Nh, entry_app. destruct l1, l2, (heads n1); reflexivity. }
    assert (El : g_lhead v = match l1, l2 with [], [] => None | _, _ => match heads n2 with [] => Some a | _ => exit None (heads n2) end end).
    { rewrite V6, U6, (k_lhead _ _ G), Nh, exit_app. cbn [exit]. destruct (heads n2) eqn:E2; [destruct l1, l2; reflexivity|].
      rewrite (exit_any _ _ None) by discriminate. destruct l1, l2; reflexivity. }
    assert (Eh1 : heads n1 = [] -> l1 = []).
    { intros E. pose proof (heads_length n1 Hne1) as X. rewrite E in X. destruct n1; [|discriminate]. exact El1. }
    assert (Eh2 : heads n2 = [] -> concat n2 = []).
    { intros E. pose proof (heads_length n2 Hne2) as X. rewrite E in X. destruct n2; [auto|discriminate]. }
    assert (Eh1' : heads n1 <> [] -> l1 <> []).
    { intros E E'. apply E. rewrite El1 in E'. destruct n1; auto. inv Hne1. destruct l; [contradiction|discriminate]. }
    assert (Eh2' : heads n2 <> [] -> concat n2 <> []).
    { intros E E'. apply E. destruct n2; auto. inv Hne2. destruct l; [contradiction|discriminate]. }
    destruct q as [|b q].
    + (* a group lost *)
      assert (Hd : s_delete (length l1) ns = n1 ++ n2).
      { unfold ns. rewrite El1. pose proof (delete_dec n1 [] a [] n2) as D. rewrite app_nil_r in D. exact D. }
      rewrite Hd in *.
      assert (Lost : match n_next v a with None => true | Some b => n_head v b end = true).
      { rewrite Ena, V11, U11. unfold l2. cbn [app]. destruct n2 as [|m n2]; auto. inv HH2. inv Hne2. destruct m; [contradiction|]. apply H1. }
      assert (EF : exists t, unhead a v = Ok t /\ same_list v t /\ n_head t = upd (n_head v) a false /\
        n_ph t = upd (upd_opt (n_ph v) (entry (heads n2) None) (exit None (heads n1))) a None /\
        n_nh t = upd (upd_opt (n_nh v) (exit None (heads n1)) (entry (heads n2) None)) a None /\ g_gcnt t = (g_gcnt v - 1)%Z /\
        g_fhead t = (if oeqb (g_fhead v) (Some a) then entry (heads n2) None else g_fhead v) /\
        g_lhead t = (if oeqb (g_lhead v) (Some a) then exit None (heads n1) else g_lhead v)).
      { unfold unhead. rewrite V11, U11, Eha. rewrite V11, U11 in Lost. rewrite Lost. cbn [bind fst snd]. eexists. split; [reflexivity|].
        assert (X : n_ph v a = exit None (heads n1)) by congruence. assert (Y : n_nh v a = entry (heads n2) None) by congruence.
        cbn [set_gcnt g_fhead]. destruct (oeqb (g_fhead v) (Some a)); cbn [set_fhead set_gcnt g_lhead]; destruct (oeqb (g_lhead v) (Some a));
          cbn [set_fhead set_lhead set_gcnt n_ph]; rewrite X; destruct (exit None (heads n1)) as [k|] eqn:Ek;
          cbn [on_some set_nh set_lhead set_fhead set_gcnt n_nh]; rewrite ?(upd_neq _ k _ a) by congruence; rewrite Y; destruct (entry (heads n2) None);
          cbn [on_some clear_group_head set_nh set_ph set_head set_fhead set_lhead set_gcnt g_first g_last g_cnt g_fhead g_lhead g_gcnt n_val n_prev n_next n_par n_head n_ph n_nh fresh upd_opt];
          rewrite ?V11, ?U11; repeat split; auto. }
      destruct EF as (t & Et & K & T1 & T2 & T3 & T4 & T5 & T6). apply (Rest t Et K). constructor.
      * apply Forall_app. auto.
      * rewrite T1, V11, U11. apply Forall_app. rewrite in_app_iff in N2. split.
        -- eapply heads_headed_ext; [|exact HH1]. intros y Hy. apply upd_neq. intros ->. apply N2. rewrite El1. auto.
        -- eapply heads_headed_ext; [|exact HH2]. intros y Hy. apply upd_neq. intros ->. apply N2. auto.
      * rewrite heads_app, T3, V13, U13. eapply fw_ext; [|apply (fw_delete (n_nh s) (heads n1) a (heads n2))]; auto.
        -- intros y Hy. apply upd_neq. intros ->. contradiction.
        -- rewrite <- Nh. apply G.
      * rewrite heads_app, T2, V12, U12. eapply bw_ext; [|apply (bw_delete (n_ph s) (heads n1) a (heads n2))]; auto.
        -- intros y Hy. apply upd_neq. intros ->. contradiction.
        -- rewrite <- Nh. apply G.
      * rewrite T5, heads_app, entry_app, Ef. unfold l2. cbn [app]. destruct (heads n1) as [|k1 hs1] eqn:E1.
        -- rewrite Eh1 by auto. destruct (heads n2) eqn:E2; [rewrite Eh2 by auto; reflexivity|].
           destruct (concat n2) eqn:E3; [exfalso; apply Eh2'; [discriminate|auto]|]. now rewrite oeqb_refl.
        -- assert (l1 <> []) by (apply Eh1'; discriminate). destruct l1; [contradiction|]. cbn [entry].
           rewrite oeqb_neq; auto. intros E. inv E. apply Nha. now left.
      * rewrite T6, heads_app, exit_app, El. unfold l2. cbn [app]. destruct (heads n2) as [|k2 hs2] eqn:E2.
        -- rewrite Eh2 by auto. cbn [exit]. destruct (heads n1) eqn:E1; [rewrite Eh1 by auto; reflexivity|].
           destruct l1; [exfalso; apply Eh1'; [discriminate|auto]|]. now rewrite oeqb_refl.
        -- assert (concat n2 <> []) by (apply Eh2'; discriminate). destruct (concat n2); [contradiction|].
           assert (X : (match l1 with [] => exit None (k2 :: hs2) | _ => exit None (k2 :: hs2) end) = exit (exit None (heads n1)) (k2 :: hs2)).
           { rewrite (exit_any _ (exit None (heads n1)) None) by discriminate. destruct l1; auto. }
           rewrite X. rewrite oeqb_neq; auto. rewrite (exit_any _ _ None) by discriminate. intros E. apply exit_in in E. apply Nha.
           apply in_app_iff. right. exact E.
      * rewrite T4, V8, U8, (k_gcnt _ _ G). unfold ns, zlen. rewrite !app_length. cbn. lia.
    + (* the head pushed on *)
      assert (Hd : s_delete (length l1) ns = n1 ++ (b :: q) :: n2).
      { unfold ns. rewrite El1. pose proof (delete_dec n1 [] a (b :: q) n2) as D. rewrite app_nil_r in D. exact D. }
      rewrite Hd in *. inv Fq. rename H1 into Ehb. rename H2 into Fq.
      assert (Hba : b <> a). { intros ->. apply N2. apply in_app_iff. right. now left. }
      assert (Hbh : ~ In b (heads ns)).
      { intros H. apply (headed_iff (n_head s)) in H; auto; [congruence|apply G|]. rewrite Ec. apply in_app_iff. right. right. now left. }
      rewrite Nh in Hbh.
      assert (Hpb : exit None (heads n1) <> Some b). { intros E. apply exit_in in E. apply Hbh. apply in_app_iff. auto. }
      assert (Hqb : entry (heads n2) None <> Some b). { intros E. apply entry_in in E. apply Hbh. apply in_app_iff. right. right. auto. }
      assert (EF : exists t, unhead a v = Ok t /\ same_list v t /\ n_head t = upd (upd (n_head v) b true) a false /\
        n_ph t = upd (upd_opt (upd (n_ph v) b (exit None (heads n1))) (entry (heads n2) None) (Some b)) a None /\
        n_nh t = upd (upd_opt (upd (n_nh v) b (entry (heads n2) None)) (exit None (heads n1)) (Some b)) a None /\ g_gcnt t = g_gcnt v /\
        g_fhead t = (if oeqb (g_fhead v) (Some a) then Some b else g_fhead v) /\
        g_lhead t = (if oeqb (g_lhead v) (Some a) then Some b else g_lhead v)).
      { unfold unhead. rewrite V11, U11, Eha, Ena. unfold l2. cbn [app entry]. rewrite Ehb. cbn [deref bind fst snd]. eexists. split; [reflexivity|].
        assert (X : n_ph v a = exit None (heads n1)) by congruence. assert (Y : n_nh v a = entry (heads n2) None) by congruence.
        cbn [set_nh set_ph set_head g_fhead n_ph n_nh]. rewrite X, Y.
        destruct (oeqb (g_fhead v) (Some a)); cbn [set_fhead set_nh set_ph set_head g_lhead]; destruct (oeqb (g_lhead v) (Some a));
          cbn [set_fhead set_lhead set_nh set_ph set_head n_ph]; rewrite (upd_neq _ b _ a), X by auto; destruct (exit None (heads n1)) as [k|] eqn:Ek;
          cbn [on_some set_nh set_ph set_head set_lhead set_fhead n_nh]; rewrite ?(upd_neq _ k _ a) by congruence; rewrite (upd_neq _ b _ a), Y by auto;
          destruct (entry (heads n2) None);
          cbn [on_some clear_group_head set_nh set_ph set_head set_fhead set_lhead set_gcnt g_first g_last g_cnt g_fhead g_lhead g_gcnt n_val n_prev n_next n_par n_head n_ph n_nh fresh upd_opt];
          rewrite ?V11, ?U11; repeat split. }
      destruct EF as (t & Et & K & T1 & T2 & T3 & T4 & T5 & T6). apply (Rest t Et K).
      assert (Nh' : heads (n1 ++ (b :: q) :: n2) = heads n1 ++ b :: heads n2) by now rewrite heads_app.
      assert (Hna : forall y, In y (heads n1 ++ b :: heads n2) -> y <> a).
      { intros y Hy ->. apply Nha. rewrite in_app_iff in *. cbn in Hy. destruct Hy as [|[|]]; auto. congruence. }
      assert (Hbn : ~ In b (concat n1) /\ ~ In b q /\ ~ In b (concat n2)).
      { apply NoDup_remove_2 in N1. unfold l2 in N1. cbn [app] in N1. rewrite El1, !in_app_iff in N1. tauto. }
      assert (Han : ~ In a (concat n1) /\ ~ In a q /\ ~ In a (concat n2)).
      { unfold l2 in N2. cbn [app] in N2. rewrite El1, in_app_iff in N2. cbn in N2. rewrite in_app_iff in N2. tauto. }
      destruct Hbn as (Hb1 & Hb2 & Hb3). destruct Han as (Ha1 & Ha2 & Ha3).
      constructor.
      * apply Forall_app. split; auto. constructor; [discriminate|auto].
      * rewrite T1, V11, U11. apply Forall_app. split; [|constructor; [split|]].
        -- eapply heads_headed_ext; [|exact HH1]. intros y Hy. rewrite !upd_neq; auto; intros ->; contradiction.
        -- rewrite upd_neq, upd_eq; auto.
        -- rewrite Forall_forall in *. intros y Hy. rewrite !upd_neq; auto; intros ->; contradiction.
        -- eapply heads_headed_ext; [|exact HH2]. intros y Hy. rewrite !upd_neq; auto; intros ->; contradiction.
      * rewrite Nh', T3, V13, U13. eapply fw_ext; [|apply (fw_replace (n_nh s) (heads n1) a (heads n2) b)]; auto.
        -- intros y Hy. rewrite upd_neq, Enh by now apply Hna. reflexivity.
        -- rewrite <- Nh. apply G.
      * rewrite Nh', T2, V12, U12. eapply bw_ext; [|apply (bw_replace (n_ph s) (heads n1) a (heads n2) b)]; auto.
        -- intros y Hy. rewrite upd_neq, Eph by now apply Hna. reflexivity.
        -- rewrite <- Nh. apply G.
      * rewrite T5, Nh', entry_app, Ef. unfold l2. cbn [app]. destruct (heads n1) as [|k1 hs1] eqn:E1; [destruct l1; now rewrite oeqb_refl|].
        assert (Hk : k1 <> a) by (intros ->; apply Nha; now left).
        destruct l1; cbn [entry]; rewrite oeqb_neq; auto; congruence.
      * rewrite T6, Nh', exit_app, El. unfold l2. cbn [app exit]. destruct (heads n2) as [|k2 hs2] eqn:E2; [destruct l1; now rewrite oeqb_refl|].
        assert (Hk : exit None (k2 :: hs2) <> Some a).
        { intros E. apply exit_in in E. apply Nha. apply in_app_iff. now right. }
        destruct l1; rewrite oeqb_neq; auto; apply exit_any; discriminate.
      * rewrite T4, V8, U8, (k_gcnt _ _ G). unfold ns, zlen. rewrite !app_length. reflexivity.
  - (* not a head *)
    destruct HHp as (Ehh & F). cbn [app] in *. apply Forall_app in F. destruct F as (Fp & Fq). inv Fq. rename H1 into Eha. rename H2 into Fq.
    assert (Eun : unhead a v = Ok v) by (unfold unhead; now rewrite V11, U11, Eha).
    assert (Hd : s_delete (length l1) ns = n1 ++ (h :: p ++ q) :: n2).
    { unfold ns, l1. pose proof (delete_dec n1 (h :: p) a q n2) as D. cbn [app] in D. exact D. }
    apply (Rest v Eun); [repeat split|]. rewrite Hd.
    assert (Nh : heads (n1 ++ (h :: p ++ q) :: n2) = heads ns) by (unfold ns; now rewrite !heads_app).
    assert (El1 : forall (B : Type) (x y : B), match l1, l2 with [], [] => x | _, _ => y end = y).
    { intros B y z. unfold l1. destruct (concat n1); reflexivity. }
    constructor; rewrite ?Nh.
    + apply Forall_app. split; auto. constructor; [discriminate|auto].
    + rewrite V11, U11. apply Forall_app. split; auto. constructor; auto. split; auto. apply Forall_app. auto.
    + rewrite V13, U13. apply G.
    + rewrite V12, U12. apply G.
    + rewrite V5, U5, El1. apply G.
    + rewrite V6, U6, El1. apply G.
    + rewrite V8, U8, (k_gcnt _ _ G). unfold ns, zlen. rewrite !app_length. reflexivity.
Qed.
End Pop.
