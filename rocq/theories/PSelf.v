(** * PSelf: a list minus itself in place. *)
From Coq Require Import List ZArith Bool Lia Sorted Permutation.
From Verif Require Import Base Books Data MVerse MRange Spec PList PCore PNav PVerse PRange
  PSetOps PSetSpec MSeq MList PSort SpecList PRegroup PMerge PListOps PMerge2 PListDiff MGroup SpecGroup PGroup PGroup2 PGroup6 PGroup7 PGroup8
  MNode SpecNode PNode PNode2 MSelf.
Import ListNotations.
Import Spec.
Open Scope Z_scope.

Lemma two_places : forall {B} (l1 l2 m1 m2 : list B) x y, l1 ++ x :: l2 = m1 ++ y :: m2 ->
  (l1 = m1 /\ x = y /\ l2 = m2) \/ (exists k, l1 = m1 ++ y :: k /\ m2 = k ++ x :: l2) \/ (exists k, m1 = l1 ++ x :: k /\ l2 = k ++ y :: m2).
Proof.
  induction l1 as [|p l1 IH]; intros l2 m1 m2 x y E; destruct m1 as [|q m1]; cbn in E; injection E as -> E.
  - left. auto.
  - right. right. exists m1. auto.
  - right. left. exists l1. auto.
  - destruct (IH _ _ _ _ _ E) as [(-> & -> & ->)|[(k & -> & ->)|(k & -> & ->)]]; [left; auto|right; left; exists k; auto|right; right; exists k; auto].
Qed.

Section Self.
Variable e : env.
Notation d := (ed e).
Hypothesis Hwf : wf_data d.
Variable fl : option flag.
Notation z := (zero_on e fl).
Hypothesis Hz : z = verse0 (eg e).
Notation wfz := (wf_range d z).
Notation vals h := (map snd (concat h)).

Definition apart (l : list range) : Prop := ForallOrdPairs (fun x y => ~ overlap d x y) l.
Lemma overlap_sym : forall x y, overlap d x y -> overlap d y x.
Proof. intros x y (v & H1 & H2). exists v. auto. Qed.
Lemma apart_two : forall l1 x l2 y l3, apart (l1 ++ x :: l2 ++ y :: l3) -> ~ overlap d x y.
Proof.
  induction l1 as [|p l1 IH]; intros x l2 y l3 H; inversion H as [|? ? H1 H2]; subst.
  - rewrite Forall_forall in H1. apply H1. apply in_or_app. right. now left.
  - eapply IH; eauto.
Qed.

(** One list is what became of another. *)
Record become (m l : list range) : Prop := {
  bc_wf : Forall wfz m;
  bc_same : forall v, InB d z v -> (InL d v m <-> InL d v l);
  bc_part : forall x, In x m -> exists y, In y l /\ within e x y;
  bc_size : (sizes e m <= sizes e l)%nat;
  bc_len : (length l <= length m)%nat;
  bc_apart : apart l -> m = l }.
Lemma become_refl : forall l, Forall wfz l -> become l l.
Proof. intros l H. constructor; auto; try tauto; try lia. intros x Hx. exists x. split; auto. unfold within. lia. Qed.
Lemma become_trans : forall a b c, become c b -> become b a -> become c a.
Proof.
  intros a b c [A1 A2 A3 A4 A5 A6] [B1 B2 B3 B4 B5 B6]. constructor; auto; try lia.
  - intros v Hv. now rewrite (A2 v Hv), (B2 v Hv).
  - intros x Hx. destruct (A3 x Hx) as (y & Hy & W). destruct (B3 y Hy) as (w & Hw & W'). exists w. split; auto. unfold within in *. lia.
  - intros H. assert (b = a) by auto. subst b. auto.
Qed.

(** One range of the list minus another one of the list. *)
Lemma become_step : forall l1 x l2 y ds, Forall wfz (l1 ++ x :: l2) -> In y (l1 ++ l2) ->
  (exists k1 k2 k3, l1 ++ x :: l2 = k1 ++ y :: k2 ++ x :: k3 \/ l1 ++ x :: l2 = k1 ++ x :: k2 ++ y :: k3) ->
  difference e x y fl = Ok ds -> ds <> [] -> become (l1 ++ ds ++ l2) (l1 ++ x :: l2).
Proof.
  intros l1 x l2 y ds Hl Hy Hp E Hne. apply Forall_app in Hl. destruct Hl as (W1 & W2). inversion W2 as [|? ? Wx W3]; subst.
  assert (Wy : wfz y).
  { apply in_app_or in Hy. rewrite Forall_forall in W1, W3. destruct Hy; auto. }
  pose proof (size_pos e Hwf fl x Wx) as Px.
  assert (Hn : apart (l1 ++ x :: l2) -> ~ overlap d x y).
  { intros Ha. destruct Hp as (k1 & k2 & k3 & [Ep|Ep]); rewrite Ep in Ha; apply apart_two in Ha; auto. intros K. now apply Ha, overlap_sym. }
  destruct (diff_struct e Hwf fl Hz x y ds Wx Wy E) as [(Hd & ->)|[(Hi & ->)|(Ho & Hi & _ & Hpc & Hs)]]; [|congruence|].
  { apply become_refl. apply Forall_app. auto. }
  assert (Wd : Forall wfz ds) by (eapply Forall_impl; [|exact Hpc]; intros p Hp'; apply Hp').
  constructor.
  - apply Forall_app. split; auto. apply Forall_app. auto.
  - intros v Hv. rewrite !InL_app, InL_cons. pose proof (difference_sound e Hwf x y fl ds v Hz Wx Wy E Hv) as D.
    assert (Dy : InR d v y \/ ~ InR d v y).
    { destruct (InL_dec e Hwf v [y]) as [K|K].
      - constructor; [eapply wfz_t; eauto|constructor].
      - left. apply InL_cons in K. destruct K as [K|K]; auto. now apply InL_nil in K.
      - right. intros K'. apply K. apply InL_cons. now left. }
    assert (Ky : InR d v y -> InL d v l1 \/ InL d v l2).
    { intros K. apply in_app_or in Hy. destruct Hy as [Hy|Hy]; [left|right]; exists y; auto. }
    tauto.
  - intros p Hp'. apply in_app_or in Hp'. destruct Hp' as [Hp'|Hp']; [|apply in_app_or in Hp'; destruct Hp' as [Hp'|Hp']].
    + exists p. split; [apply in_or_app; auto|unfold within; lia].
    + exists x. split; [apply in_or_app; right; now left|]. rewrite Forall_forall in Hpc. apply (Hpc p Hp').
    + exists p. split; [apply in_or_app; right; now right|unfold within; lia].
  - rewrite !sizes_app. cbn [sizes]. lia.
  - rewrite !app_length. cbn. destruct ds; [congruence|cbn; lia].
  - intros Ha. exfalso. now apply (Hn Ha).
Qed.
Lemma step_fails : forall l1 x l2 y ex, Forall wfz (l1 ++ x :: l2) -> In y (l1 ++ x :: l2) ->
  difference e x y fl = Err ex -> ex <> Diverge.
Proof.
  intros l1 x l2 y ex Hl Hy E K. subst ex. rewrite Forall_forall in Hl.
  apply (inner_no_diverge e Hwf fl Hz [y] x); [apply Hl; apply in_or_app; right; now left|constructor; [auto|constructor]|].
  cbn [diff_inner]. rewrite E. reflexivity.
Qed.
Lemma sizes_len : forall l, Forall wfz l -> (length l <= sizes e l)%nat.
Proof.
  induction l as [|x l IH]; intros H; cbn [length sizes]; [lia|]. inversion H as [|? ? H1 H2]; subst. pose proof (size_pos e Hwf fl x H1). specialize (IH H2). lia.
Qed.

Lemma self_inner_state : forall T n (s : heap) h O l1 a x l2 m1 m2, state s h O ->
  concat h = l1 ++ (a, x) :: l2 -> concat h = m1 ++ m2 -> Forall wfz (vals h) ->
  exists s' h' q, n_self_inner e fl n (entry (map fst m2) None) a s = (s', q) /\ state s' h' O /\ become (vals h') (vals h) /\
    (forall b, q = Ok b -> exists x' l2', concat h' = l1 ++ (b, x') :: l2' /\ (length l2' + length (concat h) = length l2 + length (concat h'))%nat) /\
    ((sizes e (vals h) <= T)%nat -> (T - length (concat h) + length m2 <= n)%nat -> q <> Err Diverge) /\
    (apart (vals h) -> (sizes e (vals h) <= T)%nat -> (T - length (concat h) + length m2 <= n)%nat -> exists b, q = Ok b).
Proof.
  intros T. induction n as [|n IH]; intros s h O l1 a x l2 m1 m2 H E Em W; destruct m2 as [|(b & y) m2]; cbn [map fst entry n_self_inner].
  - exists s, h, (Ok a). split; [reflexivity|]. split; [exact H|]. split; [now apply become_refl|]. split; [|split; [discriminate|eauto]].
    intros b [= <-]. exists x, l2. split; auto.
  - exists s, h, (Err Diverge). split; [reflexivity|]. split; [exact H|]. split; [now apply become_refl|]. split; [discriminate|].
    cbn [length]. split; intros; lia.
  - exists s, h, (Ok a). split; [reflexivity|]. split; [exact H|]. split; [now apply become_refl|]. split; [|split; [discriminate|eauto]].
    intros b [= <-]. exists x, l2. split; auto.
  - rewrite (flat_value s h O _ _ _ _ H E), (flat_value s h O _ _ _ _ H Em). cbn [bind].
    assert (Ev : vals h = map snd l1 ++ x :: map snd l2) by (rewrite E, map_app; reflexivity).
    assert (Em' : concat h = (m1 ++ [(b, y)]) ++ m2) by (rewrite <- app_assoc; exact Em).
    assert (Wx : wfz x) by (rewrite Forall_forall in W; apply W; rewrite Ev; apply in_or_app; right; now left).
    assert (Hy : In y (map snd l1 ++ x :: map snd l2)) by (rewrite <- Ev, Em, map_app; apply in_or_app; right; now left).
    pose proof (sizes_len _ W) as Ls. rewrite map_length in Ls.
    rewrite (flat_next s h O _ _ _ _ H Em).
    assert (Skip : exists s' h' q, n_self_inner e fl n (entry (map fst m2) None) a s = (s', q) /\ state s' h' O /\ become (vals h') (vals h) /\
      (forall b, q = Ok b -> exists x' l2', concat h' = l1 ++ (b, x') :: l2' /\ (length l2' + length (concat h) = length l2 + length (concat h'))%nat) /\
      ((sizes e (vals h) <= T)%nat -> (T - length (concat h) + length ((b, y) :: m2) <= S n)%nat -> q <> Err Diverge) /\
      (apart (vals h) -> (sizes e (vals h) <= T)%nat -> (T - length (concat h) + length ((b, y) :: m2) <= S n)%nat -> exists b, q = Ok b)).
    { destruct (IH s h O l1 a x l2 _ m2 H E Em' W) as (s' & h' & q & E' & S' & B' & P' & D' & A'). exists s', h', q.
      split; [exact E'|]. split; [exact S'|]. split; [exact B'|]. split; [exact P'|]. cbn [length].
      split; [intros; apply D'; lia|intros; apply A'; auto; lia]. }
    pose proof (eq_trans (eq_sym E) Em) as Et. apply two_places in Et.
    destruct Et as [(_ & [= -> ->] & _)|Ht].
    { assert (Ed : difference e y y fl = Ok []).
      { apply (difference_covered e Hwf); auto; eapply wfz_t; eauto. }
      rewrite Ed. exact Skip. }
    destruct (difference e x y fl) as [ds|ex] eqn:Ed.
    2:{ exists s, h, (Err ex). split; [reflexivity|]. split; [exact H|]. split; [now apply become_refl|]. split; [discriminate|]. split.
        - intros _ _ [= K]. rewrite Ev in W. exact (step_fails _ _ _ _ _ W Hy Ed K).
        - intros Ha. exfalso. assert (No : ~ overlap d x y).
          { destruct Ht as [(k & K1 & K2)|(k & K1 & K2)].
            - rewrite Em, K2, map_app in Ha. cbn in Ha. rewrite map_app in Ha. cbn in Ha. apply apart_two in Ha. intros K. now apply Ha, overlap_sym.
            - rewrite E, K2, map_app in Ha. cbn in Ha. rewrite map_app in Ha. cbn in Ha. now apply apart_two in Ha. }
          rewrite (difference_disjoint e Hwf) in Ed; [discriminate| | |exact No]; eapply wfz_t; eauto.
          rewrite Forall_forall in W. apply W. rewrite Ev. exact Hy. }
    destruct ds as [|d0 ds]; [exact Skip|].
    destruct (put_before_state (rev (d0 :: ds)) s h O l1 a x l2 H E) as (c & u & h1 & P & Eu & S1 & C1 & V1 & B1). rewrite Eu. cbn [bind fst snd].
    rewrite rev_involutive in V1. destruct P as [|(c' & d') P]; [discriminate|]. cbn [map fst snd entry] in *. injection B1 as ->. injection V1 as -> V1.
    assert (C1' : concat h1 = (l1 ++ (c', d0) :: P) ++ (a, x) :: l2) by (rewrite C1, <- app_assoc; reflexivity).
    destruct (flat_pop u h1 O _ _ _ _ S1 C1') as (w & h2 & Ew & S2 & C2). rewrite Ew. cbn [bind fst snd].
    rewrite <- app_assoc in C2. cbn [app] in C2.
    assert (Ev2 : vals h2 = map snd l1 ++ (d0 :: ds) ++ map snd l2).
    { rewrite C2, map_app. cbn. now rewrite map_app, V1. }
    assert (Hy' : In y (map snd l1 ++ map snd l2)).
    { apply in_or_app. destruct Ht as [(k & K1 & K2)|(k & K1 & K2)]; [left; rewrite K1|right; rewrite K2]; rewrite map_app; apply in_or_app; right; now left. }
    assert (B2 : become (vals h2) (vals h)).
    { rewrite Ev, Ev2. apply (become_step _ _ _ y); auto; [now rewrite <- Ev| |discriminate].
      destruct Ht as [(k & K1 & K2)|(k & K1 & K2)].
      - exists (map snd m1), (map snd k), (map snd l2). left. rewrite <- Ev, Em, K2, map_app. cbn. rewrite map_app. reflexivity.
      - exists (map snd l1), (map snd k), (map snd m2). right. rewrite K2, map_app. reflexivity. }
    assert (Next : exists m1' m2', concat h2 = m1' ++ (b, y) :: m2' /\ (length m2' + length (concat h) <= length m2 + length (concat h2))%nat).
    { destruct Ht as [(k & K1 & K2)|(k & K1 & K2)].
      - exists m1, (k ++ (c', d0) :: P ++ l2). split; [rewrite C2, K1, <- app_assoc; reflexivity|].
        rewrite C2, E, K2, !app_length. cbn. rewrite !app_length. lia.
      - exists (l1 ++ (c', d0) :: P ++ k), m2. split; [rewrite C2, K2, <- app_assoc; cbn; rewrite <- app_assoc; reflexivity|].
        rewrite C2, E, !app_length. cbn. rewrite !app_length. lia. }
    destruct Next as (m1' & m2' & N1 & N2). rewrite (flat_next w h2 O _ _ _ _ S2 N1).
    assert (N1' : concat h2 = (m1' ++ [(b, y)]) ++ m2') by (rewrite <- app_assoc; exact N1).
    pose proof (bc_wf _ _ B2) as W2. pose proof (bc_size _ _ B2) as Z2. pose proof (bc_apart _ _ B2) as A2. pose proof (sizes_len _ W2) as L2. rewrite map_length in L2.
    destruct (IH w h2 O l1 c' d0 (P ++ l2) _ m2' S2 C2 N1' W2) as (s' & h' & q & E' & S' & B' & P' & D' & A').
    exists s', h', q. split; [exact E'|]. split; [exact S'|]. split; [eapply become_trans; eauto|]. split.
    { intros b' Eq. destruct (P' b' Eq) as (x' & l2' & Q1 & Q2). exists x', l2'. split; auto. rewrite C2, E in *. rewrite !app_length in *. cbn [length] in *. rewrite !app_length in *. lia. }
    cbn [length]. split.
    { intros T1 T2. apply D'; lia. }
    intros Ha T1 T2. apply A'; [now rewrite (A2 Ha)|lia|lia].
Qed.
Lemma self_loop_state : forall T k, (T <= k)%nat -> forall n (s : heap) h O l1 l2, state s h O -> concat h = l1 ++ l2 -> Forall wfz (vals h) -> (sizes e (vals h) <= T)%nat ->
  (T - length (concat h) + length l2 <= n)%nat ->
  exists s' h' q, n_self_loop e fl n k (entry (map fst l2) None) s = (s', q) /\ state s' h' O /\ become (vals h') (vals h) /\ q <> Err Diverge /\
    (apart (vals h) -> q = Ok tt).
Proof.
  intros T k Hk. induction n as [|n IH]; intros s h O l1 l2 H E W HT Hn; destruct l2 as [|(a & x) l2]; cbn [map fst entry n_self_loop].
  - exists s, h, (Ok tt). split; [reflexivity|]. split; [exact H|]. split; [now apply become_refl|]. split; [discriminate|auto].
  - exfalso. cbn [length] in Hn. lia.
  - exists s, h, (Ok tt). split; [reflexivity|]. split; [exact H|]. split; [now apply become_refl|]. split; [discriminate|auto].
  - pose proof (sizes_len _ W) as Ls. rewrite map_length in Ls. rewrite (flat_first s h O H).
    destruct (self_inner_state T k s h O l1 a x l2 [] (concat h) H E eq_refl W) as (u & h1 & q & E1 & S1 & B1 & P1 & D1 & A1). rewrite E1.
    assert (D1' : q <> Err Diverge) by (apply D1; lia).
    pose proof (bc_wf _ _ B1) as W1. pose proof (bc_size _ _ B1) as Z1. pose proof (sizes_len _ W1) as L1. rewrite map_length in L1.
    destruct q as [b|ex].
    + destruct (P1 b eq_refl) as (x' & l2' & C1 & N1). rewrite (flat_next u h1 O _ _ _ _ S1 C1).
      assert (C1' : concat h1 = (l1 ++ [(b, x')]) ++ l2') by (rewrite <- app_assoc; exact C1).
      cbn [length] in Hn. pose proof (bc_len _ _ B1) as Le. rewrite !map_length in Le.
      destruct (IH u h1 O _ l2' S1 C1' W1) as (s' & h' & q & E' & S' & B' & D' & A'); [lia|lia|].
      exists s', h', q. split; [exact E'|]. split; [exact S'|]. split; [eapply become_trans; eauto|]. split; [exact D'|].
      intros Ha. apply A'. now rewrite (bc_apart _ _ B1 Ha).
    + exists u, h1, (Err ex). split; [reflexivity|]. split; [exact S1|]. split; [exact B1|]. split; [congruence|].
      intros Ha. destruct (A1 Ha) as (b & K); [lia|lia|discriminate].
Qed.

(** More steps change nothing. *)
Lemma self_inner_more : forall n n' q a s, (n <= n')%nat -> snd (n_self_inner e fl n q a s) <> Err Diverge ->
  n_self_inner e fl n' q a s = n_self_inner e fl n q a s.
Proof.
  induction n as [|n IH]; intros n' q a s Hn Hd; (destruct q as [b|]; [|now destruct n']).
  - cbn in Hd. congruence.
  - destruct n' as [|n']; [lia|]. cbn [n_self_inner] in *. destruct (x <- value s a ;; y <- value s b ;; difference e x y fl) as [[|d0 ds]|ex]; [apply IH; auto; lia| |reflexivity].
    destruct (q <- n_put_before (rev (d0 :: ds)) a s ;; r <- pop_node (Some a) (snd q) ;; Ok (fst q, snd r)) as [[a' s']|ex]; [apply IH; auto; lia|reflexivity].
Qed.
Lemma self_loop_more : forall n n' k k' p s, (n <= n')%nat -> (k <= k')%nat -> snd (n_self_loop e fl n k p s) <> Err Diverge ->
  n_self_loop e fl n' k' p s = n_self_loop e fl n k p s.
Proof.
  induction n as [|n IH]; intros n' k k' p s Hn Hk Hd; (destruct p as [a|]; [|now destruct n']).
  - cbn in Hd. congruence.
  - destruct n' as [|n']; [lia|]. cbn [n_self_loop] in *. pose proof (self_inner_more k k' (g_first s) a s Hk) as M.
    destruct (n_self_inner e fl k (g_first s) a s) as [u [b|ex]]; cbn [snd] in *; rewrite M by congruence; [apply IH; auto; lia|reflexivity].
Qed.
End Self.
