(** * PropStack: sorting with Python's limited stack (C79). *)
From Coq Require Import List ZArith Bool Arith Lia Permutation Sorted.
From Verif Require Import Base Books Chars Regex Data MVerse MRange MSeq MList MGroup MNode MSort MStack SpecGroup SpecStack Spec DefaultData.
From Verif Require Import PDefault PCore PVerse PSort PGroup PGroup2 PGroup4 PGroup5 PGroup6 PGroup7 PGroup8 PNode PNode2 PropGroup PSort2 PropSort PStack PStack2.
Import ListNotations.
Open Scope nat_scope.

(** ** C79 *)
Section Base.
Context {A : Type}.
Variable leb : A -> A -> bool.
Variable cmp : A -> A -> nat.
Lemma sort_k_state : forall (s : glist A) h O room, state s h O -> let xs := concat (values h) in
  (stack_need leb cmp xs <= room -> exists t, sort_k leb cmp room s = (t, Ok tt) /\ sort leb s = Ok t) /\
  (room < stack_need leb cmp xs -> exists t, sort_k leb cmp room s = (t, Err RecErr) /\
     ((t = s /\ room < 3) \/
      (2 <= length xs /\ 3 <= room /\ torn xs (zlen h) t /\ forall a x, In (a, x) (concat h) -> view_iter (Some a) t = Err GroupViewErr))).
Proof.
  intros s h O room S xs. destruct (sort_k_rep leb cmp s _ _ (st_rep _ _ _ S) room) as (H1 & H2). split; [exact H1|]. intros Hr.
  destruct (H2 Hr) as (t & E & [L|(front & back & r1 & r2 & Hl & Hr3 & I1 & I2 & N1 & N2 & F1 & F2 & P1 & P2 & C1 & C2 & G & V)]); exists t; (split; [exact E|]); [left; exact L|right].
  split; [exact Hl|]. split; [exact Hr3|]. destruct (state_cnt _ _ _ S) as (K1 & K2). split.
  - split; [rewrite C1, K1; unfold zlen; f_equal; unfold xs; rewrite values_items; now rewrite map_length|]. split; [unfold group_count; now rewrite C2, K2|].
    split; auto. exists front, back, r1, r2. repeat split; auto.
  - intros a x Hi. assert (Ha : In a (concat (serials h))) by (rewrite serials_items; apply in_map_iff; exists (a, x); auto). now apply V.
Qed.
End Base.

(** What the stack needs is known exactly: with that much room the list is sorted as in C30, with less [RecursionError] is raised.  The
    list is then as before if there was room for two calls at most, and torn as in C75 otherwise. *)
Theorem C79_exact : forall A (eqb leb0 leb : A -> A -> bool) cmp os s h room, holds eqb leb0 os s h -> let xs := concat (values h) in
  (stack_need leb cmp xs <= room -> exists t, sort_k leb cmp room s = (t, Ok tt) /\ sort leb s = Ok t) /\
  (room < stack_need leb cmp xs -> exists t, sort_k leb cmp room s = (t, Err RecErr) /\
     ((t = s /\ room < 3) \/
      (2 <= length xs /\ 3 <= room /\ torn xs (zlen h) t /\ forall a x, In (a, x) (concat h) -> view_iter (Some a) t = Err GroupViewErr))).
Proof. intros A eqb leb0 leb cmp os s h room H. destruct (holds_state _ _ _ _ _ _ H) as (O & S & _). exact (sort_k_state leb cmp s h O room S). Qed.
(** Room for as many calls as there are items, and for a comparison, is enough, whatever the items. *)
Theorem C79_enough : forall A (eqb leb0 leb : A -> A -> bool) cmp os s h room c, holds eqb leb0 os s h -> let xs := concat (values h) in
  (forall x y, In x xs -> In y xs -> cmp x y <= c) -> 1 <= c -> 2 <= room -> length xs + c <= room -> exists t, sort_k leb cmp room s = (t, Ok tt) /\ sort leb s = Ok t.
Proof.
  intros A eqb leb0 leb cmp os s h room c H xs Hc H1 H2 Hr. apply (C79_exact _ eqb leb0 leb cmp os s h room H). unfold stack_need. fold xs.
  pose proof (sort_upper leb cmp c (length xs) true xs (le_n _) Hc) as U. destruct (length xs <=? 1); lia.
Qed.
(** Half of that is not enough, whatever the items. *)
Theorem C79_too_long : forall A (eqb leb0 leb : A -> A -> bool) cmp os s h room c, holds eqb leb0 os s h -> let xs := concat (values h) in
  (forall x y, In x xs -> In y xs -> c <= cmp x y) -> 1 <= c -> 2 <= length xs -> room <= Nat.div2 (length xs) + c -> exists t, sort_k leb cmp room s = (t, Err RecErr) /\
  (3 <= room -> torn xs (zlen h) t /\ forall a x, In (a, x) (concat h) -> view_iter (Some a) t = Err GroupViewErr).
Proof.
  intros A eqb leb0 leb cmp os s h room c H xs Hc H1 H2 Hr. destruct (C79_exact _ eqb leb0 leb cmp os s h room H) as (_ & X). fold xs in X.
  pose proof (sort_lower leb cmp c (length xs) true xs H2 (le_n _) Hc) as U. destruct X as (t & E & T).
  { unfold stack_need. lia. } exists t. split; auto. intros H3. destruct T as [(_ & X)|(_ & _ & X)]; [lia|exact X].
Qed.
(** A list that is in order already needs half; for every length there is a list that needs all. *)
Theorem C79_sharp : forall A (leb : A -> A -> bool) c xs n, 1 <= c ->
  (2 <= length xs -> StronglySorted (fun x y => leb x y = true) xs -> stack_need leb (fun _ _ => c) xs = S (Nat.div2 (S (length xs))) + c) /\
  (2 <= n -> length (alternating n) = n /\ stack_need Nat.leb (fun _ _ => c) (alternating n) = n + c).
Proof.
  intros A leb c xs n Hc. split.
  - intros Hl Hs. unfold stack_need. rewrite (sort_frames_sorted leb (fun _ _ => c) c); auto. assert (1 <= Nat.div2 (S (length xs))) by (destruct (length xs) as [|m]; [lia|]; cbn [Nat.div2]; lia). lia.
  - intros Hn. split; [apply alternating_length|]. unfold stack_need. rewrite alternating_length, sort_frames_alternating by lia. lia.
Qed.
Example C79_ex : alternating 7 = [0; 2; 4; 6; 1; 3; 5] /\
  (let s := snd (h_run Nat.eqb Nat.leb [OAppendGroup [0; 2]; OAppendGroup [4; 6; 1; 3; 5]] g_new) in
   (exists h, holds Nat.eqb Nat.leb [OAppendGroup [0; 2]; OAppendGroup [4; 6; 1; 3; 5]] s h /\ concat (values h) = alternating 7) /\
   let run r := sort_k Nat.leb (fun _ _ => 2) r s in
   (to_nested_lists (fst (run 9)), snd (run 9)) = (Ok [[0; 1; 2; 3; 4; 5; 6]], Ok tt) /\
   (snd (run 8), g_iter (fst (run 8)), g_reversed (fst (run 8)), g_cnt (fst (run 8)), group_count (fst (run 8)), to_nested_lists (fst (run 8))) =
     (Err RecErr, Ok [0; 2; 4; 6], Ok [5; 3; 1], 7%Z, 2%Z, Err GroupViewErr) /\
   (snd (run 2), to_nested_lists (fst (run 2))) = (Err RecErr, Ok [[0; 2]; [4; 6; 1; 3; 5]])).
Proof.
  split; [reflexivity|]. split; [|vm_compute; repeat split]. eexists. split; [eexists; split; vm_compute; reflexivity|vm_compute; reflexivity].
Qed.

(** ** Lists of ranges *)
Lemma k_sort_state : forall cmp e (s : heap) h O room, state s h O -> let xs := concat (values h) in
  (S (stack_need (rleb e) cmp xs) <= room -> (forall re, k_sort cmp e room re s = n_sort e re s) /\ forall fl, k_merge cmp e (S room) fl s = n_merge e fl s) /\
  (room < S (stack_need (rleb e) cmp xs) -> exists t, (t = s /\ room < 4 \/ torn xs (zlen h) t) /\
     (forall re, k_sort cmp e room re s = (t, Err RecErr)) /\ forall fl, k_merge cmp e (S room) fl s = (t, Err RecErr)).
Proof.
  intros cmp e s h O room S xs. destruct room as [|r].
  - split; [lia|]. intros _. exists s. split; [left; split; [reflexivity|lia]|]. split; reflexivity.
  - destruct (sort_k_state (rleb e) cmp s h O r S) as (H1 & H2). split; intros Hr.
    + destruct (H1 (proj2 (Nat.succ_le_mono _ _) Hr)) as (t & E & E'). unfold k_merge, k_sort, n_merge, n_sort, call. rewrite E, E'. split; reflexivity.
    + destruct (H2 (proj2 (Nat.succ_lt_mono _ _) Hr)) as (t & E & T). exists t. split; [destruct T as [(-> & T)|(_ & _ & T & _)]; [left; split; [reflexivity|lia]|right; exact T]|].
      unfold k_merge, k_sort. rewrite E. split; reflexivity.
Qed.
(** [sort] and [merge] of a list of ranges: enough room, and too little. *)
Theorem C79_ranges : forall eqb leb0 cmp e os s h room, holds eqb leb0 os s h -> let xs := concat (values h) in
  (S (stack_need (rleb e) cmp xs) <= room -> (forall re, k_sort cmp e room re s = n_sort e re s) /\ forall fl, k_merge cmp e (S room) fl s = n_merge e fl s) /\
  (room < S (stack_need (rleb e) cmp xs) -> exists t, (t = s /\ room < 4 \/ torn xs (zlen h) t) /\
     (forall re, k_sort cmp e room re s = (t, Err RecErr)) /\ forall fl, k_merge cmp e (S room) fl s = (t, Err RecErr)).
Proof. intros eqb leb0 cmp e os s h room H. destruct (holds_state _ _ _ _ _ _ H) as (O & S & _). exact (k_sort_state cmp e s h O room S). Qed.
(** [union_update] with other ranges [ys], and [contains]. *)
Theorem C79_union_contains : forall eqb leb0 cmp e os s h room x ys fl, holds eqb leb0 os s h -> ref_ranges e x = Ok ys -> let xs := concat (values h) in
  (3 + stack_need (rleb e) cmp (xs ++ ys) <= room -> k_union_update cmp e room x fl s = n_union_update e x fl s) /\
  (room < 3 + stack_need (rleb e) cmp (xs ++ ys) -> exists t, k_union_update cmp e room x fl s = (t, Err RecErr)) /\
  (3 + stack_need (rleb e) cmp xs <= room -> k_contains cmp e room x fl s = l_contains e (values h) x fl) /\
  (room < 3 + stack_need (rleb e) cmp xs -> k_contains cmp e room x fl s = Err RecErr).
Proof.
  intros eqb leb0 cmp e os s h room x ys fl H E xs. destruct (holds_state _ _ _ _ _ _ H) as (O & S & _).
  assert (M : forall (t : heap) h' O', state t h' O' -> let zs := concat (values h') in let p := match room with 0 => raise t RecErr | S r => k_merge cmp e r fl t end in
    (3 + stack_need (rleb e) cmp zs <= room -> p = n_merge e fl t) /\ (room < 3 + stack_need (rleb e) cmp zs -> exists u, p = (u, Err RecErr))).
  { intros t h' O' St zs p. unfold p. destruct room as [|[|r]]; [split; [lia|intros _; exists t; reflexivity]|split; [lia|intros _; exists t; reflexivity]|].
    destruct (k_sort_state cmp e t h' O' r St) as (H1 & H2). fold zs in H1, H2. split; intros Hr.
    - apply H1. lia.
    - destruct H2 as (u & _ & _ & E2); [lia|]. exists u. apply E2. }
  split; [|split; [|split]].
  - intros Hr. unfold k_union_update, n_union_update, let_run. rewrite E. destruct (extend_values ys s h O S) as (t & h' & Et & S' & V). unfold call. rewrite Et. cbn [seq_run].
    assert (I : xs ++ ys = concat (values h')). { rewrite V. symmetry. exact (items_extend ys (values h)). } rewrite I in *. now apply (M t h' O S').
  - intros Hr. unfold k_union_update, let_run. rewrite E. destruct (extend_values ys s h O S) as (t & h' & Et & S' & V). unfold call. rewrite Et. cbn [seq_run].
    assert (I : xs ++ ys = concat (values h')). { rewrite V. symmetry. exact (items_extend ys (values h)). } rewrite I in *. now apply (M t h' O S').
  - intros Hr. unfold k_contains, l_contains. rewrite E. cbn [bind]. destruct (copy_gives s h O S) as (t & h2 & Et & S2 & V). rewrite Et. cbn [bind].
    rewrite (copy_same s h O S). unfold xs in Hr. rewrite <- V in Hr. destruct (M t h2 [] S2) as (X & _). rewrite (X Hr).
    destruct (merge_ends e fl t h2 [] S2) as (h' & S' & Q & _ & G).
    destruct (n_merge e fl t) as (u & q). cbn [fst snd] in *. subst q. rewrite V in *. destruct (merge e fl (values h)) as [m|]; [|reflexivity]. cbn [unit_of bind].
    destruct (read_state u h' [] S') as (-> & _). cbn [bind]. specialize (G m eq_refl). rewrite <- G. reflexivity.
  - intros Hr. unfold k_contains. rewrite E. cbn [bind]. destruct (copy_gives s h O S) as (t & h2 & Et & S2 & V). rewrite Et. cbn [bind].
    unfold xs in Hr. rewrite <- V in Hr. destruct (M t h2 [] S2) as (_ & X). destruct (X Hr) as (u & ->). reflexivity.
Qed.
(** Four ranges of Genesis in two groups; a comparison nests two calls. *)
Example C79_ranges_ex : let e := denv NONE in let c := fun _ _ : range => 2 in let x := BV (V Gen 1 5) in
  let os := [OAppendGroup [rg Gen 1 5 1 6; rg Gen 1 1 1 2]; OAppendGroup [rg Gen 1 3 1 4; rg Gen 2 1 2 2]] in
  let s := snd (h_run range_eqb (rleb e) os g_new) in
  (exists h, holds range_eqb (rleb e) os s h /\ stack_need (rleb e) c (concat (values h)) = 6) /\ ref_ranges e x = Ok [rg Gen 1 5 1 5] /\
  (let p := k_merge c e 8 None s in (snd p, to_nested_lists (fst p)) = (Ok tt, Ok [[rg Gen 1 1 1 6]; [rg Gen 2 1 2 2]])) /\
  (let p := k_merge c e 7 None s in (snd p, g_iter (fst p), g_cnt (fst p)) = (Err RecErr, Ok [rg Gen 1 5 1 6], 4%Z)) /\
  k_contains c e 9 x None s = Ok true /\ k_contains c e 8 x None s = Err RecErr.
Proof.
  cbn zeta. split; [eexists; split; [eexists; split; vm_compute; reflexivity|vm_compute; reflexivity]|]. vm_compute. repeat split.
Qed.
(** However much room there is, a long enough list of any ranges cannot be sorted, merged or asked for a verse. *)
Definition C79_statement : Prop := forall cmp e room os s h, holds range_eqb (rleb e) os s h -> Forall (wf_range (ed e) true) (concat (values h)) -> snd (k_sort cmp e room false s) = Ok tt.
Lemma holds_list : forall A (eqb leb : A -> A -> bool) l, l <> [] -> exists s h, holds eqb leb [OAppendGroup l] s h /\ concat (values h) = l.
Proof.
  intros A eqb leb l Hl. destruct (C27_history_partial A eqb leb [OAppendGroup l] [Ok None] (length l) [number 0 l]) as (_ & _ & H).
  { cbn [s_run s_step option_map]. unfold s_append_group. destruct l as [|x l]; [congruence|]. cbn. reflexivity. }
  eexists _, _. split; [exact H|]. destruct l as [|x l]; [congruence|]. pose proof (values_group 0 (x :: l) []) as X. unfold s_append_group in X. cbn [number app] in X |- *.
  etransitivity; [exact (f_equal (@concat A) X)|]. cbn. now rewrite app_nil_r.
Qed.
Theorem C79_refuted :
  (forall cmp e room r x ys fl, ref_ranges e x = Ok ys -> exists os s h, holds range_eqb (rleb e) os s h /\ Forall (eq r) (concat (values h)) /\
     (exists t, (forall re, k_sort cmp e room re s = (t, Err RecErr)) /\ (4 <= room -> torn (concat (values h)) (zlen h) t)) /\
     (exists t, k_merge cmp e room fl s = (t, Err RecErr)) /\ (exists t, k_union_update cmp e room x fl s = (t, Err RecErr)) /\ k_contains cmp e room x fl s = Err RecErr) /\
  ~ C79_statement.
Proof.
  assert (G : forall cmp e room r x ys fl, ref_ranges e x = Ok ys -> exists os s h, holds range_eqb (rleb e) os s h /\ Forall (eq r) (concat (values h)) /\
     (exists t, (forall re, k_sort cmp e room re s = (t, Err RecErr)) /\ (4 <= room -> torn (concat (values h)) (zlen h) t)) /\
     (exists t, k_merge cmp e room fl s = (t, Err RecErr)) /\ (exists t, k_union_update cmp e room x fl s = (t, Err RecErr)) /\ k_contains cmp e room x fl s = Err RecErr).
  { intros cmp e room r x ys fl Ey. destruct (holds_list _ range_eqb (rleb e) (repeat r (2 * S room))) as (s & h & H & V); [discriminate|].
    exists [OAppendGroup (repeat r (2 * S room))], s, h. split; [exact H|].
    assert (F : Forall (eq r) (concat (values h))). { rewrite V. apply Forall_forall. intros y Hy. apply repeat_spec in Hy. congruence. } split; [exact F|].
    assert (Hlen : length (concat (values h)) = 2 * S room) by (rewrite V; apply repeat_length).
    assert (N : forall zs, room + 3 <= stack_need (rleb e) cmp (concat (values h) ++ zs)).
    { intros zs. set (L := concat (values h) ++ zs). assert (HL : 2 * S room <= length L) by (unfold L; rewrite app_length; lia).
      pose proof (sort_lower (rleb e) cmp 0 (length L) true L ltac:(lia) (le_n _) ltac:(intros; lia)) as U. unfold stack_need.
      assert (S room <= Nat.div2 (length L)) by (rewrite Nat.div2_div; apply Nat.div_le_lower_bound; lia). lia. }
    pose proof (N []) as N0. rewrite app_nil_r in N0.
    destruct (C79_ranges _ _ cmp e _ s h room H) as (_ & X). destruct X as (t & T & E1 & _); [lia|].
    destruct (C79_union_contains _ _ cmp e _ s h room x ys fl H Ey) as (_ & X2 & _ & X4). specialize (N ys).
    split; [exists t; split; [exact E1|]; intros H4; destruct T as [(_ & T)|T]; [lia|exact T]|].
    split; [|split; [apply X2; lia|apply X4; lia]].
    destruct room as [|r']; [exists s; reflexivity|]. destruct (C79_ranges _ _ cmp e _ s h r' H) as (_ & Y). destruct Y as (t' & _ & _ & E2); [lia|]. exists t'. apply E2. }
  split; [exact G|]. intros St.
  destruct (G (fun _ _ => 1) (denv NONE) 1000 (R (V Gen 1 1) (V Gen 1 2)) (BV (V Gen 1 1)) _ None eq_refl) as (os & s & h & H & F & (t & E & _) & _).
  assert (W : wf_range (ed (denv NONE)) true (R (V Gen 1 1) (V Gen 1 2))) by wf_range.
  specialize (St (fun _ _ => 1) (denv NONE) 1000 os s h H). rewrite E in St. cbn in St. assert (X : Err RecErr = Ok tt); [|discriminate]. apply St.
  eapply Forall_impl; [|exact F]. intros y <-. exact W.
Qed.
