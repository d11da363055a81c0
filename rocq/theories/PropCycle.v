(** * PropCycle: what [insert_group_at] does on the first item of a later group (C29). *)
From Coq Require Import List ZArith Bool Arith Lia.
From Verif Require Import Base MSeq MGroup SpecGroup PSort PGroup PGroup2 PGroup3 PGroup4 PGroup5 PGroup6 PGroup7 PGroup8 PropGroup PCycle.
Import ListNotations.
Open Scope Z_scope.

Lemma starts_at : forall A (g1 : list (list A)) p g2 n, nth_error (starts n (g1 ++ p :: g2)) (length g1) = Some (n + length (concat g1))%nat.
Proof. intros A. induction g1 as [|q g1 IH]; intros p g2 n; cbn; [f_equal; lia|]. rewrite IH, app_length. f_equal. lia. Qed.
(** The call succeeds.  The items and the views of the groups are the same, and the number of groups is one more; but whoever
    goes through the groups never gets past the group that was to be made: [groups[j]] is this group for all later [j], and
    an iteration over the groups does not end. *)
Theorem C29_cycle : forall A (eqb leb : A -> A -> bool) os s h i k, holds eqb leb os s h ->
  place (zlen (concat (values h))) i = Some k -> later_head k (values h) = true ->
  exists t m, insert_group_at i s = Ok t /\ nth_error (starts 0 (values h)) m = Some k /\
    g_iter t = g_iter s /\ g_reversed t = g_reversed s /\ g_cnt t = g_cnt s /\ (forall v, view_iter v t = view_iter v s) /\
    group_count t = group_count s + 1 /\ (forall fuel, trail (n_nh t) fuel (g_fhead t) = Err Diverge) /\ to_nested_lists t = Err Diverge /\
    forall j, 0 <= j < group_count t -> group_at j t = group_at (Z.min j (Z.of_nat m)) s.
Proof.
  intros A eqb leb os s h i k H E Hl. assert (El : zlen (concat (values h)) = zlen (concat h)) by (rewrite values_items; unfold zlen; now rewrite map_length).
  assert (Hi : - zlen (concat h) <= i).
  { rewrite El in E. unfold place in E. destruct (Z.ltb_spec i (- zlen (concat h))); [discriminate|]. lia. }
  destruct (holds_state _ _ _ _ _ _ H) as (O & S & _). rewrite El in E. rewrite <- twice_place in E by auto.
  unfold values in Hl. rewrite later_head_map in Hl.
  assert (Hc : concat h <> []). { intros X. assert (h = []) as -> by (destruct h as [|p h]; auto; pose proof (state_ne _ _ _ S) as Y; inv Y; cbn in X; apply app_eq_nil in X; tauto). discriminate. }
  destruct (nth_some (concat h) k Hc (spot_twice_in _ _ _ (zlen_pos _ Hc) E)) as ((c & y) & Ey).
  destruct (split_state s h O k c y S Ey) as (h1 & p & q & h2 & Eh & Ek & Es & Ek').
  pose proof (state_ne _ _ _ S) as Hne. rewrite Eh in Hne. apply Forall_app in Hne. destruct Hne as (Hne & _).
  rewrite Eh, <- Ek, later_head_dec in Hl by auto. destruct h1 as [|p1 h1]; [destruct p; discriminate|]. destruct p; [|discriminate]. clear Hl.
  destruct (exists_last (l := p1 :: h1)) as (h0 & lp & E1); [discriminate|]. rewrite E1 in *. apply Forall_app in Hne. destruct Hne as (_ & Hlp). inversion Hlp as [|? ? Hlp' _]; subst x l.
  destruct lp as [|(a & x) lp]; [congruence|]. clear Hlp' Hlp E1 p1 h1.
  assert (Es2 : serials h = serials h0 ++ (a :: map fst lp) :: (c :: map fst q) :: serials h2).
  { rewrite Es. unfold serials. rewrite map_app, <- app_assoc. reflexivity. }
  pose proof (st_rep _ _ _ S) as R. rewrite Es2 in R. destruct (loop_rep s _ _ _ _ _ _ _ R) as (t & Et & T).
  exists t, (length (h0 ++ [(a, x) :: lp])).
  assert (Ei : insert_group_at i s = Ok t).
  { unfold insert_group_at. pose proof (node_at_twice s h O i S) as X. rewrite E, Ey in X. destruct (conform_index i s) as [j|]; [|discriminate]. cbn [bind] in *. rewrite X. exact Et. }
  split; auto. split.
  { rewrite Eh. cbn [app]. unfold values. rewrite map_app. cbn [map app]. rewrite <- (map_length (map snd) (h0 ++ _)), starts_at. cbn [Nat.add]. f_equal.
    rewrite <- Ek. cbn [app]. rewrite app_nil_r. change (map (map snd) ?l) with (values l). rewrite values_items, map_length. reflexivity. }
  split; [exact (loop_iter _ _ _ T)|]. split; [exact (loop_reversed _ _ _ T)|]. split; [apply T|]. split; [exact (loop_view _ _ _ T)|]. split; [apply T|].
  destruct R as (L & G & _).
  assert (Eh2 : heads (serials h0 ++ (a :: map fst lp) :: (c :: map fst q) :: serials h2) = (heads (serials h0) ++ [a]) ++ c :: heads (serials h2)) by (rewrite heads_app, <- app_assoc; reflexivity).
  pose proof (k_nh _ _ G) as F. pose proof (heads_nodup _ (k_nodup _ _ L)) as N. pose proof (k_fhead _ _ G) as EF. pose proof (k_gcnt _ _ G) as EG.
  rewrite Eh2 in F, N, EF.
  assert (ET : g_fhead t = g_fhead s) by apply T. assert (D : forall fuel, trail (n_nh t) fuel (g_fhead t) = Err Diverge).
  { intros n. rewrite ET, EF. exact (loop_trail _ _ _ T _ _ F N n). }
  split; auto. split; [unfold to_nested_lists, group_heads; now rewrite D|].
  assert (Em : length (heads (serials h0) ++ [a]) = length (h0 ++ [(a, x) :: lp])).
  { rewrite !app_length. f_equal. pose proof (k_ne _ _ G) as Y. apply Forall_app in Y. destruct Y as (Y & _). rewrite <- (map_length (map fst) h0). change (map (map fst) h0) with (serials h0).
    clear - Y. induction Y as [|z l Hz Y IH]; auto. destruct z; [congruence|]. rewrite heads_cons. cbn. now rewrite IH. }
  assert (GT : g_gcnt t = g_gcnt s + 1) by apply T. unfold group_count. rewrite GT.
  assert (Hm : Z.of_nat (length (h0 ++ [(a, x) :: lp])) < g_gcnt s).
  { rewrite EG. unfold zlen. unfold serials. rewrite !app_length, !map_length. cbn [length]. rewrite map_length. lia. }
  intros j Hj. unfold group_at. rewrite GT, ET.
  replace (j <? 0) with false by (symmetry; apply Z.ltb_ge; lia). replace (j >=? g_gcnt s + 1) with false by (symmetry; rewrite Z.geb_leb; apply Z.leb_gt; lia).
  set (m := length (h0 ++ [(a, x) :: lp])) in *. set (j' := Z.min j (Z.of_nat m)).
  replace (j' <? 0) with false by (symmetry; apply Z.ltb_ge; lia). replace (j' >=? g_gcnt s) with false by (symmetry; rewrite Z.geb_leb; apply Z.leb_gt; lia).
  rewrite EF. destruct (Z_le_gt_dec j (Z.of_nat m)) as [Hle|Hgt].
  - replace j' with j by lia. apply (loop_follow _ _ _ T _ _ F N). lia.
  - replace j' with (Z.of_nat m) by lia. rewrite Nat2Z.id. rewrite (loop_stays _ _ _ T _ _ F N) by lia. rewrite (follow_entry _ m _ (c :: heads (serials h2)) F); auto.
Qed.
Example C29_cycle_ex : exists h, holds Z.eqb Z.leb [OAppendGroup [1; 2]; OAppendGroup [3]; OAppendGroup [4; 5]] (snd (h_run Z.eqb Z.leb [OAppendGroup [1; 2]; OAppendGroup [3]; OAppendGroup [4; 5]] g_new)) h /\
  place 5 2 = Some 2%nat /\ later_head 2 (values h) = true /\
  match insert_group_at 2 (snd (h_run Z.eqb Z.leb [OAppendGroup [1; 2]; OAppendGroup [3]; OAppendGroup [4; 5]] g_new)) with
  | Ok t => g_iter t = Ok [1; 2; 3; 4; 5] /\ group_count t = 4 /\ (v <- group_at 0 t ;; view_iter v t) = Ok [1; 2] /\ (v <- group_at 2 t ;; view_iter v t) = Ok [3] /\ (v <- group_at 3 t ;; view_iter v t) = Ok [3]
  | Err _ => False
  end.
Proof. eexists. split; [eexists; split; vm_compute; reflexivity|]. vm_compute. repeat split. Qed.
