(** * PShow2: printing with flags that differ from the global ones about verse 0s. *)
From Coq Require Import List ZArith Bool Ascii Lia.
From Verif Require Import Base Books Chars Regex Data MVerse MRange MSeq MList MStr MParse Spec SpecList SpecParse SpecMean SpecShow
  PList PCore PNav PVerse PRange PSetOps PRuns PSplit PCount PUnit PUnit2 PRegroup PParse PPrint.
Import ListNotations.
Import Spec.
Open Scope Z_scope.

Section Flags.
Variable e : env.
Notation d := (ed e).
Hypothesis Hwf : wf_data d.
Variable fl : option flag.
(** The environment in which the flags are global. *)
Notation e2 := (mkEnv d (eff e fl)).

Lemma zero_there : zero_on e2 None = zero_on e fl.
Proof. destruct e as [? [[] []]], fl as [[[] []]|]; reflexivity. Qed.
Notation at_flags test x := (test e x fl = test e2 x None).
Lemma tests_there : forall x, wf_range d true x -> range_can_start e fl x ->
  at_flags spans_start_book x /\ at_flags spans_start_chap x /\ at_flags spans_end_book x /\ at_flags spans_end_chap x /\
  at_flags is_whole_book x /\ at_flags is_whole_chap x.
Proof.
  intros x Hx (C1 & C2 & C3 & C4). pose proof (range_can_start_none e2 Hwf x Hx) as (D1 & D2 & D3 & D4).
  pose proof zero_there as Z.
  assert (G : forall a b (Q : bool -> Prop), bool_is a (Q (zero_on e fl)) -> bool_is b (Q (zero_on e2 None)) -> a = b).
  { intros a b Q Ha Hb. rewrite Z in Hb. eapply bool_is_eq; eauto. }
  split; [|split; [|split; [|split; [|split]]]].
  - exact (G _ _ (fun z => opens_with d z _ x) (opens_eval e Hwf x None fl Hx (or_introl eq_refl) C2) (opens_eval e2 Hwf x None None Hx (or_introl eq_refl) D2)).
  - exact (G _ _ (fun z => opens_with d z _ x) (opens_eval e Hwf x _ fl Hx (or_intror eq_refl) C1) (opens_eval e2 Hwf x _ None Hx (or_intror eq_refl) D1)).
  - exact (G _ _ (fun z => closes_with d z _ x) (closes_eval e Hwf x None fl Hx (or_introl eq_refl) C4) (closes_eval e2 Hwf x None None Hx (or_introl eq_refl) D4)).
  - exact (G _ _ (fun z => closes_with d z _ x) (closes_eval e Hwf x _ fl Hx (or_intror eq_refl) C3) (closes_eval e2 Hwf x _ None Hx (or_intror eq_refl) D3)).
  - exact (G _ _ (fun z => is_unit e z _ x) (whole_eval e Hwf x None fl Hx (or_introl eq_refl) C2) (whole_eval e2 Hwf x None None Hx (or_introl eq_refl) D2)).
  - exact (G _ _ (fun z => is_unit e z _ x) (whole_eval e Hwf x _ fl Hx (or_intror eq_refl) C1) (whole_eval e2 Hwf x _ None Hx (or_intror eq_refl) D1)).
Qed.
(** The tests made without the flags. *)
Lemma plain_tests : forall x, wf_range d true x ->
  (opens_book e x <-> opens_book e2 x -> spans_start_book e x None = spans_start_book e2 x None) /\
  (opens_chap e x <-> opens_chap e2 x -> spans_start_chap e x None = spans_start_chap e2 x None) /\
  (closes_chap e x <-> closes_chap e2 x -> spans_end_chap e x None = spans_end_chap e2 x None).
Proof.
  intros x Hx. pose proof (range_can_start_none e2 Hwf x Hx) as (D1 & D2 & D3 & D4). pose proof (range_can_start_none e Hwf x Hx) as (C1 & C2 & C3 & C4).
  assert (G : forall a b A B, bool_is a A -> bool_is b B -> (A <-> B) -> a = b).
  { intros a b A B (p & -> & Hp) (q & -> & Hq) H. f_equal. apply eq_true_iff_eq. now rewrite Hp, Hq. }
  split; [|split]; intros H.
  - exact (G _ _ _ _ (opens_eval e Hwf x None None Hx (or_introl eq_refl) C2) (opens_eval e2 Hwf x None None Hx (or_introl eq_refl) D2) H).
  - exact (G _ _ _ _ (opens_eval e Hwf x _ None Hx (or_intror eq_refl) C1) (opens_eval e2 Hwf x _ None Hx (or_intror eq_refl) D1) H).
  - exact (G _ _ _ _ (closes_eval e Hwf x _ None Hx (or_intror eq_refl) C3) (closes_eval e2 Hwf x _ None Hx (or_intror eq_refl) D3) H).
Qed.

Lemma range_there : forall lk force x, wf_range d true x -> range_can_start e fl x ->
  (opens_book e x <-> opens_book e2 x) -> (opens_chap e x <-> opens_chap e2 x) -> (force = true -> closes_chap e x <-> closes_chap e2 x) ->
  range_str e lk force x fl = range_str e2 lk force x None.
Proof.
  intros lk force x Hx Hc H1 H2 H3. destruct (tests_there x Hx Hc) as (_ & _ & T3 & T4 & T5 & T6).
  destruct (plain_tests x Hx) as (P1 & P2 & P3). unfold range_str. rewrite (P1 H1), (P2 H2), T3, T4, T5, T6.
  destruct force; [rewrite (P3 (H3 eq_refl))|]; reflexivity.
Qed.

Lemma count_there : forall x, wf_range d true x -> exists n m, r_chap_count e x false fl = Ok n /\ r_chap_count e2 x false None = Ok m /\ (n >? 1) = (m >? 1).
Proof.
  intros x Hx. destruct (chap_pieces e Hwf x Hx) as (p & Ep & _ & _ & Hp). destruct (chap_pieces e2 Hwf x Hx) as (q & Eq & _ & _ & Hq).
  exists (zlen p), (zlen q). unfold r_chap_count. rewrite Ep, Eq. split; [reflexivity|]. split; [reflexivity|].
  apply eq_true_iff_eq. rewrite !Z.gtb_ltb, !Z.ltb_lt. now rewrite Hp, Hq.
Qed.
Lemma item_there : forall lk force pg st x, wf_range d true x -> range_can_start e fl x -> (force = true -> closes_chap e x <-> closes_chap e2 x) ->
  show_item e lk force pg fl st x = show_item e2 lk force pg None st x.
Proof.
  intros lk force pg st x Hx Hc H3. destruct (tests_there x Hx Hc) as (T1 & T2 & T3 & T4 & T5 & T6). destruct (count_there x Hx) as (n & m & En & Em & Enm).
  assert (S : pick_start e pg fl st x = pick_start e2 pg None st x).
  { unfold pick_start. rewrite T1, T2, T4, En, Em. cbn [bind]. rewrite Enm. reflexivity. }
  assert (F : forall q, force_start e force x q = force_start e2 force x q).
  { intros (p, s). unfold force_start. destruct force; [|reflexivity]. destruct (plain_tests x Hx) as (_ & _ & P3). now rewrite (P3 (H3 eq_refl)). }
  assert (E : forall s, pick_end e fl s x = pick_end e2 None s x).
  { intros s. unfold pick_end. now rewrite T3, T4, T5, T6. }
  unfold show_item. rewrite S. destruct (pick_start e2 pg None st x) as [q|]; [|reflexivity]. cbn [bind]. rewrite F.
  destruct (force_start e2 force x q) as [[p s]|]; [|reflexivity]. cbn [bind]. rewrite E. reflexivity.
Qed.
Lemma group_there : forall lk force pg l st, Forall (wf_range d true) l -> Forall (range_can_start e fl) l ->
  (force = true -> Forall (fun x => closes_chap e x <-> closes_chap e2 x) l) ->
  show_group e lk force pg fl st l = show_group e2 lk force pg None st l.
Proof.
  intros lk force pg l. induction l as [|x l IH]; intros st Hl Hc H3; [reflexivity|]. cbn [show_group].
  inversion Hl; inversion Hc; subst. rewrite item_there; auto; [|intros F; now apply H3, Forall_inv in F].
  destruct (show_item e2 lk force pg None st x) as [q|]; [|reflexivity]. cbn [bind]. rewrite IH; auto. intros F. now apply H3, Forall_inv_tail in F.
Qed.
Lemma list_there : forall lk pg force g, Forall (Forall (wf_range d true)) g -> Forall (Forall (range_can_start e fl)) g ->
  (force = true -> Forall (Forall (fun x => closes_chap e x <-> closes_chap e2 x)) g) ->
  list_str e lk pg force g fl = list_str e2 lk pg force g None.
Proof.
  intros lk pg force g. unfold list_str. generalize ps_init. induction g as [|l g IH]; intros st Hg Hc H3; [reflexivity|]. cbn [show_groups].
  inversion Hg; inversion Hc; subst. rewrite group_there; auto; [|intros F; now apply H3, Forall_inv in F].
  destruct (show_group e2 lk force pg None st l) as [q|]; [|reflexivity]. cbn [bind]. change (end_group e2 pg (snd q)) with (end_group e pg (snd q)). rewrite IH; auto. intros F. now apply H3, Forall_inv_tail in F.
Qed.
(** Where no verse 0 is missed, all agree. *)
Lemma starts_there : (zero_on e fl = true -> verse0 (eg e) = true) -> forall x, wf_range d true x -> range_can_start e fl x.
Proof.
  intros Hz x Hx. pose proof (range_can_start_none e Hwf x Hx) as (C1 & C2 & C3 & C4).
  assert (D : forall u, can_start e None u -> can_start e fl u).
  { intros [b|b c|b c v]; unfold can_start; auto; intros C F; specialize (Hz F); specialize (C Hz); rewrite F; change (zero_on e None) with (verse0 (eg e)) in C; rewrite Hz in C |- *; exact C. }
  repeat split; auto.
Qed.
End Flags.
