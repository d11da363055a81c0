(** * PUnit: books, chapters and verses as units; positional construction of ranges. *)
From Coq Require Import List ZArith Bool Lia Sorted.
From Verif Require Import Base Books Data MVerse MRange Spec PList PCore PNav PVerse PRange PSetOps PSetSpec PRuns PSplit PCount PTerm.
Import ListNotations.
Import Spec.
Open Scope Z_scope.

Section Units.
Variable e : env.
Notation d := (ed e).
Hypothesis Hwf : wf_data d.
Notation pos := (pos e).
Notation zg := (verse0 (eg e)).

(** ** First and last verses with any flags *)
Lemma first_verse_chap : forall b c fl, In b (book_order d) -> 1 <= c <= num_chaps d b ->
  first_verse e b (Some c) fl =
  if legalb e zg b c (first_num d (zero_on e fl) b c) then Ok (V b c (first_num d (zero_on e fl) b c)) else Err InvalidRef.
Proof.
  intros b c fl Hb Hc. destruct (table_of e Hwf b Hb) as [l Hl].
  unfold first_verse. rewrite (min_in e Hwf) by auto. cbn [bind]. rewrite zero_on_eq.
  rewrite (new_verse_eq e b l) by auto. rewrite eff_none. reflexivity.
Qed.
Lemma first_verse_bad : forall b c fl, In b (book_order d) -> ~ (1 <= c <= num_chaps d b) ->
  first_verse e b (Some c) fl = Err InvalidRef.
Proof.
  intros b c fl Hb Hc. destruct (table_of e Hwf b Hb) as [l Hl].
  unfold first_verse. destruct (bad_chap_err e b l c fl Hl Hc) as (_ & -> & _). reflexivity.
Qed.
Lemma first_verse_whole : forall b fl, In b (book_order d) ->
  first_verse e b None fl = first_verse e b (Some 1) fl.
Proof. intros b fl Hb. unfold first_verse. now rewrite (min_chap_in e Hwf) by auto. Qed.
Lemma last_verse_bad : forall b c, In b (book_order d) -> ~ (1 <= c <= num_chaps d b) ->
  last_verse e b (Some c) = Err InvalidRef.
Proof.
  intros b c Hb Hc. destruct (table_of e Hwf b Hb) as [l Hl].
  unfold last_verse. destruct (bad_chap_err e b l c None Hl Hc) as (_ & _ & ->). reflexivity.
Qed.

Notation startable := (can_start e).
Lemma startable_agree : forall fl u, zero_on e fl = zg -> In (unit_book u) (book_order d) ->
  unit_ok d (zero_on e fl) u -> startable fl u.
Proof.
  intros fl u Hz Hb Hok. destruct u as [b|b c|b c v]; cbn [can_start unit_book unit_ok unit_first] in *; auto;
    intros _; rewrite Hz in *; apply (in_bible_verses e); cbn [vbook vchap vverse]; split; auto.
  - pose proof (num_chaps_pos e Hwf b Hb). split; [lia|]. split; [lia|]. now apply first_le_last; auto; lia.
  - split; auto. split; [lia|]. now apply first_le_last.
Qed.

Lemma legal_false_true : forall b c v z, legal d false b c v -> legal d z b c v.
Proof.
  intros b c v z [H1 H2]. split; auto. unfold first_num in *. cbn [andb] in H2.
  destruct (z && zmem c (verse_0s d b)); lia.
Qed.

Lemma first_legal : forall fl b c, In b (book_order d) -> 1 <= c <= num_chaps d b ->
  (zero_on e fl = true -> InB d zg (V b c (first_num d (zero_on e fl) b c))) ->
  legalb e zg b c (first_num d (zero_on e fl) b c) = true.
Proof.
  intros fl b c Hb Hc H. apply legalb_iff. destruct (zero_on e fl) eqn:E.
  - specialize (H eq_refl). now apply (InB_legal e) in H.
  - apply legal_false_true. split; auto. split; [lia|]. now apply first_le_last.
Qed.

Lemma unit_bounds : forall z u, In (unit_book u) (book_order d) -> unit_ok d z u ->
  InB d z (unit_first d z u) /\ InB d z (unit_last d u) /\ pos (unit_first d z u) <= pos (unit_last d u).
Proof.
  intros z u Hb Hok.
  assert (H : InB d z (unit_first d z u) /\ InB d z (unit_last d u)).
  { destruct u as [b|b c|b c v]; cbn [unit_book unit_ok unit_first unit_last] in *;
      rewrite !(in_bible_verses e); cbn [vbook vchap vverse]; unfold legal.
    - pose proof (num_chaps_pos e Hwf b Hb) as Hn.
      pose proof (first_le_last e Hwf z b 1 Hb). pose proof (first_le_last e Hwf z b (num_chaps d b) Hb).
      repeat split; auto; lia.
    - pose proof (first_le_last e Hwf z b c Hb Hok). repeat split; auto; lia.
    - destruct Hok. auto. }
  destruct H as [H1 H2]. split; auto. split; auto.
  rewrite (pos_book e Hwf) by (destruct u; cbn [unit_first unit_last vbook]; auto; eapply (InB_mono e); eauto).
  apply (in_bible_verses e) in H1, H2. destruct H1 as [_ [Hc1 Hv1]], H2 as [_ [Hc2 Hv2]].
  destruct u as [b|b c|b c v]; cbn [unit_first unit_last vbook vchap vverse unit_book unit_ok] in *; try lia.
  destruct (Z.eq_dec 1 (num_chaps d b)) as [E|E]; [rewrite <- E in *|]; lia.
Qed.

(** The verses of a unit are exactly those between its first and last verse. *)
Definition in_unit (u : unit_ref) (v : verse) : Prop :=
  match u with
  | UBook b => vbook v = b
  | UChap b c => vbook v = b /\ vchap v = c
  | UVerse b c n => v = V b c n
  end.
Lemma in_unit_pos : forall z u v, In (unit_book u) (book_order d) -> unit_ok d z u -> InB d z v ->
  (in_unit u v <-> pos (unit_first d z u) <= pos v <= pos (unit_last d u)).
Proof.
  intros z u v Hb Hok Hv. destruct (unit_bounds z u Hb Hok) as (H1 & H2 & H3).
  pose proof (InB_mono e _ _ H1) as T1. pose proof (InB_mono e _ _ H2) as T2. pose proof (InB_mono e _ _ Hv) as T.
  assert (Hbk : vbook (unit_first d z u) = unit_book u /\ vbook (unit_last d u) = unit_book u) by (destruct u; auto).
  destruct Hbk as [B1 B2].
  assert (Hs : pos (unit_first d z u) <= pos v <= pos (unit_last d u) -> vbook v = unit_book u).
  { intros H. rewrite <- B1. apply (same_book_between e Hwf _ _ (unit_last d u)); auto. congruence. }
  pose proof (InB_legal e _ _ Hv) as [Hc Hl].
  destruct u as [b|b c|b c n]; cbn [in_unit unit_book unit_first unit_last unit_ok] in *.
  - split; auto. intros Hbv. rewrite !(pos_book e Hwf) by (cbn [vbook]; auto). cbn [vchap vverse].
    rewrite Hbv in *.
    destruct (Z.eq_dec 1 (vchap v)) as [E|E]; destruct (Z.eq_dec (vchap v) (num_chaps d b)) as [E'|E'];
      [rewrite E in *; rewrite <- E' in *| rewrite E in * | rewrite <- E' in * |]; lia.
  - split.
    + intros [Hbv Hcv]. rewrite !(pos_book e Hwf) by (cbn [vbook]; auto). cbn [vchap vverse]. rewrite Hbv, Hcv in *. lia.
    + intros H. specialize (Hs H). split; auto. rewrite !(pos_book e Hwf) in H by (cbn [vbook]; auto).
      cbn [vchap vverse] in H. lia.
  - split; [intros ->; lia|]. intros H. apply (pos_eq e); auto. lia.
Qed.

(** ** Positional construction *)
Notation zf fl := (zero_on e fl).

Lemma start_eval : forall b sc sv fl,
  In b (book_order d) ->
  let r := match sc with
           | None => first_verse e b None (Some (eff e fl))
           | Some c => match sv with
                       | None => first_verse e b (Some c) (Some (eff e fl))
                       | Some v => new_verse e b c v (Some (eff e fl))
                       end
           end in
  forall u, named_unit b sc sv = Some u ->
  (unit_ok d (zf fl) u -> startable fl u -> r = Ok (unit_first d (zf fl) u)) /\
  (~ unit_ok d (zf fl) u -> r = Err InvalidRef).
Proof.
  intros b sc sv fl Hb r u Hu. destruct (table_of e Hwf b Hb) as [l Hl].
  assert (Hz : zero_on e (Some (eff e fl)) = zf fl) by now rewrite <- !zero_on_eq, eff_eff.
  pose proof (num_chaps_pos e Hwf b Hb) as Hn1.
  destruct sc as [c|]; [destruct sv as [v|]|destruct sv as [v|]]; cbn in Hu; try discriminate; injection Hu as <-;
    cbn [unit_ok can_start unit_first] in *; subst r.
  - split; intros H; [intros _|].
    + apply (verse_constructible e b l); auto. rewrite Hz. auto.
    + apply (verse_not_constructible e b l); auto. now rewrite Hz.
  - split; intros H; [intros Hs|].
    + rewrite first_verse_chap by auto. rewrite Hz. now rewrite first_legal.
    + now apply first_verse_bad.
  - split; intros H; [intros Hs|tauto].
    rewrite first_verse_whole, first_verse_chap by (auto; lia). rewrite Hz. rewrite first_legal; auto; lia.
Qed.

Lemma end_eval : forall b ec ev fl, In b (book_order d) ->
  let r := match ec with
           | None => last_verse e b None
           | Some c => match ev with
                       | None => last_verse e b (Some c)
                       | Some v => new_verse e b c v (Some (eff e fl))
                       end
           end in
  forall u, named_unit b ec ev = Some u ->
  (unit_ok d (zf fl) u -> r = Ok (unit_last d u)) /\ (~ unit_ok d (zf fl) u -> r = Err InvalidRef).
Proof.
  intros b ec ev fl Hb r u Hu. destruct (table_of e Hwf b Hb) as [l Hl].
  assert (Hz : zero_on e (Some (eff e fl)) = zf fl) by now rewrite <- !zero_on_eq, eff_eff.
  destruct ec as [c|]; [destruct ev as [v|]|destruct ev as [v|]]; cbn in Hu; try discriminate; injection Hu as <-;
    cbn [unit_ok unit_last] in *; subst r.
  - split; intros H.
    + apply (verse_constructible e b l); auto. rewrite Hz. auto.
    + apply (verse_not_constructible e b l); auto. now rewrite Hz.
  - split; intros H.
    + now apply (last_verse_in e Hwf).
    + now apply last_verse_bad.
  - split; intros H; [|tauto]. now apply last_verse_book.
Qed.

(** A proper equation for the model's constructor, in the terms of the two units. *)
Definition build (z : bool) (fl : option flag) (u1 u2 : unit_ref) : res range :=
  if negb (multi_on e fl) && negb (book_eqb (unit_book u1) (unit_book u2)) then Err Multibook
  else Ok (R (unit_first d z u1) (unit_last d u2)).

Lemma unit_first_book : forall z u, vbook (unit_first d z u) = unit_book u.
Proof. intros z []; reflexivity. Qed.
Lemma unit_last_book : forall u, vbook (unit_last d u) = unit_book u.
Proof. intros []; reflexivity. Qed.

Notation books_in := (books_listed d).

Lemma first_chap_ok : forall b, In b (book_order d) -> 1 <= 1 <= num_chaps d b.
Proof. intros b Hb. pose proof (num_chaps_pos e Hwf b Hb). lia. Qed.

Lemma swapped_ok : forall a fl u1 u2, books_in a -> first_unit a = Some u1 -> second_unit a = Some u2 ->
  unit_ok d (zf fl) u1 -> unit_ok d (zf fl) u2 -> startable fl u1 ->
  new_range_swapped e a fl = build (zf fl) fl u1 u2.
Proof.
  intros [sb sc sv eb ec ev] fl u1 u2 [Hsb Heb] H1 H2 O1 O2 S1. unfold first_unit, second_unit in *. cbn in *.
  destruct (start_eval sb sc sv fl Hsb u1 H1) as [Hs _]. specialize (Hs O1 S1). cbn zeta in Hs.
  unfold new_range_swapped.
  assert (Hnn : negb (o_is sc) && o_is sv = false) by (destruct sc, sv; cbn in H1; auto; discriminate).
  rewrite Hnn.
  assert (Hfin : forall t, vbook t = unit_book u2 -> t = unit_last d u2 ->
    (if negb (multibook (eff e fl)) && negb (book_eqb (vbook (unit_first d (zf fl) u1)) (vbook t)) then Err Multibook
     else Ok (R (unit_first d (zf fl) u1) t)) = build (zf fl) fl u1 u2).
  { intros t Ht ->. unfold build. now rewrite multi_on_eq, unit_first_book, unit_last_book. }
  destruct (o_is eb || o_is ec || o_is ev) eqn:He.
  - (* an end is given *)
    set (sm := match sc with None => _ | Some _ => _ end).
    assert (Hsm : sm = Ok (unit_first d (zf fl) u1, None)).
    { subst sm. destruct sc as [c|]; [destruct sv as [v|]|]; rewrite Hs; reflexivity. }
    rewrite Hsm. cbn [bind fst snd].
    set (b := match eb with Some x => x | None => sb end) in *.
    assert (Hb : In b (book_order d)) by (subst b; destruct eb; auto).
    assert (Hev : (exists v, ec = None /\ ev = Some v /\ b = sb /\ u2 = UVerse b match sc with Some c => c | None => 1 end v) \/
                  named_unit b ec ev = Some u2).
    { destruct eb as [eb'|], ec as [c|], ev as [v|]; cbn in He; try discriminate; auto; left; exists v; subst b.
      - destruct (book_eqb eb' sb) eqn:Eb; [|discriminate]. apply book_eqb_eq in Eb. injection H2 as <-. auto.
      - rewrite book_eqb_refl in H2. injection H2 as <-. auto. }
    destruct Hev as [(v & -> & -> & Hbs & ->)|Hu2].
    + rewrite <- Hbs. rewrite book_eqb_refl. cbn [negb].
      assert (Hch : vchap (unit_first d (zf fl) u1) = match sc with Some c => c | None => 1 end).
      { destruct sc as [c|], sv as [v'|]; cbn in H1; try discriminate; injection H1 as <-; reflexivity. }
      rewrite Hch.
      destruct (end_eval b (Some match sc with Some c => c | None => 1 end) (Some v) fl Hb _ eq_refl) as [He1 _].
      cbn beta iota zeta in He1. rewrite He1 by auto. cbn [bind]. apply Hfin; [now rewrite unit_last_book|reflexivity].
    + destruct (end_eval b ec ev fl Hb u2 Hu2) as [He1 _]. specialize (He1 O2). cbn zeta in He1.
      assert (Ht : match ec, ev with
                   | None, None => last_verse e b None
                   | Some c, None => last_verse e b (Some c)
                   | None, Some v =>
                       if negb (book_eqb sb b) then Err InvalidRef
                       else new_verse e b (vchap (unit_first d (zf fl) u1)) v (Some (eff e fl))
                   | Some c, Some v => new_verse e b c v (Some (eff e fl))
                   end = Ok (unit_last d u2)).
      { destruct ec as [c|], ev as [v|]; try exact He1. discriminate. }
      rewrite Ht. cbn [bind]. apply Hfin; [now rewrite unit_last_book|reflexivity].
  - (* no end: the unit itself *)
    destruct eb, ec, ev; try discriminate. assert (u2 = u1) by (change (named_unit sb sc sv = Some u2) in H2; congruence). subst u2.
    destruct (end_eval sb sc sv fl Hsb u1 H1) as [He1 _]. specialize (He1 O1). cbn zeta in He1.
    destruct sc as [c|]; [destruct sv as [v|]|destruct sv as [v|]; [discriminate|]];
      rewrite Hs; cbn [bind]; rewrite ?He1; cbn [bind fst snd]; apply Hfin;
      rewrite ?unit_last_book, ?unit_first_book; auto.
    cbn in H1. injection H1 as <-. reflexivity.
Qed.

Definition bad_unit (z : bool) (o : option unit_ref) : Prop :=
  match o with None => True | Some u => ~ unit_ok d z u end.

Lemma ok_dec : forall z u, unit_ok d z u \/ ~ unit_ok d z u.
Proof.
  intros z [b|b c|b c v]; cbn [unit_ok]; auto; unfold legal; lia.
Qed.
Lemma startable_dec : forall fl u, startable fl u \/ ~ startable fl u.
Proof.
  intros fl u. destruct u as [b|b c|b c v]; cbn [can_start]; auto;
    (destruct (zf fl); [|left; discriminate]); unfold InB;
    match goal with |- context [In ?v ?l] => destruct (in_dec verse_eq_dec v l); [left; auto|right; auto] end.
Qed.

Lemma start_fails : forall b sc sv fl, In b (book_order d) ->
  let r := match sc with
           | None => first_verse e b None (Some (eff e fl))
           | Some c => match sv with
                       | None => first_verse e b (Some c) (Some (eff e fl))
                       | Some v => new_verse e b c v (Some (eff e fl))
                       end
           end in
  forall u, named_unit b sc sv = Some u -> ~ startable fl u -> r = Err InvalidRef.
Proof.
  intros b sc sv fl Hb r u Hu Hs.
  destruct (ok_dec (zf fl) u) as [Hok|Hok]; [|now apply (start_eval b sc sv fl Hb u Hu)].
  assert (Hz : zero_on e (Some (eff e fl)) = zf fl) by now rewrite <- !zero_on_eq, eff_eff.
  pose proof (first_chap_ok b Hb) as H11.
  assert (Hleg : forall c, 1 <= c <= num_chaps d b ->
    ~ (zf fl = true -> InB d zg (V b c (first_num d (zf fl) b c))) ->
    legalb e zg b c (first_num d (zf fl) b c) = false).
  { intros c Hc Hn. destruct (legalb e zg b c (first_num d (zf fl) b c)) eqn:E; auto. destruct Hn. intros _.
    apply legalb_iff in E. apply (in_bible_verses e). auto. }
  destruct sc as [c|]; [destruct sv as [v|]|destruct sv as [v|]]; cbn in Hu; try discriminate; injection Hu as <-;
    cbn [unit_ok can_start unit_first] in *; subst r; try tauto.
  - rewrite first_verse_chap by auto. rewrite Hz. now rewrite Hleg.
  - rewrite first_verse_whole, first_verse_chap by auto. rewrite Hz. now rewrite Hleg.
Qed.

(** Every other combination is refused. *)
Lemma swapped_bad : forall a fl, books_in a ->
  bad_unit (zf fl) (first_unit a) \/ bad_unit (zf fl) (second_unit a) \/
  (exists u, first_unit a = Some u /\ ~ startable fl u) ->
  new_range_swapped e a fl = Err InvalidRef.
Proof.
  intros [sb sc sv eb ec ev] fl [Hsb Heb] Hbad. unfold first_unit, second_unit in *. cbn [pa_sb pa_sc pa_sv pa_eb pa_ec pa_ev] in *.
  unfold new_range_swapped. destruct (named_unit sb sc sv) as [u1|] eqn:H1.
  2:{ destruct sc, sv; cbn in H1; try discriminate. reflexivity. }
  assert (Hnn : negb (o_is sc) && o_is sv = false) by (destruct sc, sv; cbn in H1; auto; discriminate).
  rewrite Hnn.
  destruct (start_eval sb sc sv fl Hsb u1 H1) as [Hs Hs']. cbn zeta in Hs, Hs'.
  pose proof (start_fails sb sc sv fl Hsb u1 H1) as Hs''. cbn zeta in Hs''.
  destruct (ok_dec (zf fl) u1) as [O1|O1].
  2:{ specialize (Hs' O1). destruct sc as [c|]; [destruct sv as [v|]|destruct sv; [discriminate|]]; rewrite Hs'; reflexivity. }
  destruct (startable_dec fl u1) as [S1|S1].
  2:{ specialize (Hs'' S1). destruct sc as [c|]; [destruct sv as [v|]|destruct sv; [discriminate|]]; rewrite Hs''; reflexivity. }
  specialize (Hs O1 S1).
  destruct Hbad as [Hbad|[Hbad|[u [Hu Hn]]]]; [cbn in Hbad; contradiction| |congruence].
  destruct (o_is eb || o_is ec || o_is ev) eqn:He.
  2:{ destruct eb, ec, ev; try discriminate. change (bad_unit (zf fl) (named_unit sb sc sv)) in Hbad. rewrite H1 in Hbad. contradiction. }
  set (sm := match sc with None => _ | Some _ => _ end).
  assert (Hsm : sm = Ok (unit_first d (zf fl) u1, None)).
  { subst sm. destruct sc as [c|]; [destruct sv as [v|]|]; rewrite Hs; reflexivity. }
  rewrite Hsm. cbn [bind fst snd].
  set (b := match eb with Some x => x | None => sb end) in *.
  assert (Hb : In b (book_order d)) by (subst b; destruct eb; auto).
  assert (Hev : (exists v, ec = None /\ ev = Some v /\
                  (b <> sb \/ ~ unit_ok d (zf fl) (UVerse b match sc with Some c => c | None => 1 end v))) \/
                (exists u2, named_unit b ec ev = Some u2 /\ ~ unit_ok d (zf fl) u2)).
  { destruct eb as [eb'|], ec as [c|], ev as [v|]; cbn in He; try discriminate;
      try (right; eexists; split; [reflexivity|exact Hbad]).
    - left. exists v. subst b. split; auto. split; auto. destruct (book_eqb eb' sb) eqn:Eb.
      + right. exact Hbad.
      + left. now apply book_eqb_neq.
    - left. exists v. subst b. rewrite book_eqb_refl in Hbad. auto. }
  destruct Hev as [(v & -> & -> & Hv)|(u2 & Hu2 & O2)].
  - destruct (book_eqb sb b) eqn:Eb; cbn [negb]; [|reflexivity]. apply book_eqb_eq in Eb. destruct Hv as [Hv|Hv]; [congruence|].
    assert (Hch : vchap (unit_first d (zf fl) u1) = match sc with Some c => c | None => 1 end).
    { destruct sc as [c|], sv as [v'|]; cbn in H1; try discriminate; injection H1 as <-; reflexivity. }
    rewrite Hch.
    destruct (end_eval b (Some match sc with Some c => c | None => 1 end) (Some v) fl Hb _ eq_refl) as [_ He1].
    cbn beta iota zeta in He1. rewrite He1 by auto. reflexivity.
  - destruct (end_eval b ec ev fl Hb u2 Hu2) as [_ He1]. specialize (He1 O2). cbn zeta in He1.
    destruct ec as [c|], ev as [v|]; try discriminate; rewrite He1; reflexivity.
Qed.

(** Swapping exchanges the two units, or does nothing. *)
Lemma swap_units : forall a, books_in a ->
  (swap_args e a = a /\
   forall z u1 u2, first_unit a = Some u1 -> second_unit a = Some u2 -> unit_ok d z u1 -> unit_ok d z u2 ->
     pos (unit_first d z u1) <= pos (unit_last d u2)) \/
  (first_unit (swap_args e a) = second_unit a /\ second_unit (swap_args e a) = first_unit a /\
   books_in (swap_args e a) /\
   forall z u1 u2, first_unit a = Some u1 -> second_unit a = Some u2 -> unit_ok d z u1 -> unit_ok d z u2 ->
     pos (unit_last d u2) < pos (unit_first d z u1)).
Proof.
  intros [sb sc sv eb ec ev] [Hsb Heb]. cbn [pa_sb pa_sc pa_sv pa_eb pa_ec pa_ev] in *.
  set (b := match eb with Some x => x | None => sb end).
  assert (Hb : In b (book_order d)) by (subst b; destruct eb; auto).
  (* comparison of verses of the two units, in the same book *)
  assert (Hcmp : forall z u1 u2, unit_book u1 = unit_book u2 -> In (unit_book u1) (book_order d) ->
    unit_ok d z u1 -> unit_ok d z u2 ->
    (pos (unit_last d u2) < pos (unit_first d z u1) <->
      (vchap (unit_last d u2) < vchap (unit_first d z u1) \/
       (vchap (unit_last d u2) = vchap (unit_first d z u1) /\ vverse (unit_last d u2) < vverse (unit_first d z u1))))).
  { intros z u1 u2 Hbb Hin O1 O2. destruct (unit_bounds z u1 Hin O1) as (F1 & _ & _).
    rewrite Hbb in Hin. destruct (unit_bounds z u2 Hin O2) as (_ & L2 & _).
    rewrite Z.lt_nge, (pos_book e Hwf) by (rewrite ?unit_first_book, ?unit_last_book; auto; eapply (InB_mono e); eauto).
    lia. }
  (* different books *)
  assert (Hdiff : forall z u1 u2, In (unit_book u1) (book_order d) -> In (unit_book u2) (book_order d) ->
    unit_ok d z u1 -> unit_ok d z u2 -> bord e (unit_book u1) < bord e (unit_book u2) ->
    pos (unit_last d u1) < pos (unit_first d z u2)).
  { intros z u1 u2 I1 I2 O1 O2 Hlt. destruct (unit_bounds z u1 I1 O1) as (_ & L1 & _).
    destruct (unit_bounds z u2 I2 O2) as (F2 & _ & _). apply Z.lt_nge. intros Hle.
    apply (bord_mono e Hwf) in Hle; [|eapply (InB_mono e); eauto..].
    rewrite unit_first_book, unit_last_book in Hle. lia. }
  assert (Hsame : match eb with Some x => x | None => sb end = sb -> sc = None \/ (exists c, sc = Some c) ->
    (swap_args e (PA sb sc sv eb ec ev) =
      if o_is sc then
        if oz_gtb sc ec then PA sb ec ev eb sc sv
        else if oz_eq_or_none ec sc && o_is sv then
          if oz_gtb sv ev then PA sb sc ev eb ec sv else PA sb sc sv eb ec ev
        else PA sb sc sv eb ec ev
      else PA sb sc sv eb ec ev)).
  { intros Hbs _. unfold swap_args. destruct eb as [eb'|]; [|reflexivity]. subst eb'.
    rewrite Z.ltb_irrefl, book_eqb_refl. reflexivity. }
  destruct (book_eqb b sb) eqn:Ebs.
  - apply book_eqb_eq in Ebs. subst b.
    rewrite (Hsame Ebs) by (destruct sc; eauto).
    assert (Hu2 : forall u2, second_unit (PA sb sc sv eb ec ev) = Some u2 -> unit_book u2 = sb).
    { intros u2. unfold second_unit, first_unit. cbn [pa_sb pa_sc pa_sv pa_eb pa_ec pa_ev].
      destruct eb as [eb'|]; [subst eb'|]; rewrite ?book_eqb_refl; destruct ec, ev, sc, sv; cbn; intros H; try discriminate; injection H as <-; reflexivity. }
    assert (Hu1 : forall u1, first_unit (PA sb sc sv eb ec ev) = Some u1 -> unit_book u1 = sb).
    { intros u1. unfold first_unit. cbn. destruct sc, sv; cbn; intros H; try discriminate; injection H as <-; reflexivity. }
    assert (Hno : (forall z u1 u2, first_unit (PA sb sc sv eb ec ev) = Some u1 -> second_unit (PA sb sc sv eb ec ev) = Some u2 ->
       unit_ok d z u1 -> unit_ok d z u2 -> ~ (vchap (unit_last d u2) < vchap (unit_first d z u1) \/
         (vchap (unit_last d u2) = vchap (unit_first d z u1) /\ vverse (unit_last d u2) < vverse (unit_first d z u1)))) ->
       forall z u1 u2, first_unit (PA sb sc sv eb ec ev) = Some u1 -> second_unit (PA sb sc sv eb ec ev) = Some u2 ->
       unit_ok d z u1 -> unit_ok d z u2 -> pos (unit_first d z u1) <= pos (unit_last d u2)).
    { intros H z u1 u2 U1 U2 O1 O2. specialize (H z u1 u2 U1 U2 O1 O2). apply Z.nlt_ge. intros Hc. apply H.
      apply Hcmp; auto. - rewrite (Hu1 _ U1), (Hu2 _ U2). reflexivity. - now rewrite (Hu1 _ U1). }
    assert (Hyes : (forall z u1 u2, first_unit (PA sb sc sv eb ec ev) = Some u1 -> second_unit (PA sb sc sv eb ec ev) = Some u2 ->
       unit_ok d z u1 -> unit_ok d z u2 -> (vchap (unit_last d u2) < vchap (unit_first d z u1) \/
         (vchap (unit_last d u2) = vchap (unit_first d z u1) /\ vverse (unit_last d u2) < vverse (unit_first d z u1)))) ->
       forall z u1 u2, first_unit (PA sb sc sv eb ec ev) = Some u1 -> second_unit (PA sb sc sv eb ec ev) = Some u2 ->
       unit_ok d z u1 -> unit_ok d z u2 -> pos (unit_last d u2) < pos (unit_first d z u1)).
    { intros H z u1 u2 U1 U2 O1 O2. specialize (H z u1 u2 U1 U2 O1 O2).
      apply Hcmp; auto. - rewrite (Hu1 _ U1), (Hu2 _ U2). reflexivity. - now rewrite (Hu1 _ U1). }
    assert (Hin1 : forall z c v, legal d z sb c v -> 1 <= c <= num_chaps d sb) by (intros z c v [H _]; exact H).
    assert (H11 := first_chap_ok sb Hsb).
    assert (Hbin : forall c v c' v', books_in (PA sb c v eb c' v')) by (intros; split; auto).
    assert (Hfl := fun z c => first_le_last e Hwf z sb c Hsb).
    destruct sc as [c1|]; cbn [o_is].
    2:{ left. split; [reflexivity|]. apply Hno. intros z u1 u2 U1 U2 O1 O2.
        unfold first_unit in U1. cbn in U1. destruct sv; [discriminate|]. injection U1 as <-. cbn [unit_first vchap vverse].
        pose proof (Hu2 _ U2) as Hb2.
        assert (1 <= vchap (unit_last d u2) /\ first_num d z sb (vchap (unit_last d u2)) <= vverse (unit_last d u2)).
        { assert (Hin2 : In (unit_book u2) (book_order d)) by now rewrite Hb2.
          destruct (unit_bounds z u2 Hin2 O2) as (_ & L & _). apply (InB_legal e) in L. destruct L as [Lc Lv].
          rewrite unit_last_book, Hb2 in *. lia. }
        intros [H'|[H' H'']]; [lia|]. rewrite H' in *. lia. }
    destruct (oz_gtb (Some c1) ec) eqn:Egt.
    { right. destruct ec as [c2|]; [|discriminate]. cbn [oz_gtb] in Egt. rewrite Z.gtb_ltb in Egt. apply Z.ltb_lt in Egt.
      assert (S2 : second_unit (PA sb (Some c1) sv eb (Some c2) ev) = named_unit sb (Some c2) ev).
      { unfold second_unit. cbn. destruct eb as [eb'|]; [subst eb'|]; destruct ev; reflexivity. }
      assert (S1 : second_unit (PA sb (Some c2) ev eb (Some c1) sv) = named_unit sb (Some c1) sv).
      { unfold second_unit. cbn. destruct eb as [eb'|]; [subst eb'|]; destruct sv; reflexivity. }
      split; [now rewrite S2|]. split; [now rewrite S1|]. split; [apply Hbin|].
      apply Hyes. intros z u1 u2 U1 U2 O1 O2. rewrite S2 in U2. unfold first_unit in U1. cbn in U1, U2.
      left. destruct sv, ev; cbn in U1, U2; injection U1 as <-; injection U2 as <-; cbn; lia. }
    destruct (oz_eq_or_none ec (Some c1) && o_is sv) eqn:Eeq.
    + apply andb_true_iff in Eeq. destruct Eeq as [Eeq Esv]. destruct sv as [v1|]; [|discriminate].
      assert (Hec : ec = None \/ ec = Some c1).
      { destruct ec as [c2|]; auto. right. cbn in Eeq. apply Z.eqb_eq in Eeq. congruence. }
      destruct (oz_gtb (Some v1) ev) eqn:Ev.
      * right. destruct ev as [v2|]; [|discriminate]. cbn [oz_gtb] in Ev. rewrite Z.gtb_ltb in Ev. apply Z.ltb_lt in Ev.
        assert (S2 : second_unit (PA sb (Some c1) (Some v1) eb ec (Some v2)) = Some (UVerse sb c1 v2)).
        { unfold second_unit. cbn. destruct eb as [eb'|]; [subst eb'|]; rewrite ?book_eqb_refl; destruct Hec as [-> | ->]; reflexivity. }
        assert (S1 : second_unit (PA sb (Some c1) (Some v2) eb ec (Some v1)) = Some (UVerse sb c1 v1)).
        { unfold second_unit. cbn. destruct eb as [eb'|]; [subst eb'|]; rewrite ?book_eqb_refl; destruct Hec as [-> | ->]; reflexivity. }
        split; [now rewrite S2|]. split; [now rewrite S1|]. split; [apply Hbin|].
        apply Hyes. intros z u1 u2 U1 U2 O1 O2. rewrite S2 in U2. cbn in U1, U2. injection U1 as <-. injection U2 as <-.
        right. cbn. lia.
      * left. split; [reflexivity|]. apply Hno. intros z u1 u2 U1 U2 O1 O2. unfold first_unit in U1. cbn in U1. injection U1 as <-.
        cbn [unit_first vchap vverse unit_ok] in *. pose proof (Hin1 _ _ _ O1) as Hc1. destruct O1 as [_ O1].
        unfold second_unit, first_unit in U2. cbn in U2.
        assert (Hv : forall v2, ev = Some v2 -> v1 <= v2).
        { intros v2 ->. cbn [oz_gtb] in Ev. rewrite Z.gtb_ltb in Ev. apply Z.ltb_ge in Ev. lia. }
        destruct eb as [eb'|]; [subst eb'|]; rewrite ?book_eqb_refl in U2; destruct Hec as [-> | ->]; destruct ev as [v2|];
          cbn in U2; injection U2 as <-; cbn [unit_last vchap vverse]; try specialize (Hv _ eq_refl); try lia.
        -- intros [H|[H H']]; [lia|]. rewrite H in *. lia.
    + left. split; [reflexivity|]. apply Hno. intros z u1 u2 U1 U2 O1 O2.
      unfold first_unit in U1. unfold second_unit, first_unit in U2. cbn in U1, U2.
      assert (Hc1 : 1 <= c1 <= num_chaps d sb) by (destruct sv; cbn in U1; injection U1 as <-; cbn in O1; [now destruct O1|auto]).
      assert (Hc : forall c2, ec = Some c2 -> c1 <= c2 /\ (c1 = c2 -> sv = None)).
      { intros c2 ->. cbn [oz_gtb oz_eq_or_none] in Egt, Eeq. rewrite Z.gtb_ltb in Egt. apply Z.ltb_ge in Egt. split; [lia|].
        intros <-. rewrite Z.eqb_refl in Eeq. destruct sv; [discriminate|reflexivity]. }
      assert (Hsv : ec = None -> sv = None) by (intros ->; destruct sv; [discriminate|reflexivity]).
      destruct ec as [c2|].
      * destruct (Hc _ eq_refl) as [Hle Hsv'].
        assert (U2' : named_unit sb (Some c2) ev = Some u2) by (destruct eb as [eb'|]; [subst eb'|]; destruct ev; exact U2).
        destruct (Z.eq_dec c1 c2) as [<-|Hne].
        -- rewrite (Hsv' eq_refl) in U1. cbn in U1. injection U1 as <-. cbn [unit_first vchap vverse].
           destruct ev as [v2|]; cbn in U2'; injection U2' as <-; cbn [unit_last vchap vverse unit_ok] in *.
           ++ destruct O2 as [_ O2]. lia.
           ++ specialize (Hfl z c1 Hc1). lia.
        -- destruct sv, ev; cbn in U1, U2'; injection U1 as <-; injection U2' as <-; cbn; lia.
      * rewrite (Hsv eq_refl) in *. cbn in U1. injection U1 as <-. cbn [unit_first vchap vverse].
        specialize (Hfl z c1 Hc1).
        destruct eb as [eb'|]; [subst eb'|]; rewrite ?book_eqb_refl in U2; destruct ev as [v2|]; cbn in U2; injection U2 as <-;
          cbn [unit_last vchap vverse unit_ok] in *; try (destruct O2 as [_ O2]); try lia.
        intros [H|[H H']]; [lia|]. rewrite H in *. lia.
  - assert (Hne : b <> sb) by now apply book_eqb_neq. destruct eb as [eb'|]; subst b; [|congruence].
    unfold swap_args.
    assert (Hbne : bord e eb' <> bord e sb) by (intros H; apply (bord_inj e Hwf) in H; auto).
    assert (S2 : second_unit (PA sb sc sv (Some eb') ec ev) = named_unit eb' ec ev).
    { unfold second_unit. cbn [pa_sb pa_sc pa_sv pa_eb pa_ec pa_ev]. rewrite Ebs. destruct ec, ev; reflexivity. }
    assert (Hbk : forall b' c v u, named_unit b' c v = Some u -> unit_book u = b').
    { intros b' [c|] [v|] u H; cbn in H; try discriminate; injection H as <-; reflexivity. }
    destruct (Z.ltb_spec (bord e eb') (bord e sb)) as [Hlt|Hlt].
    + right. split; [now rewrite S2|]. split.
      * unfold second_unit, first_unit. cbn [pa_sb pa_sc pa_sv pa_eb pa_ec pa_ev].
        replace (book_eqb sb eb') with false by (symmetry; apply book_eqb_neq; congruence).
        destruct sc, sv; reflexivity.
      * split; [split; auto; cbn; intros b' H; injection H as <-; auto|].
        intros z u1 u2 U1 U2 O1 O2. rewrite S2 in U2. pose proof (Hbk _ _ _ _ U1) as B1. pose proof (Hbk _ _ _ _ U2) as B2.
        apply Hdiff; rewrite ?B1, ?B2; auto.
    + left. rewrite Ebs. cbn [andb]. split; [reflexivity|]. intros z u1 u2 U1 U2 O1 O2. rewrite S2 in U2.
      pose proof (Hbk _ _ _ _ U1) as B1. pose proof (Hbk _ _ _ _ U2) as B2. cbn in B1.
      assert (I1 : In (unit_book u1) (book_order d)) by now rewrite B1.
      assert (I2 : In (unit_book u2) (book_order d)) by now rewrite B2.
      assert (H : pos (unit_last d u1) < pos (unit_first d z u2)).
      { apply Hdiff; auto. rewrite B1, B2. lia. }
      destruct (unit_bounds z u1 I1 O1) as (_ & _ & P1). destruct (unit_bounds z u2 I2 O2) as (_ & _ & P2). lia.
Qed.
End Units.
