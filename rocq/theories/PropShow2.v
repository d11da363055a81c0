(** * PropShow2: texts under a flags argument (C72). *)
From Coq Require Import List ZArith NArith Bool Ascii String Lia.
From Verif Require Import Base Books Chars Regex Data DefaultData MVerse MRange MSeq MList MStr MParse Spec SpecList SpecName SpecParse SpecMean
  PList PCore PNav PVerse PRange PDefault PSetOps PRuns PSplit PCount PUnit PUnit2 PRegroup PLex PropVerse PropRange PropUnit PropParse PPrint PropStr SpecShow PShow PShow2 PropShow.
Import ListNotations.
Import Spec.
Open Scope Z_scope.
Open Scope list_scope.

(** ** C72 *)
(** The flags that count: the argument, or the global flags if it is missing or NONE. *)
Definition under (e : env) (fl : option flag) : env :=
  mkEnv (ed e) match fl with Some f => if multibook f || verse0 f then f else eg e | None => eg e end.
(** A flags argument gives the texts that these global flags give. *)
Definition C72_ranges : Prop := forall e lk force fl x, wf_data (ed e) -> wf_range (ed e) true x ->
  range_str e lk force x fl = range_str (under e fl) lk force x None.
Definition C72_lists : Prop := forall e lk pg force fl g, wf_data (ed e) -> Forall (Forall (wf_range (ed e) true)) g ->
  list_str e lk pg force g fl = list_str (under e fl) lk pg force g None.
Lemma under_eff : forall e fl, under e fl = mkEnv (ed e) (eff e fl).
Proof. intros [d g] [f|]; reflexivity. Qed.
(** What a range opens and closes is the same for the flags and the global flags. *)
Definition same_start (e : env) (fl : option flag) (x : range) : Prop :=
  (opens_book e x <-> opens_book (under e fl) x) /\ (opens_chap e x <-> opens_chap (under e fl) x).
Definition same_close (e : env) (fl : option flag) (x : range) : Prop := closes_chap e x <-> closes_chap (under e fl) x.

(** True if the chapters and books at both ends begin with verses that the global flags know, and if the tests that
    are made without the flags have the same results; missing: the rest. *)
Theorem C72_range_partial : forall e lk force fl x, wf_data (ed e) -> wf_range (ed e) true x -> range_can_start e fl x ->
  same_start e fl x -> (force = true -> same_close e fl x) ->
  range_str e lk force x fl = range_str (under e fl) lk force x None.
Proof.
  intros e lk force fl x W Hx Hc (H1 & H2) H3. unfold same_close in H3. rewrite under_eff in *. now apply range_there.
Qed.
Theorem C72_list_partial : forall e lk pg force fl g, wf_data (ed e) -> Forall (Forall (wf_range (ed e) true)) g ->
  Forall (Forall (range_can_start e fl)) g -> (force = true -> Forall (Forall (same_close e fl)) g) ->
  list_str e lk pg force g fl = list_str (under e fl) lk pg force g None.
Proof. intros e lk pg force fl g W Hg Hc H3. unfold same_close in H3. rewrite under_eff in *. now apply list_there. Qed.
(** A flags argument without VERSE_0, or any if the global flags have VERSE_0: all lists, unless start verses are forced. *)
Theorem C72_fewer_zeros : forall e lk pg fl g, wf_data (ed e) -> Forall (Forall (wf_range (ed e) true)) g ->
  (zero_on e fl = true -> verse0 (eg e) = true) ->
  list_str e lk pg false g fl = list_str (under e fl) lk pg false g None.
Proof.
  intros e lk pg fl g W Hg Hz. apply C72_list_partial; auto; [|discriminate].
  eapply Forall_impl; [|exact Hg]. intros l. apply Forall_impl. intros x. now apply starts_there.
Qed.
(** No difference for ranges that begin and end in chapters without a verse 0, of books that begin with none. *)
Definition no_zeros (d : bibledata) (x : range) : Prop :=
  Forall (fun v => first_num d true (vbook v) (vchap v) = 1 /\ first_num d true (vbook v) 1 = 1) [rstart x; rend x].
Lemma first_num_same : forall d z z' b c, first_num d true b c = 1 -> first_num d z b c = first_num d z' b c.
Proof. intros d z z' b c. unfold first_num. destruct (zmem c (verse_0s d b)), z, z'; cbn; intros; congruence. Qed.
Theorem C72_no_zeros : forall e lk pg force fl, wf_data (ed e) ->
  (forall x, wf_range (ed e) true x -> no_zeros (ed e) x -> range_str e lk force x fl = range_str (under e fl) lk force x None) /\
  (forall g, Forall (Forall (wf_range (ed e) true)) g -> Forall (Forall (no_zeros (ed e))) g ->
     list_str e lk pg force g fl = list_str (under e fl) lk pg force g None).
Proof.
  intros e lk pg force fl W.
  assert (K : forall x, wf_range (ed e) true x -> no_zeros (ed e) x -> range_can_start e fl x /\ same_start e fl x /\ same_close e fl x).
  { intros x Hx Hn. inversion Hn as [|? ? (A1 & A2) Hn']; subst. inversion Hn' as [|? ? (B1 & B2) _]; subst.
    pose proof (range_can_start_none e W x Hx) as (C1 & C2 & C3 & C4).
    split; [|split].
    - destruct Hx as (Rs & Re & _).
      assert (F : forall v oc, InB (ed e) true v -> oc = None \/ oc = Some (vchap v) -> InB (ed e) (verse0 (eg e)) (unit_first (ed e) (verse0 (eg e)) (whole_unit (vbook v) oc))).
      { intros v oc Hv Ho. destruct (unit_facts e W (verse0 (eg e)) v oc Hv Ho) as (F1 & F2 & _). now apply (unit_bounds e W). }
      pose proof (F _ _ Rs (or_introl eq_refl)) as F1. pose proof (F _ _ Rs (or_intror eq_refl)) as F2. pose proof (F _ _ Re (or_introl eq_refl)) as F3. pose proof (F _ _ Re (or_intror eq_refl)) as F4.
      cbn [whole_unit unit_first] in *. unfold range_can_start, can_start, chap_at, book_at. cbn [unit_first].
      rewrite (first_num_same _ (zero_on e fl) (verse0 (eg e)) _ _ A1), (first_num_same _ (zero_on e fl) (verse0 (eg e)) _ _ A2),
        (first_num_same _ (zero_on e fl) (verse0 (eg e)) _ _ B1), (first_num_same _ (zero_on e fl) (verse0 (eg e)) _ _ B2). auto.
    - unfold same_start, opens_book, opens_chap, opens_with, chap_at, book_at. cbn [unit_first under ed eg].
      rewrite (first_num_same (ed e) (verse0 (eg e)) (verse0 (match fl with Some f => if multibook f || verse0 f then f else eg e | None => eg e end)) _ 1 A2),
        (first_num_same (ed e) (verse0 (eg e)) (verse0 (match fl with Some f => if multibook f || verse0 f then f else eg e | None => eg e end)) _ _ A1). tauto.
    - unfold same_close, closes_chap, closes_with, chap_at. cbn [unit_first under ed eg].
      rewrite (first_num_same (ed e) (verse0 (eg e)) (verse0 (match fl with Some f => if multibook f || verse0 f then f else eg e | None => eg e end)) _ _ B1). tauto. }
  split.
  - intros x Hx Hn. destruct (K x Hx Hn) as (A & B & C). now apply C72_range_partial.
  - intros g Hg Hn. assert (Forall (Forall (fun x => range_can_start e fl x /\ same_start e fl x /\ same_close e fl x)) g).
    { rewrite Forall_forall in *. intros l Hl. specialize (Hg l Hl). specialize (Hn l Hl). rewrite Forall_forall in *. auto. }
    apply C72_list_partial; auto; [|intros _]; (eapply Forall_impl; [|exact H]; intros l; apply Forall_impl; tauto).
Qed.
(** Flags that only differ in MULTIBOOK: all texts. *)
Theorem C72_same_zeros : forall e lk pg force fl, wf_data (ed e) -> zero_on e fl = verse0 (eg e) ->
  (forall x, wf_range (ed e) true x -> range_str e lk force x fl = range_str (under e fl) lk force x None) /\
  (forall g, Forall (Forall (wf_range (ed e) true)) g -> list_str e lk pg force g fl = list_str (under e fl) lk pg force g None).
Proof.
  intros e lk pg force fl W Hz.
  assert (Z : verse0 (eg (under e fl)) = verse0 (eg e)) by (rewrite <- Hz; destruct e as [? [[] []]], fl as [[[] []]|]; reflexivity).
  assert (K : forall x, wf_range (ed e) true x -> range_can_start e fl x /\ same_start e fl x /\ same_close e fl x).
  { intros x Hx. split; [apply starts_there; auto; congruence|].
    unfold same_start, same_close, opens_book, opens_chap, closes_chap. rewrite Z. cbn [under ed]. tauto. }
  split.
  - intros x Hx. destruct (K x Hx) as (A & B & C). now apply C72_range_partial.
  - intros g Hg. apply C72_list_partial; auto; [|intros _]; (eapply Forall_impl; [|exact Hg]; intros l; apply Forall_impl; intros x Hx; now apply K in Hx).
Qed.
(** The exact texts. *)
Theorem C72_texts : forall e lk pg fl g s, wf_data (ed e) -> tidy (ed e) -> Forall (Forall (wf_range (ed e) true)) g ->
  (zero_on e fl = true -> verse0 (eg e) = true) ->
  (list_str e lk pg false g fl = Ok s <-> list_written (under e fl) lk pg false g s).
Proof.
  intros e lk pg fl g s W T Hg Hz. rewrite C72_fewer_zeros by auto. now apply (C50_list (under e fl) lk pg false None g s).
Qed.

(** Global VERSE_0, argument MULTIBOOK: the start of Psalms 3:1-8 is chosen by the global flags (no whole chapter), its end by the
    argument (a whole chapter, no end): the text is that of one verse. *)
Theorem C72_range_refuted : exists e lk force fl x, wf_data (ed e) /\ wf_range (ed e) true x /\
  range_str e lk force x fl = Ok (s2l "Psalms 3:1") /\ x = R (V Psa 3 1) (V Psa 3 8) /\
  range_str (under e fl) lk force x None = Ok (s2l "Psalms 3") /\ ~ C72_ranges.
Proof.
  exists (denv VERSE_0), plain, false, (Some MULTIBOOK), (R (V Psa 3 1) (V Psa 3 8)).
  split; [exact default_wf|]. split; [wf_range|]. split; [vm_compute; reflexivity|]. split; [reflexivity|]. split; [vm_compute; reflexivity|].
  intros H. specialize (H (denv VERSE_0) plain false (Some MULTIBOOK) (R (V Psa 3 1) (V Psa 3 8)) default_wf ltac:(wf_range)). vm_compute in H. discriminate.
Qed.
(** Psalms 3:0-8 in the same place: nothing follows the separator. *)
Theorem C72_dangling_refuted : exists e lk fl x, wf_data (ed e) /\ wf_range (ed e) (verse0 (eg e)) x /\
  range_str e lk false x fl = Ok (s2l "Psalms 3-") /\ range_str (under e fl) lk false x None = Ok (s2l "Psalms 3:0-8") /\
  range_str e lk false x None = Ok (s2l "Psalms 3").
Proof.
  exists (denv VERSE_0), plain, (Some MULTIBOOK), (R (V Psa 3 0) (V Psa 3 8)).
  split; [exact default_wf|]. split; [wf_range|]. vm_compute. auto.
Qed.
(** Lists: VERSE_0 as an argument only raises; forced start verses are chosen by the global flags. *)
Theorem C72_list_refuted : exists e lk pg fl g, wf_data (ed e) /\ Forall (Forall (wf_range (ed e) true)) g /\
  list_str e lk pg false g fl = Err InvalidRef /\ list_str (under e fl) lk pg false g None = Ok (s2l "Psalms 3") /\ ~ C72_lists.
Proof.
  assert (G : Forall (Forall (wf_range default_data true)) [[R (V Psa 3 0) (V Psa 3 8)]]) by one_by_one ltac:(wf_range).
  exists (denv NONE), plain, true, (Some VERSE_0), [[R (V Psa 3 0) (V Psa 3 8)]].
  split; [exact default_wf|]. split; [exact G|]. split; [vm_compute; reflexivity|]. split; [vm_compute; reflexivity|].
  intros H. specialize (H (denv NONE) plain true false (Some VERSE_0) _ default_wf G). vm_compute in H. discriminate.
Qed.
Theorem C72_forced_refuted : exists e lk pg fl g, wf_data (ed e) /\ Forall (Forall (wf_range (ed e) true)) g /\
  (zero_on e fl = true -> verse0 (eg e) = true) /\
  list_str e lk pg true g fl = Ok (s2l "Psalms 3:1") /\ list_str (under e fl) lk pg true g None = Ok (s2l "Psalms 3").
Proof.
  exists (denv VERSE_0), plain, true, (Some MULTIBOOK), [[R (V Psa 3 1) (V Psa 3 8)]].
  split; [exact default_wf|]. split; [one_by_one ltac:(wf_range)|]. split; [auto|]. vm_compute. auto.
Qed.
Example C72_ex : let g := [[R (V Psa 3 1) (V Psa 4 8); R (V Psa 3 0) (V Psa 3 8)]; [R (V Matt 3 1) (V Matt 3 8)]] in
  Forall (Forall (wf_range default_data true)) g /\
  list_str (denv VERSE_0) plain true false g (Some MULTIBOOK) = Ok (s2l "Psalms 3-4, 3:0-8; Matthew 3:1-8") /\
  list_str (denv VERSE_0) plain true false g None = Ok (s2l "Psalms 3:1-4:8, 3:0-8; Matthew 3:1-8") /\
  list_written (denv MULTIBOOK) plain true false g (s2l "Psalms 3-4, 3:0-8; Matthew 3:1-8") /\
  (wf_range default_data true (R (V Psa 2 1) (V Psa 2 12)) /\ no_zeros default_data (R (V Psa 2 1) (V Psa 2 12)) /\
   range_str (denv NONE) plain false (R (V Psa 2 1) (V Psa 2 12)) (Some VERSE_0) = Ok (s2l "Psalms 2")).
Proof.
  cbv zeta. assert (G : Forall (Forall (wf_range default_data true)) [[R (V Psa 3 1) (V Psa 4 8); R (V Psa 3 0) (V Psa 3 8)]; [R (V Matt 3 1) (V Matt 3 8)]]) by one_by_one ltac:(wf_range).
  split; [exact G|]. split; [vm_compute; reflexivity|]. split; [vm_compute; reflexivity|]. split.
  - apply (C72_texts (denv VERSE_0) plain true (Some MULTIBOOK) _ _ default_wf default_tidy G); [auto|vm_compute; reflexivity].
  - split; [wf_range|]. split; [|vm_compute; reflexivity]. do 2 (apply Forall_cons; [split; vm_compute; reflexivity|]). constructor.
Qed.
