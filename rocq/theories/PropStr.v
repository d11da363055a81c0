(** * PropStr: theorems on printing and reading back (C34, C35, C36). *)
From Coq Require Import List ZArith NArith Bool Ascii String Lia.
From Verif Require Import Base Books Chars Regex Data DefaultData MVerse MRange MSeq MList MStr MParse Spec SpecList SpecName SpecParse SpecMean
  PList PCore PNav PVerse PRange PDefault PSetOps PRuns PSplit PCount PUnit PUnit2 PRegroup PLex PParse PParse2 PropParse PPrint PText PRound.
Import ListNotations.
Import Spec.
Open Scope Z_scope.
Open Scope list_scope.

(** A range that can be printed and read with flags [fp]: its verses are in the Bible of the global flags, it spans
    books only if that is allowed by [fp], and the names of its books can be read. *)
Definition printable (e : env) (fp : option flag) (lk : look) (x : range) : Prop :=
  wf_range (ed e) (verse0 (eg e)) x /\
  (multi_on e fp = true \/ vbook (rstart x) = vbook (rend x)) /\
  readable e lk (vbook (rstart x)) /\ readable e lk (vbook (rend x)).
Lemma printable_shows : forall e fp lk x, printable e fp lk x -> shows e fp lk x.
Proof. intros e fp lk x (A & B & C & D). split; [split; auto|auto]. Qed.
(** Flags that agree with the global flags about verse 0s. *)
Notation same_zeros e fl := (zero_on e fl = verse0 (eg e)).
Record good_data (d : bibledata) : Prop := { gd_wf : wf_data d; gd_names : names_listed d; gd_seps : good_seps d }.
Lemma default_good : good_data default_data.
Proof. constructor; [exact default_wf|exact default_names_listed|exact default_seps]. Qed.


(** ** The default data *)
(** All names can be read, but for "SongofSongs". *)
Definition name_kept (lk : look) (b : book) : Prop := lk_nospace lk = true -> lk_abbrev lk = false -> b <> Song.
Lemma default_readable : forall f lk b, In b (book_order default_data) -> name_kept lk b -> readable (denv f) lk b.
Proof.
  intros f [ab alt ns] b Hb K. unfold name_kept in K. cbn [lk_nospace lk_abbrev] in K.
  assert (E : is_name default_data (shown_name (denv f) (Look ab alt ns) b) && 
              match from_str default_data (shown_name (denv f) (Look ab alt ns) b) with Some b' => book_eqb b b' | None => false end = true).
  { assert (All : forallb (fun ab => forallb (fun ns => forallb (fun b => (ns && negb ab && book_eqb b Song) ||
       (is_name default_data (if ns then remove_spaces (book_name default_data ab b) else book_name default_data ab b) &&
        match from_str default_data (if ns then remove_spaces (book_name default_data ab b) else book_name default_data ab b) with Some b' => book_eqb b b' | None => false end))
       (book_order default_data)) [true; false]) [true; false] = true) by (vm_compute; reflexivity).
    rewrite forallb_forall in All. specialize (All ab). rewrite forallb_forall in All. specialize (All ltac:(destruct ab; cbn; auto) ns ltac:(destruct ns; cbn; auto)).
    rewrite forallb_forall in All. specialize (All b Hb). unfold shown_name. cbn [lk_nospace lk_abbrev denv ed]. destruct (ns && negb ab && book_eqb b Song) eqn:Q; [|exact All].
    exfalso. apply andb_true_iff in Q. destruct Q as (Q & Q2). apply andb_true_iff in Q. destruct Q as (-> & Q). apply negb_true_iff in Q. subst ab.
    apply book_eqb_eq in Q2. now apply K. }
  apply andb_true_iff in E. destruct E as (E1 & E2). split; [now apply is_name_spec|]. cbn [denv ed] in *.
  destruct (from_str default_data _) as [b'|]; [|discriminate]. apply book_eqb_eq in E2. now subst b'.
Qed.
(** No book of several chapters begins with a verse 0. *)
Lemma default_force : forall f force, force_ok (denv f) force.
Proof.
  intros f force _ b Hb _.
  assert (All : forallb (fun z => forallb (fun b => first_num default_data z b 1 =? 1) (book_order default_data)) [true; false] = true) by (vm_compute; reflexivity).
  rewrite forallb_forall in All. specialize (All (verse0 f)). rewrite forallb_forall in All.
  apply Z.eqb_eq. exact (All ltac:(destruct (verse0 f); cbn; auto) b Hb).
Qed.
Definition default_printable (f : flag) (lk : look) (x : range) : Prop :=
  wf_range default_data (verse0 f) x /\ (multibook f = true \/ vbook (rstart x) = vbook (rend x)) /\
  name_kept lk (vbook (rstart x)) /\ name_kept lk (vbook (rend x)).
Lemma default_printable_ok : forall f lk x, default_printable f lk x -> printable (denv f) None lk x.
Proof.
  intros f lk x (A & B & C & D). split; [exact A|]. split; [exact B|]. pose proof A as (As & Ae & _).
  split; apply default_readable; auto; [apply (InB_book (denv f) _ _ As)|apply (InB_book (denv f) _ _ Ae)].
Qed.
Lemma default_printable_flags : forall f fp lk x, same_zeros (denv f) fp -> default_printable (eff (denv f) fp) lk x -> printable (denv f) fp lk x.
Proof.
  intros f fp lk x Z H. apply default_printable_ok in H. destruct H as (A & B & C & D). cbn [denv ed eg] in *.
  rewrite (zero_on_eq (denv f) fp), Z in A. split; [exact A|]. split; [|split; [exact C|exact D]]. destruct B as [B|B]; [left|now right].
  rewrite <- (multi_on_eq (denv f) fp). exact B.
Qed.
Lemma plain_printable : forall f x, wf_range default_data (verse0 f) x -> multibook f = true \/ one_book_range x -> default_printable f plain x.
Proof. intros f x A B. split; [exact A|]. split; [exact B|]. split; intros X; discriminate X. Qed.
(** For concrete lists. *)
Lemma legal_one : forall z s t, in_bible default_data z s = true -> in_bible default_data z t = true -> vleb (denv NONE) s t = true -> vbook s = vbook t ->
  wf_range default_data z (R s t) /\ one_book_range (R s t).
Proof. intros z s t A B C D. split; [|exact D]. now apply wf_range_check; [exact default_wf|..]. Qed.
Ltac one_by_one t := repeat first [apply Forall_nil|apply Forall_cons]; t.
Ltac legal_one := apply legal_one; vm_compute; reflexivity.

(** Every text that is read as [gs] in all contexts is parsed to [gs] after every history. *)
Lemma tree_parse : forall e fp s gs h, good_data (ed e) -> tree_text e fp s gs ->
  snd (parse e fp (after (ed e) h ts_init) s) = Ok gs.
Proof.
  intros e fp s gs h [W N G] T. assert (S : sane (ed e) (after (ed e) h ts_init)) by (apply after_sane; auto using sane_init).
  apply C46_result; auto. destruct (T (ctx_of (after (ed e) h ts_init))) as (t & c' & A & B & _). eauto.
Qed.

(** ** C35 *)
(** The claim, for the global flags: lists that the constructors accept (no empty groups). *)
Definition C35_statement : Prop := forall e lk force fl gs h, good_data (ed e) ->
  gs <> [] -> Forall (fun g => g <> []) gs ->
  Forall (Forall (fun x => wf_range (ed e) (zero_on e fl) x /\ (multi_on e fl = true \/ one_book_range x))) gs ->
  exists s, list_str e lk true force gs fl = Ok s /\ snd (list_from_str e fl (after (ed e) h ts_init) s) = Ok gs.
Theorem C35_partial : forall e lk force fl fp gs h, good_data (ed e) -> same_zeros e fl -> same_zeros e fp -> force_ok e force ->
  gs <> [] -> Forall (fun g => g <> []) gs -> Forall (Forall (printable e fp lk)) gs ->
  exists s, list_str e lk true force gs fl = Ok s /\ snd (list_from_str e fp (after (ed e) h ts_init) s) = Ok gs.
Proof.
  intros e lk force fl fp gs h D Hfl Hfp Hf Hne Hfull Hg. pose proof D as [W N G].
  destruct (list_round e W G fl Hfl fp Hfp lk force gs Hf Hne Hfull) as (s & E & T).
  { eapply Forall_impl; [|exact Hg]. intros g H. eapply Forall_impl; [|exact H]. apply printable_shows. }
  exists s. split; [exact E|]. rewrite C46_list_from_str; auto using after_sane, sane_init. now apply tree_parse.
Qed.
(** With the default data, the only exception under the global flags is the title of the Song of Songs without spaces. *)
Theorem C35_default_partial : forall f fl fp lk force gs h, same_zeros (denv f) fl -> same_zeros (denv f) fp ->
  gs <> [] -> Forall (fun g => g <> []) gs -> Forall (Forall (default_printable (eff (denv f) fp) lk)) gs ->
  exists s, list_str (denv f) lk true force gs fl = Ok s /\ snd (list_from_str (denv f) fp (after default_data h ts_init) s) = Ok gs.
Proof.
  intros f fl fp lk force gs h Z Zp Hne Hfull Hg. apply (C35_partial (denv f) lk force fl fp gs h); auto; [exact default_good|apply default_force|].
  eapply Forall_impl; [|exact Hg]. intros g H. eapply Forall_impl; [|exact H]. intros x. now apply default_printable_flags.
Qed.
(** [str(l)] and [BibleRangeList(str(l))]. *)
Theorem C35_str : forall f gs h, gs <> [] -> Forall (fun g => g <> []) gs ->
  Forall (Forall (fun x => wf_range default_data (verse0 f) x /\ (multibook f = true \/ one_book_range x))) gs ->
  exists s, list_text (denv f) gs = Ok s /\ snd (list_from_str (denv f) None (after default_data h ts_init) s) = Ok gs.
Proof.
  intros f gs h Hne Hfull Hg. apply (C35_default_partial f None None plain false gs h); auto.
  eapply Forall_impl; [|exact Hg]. intros g H. eapply Forall_impl; [|exact H]. intros x (A & B). now apply plain_printable.
Qed.
Example C35_ex :
  let gs := [[R (V Gen 1 2) (V Gen 1 2); R (V Gen 2 1) (V Gen 2 25); R (V Gen 3 4) (V Gen 3 4)]; [R (V Gen 3 7) (V Gen 5 32)]; [R (V Jude 1 3) (V Jude 1 3)]] in
  Forall (Forall (default_printable NONE (Look true true true))) gs /\
  list_str (denv NONE) (Look true true true) true true gs None = Ok (s2l "Gen1.2,2.1-25,3.4-4;3.7-5.32;Jude3-3") /\
  list_text (denv NONE) gs = Ok (s2l "Genesis 1:2, 2:1-25, 3:4-4; 3:7-5:32; Jude 3-3").
Proof.
  cbv zeta. split; [|vm_compute; auto].
  one_by_one ltac:(split; [wf_range|split; [right; reflexivity|split; discriminate]]).
Qed.
(** A list with ranges over several books, read and printed with the flags argument MULTIBOOK. *)
Example C35_multibook_ex :
  let gs := [[R (V Gen 1 2) (V Exod 2 25); R (V Exod 3 4) (V Exod 3 4)]; [R (V Matt 1 1) (V Mark 16 20)]] in
  same_zeros (denv NONE) (Some MULTIBOOK) /\ Forall (Forall (default_printable (eff (denv NONE) (Some MULTIBOOK)) plain)) gs /\
  list_str (denv NONE) plain true false gs None = Ok (s2l "Genesis 1:2-Exodus 2, 3:4; Matthew-Mark") /\
  snd (list_from_str (denv NONE) (Some MULTIBOOK) ts_init (s2l "Genesis 1:2-Exodus 2, 3:4; Matthew-Mark")) = Ok gs.
Proof.
  cbv zeta. split; [reflexivity|]. split; [|vm_compute; auto].
  one_by_one ltac:(split; [wf_range|split; [left; reflexivity|split; discriminate]]).
Qed.
(** The exceptions. *)
Theorem C35_nospace_refuted : exists gs s, Forall (Forall (fun x => wf_range default_data false x /\ one_book_range x)) gs /\
  list_str (denv NONE) (Look false false true) true false gs None = Ok s /\
  snd (list_from_str (denv NONE) None ts_init s) = Err (ParseErr 0 11).
Proof.
  exists [[R (V Song 2 1) (V Song 2 3)]], (s2l "SongofSongs2:1-3"). split; [|vm_compute; auto]. one_by_one ltac:(legal_one).
Qed.
Theorem C35_empty_refuted : list_text (denv NONE) [] = Ok [] /\ snd (list_from_str (denv NONE) None ts_init []) = Err SyntaxErr.
Proof. vm_compute. auto. Qed.
(** With flags other than the global flags: verse 0 of Psalm 3 can neither be written as a chapter nor read. *)
Theorem C35_flags_refuted : exists gs, Forall (Forall (fun x => wf_range default_data true x /\ one_book_range x)) gs /\
  list_str (denv NONE) plain true false gs (Some VERSE_0) = Err InvalidRef.
Proof.
  exists [[R (V Psa 3 0) (V Psa 3 8)]]. split; [|vm_compute; auto]. one_by_one ltac:(legal_one).
Qed.
(** With forced start verses and a verse 0 at the start of a book of several chapters. *)
Definition genesis_0 : bibledata :=
  mkData (book_order default_data) (order default_data) (max_verses default_data) (fun b => match b with Gen => [1] | _ => [] end) (names default_data)
    (range_sep default_data) (major_list_sep default_data) (minor_list_sep default_data) (verse_sep_std default_data) (verse_sep_alt default_data).
Lemma genesis_0_good : good_data genesis_0.
Proof.
  constructor.
  - destruct default_wf as (A & B). split; [unfold order_ok in *; cbn [book_order order genesis_0]; exact A|cbn [book_order max_verses genesis_0]; exact B].
  - unfold names_listed. cbn [book_order names genesis_0]. exact default_names_listed.
  - destruct default_seps as [A B C D E]. constructor; unfold is_sep; cbn [range_sep major_list_sep minor_list_sep verse_sep_std verse_sep_alt genesis_0]; auto.
Qed.
Theorem C35_force_refuted : exists gs s, let e := mkEnv genesis_0 ALL in good_data (ed e) /\
  Forall (Forall (wf_range (ed e) true)) gs /\
  list_str e plain true true gs None = Ok s /\ snd (list_from_str e None ts_init s) = Err (ParseErr 0 9).
Proof.
  exists [[R (V Gen 1 0) (V Exod 1 3)]], (s2l "Genesis 0-Exodus 1:3"). cbv zeta. cbn [ed]. split; [exact genesis_0_good|]. split; [|vm_compute; auto].
  apply Forall_cons; [|constructor]. apply Forall_cons; [|constructor]. apply wf_range_check; [apply genesis_0_good|vm_compute; reflexivity..].
Qed.

(** ** C36 *)
Definition C36_statement : Prop := forall e lk force fl, good_data (ed e) ->
  (forall x h, wf_range (ed e) (zero_on e fl) x -> (multi_on e fl = true \/ one_book_range x) ->
     exists s, range_str e lk force x fl = Ok s /\ snd (range_from_str e fl (after (ed e) h ts_init) s) = Ok x) /\
  (forall v h, InB (ed e) (zero_on e fl) v -> snd (verse_from_str e fl (after (ed e) h ts_init) (verse_str e lk v P_FULL_REF)) = Ok v).
Theorem C36_range_partial : forall e lk force fl fp x h, good_data (ed e) -> same_zeros e fl -> same_zeros e fp -> printable e fp lk x ->
  exists s, range_str e lk force x fl = Ok s /\ snd (range_from_str e fp (after (ed e) h ts_init) s) = Ok x /\
    snd (list_from_str e fp (after (ed e) h ts_init) s) = Ok [[x]].
Proof.
  intros e lk force fl fp x h D Hfl Hfp Hx. pose proof D as [W N G].
  destruct (range_round e W G fl Hfl fp Hfp lk force x (printable_shows _ _ _ _ Hx)) as (s & E & T). exists s. split; [exact E|].
  assert (S : sane (ed e) (after (ed e) h ts_init)) by (apply after_sane; auto using sane_init).
  pose proof (tree_parse e fp s _ h D T) as P. split; [|now rewrite C46_list_from_str]. apply (C46_range_from_str e fp _ s W N G S). exact P.
Qed.
Theorem C36_verse_partial : forall e lk fp v h, good_data (ed e) -> same_zeros e fp -> InB (ed e) (verse0 (eg e)) v -> readable e lk (vbook v) ->
  snd (verse_from_str e fp (after (ed e) h ts_init) (verse_str e lk v P_FULL_REF)) = Ok v.
Proof.
  intros e lk fp v h D Hfp Hv Hn. pose proof D as [W N G].
  assert (S : sane (ed e) (after (ed e) h ts_init)) by (apply after_sane; auto using sane_init).
  apply (C46_verse_from_str e fp _ _ W N G S). apply tree_parse; auto. now apply verse_round.
Qed.
(** The default data. *)
Theorem C36_default_partial : forall f lk force h,
  (forall x, default_printable f lk x ->
     exists s, range_str (denv f) lk force x None = Ok s /\ snd (range_from_str (denv f) None (after default_data h ts_init) s) = Ok x) /\
  (forall v, InB default_data (verse0 f) v -> name_kept lk (vbook v) ->
     snd (verse_from_str (denv f) None (after default_data h ts_init) (verse_str (denv f) lk v P_FULL_REF)) = Ok v).
Proof.
  intros f lk force h. split.
  - intros x Hx. destruct (C36_range_partial (denv f) lk force None None x h default_good eq_refl eq_refl (default_printable_ok _ _ _ Hx)) as (s & E & T & _). eauto.
  - intros v Hv Hk. apply (C36_verse_partial (denv f) lk None v h default_good eq_refl Hv). apply default_readable; auto. apply (InB_book (denv f) _ _ Hv).
Qed.
(** [BibleRange(str(x))] and [BibleVerse(str(v))]. *)
Theorem C36_str : forall f h,
  (forall x, wf_range default_data (verse0 f) x -> multibook f = true \/ one_book_range x ->
     exists s, range_text (denv f) x = Ok s /\ snd (range_from_str (denv f) None (after default_data h ts_init) s) = Ok x) /\
  (forall v, InB default_data (verse0 f) v ->
     snd (verse_from_str (denv f) None (after default_data h ts_init) (verse_text (denv f) v)) = Ok v).
Proof.
  intros f h. destruct (C36_default_partial f plain false h) as (A & B). split.
  - intros x Hx Hb. apply A. now apply plain_printable.
  - intros v Hv. apply B; auto. discriminate.
Qed.
Example C36_ex :
  default_printable MULTIBOOK (Look true false true) (R (V Gen 1 1) (V Exod 40 38)) /\
  range_str (denv MULTIBOOK) (Look true false true) false (R (V Gen 1 1) (V Exod 40 38)) None = Ok (s2l "Gen-Exod") /\
  range_text (denv NONE) (R (V Mark 2 1) (V Mark 4 7)) = Ok (s2l "Mark 2-4:7") /\
  range_str (denv NONE) plain true (R (V Mark 2 1) (V Mark 4 7)) None = Ok (s2l "Mark 2:1-4:7") /\
  range_text (denv VERSE_0) (R (V Psa 3 0) (V Psa 3 8)) = Ok (s2l "Psalms 3") /\
  range_text (denv NONE) (R (V Psa 3 1) (V Psa 3 7)) = Ok (s2l "Psalms 3:1-7") /\
  verse_text (denv NONE) (V Jude 1 4) = s2l "Jude 4".
Proof.
  split; [|vm_compute; auto 10]. split; [wf_range|]. split; [now left|]. split; discriminate.
Qed.
Theorem C36_nospace_refuted : exists v, InB default_data false v /\
  snd (verse_from_str (denv NONE) None ts_init (verse_str (denv NONE) (Look false false true) v P_FULL_REF)) = Err (ParseErr 0 11).
Proof. exists (V Song 2 1). split; [in_bible|vm_compute; reflexivity]. Qed.
Theorem C36_flags_refuted : exists x, wf_range default_data true x /\ one_book_range x /\
  range_str (denv NONE) plain false x (Some VERSE_0) = Err InvalidRef.
Proof. exists (R (V Psa 3 1) (V Psa 3 8)). split; [wf_range|]. split; vm_compute; reflexivity. Qed.

(** ** C34: printing without groups and reading *)
Theorem C34_reads_as_regroup_partial : forall e lk force fl fp gs h, good_data (ed e) -> same_zeros e fl -> same_zeros e fp -> force_ok e force ->
  items gs <> [] -> Forall (printable e fp lk) (items gs) ->
  exists s g, list_str e lk false force gs fl = Ok s /\ regroup e fl gs = Ok g /\
    snd (list_from_str e fp (after (ed e) h ts_init) s) = Ok g.
Proof.
  intros e lk force fl fp gs h D Hfl Hfp Hf Hne Hg. pose proof D as [W N G].
  destruct (regroup_round e W G fl Hfl fp Hfp lk force gs Hf Hne) as (s & g & E & Eg & T).
  { eapply Forall_impl; [|exact Hg]. apply printable_shows. }
  exists s, g. split; [exact E|]. split; [exact Eg|]. rewrite C46_list_from_str; auto using after_sane, sane_init. now apply tree_parse.
Qed.
Theorem C34_reads_as_regroup_default : forall f gs h, items gs <> [] ->
  Forall (fun x => wf_range default_data (verse0 f) x /\ (multibook f = true \/ one_book_range x)) (items gs) ->
  exists s g, list_str (denv f) plain false false gs None = Ok s /\ regroup (denv f) None gs = Ok g /\
    snd (list_from_str (denv f) None (after default_data h ts_init) s) = Ok g.
Proof.
  intros f gs h Hne Hg. apply (C34_reads_as_regroup_partial (denv f) plain false None None gs h default_good eq_refl eq_refl); auto; [apply default_force|].
  eapply Forall_impl; [|exact Hg]. intros x (A & B). apply default_printable_ok. now apply plain_printable.
Qed.
Example C34_reads_ex :
  let gs := [[R (V Gen 1 2) (V Gen 1 3); R (V Gen 1 5) (V Gen 1 5); R (V Gen 2 1) (V Gen 2 3)]; [R (V Gen 2 7) (V Gen 2 8)]; [R (V Gen 3 1) (V Gen 3 24)]] in
  Forall (printable (denv NONE) None plain) (items gs) /\
  list_str (denv NONE) plain false false gs None = Ok (s2l "Genesis 1:2-3, 5; 2:1-3, 7-8; 3") /\
  snd (list_from_str (denv NONE) None ts_init (s2l "Genesis 1:2-3, 5; 2:1-3, 7-8; 3")) = regroup (denv NONE) None gs.
Proof.
  cbv zeta. split; [|vm_compute; auto]. one_by_one ltac:(apply default_printable_ok, plain_printable; [wf_range|right; reflexivity]).
Qed.
