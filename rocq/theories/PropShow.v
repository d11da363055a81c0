(** * PropShow: theorems on the exact texts (C48-C52). *)
From Coq Require Import List ZArith NArith Bool Ascii String Lia.
From Verif Require Import Base Books Chars Regex Data DefaultData MVerse MRange MSeq MList MStr MParse Spec SpecList SpecName SpecParse SpecMean
  PList PCore PNav PVerse PRange PDefault PSetOps PRuns PSplit PCount PUnit PUnit2 PRegroup PLex PParse PParse2 PropParse PPrint PText PRound PropStr SpecShow PShow.
Import ListNotations.
Import Spec.
Open Scope Z_scope.
Open Scope list_scope.

(** ** The default data *)
Definition trimmedb (s : str) : bool :=
  match s with [] => false | c :: _ => negb (is_space c) end && match rev s with [] => false | c :: _ => negb (is_space c) end.
Lemma trimmedb_ok : forall s, trimmedb s = true -> trimmed s.
Proof.
  intros s H. apply andb_true_iff in H. destruct H as (A & B). split.
  - destruct s as [|c t]; [discriminate|]. exists c, t. split; auto. now apply negb_true_iff.
  - destruct (rev s) as [|c t] eqn:E; [discriminate|]. exists (rev t), c. split; [|now apply negb_true_iff].
    rewrite <- (rev_involutive s), E. reflexivity.
Qed.
Lemma default_tidy : tidy default_data.
Proof.
  intros b Hb. assert (H : forallb (fun b => match names default_data b with None => false | Some n => trimmedb (n_title n) && trimmedb (n_abbrev n) end) (book_order default_data) = true) by (vm_compute; reflexivity).
  rewrite forallb_forall in H. specialize (H b Hb). destruct (names default_data b) as [n|]; [|discriminate]. apply andb_true_iff in H.
  exists n. split; auto. split; apply trimmedb_ok; tauto.
Qed.

(** ** C48: verses *)
Theorem C48_verse : forall e lk z v s, wf_data (ed e) -> tidy (ed e) -> InB (ed e) z v ->
  (verse_str e lk v P_FULL_REF = s <-> printed (ed e) lk v (full_ref (ed e) (vbook v)) s).
Proof.
  intros e lk z v s W T Hv. destruct (verse_written e W T lk z v P_FULL_REF _ Hv (shown_full e _)) as (A & _). split.
  - now intros <-.
  - intros H. eapply printed_fun; eauto.
Qed.
(** The parts that are asked for. *)
Theorem C48_parts : forall e lk z v p sh, wf_data (ed e) -> tidy (ed e) -> InB (ed e) z v ->
  shown_of (num_chaps (ed e) (vbook v) =? 1) p = Some sh -> printed (ed e) lk v sh (verse_str e lk v p).
Proof. intros e lk z v p sh W T Hv H. exact (proj1 (verse_written e W T lk z v p sh Hv H)). Qed.
(** No parts, no text. *)
Theorem C48_nothing : forall e lk z v p, wf_data (ed e) -> InB (ed e) z v ->
  shown_of (num_chaps (ed e) (vbook v) =? 1) p = None -> verse_str e lk v p = [].
Proof.
  intros e lk z v p W Hv H. unfold verse_str. rewrite (chap_count_one e W _ (InB_book e _ _ Hv)). change (is_one e (vbook v)) with (num_chaps (ed e) (vbook v) =? 1).
  unfold shown_of in H. destruct (num_chaps (ed e) (vbook v) =? 1), (p_book p) eqn:B, (p_chap p) eqn:C, (p_verse p) eqn:F; cbn in H; try discriminate;
    cbn [p_book p_chap p_verse]; rewrite ?B, ?C, ?F; cbn; destruct (lk_nospace lk); reflexivity.
Qed.
(** A book without name data is called "None". *)
Theorem C48_unnamed : forall e z v, wf_data (ed e) -> InB (ed e) z v -> names (ed e) (vbook v) = None ->
  exists c w, digits (vchap v) c /\ digits (vverse v) w /\
    verse_text e v = s2l "None " ++ (if num_chaps (ed e) (vbook v) =? 1 then w else c ++ verse_sep_std (ed e) :: w).
Proof.
  intros e z v W Hv Hn. pose proof (InB_book e _ _ Hv) as Hb. pose proof (InB_legal e _ _ Hv) as Hl.
  assert (Hc : 0 <= vchap v /\ 0 <= vverse v) by (revert Hl; unfold legal, first_num; destruct (_ && _); lia).
  exists (int_str (vchap v)), (int_str (vverse v)). split; [now apply int_str_digits|]. split; [now apply int_str_digits|].
  unfold verse_text, verse_str. rewrite (chap_count_one e W _ Hb). unfold is_one, book_name. rewrite Hn.
  assert (Tn : tight false (s2l "None")) by (apply tight_all; [discriminate|repeat constructor]).
  assert (Tc := tight_digits false _ (proj1 Hc)). assert (Tv := tight_digits false _ (proj2 Hc)).
  destruct (num_chaps (ed e) (vbook v) =? 1); cbn [p_book p_chap p_verse P_FULL_REF andb plain lk_abbrev lk_alt lk_nospace].
  - exact (spaced_gap false (s2l "None") _ Tn Tv).
  - refine (spaced_gap false (s2l "None") (int_str (vchap v) ++ [verse_sep_std (ed e)] ++ int_str (vverse v)) Tn _).
    apply tight_mid; auto. discriminate.
Qed.
(** Any character can be a separator. *)
Definition with_seps (r mj mn vs va : ascii) : bibledata :=
  mkData (book_order default_data) (order default_data) (max_verses default_data) (verse_0s default_data) (names default_data) r mj mn vs va.
Lemma with_seps_ok : forall r mj mn vs va, wf_data (with_seps r mj mn vs va) /\ tidy (with_seps r mj mn vs va).
Proof.
  intros. split; [|exact default_tidy]. destruct default_wf as (A & B).
  split; [unfold order_ok in *; cbn [book_order order with_seps]; exact A|cbn [book_order max_verses with_seps]; exact B].
Qed.
Example C48_ex : tidy default_data /\
  printed default_data plain (V Exod 12 40) ShFull (s2l "Exodus 12:40") /\
  verse_str (denv NONE) (Look true true true) (V ISam 3 10) P_FULL_REF = s2l "1Sam3.10" /\
  verse_str (denv NONE) (Look false false false) (V Jude 1 25) P_FULL_REF = s2l "Jude 25" /\
  verse_str (denv NONE) plain (V Jude 1 25) P_BOOK_CHAP = s2l "Jude" /\
  (let d := with_seps " " ";" "," " " "v" in wf_data d /\ tidy d /\
   verse_text (mkEnv d NONE) (V Exod 12 40) = s2l "Exodus 12 40" /\
   verse_str (mkEnv d NONE) (Look true false true) (V Exod 12 40) P_FULL_REF = s2l "Exod1240").
Proof.
  split; [exact default_tidy|]. split; [|do 3 (split; [vm_compute; reflexivity|]); cbv zeta; split; [apply with_seps_ok|]; split; [apply with_seps_ok|split; vm_compute; reflexivity]].
  apply (C48_verse (denv NONE) plain false (V Exod 12 40)); [exact default_wf|exact default_tidy|in_bible|vm_compute; reflexivity].
Qed.

(** ** C49: ranges *)
(** For every range, also with verses 0 that the flags do not know, and all separators. *)
Theorem C49_range : forall e lk force fl x s, wf_data (ed e) -> tidy (ed e) -> zero_on e fl = verse0 (eg e) ->
  wf_range (ed e) true x ->
  (range_str e lk force x fl = Ok s <-> range_written e lk force x s).
Proof. intros e lk force fl x s W T Hfl Hx. exact (range_text_iff e W T fl Hfl lk force x s Hx). Qed.
(** Every range has a text. *)
Theorem C49_total : forall e lk force fl x, wf_data (ed e) -> tidy (ed e) -> zero_on e fl = verse0 (eg e) ->
  wf_range (ed e) true x -> exists s, range_str e lk force x fl = Ok s.
Proof. intros e lk force fl x W T Hfl Hx. destruct (range_text_ok e W T fl Hfl lk force x Hx) as (s & E & _). eauto. Qed.
(** The text is the first and the last reference. *)
Definition two_refs (e : env) (lk : look) (force : bool) (x : range) (s : str) : Prop :=
  exists sh osh, start_shown e force x sh /\ end_shown e false (has_verse sh) x osh /\ ref_written e lk x sh osh s.
Definition C49_statement : Prop := forall e lk force fl x s, wf_data (ed e) -> tidy (ed e) -> zero_on e fl = verse0 (eg e) ->
  wf_range (ed e) true x -> (range_str e lk force x fl = Ok s <-> two_refs e lk force x s).
(** True of the ranges that are legal under the flags, and of all ranges if no book begins with a verse 0; missing: the rest. *)
Theorem C49_range_partial : forall e lk force fl x s, wf_data (ed e) -> tidy (ed e) -> zero_on e fl = verse0 (eg e) ->
  wf_range (ed e) true x -> wf_range (ed e) (verse0 (eg e)) x \/ first_num (ed e) true (vbook (rstart x)) 1 = 1 ->
  (range_str e lk force x fl = Ok s <-> two_refs e lk force x s).
Proof.
  intros e lk force fl x s W T Hfl Hx Hz. rewrite (C49_range e lk force fl x s W T Hfl Hx).
  assert (N : forall sh, end_shown e false (has_verse sh) x (Some ShBook) -> vbook (rstart x) = vbook (rend x) -> False).
  { intros sh H E. assert (C : closes_book e x /\ ~ lone_unit e x).
    { inversion H as [|A B| | |A B C D F| |]; [split; auto; destruct A; [discriminate|auto]|].
      exfalso. unfold full_ref in F. destruct (single_chap (ed e) (vbook (rend x))); discriminate F. }
    destruct C as (C & L). apply L. left. destruct C as (C1 & C2). apply (vle_pos e W) in C2. destruct C2 as (_ & _ & C2).
    unfold book_at in *. rewrite <- E in *. unfold all_of. destruct x as [a b]. cbn [rstart rend] in *. f_equal; [|exact C1].
    assert (Hs : first_num (ed e) (verse0 (eg e)) (vbook a) 1 = first_num (ed e) true (vbook a) 1 \/ InB (ed e) (verse0 (eg e)) a).
    { destruct Hz as [(A & _)|A]; [now right|left]. revert A. unfold first_num. destruct (verse0 (eg e)), (zmem 1 (verse_0s (ed e) (vbook a))); cbn; lia. }
    destruct Hx as (Ra & Rb & _).
    assert (Rz : exists zz, InB (ed e) zz a /\ unit_first (ed e) (verse0 (eg e)) (UBook (vbook a)) = unit_first (ed e) zz (UBook (vbook a))).
    { destruct Hs as [Hs|Hs]; [exists true; split; auto; cbn; now rewrite Hs|]. exists (verse0 (eg e)). auto. }
    destruct Rz as (zz & Rz & Eu). rewrite Eu in *. pose proof (in_unit_le e W zz None a Rz (or_introl eq_refl)) as (L1 & _). cbn [whole_unit] in L1.
    pose proof (unit_facts e W zz _ _ Ra (or_introl eq_refl)) as (_ & _ & Fb & _). cbn [whole_unit] in Fb. apply (pos_eq e); auto. lia. }
  split.
  - intros [sh osh A B C D|sh a A B C D E]; [exists sh, osh; auto|]. exfalso. eapply N; eauto.
  - intros (sh & osh & A & B & C). apply (R_plain _ _ _ _ _ sh osh); auto. intros (-> & E). eapply N; eauto.
Qed.
Lemma default_no_first_0 : forall b, first_num default_data true b 1 = 1.
Proof. intros b. destruct b; vm_compute; reflexivity. Qed.
(** With the default tables: every range, all separators. *)
Theorem C49_default : forall f r mj mn vs va lk force fl x s, let e := mkEnv (with_seps r mj mn vs va) f in zero_on e fl = verse0 f ->
  wf_range default_data true x -> (range_str e lk force x fl = Ok s <-> two_refs e lk force x s).
Proof.
  intros f r mj mn vs va lk force fl x s e Hfl Hx. destruct (with_seps_ok r mj mn vs va) as (W & T).
  apply C49_range_partial; auto. right. apply default_no_first_0.
Qed.
(** A book that begins with a verse 0 which the flags do not know: nothing follows the separator. *)
Theorem C49_refuted : exists d x s, wf_data d /\ tidy d /\ wf_range d true x /\ range_text (mkEnv d NONE) x = Ok s /\ s = s2l "Genesis 1:0-" /\
  ~ two_refs (mkEnv d NONE) plain false x s.
Proof.
  exists genesis_0, (R (V Gen 1 0) (V Gen 50 26)), (s2l "Genesis 1:0-"). destruct genesis_0_good as [W _ _].
  assert (T : tidy genesis_0) by exact default_tidy.
  assert (Hx : wf_range genesis_0 true (R (V Gen 1 0) (V Gen 50 26))) by (apply wf_range_check; [exact W|vm_compute; reflexivity..]).
  do 3 (split; [assumption|]). split; [vm_compute; reflexivity|]. split; [reflexivity|].
  assert (Cb : closes_book (mkEnv genesis_0 NONE) (R (V Gen 1 0) (V Gen 50 26))).
  { split; [vm_compute; reflexivity|]. apply (vle_iff (mkEnv genesis_0 NONE) W). split; [exact (proj1 Hx)|].
    split; [apply in_bible_InB; vm_compute; reflexivity|vm_compute; reflexivity]. }
  assert (Nl : ~ lone_unit (mkEnv genesis_0 NONE) (R (V Gen 1 0) (V Gen 50 26))).
  { intros [H|[H|H]]; [| |discriminate]; unfold all_of in H; vm_compute in H; discriminate. }
  intros (sh & osh & A & B & C). rewrite (end_shown_fun _ _ _ _ _ _ B (En_book _ _ _ _ (or_intror Nl) Cb)) in C.
  destruct C as (a & b & _ & (name & c & w & (n & Hn & ->) & _ & _ & ->) & E). cbn [ed] in Hn. vm_compute in Hn. injection Hn as <-.
  apply (f_equal (@rev ascii)) in E. rewrite !rev_app_distr in E. vm_compute in E. discriminate.
Qed.
Example C49_ex : wf_range default_data false (R (V Mark 2 1) (V Mark 4 7)) /\
  start_shown (denv NONE) false (R (V Mark 2 1) (V Mark 4 7)) ShBookChap /\
  start_shown (denv NONE) true (R (V Mark 2 1) (V Mark 4 7)) ShFull /\
  two_refs (denv NONE) plain false (R (V Mark 2 1) (V Mark 4 7)) (s2l "Mark 2-4:7") /\
  (wf_range default_data true (R (V Psa 3 0) (V Psa 4 8)) /\ range_text (denv NONE) (R (V Psa 3 0) (V Psa 4 8)) = Ok (s2l "Psalms 3:0-4:8") /\
   range_text (denv VERSE_0) (R (V Psa 3 0) (V Psa 4 8)) = Ok (s2l "Psalms 3-4")) /\
  range_str (mkEnv (with_seps " " ";" "," " " "v") NONE) plain true (R (V Mark 2 1) (V Mark 4 7)) (Some MULTIBOOK) = Ok (s2l "Mark 2 1 4 7").
Proof.
  assert (O : ~ opens_book (denv NONE) (R (V Mark 2 1) (V Mark 4 7))) by (intros (H & _); discriminate).
  assert (C : ~ closes_chap (denv NONE) (R (V Mark 2 1) (V Mark 4 7))) by (intros (H & _); discriminate).
  split; [wf_range|]. split; [|split; [|split; [|split; [split; [wf_range|vm_compute; auto]|vm_compute; reflexivity]]]].
  - apply St_chap; auto. split; [reflexivity|]. apply (vle_iff (denv NONE) default_wf). split; [in_bible|]. split; [in_bible|]. vm_compute. reflexivity.
  - apply (St_full (denv NONE) true (R (V Mark 2 1) (V Mark 4 7))); auto. intros (_ & [H|H]); [discriminate|auto].
  - apply (C49_range_partial (denv NONE) plain false None (R (V Mark 2 1) (V Mark 4 7)) _ default_wf default_tidy eq_refl); [wf_range|left; wf_range|vm_compute; reflexivity].
Qed.

(** ** C50: lists *)
(** For every list of ranges, also with verses 0 that the flags do not know, and all separators. *)
Theorem C50_list : forall e lk pg force fl g s, wf_data (ed e) -> tidy (ed e) -> zero_on e fl = verse0 (eg e) ->
  Forall (Forall (wf_range (ed e) true)) g ->
  (list_str e lk pg force g fl = Ok s <-> list_written e lk pg force g s).
Proof. intros e lk pg force fl g s W T Hfl Hg. exact (list_text_iff e W T fl Hfl lk pg force g s Hg). Qed.
Theorem C50_total : forall e lk pg force fl g, wf_data (ed e) -> tidy (ed e) -> zero_on e fl = verse0 (eg e) ->
  Forall (Forall (wf_range (ed e) true)) g -> exists s, list_str e lk pg force g fl = Ok s.
Proof. intros e lk pg force fl g W T Hfl Hg. destruct (list_text_ok e W T fl Hfl lk pg force g Hg) as (s & E & _). eauto. Qed.
(** A separator that is no white space is written, with a blank. *)
Theorem C50_separator_partial : forall ns c, is_space c = false -> leading ns c = c :: blank ns.
Proof.
  intros [|] c H; unfold leading, blank; [|now rewrite H]. unfold compact. cbn [filter]. destruct (Ascii.eqb_spec c " "%char) as [->|_]; [discriminate|reflexivity].
Qed.
(** White space is not: nothing stands between the items. *)
Theorem C50_separator_refuted : exists d g s, wf_data d /\ tidy d /\ Forall (Forall (wf_range d false)) g /\ minor_list_sep d = "010"%char /\
  list_text (mkEnv d NONE) g = Ok s /\ s = s2l "Genesis 1:24".
Proof.
  exists (with_seps "-" ";" "010" ":" "."), [[R (V Gen 1 2) (V Gen 1 2); R (V Gen 1 4) (V Gen 1 4)]], (s2l "Genesis 1:24").
  destruct (with_seps_ok "-" ";" "010" ":" ".") as (W & T). do 2 (split; [assumption|]). split; [|vm_compute; auto].
  one_by_one ltac:(apply wf_range_check; [exact W|vm_compute; reflexivity..]).
Qed.
Example C50_ex : let g := [[R (V Gen 1 2) (V Gen 1 2); R (V Gen 1 4) (V Gen 1 6); R (V Gen 3 1) (V Gen 3 1)]; [R (V Gen 7 1) (V Gen 8 22)]; [R (V Jude 1 3) (V Jude 1 5); R (V Jude 1 8) (V Jude 1 8)]] in
  Forall (Forall (wf_range default_data true)) g /\
  list_str (denv NONE) plain true false g None = Ok (s2l "Genesis 1:2, 4-6, 3:1; 7-8; Jude 3-5, 8") /\
  list_str (denv NONE) plain false false g None = Ok (s2l "Genesis 1:2, 4-6; 3:1; 7-8; Jude 3-5, 8") /\
  list_str (denv NONE) (Look true true true) true true g None = Ok (s2l "Gen1.2,4-6,3.1;7-8;Jude3-5,8") /\
  list_str (mkEnv (with_seps "-" "," "," ":" ".") NONE) plain true false g None = Ok (s2l "Genesis 1:2, 4-6, 3:1, 7-8, Jude 3-5, 8").
Proof. split; [one_by_one ltac:(wf_range)|vm_compute; auto]. Qed.

(** ** C51: [str] and [repr] *)
Theorem C51_str : forall e, (forall v, verse_text e v = verse_str e (Look false false false) v (P true true true)) /\
  (forall r, range_text e r = range_str e (Look false false false) false r None) /\
  (forall l, list_text e l = list_str e (Look false false false) true false l None).
Proof. intros e. repeat split. Qed.
Theorem C51_repr : forall e,
  (forall z v s, wf_data (ed e) -> tidy (ed e) -> InB (ed e) z v ->
     printed (ed e) (Look true false false) v (full_ref (ed e) (vbook v)) s -> verse_repr e v = s2l "BibleVerse(" ++ s ++ s2l ")") /\
  (forall r s, range_text e r = Ok s -> range_repr e r = Ok (s2l "BibleRange(" ++ s ++ s2l ")")) /\
  (forall l s, list_text e l = Ok s -> list_repr e l = Ok (s2l "BibleRangeList(""" ++ s ++ s2l """)")).
Proof.
  intros e. split; [|split].
  - intros z v s W T Hv Hs. apply (C48_verse e _ z v s W T Hv) in Hs. unfold verse_repr. now rewrite Hs.
  - intros r s H. unfold range_repr. now rewrite H.
  - intros l s H. unfold list_repr. now rewrite H.
Qed.
(** The text in the [repr] of a verse is its abbreviated text, for every verse. *)
Theorem C51_repr_verse : forall e v, verse_repr e v = s2l "BibleVerse(" ++ verse_str e (Look true false false) v P_FULL_REF ++ s2l ")".
Proof. reflexivity. Qed.
Example C51_ex : verse_repr (denv NONE) (V Gen 1 2) = s2l "BibleVerse(Gen 1:2)" /\
  range_repr (denv NONE) (R (V Gen 1 2) (V Gen 1 3)) = Ok (s2l "BibleRange(Genesis 1:2-3)") /\
  list_repr (denv NONE) [[R (V Gen 1 2) (V Gen 1 3)]] = Ok (s2l "BibleRangeList(""Genesis 1:2-3"")").
Proof. vm_compute. auto. Qed.

(** ** C52: how often the range separator is printed *)
(** As many elements of the list as [n] have the property. *)
Inductive how_many {A : Type} (Q : A -> Prop) : list A -> Z -> Prop :=
| H_nil : how_many Q [] 0
| H_yes a l n : Q a -> how_many Q l n -> how_many Q (a :: l) (n + 1)
| H_no a l n : ~ Q a -> how_many Q l n -> how_many Q (a :: l) n.
Lemma how_many_app : forall {A} (Q : A -> Prop) a b n m, how_many Q a n -> how_many Q b m -> how_many Q (a ++ b) (n + m).
Proof.
  intros A Q a b n m H H'. induction H as [|x l n HQ H IH|x l n HQ H IH]; cbn.
  - replace (0 + m) with m by lia. exact H'.
  - replace (n + 1 + m) with (n + m + 1) by lia. now apply H_yes.
  - now apply H_no.
Qed.
Lemma how_many_none : forall {A} (Q : A -> Prop) l, Forall (fun a => ~ Q a) l -> how_many Q l 0.
Proof. intros A Q l H. induction H; [apply H_nil|now apply H_no]. Qed.
Lemma how_many_fun : forall {A} (Q : A -> Prop) l n m, how_many Q l n -> how_many Q l m -> n = m.
Proof.
  intros A Q l n m H. revert m. induction H as [|x l n HQ H IH|x l n HQ H IH]; intros m H'; inversion H'; subst; try contradiction; auto.
  f_equal; auto.
Qed.
(** No name has the range separator in it. *)
Definition plain_names (d : bibledata) : Prop :=
  forall b n, In b (book_order d) -> names d b = Some n -> ~ In (range_sep d) (n_title n) /\ ~ In (range_sep d) (n_abbrev n).
Definition range_seps (e : env) (s : str) (n : Z) : Prop := how_many (fun c => c = range_sep (ed e)) s n.
Definition long_ranges (e : env) (g : list (list range)) (n : Z) : Prop := how_many (fun x => ~ lone_unit e x) (List.concat g) n.
(** One separator for each range that is more than a verse, a chapter or a book. *)
Definition C52_statement (pg : bool) : Prop := forall e lk force fl g s n, wf_data (ed e) -> good_seps (ed e) -> tidy (ed e) -> plain_names (ed e) ->
  zero_on e fl = verse0 (eg e) -> Forall (Forall (wf_range (ed e) true)) g ->
  list_str e lk pg force g fl = Ok s -> range_seps e s n -> long_ranges e g n.

Lemma range_dec : forall a b : range, {a = b} + {a <> b}.
Proof. decide equality; decide equality; auto using Z.eq_dec. decide equality. decide equality. Qed.
Lemma lone_dec : forall e x, lone_unit e x \/ ~ lone_unit e x.
Proof.
  intros e x. unfold lone_unit, all_of. destruct (range_dec x (R (unit_first (ed e) (verse0 (eg e)) (book_at (rstart x))) (unit_last (ed e) (book_at (rstart x))))); [tauto|].
  destruct (range_dec x (R (unit_first (ed e) (verse0 (eg e)) (chap_at (rstart x))) (unit_last (ed e) (chap_at (rstart x))))); [tauto|].
  destruct (range_dec (R (rstart x) (rend x)) (R (rend x) (rend x))) as [E|E]; [injection E; tauto|]. right. intros [H|[H|H]]; auto. apply E. now rewrite H.
Qed.
Section Count.
Variable e : env.
Hypothesis Hsep : good_seps (ed e).
Hypothesis Hplain : plain_names (ed e).
Notation clean := (Forall (fun c => ~ c = range_sep (ed e))).
Lemma digits_clean : forall n s, digits n s -> clean s.
Proof.
  assert (D : forall c k, digit_of c k -> ~ c = range_sep (ed e)).
  { intros c k (E & K) ->. destruct (gs_punct _ Hsep (range_sep (ed e))) as (A & _); [unfold is_sep; tauto|].
    assert (is_word (range_sep (ed e)) = true); [|congruence]. revert E A. generalize (range_sep (ed e)). intros c E _.
    assert (N_of_ascii c = Z.to_N (48 + k)) by (rewrite <- E; now rewrite N2Z.id).
    rewrite <- (ascii_N_embedding c), H. assert (C : k = 0 \/ k = 1 \/ k = 2 \/ k = 3 \/ k = 4 \/ k = 5 \/ k = 6 \/ k = 7 \/ k = 8 \/ k = 9) by lia.
    repeat (destruct C as [->|C]; [vm_compute; reflexivity|]). subst. vm_compute. reflexivity. }
  intros n s H. induction H; [constructor; eauto|]. apply Forall_app. split; auto. constructor; eauto.
Qed.
Lemma called_clean : forall lk b s, In b (book_order (ed e)) -> called (ed e) lk b s -> clean s.
Proof.
  intros lk b s Hb (n & Hn & ->). destruct (Hplain b n Hb Hn) as (A & B). apply Forall_forall. intros c Hc ->.
  assert (H : In (range_sep (ed e)) (if lk_abbrev lk then n_abbrev n else n_title n)).
  { revert Hc. unfold compact. destruct (lk_nospace lk); auto. rewrite filter_In. tauto. }
  destruct (lk_abbrev lk); auto.
Qed.
Lemma blank_clean : forall ns, clean (blank ns).
Proof.
  intros [|]; constructor; auto. intros E. destruct (gs_punct _ Hsep (range_sep (ed e))) as (_ & A); [unfold is_sep; tauto|]. rewrite <- E in A. discriminate.
Qed.
Lemma compact_clean : forall ns c, ~ c = range_sep (ed e) -> clean (compact ns [c]).
Proof. intros [|] c H; [|constructor; auto]. unfold compact. cbn [filter]. destruct (negb _); constructor; auto. Qed.
Lemma compact_sep : forall ns, compact ns [range_sep (ed e)] = [range_sep (ed e)].
Proof.
  intros [|]; auto. unfold compact. cbn [filter]. destruct (Ascii.eqb_spec (range_sep (ed e)) " "%char) as [E|_]; [|reflexivity].
  destruct (gs_punct _ Hsep (range_sep (ed e))) as (_ & A); [unfold is_sep; tauto|]. rewrite E in A. discriminate.
Qed.
Lemma leading_clean : forall ns c, is_sep (ed e) c -> ~ c = range_sep (ed e) -> clean (leading ns c).
Proof.
  intros ns c I H. rewrite C50_separator_partial by (apply (gs_punct _ Hsep); auto). constructor; auto. apply blank_clean.
Qed.
Lemma printed_clean : forall lk v sh s, In (vbook v) (book_order (ed e)) -> printed (ed e) lk v sh s -> clean s.
Proof.
  intros lk v sh s Hb (name & c & w & Hn & Hc & Hw & E). apply called_clean in Hn; auto. apply digits_clean in Hc, Hw.
  assert (Hg := blank_clean (lk_nospace lk)).
  assert (Hs : ~ (if lk_alt lk then verse_sep_alt (ed e) else verse_sep_std (ed e)) = range_sep (ed e)) by (apply (gs_verse _ Hsep); destruct (lk_alt lk); auto).
  assert (Hk : clean (compact (lk_nospace lk) [if lk_alt lk then verse_sep_alt (ed e) else verse_sep_std (ed e)])) by (now apply compact_clean).
  cbv zeta in E. subst s. destruct sh; repeat (apply Forall_app; split); auto.
Qed.
Lemma items_count : forall lk pg force first dual c l s, items_written e lk pg force first dual c l s ->
  Forall (fun p => In (vbook (rstart (snd p))) (book_order (ed e)) /\ In (vbook (rend (snd p))) (book_order (ed e))) l ->
  exists n m, range_seps e s n /\ how_many (fun x => ~ lone_unit e x) (map snd l) m /\ m <= n /\ (pg = false -> dual = false -> m = n).
Proof.
  intros lk pg force first dual c l s H. induction H as [|first dual c m x l c0 new sh major dual1 osh body out Hm Hc Hs He Hr H IH]; intros HB.
  - exists 0, 0. repeat split; try constructor. lia.
  - inversion HB as [|p q (B1 & B2) HB' E]; subst p q. cbn [snd] in B1, B2. destruct (IH HB') as (n & k & A & B & C & D).
    assert (D1 : pg = false -> dual1 = false) by (destruct Hs; congruence).
    assert (Sp : range_seps e (if first then [] else leading (lk_nospace lk) (if major then major_list_sep (ed e) else minor_list_sep (ed e))) 0).
    { destruct first; [constructor|]. apply how_many_none. apply leading_clean; [unfold is_sep; destruct major; tauto|].
      destruct major; intros E; symmetry in E; revert E; [apply (gs_range_major _ Hsep)|apply (gs_range_minor _ Hsep)]. }
    destruct osh as [sh'|]; cbn [ref_written] in Hr.
    + destruct Hr as (a & b & Ha & Hb & ->). rewrite compact_sep. apply printed_clean in Ha, Hb; auto.
      assert (Sr : range_seps e ((a ++ [range_sep (ed e)] ++ b) ++ out) (0 + (0 + 1) + n)).
      { apply how_many_app; auto. apply how_many_app; [now apply how_many_none|]. apply H_yes; auto. now apply how_many_none. }
      destruct (lone_dec e x) as [L|L].
      * exists (0 + (0 + (0 + 1) + n)), k. split; [now apply how_many_app|]. split; [apply H_no; tauto|]. split; [lia|].
        intros P1 P2. rewrite P2, (D1 P1) in He. cbn in He. inversion He; subst; match goal with H : false = true \/ _ |- _ => destruct H; [discriminate|contradiction] end.
      * exists (0 + (0 + (0 + 1) + n)), (k + 1). split; [now apply how_many_app|]. split; [now apply H_yes|]. split; [lia|].
        intros P1 P2. rewrite P2, (D1 P1) in D. rewrite (D P1 eq_refl). lia.
    + apply printed_clean in Hr; auto.
      exists (0 + (0 + n)), k. split; [apply how_many_app; auto; apply how_many_app; auto; now apply how_many_none|].
      inversion He as [Hd L| | | | | |]. split; [apply H_no; tauto|]. split; [lia|]. intros P1 P2. rewrite P2, (D1 P1) in D. rewrite (D P1 eq_refl). lia.
Qed.
Lemma marked_items : forall g, map snd (marked g) = List.concat g.
Proof.
  intros g. unfold marked. induction g as [|l g IH]; auto. cbn. rewrite map_app, IH. f_equal.
  destruct l as [|x l]; auto. cbn. f_equal. rewrite map_map. cbn. apply map_id.
Qed.
End Count.
Lemma count_list : forall e lk pg force fl g s, wf_data (ed e) -> good_seps (ed e) -> tidy (ed e) -> plain_names (ed e) ->
  zero_on e fl = verse0 (eg e) -> Forall (Forall (wf_range (ed e) true)) g -> list_str e lk pg force g fl = Ok s ->
  exists n m, range_seps e s n /\ long_ranges e g m /\ m <= n /\ (pg = false -> m = n).
Proof.
  intros e lk pg force fl g s W G T Pn Hfl Hg Hs. apply (C50_list e lk pg force fl g s W T Hfl Hg) in Hs.
  destruct (items_count e G Pn lk pg force true false NoBook (marked g) s Hs) as (n & m & A & B & C & D).
  - apply Forall_forall. intros p Hp. assert (Hi : In (snd p) (List.concat g)) by (rewrite <- marked_items; now apply in_map).
    apply in_concat in Hi. destruct Hi as (l & Hl & Hi). rewrite Forall_forall in Hg. specialize (Hg l Hl). rewrite Forall_forall in Hg.
    destruct (Hg _ Hi) as (I1 & I2 & _). split; eapply InB_book; eauto.
  - exists n, m. unfold long_ranges. rewrite <- marked_items. auto.
Qed.
(** True when the grouping is not kept; missing: when it is kept. *)
Theorem C52_partial : C52_statement false.
Proof.
  intros e lk force fl g s n W G T Pn Hfl Hg Hs Hn. destruct (count_list e lk false force fl g s W G T Pn Hfl Hg Hs) as (n' & m & A & B & _ & D).
  rewrite (how_many_fun _ _ _ _ Hn A), <- (D eq_refl). exact B.
Qed.
(** At least so many in every case. *)
Theorem C52_least : forall e lk pg force fl g s n m, wf_data (ed e) -> good_seps (ed e) -> tidy (ed e) -> plain_names (ed e) ->
  zero_on e fl = verse0 (eg e) -> Forall (Forall (wf_range (ed e) true)) g ->
  list_str e lk pg force g fl = Ok s -> range_seps e s n -> long_ranges e g m -> m <= n.
Proof.
  intros e lk pg force fl g s n m W G T Pn Hfl Hg Hs Hn Hm. destruct (count_list e lk pg force fl g s W G T Pn Hfl Hg Hs) as (n' & m' & A & B & C & _).
  unfold range_seps, long_ranges in *. rewrite (how_many_fun _ _ _ _ Hn A), (how_many_fun _ _ _ _ Hm B). exact C.
Qed.
Lemma default_plain : plain_names default_data.
Proof.
  intros b n Hb Hn. assert (H : forallb (fun b => match names default_data b with None => true | Some n =>
      negb (existsb (Ascii.eqb (range_sep default_data)) (n_title n)) && negb (existsb (Ascii.eqb (range_sep default_data)) (n_abbrev n)) end) (book_order default_data) = true) by (vm_compute; reflexivity).
  rewrite forallb_forall in H. specialize (H b Hb). rewrite Hn in H. apply andb_true_iff in H. destruct H as (A & B). apply negb_true_iff in A, B.
  split; intros I; [rewrite (proj2 (existsb_exists _ _)) in A|rewrite (proj2 (existsb_exists _ _)) in B]; try discriminate;
    exists (range_sep default_data); rewrite Ascii.eqb_refl; auto.
Qed.
Ltac count_up := repeat (first [apply H_nil|apply H_no; [discriminate|]|apply H_yes; [reflexivity|]]).
Example C52_ex : let g := [[R (V Gen 1 2) (V Gen 1 2); R (V Gen 2 1) (V Gen 2 25)]; [R (V Gen 3 4) (V Gen 3 5)]] in
  plain_names default_data /\ Forall (Forall (wf_range default_data false)) g /\
  list_str (denv NONE) plain false false g None = Ok (s2l "Genesis 1:2; 2; 3:4-5") /\ range_seps (denv NONE) (s2l "Genesis 1:2; 2; 3:4-5") 1.
Proof.
  split; [exact default_plain|]. split; [one_by_one ltac:(wf_range)|]. split; [vm_compute; reflexivity|]. unfold range_seps.
  change 1 with (0 + 1). cbn [s2l]. vm_compute (list_ascii_of_string _). change (range_sep (ed (denv NONE))) with "-"%char. count_up.
Qed.
(** A chapter after verses in one group is printed with its verses, and from there on the end of every range is printed
    (ref.py 1709: [force_dual_ref] is set, and never reset). *)
Theorem C52_refuted : exists g s, Forall (Forall (wf_range default_data false)) g /\ long_ranges (denv NONE) g 0 /\
  list_text (denv NONE) g = Ok s /\ s = s2l "Genesis 1:2, 2:1-25, 3:4-4, Exodus-Exodus" /\ range_seps (denv NONE) s 3.
Proof.
  exists [[R (V Gen 1 2) (V Gen 1 2); R (V Gen 2 1) (V Gen 2 25); R (V Gen 3 4) (V Gen 3 4); R (V Exod 1 1) (V Exod 40 38)]], (s2l "Genesis 1:2, 2:1-25, 3:4-4, Exodus-Exodus").
  split; [one_by_one ltac:(wf_range)|]. split.
  { apply how_many_none. one_by_one ltac:(intros H; apply H; clear H; unfold lone_unit, all_of).
    - right; right; reflexivity. - right; left; vm_compute; reflexivity. - right; right; reflexivity. - left; vm_compute; reflexivity. }
  split; [vm_compute; reflexivity|]. split; auto. unfold range_seps. change 3 with (0 + 1 + 1 + 1).
  vm_compute (s2l _). change (range_sep (ed (denv NONE))) with "-"%char. count_up.
Qed.

(** ** C53: different things have different texts *)
Theorem C53_verse : forall e lk v w, good_data (ed e) -> InB (ed e) (verse0 (eg e)) v -> InB (ed e) (verse0 (eg e)) w ->
  readable e lk (vbook v) -> readable e lk (vbook w) ->
  verse_str e lk v P_FULL_REF = verse_str e lk w P_FULL_REF -> v = w.
Proof.
  intros e lk v w D Hv Hw Nv Nw E. pose proof (C36_verse_partial e lk None v [] D eq_refl Hv Nv) as A.
  pose proof (C36_verse_partial e lk None w [] D eq_refl Hw Nw) as B. rewrite E in A. congruence.
Qed.
(** Also for ranges over several books that the flags do not allow to be made. *)
Definition legible (e : env) (lk : look) (x : range) : Prop :=
  wf_range (ed e) (verse0 (eg e)) x /\ readable e lk (vbook (rstart x)) /\ readable e lk (vbook (rend x)).
Definition wide (e : env) : option flag := Some (if verse0 (eg e) then ALL else MULTIBOOK).
Lemma wide_zeros : forall e, same_zeros e (wide e).
Proof. intros e. unfold wide. now destruct (verse0 (eg e)). Qed.
Lemma legible_printable : forall e lk x, legible e lk x -> printable e (wide e) lk x.
Proof. intros e lk x (A & B & C). split; auto. split; auto. left. unfold wide. now destruct (verse0 (eg e)). Qed.
Theorem C53_range : forall e lk force force' fl fl' x y s, good_data (ed e) -> same_zeros e fl -> same_zeros e fl' -> legible e lk x -> legible e lk y ->
  range_str e lk force x fl = Ok s -> range_str e lk force' y fl' = Ok s -> x = y.
Proof.
  intros e lk force force' fl fl' x y s D Z Z' Hx Hy Ex Ey.
  destruct (C36_range_partial e lk force fl (wide e) x [] D Z (wide_zeros e) (legible_printable _ _ _ Hx)) as (a & A1 & A2 & _).
  destruct (C36_range_partial e lk force' fl' (wide e) y [] D Z' (wide_zeros e) (legible_printable _ _ _ Hy)) as (b & B1 & B2 & _). congruence.
Qed.
Theorem C53_list : forall e lk force force' fl fl' g h s, good_data (ed e) -> same_zeros e fl -> same_zeros e fl' -> force_ok e force -> force_ok e force' ->
  Forall (fun l => l <> []) g -> Forall (fun l => l <> []) h -> Forall (Forall (legible e lk)) g -> Forall (Forall (legible e lk)) h ->
  g <> [] -> h <> [] ->
  list_str e lk true force g fl = Ok s -> list_str e lk true force' h fl' = Ok s -> g = h.
Proof.
  intros e lk force force' fl fl' g h s D Z Z' F F' Hg Hh Pg Ph Ng Nh Eg Eh.
  assert (L : forall g, Forall (Forall (legible e lk)) g -> Forall (Forall (printable e (wide e) lk)) g).
  { intros g0 H. eapply Forall_impl; [|exact H]. intros l Hl. eapply Forall_impl; [|exact Hl]. apply legible_printable. }
  destruct (C35_partial e lk force fl (wide e) g [] D Z (wide_zeros e) F Ng Hg (L g Pg)) as (a & A1 & A2).
  destruct (C35_partial e lk force' fl' (wide e) h [] D Z' (wide_zeros e) F' Nh Hh (L h Ph)) as (b & B1 & B2). congruence.
Qed.
(** With the default data. *)
Theorem C53_str : forall f,
  (forall v w, InB default_data (verse0 f) v -> InB default_data (verse0 f) w -> verse_text (denv f) v = verse_text (denv f) w -> v = w) /\
  (forall x y s, wf_range default_data (verse0 f) x -> wf_range default_data (verse0 f) y ->
     range_text (denv f) x = Ok s -> range_text (denv f) y = Ok s -> x = y) /\
  (forall g h s, Forall (fun l => l <> []) g -> Forall (fun l => l <> []) h -> g <> [] -> h <> [] ->
     Forall (Forall (wf_range default_data (verse0 f))) g -> Forall (Forall (wf_range default_data (verse0 f))) h ->
     list_text (denv f) g = Ok s -> list_text (denv f) h = Ok s -> g = h).
Proof.
  intros f. destruct (C36_str f []) as (_ & B).
  assert (L : forall x, wf_range default_data (verse0 f) x -> legible (denv f) plain x).
  { intros x Hx. split; [exact Hx|]. destruct Hx as (Hs & He & _).
    split; apply default_readable; try (intros X; discriminate X); [apply (InB_book (denv f) _ _ Hs)|apply (InB_book (denv f) _ _ He)]. }
  assert (LL : forall g, Forall (Forall (wf_range default_data (verse0 f))) g -> Forall (Forall (legible (denv f) plain)) g).
  { intros g H. eapply Forall_impl; [|exact H]. intros l Hl. eapply Forall_impl; [|exact Hl]. exact L. }
  split; [|split].
  - intros v w Hv Hw E. pose proof (B v Hv) as P. pose proof (B w Hw) as Q. rewrite E in P. congruence.
  - intros x y s Hx Hy Ex Ey. exact (C53_range (denv f) plain false false None None x y s default_good eq_refl eq_refl (L x Hx) (L y Hy) Ex Ey).
  - intros g h s Hg Hh Ng Nh Pg Ph Eg Eh.
    exact (C53_list (denv f) plain false false None None g h s default_good eq_refl eq_refl (default_force f false) (default_force f false) Hg Hh (LL g Pg) (LL h Ph) Ng Nh Eg Eh).
Qed.
Example C53_ex : list_text (denv NONE) [[R (V Gen 1 2) (V Gen 1 2); R (V Gen 1 4) (V Gen 1 4)]] = Ok (s2l "Genesis 1:2, 4") /\
  list_text (denv NONE) [[R (V Gen 1 2) (V Gen 1 2)]; [R (V Gen 1 4) (V Gen 1 4)]] = Ok (s2l "Genesis 1:2; 1:4") /\
  list_str (denv NONE) plain false false [[R (V Gen 1 2) (V Gen 1 2)]; [R (V Gen 1 4) (V Gen 1 4)]] None = Ok (s2l "Genesis 1:2, 4").
Proof. vm_compute. auto. Qed.
(** Without groups lists of different groups have the same text. *)
Theorem C53_groups_refuted : exists g h s, g <> h /\ Forall (Forall (fun x => wf_range default_data false x /\ one_book_range x)) g /\
  Forall (Forall (fun x => wf_range default_data false x /\ one_book_range x)) h /\
  list_str (denv NONE) plain false false g None = Ok s /\ list_str (denv NONE) plain false false h None = Ok s.
Proof.
  exists [[R (V Gen 1 2) (V Gen 1 2); R (V Gen 1 4) (V Gen 1 4)]], [[R (V Gen 1 2) (V Gen 1 2)]; [R (V Gen 1 4) (V Gen 1 4)]], (s2l "Genesis 1:2, 4").
  split; [discriminate|]. split; [one_by_one ltac:(legal_one)|]. split; [one_by_one ltac:(legal_one)|]. vm_compute. auto.
Qed.
