(** * PRound: the texts of lists and ranges are read back. *)
From Coq Require Import List ZArith NArith Bool Ascii Lia.
From Verif Require Import Base Books Chars Regex Data MVerse MRange MSeq MList MStr MParse Spec SpecList SpecName SpecParse SpecMean
  PList PCore PNav PVerse PRange PSetOps PRuns PSplit PCount PUnit PUnit2 PRegroup PLex PParse PParse2 PPrint PText.
Import ListNotations.
Import Spec.
Open Scope Z_scope.

Section Round.
Variable e : env.
Notation d := (ed e).
Notation zg := (verse0 (eg e)).
Hypothesis Hwf : wf_data d.
Hypothesis Hsep : good_seps d.
Variable fl : option flag.
Hypothesis Hfl : zero_on e fl = zg.
Variable fp : option flag.
Hypothesis Hfp : zero_on e fp = zg.
Variable lk : look.
Notation ns := (lk_nospace lk).
Notation okr := (@okr e (multi_on e fp)).
Notation readable := (readable e lk).
Notation Raw := (Raw e).
Notation ctx_in := (ctx_in e).
Notation force_ok := (force_ok e).

Lemma span_ok : forall u, In (unit_book u) (book_order d) -> unit_ok d zg u ->
  unit_span e fp u (R (unit_first d zg u) (unit_last d u)).
Proof.
  intros u Hb Hok. pose proof Hfp as Hz. unfold unit_span. rewrite Hz. split; [exact Hok|]. split; [|reflexivity].
  apply (startable_agree e Hwf fp u Hz Hb). now rewrite Hz.
Qed.
Lemma book_any : forall c c' v p u c1, p_book p = true -> means d c (cnt e v p) u c1 -> means d c' (cnt e v p) u c1.
Proof.
  intros c c' v p u c1 H M. unfold cnt in *. rewrite H in *. destruct (_ && _), (p_verse p); inversion M; subst; now constructor.
Qed.
Lemma pick_sep : forall pg force st x p st1, (q <- pick_start e pg fl st x ;; force_start e force x q) = Ok (p, st1) ->
  ps_sep st1 = ps_sep st \/ ps_sep st1 = [major_list_sep d].
Proof.
  intros pg force st x p st1 H. destruct (pick_start e pg fl st x) as [[p0 st0]|] eqn:E; [|discriminate]. cbn [bind] in H.
  assert (A : ps_sep st1 = ps_sep st0).
  { unfold force_start in H. destruct (if force && _ then _ else _) as [a|]; [|discriminate]. cbn [bind] in H. destruct a; injection H as <- <-; reflexivity. }
  rewrite A. clear H A. unfold pick_start in E. destruct (spans_start_book e x fl) as [[]|]; [| |discriminate]; cbn [bind] in E.
  - injection E as <- <-. cbn. destruct pg; auto.
  - destruct (spans_start_chap e x fl) as [[]|]; [| |discriminate]; cbn [bind] in E.
    + destruct (obook_eqb _ _); [destruct (ps_vl st)|].
      * destruct pg; cbn [negb] in E; [destruct (str_eqb _ _)|]; cbn [bind] in E; injection E as <- <-; cbn; auto.
      * destruct pg; cbn [negb] in E; [destruct (str_eqb _ _); [|destruct (spans_end_chap e x fl) as [[]|]; [| |discriminate]]|]; cbn [bind] in E; injection E as <- <-; cbn; auto.
      * cbn [bind] in E. injection E as <- <-. cbn. destruct pg; auto.
    + destruct (obook_eqb _ _); [destruct (ps_vl st && _)|].
      * destruct (r_chap_count e x false fl) as [n|]; [|discriminate]. cbn [bind] in E. injection E as <- <-. cbn. destruct (n >? 1), pg; cbn; auto.
      * cbn [bind] in E. injection E as <- <-. cbn. destruct pg; auto.
      * cbn [bind] in E. injection E as <- <-. cbn. destruct pg; auto.
Qed.

(** A text that is read as one reference. *)
Definition ref_text (body : str) (c : ctx) (x : range) (c' : ctx) : Prop :=
  exists l, sp d body l /\ forall ts, map erase ts = l -> exists a, g_ref ts a /\ m_ref e fp c a x c'.
(** A text that is read as further references with separators before them. *)
Definition rest_text (out : str) (c : ctx) (krs : list (term * range)) (c' : ctx) : Prop :=
  exists l, sp d out l /\ forall ts, map erase ts = l -> exists r, g_rest ts r None /\ m_rest e fp c r krs c'.
Lemma rest_nil : forall c, rest_text [] c [] c.
Proof. intros c. exists []. split; [constructor|]. intros ts H. apply erase_nil in H. subst. exists []. split; constructor. Qed.
Definition sep_ctx (k : term) (c : ctx) : ctx := match k with TMajor => leave_chap c | _ => c end.
Lemma rest_cons : forall k ch body out c x c1 krs c2, k = TMajor \/ k = TMinor -> in_term d k [ch] ->
  ref_text body (sep_ctx k c) x c1 -> rest_text out c1 krs c2 ->
  rest_text ((ch :: gap ns ++ body) ++ out) c ((k, x) :: krs) c2.
Proof.
  intros k ch body out c x c1 krs c2 K T (l & S & F) (m & S' & F'). exists (((k, [ch]) :: l) ++ m). split.
  - apply sp_app; auto. change (ch :: gap ns ++ body) with ([ch] ++ gap ns ++ body). apply SpE_tok; auto. apply SpE_gap; auto. apply white_gap.
  - intros ts H. cbn [app] in H. apply erase_cons in H. destruct H as (i & ts' & -> & H). apply erase_app in H. destruct H as (ts1 & ts2 & -> & H1 & H2).
    destruct (F _ H1) as (a & G1 & M1). destruct (F' _ H2) as (r & G2 & M2). exists ((Tok k [ch] i, a) :: r). split.
    + constructor; auto.
    + change k with (tk (Tok k [ch] i)) at 2. econstructor; eauto.
Qed.

(** ** One item *)
Definition kind_of (st : pstate) : term := if str_eqb (ps_sep st) [major_list_sep d] then TMajor else TMinor.
Lemma item_ok : forall force pg st c x, okr x -> readable (vbook (rstart x)) -> readable (vbook (rend x)) ->
  Raw st (ctx_in st c) -> force_ok force ->
  exists out st' st1 body c', show_item e lk force pg fl st x = Ok (out, st') /\
    ps_first st' = false /\ ps_sep st' = [minor_list_sep d] /\ Raw st' c' /\
    ref_text body (ctx_in st1 c) x c' /\ (ps_book st = None -> forall c0, ref_text body c0 x c') /\
    (ps_first st = true -> out = body) /\
    (ps_first st = false -> forall ch, ps_sep st1 = [ch] -> is_space ch = false -> out = ch :: gap ns ++ body) /\
    (ps_sep st1 = ps_sep st \/ ps_sep st1 = [major_list_sep d]) /\ (pg = true -> ps_sep st1 = ps_sep st) /\
    (pg = false -> ps_dual st = false -> str_eqb (ps_sep st) [major_list_sep d] = false ->
       after_item e fl x st' /\ ps_dual st' = false /\
       (str_eqb (ps_sep st1) [major_list_sep d] = false <->
         continued st x /\ ~ opens_with d zg (chap_at (rstart x)) x /\ ~ multi_chap x)).
Proof.
  intros force pg st c x Hx Ns Ne HR Hf.
  destruct (tests_exist e Hwf fl Hfl x (wf_true e _ _ (proj1 Hx))) as (sb & sc & eb & ec & wb & wc & T).
  destruct (start_ok e Hwf fl force pg st c x _ _ _ _ _ _ Hx T HR Hf)
    as (p & st1 & u & c1 & E1 & V1 & Pb & F1 & Sg & Du & M1 & U1 & Ub & Uf & Mid & Sing).
  destruct (end_ok e Hwf fl x st1 c1 _ _ _ _ _ _ Hx T Mid) as (oq & st2 & E2 & Se & Fi & Dd & Hq).
  pose proof Hx as ((Xs & Xe & Xle) & Xb).
  destruct (verse_text_sp e Hwf Hsep lk zg (rstart x) p Xs V1 (fun _ => Ns)) as (l1 & P1 & T1 & G1).
  assert (Ib : In (unit_book u) (book_order d)) by (rewrite Ub; apply (InB_book e _ _ Xs)).
  assert (Sp1 := span_ok u Ib U1). rewrite Uf in Sp1.
  set (st' := PS (ps_book st2) (ps_chap st2) (ps_vl st2) [minor_list_sep d] (ps_dual st2) false).
  assert (Main : exists body c', tight ns body /\ Raw st' c' /\
     body = verse_str e lk (rstart x) p ++ match oq with None => [] | Some q => [range_sep d] ++ verse_str e lk (rend x) q end /\
     ref_text body (ctx_in st1 c) x c' /\ (ps_book st = None -> forall c0, ref_text body c0 x c')).
  { destruct oq as [q|].
    - destruct Hq as (Vq & u2 & c2 & M2 & U2 & Ub2 & Ul2 & R2).
      destruct (verse_text_sp e Hwf Hsep lk zg (rend x) q Xe Vq (fun _ => Ne)) as (l2 & P2 & T2 & G2).
      assert (Ib2 : In (unit_book u2) (book_order d)) by (rewrite Ub2; apply (InB_book e _ _ Xe)).
      assert (Sp2 := span_ok u2 Ib2 U2). rewrite Ul2 in Sp2.
      assert (Joi : joined e fp (rstart x) (rend x) x).
      { split; [exact Xb|]. left. split; [exact Xle|]. now destruct x. }
      assert (RT : forall c0, means d c0 (cnt e (rstart x) p) u c1 -> ref_text (verse_str e lk (rstart x) p ++ [range_sep d] ++ verse_str e lk (rend x) q) c0 x c2).
      { intros c0 M0. exists (l1 ++ (TRange, [range_sep d]) :: l2). split.
        - apply sp_app; auto. apply SpE_tok; auto. reflexivity.
        - intros ts H. apply erase_app in H. destruct H as (t1 & t2 & -> & H1 & H2). apply erase_cons in H2. destruct H2 as (i & t3 & -> & H2).
          destruct (G1 _ H1) as (a & A1 & A2). destruct (G2 _ H2) as (b & B1 & B2).
          exists (Two a (Tok TRange [range_sep d] i) b). split; [now constructor|].
          eapply M_two with (r1 := R (rstart x) (unit_last d u)) (r2 := R (unit_first d zg u2) (rend x)).
          + exists (cnt e (rstart x) p), u. eauto.
          + exists (cnt e (rend x) q), u2. eauto.
          + exact Joi. }
      eexists. exists c2. split; [|split; [|split; [reflexivity|split]]].
      + apply tight_app; auto. apply tight_app; auto. apply tight_char. apply (gs_punct _ Hsep). now left.
      + exact R2.
      + now apply RT.
      + intros B c0. apply RT. apply (book_any (ctx_in st1 c)); auto.
    - destruct Hq as (D0 & S0 & -> & R2).
      assert (Ex : R (rstart x) (unit_last d u) = x) by (rewrite (Sing D0 S0); now destruct x).
      assert (RT : forall c0, means d c0 (cnt e (rstart x) p) u c1 -> ref_text (verse_str e lk (rstart x) p ++ []) c0 x c1).
      { intros c0 M0. rewrite app_nil_r. exists l1. split; auto. intros ts H. destruct (G1 _ H) as (a & A1 & A2). exists (One a). split; [now constructor|].
        constructor. exists (cnt e (rstart x) p), u. rewrite <- Ex. eauto. }
      eexists. exists c1. split; [|split; [|split; [reflexivity|split]]].
      + now rewrite app_nil_r.
      + exact R2.
      + now apply RT.
      + intros B c0. apply RT. apply (book_any (ctx_in st1 c)); auto. }
  destruct Main as (body & c' & Tb & HR' & Eb & RT & RTb).
  unfold show_item.
  destruct (pick_start e pg fl st x) as [[p0 st0]|] eqn:EP; [|discriminate]. cbn [bind]. change ((_ <- Ok (p0, st0) ;; _) = Ok (p, st1)) with (force_start e force x (p0, st0) = Ok (p, st1)) in E1.
  rewrite E1. cbn [bind]. rewrite E2. cbn [bind]. rewrite <- Eb. rewrite Fi, F1, Se. fold st'.
  assert (PS : ps_sep st1 = ps_sep st \/ ps_sep st1 = [major_list_sep d]).
  { apply (pick_sep pg force st x p). rewrite EP. exact E1. }
  eexists. exists st', st1, body, c'. split; [reflexivity|]. do 2 (split; [reflexivity|]). split; [exact HR'|]. split; [exact RT|]. split; [exact RTb|].
  split; [|split; [|split; [exact PS|split; [exact Sg|]]]].
  - intros ->. now apply spaced_lead.
  - intros -> ch -> Hch. apply (spaced_gap ns [ch] body); auto. now apply tight_char.
  - intros -> D0 S0. assert (EE : (q <- pick_start e false fl st x ;; force_start e force x q) = Ok (p, st1)) by (rewrite EP; exact E1).
    destruct (start_regroup e Hwf fl force st x _ _ _ _ _ _ p st1 Hx T S0 EE) as (B1 & B2 & B3 & B4 & B5). rewrite D0 in B4.
    destruct (end_regroup e Hwf fl Hfl force st1 x _ _ _ _ _ _ oq st2 Hx T B1 B2 B3 B4 E2) as (A1 & A2).
    split; [exact A1|]. split; [exact A2|]. exact B5.
Qed.

(** ** Lists *)
Definition shows (x : range) : Prop := okr x /\ readable (vbook (rstart x)) /\ readable (vbook (rend x)).
Lemma minor_major : str_eqb [minor_list_sep d] [major_list_sep d] = false.
Proof.
  destruct (str_eqb _ _) eqn:E; auto. apply str_eqb_eq in E. injection E as E. exfalso. now apply (gs_major_minor _ Hsep).
Qed.
Lemma major_major : str_eqb [major_list_sep d] [major_list_sep d] = true.
Proof. now apply str_eqb_eq. Qed.
Definition list_sep (st : pstate) : Prop := ps_sep st = [minor_list_sep d] \/ ps_sep st = [major_list_sep d].
Lemma list_sep_ok : forall st, list_sep st -> exists ch, ps_sep st = [ch] /\ is_space ch = false /\ in_term d (kind_of st) [ch] /\ (kind_of st = TMajor \/ kind_of st = TMinor).
Proof.
  intros st [H|H]; unfold kind_of; rewrite H; eexists; (split; [reflexivity|]).
  - rewrite minor_major. split; [apply (gs_punct _ Hsep); unfold is_sep; auto|]. split; [reflexivity|auto].
  - rewrite major_major. split; [apply (gs_punct _ Hsep); unfold is_sep; auto|]. split; [reflexivity|auto].
Qed.
Lemma sep_ctx_in : forall st c, sep_ctx (kind_of st) c = ctx_in st c.
Proof. intros st c. unfold kind_of, PPrint.ctx_in. now destruct (str_eqb _ _). Qed.
Lemma raw_minor : forall st c, ps_sep st = [minor_list_sep d] -> ctx_in st c = c.
Proof. intros st c H. unfold PPrint.ctx_in. now rewrite H, minor_major. Qed.

Definition with_kind (k : term) (l : list range) : list (term * range) :=
  match l with [] => [] | x :: l' => (k, x) :: map (fun y => (TMinor, y)) l' end.
Lemma with_minor : forall l, with_kind TMinor l = map (fun y => (TMinor, y)) l.
Proof. now intros [|]. Qed.
Lemma group_rest : forall force, force_ok force -> forall l st c, Forall shows l -> ps_first st = false -> list_sep st -> Raw st (ctx_in st c) ->
  exists out st' c', show_group e lk force true fl st l = Ok (out, st') /\ rest_text out c (with_kind (kind_of st) l) c' /\
    ps_first st' = false /\ list_sep st' /\ Raw st' (ctx_in st' c').
Proof.
  intros force Hf. induction l as [|x l IH]; intros st c Hl F S HR.
  - exists [], st, c. split; [reflexivity|]. split; [apply rest_nil|auto].
  - inversion Hl as [|? ? (Hx & Ns & Ne) Hl']; subst.
    destruct (item_ok force true st c x Hx Ns Ne HR Hf) as (out & st' & st1 & body & c' & E & F' & S' & R' & T & _ & _ & O & _ & Sg & _).
    specialize (Sg eq_refl). destruct (IH st' c' Hl' F') as (out2 & st2 & c2 & E2 & T2 & F2 & S2 & R2); [now left|rewrite (raw_minor _ _ S'); exact R'|].
    destruct (list_sep_ok st S) as (ch & Ech & Hch & Hterm & Hk).
    exists (out ++ out2), st2, c2. cbn [show_group]. rewrite E. cbn [bind snd]. rewrite E2. cbn [bind fst snd]. split; [reflexivity|].
    split; [|auto]. rewrite (O F ch) by (auto; congruence). cbn [with_kind]. apply rest_cons with (c1 := c'); auto.
    + rewrite sep_ctx_in. unfold PPrint.ctx_in in T |- *. rewrite Sg in T. exact T.
    + rewrite <- with_minor. replace TMinor with (kind_of st'); [exact T2|]. unfold kind_of. now rewrite S', minor_major.
Qed.
Lemma end_group_raw : forall st c, Raw st (ctx_in st c) -> Raw (end_group e true st) (ctx_in (end_group e true st) c).
Proof.
  intros st c H. unfold PPrint.Raw in *. cbn [end_group ps_book ps_vl ps_chap]. destruct (ps_book st) as [b|]; auto. destruct H as (H & _).
  rewrite ctx_in_book in *. split; [exact H|]. intros _. split; [|discriminate]. intros _. unfold PPrint.ctx_in. cbn [end_group ps_sep]. rewrite major_major. now apply leave_in.
Qed.
Lemma rest_app : forall a b c k1 c1 k2 c2, rest_text a c k1 c1 -> rest_text b c1 k2 c2 -> rest_text (a ++ b) c (k1 ++ k2) c2.
Proof.
  intros a b c k1 c1 k2 c2 (l & S & F) (m & S' & F'). exists (l ++ m). split; [now apply sp_app|]. intros ts H. apply erase_app in H.
  destruct H as (t1 & t2 & -> & H1 & H2). destruct (F _ H1) as (r & G & M). destruct (F' _ H2) as (r' & G' & M'). exists (r ++ r'). split.
  - clear -G G'. remember None as o eqn:Eo in G. induction G; subst; try discriminate; cbn [app]; auto. rewrite <- app_assoc. constructor; auto.
  - clear -M M'. induction M; cbn [app]; auto. econstructor; eauto.
Qed.
Lemma groups_rest : forall force, force_ok force -> forall gs st c, Forall (Forall shows) gs -> ps_first st = false -> ps_sep st = [major_list_sep d] -> Raw st (ctx_in st c) ->
  exists out c', show_groups e lk force true fl st gs = Ok out /\ rest_text out c (concat (map (with_kind TMajor) gs)) c'.
Proof.
  intros force Hf. induction gs as [|g gs IH]; intros st c Hg F S HR.
  - exists [], c. split; [reflexivity|apply rest_nil].
  - inversion Hg as [|? ? Hg1 Hg2]; subst.
    destruct (group_rest force Hf g st c Hg1 F (or_intror S) HR) as (out & st' & c' & E & T & F' & S' & R').
    destruct (IH (end_group e true st') c' Hg2) as (out2 & c2 & E2 & T2); [exact F'|reflexivity|now apply end_group_raw|].
    exists (out ++ out2), c2. cbn [show_groups]. rewrite E. cbn [bind snd fst]. rewrite E2. cbn [bind]. split; [reflexivity|]. cbn [map concat].
    eapply rest_app; eauto. unfold kind_of in T. now rewrite S, major_major in T.
Qed.
Lemma groups_of_kinds : forall l x gs, Forall (fun g => g <> []) gs ->
  groups_of x (map (fun y => (TMinor, y)) l ++ concat (map (with_kind TMajor) gs)) = (x :: l) :: gs.
Proof.
  intros l x gs. revert l x. induction gs as [|g gs IHg]; intros l x Hg.
  - cbn. rewrite app_nil_r. revert x. induction l as [|y l IH]; intros x; cbn; auto. now rewrite IH.
  - inversion Hg as [|? ? Hg1 Hg2]; subst. revert x. induction l as [|y l IH]; intros x.
    + destruct g as [|z g]; [contradiction|]. cbn [map app concat with_kind groups_of]. now rewrite IHg.
    + cbn [map app groups_of]. now rewrite IH.
Qed.

(** A whole text. *)
Definition tree_text (s : str) (gs : rlist) : Prop := forall c, exists t c', reads d s t /\ m_tree e fp c t gs c' /\ t_trail t = None.
Lemma tree_of : forall body out x c1 krs c2, (forall c, ref_text body c x c1) -> rest_text out c1 krs c2 -> tree_text (body ++ out) (groups_of x krs).
Proof.
  intros body out x c1 krs c2 H (m & S' & F') c. destruct (H c) as (l & S & F). destruct (sp_spells d _ _ (sp_app _ _ _ _ _ S S') 0) as (ts & Sp & E).
  apply erase_app in E. destruct E as (t1 & t2 & -> & H1 & H2). destruct (F _ H1) as (a & G & M). destruct (F' _ H2) as (r & G' & M').
  exists (Tree a r None), c2. split.
  - exists (t1 ++ t2). split; auto. now constructor.
  - split; [|reflexivity]. exists x, c1, krs, c2. auto.
Qed.
Lemma raw_init : forall c, Raw ps_init c.
Proof. exact (fun _ => I). Qed.

Theorem list_round : forall force gs, force_ok force -> gs <> [] -> Forall (fun g => g <> []) gs -> Forall (Forall shows) gs ->
  exists s, list_str e lk true force gs fl = Ok s /\ tree_text s gs.
Proof.
  intros force gs Hf Hne Hfull Hg. destruct gs as [|[|x l] gs]; [contradiction|inversion Hfull; contradiction|].
  inversion Hfull as [|? ? _ Hfull']; subst. inversion Hg as [|? ? Hl Hg']; subst. inversion Hl as [|? ? (Hx & Ns & Ne) Hl']; subst.
  destruct (item_ok force true ps_init NoBook x Hx Ns Ne (raw_init _) Hf) as (out & st' & st1 & body & c' & E & F' & S' & R' & _ & T & O & _).
  specialize (T eq_refl). specialize (O eq_refl). subst out.
  destruct (group_rest force Hf l st' c' Hl' F') as (out2 & st2 & c2 & E2 & T2 & F2 & S2 & R2); [now left|rewrite (raw_minor _ _ S'); exact R'|].
  destruct (groups_rest force Hf gs (end_group e true st2) c2 Hg' F2 eq_refl (end_group_raw _ _ R2)) as (out3 & c3 & E3 & T3).
  exists (body ++ (out2 ++ out3)). split.
  - unfold list_str. cbn [show_groups show_group]. rewrite E. cbn [bind snd]. rewrite E2. cbn [bind snd fst]. rewrite E3. cbn [bind fst]. now rewrite app_assoc.
  - rewrite <- (groups_of_kinds l x gs Hfull'). eapply tree_of; [exact T|]. eapply rest_app; eauto.
    rewrite <- with_minor. replace TMinor with (kind_of st'); [exact T2|]. unfold kind_of. now rewrite S', minor_major.
Qed.

(** ** Lists printed without their groups *)
Lemma show_flat : forall force gs st, show_groups e lk force false fl st gs = (q <- show_group e lk force false fl st (concat gs) ;; Ok (fst q)).
Proof.
  intros force. assert (A : forall l m st, show_group e lk force false fl st (l ++ m) =
    (q <- show_group e lk force false fl st l ;; r <- show_group e lk force false fl (snd q) m ;; Ok (fst q ++ fst r, snd r))).
  { induction l as [|x l IH]; intros m st; cbn [app show_group bind fst snd].
    - destruct (show_group e lk force false fl st m) as [[o s]|]; reflexivity.
    - destruct (show_item e lk force false fl st x) as [[o s]|]; [|reflexivity]. cbn [bind fst snd]. rewrite IH.
      destruct (show_group e lk force false fl s l) as [[o2 s2]|]; [|reflexivity]. cbn [bind fst snd].
      destruct (show_group e lk force false fl s2 m) as [[o3 s3]|]; [|reflexivity]. cbn [bind fst snd]. now rewrite app_assoc. }
  induction gs as [|g gs IH]; intros st; [reflexivity|]. cbn [show_groups concat]. rewrite A.
  destruct (show_group e lk force false fl st g) as [[o s]|]; [|reflexivity]. cbn [bind fst snd end_group]. rewrite IH.
  destruct (show_group e lk force false fl s (concat gs)) as [[o2 s2]|]; reflexivity.
Qed.
Definition mark_kind (m : bool * range) : term * range := (if fst m then TMajor else TMinor, snd m).
Lemma cut_kinds : forall ms b x, groups_of x (map mark_kind ms) = cut_groups ((b, x) :: ms).
Proof.
  induction ms as [|[b' y] ms IH]; intros b x; [reflexivity|]. cbn [map mark_kind fst snd groups_of]. rewrite (IH b' y).
  change (cut_groups ((b, x) :: (b', y) :: ms)) with
    (if b' then [x] :: cut_groups ((b', y) :: ms) else match cut_groups ((b', y) :: ms) with [] => [[x]] | g :: gs => (x :: g) :: gs end).
  destruct b'; [reflexivity|]. now destruct (cut_groups _).
Qed.
Lemma continued_after : forall p x st, after_item e fl p st ->
  (continued st x /\ ~ opens_with d zg (chap_at (rstart x)) x /\ ~ multi_chap x <-> continues e fl p x).
Proof.
  intros p x st (S1 & S2 & S3). unfold continues. rewrite Hfl. unfold continued, multi_chap. split.
  - intros ((M1 & M2 & M3) & N1 & N2). assert (E1 : vbook (rend p) = vbook (rstart x)) by congruence.
    assert (E2 : vchap (rend p) = vchap (rstart x)) by (destruct S2; congruence).
    split; [apply S3; rewrite E2; auto|]. split; [exact N1|]. split; [unfold chap_at; now rewrite E1, E2|].
    unfold chap_at in *. destruct (book_eqb (vbook (rend x)) (vbook (rstart x))) eqn:Q1.
    + apply book_eqb_eq in Q1. rewrite Q1 in *. f_equal. destruct (Z.eq_dec (vchap (rend x)) (vchap (rstart x))) as [Q2|Q2]; [exact Q2|].
      exfalso. apply N2. intros [=]. now apply Q2.
    + exfalso. apply N2. intros [= Q2 Q3]. apply book_eqb_eq in Q2. congruence.
  - intros (Ho & N1 & Hp & N2). apply S3 in Ho. unfold chap_at in Hp. injection Hp as P1 P2.
    split; [split; [congruence|split; [destruct Ho; congruence|tauto]]|]. split; [exact N1|]. congruence.
Qed.
Lemma regroup_rest : forall force, force_ok force -> forall l p st c, Forall shows l -> ps_first st = false -> ps_sep st = [minor_list_sep d] ->
  ps_dual st = false -> after_item e fl p st -> Raw st c ->
  exists out st' c' ms, show_group e lk force false fl st l = Ok (out, st') /\ map snd ms = l /\ marks_ok e fl (Some p) ms /\
    rest_text out c (map mark_kind ms) c'.
Proof.
  intros force Hf. induction l as [|x l IH]; intros p st c Hl F S D A HR.
  - exists [], st, c, []. split; [reflexivity|]. split; [reflexivity|]. split; [exact I|apply rest_nil].
  - inversion Hl as [|? ? (Hx & Ns & Ne) Hl']; subst. rewrite <- (raw_minor st c S) in HR.
    destruct (item_ok force false st c x Hx Ns Ne HR Hf) as (out & st' & st1 & body & c' & E & F' & S' & R' & T & _ & _ & O & PS & _ & Q).
    destruct Q as (A' & D' & Q); auto. { rewrite S. apply minor_major. }
    rewrite (continued_after p x st A) in Q.
    destruct (IH x st' c' Hl' F' S' D' A' R') as (out2 & st2 & c2 & ms & E2 & M2 & K2 & T2).
    exists (out ++ out2), st2, c2, ((str_eqb (ps_sep st1) [major_list_sep d], x) :: ms).
    cbn [show_group]. rewrite E. cbn [bind snd]. rewrite E2. cbn [bind fst snd]. split; [reflexivity|]. cbn [map snd]. split; [now rewrite M2|]. split; [now split|].
    assert (LS : list_sep st1) by (unfold list_sep; rewrite <- S; tauto).
    destruct (list_sep_ok st1 LS) as (ch & Ech & Hch & Hterm & Hk). rewrite (O F ch Ech Hch).
    change (mark_kind _) with (kind_of st1, x). eapply rest_cons; eauto. now rewrite sep_ctx_in.
Qed.
Lemma range_starts : forall x, okr x -> range_can_start e fl x.
Proof.
  intros r ((Rs & Re & _) & _). pose proof Hfl as Hz.
  pose proof (InB_legal e _ _ Rs) as (L1 & _). pose proof (InB_legal e _ _ Re) as (L2 & _).
  pose proof (InB_book e _ _ Rs). pose proof (InB_book e _ _ Re).
  repeat split; apply (startable_agree e Hwf fl); cbn; auto.
Qed.

Theorem regroup_round : forall force gs, force_ok force -> items gs <> [] -> Forall shows (items gs) ->
  exists s g, list_str e lk false force gs fl = Ok s /\ regroup e fl gs = Ok g /\ tree_text s g.
Proof.
  intros force gs Hf Hne Hg.
  assert (Hw : Forall (wf_range d true) (items gs)).
  { eapply Forall_impl; [|exact Hg]. intros x (((A & B & C) & _) & _). eapply wf_true. split; eauto. }
  assert (Hc : Forall (range_can_start e fl) (items gs)).
  { eapply Forall_impl; [|exact Hg]. intros x (A & _). now apply range_starts. }
  unfold regroup, list_str. rewrite show_flat, regroup_n_eq. change (concat gs) with (items gs).
  assert (Hcc : forall prev, cc_ok (chap_counter e 1) prev (items gs)).
  { clear -Hw Hwf. induction Hw as [|x l Hx Hw IH]; intros prev; [exact I|]. split; [|apply IH].
    destruct prev; [intros _; now apply chap_counter_ok|exact I]. }
  destruct (rg_loop_ok e Hwf fl (chap_counter e 1) (items gs) None (RG None None false) Hw Hc eq_refl (Hcc None)) as (ms & E & Hms & Hok).
  rewrite E. cbn [bind]. clear E Hcc Hc Hw. destruct (items gs) as [|x l]; [contradiction|]. inversion Hg as [|? ? (Hx & Ns & Ne) Hl']; subst.
  destruct (item_ok force false ps_init NoBook x Hx Ns Ne (raw_init _) Hf) as (out & st' & st1 & body & c' & E & F' & S' & R' & _ & T & O & _ & _ & _ & Q).
  specialize (T eq_refl). specialize (O eq_refl). subst out. destruct Q as (A' & D' & _); auto.
  destruct (regroup_rest force Hf l x st' c' Hl' F' S' D' A' R') as (out2 & st2 & c2 & ms2 & E2 & M2 & K2 & T2).
  exists (body ++ out2), (cut_groups ms). cbn [show_group]. rewrite E. cbn [bind snd]. rewrite E2. cbn [bind fst]. split; [reflexivity|]. split; [reflexivity|].
  assert (EM : ms = (true, x) :: ms2).
  { apply (marks_unique e fl _ None); auto; [cbn; now rewrite M2|]. now split. }
  rewrite EM, <- cut_kinds. now apply tree_of with (c1 := c') (c2 := c2).
Qed.

(** ** Ranges and verses *)
Lemma ref_one : forall x p u c1, okr x -> readable (vbook (rstart x)) -> vis e (rstart x) p -> (forall c, means d c (cnt e (rstart x) p) u c1) ->
  unit_ok d zg u -> unit_book u = vbook (rstart x) -> unit_first d zg u = rstart x -> unit_last d u = rend x ->
  spaced ns (verse_str e lk (rstart x) p) = verse_str e lk (rstart x) p /\ forall c, ref_text (verse_str e lk (rstart x) p) c x c1.
Proof.
  intros x p u c1 ((Xs & Xe & Xle) & Xb) Ns V1 M1 U1 Ub Uf Ul.
  destruct (verse_text_sp e Hwf Hsep lk zg (rstart x) p Xs V1 (fun _ => Ns)) as (l1 & P1 & T1 & G1).
  split; [now apply spaced_tight|]. assert (Ib : In (unit_book u) (book_order d)) by (rewrite Ub; apply (InB_book e _ _ Xs)).
  assert (Sp1 := span_ok u Ib U1). rewrite Uf, Ul in Sp1. assert (Ex : R (rstart x) (rend x) = x) by now destruct x. rewrite Ex in Sp1.
  intros c. exists l1. split; auto. intros ts H. destruct (G1 _ H) as (a & A1 & A2). exists (One a). split; [now constructor|].
  constructor. exists (cnt e (rstart x) p), u. eauto.
Qed.
Lemma ref_two : forall x p u c1 q u2 c2, okr x -> readable (vbook (rstart x)) -> readable (vbook (rend x)) ->
  vis e (rstart x) p -> (forall c, means d c (cnt e (rstart x) p) u c1) -> unit_ok d zg u -> unit_book u = vbook (rstart x) -> unit_first d zg u = rstart x ->
  vis e (rend x) q -> means d c1 (cnt e (rend x) q) u2 c2 -> unit_ok d zg u2 -> unit_book u2 = vbook (rend x) -> unit_last d u2 = rend x ->
  let s := verse_str e lk (rstart x) p ++ [range_sep d] ++ verse_str e lk (rend x) q in
  spaced ns s = s /\ forall c, ref_text s c x c2.
Proof.
  intros x p u c1 q u2 c2 ((Xs & Xe & Xle) & Xb) Ns Ne V1 M1 U1 Ub Uf V2 M2 U2 Ub2 Ul2.
  destruct (verse_text_sp e Hwf Hsep lk zg (rstart x) p Xs V1 (fun _ => Ns)) as (l1 & P1 & T1 & G1).
  destruct (verse_text_sp e Hwf Hsep lk zg (rend x) q Xe V2 (fun _ => Ne)) as (l2 & P2 & T2 & G2). split.
  { apply spaced_tight. apply tight_app; auto. apply tight_app; auto. apply tight_char. apply (gs_punct _ Hsep). now left. }
  assert (Ib : In (unit_book u) (book_order d)) by (rewrite Ub; apply (InB_book e _ _ Xs)).
  assert (Ib2 : In (unit_book u2) (book_order d)) by (rewrite Ub2; apply (InB_book e _ _ Xe)).
  assert (Sp1 := span_ok u Ib U1). rewrite Uf in Sp1. assert (Sp2 := span_ok u2 Ib2 U2). rewrite Ul2 in Sp2.
  intros c. exists (l1 ++ (TRange, [range_sep d]) :: l2). split.
  - apply sp_app; auto. apply SpE_tok; auto. reflexivity.
  - intros ts H. apply erase_app in H. destruct H as (t1 & t2 & -> & H1 & H2). apply erase_cons in H2. destruct H2 as (i & t3 & -> & H2).
    destruct (G1 _ H1) as (a & A1 & A2). destruct (G2 _ H2) as (b & B1 & B2).
    exists (Two a (Tok TRange [range_sep d] i) b). split; [now constructor|].
    eapply M_two with (r1 := R (rstart x) (unit_last d u)) (r2 := R (unit_first d zg u2) (rend x)).
    + exists (cnt e (rstart x) p), u. eauto.
    + exists (cnt e (rend x) q), u2. eauto.
    + split; [exact Xb|]. left. split; [exact Xle|]. now destruct x.
Qed.

Lemma uv_ok : forall v, InB d zg v -> unit_ok d zg (uv v) /\ unit_book (uv v) = vbook v /\ unit_first d zg (uv v) = v /\ unit_last d (uv v) = v.
Proof. intros v H. cbn. rewrite (uv_eq v). repeat split; auto; apply (InB_legal e _ _ H). Qed.
Lemma units_ok : forall v, InB d zg v -> unit_ok d zg (book_at v) /\ unit_ok d zg (chap_at v).
Proof. intros v H. cbn. split; auto. apply (InB_legal e _ _ H). Qed.

Theorem range_round : forall force x, shows x ->
  exists s, range_str e lk force x fl = Ok s /\ tree_text s [[x]].
Proof.
  intros force x (Hx & Ns & Ne). pose proof Hx as (Hr & Xb). pose proof Hr as (Xs & Xe & Xle).
  destruct (tests_exist e Hwf fl Hfl x (wf_true e _ _ Hr)) as (sb & sc & eb & ec & wb & wc & T).
  pose proof (rules_hold e Hwf fl x _ _ _ _ _ _ Hr T) as Ru.
  assert (Fin : forall s c1, (forall c, ref_text s c x c1) -> tree_text s [[x]]).
  { intros s c1 H. rewrite <- (app_nil_r s). change [[x]] with (groups_of x []). eapply tree_of; [exact H|apply rest_nil]. }
  destruct (uv_ok _ Xs) as (Us1 & Us2 & Us3 & Us4). destruct (units_ok _ Xs) as (Us5 & Us6).
  destruct (uv_ok _ Xe) as (Ue1 & Ue2 & Ue3 & Ue4). destruct (units_ok _ Xe) as (Ue5 & Ue6).
  (* the start *)
  assert (St : exists p vl u c1, 
     (sb0 <- spans_start_book e x None ;;
        if sb0 then Ok (P_BOOK, false)
        else sc0 <- spans_start_chap e x None ;;
             if sc0 then
               ec0 <- (if force then spans_end_chap e x None else Ok true) ;;
               if ec0 then Ok (P_BOOK_CHAP, false) else Ok (P_FULL_REF, true)
             else Ok (P_FULL_REF, true)) = Ok (p, vl) /\
     vis e (rstart x) p /\ (forall c, means d c (cnt e (rstart x) p) u c1) /\ unit_ok d zg u /\ unit_book u = vbook (rstart x) /\ unit_first d zg u = rstart x /\
     (single_unit_range x wb wc = true -> unit_last d u = rend x) /\
     (vl = false -> sc = true /\ c1 = InBook (vbook (rstart x))) /\ (vl = true -> sb = false /\ c1 = InChap (vbook (rstart x)) (vchap (rstart x)))).
  { rewrite (t_sb e fl _ _ _ _ _ _ _ T None (or_intror eq_refl)). cbn [bind]. destruct sb.
    { exists P_BOOK, false, (book_at (rstart x)), (InBook (vbook (rstart x))). split; [reflexivity|]. split; [now apply vis_book|]. split; [intros c; apply m_book|].
      split; [auto|]. split; [reflexivity|]. split. { symmetry. apply (proj1 (p_sb e fl _ _ _ _ _ _ _ T) eq_refl). }
      split. { intros S. eapply unit_whole; eauto. } split; [|discriminate]. intros _. split; auto. now apply (r_sb_sc _ _ _ _ _ _ _ _ Ru). }
    rewrite (t_sc e fl _ _ _ _ _ _ _ T None (or_intror eq_refl)). cbn [bind].
    assert (Full : sc = false \/ ec = false -> single_unit_range x wb wc = true -> unit_last d (uv (rstart x)) = rend x).
    { intros Hn S. apply (single_verse_last e x wb wc S); destruct wb, wc; auto; exfalso.
      1,2: now destruct (r_wb _ _ _ _ _ _ _ _ Ru eq_refl).
      1,2: destruct (r_wc _ _ _ _ _ _ _ _ Ru eq_refl) as (A & B & _); destruct Hn; congruence. }
    assert (FullRef : sc = false \/ ec = false -> exists u c1, vis e (rstart x) P_FULL_REF /\ (forall c, means d c (cnt e (rstart x) P_FULL_REF) u c1) /\ unit_ok d zg u /\ unit_book u = vbook (rstart x) /\ unit_first d zg u = rstart x /\
      (single_unit_range x wb wc = true -> unit_last d u = rend x) /\ (true = false -> sc = true /\ c1 = InBook (vbook (rstart x))) /\ (true = true -> false = false /\ c1 = InChap (vbook (rstart x)) (vchap (rstart x)))).
    { intros Hn. exists (uv (rstart x)), (InChap (vbook (rstart x)) (vchap (rstart x))). split; [now apply vis_book|]. split; [intros c; eapply m_full; eauto|].
      do 3 (split; auto). split; auto. split; [discriminate|]. auto. }
    destruct sc.
    - assert (Hone : ~ num_chaps d (vbook (rstart x)) = 1).
      { intros H. pose proof (r_sc_sb _ _ _ _ _ _ _ _ Ru H eq_refl). discriminate. }
      assert (BC : exists u c1, vis e (rstart x) P_BOOK_CHAP /\ (forall c, means d c (cnt e (rstart x) P_BOOK_CHAP) u c1) /\ unit_ok d zg u /\ unit_book u = vbook (rstart x) /\ unit_first d zg u = rstart x /\
      (single_unit_range x wb wc = true -> unit_last d u = rend x) /\ (false = false -> true = true /\ c1 = InBook (vbook (rstart x))) /\ (false = true -> false = false /\ c1 = InChap (vbook (rstart x)) (vchap (rstart x)))).
      { exists (chap_at (rstart x)), (InBook (vbook (rstart x))). split; [now apply vis_book|]. split; [intros c; now apply m_book_chap|].
        split; [auto|]. split; [reflexivity|]. split. { symmetry. apply (proj1 (p_sc e fl _ _ _ _ _ _ _ T) eq_refl). }
        split. { intros S. eapply unit_whole; eauto. } split; [auto|discriminate]. }
      destruct force; [rewrite (t_ec e fl _ _ _ _ _ _ _ T None (or_intror eq_refl))|]; cbn [bind].
      + destruct ec.
        * destruct BC as (u & c1 & BC). exists P_BOOK_CHAP, false, u, c1. split; [reflexivity|exact BC].
        * destruct (FullRef (or_intror eq_refl)) as (u & c1 & FR). exists P_FULL_REF, true, u, c1. split; [reflexivity|exact FR].
      + destruct BC as (u & c1 & BC). exists P_BOOK_CHAP, false, u, c1. split; [reflexivity|exact BC].
    - destruct (FullRef (or_introl eq_refl)) as (u & c1 & FR). exists P_FULL_REF, true, u, c1. split; [reflexivity|exact FR]. }
  destruct St as (p & vl & u & c1 & E1 & V1 & M1 & U1 & U2 & U3 & Sing & Vf & Vt).
  unfold range_str. cbv zeta. rewrite E1. cbn [bind fst snd]. clear E1.
  assert (ES : orM (is_whole_book e x fl) (orM (is_whole_chap e x fl) (Ok (is_single_verse x))) = Ok (single_unit_range x wb wc)).
  { rewrite (t_wb e fl _ _ _ _ _ _ _ T fl (or_introl eq_refl)), (t_wc e fl _ _ _ _ _ _ _ T fl (or_introl eq_refl)). unfold single_unit_range. now destruct wb, wc. }
  rewrite ES. cbn [bind]. destruct (single_unit_range x wb wc) eqn:Es.
  { destruct (ref_one x p u c1 Hx Ns V1 M1 U1 U2 U3 (Sing eq_refl)) as (A & B). rewrite A. eexists. split; [reflexivity|]. eapply Fin; eauto. }
  clear Sing ES.
  (* the end *)
  rewrite (t_eb e fl _ _ _ _ _ _ _ T fl (or_introl eq_refl)), (t_ec e fl _ _ _ _ _ _ _ T fl (or_introl eq_refl)). cbn [bind].
  assert (Nw : wb = false /\ wc = false). { unfold single_unit_range in Es. destruct wb, wc; auto; discriminate. } destruct Nw as (Nwb & Nwc).
  assert (Peb : eb = true -> unit_last d (book_at (rend x)) = rend x) by (intros H; symmetry; apply (proj1 (p_eb e fl _ _ _ _ _ _ _ T) H)).
  assert (Pec : ec = true -> unit_last d (chap_at (rend x)) = rend x) by (intros H; symmetry; apply (proj1 (p_ec e fl _ _ _ _ _ _ _ T) H)).
  assert (Endq : exists q u2 c2, (q0 <- (if eb then Ok P_BOOK
          else ec0 <- (if vl && book_eqb (vbook (rend x)) (vbook (rstart x)) then Ok false else Ok ec) ;;
               Ok (if ec0 then P_BOOK_CHAP else P_FULL_REF)) ;;
      Ok (if book_eqb (vbook (rstart x)) (vbook (rend x)) then
               P false (p_chap q0 && negb (vchap (rstart x) =? vchap (rend x))) (p_verse q0)
             else q0)) = Ok q /\
      vis e (rend x) q /\ means d c1 (cnt e (rend x) q) u2 c2 /\ unit_ok d zg u2 /\ unit_book u2 = vbook (rend x) /\ unit_last d u2 = rend x).
  { assert (Bs : book_eqb (vbook (rend x)) (vbook (rstart x)) = book_eqb (vbook (rstart x)) (vbook (rend x))).
    { destruct (book_eqb (vbook (rstart x)) (vbook (rend x))) eqn:Q; [apply book_eqb_eq in Q; rewrite Q; now apply book_eqb_eq|].
      destruct (book_eqb (vbook (rend x)) (vbook (rstart x))) eqn:Q'; auto. apply book_eqb_eq in Q'. rewrite Q' in Q. assert (book_eqb (vbook (rstart x)) (vbook (rstart x)) = true) by now apply book_eqb_eq. congruence. }
    rewrite Bs. destruct (book_eqb (vbook (rstart x)) (vbook (rend x))) eqn:Q.
    - apply book_eqb_eq in Q.
      assert (Heb : eb = false).
      { destruct eb; auto. pose proof (r_eb_sb _ _ _ _ _ _ _ _ Ru Q eq_refl) as H. destruct (r_sb_eb _ _ _ _ _ _ _ _ Ru Q H). congruence. }
      subst eb. cbn [bind].
      assert (Vis : vis e (rend x) (P false true true)) by (now apply vis_verse).
      assert (CV : c1 = InBook (vbook (rstart x)) \/ c1 = InChap (vbook (rstart x)) (vchap (rstart x)) -> vchap (rstart x) <> vchap (rend x) ->
        exists c2, means d c1 (cnt e (rend x) (P false true true)) (uv (rend x)) c2).
      { intros H _. destruct (m_chap_verse e zg c1 (rend x) Xe) as (c2 & M & _); [rewrite <- Q; destruct H as [-> | ->]; reflexivity|]. eauto. }
      destruct vl; cbn [andb bind].
      + destruct (Vt eq_refl) as (Hsb & ->). destruct (Z.eqb_spec (vchap (rstart x)) (vchap (rend x))) as [Hc|Hc]; cbn [P_FULL_REF p_chap p_verse negb andb].
        * destruct (m_verse e zg (InChap (vbook (rstart x)) (vchap (rstart x))) (rend x) Xe) as (c2 & M & _); [now rewrite <- Q|intros _; now rewrite <- Q, <- Hc|].
          exists P_VERSE, (uv (rend x)), c2. split; [reflexivity|]. split; [now apply vis_verse|]. auto.
        * destruct (CV (or_intror eq_refl) Hc) as (c2 & M). exists P_CHAP_VERSE, (uv (rend x)), c2. split; [reflexivity|]. split; [exact Vis|]. auto.
      + destruct (Vf eq_refl) as (Hsc & ->).
        assert (Hc : vchap (rstart x) <> vchap (rend x)).
        { intros H. destruct (r_sc_ec _ _ _ _ _ _ _ _ Ru Q H Hsc). congruence. }
        destruct (Z.eqb_spec (vchap (rstart x)) (vchap (rend x))) as [H|_]; [contradiction|].
        destruct ec; cbn [P_FULL_REF P_BOOK_CHAP p_chap p_verse negb andb].
        * assert (Hone : ~ num_chaps d (vbook (rend x)) = 1).
          { intros H. pose proof (r_ec_eb _ _ _ _ _ _ _ _ Ru H eq_refl). discriminate. }
          exists P_CHAP, (chap_at (rend x)), (InBook (vbook (rend x))). split; [reflexivity|]. split; [now apply vis_chap|]. rewrite Q. split; [now apply m_chap|]. auto.
        * destruct (CV (or_introl eq_refl) Hc) as (c2 & M). exists P_CHAP_VERSE, (uv (rend x)), c2. split; [reflexivity|]. split; [exact Vis|]. auto.
    - rewrite andb_false_r. cbn [bind]. destruct eb.
      + cbn [bind]. exists P_BOOK, (book_at (rend x)), (InBook (vbook (rend x))). split; [reflexivity|]. split; [now apply vis_book|]. split; [apply m_book|]. auto.
      + cbn [bind]. destruct ec.
        * assert (Hone : ~ num_chaps d (vbook (rend x)) = 1).
          { intros H. pose proof (r_ec_eb _ _ _ _ _ _ _ _ Ru H eq_refl). discriminate. }
          exists P_BOOK_CHAP, (chap_at (rend x)), (InBook (vbook (rend x))). split; [reflexivity|]. split; [now apply vis_book|]. split; [now apply m_book_chap|]. auto.
        * exists P_FULL_REF, (uv (rend x)), (InChap (vbook (rend x)) (vchap (rend x))). split; [reflexivity|]. split; [now apply vis_book|]. split; [eapply m_full; eauto|]. auto. }
  destruct Endq as (q & u2 & c2 & E2 & V2 & M2 & U4 & U5 & U6).
  destruct (if eb then _ else _) as [q0|]; [|discriminate]. cbn [bind] in E2 |- *. injection E2 as E2. rewrite E2.
  destruct (ref_two x p u c1 q u2 c2 Hx Ns Ne V1 M1 U1 U2 U3 V2 M2 U4 U5 U6) as (A & B). rewrite A. eexists. split; [reflexivity|]. eapply Fin; eauto.
Qed.
Theorem verse_round : forall v, InB d zg v -> readable (vbook v) -> tree_text (verse_str e lk v P_FULL_REF) [[R v v]].
Proof.
  intros v Hv Hn. destruct (uv_ok v Hv) as (A & B & C & D).
  assert (Ok1 : okr (R v v)).
  { split; [|now right]. split; [exact Hv|]. split; [exact Hv|]. apply (vle_pos e Hwf). pose proof (InB_mono e _ _ Hv). repeat split; auto. apply Z.le_refl. }
  destruct (ref_one (R v v) P_FULL_REF (uv v) (InChap (vbook v) (vchap v)) Ok1 Hn) as (_ & T); auto.
  { now apply vis_book. } { intros c. eapply m_full; eauto. }
  cbn [rstart] in T. rewrite <- (app_nil_r (verse_str _ _ _ _)). change [[R v v]] with (groups_of (R v v) []). eapply tree_of; [exact T|apply rest_nil].
Qed.
End Round.
