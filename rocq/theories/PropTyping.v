(** * PropTyping: texts that can be continued to lists of references (C87). *)
From Coq Require Import List ZArith Bool Ascii String Lia.
From Verif Require Import Base Books Chars Regex Data DefaultData MVerse MRange MSeq MList MParse MPlace Spec SpecName SpecParse SpecMean SpecPlace
  PGroup PList PLex PLong PropParse PDefault PPlace PropPlace.
Import ListNotations.
Open Scope Z_scope.
Open Scope list_scope.

(** The beginning of a text whose tokens are longest: all of it is tokens and white space, or it ends within a name. *)
Lemma scans_begin : forall d u ts, spells_longest d u ts -> forall s more, u = s ++ more ->
  (exists ts1 tl, scans d s ts1 [] /\ map tk ts = map tk ts1 ++ tl) \/
  (exists ts1 tl y y2, scans d s ts1 y /\ map tk ts = map tk ts1 ++ TName :: tl /\ y <> [] /\ y2 <> [] /\ in_term d TName (y ++ y2)).
Proof.
  intros d u ts S. induction S as [w W|w k x i s0 ts W T L S IH]; intros s more E.
  - left. exists [], (map tk []). split; auto. subst w. apply Forall_app in W. rewrite <- (app_nil_r s). constructor. tauto.
  - destruct (prefix_of _ w (x ++ s0) s more E) as [(w2 & ->)|(c & r & y & Ex & ->)].
    + left. exists [], (k :: map tk ts). split; auto. apply Forall_app in W. rewrite <- (app_nil_r s). constructor. tauto.
    + rewrite <- app_assoc in E. apply app_inv_head in E. set (v := c :: y) in *.
      destruct (prefix_of _ x s0 v more E) as [(x2 & ->)|(c2 & r2 & y2 & Es & Ev)].
      * (* the text ends in the token, or with it *)
        rewrite <- app_assoc in E. apply app_inv_head in E. destruct x2 as [|b x2].
        { rewrite app_nil_r in *. left. exists [Tok k v 0], (map tk ts). split; auto. replace (w ++ v) with (w ++ v ++ []) by now rewrite app_nil_r. constructor; auto.
          - intros y' z Ey _. apply (f_equal (@List.length _)) in Ey. rewrite !app_length in Ey. cbn [List.length] in Ey. lia.
          - rewrite <- (app_nil_l (@nil ascii)) at 1. constructor. constructor. }
        assert (Sep : sep_term k = true -> False).
        { intros K. assert (Len : exists z, v ++ b :: x2 = [z]) by (destruct k; try discriminate; cbn [in_term] in T; try (now eauto); destruct T; eauto).
          destruct Len as (z & Len). apply (f_equal (@List.length _)) in Len. rewrite app_length in Len. unfold v in Len. cbn [List.length] in Len. lia. }
        destruct k; try (exfalso; apply Sep; reflexivity).
        { right. exists [], (map tk ts), v, (b :: x2). split; [now constructor|]. split; auto. split; [discriminate|]. split; [discriminate|exact T]. }
        { left. exists [Tok TNum v 0], (map tk ts). split; auto. replace (w ++ v) with (w ++ v ++ []) by now rewrite app_nil_r. constructor; auto.
          - destruct T as (_ & T). apply Forall_app in T. split; [discriminate|tauto].
          - intros y' z Ey _. apply (f_equal (@List.length _)) in Ey. rewrite !app_length in Ey. cbn [List.length] in Ey. lia.
          - rewrite <- (app_nil_l (@nil ascii)) at 1. constructor. constructor. }
      * (* the text goes on after the token *)
        rewrite Ev in *. clear Ev v. rewrite <- app_assoc in E. apply app_inv_head in E. destruct (IH _ _ E) as [(ts1 & tl & Sc & K)|(ts1 & tl & y1 & y3 & Sc & K & N1 & N2 & T1)].
        { left. exists (Tok k x 0 :: ts1), tl. split; [|cbn [map tk app]; now rewrite K]. constructor; auto. rewrite E in L. now apply longest_shorter in L. }
        { right. exists (Tok k x 0 :: ts1), tl, y1, y3. split; [|cbn [map tk app]; now rewrite K]. constructor; auto. rewrite E in L. now apply longest_shorter in L. }
Qed.

Definition letter : ascii := "a"%char.
Lemma letter_name : forall d y y2, good_seps d -> y <> [] -> y2 <> [] -> in_term d TName (y ++ y2) ->
  in_term d TName (y ++ [letter]) /\ Forall (fun c => is_word c = true \/ is_space c = true) y.
Proof.
  intros d y y2 G N N2 (c & m & z & E & C & M & Z1 & Z2 & Z3). destruct (exists_last N2) as (y3 & z' & ->). rewrite app_assoc in E.
  change (c :: m ++ [z]) with ((c :: m) ++ [z]) in E. apply app_inj_tail in E. destruct E as (E & ->). destruct y as [|b y]; [congruence|]. cbn [app] in E. injection E as -> E.
  rewrite <- E in M. apply Forall_app in M. destruct M as (M & _). split.
  - exists c, y, letter. split; [reflexivity|]. split; auto. split; auto. split; [reflexivity|]. split; [reflexivity|]. intros S. apply (gs_punct d G) in S. destruct S. discriminate.
  - constructor; auto.
Qed.
Lemma run_name : forall q q', step q TName = Some q' -> closed q'.
Proof. intros q q' E. destruct q; cbn in E; try discriminate. injection E as <-. exact I. Qed.
Lemma run_split : forall ts us k tl q, map tk us = map tk ts ++ k :: tl -> run q us <> None -> exists q1 q2, run q ts = Some q1 /\ step q1 k = Some q2.
Proof.
  induction ts as [|t ts IH]; intros us k tl q E R; destruct us as [|u us]; try discriminate; cbn [map app] in E; injection E as E1 E2; cbn [run] in *.
  - rewrite E1 in R. destruct (step q k) as [q2|] eqn:S; [|congruence]. exists q, q2. auto.
  - rewrite <- E1. destruct (step q (tk u)); [|congruence]. now apply (IH us k tl).
Qed.
Lemma continued : forall d s more t, good_seps d -> reads d (s ++ more) t ->
  (reaches d s (zlen s) /\ ((exists t, reads d s t) \/ exists t, reads d (s ++ [one]) t)) \/
  (exists a y, s = a ++ y /\ y <> [] /\ reaches d s (zlen a) /\ Forall (fun c => is_word c = true \/ is_space c = true) y /\ exists t, reads d (s ++ [letter]) t).
Proof.
  intros d s more t G R. destruct (reads_longest d _ t G R) as (ts & _ & Gl & S).
  assert (Rn : run (PStart false) ts <> None) by (apply viable_run; exists [], t; now rewrite app_nil_r).
  destruct (scans_begin d _ ts S s more eq_refl) as [(ts1 & tl & Sc & K)|(ts1 & tl & y & y2 & Sc & K & N & N2 & T)].
  - left. assert (Re : reaches d s (zlen s)).
    { exists ts1, []. split; auto. split; [|unfold zlen; cbn [List.length]; lia]. apply run_viable. now apply (run_prefix ts1 ts tl). }
    split; auto. destruct (reaches_readable d s _ Re) as (a & r & E & L & Q). rewrite E, zlen_app' in L. destruct r as [|c r]; [|rewrite zlen_cons' in L; unfold zlen in L; lia].
    rewrite app_nil_r in E. now rewrite E.
  - right. destruct (run_split ts1 ts TName tl _ K Rn) as (q1 & q2 & R1 & R2). destruct (scans_prefix d s ts1 y Sc 0) as (a & ts' & E & K' & Sp). exists a, y. split; auto. split; auto.
    destruct (letter_name d y y2 G N N2 T) as (T' & F). split.
    + exists ts1, y. split; auto. split; [apply run_viable; congruence|]. rewrite E, zlen_app'. reflexivity.
    + split; auto. rewrite <- (run_kinds ts' ts1 _ K') in R1. pose proof (been_run ts' _ [] q1 been_start R1) as B. cbn [app] in B.
      set (n := Tok TName (y ++ [letter]) (0 + zlen a)). pose proof (been_step q1 n q2 ts' B R2) as B2.
      destruct (been_end q2 (ts' ++ [n]) (Tok TNum [] 0) B2 eq_refl) as [(_ & t' & G')|(C & _)]; [|destruct (C (run_name q1 q2 R2))].
      exists t', (ts' ++ [n]). split; auto. rewrite E, <- app_assoc. apply spells_app; auto. unfold n. rewrite <- (app_nil_r (y ++ [letter])) at 1. apply spells_head; auto. constructor. constructor.
Qed.

(** ** C87 *)
Theorem C87_continue : forall d s, good_seps d ->
  (exists more t, reads d (s ++ more) t) <->
  (exists t, reads d s t) \/ (exists t, reads d (s ++ ["1"%char]) t) \/ (exists t, reads d (s ++ ["a"%char]) t).
Proof.
  intros d s G. split.
  - intros (more & t & R). destruct (continued d s more t G R) as [(_ & [Q|Q])|(a & y & _ & _ & _ & _ & Q)]; auto.
  - intros [(t & R)|[(t & R)|(t & R)]]; [exists []; rewrite app_nil_r|exists ["1"%char]|exists ["a"%char]]; eauto.
Qed.
(** The place of the error of such a text is its end, or within what can only be the beginning of a name there. *)
Theorem C87_place : forall d s more t p, good_seps d -> reads d (s ++ more) t -> error_at d s p ->
  p = -1 \/ exists a y, s = a ++ y /\ zlen a <= p /\ Forall (fun c => is_word c = true \/ is_space c = true) y.
Proof.
  intros d s more t p G R (n & Rn & M & ->). destruct (continued d s more t G R) as [(Re & _)|(a & y & E & N & Re & F & _)].
  - left. apply M in Re. destruct Rn as (ts & r & S & _ & En). assert (n = zlen s) as -> by (unfold zlen in *; lia). now rewrite Z.eqb_refl.
  - destruct (n =? zlen s) eqn:Q; auto. right. exists a, y. apply M in Re. auto.
Qed.
(** So an error is final if a character that is neither a word character nor white space is there or follows. *)
Theorem C87_final : forall d s p k c, good_seps d -> error_at d s p -> 0 <= p <= k -> znth s k = Some c -> is_word c = false -> is_space c = false ->
  forall more t, ~ reads d (s ++ more) t.
Proof.
  intros d s p k c G A B E W S more t R. destruct (C87_place d s more t p G R A) as [->|(a & y & -> & L & F)]; [lia|].
  unfold znth in E. destruct (k <? 0) eqn:K; [discriminate|]. apply Z.ltb_ge in K. rewrite nth_error_app2 in E by (unfold zlen in *; lia). apply nth_error_In in E.
  rewrite Forall_forall in F. destruct (F c E); congruence.
Qed.
Definition readable (s : string) : bool := match read default_data (s2l s) with Some _ => true | None => false end.
Example C87_ex : map readable ["Gen 1:2 - G"; "Gen 1:2 - G1"; "Gen 1:2 - Ga"; "Gen 1:"; "Gen 1:1"; "Gen 1:2:"; "Gen 1:2:1"; "Gen 1:2:a"; "Gen 1 2"; "Gen 1 21"; "Gen 1 2a"]%string =
  [false; false; true; false; true; false; false; false; false; false; true] /\
  error_pos default_data (s2l "Gen 1:2 - G") = 10 /\ error_pos default_data (s2l "Gen 1:2:") = 7 /\ error_pos default_data (s2l "Gen 1 2") = 6.
Proof. vm_compute. auto. Qed.
Example C87_final_ex : forall more t, ~ reads default_data (s2l "Gen 1:2:3" ++ more) t.
Proof.
  intros more t. apply (C87_final default_data (s2l "Gen 1:2:3") 7 7 ":"%char default_seps C85_contract_ex); [lia|reflexivity|reflexivity|reflexivity].
Qed.
