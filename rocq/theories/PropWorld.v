(** * PropWorld: theorems on histories of assignments and parses (C54-C57). *)
From Coq Require Import List ZArith NArith Bool Ascii String Lia.
From Verif Require Import Base Books Chars Regex Data DefaultData MVerse MRange MSeq MList MStr MParse MWorld Spec SpecList SpecName SpecParse SpecMean
  PList PCore PVerse PDefault PLex PParse PParse2 PropParse PPrint PText PRound PropStr PWorld.
Import ListNotations.
Import Spec.
Open Scope Z_scope.
Open Scope list_scope.

(** ** C54: the latest assignment counts *)
(** The value of the latest action of a kind, [x0] if there is none. *)
Inductive latest {A : Type} (pick : action -> option A) (x0 : A) : list action -> A -> Prop :=
| L_none h : Forall (fun a => pick a = None) h -> latest pick x0 h x0
| L_some h1 a x h2 : pick a = Some x -> Forall (fun a => pick a = None) h2 -> latest pick x0 (h1 ++ a :: h2) x.
Definition p_range a := match a with SetRangeSep c => Some c | _ => None end.
Definition p_major a := match a with SetMajorSep c => Some c | _ => None end.
Definition p_minor a := match a with SetMinorSep c => Some c | _ => None end.
Definition p_std a := match a with SetVerseSepStd c => Some c | _ => None end.
Definition p_alt a := match a with SetVerseSepAlt c => Some c | _ => None end.
Definition p_order a := match a with SetBookOrder l => Some l | _ => None end.
Definition p_names a := match a with SetNameData t => Some t | _ => None end.
Definition p_max a := match a with SetMaxVerses t => Some t | _ => None end.
Definition p_zeros a := match a with SetVerse0s t => Some t | _ => None end.
Definition p_flags a := match a with SetFlags f => Some f | _ => None end.

Lemma latest_get : forall {A} (pick : action -> option A) (get : world -> A) h x x0 w,
  (forall w a, get (act w a) = match pick a with Some y => y | None => get w end) -> get w = x0 ->
  latest pick x0 h x -> get (acts w h) = x.
Proof.
  intros A pick get h x x0 w G <- L. destruct L as [h H|h1 a x h2 Ha H].
  - now apply (get_none pick get G).
  - now apply (get_some pick get G).
Qed.
Ltac by_act := let w := fresh in let a := fresh in let K := fresh in let K1 := fresh in let K2 := fresh in let K3 := fresh in let K4 := fresh in let K5 := fresh in let K12 := fresh in
  intros w a; assert (K := act_reads w a); destruct a; try (cbn [act]; rewrite ?assign_fst; reflexivity);
  destruct (K ltac:(eauto 6)) as (K1 & K2 & K3 & K4 & K5 & _ & _ & _ & _ & _ & _ & K12); first [exact K1|exact K2|exact K3|exact K4|exact K5|exact K12].
Lemma get_seps : forall w a, w_seps (act w a) = match a with
  | SetRangeSep c => Seps c (sp_major (w_seps w)) (sp_minor (w_seps w)) (sp_std (w_seps w)) (sp_alt (w_seps w))
  | SetMajorSep c => Seps (sp_range (w_seps w)) c (sp_minor (w_seps w)) (sp_std (w_seps w)) (sp_alt (w_seps w))
  | SetMinorSep c => Seps (sp_range (w_seps w)) (sp_major (w_seps w)) c (sp_std (w_seps w)) (sp_alt (w_seps w))
  | SetVerseSepStd c => Seps (sp_range (w_seps w)) (sp_major (w_seps w)) (sp_minor (w_seps w)) c (sp_alt (w_seps w))
  | SetVerseSepAlt c => Seps (sp_range (w_seps w)) (sp_major (w_seps w)) (sp_minor (w_seps w)) (sp_std (w_seps w)) c
  | _ => w_seps w end.
Proof. by_act. Qed.
(** The separators that are printed and read. *)
Theorem C54_separators : forall h c1 c2 c3 c4 c5,
  latest p_range "-"%char h c1 -> latest p_major ";"%char h c2 -> latest p_minor ","%char h c3 ->
  latest p_std ":"%char h c4 -> latest p_alt "."%char h c5 ->
  let d := data_of (acts start_world h) in
  range_sep d = c1 /\ major_list_sep d = c2 /\ minor_list_sep d = c3 /\ verse_sep_std d = c4 /\ verse_sep_alt d = c5.
Proof.
  intros h c1 c2 c3 c4 c5 L1 L2 L3 L4 L5. cbn. repeat split.
  - apply (latest_get p_range (fun w => sp_range (w_seps w)) _ _ _ start_world) in L1; auto. intros w a. rewrite get_seps. now destruct a.
  - apply (latest_get p_major (fun w => sp_major (w_seps w)) _ _ _ start_world) in L2; auto. intros w a. rewrite get_seps. now destruct a.
  - apply (latest_get p_minor (fun w => sp_minor (w_seps w)) _ _ _ start_world) in L3; auto. intros w a. rewrite get_seps. now destruct a.
  - apply (latest_get p_std (fun w => sp_std (w_seps w)) _ _ _ start_world) in L4; auto. intros w a. rewrite get_seps. now destruct a.
  - apply (latest_get p_alt (fun w => sp_alt (w_seps w)) _ _ _ start_world) in L5; auto. intros w a. rewrite get_seps. now destruct a.
Qed.
(** The names that are printed and recognised; [d] is any data with the table. *)
Theorem C54_names : forall h t, latest p_names default_name_data h t -> let w := acts start_world h in
  names (data_of w) = t /\
  (forall b, w_book_name w true b = match t b with Some n => n_abbrev n | None => s2l "None" end) /\
  (forall b, w_book_name w false b = match t b with Some n => n_title n | None => s2l "None" end) /\
  (forall d s, names d = t -> w_from_str w s = from_str d s).
Proof.
  intros h t L w. assert (E : w_name_data w = t) by (apply (latest_get p_names w_name_data _ _ _ start_world) in L; auto; by_act).
  assert (C : coherent w) by apply acts_coherent, start_coherent. split; [exact E|]. split; [|split].
  - intros b. rewrite (w_book_name_eq _ _ _ C). unfold book_name. cbn. rewrite E. now destruct (t b).
  - intros b. rewrite (w_book_name_eq _ _ _ C). unfold book_name. cbn. rewrite E. now destruct (t b).
  - intros d s Hd. rewrite (w_from_str_eq _ _ C). unfold from_str, name_matches. cbn. now rewrite E, Hd.
Qed.
(** The numbers of verses, the verse 0s and the flags. *)
Theorem C54_verses : forall h t z f,
  latest p_max default_max_verses h t -> latest p_zeros default_zeros h z -> latest p_flags NONE h f ->
  let w := acts start_world h in
  (forall b, max_verses (data_of w) b = t b) /\
  (forall b, verse_0s (data_of w) b = match z b with Some l => l | None => [] end) /\ eg (env_of w) = f.
Proof.
  intros h t z f L1 L2 L3 w. assert (C : coherent w) by apply acts_coherent, start_coherent. split; [|split].
  - intros b. cbn. rewrite (co_max w C). apply (latest_get p_max w_max_verses _ _ _ start_world) in L1; auto; [now rewrite <- L1|by_act].
  - intros b. cbn. rewrite (co_zeros w C). apply (latest_get p_zeros w_verse_0s _ _ _ start_world) in L2; auto; [now rewrite <- L2|by_act].
  - cbn. apply (latest_get p_flags w_flags _ _ _ start_world) in L3; auto. by_act.
Qed.
(** After import everything is as in the default tables. *)
Theorem C54_start : let d := data_of start_world in
  book_order d = book_order default_data /\ (forall b, order d b = order default_data b) /\ (forall b, max_verses d b = max_verses default_data b) /\
  (forall b, verse_0s d b = verse_0s default_data b) /\ (forall b, names d b = names default_data b) /\ eg (env_of start_world) = NONE /\
  the_transformer start_world = ts_init.
Proof. vm_compute. repeat split; intros b; destruct b; reflexivity. Qed.
Example C54_start_ex : zlen (verse_0s (data_of start_world) Psa) = 116 /\ verse_0s (data_of start_world) Gen = [].
Proof. vm_compute. auto. Qed.
Lemma order_kept : forall h w, Forall (fun a => p_order a = None) h -> a_order (acts w h) = a_order w.
Proof.
  induction h as [|a h IH]; intros w H; auto. change (acts w (a :: h)) with (acts (act w a) h). inversion H as [|? ? Ha Hh]; subst. rewrite IH by auto.
  clear - Ha. revert w a Ha. assert (G : forall w a, p_order a = None -> a_order (act w a) = a_order w); [|exact G].
  intros w a Ha. assert (K := act_reads w a). destruct a; try (cbn [act]; reflexivity); try discriminate;
  destruct (K ltac:(eauto 6)) as (K1 & K2 & K3 & K4 & K5 & K6 & _); exact K6.
Qed.
(** The order of the books, if the latest list has no book twice; missing: lists with a repetition (C54_order_refuted). *)
Theorem C54_order_partial : forall h l, latest p_order default_book_order h l -> NoDup l -> let w := acts start_world h in
  book_order (data_of w) = l /\ (forall b i, order (data_of w) b = Some i <-> nth_error l i = Some b).
Proof.
  intros h l L N w. split.
  - apply (latest_get p_order w_book_order _ _ _ start_world) in L; auto. by_act.
  - intros b i. cbn. subst w. destruct L as [h H|h1 a l h2 Ha H].
    + rewrite order_kept by auto. unfold start_world, acts. cbn [fold_left act]. rewrite assign_fst.
      change (a_order _) with (order (fst (set_book_order (data_of blank_world) default_book_order))).
      destruct (set_order_ok (data_of blank_world) default_book_order N) as (d' & E & B & O & _). rewrite E. cbn [fst]. rewrite <- B. apply O.
    + rewrite acts_app. change (acts (acts start_world h1) (a :: h2)) with (acts (act (acts start_world h1) a) h2). rewrite order_kept by auto.
      destruct a; try discriminate. injection Ha as ->. cbn [act]. now apply order_assigned.
Qed.
Example C54_ex : let h := [SetRangeSep "~"; SetMajorSep "/"; VerseFromStr None (s2l "Mark 2:3"); SetBookOrder [Mark; Gen]; SetFlags ALL; SetMajorSep "+"]%char in
  latest p_range "-"%char h "~"%char /\ latest p_major ";"%char h "+"%char /\ latest p_minor ","%char h ","%char /\
  latest p_order default_book_order h [Mark; Gen] /\ NoDup [Mark; Gen] /\
  order (data_of (acts start_world h)) Gen = Some 1%nat /\ order (data_of (acts start_world h)) Exod = None /\ NoDup default_book_order.
Proof.
  cbv zeta. split; [apply (L_some _ _ [] (SetRangeSep "~"%char)); [reflexivity|repeat constructor]|].
  split; [refine (L_some _ _ [_; _; _; _; _] (SetMajorSep "+"%char) _ [] _ _); [reflexivity|repeat constructor]|].
  split; [apply L_none; repeat constructor|]. split; [refine (L_some _ _ [_; _; _] (SetBookOrder [Mark; Gen]) _ _ _ _); [reflexivity|repeat constructor]|].
  split; [repeat constructor; cbn; intuition discriminate|]. split; [vm_compute; reflexivity|]. split; [vm_compute; reflexivity|].
  exact default_order_nodup.
Qed.
(** An assignment that fails takes effect in part: the books before the repetition have their new places, the repeated
    one the place of the repetition, all others their old ones; the list is the new one. *)
Theorem C54_order_fails : forall w l1 b l2, NoDup l1 -> In b l1 ->
  let (w', r) := assign_book_order w (l1 ++ b :: l2) in
  r = Err KeyErr /\ book_order (data_of w') = l1 ++ b :: l2 /\
  order (data_of w') b = Some (List.length l1) /\
  (forall x k, x <> b -> nth_error l1 k = Some x -> order (data_of w') x = Some k) /\
  (forall x, ~ In x l1 -> order (data_of w') x = order (data_of w) x).
Proof.
  intros w l1 b l2 N Hb. destruct (assign_prefix l1 0%nat (order (data_of w)) all_books b l2 all_books_nodup N (fun x _ => all_books_in x) Hb) as (o' & E & A & B & C).
  unfold assign_book_order, set_book_order. rewrite E. cbn. auto.
Qed.
(** The full claim (the books are in the order of the list assigned last, or an assignment that raises changes
    nothing) is false: after a list with a repetition the places are those of no one list. *)
Theorem C54_order_refuted : exists h l, latest p_order default_book_order h l /\
  book_order (data_of (acts start_world h)) = l /\
  order (data_of (acts start_world h)) Exod = Some 1%nat /\ order (data_of (acts start_world h)) Gen = Some 1%nat /\
  order (data_of (acts start_world h)) Lev = Some 2%nat /\ ~ In Lev l /\ ~ In Exod l.
Proof.
  exists [SetBookOrder [Gen; Gen]], [Gen; Gen]. split; [apply (L_some _ _ [] (SetBookOrder [Gen; Gen]) _ []); [reflexivity|constructor]|].
  split; [reflexivity|]. split; [vm_compute; reflexivity|]. split; [vm_compute; reflexivity|]. split; [vm_compute; reflexivity|].
  split; cbn; intuition discriminate.
Qed.
Example C54_fails_ex : NoDup [Gen; Exod] /\ In Gen [Gen; Exod] /\ snd (assign_book_order start_world ([Gen; Exod] ++ Gen :: [Lev])) = Err KeyErr.
Proof. split; [repeat constructor; cbn; intuition discriminate|]. split; [now left|vm_compute; reflexivity]. Qed.

(** ** C55: the parser follows the separators *)
(** After every history, a text is refused as a syntax error exactly if it has no reading with the present separators;
    missing: separators that are not distinct punctuation characters. *)
Theorem C55_syntax_partial : forall h fl s, let w := acts start_world h in good_seps (data_of w) ->
  (snd (w_list_from_str w fl s) = Err SyntaxErr <-> forall t, ~ reads (data_of w) s t) /\
  (snd (w_range_from_str w fl s) = Err SyntaxErr <-> forall t, ~ reads (data_of w) s t) /\
  (snd (w_verse_from_str w fl s) = Err SyntaxErr <-> forall t, ~ reads (data_of w) s t).
Proof.
  intros h fl s w G. assert (C : coherent w) by apply acts_coherent, start_coherent.
  assert (Rd : read (data_of w) s = None <-> forall t, ~ reads (data_of w) s t).
  { split.
    - intros E t R. apply read_complete in R; auto. congruence.
    - intros H. destruct (read (data_of w) s) as [t|] eqn:E; auto. apply read_sound in E. exfalso. eapply H; eauto. }
  assert (L : forall fl st, snd (list_from_str (env_of w) fl st s) = Err SyntaxErr <-> read (data_of w) s = None).
  { intros fl' st. rewrite <- (parse_syntax (env_of w) (Some (eff (env_of w) fl')) st s). unfold list_from_str.
    destruct (parse (env_of w) _ st s) as (st', [g|x]); cbn; split; intros H; try discriminate; congruence. }
  split; [|split].
  - rewrite (w_list_eq _ _ _ C), L. exact Rd.
  - rewrite (w_range_eq _ _ _ C), <- Rd, <- (L (Some (eff (env_of w) fl)) (the_transformer w)). unfold range_from_str.
    destruct (list_from_str (env_of w) _ _ s) as (st', [g|x]); cbn; [|split; congruence]. destruct (items g) as [|a [|b q]]; split; discriminate.
  - rewrite (w_verse_eq _ _ _ C), <- Rd, <- (L fl (the_transformer w)). unfold verse_from_str.
    destruct (list_from_str (env_of w) _ _ s) as (st', [g|x]); cbn; [|split; congruence]. destruct (items g) as [|a [|b q]]; try (split; discriminate). destruct (is_single_verse a); split; discriminate.
Qed.
(** Every call gives what the same call gives in the present settings (MParse.v), with the transformer as it was left. *)
Theorem C55_calls : forall h fl s, let w := acts start_world h in
  snd (w_list_from_str w fl s) = snd (list_from_str (env_of w) fl (the_transformer w) s) /\
  snd (w_range_from_str w fl s) = snd (range_from_str (env_of w) fl (the_transformer w) s) /\
  snd (w_verse_from_str w fl s) = snd (verse_from_str (env_of w) fl (the_transformer w) s).
Proof.
  intros h fl s w. assert (C : coherent w) by apply acts_coherent, start_coherent. auto using w_list_eq, w_range_eq, w_verse_eq.
Qed.
Example C55_ex : let h := [VerseFromStr None (s2l "Mark 2:3"); SetVerseSepStd "v"; SetVerseSepStd "/"; SetRangeSep "~"]%char in
  snd (w_list_from_str (acts start_world h) None (s2l "Gen 1/2~3, 7.8")) = Ok [[R (V Gen 1 2) (V Gen 1 3); R (V Gen 7 8) (V Gen 7 8)]] /\
  snd (w_list_from_str (acts start_world h) None (s2l "Gen 1:2")) = Err (ParseErr 0 6) /\
  snd (w_list_from_str (acts start_world h) None (s2l "Gen 1//2")) = Err SyntaxErr /\
  snd (w_list_from_str start_world None (s2l "Gen 1/2")) = Err (ParseErr 0 6).
Proof. vm_compute. auto. Qed.

(** ** C46: no other exception escapes from the parser, in any settings and any state *)
Theorem C46_no_other_exception : forall e fl st s x, snd (parse e fl st s) = Err x ->
  x = SyntaxErr \/ exists i j, x = ParseErr i j.
Proof.
  intros e fl st s x. unfold parse. destruct (read (ed e) s) as [t|]; [|intros H; injection H as <-; now left].
  pose proof (t_children_exn e (eff e fl) st t) as N. destruct (t_children e (eff e fl) st t) as (st', [cs|y]); cbn; [discriminate|].
  intros H. injection H as <-. right. now apply N.
Qed.
Theorem C46_after_history : forall h fl s x, let w := acts start_world h in
  (snd (w_list_from_str w fl s) = Err x -> x = SyntaxErr \/ exists i j, x = ParseErr i j) /\
  (snd (w_range_from_str w fl s) = Err x -> x = SyntaxErr \/ x = InvalidRef \/ exists i j, x = ParseErr i j) /\
  (snd (w_verse_from_str w fl s) = Err x -> x = SyntaxErr \/ x = InvalidRef \/ exists i j, x = ParseErr i j).
Proof.
  intros h fl s x w. assert (C : coherent w) by apply acts_coherent, start_coherent.
  assert (L : forall fl st y, snd (list_from_str (env_of w) fl st s) = Err y -> y = SyntaxErr \/ exists i j, y = ParseErr i j).
  { intros fl' st y. unfold list_from_str. pose proof (C46_no_other_exception (env_of w) (Some (eff (env_of w) fl')) st s y) as N.
    destruct (parse (env_of w) _ st s) as (st', [g|z]); cbn in *; [discriminate|]. intros H. injection H as ->. now apply N. }
  split; [|split].
  - rewrite (w_list_eq _ _ _ C). apply L.
  - rewrite (w_range_eq _ _ _ C). unfold range_from_str. pose proof (L (Some (eff (env_of w) fl)) (the_transformer w)) as N.
    destruct (list_from_str (env_of w) _ _ s) as (st', [g|z]); cbn in *.
    + destruct (items g) as [|a [|b q]]; intros H; try discriminate; injection H as <-; auto.
    + intros H. injection H as <-. destruct (N z eq_refl); auto.
  - rewrite (w_verse_eq _ _ _ C). unfold verse_from_str. pose proof (L fl (the_transformer w)) as N.
    destruct (list_from_str (env_of w) _ _ s) as (st', [g|z]); cbn in *.
    + destruct (items g) as [|a [|b q]]; [|destruct (is_single_verse a)|]; intros H; try discriminate; injection H as <-; auto.
    + intros H. injection H as <-. destruct (N z eq_refl); auto.
Qed.

Example C46_after_history_ex : let w := acts start_world [SetNameData (fun _ => None); SetMaxVerses (fun _ => None); SetBookOrder []; SetRangeSep ","%char] in
  snd (w_list_from_str w None (s2l "Gen 1:1")) = Err (ParseErr 0 3) /\ snd (w_list_from_str w None (s2l "1:;")) = Err SyntaxErr /\
  snd (w_verse_from_str (acts start_world [SetBookOrder []]) None (s2l "Gen 1")) = Err InvalidRef.
Proof. vm_compute. auto. Qed.

(** ** C57: texts that stand on their own *)
(** What an unused parser accepts under the present settings, gives the same after every history that leads to these settings. *)
Theorem C57_accepted : forall h fl s, let w := acts start_world h in
  (forall gs, snd (list_from_str (env_of w) fl ts_init s) = Ok gs -> snd (w_list_from_str w fl s) = Ok gs) /\
  (forall r, snd (range_from_str (env_of w) fl ts_init s) = Ok r -> snd (w_range_from_str w fl s) = Ok r) /\
  (forall v, snd (verse_from_str (env_of w) fl ts_init s) = Ok v -> snd (w_verse_from_str w fl s) = Ok v).
Proof.
  intros h fl s w. assert (C : coherent w) by apply acts_coherent, start_coherent. split; [|split].
  - intros gs H. rewrite (w_list_eq _ _ _ C), <- H. apply list_any. eapply list_init; eauto.
  - intros gs H. rewrite (w_range_eq _ _ _ C), <- H. apply range_any. eapply range_init; eauto.
  - intros gs H. rewrite (w_verse_eq _ _ _ C), <- H. apply verse_any. eapply verse_init; eauto.
Qed.
(** Two histories that lead to the same settings give the same result or error, if the first reference names its book. *)
Theorem C57_histories : forall h h' fl s, let w := acts start_world h in let w' := acts start_world h' in
  env_of w = env_of w' -> (forall t, reads (data_of w) s t -> names_its_book t) ->
  snd (w_list_from_str w fl s) = snd (w_list_from_str w' fl s) /\
  snd (w_range_from_str w fl s) = snd (w_range_from_str w' fl s) /\
  snd (w_verse_from_str w fl s) = snd (w_verse_from_str w' fl s).
Proof.
  intros h h' fl s w w' E N. assert (C : coherent w) by apply acts_coherent, start_coherent. assert (C' : coherent w') by apply acts_coherent, start_coherent.
  assert (N' : forall t, read (ed (env_of w)) s = Some t -> names_its_book t) by (intros t R; apply N; now apply read_sound).
  rewrite !(w_list_eq _ _ _ C), !(w_range_eq _ _ _ C), !(w_verse_eq _ _ _ C), (w_list_eq _ _ _ C'), (w_range_eq _ _ _ C'), (w_verse_eq _ _ _ C'), <- E.
  split; [|split]; [now apply list_any|now apply range_any|now apply verse_any].
Qed.
(** Texts that do not name their book are read in a book of an earlier parse. *)
Theorem C37_settings_refuted : exists h h' s, env_of (acts start_world h) = env_of (acts start_world h') /\
  snd (w_verse_from_str (acts start_world h) None s) = Ok (V Mark 2 5) /\
  snd (w_verse_from_str (acts start_world h') None s) = Err (ParseErr 0 1).
Proof. exists [VerseFromStr None (s2l "Mark 2:3")], [], (s2l "5"). vm_compute. auto. Qed.
(** Even after the book has been dropped from the order of the books. *)
Theorem C37_dropped_refuted : exists h s, let w := acts start_world h in ~ In Mark (book_order (data_of w)) /\
  snd (w_verse_from_str w None s) = Ok (V Mark 2 5) /\ snd (verse_from_str (env_of w) None ts_init s) = Err (ParseErr 0 1).
Proof.
  exists [VerseFromStr None (s2l "Mark 2:3"); SetBookOrder [Gen; Exod]], (s2l "5"). cbv zeta.
  split; [cbn; intuition discriminate|vm_compute; auto].
Qed.
Example C57_dropped_ex : let w := acts start_world [SetBookOrder [Gen; Exod]; SetFlags ALL] in
  snd (w_list_from_str w None (s2l "Mark 2:3")) = Ok [[R (V Mark 2 3) (V Mark 2 3)]] /\
  snd (w_list_from_str w None (s2l "Mark 2:3-5")) = Err (ParseErr 0 10) /\
  snd (w_list_from_str w None (s2l "Mark 2:3-Gen 2:1")) = Err (ParseErr 0 16).
Proof. vm_compute. auto. Qed.
Example C57_ex : let h := [VerseFromStr None (s2l "Mark 2:3"); SetFlags ALL; ListFromStr None (s2l "Gen-"); SetFlags NONE] in
  env_of (acts start_world h) = env_of start_world /\
  snd (verse_from_str (env_of (acts start_world h)) None ts_init (s2l "Jude 5")) = Ok (V Jude 1 5).
Proof. vm_compute. auto. Qed.

(** ** C56: printing and reading after every history.
    Missing: the empty list, flags that disagree with the global ones about verse 0s, names that cannot be read, forced start verses at a
    verse 0, separators that are not distinct punctuation; see the C35_ and C36_ refutations. *)
Theorem C56_list_partial : forall h lk force fl fp gs, let w := acts start_world h in let e := env_of w in
  good_data (ed e) -> same_zeros e fl -> same_zeros e fp -> force_ok e force ->
  gs <> [] -> Forall (fun g => g <> []) gs -> Forall (Forall (printable e fp lk)) gs ->
  exists s, list_str e lk true force gs fl = Ok s /\ snd (w_list_from_str w fp s) = Ok gs.
Proof.
  intros h lk force fl fp gs w e D Hfl Hfp Hf Hne Hfull Hg. destruct (C35_partial e lk force fl fp gs [] D Hfl Hfp Hf Hne Hfull Hg) as (s & E & H).
  exists s. split; [exact E|]. now apply C57_accepted.
Qed.
Theorem C56_range_partial : forall h lk force fl fp x, let w := acts start_world h in let e := env_of w in
  good_data (ed e) -> same_zeros e fl -> same_zeros e fp -> printable e fp lk x ->
  exists s, range_str e lk force x fl = Ok s /\ snd (w_range_from_str w fp s) = Ok x.
Proof.
  intros h lk force fl fp x w e D Hfl Hfp Hx. destruct (C36_range_partial e lk force fl fp x [] D Hfl Hfp Hx) as (s & E & H & _).
  exists s. split; [exact E|]. now apply C57_accepted.
Qed.
Theorem C56_verse_partial : forall h lk fp v, let w := acts start_world h in let e := env_of w in
  good_data (ed e) -> same_zeros e fp -> InB (ed e) (verse0 (eg e)) v -> readable e lk (vbook v) ->
  snd (w_verse_from_str w fp (verse_str e lk v P_FULL_REF)) = Ok v.
Proof. intros h lk fp v w e D Hfp Hv Hn. apply C57_accepted. exact (C36_verse_partial e lk fp v [] D Hfp Hv Hn). Qed.
(** Settings under which this holds, in terms of the latest assignments. *)
Theorem C56_settings : forall h l t n, latest p_order default_book_order h l -> latest p_max default_max_verses h t -> latest p_names default_name_data h n ->
  NoDup l -> (forall b, In b l -> exists m, t b = Some m /\ m <> [] /\ Forall (fun k => 1 <= k) m) -> (forall b, n b <> None -> In b l) ->
  good_seps (data_of (acts start_world h)) -> good_data (data_of (acts start_world h)).
Proof.
  intros h l t n Ll Lt Ln N Ht Hn G. destruct (C54_order_partial h l Ll N) as (B & O). destruct (C54_names h n Ln) as (Nm & _).
  set (w := acts start_world h) in *. assert (C : coherent w) by apply acts_coherent, start_coherent.
  assert (M : forall b, max_verses (data_of w) b = t b).
  { intros b. cbn. rewrite (co_max w C). apply (latest_get p_max w_max_verses _ _ _ start_world) in Lt; auto; [now rewrite <- Lt|by_act]. }
  constructor; auto.
  - split.
    + intros b i. rewrite B. apply O.
    + intros b Hb. rewrite M. apply Ht. now rewrite <- B.
  - intros b x Hx. rewrite B. apply Hn. rewrite <- Nm. congruence.
Qed.
(** The actions that leave the tables alone. *)
Definition keeps_tables (a : action) : Prop := p_order a = None /\ p_max a = None /\ p_zeros a = None /\ p_names a = None.
Definition wordy (x : str) : bool :=
  match x, rev x with
  | c :: m, z :: _ => is_word c && forallb (fun y => is_word y || is_space y) m && is_word z && negb (is_digit z) && negb (is_space z) && (2 <=? zlen x)
  | _, _ => false
  end.
Lemma wordy_term : forall d x, good_seps d -> wordy x = true -> in_term d TName x.
Proof.
  intros d x G H. unfold wordy in H. destruct x as [|c m]; [discriminate|]. destruct (rev (c :: m)) as [|z q] eqn:E; [discriminate|].
  rewrite !andb_true_iff, !negb_true_iff, Z.leb_le in H. destruct H as (((((A & B) & C) & D) & F) & L).
  destruct m as [|y m] using rev_ind; [cbn in L; lia|]. clear IHm. change (c :: m ++ [y]) with ((c :: m) ++ [y]) in E. rewrite rev_app_distr in E. cbn in E. injection E as <- _.
  exists c, m, y. split; auto. split; auto. split.
  - rewrite forallb_app in B. apply andb_true_iff in B. destruct B as (B & _). rewrite forallb_forall in B. apply Forall_forall. intros a Ha. apply orb_true_iff. auto.
  - split; auto. split; auto. intros S. apply (gs_punct d G) in S. destruct S. congruence.
Qed.
Lemma default_titles : forall b, In b default_book_order -> wordy (book_name default_data false b) = true /\ from_str default_data (book_name default_data false b) = Some b.
Proof.
  intros b Hb. assert (H : forallb (fun b => wordy (book_name default_data false b) && match from_str default_data (book_name default_data false b) with Some b' => book_eqb b' b | None => false end) default_book_order = true) by (vm_compute; reflexivity).
  rewrite forallb_forall in H. specialize (H b Hb). apply andb_true_iff in H. destruct H as (A & B). split; auto.
  destruct (from_str default_data (book_name default_data false b)) as [b'|]; [|discriminate]. apply book_eqb_eq in B. now subst b'.
Qed.
Lemma from_str_names : forall d d' s, names d = names d' -> from_str d s = from_str d' s.
Proof. intros d d' s H. unfold from_str, name_matches. now rewrite H. Qed.
(** With the default tables, any punctuation, any flags and any earlier parses. *)
Theorem C56_default_partial : forall h, Forall keeps_tables h -> let w := acts start_world h in let e := env_of w in good_seps (ed e) ->
  (forall gs, gs <> [] -> Forall (fun g => g <> []) gs ->
     Forall (Forall (fun x => wf_range (ed e) (verse0 (eg e)) x /\ (multibook (eg e) = true \/ one_book_range x))) gs ->
     exists s, list_text e gs = Ok s /\ snd (w_list_from_str w None s) = Ok gs) /\
  (forall x, wf_range (ed e) (verse0 (eg e)) x -> multibook (eg e) = true \/ one_book_range x ->
     exists s, range_text e x = Ok s /\ snd (w_range_from_str w None s) = Ok x) /\
  (forall v, InB (ed e) (verse0 (eg e)) v -> snd (w_verse_from_str w None (verse_text e v)) = Ok v).
Proof.
  intros h K w e G.
  assert (L : latest p_order default_book_order h default_book_order /\ latest p_max default_max_verses h default_max_verses /\ latest p_names default_name_data h default_name_data).
  { split; [|split]; apply L_none; eapply Forall_impl; try exact K; intros a (A & B & C & D); auto. }
  destruct L as (L1 & L2 & L3).
  assert (GD : good_data (ed e)).
  { apply (C56_settings h _ _ _ L1 L2 L3); auto.
    - exact default_order_nodup.
    - intros b Hb. destruct default_wf as (_ & H). exact (H b Hb).
    - intros b Hb. destruct (default_name_data b) as [n|] eqn:E; [|contradiction]. exact (default_names_listed b n E). }
  destruct (C54_names h _ L3) as (Nm & _). destruct (C54_order_partial h _ L1 default_order_nodup) as (Bo & _).
  change (data_of (acts start_world h)) with (ed e) in Nm, Bo.
  assert (Rd : forall b, In b (book_order (ed e)) -> readable e plain b).
  { intros b Hb. rewrite Bo in Hb. destruct (default_titles b Hb) as (T & F).
    assert (S : shown_name e plain b = book_name default_data false b) by (unfold shown_name, book_name; cbn [plain lk_nospace lk_abbrev]; rewrite Nm; reflexivity).
    split; rewrite S; [now apply wordy_term|]. rewrite (from_str_names (ed e) default_data); auto. }
  assert (Pr : forall x, wf_range (ed e) (verse0 (eg e)) x -> multibook (eg e) = true \/ one_book_range x -> printable e None plain x).
  { intros x Hx M. split; auto. split; [exact M|]. destruct Hx as (A & B & _). split; apply Rd; eapply InB_book; eauto. }
  split; [|split].
  - intros gs Hne Hf Hg. apply (C56_list_partial h plain false None None gs); auto; [intros X; discriminate|].
    eapply Forall_impl; [|exact Hg]. intros g Hg'. eapply Forall_impl; [|exact Hg']. intros x (A & B). auto.
  - intros x Hx M. apply (C56_range_partial h plain false None None x); auto.
  - intros v Hv. apply (C56_verse_partial h plain None v); auto. apply Rd. eapply InB_book; eauto.
Qed.
(** The exceptions, after a history: an empty list, and a name without its spaces. *)
Theorem C56_refuted : exists h gs s, let w := acts start_world h in let e := env_of w in h <> [] /\
  list_text e [] = Ok [] /\ snd (w_list_from_str w None []) = Err SyntaxErr /\
  Forall keeps_tables h /\ Forall (Forall (fun x => wf_range default_data false x /\ one_book_range x)) gs /\
  list_str e (Look false false true) true false gs None = Ok s /\ snd (w_list_from_str w None s) = Err (ParseErr 0 11).
Proof.
  exists [VerseFromStr None (s2l "Mark 2:3"); SetVerseSepStd "/"; ListFromStr None (s2l "Gen-")]%char, [[R (V Song 2 1) (V Song 2 3)]], (s2l "SongofSongs2/1-3").
  cbv zeta. split; [discriminate|]. split; [vm_compute; reflexivity|]. split; [vm_compute; reflexivity|].
  split; [repeat (apply Forall_cons; [repeat split|]); apply Forall_nil|]. split; [|split; vm_compute; reflexivity].
  one_by_one ltac:(legal_one).
Qed.
Example C56_ex : let h := [VerseFromStr None (s2l "Mark 2:3"); SetVerseSepStd "/"; SetRangeSep "~"; SetFlags MULTIBOOK; RangeFromStr None (s2l "Gen 2/3-4~")]%char in
  let e := env_of (acts start_world h) in
  Forall keeps_tables h /\ good_seps (ed e) /\
  list_text e [[R (V Gen 1 2) (V Exod 3 4)]; [R (V Jude 1 3) (V Jude 1 4)]] = Ok (s2l "Genesis 1/2~Exodus 3/4; Jude 3~4") /\
  snd (w_list_from_str (acts start_world h) None (s2l "Genesis 1/2~Exodus 3/4; Jude 3~4")) = Ok [[R (V Gen 1 2) (V Exod 3 4)]; [R (V Jude 1 3) (V Jude 1 4)]].
Proof.
  cbv zeta. split; [repeat (apply Forall_cons; [repeat split|]); apply Forall_nil|]. split.
  - constructor; try (vm_compute; discriminate).
    + intros c [->|[->|[->|[->| ->]]]]; vm_compute; auto.
    + intros c [->| ->]; vm_compute; repeat split; discriminate.
  - vm_compute. auto.
Qed.
