(** * PropText: theorems on the texts of grouped lists and views (C71). *)
From Coq Require Import List ZArith Bool Ascii String.
From Verif Require Import Base Books Chars Data DefaultData MVerse MRange MSeq MList MStr PDefault MGroup SpecGroup PropGroup MNode SpecNode PropNode MText.
Import ListNotations.
Open Scope Z_scope.
Open Scope list_scope.

(** A list in Python's notation: the texts of the items, a comma and a space before each but the first. *)
Inductive commas : list str -> str -> Prop :=
| commas_one : forall x, commas [x] x
| commas_more : forall l t x, commas l t -> commas (l ++ [x]) (t ++ s2l ", " ++ x).
Inductive bracketed : list str -> str -> Prop :=
| no_items : bracketed [] (s2l "[]")
| some_items : forall l t, commas l t -> bracketed l (s2l "[" ++ t ++ s2l "]").
Lemma joined_snoc : forall sep l y x, joined sep ((y :: l) ++ [x]) = joined sep (y :: l) ++ sep ++ x.
Proof.
  intros sep. induction l as [|w l IH]; intros y x; [reflexivity|]. change (joined sep ((y :: w :: l) ++ [x])) with (y ++ sep ++ joined sep ((w :: l) ++ [x])).
  rewrite IH. change (joined sep (y :: w :: l)) with (y ++ sep ++ joined sep (w :: l)). now rewrite <- !app_assoc.
Qed.
Lemma joined_commas : forall l t, commas l t <-> l <> [] /\ t = joined (s2l ", ") l.
Proof.
  intros l t. split.
  - intros H. induction H as [x|l t x H (Hn & ->)]; [split; [discriminate|reflexivity]|]. split; [now destruct l|].
    destruct l as [|y l]; [congruence|]. now rewrite joined_snoc.
  - intros (Hn & ->). induction l as [|x l IH] using rev_ind; [congruence|]. destruct l as [|y l]; [constructor|].
    rewrite joined_snoc. constructor. apply IH. discriminate.
Qed.
Lemma bracketed_iff : forall l t, bracketed l t <-> t = list_of_texts l.
Proof.
  intros l t. unfold list_of_texts. split.
  - intros [|l' t' H]; [reflexivity|]. apply joined_commas in H. now destruct H as (_ & ->).
  - intros ->. destruct l as [|x l]; [constructor|]. constructor. apply joined_commas. split; [discriminate|reflexivity].
Qed.
(** The text of a list of items with the texts [R]. *)
Definition shown {A} (R : A -> str -> Prop) (l : list A) (t : str) : Prop := exists ts, Forall2 R l ts /\ bracketed ts t.
Lemma mapM_texts : forall {A} (f : A -> res str) (R : A -> str -> Prop), (forall x t, f x = Ok t <-> R x t) ->
  forall l ts, mapM f l = Ok ts <-> Forall2 R l ts.
Proof.
  intros A f R HR. induction l as [|x l IH]; intros ts; cbn [mapM].
  - split; [intros [= <-]; constructor|intros H; now inversion H].
  - split.
    + destruct (f x) as [t|] eqn:Ex; [|discriminate]. destruct (mapM f l) as [ts'|]; [|discriminate]. intros [= <-]. constructor; [now apply HR|now apply IH].
    + intros H. inversion H as [|? t ? ts' Hx Hl]; subst. apply IH in Hl. apply HR in Hx. now rewrite Hx, Hl.
Qed.
Lemma shown_iff : forall {A} (f : A -> res str) (R : A -> str -> Prop), (forall x t, f x = Ok t <-> R x t) ->
  forall l t, (ts <- mapM f l ;; Ok (list_of_texts ts)) = Ok t <-> shown R l t.
Proof.
  intros A f R HR l t. pose proof (mapM_texts f R HR l) as M. split.
  - destruct (mapM f l) as [ts|] eqn:E; [|discriminate]. intros [= <-]. exists ts. split; [now apply M|now apply bracketed_iff].
  - intros (ts & H & B). apply M in H. apply bracketed_iff in B. subst t. now rewrite H.
Qed.
Lemma wrapped : forall (q : res str) a b t, (x <- q ;; Ok (a ++ x ++ b)) = Ok t <-> exists x, q = Ok x /\ t = a ++ x ++ b.
Proof. intros [x|ex] a b t; cbn; split; [intros [= <-]; eauto|intros (y & [= <-] & ->); auto|discriminate|intros (y & ? & _); discriminate]. Qed.

(** ** C71 *)
(** [repr] of an item. *)
Notation item f := (fun x t => f x = Ok t).
(** The text of a grouped list is that of the list of its groups. *)
Theorem C71_list : forall A (f : A -> res str) s g t, shows s g ->
  (grouped_text f s = Ok t <-> shown (shown (item f)) g t) /\
  (grouped_repr f s = Ok t <-> exists x, grouped_text f s = Ok x /\ t = s2l "GroupedList(" ++ x ++ s2l ")").
Proof.
  intros A f s g t (_ & _ & N & _). split; [|apply wrapped]. unfold grouped_text. rewrite N. cbn [bind]. apply shown_iff. intros p x. apply shown_iff. reflexivity.
Qed.
(** The text of a view is that of the list of its items; a view that cannot be read has none. *)
Theorem C71_view : forall A (f : A -> res str) s v t,
  (forall l, view_iter v s = Ok l -> (view_text f v s = Ok t <-> shown (item f) l t)) /\
  (forall x, view_iter v s = Err x -> view_text f v s = Err x /\ view_repr f v s = Err x) /\
  (view_repr f v s = Ok t <-> exists x, view_text f v s = Ok x /\ t = s2l "GroupView(" ++ x ++ s2l ")").
Proof.
  intros A f s v t. split; [|split; [|apply wrapped]].
  - intros l E. unfold view_text. rewrite E. cbn [bind]. apply shown_iff. reflexivity.
  - intros x E. unfold view_repr, view_text. rewrite E. auto.
Qed.
(** The text of [groups]: the [repr]s of the views of all groups. *)
Definition viewed {A} (f : A -> res str) (p : list A) (t : str) : Prop := exists x, shown (item f) p x /\ t = s2l "GroupView(" ++ x ++ s2l ")".
Theorem C71_views : forall A (f : A -> res str) s g t, shows s g ->
  (views_text f s = Ok t <-> shown (viewed f) g t) /\
  (views_repr f s = Ok t <-> exists x, views_text f s = Ok x /\ t = s2l "GroupViews(" ++ x ++ s2l ")").
Proof.
  intros A f s g t (_ & _ & N & _). split; [|apply wrapped]. unfold views_text, to_nested_lists in *.
  destruct (group_heads s) as [hs|]; [|discriminate]. cbn [bind] in *.
  set (one := fun p => t <- (ts <- mapM f p ;; Ok (list_of_texts ts)) ;; Ok (s2l "GroupView(" ++ t ++ s2l ")")).
  assert (E : mapM (fun h => view_repr f (Some h) s) hs = mapM one g).
  { revert g N. induction hs as [|h hs IH]; intros g N; cbn [mapM] in *; [injection N as <-; reflexivity|].
    destruct (view_iter (Some h) s) as [l|] eqn:E; [|discriminate]. cbn [bind] in N. destruct (mapM (fun h => view_iter (Some h) s) hs) as [ls|]; [|discriminate].
    injection N as <-. cbn [mapM]. rewrite (IH ls eq_refl). unfold view_repr, view_text, one. rewrite E. reflexivity. }
  rewrite E. apply shown_iff. intros p x. unfold one. rewrite wrapped. unfold viewed.
  split; intros (y & H & ->); exists y; (split; [|reflexivity]); [now apply (shown_iff f)|now apply (shown_iff f) in H].
Qed.
(** Lists of ranges have their own texts: those of their groups, whatever was done to the list before. *)
Theorem C71_ranges : forall eqb e os s g, kept_list eqb e os s g -> n_text e s = list_text e g /\ n_repr e s = list_repr e g.
Proof. intros eqb e os s g (_ & _ & N). unfold n_text, n_repr. rewrite N. auto. Qed.
(** Items that have texts have one as a list. *)
Theorem C71_exists : forall A (R : A -> str -> Prop) l, (forall x, In x l -> exists t, R x t) -> exists t, shown R l t.
Proof.
  intros A R l H. assert (F : exists ts, Forall2 R l ts).
  { induction l as [|x l IH]; [exists []; constructor|]. destruct (H x (or_introl eq_refl)) as (t & Ht). destruct IH as (ts & F); [intros y Hy; apply H; now right|]. exists (t :: ts). now constructor. }
  destruct F as (ts & F). exists (list_of_texts ts), ts. split; auto. now apply bracketed_iff.
Qed.

Example C71_ex : let s := snd (n_run reqb (denv NONE) [LBase (OAppendGroup [R (V Gen 1 2) (V Gen 1 3); R (V Gen 1 5) (V Gen 1 5)]);
    LBase (OAppendGroup [R (V Exod 1 1) (V Exod 1 22)])] g_new) in
  views_repr (range_repr (denv NONE)) s =
    Ok (s2l "GroupViews([GroupView([BibleRange(Genesis 1:2-3), BibleRange(Genesis 1:5)]), GroupView([BibleRange(Exodus 1)])])") /\
  view_text (range_repr (denv NONE)) (Some 0%nat) s = Ok (s2l "[BibleRange(Genesis 1:2-3), BibleRange(Genesis 1:5)]") /\
  view_repr (range_repr (denv NONE)) (Some 2%nat) s = Ok (s2l "GroupView([BibleRange(Exodus 1)])") /\
  view_text (range_repr (denv NONE)) (Some 1%nat) s = Err GroupViewErr /\
  grouped_repr (range_repr (denv NONE)) s = Ok (s2l "GroupedList([[BibleRange(Genesis 1:2-3), BibleRange(Genesis 1:5)], [BibleRange(Exodus 1)]])") /\
  n_repr (denv NONE) s = Ok (s2l "BibleRangeList(""Genesis 1:2-3, 5; Exodus 1"")") /\
  views_repr (range_repr (denv NONE)) g_new = Ok (s2l "GroupViews([])") /\ grouped_text (range_repr (denv NONE)) g_new = Ok (s2l "[]").
Proof. vm_compute. repeat split. Qed.
