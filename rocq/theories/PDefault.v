(** * PDefault: the default tables are well-formed; tactics for concrete examples. *)
From Coq Require Import List ZArith Bool Lia.
From Verif Require Import Base Books Data DefaultData MVerse MRange Spec PList PCore PNav PVerse.
Import ListNotations.
Open Scope Z_scope.

Lemma default_order_nodup : NoDup default_book_order.
Proof. repeat (constructor; [simpl; intuition discriminate|]). constructor. Qed.

Definition good_table (b : book) : bool :=
  match default_max_verses b with
  | Some (x :: l) => forallb (fun m => 1 <=? m) (x :: l)
  | _ => false
  end.

Lemma default_wf : wf_data default_data.
Proof.
  split.
  - destruct (set_order_ok empty_data default_book_order default_order_nodup) as [d' [H [Hb [Ho _]]]].
    unfold order_ok, default_data in *. rewrite H. exact Ho.
  - intros b _.
    assert (Hall : forallb good_table all_books = true) by (vm_compute; reflexivity).
    rewrite forallb_forall in Hall. specialize (Hall b (all_books_in b)).
    unfold good_table in Hall. cbn [max_verses default_data].
    change (max_verses default_data b) with (default_max_verses b).
    destruct (default_max_verses b) as [[|x l]|]; try discriminate.
    exists (x :: l). split; [reflexivity|]. split; [discriminate|].
    rewrite Forall_forall. intros m Hm. rewrite forallb_forall in Hall. now apply Z.leb_le, Hall.
Qed.

(** Is a concrete verse in the Bible? *)
Definition in_bible (d : bibledata) (z : bool) (v : verse) : bool :=
  existsb (book_eqb (vbook v)) (book_order d) &&
  legalb (mkEnv d NONE) z (vbook v) (vchap v) (vverse v).

Lemma in_bible_InB : forall d z v, in_bible d z v = true -> InB d z v.
Proof.
  intros d z v H. unfold in_bible in H. apply andb_true_iff in H. destruct H as [H1 H2].
  apply (in_bible_verses (mkEnv d NONE)). split.
  - now apply mem_book_in.
  - now apply (legalb_iff (mkEnv d NONE)) in H2.
Qed.

Ltac in_bible := apply in_bible_InB; vm_compute; reflexivity.

(** A concrete range is legal: the ends exist and are in order. *)
Lemma wf_range_check : forall d z s t, wf_data d -> in_bible d z s = true -> in_bible d z t = true ->
  vleb (mkEnv d NONE) s t = true -> wf_range d z (R s t).
Proof.
  intros d z s t Hwf Hs Ht Hle. apply in_bible_InB in Hs, Ht. split; [assumption|]. split; [assumption|].
  apply (vle_iff (mkEnv d NONE) Hwf). repeat split; auto; eapply (InB_mono (mkEnv d NONE)); eauto.
Qed.
Ltac wf_range := apply wf_range_check; [exact default_wf|vm_compute; reflexivity..].

(** The verses of a concrete range, given the position of its start. *)
Lemma verses_of_check : forall d z r l n, firstn (length l) (skipn n (bible_verses d z)) = l ->
  hd_error l = Some (rstart r) -> hd_error (rev l) = Some (rend r) -> verses_of d z r l.
Proof.
  intros d z r l n H Hh Ht. split; [|auto].
  exists (firstn n (bible_verses d z)), (skipn (length l) (skipn n (bible_verses d z))).
  transitivity (firstn n (bible_verses d z) ++ skipn n (bible_verses d z)).
  - now rewrite firstn_skipn.
  - f_equal. rewrite <- (firstn_skipn (length l) (skipn n (bible_verses d z))) at 1. now rewrite H.
Qed.
Ltac verses_of n := apply (verses_of_check _ _ _ _ n); vm_compute; reflexivity.

(** A small Bible with verse 0s, for witnesses about whole lists of verses. *)
Definition tiny_data : bibledata :=
  mkData [Gen; Psa] (fun b => if book_eqb b Gen then Some 0%nat else if book_eqb b Psa then Some 1%nat else None)
         (fun b => if book_eqb b Gen then Some [2; 3] else Some [2; 2]) (fun b => if book_eqb b Psa then [2] else [])
         (names default_data) (range_sep default_data) (major_list_sep default_data) (minor_list_sep default_data)
         (verse_sep_std default_data) (verse_sep_alt default_data).
Definition tenv (f : flag) : env := mkEnv tiny_data f.
Lemma tiny_wf : wf_data tiny_data.
Proof.
  split.
  - intros b i. cbn [order book_order tiny_data]. destruct (book_eqb b Gen) eqn:E1; [|destruct (book_eqb b Psa) eqn:E2].
    + apply book_eqb_eq in E1. subst b. split; intros H; [injection H as <-; reflexivity|].
      destruct i as [|[|[|i]]]; cbn in H; congruence.
    + apply book_eqb_eq in E2. subst b. split; intros H; [injection H as <-; reflexivity|].
      destruct i as [|[|[|i]]]; cbn in H; congruence.
    + apply book_eqb_neq in E1, E2. split; intros H; [discriminate|].
      destruct i as [|[|[|i]]]; cbn in H; congruence.
  - intros b _. cbn [max_verses tiny_data]. destruct (book_eqb b Gen); eexists; (split; [reflexivity|]);
      (split; [discriminate|repeat constructor; lia]).
Qed.
Ltac wf_range_tiny := apply wf_range_check; [exact tiny_wf|vm_compute; reflexivity..].
