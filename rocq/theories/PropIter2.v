(** * PropIter2: iterating over the verses of a range while the flags change (C93). *)
From Coq Require Import List ZArith Bool Lia Sorted.
From Verif Require Import Base Books Data DefaultData MVerse MRange MIter2 Spec PList PCore PNav PVerse PRange PDefault PFlags PSplit PTerm PropVerse PropRange.
Import ListNotations.
Open Scope Z_scope.

Lemma add_any : forall d f g v n, add (mkEnv d f) v n (Some MULTIBOOK) = add (mkEnv d g) v n (Some MULTIBOOK).
Proof. intros d f g v n. rewrite !add_with by discriminate. reflexivity. Qed.
Lemma add_in : forall e v w, wf_data (ed e) -> InB (ed e) true v -> add e v 1 (Some MULTIBOOK) = Ok (Some w) -> InB (ed e) true w.
Proof.
  intros e v w Hwf Hv E. destruct (C04_on_track e (Some MULTIBOOK) v Hwf Hv) as (i & Hi & _). rewrite (C04_add e v 1 (Some MULTIBOOK) i Hwf Hv ltac:(lia) Hi) in E. injection E as E. apply nth_error_In in E.
  unfold track in E. assert (M : multi_on e (Some MULTIBOOK) = true) by reflexivity. rewrite M in E. apply (InB_mono e (track0 e (Some MULTIBOOK) v)). exact E.
Qed.
Lemma nexts_end : forall d r gs, nexts d r gs SEnd = map (fun _ => Ok None) gs.
Proof. induction gs as [|g gs IH]; [reflexivity|]. cbn [nexts range_next map]. now rewrite IH. Qed.
Lemma nexts_loop : forall d f r, wf_data d -> In (vbook (rend r)) (book_order d) -> forall l fuel o, (forall v, o = Some v -> InB d true v) ->
  iter_loop (mkEnv d f) fuel o (rend r) = Ok l ->
  forall c, (forall g, range_next (mkEnv d g) r c = give_verse (mkEnv d g) r o) -> forall gs, nexts d r gs c = map (fun k => Ok (nth_error l k)) (List.seq 0 (length gs)).
Proof.
  intros d f r Hwf He. induction l as [|x l IH]; intros fuel o Ho E c Hc gs.
  - assert (G : forall g, give_verse (mkEnv d g) r o = (Ok None, SEnd)).
    { intros g. destruct o as [v|]; [|reflexivity]. cbn [give_verse]. rewrite (verse_le_total (mkEnv d g) v (rend r) Hwf (InB_book (mkEnv d g) true v (Ho v eq_refl)) He).
      destruct fuel; cbn [iter_loop] in E; change (vleb (mkEnv d g)) with (vleb (mkEnv d f)); destruct (vleb (mkEnv d f) v (rend r)); try discriminate; try reflexivity.
      exfalso. destruct (add _ _ _ _); [|discriminate]. cbn [bind] in E. destruct (iter_loop _ _ _ _); discriminate. }
    destruct gs as [|g gs]; [reflexivity|]. cbn [nexts]. rewrite (Hc g), (G g), nexts_end. cbn [length List.seq map nth_error]. f_equal.
    rewrite <- seq_shift, map_map. clear. generalize 0%nat. induction gs as [|g gs IH]; intros n; [reflexivity|]. cbn [map length List.seq nth_error]. f_equal. apply IH.
  - destruct gs as [|g gs]; [reflexivity|]. destruct o as [v|]; [|destruct fuel; discriminate]. pose proof (Ho v eq_refl) as Hv.
    destruct fuel as [|fuel]; cbn [iter_loop] in E; destruct (vleb (mkEnv d f) v (rend r)) eqn:L; try discriminate.
    destruct (add (mkEnv d f) v 1 (Some MULTIBOOK)) as [o'|] eqn:A; [|discriminate]. cbn [bind] in E. destruct (iter_loop (mkEnv d f) fuel o' (rend r)) as [l'|] eqn:E'; [|discriminate]. cbn [bind] in E. injection E as -> ->.
    cbn [nexts]. rewrite (Hc g). cbn [give_verse]. rewrite (verse_le_total (mkEnv d g) x (rend r) Hwf (InB_book (mkEnv d g) true x Hv) He). change (vleb (mkEnv d g)) with (vleb (mkEnv d f)). rewrite L.
    cbn [length List.seq map nth_error]. f_equal. rewrite <- seq_shift, map_map. rewrite (map_ext _ (fun k => Ok (nth_error l k))) by reflexivity.
    apply (IH fuel o'); [intros w ->; exact (add_in (mkEnv d f) x w Hwf Hv A)|exact E'|]. intros g'. cbn [range_next]. now rewrite (add_any d g' f), A.
Qed.

(** ** C93 *)
(** [next] gives the verses of the range one after the other, and then None (StopIteration) for ever, whatever the
    global flags are at each call: its first verse and all its verses but verse 0s, in order. *)
Theorem C93_nexts : forall d r, wf_data d -> wf_range d true r ->
  exists l, StronglySorted (vlt d) l /\ (forall v, In v l <-> InR d v r /\ (vverse v <> 0 \/ v = rstart r)) /\
    forall gs, nexts d r gs SNew = map (fun k => Ok (nth_error l k)) (List.seq 0 (length gs)).
Proof.
  intros d r Hwf Hr. destruct (C10_iteration_exact (mkEnv d NONE) r Hwf Hr) as (l & (N & E) & S & I). exists l. split; [exact S|]. split; [exact I|].
  destruct Hr as (A & B & _). apply (nexts_loop d NONE r Hwf (InB_book (mkEnv d NONE) true _ B) l N (Some (rstart r))); [intros v [= <-]; exact A|exact (E N (le_n _))|reflexivity].
Qed.
(** A loop that runs with other flags in its body goes through the same verses as one that does not. *)
Theorem C93_same : forall d r, wf_data d -> wf_range d true r -> forall gs hs, length gs = length hs -> nexts d r gs SNew = nexts d r hs SNew.
Proof. intros d r Hwf Hr gs hs L. destruct (C93_nexts d r Hwf Hr) as (l & _ & _ & H). now rewrite !H, L. Qed.
Example C93_ex : let r := R (V Psa 3 0) (V Psa 4 1) in wf_range default_data true r /\
  nexts default_data (R (V Psa 3 7) (V Psa 4 1)) [NONE; VERSE_0; ALL; MULTIBOOK; NONE] SNew = [Ok (Some (V Psa 3 7)); Ok (Some (V Psa 3 8)); Ok (Some (V Psa 4 1)); Ok None; Ok None] /\
  nexts default_data r [NONE; NONE; VERSE_0] SNew = [Ok (Some (V Psa 3 0)); Ok (Some (V Psa 3 1)); Ok (Some (V Psa 3 2))].
Proof. cbv zeta. split; [wf_range|]. vm_compute. auto. Qed.
