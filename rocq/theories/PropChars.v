(** * PropChars: the character classes, code point by code point.

    The tables were listed by Python's own [re] and [str] for the code points 0..255. *)
From Coq Require Import List NArith Bool Ascii.
From Verif Require Import Chars.
Import ListNotations.
Open Scope N_scope.

Definition white_codes : list N := [9; 10; 11; 12; 13; 28; 29; 30; 31; 32; 133; 160].
Definition word_codes : list N :=
  [48; 49; 50; 51; 52; 53; 54; 55; 56; 57; 65; 66; 67; 68; 69; 70; 71; 72; 73; 74; 75; 76; 77; 78; 79; 80; 81; 82; 83; 84; 85; 86; 87; 88; 89; 90; 95; 97; 98; 99; 100; 101; 102; 103; 104; 105; 106; 107; 108; 109; 110; 111; 112; 113; 114; 115; 116; 117; 118; 119; 120; 121; 122; 170; 178; 179; 181; 185; 186; 188; 189; 190; 192; 193; 194; 195; 196; 197; 198; 199; 200; 201; 202; 203; 204; 205; 206; 207; 208; 209; 210; 211; 212; 213; 214; 216; 217; 218; 219; 220; 221; 222; 223; 224; 225; 226; 227; 228; 229; 230; 231; 232; 233; 234; 235; 236; 237; 238; 239; 240; 241; 242; 243; 244; 245; 246; 248; 249; 250; 251; 252; 253; 254; 255].
Definition ignored_codes : list N := [9; 10; 12; 13; 32].
Definition digit_codes : list N := [48; 49; 50; 51; 52; 53; 54; 55; 56; 57].
Definition case_pairs : list (N * N) :=
  [(65, 97); (66, 98); (67, 99); (68, 100); (69, 101); (70, 102); (71, 103); (72, 104); (73, 105); (74, 106); (75, 107); (76, 108); (77, 109); (78, 110); (79, 111); (80, 112); (81, 113); (82, 114); (83, 115); (84, 116); (85, 117); (86, 118); (87, 119); (88, 120); (89, 121); (90, 122); (192, 224); (193, 225); (194, 226); (195, 227); (196, 228); (197, 229); (198, 230); (199, 231); (200, 232); (201, 233); (202, 234); (203, 235); (204, 236); (205, 237); (206, 238); (207, 239); (208, 240); (209, 241); (210, 242); (211, 243); (212, 244); (213, 245); (214, 246); (216, 248); (217, 249); (218, 250); (219, 251); (220, 252); (221, 253); (222, 254)].

Lemma by_code : forall (f : ascii -> bool) l, forallb (fun n => Bool.eqb (f (ascii_of_nat n)) (existsb (N.eqb (N.of_nat n)) l)) (seq 0 256) = true ->
  forall c, f c = true <-> In (N_of_ascii c) l.
Proof.
  intros f l H c. rewrite forallb_forall in H. specialize (H (nat_of_ascii c)).
  rewrite in_seq in H. assert (B := nat_ascii_bounded c). specialize (H ltac:(split; [apply le_0_n|exact B])).
  rewrite ascii_nat_embedding in H. apply eqb_prop in H. rewrite H.
  unfold nat_of_ascii. rewrite N2Nat.id, existsb_exists. split.
  - intros (x & I & E). apply N.eqb_eq in E. now subst x.
  - intros I. exists (N_of_ascii c). split; [exact I|apply N.eqb_refl].
Qed.
(** White space, stripped around names and texts. *)
Theorem C39_white_table : forall c, is_space c = true <-> In (N_of_ascii c) white_codes.
Proof. apply by_code. vm_compute. reflexivity. Qed.
(** Letter case. *)
Theorem C39_case_table : forall c,
  (forall n, In (N_of_ascii c, n) case_pairs -> N_of_ascii (lower c) = n) /\
  (~ In (N_of_ascii c) (map fst case_pairs) -> lower c = c).
Proof.
  intros c.
  assert (H : forallb (fun n => match find (fun p => fst p =? N.of_nat n) case_pairs with
                                | Some p => N_of_ascii (lower (ascii_of_nat n)) =? snd p
                                | None => Ascii.eqb (lower (ascii_of_nat n)) (ascii_of_nat n) end) (seq 0 256) = true) by (vm_compute; reflexivity).
  rewrite forallb_forall in H. specialize (H (nat_of_ascii c)). rewrite in_seq in H. assert (B := nat_ascii_bounded c).
  specialize (H ltac:(split; [apply le_0_n|exact B])). rewrite ascii_nat_embedding in H. unfold nat_of_ascii in H. rewrite N2Nat.id in H.
  assert (U : NoDup (map fst case_pairs)) by (repeat (constructor; [cbn; intuition discriminate|]); constructor).
  destruct (find _ case_pairs) as [(a, b)|] eqn:F.
  - apply find_some in F. destruct F as (I & E). cbn in E. apply N.eqb_eq in E. subst a. apply N.eqb_eq in H. cbn in H. split.
    + intros n In'. rewrite H. clear - I In' U. revert I In' U. generalize case_pairs as l. generalize (N_of_ascii c) as k. intros k l.
      induction l as [|(x, y) l IH]; intros I I' U; [destruct I|]. inversion U as [|? ? Nx U']; subst. cbn in *.
      destruct I as [E|I], I' as [E'|I']; auto.
      * congruence.
      * injection E as -> ->. exfalso. apply Nx. now apply (in_map fst) in I'.
      * injection E' as -> ->. exfalso. apply Nx. now apply (in_map fst) in I.
    + intros Nn. exfalso. apply Nn. now apply (in_map fst) in I.
  - split; [|now intros _; apply Ascii.eqb_eq]. intros n I. pose proof (find_none _ _ F _ I) as X. cbn in X. rewrite N.eqb_refl in X. discriminate.
Qed.
(** The characters of the terminals of the grammar, and the white space it ignores. *)
Theorem C38_word_table : forall c, is_word c = true <-> In (N_of_ascii c) word_codes.
Proof. apply by_code. vm_compute. reflexivity. Qed.
Theorem C38_digit_table : forall c, is_digit c = true <-> In (N_of_ascii c) digit_codes.
Proof. apply by_code. vm_compute. reflexivity. Qed.
Theorem C38_ignored_table : forall c, is_ws c = true <-> In (N_of_ascii c) ignored_codes.
Proof. apply by_code. vm_compute. reflexivity. Qed.
Example C39_table_ex : In (N_of_ascii "A"%char, 97) case_pairs /\ lower "A"%char = "a"%char /\ is_space " "%char = true /\ is_word "_"%char = true.
Proof. vm_compute. auto. Qed.
