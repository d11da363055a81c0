(** * Books: the [BibleBook] enum (ref.py 41-124). *)
From Coq Require Import List Arith Bool Lia.
Import ListNotations.

(** ref.py 59-124: the members of the enum, in order of definition. *)
Inductive book : Type :=
| Gen | Exod | Lev | Num | Deut | Josh | Judg | Ruth
| ISam | IISam | IKgs | IIKgs | IChr | IIChr | Ezra | Neh
| Esth | Job | Psa | Prov | Eccl | Song | Isa | Jer
| Lam | Ezek | Dan | Hos | Joel | Amos | Obad | Jonah
| Mic | Nah | Hab | Zeph | Hag | Zech | Mal | Matt
| Mark | Luke | John | Acts | Rom | ICor | IICor | Gal
| Eph | Phil | Col | ITh | IITh | ITim | IITim | Titus
| Phlm | Heb | Jam | IPet | IIPet | IJn | IIJn | IIIJn
| Jude | Rev.

(** Iteration over the enum, [for book in BibleBook] (definition order). *)
Definition all_books : list book :=
  [Gen; Exod; Lev; Num; Deut; Josh; Judg; Ruth;
   ISam; IISam; IKgs; IIKgs; IChr; IIChr; Ezra; Neh;
   Esth; Job; Psa; Prov; Eccl; Song; Isa; Jer;
   Lam; Ezek; Dan; Hos; Joel; Amos; Obad; Jonah;
   Mic; Nah; Hab; Zeph; Hag; Zech; Mal; Matt;
   Mark; Luke; John; Acts; Rom; ICor; IICor; Gal;
   Eph; Phil; Col; ITh; IITh; ITim; IITim; Titus;
   Phlm; Heb; Jam; IPet; IIPet; IJn; IIJn; IIIJn;
   Jude; Rev].

(** Position of a member in the enum; used only to compare members for equality. *)
Definition book_idx (b : book) : nat :=
  match b with
  | Gen => 0 | Exod => 1 | Lev => 2 | Num => 3 | Deut => 4 | Josh => 5
  | Judg => 6 | Ruth => 7 | ISam => 8 | IISam => 9 | IKgs => 10 | IIKgs => 11
  | IChr => 12 | IIChr => 13 | Ezra => 14 | Neh => 15 | Esth => 16 | Job => 17
  | Psa => 18 | Prov => 19 | Eccl => 20 | Song => 21 | Isa => 22 | Jer => 23
  | Lam => 24 | Ezek => 25 | Dan => 26 | Hos => 27 | Joel => 28 | Amos => 29
  | Obad => 30 | Jonah => 31 | Mic => 32 | Nah => 33 | Hab => 34 | Zeph => 35
  | Hag => 36 | Zech => 37 | Mal => 38 | Matt => 39 | Mark => 40 | Luke => 41
  | John => 42 | Acts => 43 | Rom => 44 | ICor => 45 | IICor => 46 | Gal => 47
  | Eph => 48 | Phil => 49 | Col => 50 | ITh => 51 | IITh => 52 | ITim => 53
  | IITim => 54 | Titus => 55 | Phlm => 56 | Heb => 57 | Jam => 58 | IPet => 59
  | IIPet => 60 | IJn => 61 | IIJn => 62 | IIIJn => 63 | Jude => 64 | Rev => 65
  end.

(** Enum members are equal iff identical. *)
Definition book_eqb (a b : book) : bool := Nat.eqb (book_idx a) (book_idx b).

Lemma book_idx_nth : forall b, nth_error all_books (book_idx b) = Some b.
Proof. destruct b; reflexivity. Qed.

Lemma book_eqb_eq : forall a b, book_eqb a b = true <-> a = b.
Proof.
  intros a b. unfold book_eqb. rewrite Nat.eqb_eq. split; [|now intros ->].
  intros H. pose proof (book_idx_nth a) as Ha. pose proof (book_idx_nth b) as Hb.
  rewrite H in Ha. congruence.
Qed.

Lemma book_eqb_refl : forall a, book_eqb a a = true.
Proof. intros. now apply book_eqb_eq. Qed.

Lemma book_eqb_neq : forall a b, book_eqb a b = false <-> a <> b.
Proof.
  intros a b. rewrite <- (book_eqb_eq a b). destruct (book_eqb a b); split; congruence.
Qed.

Definition book_eq_dec : forall a b : book, {a = b} + {a <> b}.
Proof.
  intros a b. destruct (book_eqb a b) eqn:E.
  - left. now apply book_eqb_eq.
  - right. now apply book_eqb_neq.
Defined.

Lemma all_books_in : forall b, In b all_books.
Proof. intros b. eapply nth_error_In. apply book_idx_nth. Qed.

Lemma all_books_nodup : NoDup all_books.
Proof.
  apply (NoDup_nth_error all_books). intros i j Hi H.
  assert (Hall : forallb (fun k => match nth_error all_books k with
                                   | Some b => Nat.eqb (book_idx b) k | None => false end)
                         (seq 0 (length all_books)) = true) by (vm_compute; reflexivity).
  rewrite forallb_forall in Hall.
  assert (Hk : forall k, k < length all_books -> exists b, nth_error all_books k = Some b /\ book_idx b = k).
  { intros k Hk. specialize (Hall k). rewrite in_seq in Hall. specialize (Hall ltac:(lia)).
    destruct (nth_error all_books k) as [b|]; [|discriminate].
    exists b. split; [reflexivity|]. now apply Nat.eqb_eq. }
  destruct (Hk i Hi) as [b [Hb Hbi]].
  assert (Hj : j < length all_books).
  { apply nth_error_Some. rewrite <- H, Hb. discriminate. }
  destruct (Hk j Hj) as [c [Hc Hcj]]. congruence.
Qed.
