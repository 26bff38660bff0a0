(** Property C49. *)
From Coq Require Import ZArith List Bool Lia.
From Verif Require Import Base PermsModel.
Import ListNotations.
Open Scope Z_scope.

(** Bit sets: every permission bit of [a] is in [b]. *)
Definition bits_in (a b : Z) : bool := Z.land a b =? a.

Lemma perms_low mode : normalize_perms mode = normalize_perms (Z.land mode 511).
Proof. unfold normalize_perms. rewrite <- (Z.land_assoc mode 511 438). reflexivity. Qed.

Definition perms_good (x : Z) : bool :=
  let r := normalize_perms x in
  (Z.land r 384 =? 384) && (Z.land r 438 =? r) && bits_in (Z.land r 54) x &&
  (Z.land r 48 =? (if Z.land x 48 =? 48 then 48 else 0)) &&
  (Z.land r 6 =? (if Z.land x 6 =? 6 then 6 else 0)) &&
  (normalize_perms r =? r) && (journal_mode x =? r).

Lemma perms_all x : 0 <= x < 512 -> perms_good x = true.
Proof.
  intros Hx. assert (H : forallb (fun n => perms_good (Z.of_nat n)) (seq 0 512) = true) by (vm_compute; reflexivity).
  rewrite forallb_forall in H. specialize (H (Z.to_nat x) ltac:(apply in_seq; lia)).
  rewrite Z2Nat.id in H by lia. exact H.
Qed.

(** C49: for every mode given by the caller (all integers, not only the 512
    permission values), with [r] the mode of the segment created:
    the owner can read and write; no execute or special bits; group and other
    bits only if the caller gave them; group access iff the caller gave both
    group bits, and the same for others; the journal gets the same mode. *)
Theorem C49_perms : forall mode, let r := segment_mode mode in
  Z.land r 384 = 384 /\ Z.land r 438 = r /\
  Z.land (Z.land r 54) mode = Z.land r 54 /\
  Z.land r 48 = (if Z.land mode 48 =? 48 then 48 else 0) /\
  Z.land r 6 = (if Z.land mode 6 =? 6 then 6 else 0) /\
  segment_mode r = r /\ journal_mode mode = r.
Proof.
  intros mode r. unfold r, segment_mode, journal_mode. rewrite !(perms_low mode).
  set (x := Z.land mode 511).
  assert (Hx : 0 <= x < 512) by (unfold x; change 511 with (2 ^ 9 - 1); rewrite land_ones_mod by lia; lia).
  assert (E48 : Z.land mode 48 = Z.land x 48) by (unfold x; rewrite <- Z.land_assoc; reflexivity).
  assert (E6 : Z.land mode 6 = Z.land x 6) by (unfold x; rewrite <- Z.land_assoc; reflexivity).
  pose proof (perms_all x Hx) as H. unfold perms_good, bits_in, journal_mode in H. cbv zeta in H.
  rewrite !andb_true_iff, !Z.eqb_eq in H. destruct H as ((((((A & B) & C) & D) & E) & F) & G).
  rewrite E48, E6. repeat split; try assumption.
  rewrite <- C at 2. generalize (normalize_perms x). intros n. unfold x.
  rewrite (Z.land_comm mode 511), Z.land_assoc, <- (Z.land_assoc n 54 511). reflexivity.
Qed.
Print Assumptions C49_perms.
(** 0664 (group may write, others only read) becomes 0660. *)
Example C49_ex : segment_mode 436 = 432 /\ segment_mode 0 = 384 /\ segment_mode (-1) = 438.
Proof. repeat split; reflexivity. Qed.
