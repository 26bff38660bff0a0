(** Lists of clients: update of one entry and sums over all entries.
    Support for the interleaving models of the locks (Db/dblock.c). *)
From Coq Require Import ZArith List Lia Bool Arith.
Import ListNotations.
Open Scope Z_scope.

(** Replace entry [i]; no effect when [i] is out of range. *)
Fixpoint lset {A} (i : nat) (x : A) (l : list A) : list A :=
  match l, i with
  | [], _ => []
  | _ :: r, O => x :: r
  | a :: r, S k => a :: lset k x r
  end.

Fixpoint sumf {A} (f : A -> Z) (l : list A) : Z :=
  match l with [] => 0 | a :: r => f a + sumf f r end.

Lemma lset_length {A} i (x : A) l : length (lset i x l) = length l.
Proof. revert i; induction l as [|a r IH]; intros [|i]; cbn; auto. Qed.

Lemma nth_lset_same {A} i (x a : A) l :
  nth_error l i = Some a -> nth_error (lset i x l) i = Some x.
Proof. revert i; induction l as [|b r IH]; intros [|i]; cbn; try discriminate; auto. Qed.

Lemma nth_lset_other {A} i j (x : A) l :
  i <> j -> nth_error (lset i x l) j = nth_error l j.
Proof.
  revert i j; induction l as [|b r IH]; intros [|i] [|j] H; cbn; auto; try congruence.
Qed.

Lemma nth_lset {A} i j (x a : A) l :
  nth_error l i = Some a ->
  nth_error (lset i x l) j = if Nat.eqb i j then Some x else nth_error l j.
Proof.
  intros H. destruct (Nat.eqb_spec i j) as [->|N].
  - eapply nth_lset_same; eauto.
  - now apply nth_lset_other.
Qed.

Lemma sumf_lset {A} (f : A -> Z) i x a l :
  nth_error l i = Some a -> sumf f (lset i x l) = sumf f l - f a + f x.
Proof.
  revert i; induction l as [|b r IH]; intros [|i]; cbn; try discriminate.
  - intros [= ->]. lia.
  - intros H. rewrite (IH i H). lia.
Qed.

Lemma sumf_nonneg {A} (f : A -> Z) l : (forall a, 0 <= f a) -> 0 <= sumf f l.
Proof. intros H; induction l as [|b r IH]; cbn; [lia|]. specialize (H b). lia. Qed.

Lemma sumf_ge {A} (f : A -> Z) l i a :
  (forall a, 0 <= f a) -> nth_error l i = Some a -> f a <= sumf f l.
Proof.
  intros H; revert i; induction l as [|b r IH]; intros [|i]; cbn; try discriminate.
  - intros [= ->]. pose proof (sumf_nonneg f r H). lia.
  - intros E. specialize (IH i E). specialize (H b). lia.
Qed.

Lemma sumf_ge2 {A} (f : A -> Z) l i j a b :
  (forall a, 0 <= f a) -> i <> j ->
  nth_error l i = Some a -> nth_error l j = Some b -> f a + f b <= sumf f l.
Proof.
  intros H; revert i j; induction l as [|c r IH]; intros [|i] [|j] N; cbn;
    try discriminate; try congruence.
  - intros [= ->] E. pose proof (sumf_ge f r j b H E). lia.
  - intros E [= ->]. pose proof (sumf_ge f r i a H E). lia.
  - intros E1 E2. assert (i <> j) as N' by congruence.
    specialize (IH i j N' E1 E2). specialize (H c). lia.
Qed.

Lemma sumf_le_length {A} (f : A -> Z) l :
  (forall a, f a <= 1) -> sumf f l <= Z.of_nat (length l).
Proof. intros H; induction l as [|b r IH]; cbn [sumf length]; [lia|]. specialize (H b). lia. Qed.

Lemma sumf_zero {A} (f : A -> Z) l :
  (forall i a, nth_error l i = Some a -> f a = 0) -> sumf f l = 0.
Proof.
  induction l as [|b r IH]; cbn; [lia|]. intros H.
  rewrite (H O b eq_refl), IH; [lia|]. intros i a E. exact (H (S i) a E).
Qed.

Lemma sumf_pos {A} (f : A -> Z) l :
  (forall a, 0 <= f a) -> 0 < sumf f l -> exists i a, nth_error l i = Some a /\ 0 < f a.
Proof.
  intros H; induction l as [|b r IH]; cbn [sumf]; [lia|]. intros E.
  destruct (Z.ltb_spec 0 (f b)) as [L|L].
  - exists O, b. split; [reflexivity|lia].
  - destruct IH as (i & a & E1 & E2); [specialize (H b); lia|].
    exists (S i), a. split; [exact E1|lia].
Qed.

Lemma sumf_repeat0 {A} (f : A -> Z) x n : f x = 0 -> sumf f (repeat x n) = 0.
Proof. intros H; induction n; cbn; lia. Qed.

Lemma nth_repeat {A} (x a : A) n i : nth_error (repeat x n) i = Some a -> a = x.
Proof. revert i; induction n; intros [|i]; cbn; try discriminate; [congruence|eauto]. Qed.
