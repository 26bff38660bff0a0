(** C79: terms that the reasoner computes are replaced by what they mean. *)
From Coq Require Import ZArith List Bool Lia.
From Verif Require Import CompFunModel.
Import ListNotations.
Open Scope Z_scope.

Section Props.
  Variable D : Type.
  Variable of_int : Z -> D.
  Variable dadd : D -> D -> D.
  Variable eqt : tv D -> tv D -> bool.
  Notation comp := (compute D of_int dadd eqt std).
  (** The terms plus(a,b) and equal(a,b), with anything in the field before the function. *)
  Definition plus_t (m a b : tv D) : list (tv D) := [m; TAnon 15; a; b].
  Definition equal_t (m a b : tv D) : list (tv D) := [m; TAnon 9; a; b].
  (** The number a value stands for, as a double. *)
  Definition num (a : tv D) : option D := match a with TInt n => Some (of_int n) | TDbl d => Some d | _ => None end.

  (** C79: the sum of two ints is the int of their sum. *)
  Theorem C79_plus_int : forall m x y nr, 15 < nr -> -9223372036854775808 <= x + y < 9223372036854775808 -> comp nr (plus_t m (TInt x) (TInt y)) true = Some (Val (TInt (x + y))).
  Proof.
    intros m x y nr N R. unfold compute, plus_t. cbn [funpos std nth_error]. destruct (Z.ltb_spec 15 nr); [|lia]. change (0 <=? 15) with true. cbn [andb].
    change (15 =? A_PLUS) with true. cbv iota. unfold fun_plus. cbn [length firstuse std arg1 arg2 nth_error Nat.ltb Nat.leb Nat.add]. unfold in_gint.
    destruct (Z.leb_spec (-9223372036854775808) (x + y)); [|lia]. destruct (Z.ltb_spec (x + y) 9223372036854775808); [|lia]. reflexivity.
  Qed.
  (** C79: a sum that is computed is the sum of the numbers, and nothing else is computed. *)
  Theorem C79_plus : forall m a b nr ok r, 15 < nr -> comp nr (plus_t m a b) ok = Some r ->
    (r = Same <-> num a = None \/ num b = None) /\ (r <> Same -> ok = false -> r = Illegal) /\
    (forall v, r = Val v -> (exists x y, a = TInt x /\ b = TInt y /\ v = TInt (x + y)) \/ (exists x y, num a = Some x /\ num b = Some y /\ v = TDbl (dadd x y)) /\ ~ (exists x y, a = TInt x /\ b = TInt y)).
  Proof.
    intros m a b nr ok r N. unfold compute, plus_t. cbn [funpos std nth_error]. destruct (Z.ltb_spec 15 nr); [|lia]. change (0 <=? 15) with true. cbn [andb].
    change (15 =? A_PLUS) with true. cbv iota. unfold fun_plus. cbn [length firstuse std arg1 arg2 nth_error Nat.ltb Nat.leb Nat.add]. intros E.
    destruct a; try (injection E as <-; split; [split; [intros _; now left|reflexivity]|split; [intros X; now contradiction X|intros v X; discriminate X]]);
    destruct b; try (injection E as <-; split; [split; [intros _; now right|reflexivity]|split; [intros X; now contradiction X|intros v X; discriminate X]]);
    try (destruct (in_gint _) in E; [|discriminate E]); injection E as <-; destruct ok; cbn [num];
    (split; [split; [discriminate|intros [X|X]; discriminate X]|]); (split; [intros _ X; reflexivity || discriminate X|]); intros v X; try discriminate X; injection X as <-;
    solve [left; do 2 eexists; repeat split | right; split; [do 2 eexists; repeat split|intros (x & y & X & Y); discriminate X || discriminate Y]].
  Qed.
  (** C79: the order of the arguments does not matter, when it does not for doubles. *)
  Theorem C79_plus_comm : (forall x y, dadd x y = dadd y x) -> forall m a b nr ok, comp nr (plus_t m a b) ok = comp nr (plus_t m b a) ok.
  Proof.
    intros C m a b nr ok. unfold compute, plus_t. cbn [funpos std nth_error]. destruct ((15 <? nr) && (0 <=? 15)); [|reflexivity]. change (15 =? A_PLUS) with true. cbv iota.
    unfold fun_plus. cbn [length firstuse std arg1 arg2 nth_error Nat.ltb Nat.leb Nat.add]. destruct a, b; try reflexivity; rewrite ?(Z.add_comm n0 n), ?(C _ d), ?(C _ d0); try reflexivity; now rewrite C.
  Qed.

  (** A substitution replaces variables, in terms too. *)
  Fixpoint subst (s : Z -> tv D) (a : tv D) : tv D := match a with TVar n => s n | TRec fs => TRec (map (subst s) fs) | _ => a end.
  Lemma equal_eq : forall m a b nr ok, 9 < nr -> comp nr (equal_t m a b) ok =
    if eqt a b then Some (Val (TAnon 1)) else if is_var a || is_var b || open_type a || open_type b then Some Same else Some (Val (TAnon 0)).
  Proof.
    intros m a b nr ok N. unfold compute, equal_t. cbn [funpos std nth_error]. destruct (Z.ltb_spec 9 nr); [|lia]. change (0 <=? 9) with true. cbn [andb].
    change (9 =? A_PLUS) with false. change (9 =? A_EQUAL) with true. cbv iota. unfold fun_equal. cbn [length firstuse std arg1 arg2 nth_error Nat.ltb Nat.leb Nat.add].
    destruct (eqt a b); [reflexivity|]. destruct (is_var a); [reflexivity|]. destruct (is_var b); [reflexivity|]. cbn [orb]. reflexivity.
  Qed.
  (** C79: an equality computed to be true or false stays so under every substitution done later, for every equality of terms that does. *)
  Theorem C79_equal : (forall s a b, eqt a b = true -> eqt (subst s a) (subst s b) = true) -> forall m a b nr ok, 9 < nr ->
    (comp nr (equal_t m a b) ok = Some (Val (TAnon 1)) <-> eqt a b = true) /\
    (comp nr (equal_t m a b) ok = Some (Val (TAnon 1)) -> forall s, eqt (subst s a) (subst s b) = true) /\
    (comp nr (equal_t m a b) ok = Some (Val (TAnon 0)) -> forall s, eqt (subst s a) (subst s b) = false).
  Proof.
    intros Q m a b nr ok N. rewrite equal_eq by exact N. destruct (eqt a b) eqn:E.
    - split; [split; reflexivity|]. split; [intros _ s; now apply Q|intros X; discriminate X].
    - split; [|split].
      + destruct (is_var a || is_var b || open_type a || open_type b); split; intros X; discriminate X.
      + destruct (is_var a || is_var b || open_type a || open_type b); intros X; discriminate X.
      + destruct a; cbn [is_var open_type orb]; rewrite ?orb_true_r; try (intros X; discriminate X); destruct b; cbn [is_var open_type orb]; try (intros X; discriminate X); intros _ su; cbn [subst]; exact E.
  Qed.
  (** C79: two unequal constants of types with values of their own are told apart at once. *)
  Theorem C79_decides : forall m a b nr ok, 9 < nr -> (exists n, a = TInt n) \/ (exists k s, a = TConst k s) -> (exists n, b = TInt n) \/ (exists k s, b = TConst k s) -> eqt a b = false ->
    comp nr (equal_t m a b) ok = Some (Val (TAnon 0)).
  Proof.
    intros m a b nr ok N A B E. rewrite equal_eq by exact N. rewrite E.
    destruct A as [(n & ->)|(k & s & ->)]; destruct B as [(n' & ->)|(k' & s' & ->)]; reflexivity.
  Qed.
  (** C79: terms with other functions, or with too few arguments, stay. *)
  Theorem C79_other : forall nr fs ok r, comp nr fs ok = Some r -> nth_error fs 1 <> Some (TAnon 15) /\ nth_error fs 1 <> Some (TAnon 9) \/ (length fs < 4)%nat -> r = Same.
  Proof.
    intros nr fs ok r E C. unfold compute in E. cbn [funpos std] in E. destruct (nth_error fs 1) as [f|] eqn:F; [|discriminate E].
    destruct f; try (injection E as <-; reflexivity). destruct ((n <? nr) && (0 <=? n)); [|injection E as <-; reflexivity].
    destruct C as [(C1 & C2)|C].
    - unfold A_PLUS, A_EQUAL in E. destruct (Z.eqb_spec n 15) as [->|_]; [now contradiction C1|]. destruct (Z.eqb_spec n 9) as [->|_]; [now contradiction C2|]. injection E as <-; reflexivity.
    - assert (G : Nat.ltb (length fs) (firstuse std + 3) = true) by (apply Nat.ltb_lt; exact C). unfold fun_plus, fun_equal in E. rewrite G in E.
      destruct (n =? A_PLUS); [injection E as <-; reflexivity|]. destruct (n =? A_EQUAL); injection E as <-; reflexivity.
  Qed.
  (** Finding: an int and the double of the same number are computed to be different, also when the double comes from a sum: equal(1 + 0.0, 1) is false.
      (wr_equal_term says no for values of different types, Reasoner/unify.c l.343-348, l.452-457.) *)
  Theorem C79_mixed_refuted : (forall d n, eqt (TDbl d) (TInt n) = false) -> forall m n nr ok, 9 < nr -> comp nr (equal_t m (TDbl (of_int n)) (TInt n)) ok = Some (Val (TAnon 0)).
  Proof. intros Q m n nr ok N. rewrite equal_eq by exact N. rewrite Q. reflexivity. Qed.
  (** Finding: arguments behind the second are left out: plus(1,2,3) becomes 3. *)
  Theorem C79_arity_refuted : forall m c, comp 20 (plus_t m (TInt 1) (TInt 2) ++ [c]) true = Some (Val (TInt 3)).
  Proof. reflexivity. Qed.
End Props.
Print Assumptions C79_plus_int.
Print Assumptions C79_plus.
Print Assumptions C79_plus_comm.
Print Assumptions C79_equal.
Print Assumptions C79_decides.
Print Assumptions C79_other.
Print Assumptions C79_mixed_refuted.
Print Assumptions C79_arity_refuted.
(** Doubles as halves; equality of the texts. *)
Definition ex_eq (a b : tv Z) : bool.
Proof. refine (if _ : {a = b} + {a <> b} then true else false). revert a b. fix F 1. intros a b. decide equality; try apply Z.eq_dec; try (apply list_eq_dec; apply Z.eq_dec). apply (list_eq_dec F). Defined.
Lemma ex_eq_true : forall a b, ex_eq a b = true <-> a = b.
Proof. intros a b. unfold ex_eq. match goal with |- context[if ?c then _ else _] => destruct c end; split; intros; congruence. Qed.
Example C79_eq_case : (forall s a b, ex_eq a b = true -> ex_eq (subst Z s a) (subst Z s b) = true) /\ (forall d n, ex_eq (TDbl d) (TInt n) = false).
Proof. split; [intros s a b E; apply ex_eq_true in E; subst b; now apply ex_eq_true|]. intros d n. destruct (ex_eq (TDbl d) (TInt n)) eqn:E; [apply ex_eq_true in E; discriminate E|reflexivity]. Qed.
Example C79_case : compute Z (fun n => 2 * n) Z.add ex_eq std 20 [TConst 1 []; TAnon 15; TInt 3; TDbl 5] true = Some (Val (TDbl 11)) /\
  compute Z (fun n => 2 * n) Z.add ex_eq std 20 [TConst 1 []; TAnon 15; TInt 3; TVar 5] true = Some Same /\
  compute Z (fun n => 2 * n) Z.add ex_eq std 20 [TConst 1 []; TAnon 9; TInt 3; TInt 4] true = Some (Val (TAnon 0)) /\
  compute Z (fun n => 2 * n) Z.add ex_eq std 20 [TConst 1 []; TAnon 9; TVar 3; TInt 4] true = Some Same /\
  compute Z (fun n => 2 * n) Z.add ex_eq std 20 [TConst 1 []; TAnon 9; TVar 3; TVar 3] true = Some (Val (TAnon 1)) /\
  compute Z (fun n => 2 * n) Z.add ex_eq std 20 [TConst 1 []; TAnon 15; TInt 9223372036854775807; TInt 1] true = None.
Proof. repeat split; vm_compute; reflexivity. Qed.
