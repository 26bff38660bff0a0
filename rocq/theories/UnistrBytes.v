(** Bytes of strings: bytes and words. *)
From Coq Require Import ZArith List Bool Lia.
From Verif Require Import Base EncodingModel EncodingProofs CompareModel CompareProofs UnistrModel.
Import ListNotations.
Open Scope Z_scope.
#[local] Ltac Zify.zify_post_hook ::= Z.div_mod_to_equations.

(** ** Bytes and words *)
Lemma byte_eq m a : byte m a = (u64 (m (8 * (a / 8))) / 2 ^ (8 * (a mod 8))) mod 256.
Proof. unfold byte, byte_at. cbn [words]. rewrite Z.shiftr_div_pow2 by (pose proof (Z.mod_pos_bound a 8); lia). reflexivity. Qed.
Lemma byte_range m a : 0 <= byte m a < 256.
Proof. rewrite byte_eq. apply Z.mod_pos_bound. lia. Qed.
Lemma byte_word m m' a : m (8 * (a / 8)) = m' (8 * (a / 8)) -> byte m a = byte m' a.
Proof. rewrite !byte_eq. now intros ->. Qed.
Lemma byte_at_byte m z a : byte_at (CSt m z) a = byte m a.
Proof. reflexivity. Qed.
Lemma oct_cases x : 0 <= x < 8 -> x = 0 \/ x = 1 \/ x = 2 \/ x = 3 \/ x = 4 \/ x = 5 \/ x = 6 \/ x = 7.
Proof. lia. Qed.
Lemma u64_wrap64 z : 0 <= z < 2 ^ 64 -> u64 (wrap64 z) = z.
Proof.
  intros H. unfold u64, wrap64. change (2 ^ 64) with 18446744073709551616 in *. change (2 ^ 63) with 9223372036854775808.
  destruct (Z.lt_ge_cases z 9223372036854775808).
  - rewrite (Z.mod_small (z + _)) by lia. replace (z + 9223372036854775808 - 9223372036854775808) with z by lia. apply Z.mod_small. lia.
  - replace (z + 9223372036854775808) with (z - 9223372036854775808 + 1 * 18446744073709551616) by lia. rewrite Z.mod_add, (Z.mod_small (z - _)) by lia.
    replace (z - 9223372036854775808 - 9223372036854775808) with (z + (-1) * 18446744073709551616) by lia. rewrite Z.mod_add by lia. apply Z.mod_small. lia.
Qed.
Lemma digit W k b : 0 <= k -> let o := W / 2 ^ k mod 256 in
  W + (b - o) * 2 ^ k = W / 2 ^ (k + 8) * 2 ^ (k + 8) + b * 2 ^ k + W mod 2 ^ k.
Proof.
  intros Hk. cbv zeta. rewrite Z.pow_add_r by lia. pose proof (Z.pow_pos_nonneg 2 k ltac:(lia) Hk) as P. rewrite <- Z.div_div by lia. set (q := W / 2 ^ k).
  pose proof (Z.div_mod W (2 ^ k) ltac:(lia)) as E. fold q in E. pose proof (Z.div_mod q (2 ^ 8) ltac:(lia)) as E2. change (2 ^ 8) with 256 in *.
  set (p := 2 ^ k) in *. rewrite (Z.mul_sub_distr_r b). rewrite E at 1. rewrite E2 at 1. ring.
Qed.
Lemma setbyte_byte m a c x : byte (setbyte m a c) x = if x =? a then c mod 256 else byte m x.
Proof.
  rewrite (byte_eq (setbyte m a c)). unfold setbyte. destruct (Z.eq_dec (8 * (x / 8)) (8 * (a / 8))) as [E|N].
  2: { rewrite upd_other by exact N. rewrite <- byte_eq. destruct (Z.eqb_spec x a) as [->|]; [now contradict N|reflexivity]. }
  rewrite E, upd_same. rewrite byte_eq. set (W := u64 (m (8 * (a / 8)))). assert (HW : 0 <= W < 2 ^ 64) by (unfold W, u64; apply Z.mod_pos_bound; lia).
  set (k := a mod 8). assert (Hk : 0 <= k < 8) by (unfold k; apply Z.mod_pos_bound; lia). rewrite (digit W (8 * k) (c mod 256)) by lia.
  pose proof (Z.mod_pos_bound c 256 ltac:(lia)) as Hc. set (b := c mod 256) in *.
  rewrite (byte_eq m x), E. fold W. set (j := x mod 8). assert (Hj : 0 <= j < 8) by (unfold j; apply Z.mod_pos_bound; lia).
  assert (Hxa : (x =? a) = (j =? k)). { unfold j, k. destruct (Z.eqb_spec x a) as [->|Nx]; [now rewrite Z.eqb_refl|]. symmetry. apply Z.eqb_neq. intros Ej. apply Nx. clear -E Ej. lia. }
  rewrite Hxa. clear Hxa E. clearbody W b j k. clear m a c x.
  destruct (oct_cases k Hk) as [->|[->|[->|[->|[->|[->|[->| ->]]]]]]];
    match goal with |- context [W / 2 ^ ?e * 2 ^ ?e] => let v := eval vm_compute in (2 ^ e) in change (2 ^ e) with v end;
    match goal with |- context [W mod 2 ^ ?e] => let v := eval vm_compute in (2 ^ e) in change (2 ^ e) with v end;
    rewrite u64_wrap64 by (change (2 ^ 64) with 18446744073709551616 in *; lia);
    destruct (oct_cases j Hj) as [->|[->|[->|[->|[->|[->|[->| ->]]]]]]]; cbn [Z.eqb Pos.eqb];
    match goal with |- _ / 2 ^ ?e mod 256 = _ => let v := eval vm_compute in (2 ^ e) in change (2 ^ e) with v end; change (2 ^ 64) with 18446744073709551616 in *; lia.
Qed.
Lemma setbyte_word m a c w : w mod 8 = 0 -> ~ w <= a < w + 8 -> setbyte m a c w = m w.
Proof. intros Hw Ha. unfold setbyte. apply upd_other. lia. Qed.
Lemma memcpy_byte l : forall m a x, byte (memcpy m a l) x = if (a <=? x) && (x <? a + Z.of_nat (length l)) then nth (Z.to_nat (x - a)) l 0 mod 256 else byte m x.
Proof.
  induction l as [|c l IH]; intros m a x; cbn [memcpy length].
  - destruct (Z.leb_spec a x), (Z.ltb_spec x (a + Z.of_nat 0)); cbn [andb]; try reflexivity; lia.
  - rewrite IH, setbyte_byte. destruct (Z.leb_spec (a + 1) x), (Z.ltb_spec x (a + 1 + Z.of_nat (length l))), (Z.leb_spec a x), (Z.ltb_spec x (a + Z.of_nat (S (length l)))), (Z.eqb_spec x a); cbn [andb]; try lia; try reflexivity.
    + replace (Z.to_nat (x - a)) with (S (Z.to_nat (x - (a + 1)))) by lia. reflexivity.
    + subst x. rewrite Z.sub_diag. reflexivity.
Qed.
Lemma memcpy_word l : forall m a w, w mod 8 = 0 -> w + 8 <= a \/ a + Z.of_nat (length l) <= w -> memcpy m a l w = m w.
Proof.
  induction l as [|c l IH]; intros m a w Hw H; cbn [memcpy]; [reflexivity|]. cbn [length] in H. rewrite IH by (auto; lia). apply setbyte_word; [exact Hw|lia].
Qed.
Lemma upd_byte m w v x : ~ w <= x < w + 8 -> byte (upd m w v) x = byte m x.
Proof. intros H. apply byte_word. apply upd_other. lia. Qed.

(** A C string in memory. *)
Lemma cstr_is z : forall str fuel m a, (forall i, (i < length str)%nat -> byte m (a + Z.of_nat i) = nth i str 0) -> byte m (a + Z.of_nat (length str)) = 0 ->
  Forall (fun c => c <> 0) str -> (length str < fuel)%nat -> cstr fuel (CSt m z) a = str.
Proof.
  induction str as [|c str IH]; intros fuel m a H0 H1 H2 Hf; (destruct fuel as [|fuel]; [cbn in Hf; lia|]); cbn [cstr]; rewrite byte_at_byte.
  - cbn [length] in H1. rewrite Z.add_0_r in H1. rewrite H1. reflexivity.
  - pose proof (H0 0%nat ltac:(cbn; lia)) as B. cbn [nth] in B. rewrite Z.add_0_r in B. rewrite B. pose proof (Forall_inv H2) as N. pose proof (Forall_inv_tail H2) as F. cbv beta in N. destruct (Z.eqb_spec c 0); [contradiction|]. f_equal. apply IH; auto.
    + intros i Hi. specialize (H0 (S i) ltac:(cbn; lia)). cbn [nth] in H0. rewrite <- H0. f_equal. lia.
    + cbn [length] in H1. rewrite <- H1. f_equal. lia.
    + cbn in Hf. lia.
Qed.
