(** Shared machine-level notions: 64-bit words, 32-bit ints, word memory. *)
From Coq Require Import ZArith List Lia Bool.
Import ListNotations.
Open Scope Z_scope.

Ltac Zify.zify_post_hook ::= Z.div_mod_to_equations.

(** Result of storing the mathematical value [z] in a [gint]
    (Db/dballoc.h l.177: [typedef ptrdiff_t gint], 64 bits, two's complement). *)
Definition wrap64 (z : Z) : Z := (z + 2 ^ 63) mod 2 ^ 64 - 2 ^ 63.
(** Same for a C [int] (32 bits). *)
Definition wrap32 (z : Z) : Z := (z + 2 ^ 31) mod 2 ^ 32 - 2 ^ 31.
(** Conversion to [unsigned int] and to [size_t]. *)
Definition u32 (z : Z) : Z := z mod 2 ^ 32.
Definition u64 (z : Z) : Z := z mod 2 ^ 64.

Definition is64 (z : Z) : Prop := - 2 ^ 63 <= z < 2 ^ 63.
Definition is32 (z : Z) : Prop := - 2 ^ 31 <= z < 2 ^ 31.

(** Word memory: byte offset in the segment -> stored gint
    (Db/dballoc.h l.196-197: [dbfetch], [dbstore]). Only word-aligned offsets
    are used. *)
Definition mem := Z -> Z.
Definition upd (m : mem) (a v : Z) : mem := fun x => if x =? a then v else m x.

Lemma upd_same m a v : upd m a v a = v.
Proof. unfold upd. now rewrite Z.eqb_refl. Qed.
Lemma upd_other m a v x : x <> a -> upd m a v x = m x.
Proof. unfold upd. intros H. now destruct (Z.eqb_spec x a). Qed.

Lemma wrap64_id z : is64 z -> wrap64 z = z.
Proof. unfold is64, wrap64. intros. rewrite Z.mod_small; lia. Qed.
Lemma wrap32_id z : is32 z -> wrap32 z = z.
Proof. unfold is32, wrap32. intros. rewrite Z.mod_small; lia. Qed.
Lemma wrap64_range z : is64 (wrap64 z).
Proof. unfold is64, wrap64. pose proof (Z.mod_pos_bound (z + 2^63) (2^64)). lia. Qed.
Lemma wrap32_range z : is32 (wrap32 z).
Proof. unfold is32, wrap32. pose proof (Z.mod_pos_bound (z + 2^31) (2^32)). lia. Qed.

(** ** Bit operations as arithmetic *)

Lemma land_ones_mod x k : 0 <= k -> Z.land x (2 ^ k - 1) = x mod 2 ^ k.
Proof.
  intros. rewrite <- Z.land_ones by assumption.
  f_equal. rewrite Z.ones_equiv. lia.
Qed.

Lemma lor_low a k c : 0 <= k -> 0 <= c < 2 ^ k -> Z.lor (a * 2 ^ k) c = a * 2 ^ k + c.
Proof.
  intros Hk Hc.
  rewrite <- Z.shiftl_mul_pow2 by assumption.
  assert (Hz : Z.land (Z.shiftl a k) c = 0).
  { apply Z.bits_inj'. intros n Hn.
    rewrite Z.land_spec, Z.bits_0.
    destruct (Z.ltb_spec n k).
    - rewrite Z.shiftl_spec_low by assumption. reflexivity.
    - replace (Z.testbit c n) with false; [apply andb_false_r|].
      symmetry. destruct (Z.eq_dec c 0) as [->|].
      + apply Z.bits_0.
      + apply Z.bits_above_log2; [lia|].
        apply Z.log2_lt_pow2; [lia|].
        apply Z.lt_le_trans with (2 ^ k); [lia|].
        apply Z.pow_le_mono_r; lia. }
  rewrite Z.add_nocarry_lxor by assumption. symmetry. now apply Z.lxor_lor.
Qed.

Lemma land_lnot_mask x k : 0 <= k -> Z.land x (Z.lnot (2 ^ k - 1)) = x - x mod 2 ^ k.
Proof.
  intros Hk.
  rewrite <- Z.ldiff_land.
  replace (2 ^ k - 1) with (Z.ones k) by (rewrite Z.ones_equiv; lia).
  rewrite Z.ldiff_ones_r by assumption.
  rewrite Z.shiftl_mul_pow2, Z.shiftr_div_pow2 by assumption.
  pose proof (Z.div_mod x (2 ^ k)). assert (2 ^ k <> 0) by lia. lia.
Qed.
