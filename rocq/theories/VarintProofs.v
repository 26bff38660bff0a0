From Coq Require Import ZArith List Bool Lia.
From Verif Require Import Base VarintModel.
Import ListNotations.
Open Scope Z_scope.

Definition byte (b : Z) : Prop := 0 <= b < 256.

Lemma land_127 x : Z.land x 127 = x mod 128.
Proof. apply (land_ones_mod x 7). lia. Qed.
Lemma land_255' x : Z.land x 255 = x mod 256.
Proof. apply (land_ones_mod x 8). lia. Qed.

Lemma testbit7_128 : forall q, 0 <= q < 256 -> (Z.land q 128 =? 0) = (q <? 128).
Proof.
  intros q Hq.
  assert (H : forallb (fun n => Bool.eqb (Z.land (Z.of_nat n) 128 =? 0) (Z.of_nat n <? 128)) (seq 0 256) = true)
    by (vm_compute; reflexivity).
  rewrite forallb_forall in H. specialize (H (Z.to_nat q) ltac:(apply in_seq; lia)).
  rewrite Z2Nat.id in H by lia. apply eqb_prop in H. exact H.
Qed.

Lemma more_byte_eq v k : 0 <= v -> 0 <= k -> more_byte v k = (v / 2 ^ k) mod 128 + 128.
Proof.
  intros Hv Hk. unfold more_byte. rewrite Z.shiftr_div_pow2 by assumption.
  set (q := v / 2 ^ k). rewrite Z.land_lor_distr_l. rewrite (land_255' q).
  change (Z.land 128 255) with 128.
  assert (H : forallb (fun n => Z.lor (Z.of_nat n) 128 =? (Z.of_nat n) mod 128 + 128) (seq 0 256) = true)
    by (vm_compute; reflexivity).
  rewrite forallb_forall in H. specialize (H (Z.to_nat (q mod 256)) ltac:(apply in_seq; lia)).
  rewrite Z2Nat.id in H by lia. apply Z.eqb_eq in H. rewrite H. lia.
Qed.

Lemma last_byte_eq v k : 0 <= v -> 0 <= k -> last_byte v k = (v / 2 ^ k) mod 128.
Proof. intros. unfold last_byte. rewrite more_byte_eq, land_127 by assumption. lia. Qed.

Lemma full_byte_eq v k : 0 <= v -> 0 <= k -> full_byte v k = (v / 2 ^ k) mod 256.
Proof. intros. unfold full_byte. rewrite Z.shiftr_div_pow2, land_255' by assumption. reflexivity. Qed.

Lemma lor_shift_add t c k : 0 <= k -> 0 <= t < 2 ^ k -> Z.lor t (Z.shiftl c k) = t + c * 2 ^ k.
Proof.
  intros Hk Ht. rewrite Z.lor_comm, Z.shiftl_mul_pow2 by assumption. rewrite lor_low by assumption. ring.
Qed.

Lemma read_more n v k rest : 0 <= v -> 0 <= k ->
  fget_varint_from (S n) (v mod 2 ^ k) k (more_byte v k :: rest)
  = fget_varint_from n (v mod 2 ^ (k + 7)) (k + 7) rest.
Proof.
  intros Hv Hk. cbn [fget_varint_from]. rewrite more_byte_eq by assumption.
  assert (P : 0 < 2 ^ k) by (apply Z.pow_pos_nonneg; lia).
  change 0x80 with 128. change 0x7f with 127. rewrite testbit7_128 by lia.
  destruct (Z.ltb_spec ((v / 2 ^ k) mod 128 + 128) 128); [lia|].
  rewrite land_127, lor_shift_add by (try lia; apply Z.mod_pos_bound; exact P).
  f_equal. rewrite Z.pow_add_r by lia. change (2 ^ 7) with 128.
  rewrite (Z.rem_mul_r v (2 ^ k) 128) by lia.
  replace (((v / 2 ^ k) mod 128 + 128) mod 128) with ((v / 2 ^ k) mod 128) by lia. ring.
Qed.

Lemma read_last n v k rest : 0 <= v < 2 ^ (k + 7) -> 0 <= k ->
  fget_varint_from (S n) (v mod 2 ^ k) k (last_byte v k :: rest) = Some (v, rest).
Proof.
  intros Hv Hk. cbn [fget_varint_from]. rewrite last_byte_eq by lia.
  assert (P : 0 < 2 ^ k) by (apply Z.pow_pos_nonneg; lia).
  change 0x80 with 128. change 0x7f with 127. rewrite testbit7_128 by lia.
  destruct (Z.ltb_spec ((v / 2 ^ k) mod 128) 128); [|lia].
  rewrite land_127, lor_shift_add by (try lia; apply Z.mod_pos_bound; exact P).
  do 2 f_equal. rewrite Z.pow_add_r in Hv by lia. change (2 ^ 7) with 128 in Hv.
  assert (v / 2 ^ k < 128) by (apply Z.div_lt_upper_bound; lia).
  assert (0 <= v / 2 ^ k) by (apply Z.div_pos; lia).
  pose proof (Z.div_mod v (2 ^ k) ltac:(lia)). replace (((v / 2 ^ k) mod 128) mod 128) with (v / 2 ^ k) by lia. lia.
Qed.

Lemma read_full v rest : 0 <= v < 2 ^ 64 ->
  fget_varint_from 0 (v mod 2 ^ 56) 56 (full_byte v 56 :: rest) = Some (v, rest).
Proof.
  intros Hv. cbn [fget_varint_from]. rewrite full_byte_eq by lia.
  rewrite lor_shift_add by lia.
  do 2 f_equal. lia.
Qed.

Lemma varint_roundtrip v rest : 0 <= v < 2 ^ 64 -> fget_varint (enc_varint v ++ rest) = Some (v, rest).
Proof.
  intros Hv. unfold fget_varint. replace 0 with (v mod 2 ^ 0) at 1 by (rewrite Z.mod_1_r; reflexivity).
  unfold enc_varint.
  destruct (Z.leb_spec (2 ^ 7) v); cbn [app];
    [rewrite read_more by lia; change (0 + 7) with 7 | apply read_last; [change (0 + 7) with 7|]; lia].
  destruct (Z.leb_spec (2 ^ 14) v); cbn [app];
    [rewrite read_more by lia; change (7 + 7) with 14 | apply read_last; [change (7 + 7) with 14|]; lia].
  destruct (Z.leb_spec (2 ^ 21) v); cbn [app];
    [rewrite read_more by lia; change (14 + 7) with 21 | apply read_last; [change (14 + 7) with 21|]; lia].
  destruct (Z.leb_spec (2 ^ 28) v); cbn [app];
    [rewrite read_more by lia; change (21 + 7) with 28 | apply read_last; [change (21 + 7) with 28|]; lia].
  destruct (Z.leb_spec (2 ^ 35) v); cbn [app];
    [rewrite read_more by lia; change (28 + 7) with 35 | apply read_last; [change (28 + 7) with 35|]; lia].
  destruct (Z.leb_spec (2 ^ 42) v); cbn [app];
    [rewrite read_more by lia; change (35 + 7) with 42 | apply read_last; [change (35 + 7) with 42|]; lia].
  destruct (Z.leb_spec (2 ^ 49) v); cbn [app];
    [rewrite read_more by lia; change (42 + 7) with 49 | apply read_last; [change (42 + 7) with 49|]; lia].
  destruct (Z.leb_spec (2 ^ 56) v); cbn [app];
    [rewrite read_more by lia; change (49 + 7) with 56 | apply read_last; [change (49 + 7) with 56|]; lia].
  apply read_full. exact Hv.
Qed.

Lemma gint_roundtrip v rest : is64 v -> read_gint (log_gint v ++ rest) = Some (v, rest).
Proof.
  intros Hv. unfold read_gint, log_gint. rewrite varint_roundtrip by (unfold u64; lia).
  do 2 f_equal. unfold is64, wrap64, u64 in *. 
  change (2 ^ 63) with 9223372036854775808 in *.
  change (2 ^ 64) with 18446744073709551616 in *. lia.
Qed.

(** Reading consumes a prefix: extending the input does not change the outcome. *)
Lemma read_from_app n : forall tmp k f v rest more,
  fget_varint_from n tmp k f = Some (v, rest) -> fget_varint_from n tmp k (f ++ more) = Some (v, rest ++ more).
Proof.
  induction n as [|n IH]; intros tmp k f v rest more H; destruct f as [|c f]; cbn in *; try discriminate.
  - injection H as <- <-. reflexivity.
  - destruct (Z.land c 128 =? 0).
    + injection H as <- <-. reflexivity.
    + apply IH. exact H.
Qed.

Lemma varint_truncated v p q : 0 <= v < 2 ^ 64 -> enc_varint v = p ++ q -> q <> [] -> fget_varint p = None.
Proof.
  intros Hv He Hq. destruct (fget_varint p) as [(w, r)|] eqn:E; [|reflexivity]. exfalso.
  pose proof (read_from_app _ _ _ _ _ _ q E) as H. fold (fget_varint (p ++ q)) in H.
  rewrite <- He in H. rewrite <- (app_nil_r (enc_varint v)) in H.
  rewrite varint_roundtrip in H by assumption. injection H as _ H.
  symmetry in H. apply app_eq_nil in H. destruct H as (_ & ->). contradiction.
Qed.

Lemma enc_varint_bytes v : 0 <= v < 2 ^ 64 -> Forall byte (enc_varint v) /\ (1 <= length (enc_varint v) <= 9)%nat.
Proof.
  intros Hv. unfold enc_varint.
  assert (M : forall k, 0 <= k -> byte (more_byte v k)) by (intros; rewrite more_byte_eq by lia; unfold byte; lia).
  assert (L : forall k, 0 <= k -> byte (last_byte v k)) by (intros; rewrite last_byte_eq by lia; unfold byte; lia).
  assert (F : forall k, 0 <= k -> byte (full_byte v k)) by (intros; rewrite full_byte_eq by lia; unfold byte; lia).
  repeat match goal with |- context [if ?b then _ else _] => destruct b end;
    (split; [repeat (apply Forall_cons; [first [apply M; lia|apply L; lia|apply F; lia]|]); apply Forall_nil|cbn [length]; lia]).
Qed.
