(** C02 for fixpoint numbers with the rounding of the C type double. [sfval x] is the value of a
    finite double in units of 2^-1200, an integer. *)
From Coq Require Import ZArith Lia Bool Floats.SpecFloat.
From Verif Require Import Base EncodingModel EncodingProofs CompareModel FixpModel FixpProofs.
Open Scope Z_scope.
#[local] Ltac Zify.zify_post_hook ::= idtac.

Lemma enc_eq p : Z.abs p <= 8000000 -> encode_fixpoint p = wg_encode_fixpoint p.
Proof.
  intros H. unfold wg_encode_fixpoint. destruct (Z.leb_spec p (800 * 10000)); [|lia].
  rewrite Z.geb_leb. destruct (Z.leb_spec (- 800 * 10000) p); [reflexivity|lia].
Qed.

(** Every double from -800 to 800 is accepted and comes back with an error of at most
    1/20000 * (1 + 2^-27). *)
Theorem C02_fixpoint_error x : valid_binary 53 1024 x = true -> dfits_fixpoint x = true ->
  dencode_fixpoint x <> WG_ILLEGAL /\ finite (ddecode_fixpoint (dencode_fixpoint x)) = true /\
  20000 * Z.abs (sfval (ddecode_fixpoint (dencode_fixpoint x)) - sfval x) <= 2 ^ 1200 + 2 ^ (1200 - 27).
Proof.
  intros V F. destruct (fix_encode x V F) as (p & E & R & B). unfold dencode_fixpoint. rewrite F, E, enc_eq by assumption.
  destruct (fixpoint_roundtrip p) as (RT & NI); [lia|]. split; [exact NI|].
  assert (D : ddecode_fixpoint (wg_encode_fixpoint p) = ddiv (double_of_int p) FIXPOINTDIVISOR).
  { unfold ddecode_fixpoint. unfold wg_decode_fixpoint in RT. destruct (isfixpoint (wg_encode_fixpoint p)) eqn:I.
    - now rewrite RT.
    - subst p. vm_compute in I. discriminate. }
  rewrite D. destruct (fix_decode p R) as (Fn & Bd). split; [exact Fn|].
  change (2 ^ (1200 - 27)) with (2 ^ 17 * 2 ^ (K - 44)). change (2 ^ (K - 29)) with (2 ^ 15 * 2 ^ (K - 44)) in B.
  change 1200 with K. set (T := 2 ^ K) in *. assert (0 < 2 ^ (K - 44)) by reflexivity. set (w := 2 ^ (K - 44)) in *.
  set (Y := sfval (ddiv _ _)) in *. set (X := sfval x) in *. clearbody T w Y X. change (2 ^ 17) with 131072. change (2 ^ 15) with 32768 in B. lia.
Qed.
Print Assumptions C02_fixpoint_error.
(** 123.45678 is stored as 1234568 parts of 1/10000. *)
Example C02_fixpoint_error_ex : valid_binary 53 1024 (S754_finite false 8687498568818145 (-46)) = true /\
  dfits_fixpoint (S754_finite false 8687498568818145 (-46)) = true /\
  decode_fixpoint (dencode_fixpoint (S754_finite false 8687498568818145 (-46))) = 1234568.
Proof. vm_compute. auto. Qed.

(** The decoder gives different doubles for different stored numbers. *)
Theorem C02_fixpoint_distinct p q : - 8000000 <= p <= 8000000 -> - 8000000 <= q <= 8000000 -> p <> q ->
  sfval (ddecode_fixpoint (wg_encode_fixpoint p)) <> sfval (ddecode_fixpoint (wg_encode_fixpoint q)).
Proof.
  assert (D : forall p, - 8000000 <= p <= 8000000 -> ddecode_fixpoint (wg_encode_fixpoint p) = ddiv (double_of_int p) FIXPOINTDIVISOR).
  { intros r R. unfold ddecode_fixpoint. destruct (fixpoint_roundtrip r R) as (RT & _). unfold wg_decode_fixpoint in RT.
    destruct (isfixpoint (wg_encode_fixpoint r)) eqn:I; [now rewrite RT|]. subst r. vm_compute in I. discriminate. }
  intros Hp Hq N E. rewrite !D in E by assumption. apply N. apply fix_decode_inj; [lia|lia|exact E].
Qed.
Print Assumptions C02_fixpoint_distinct.
Example C02_fixpoint_distinct_ex : ddecode_fixpoint (wg_encode_fixpoint 1) = S754_finite false 7378697629483821 (-66) /\
  ddecode_fixpoint (wg_encode_fixpoint (-1)) = S754_finite true 7378697629483821 (-66).
Proof. vm_compute. auto. Qed.

(** The error exceeds half of 1/10000 for the double 0.00005, which comes back as 0.0001. *)
Theorem C02_fixpoint_half_refuted : exists x, valid_binary 53 1024 x = true /\ dfits_fixpoint x = true /\
  20000 * Z.abs (sfval (ddecode_fixpoint (dencode_fixpoint x)) - sfval x) > 2 ^ 1200.
Proof. exists (S754_finite false 7378697629483821 (-67)). vm_compute. auto. Qed.
Print Assumptions C02_fixpoint_half_refuted.

(** The encoder accepts exactly the finite doubles from -800 to 800. *)
Lemma val_fits s m e : valid_binary 53 1024 (S754_finite s m e) = true -> Z.pos m * 2 ^ (e + K) <= 800 * 2 ^ K ->
  dfits_fixpoint (S754_finite s m e) = true.
Proof.
  intros V B. cbn [valid_binary] in V. unfold bounded, canonical_mantissa in V. apply andb_true_iff in V. destruct V as (V1 & V2).
  apply Zeq_bool_eq in V1. rewrite fexp_eq in V1. destruct (digits_pos m) as (L & U). set (d := Z.pos (digits2_pos m)) in *.
  change (800 * 2 ^ K) with (7036874417766400 * 2 ^ (-43 + K)) in B.
  assert (Q : e < -43 \/ e = -43 /\ Z.pos m <= 7036874417766400).
  { destruct (Z.lt_trichotomy e (-43)) as [Q | [Q | Q]]; [auto| |exfalso].
    - right. split; [exact Q|]. subst e. apply Z.mul_le_mono_pos_r in B; [exact B|reflexivity].
    - assert (D : d = 53) by lia. rewrite D in L. change (2 ^ (53 - 1)) with 4503599627370496 in L.
      assert (B2 : 2 * 2 ^ (-43 + K) <= 2 ^ (e + K)).
      { rewrite <- Z.pow_succ_r by (unfold K; lia). apply Z.pow_le_mono_r; lia. }
      assert (0 < 2 ^ (-43 + K)) by reflexivity. set (a := 2 ^ (e + K)) in *. set (b := 2 ^ (-43 + K)) in *. clearbody a b. nia. }
  unfold dfits_fixpoint. apply andb_true_iff.
  change (double_of_int MAXFIXPOINT) with (S754_finite false 7036874417766400 (-43)).
  change (double_of_int MINFIXPOINT) with (S754_finite true 7036874417766400 (-43)).
  unfold SFleb, SFcompare. destruct s; cbv iota; rewrite pcmp.
  - split; [reflexivity|]. destruct (Z.compare_spec (-43) e) as [C | C | C]; [|lia|reflexivity].
    assert (M : Z.pos m <= 7036874417766400) by lia. destruct (Pos.compare_spec 7036874417766400 m); [reflexivity| |reflexivity].
    exfalso. apply (Z.lt_irrefl (Z.pos m)). eapply Z.le_lt_trans; [exact M|assumption].
  - split; [|reflexivity]. destruct (Z.compare_spec e (-43)) as [C | C | C]; [|reflexivity|lia].
    assert (M : Z.pos m <= 7036874417766400) by lia. destruct (Pos.compare_spec m 7036874417766400); [reflexivity|reflexivity|].
    exfalso. apply (Z.lt_irrefl (Z.pos m)). eapply Z.le_lt_trans; [exact M|assumption].
Qed.
Theorem C02_fixpoint_range x : valid_binary 53 1024 x = true ->
  (dencode_fixpoint x <> WG_ILLEGAL <-> finite x = true /\ Z.abs (sfval x) <= 800 * 2 ^ 1200).
Proof.
  intros V. change 1200 with K. split.
  - intros N. destruct (dfits_fixpoint x) eqn:F; [|unfold dencode_fixpoint in N; rewrite F in N; congruence].
    pose proof (fits_val x V F) as B. destruct x as [s|s| |s m e]; try contradiction; (split; [reflexivity|]).
    + apply Z.leb_le. reflexivity.
    + cbn [sfval]. destruct B as (_ & _ & B). assert (0 <= Z.pos m * 2 ^ (e + K)) by (apply Z.mul_nonneg_nonneg; [lia|apply Z.pow_nonneg; lia]). destruct s; lia.
  - intros (F & B). destruct x as [s|s| |s m e]; try discriminate F.
    + destruct s; vm_compute; discriminate.
    + apply C02_fixpoint_error; [exact V|]. apply val_fits; [exact V|]. cbn [sfval] in B. rewrite Z.abs_mul in B. set (M := Z.pos m * 2 ^ (e + K)) in *. clearbody M. destruct s; lia.
Qed.
Print Assumptions C02_fixpoint_range.
(** 800 is accepted, the next double after it is not. *)
Example C02_fixpoint_range_ex : dencode_fixpoint (S754_finite false 7036874417766400 (-43)) = 2048000015 /\
  dencode_fixpoint (S754_finite false 7036874417766401 (-43)) = WG_ILLEGAL /\ valid_binary 53 1024 (S754_finite false 7036874417766401 (-43)) = true.
Proof. vm_compute. auto. Qed.

(** The 64 bits of the decoded doubles, which the hash index uses as key, tell the stored numbers apart too. *)
Theorem C02_fixpoint_bits_distinct p q : - 8000000 <= p <= 8000000 -> - 8000000 <= q <= 8000000 -> p <> q ->
  bits_of_double (ddecode_fixpoint (wg_encode_fixpoint p)) <> bits_of_double (ddecode_fixpoint (wg_encode_fixpoint q)).
Proof.
  assert (D : forall p, - 8000000 <= p <= 8000000 -> ddecode_fixpoint (wg_encode_fixpoint p) = ddiv (double_of_int p) FIXPOINTDIVISOR).
  { intros r R. unfold ddecode_fixpoint. destruct (fixpoint_roundtrip r R) as (RT & _). unfold wg_decode_fixpoint in RT.
    destruct (isfixpoint (wg_encode_fixpoint r)) eqn:I; [now rewrite RT|]. subst r. vm_compute in I. discriminate. }
  intros Hp Hq N E. rewrite !D in E by assumption. apply N. apply fix_bits_inj; [lia|lia|exact E].
Qed.
Print Assumptions C02_fixpoint_bits_distinct.
(** 1.5 is 0x3FF8000000000000. *)
Example C02_fixpoint_bits_distinct_ex : bits_of_double (ddecode_fixpoint (wg_encode_fixpoint 15000)) = 0x3FF8000000000000 /\
  bits_of_double (ddecode_fixpoint (wg_encode_fixpoint (-15000))) = 0xBFF8000000000000.
Proof. vm_compute. auto. Qed.
