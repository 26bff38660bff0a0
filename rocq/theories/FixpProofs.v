(** Rounding errors of the arithmetic on fixpoint numbers. *)
From Coq Require Import ZArith List Lia Bool Floats.SpecFloat.
From Verif Require Import Base EncodingModel EncodingProofs CompareModel FixpModel.
Open Scope Z_scope.
#[local] Ltac Zify.zify_post_hook ::= idtac.

(** Value of a finite double in units of 2^-1200. *)
Definition K := 1200.
Definition sfval (x : spec_float) : Z :=
  match x with
  | S754_finite s m e => (if s then -1 else 1) * (Z.pos m * 2 ^ (e + K))
  | _ => 0
  end.
(** No exponent below the least one of binary64. *)
Definition emin_ok (x : spec_float) : Prop := match x with S754_finite _ _ e => -1074 <= e | _ => True end.
(** A normal number of the given sign. *)
Definition normal (sg : bool) (x : spec_float) : Prop :=
  match x with S754_finite s m e => s = sg /\ 2 ^ 52 <= Z.pos m < 2 ^ 53 /\ -1074 <= e <= 971 | _ => False end.
Definition finite (x : spec_float) : bool :=
  match x with S754_finite _ _ _ | S754_zero _ => true | _ => false end.

Lemma digits_pos m : 2 ^ (Z.pos (digits2_pos m) - 1) <= Z.pos m < 2 ^ Z.pos (digits2_pos m).
Proof.
  induction m as [m IH | m IH |]; cbn [digits2_pos].
  - rewrite Pos2Z.inj_succ. replace (Z.succ (Z.pos (digits2_pos m)) - 1) with (Z.succ (Z.pos (digits2_pos m) - 1)) by lia.
    rewrite !Z.pow_succ_r by lia. lia.
  - rewrite Pos2Z.inj_succ. replace (Z.succ (Z.pos (digits2_pos m)) - 1) with (Z.succ (Z.pos (digits2_pos m) - 1)) by lia.
    rewrite !Z.pow_succ_r by lia. lia.
  - cbn. lia.
Qed.
Lemma shr_1_m r : 0 <= shr_m r -> shr_m (shr_1 r) = shr_m r / 2.
Proof.
  destruct r as [m a b]. cbn [shr_m]. intros H. destruct m as [|p|p]; [reflexivity| |lia].
  destruct p; cbn [shr_1 shr_m]; [|apply Z.div_unique with 0; lia|reflexivity]. apply Z.div_unique with 1; lia.
Qed.
Lemma iter_shr p : forall r, 0 <= shr_m r -> shr_m (iter_pos shr_1 p r) = shr_m r / 2 ^ Z.pos p.
Proof.
  assert (D : forall n k a, 0 <= n -> 0 <= k -> 0 <= a / 2 ^ k -> a / 2 ^ k / 2 ^ n = a / 2 ^ (k + n)).
  { intros. rewrite Z.div_div by lia. now rewrite Z.pow_add_r by lia. }
  induction p as [p IH | p IH |]; intros r H; cbn [iter_pos].
  - assert (P1 : 0 <= shr_m r / 2) by (apply Z.div_pos; lia).
    assert (P2 : 0 <= shr_m r / 2 / 2 ^ Z.pos p) by (apply Z.div_pos; lia).
    rewrite IH; rewrite IH; rewrite ?shr_1_m by assumption; try assumption.
    rewrite !Z.div_div by lia. f_equal. rewrite (Pos2Z.inj_xI p). replace (2 * Z.pos p + 1) with (1 + Z.pos p + Z.pos p) by lia.
    rewrite !Z.pow_add_r by lia. change (2 ^ 1) with 2. ring.
  - assert (P2 : 0 <= shr_m r / 2 ^ Z.pos p) by (apply Z.div_pos; lia).
    rewrite IH; rewrite IH by assumption; try assumption.
    rewrite !Z.div_div by lia. f_equal. rewrite (Pos2Z.inj_xO p). replace (2 * Z.pos p) with (Z.pos p + Z.pos p) by lia.
    now rewrite !Z.pow_add_r by lia.
  - rewrite shr_1_m by assumption. reflexivity.
Qed.
Lemma shr_spec r e n : 0 <= shr_m r -> shr_m (fst (shr r e n)) = shr_m r / 2 ^ Z.max 0 n /\ snd (shr r e n) = e + Z.max 0 n.
Proof.
  intros H. destruct n as [|p|p]; cbn [shr fst snd].
  - rewrite Z.max_id, Z.div_1_r. lia.
  - rewrite iter_shr by assumption. rewrite Z.max_r by lia. auto.
  - rewrite Z.max_l by lia. rewrite Z.div_1_r. lia.
Qed.
Lemma of_loc_m m l : shr_m (shr_record_of_loc m l) = m.
Proof. destruct l as [|[]]; reflexivity. Qed.
Lemma nearest_cases m l : round_nearest_even m l = m \/ round_nearest_even m l = m + 1.
Proof. destruct l as [|[]]; cbn; auto. destruct (Z.even m); auto. Qed.
Lemma Zdigits2_pos m : 0 < m -> 0 < Zdigits2 m /\ 2 ^ (Zdigits2 m - 1) <= m < 2 ^ Zdigits2 m.
Proof. destruct m as [|p|p]; try lia. intros _. cbn [Zdigits2]. split; [lia|apply digits_pos]. Qed.
Lemma Zdigits2_le m k : 0 <= m < 2 ^ k -> 0 <= k -> 0 <= Zdigits2 m <= k.
Proof.
  intros H Hk. destruct (Z.eq_dec m 0) as [-> | N]; [cbn; lia|].
  destruct (Zdigits2_pos m ltac:(lia)) as (A & B & C). split; [lia|].
  destruct (Z.le_gt_cases (Zdigits2 m) k); [assumption|]. assert (2 ^ k <= 2 ^ (Zdigits2 m - 1)) by (apply Z.pow_le_mono_r; lia). lia.
Qed.

(** Exponent of the rounded number. *)
Definition rexp (mx ex : Z) : Z := Z.max ex (Z.max (Zdigits2 mx + ex - 53) (-1074)).

Lemma fexp_eq e : fexp 53 1024 e = Z.max (e - 53) (-1074).
Proof. reflexivity. Qed.

Lemma round_aux s mx ex l : 0 < mx -> -1190 <= ex <= 800 -> Zdigits2 mx + ex <= 800 ->
  (finite (binary_round_aux 53 1024 s mx ex l) = true /\ emin_ok (binary_round_aux 53 1024 s mx ex l)) /\
  Z.abs (sfval (binary_round_aux 53 1024 s mx ex l) - (if s then -1 else 1) * (mx * 2 ^ (ex + K))) <= 2 ^ (rexp mx ex + K) /\
  (l = loc_Exact -> rexp mx ex = ex -> sfval (binary_round_aux 53 1024 s mx ex l) = (if s then -1 else 1) * (mx * 2 ^ (ex + K))) /\
  (53 <= Zdigits2 mx -> -1074 <= ex -> normal s (binary_round_aux 53 1024 s mx ex l)).
Proof.
  intros Hm He Hd. unfold binary_round_aux, shr_fexp. rewrite fexp_eq.
  destruct (Zdigits2_pos mx Hm) as (Dp & Dl & Du).
  set (n := Z.max (Zdigits2 mx + ex - 53) (-1074) - ex).
  assert (S1 := shr_spec (shr_record_of_loc mx l) ex n). rewrite of_loc_m in S1. specialize (S1 ltac:(lia)).
  destruct (shr (shr_record_of_loc mx l) ex n) as [r1 e1] eqn:E1. cbn [fst snd] in S1. destruct S1 as (M1 & X1).
  assert (RE : e1 = rexp mx ex) by (rewrite X1; unfold rexp, n; lia).
  set (m2 := round_nearest_even (shr_m r1) (loc_of_shr_record r1)).
  assert (P1 : 0 <= shr_m r1) by (rewrite M1; apply Z.div_pos; lia).
  assert (EX : l = loc_Exact -> rexp mx ex = ex -> m2 = mx).
  { intros -> Q. assert (N0 : Z.max 0 n = 0) by (rewrite <- RE in Q; lia).
    assert (n <= 0) by lia. clear - E1 H. unfold m2. destruct n as [|p|p]; cbn [shr] in E1; try lia; injection E1 as <- <-; reflexivity. }
  assert (C2 : m2 = shr_m r1 \/ m2 = shr_m r1 + 1) by apply nearest_cases.
  assert (B1 : shr_m r1 < 2 ^ 53).
  { rewrite M1. apply Z.div_lt_upper_bound; [lia|]. rewrite <- Z.pow_add_r by lia.
    eapply Z.lt_le_trans; [exact Du|]. apply Z.pow_le_mono_r; [lia|]. unfold n. lia. }
  set (n2 := Z.max (Zdigits2 m2 + e1 - 53) (-1074) - e1).
  assert (S2 := shr_spec (shr_record_of_loc m2 loc_Exact) e1 n2). rewrite of_loc_m in S2. specialize (S2 ltac:(lia)).
  destruct (shr (shr_record_of_loc m2 loc_Exact) e1 n2) as [r2 e2] eqn:E2. cbn [fst snd] in S2. destruct S2 as (M2 & X2).
  assert (N2 : (Z.max 0 n2 = 0 /\ m2 <> 2 ^ 53) \/ (Z.max 0 n2 = 1 /\ m2 = 2 ^ 53)).
  { assert (e1 >= -1074) by (rewrite RE; unfold rexp; lia).
    destruct (Z.eq_dec m2 (2 ^ 53)) as [Q | Q].
    - right. split; [|assumption]. unfold n2. rewrite Q. replace (Zdigits2 (2 ^ 53)) with 54 by reflexivity. lia.
    - left. split; [|exact Q]. destruct (Zdigits2_le m2 53) as (_ & U); [|lia|]. { assert (2 ^ 53 = 9007199254740992) by reflexivity. lia. } unfold n2. lia. }
  assert (V2 : shr_m r2 * 2 ^ (e2 + K) = m2 * 2 ^ (e1 + K)).
  { rewrite M2, X2. destruct N2 as [(-> & _) | (-> & ->)].
    - rewrite Z.div_1_r, Z.add_0_r. reflexivity.
    - change (2 ^ 53 / 2 ^ 1) with (2 ^ 52). replace (e1 + 1 + K) with (1 + (e1 + K)) by lia.
      rewrite Z.pow_add_r; [|lia|unfold K; lia]. change (2 ^ 53) with (2 ^ 52 * 2). change (2 ^ 1) with 2. ring. }
  assert (P2 : 0 <= shr_m r2) by (rewrite M2; apply Z.div_pos; lia).
  assert (LE2 : e2 <= 1024 - 53) by (rewrite X2, RE; unfold rexp; lia).
  assert (W : Z.abs (m2 * 2 ^ (e1 + K) - mx * 2 ^ (ex + K)) <= 2 ^ (rexp mx ex + K)).
  { rewrite <- RE. rewrite X1. replace (ex + Z.max 0 n + K) with (Z.max 0 n + (ex + K)) by lia.
    assert (0 <= ex + K) by (unfold K; lia). rewrite Z.pow_add_r by lia. set (q := 2 ^ Z.max 0 n) in *.
    assert (0 < q) by (unfold q; lia). assert (0 < 2 ^ (ex + K)) by lia. set (t := 2 ^ (ex + K)) in *.
    assert (mx = q * shr_m r1 + mx mod q) by (rewrite M1; apply Z.div_mod; lia).
    assert (0 <= mx mod q < q) by (apply Z.mod_pos_bound; lia).
    assert (m2 * (q * t) - mx * t = (m2 * q - mx) * t) by ring. rewrite H4.
    rewrite Z.abs_mul, (Z.abs_eq t) by lia. apply Z.mul_le_mono_nonneg_r; [lia|].
    destruct C2 as [-> | ->]; nia. }
  rewrite fexp_eq. fold n2. rewrite E2.
  assert (PK : 0 < 2 ^ (e1 + K)). { apply Z.pow_pos_nonneg; [lia|]. clear - RE. unfold rexp, K in *. lia. }
  assert (EM : -1074 <= e2) by (rewrite X2, RE; clear; unfold rexp; lia).
  assert (NM : 53 <= Zdigits2 mx -> -1074 <= ex -> 2 ^ 52 <= shr_m r2 < 2 ^ 53).
  { intros D53 X0. assert (EN : Z.max 0 n = Zdigits2 mx - 53) by (clear - D53 X0; unfold n; lia).
    assert (L1 : 2 ^ 52 <= shr_m r1).
    { rewrite M1, EN. apply Z.div_le_lower_bound; [apply Z.pow_pos_nonneg; clear - D53; lia|]. rewrite <- Z.pow_add_r by (clear - D53; lia).
      eapply Z.le_trans; [|exact Dl]. apply Z.pow_le_mono_r; clear - D53; lia. }
    rewrite M2. destruct N2 as [(-> & Q) | (-> & ->)].
    - change (2 ^ 0) with 1. rewrite Z.div_1_r. clear - L1 B1 C2 Q. clearbody m2. revert L1 B1 Q. generalize (2 ^ 52), (2 ^ 53). intros; lia.
    - change (2 ^ 53 / 2 ^ 1) with (2 ^ 52). split; [apply Z.le_refl|reflexivity]. }
  clear - V2 P2 LE2 W EX PK RE Hm EM NM. set (A := mx * 2 ^ (ex + K)) in *. set (B := m2 * 2 ^ (e1 + K)) in *.
  assert (F : forall s : bool, Z.abs ((if s then -1 else 1) * B - (if s then -1 else 1) * A) <= 2 ^ (rexp mx ex + K)) by (clear - W; intros []; lia).
  assert (G : l = loc_Exact -> rexp mx ex = ex -> B = A) by (intros Q1 Q2; unfold A, B; now rewrite (EX Q1 Q2), RE, Q2).
  destruct (shr_m r2) as [|p|p] eqn:Er.
  - assert (Z0 : B = 0) by (clear - V2; lia). specialize (F s). rewrite Z0 in F, G. cbn [sfval finite emin_ok]. split; [split; [reflexivity|exact Logic.I]|]. split.
    + rewrite Z.mul_0_r in F. exact F.
    + split; [intros Q1 Q2; rewrite <- (G Q1 Q2); now rewrite Z.mul_0_r|].
      intros Q1 Q2. specialize (NM Q1 Q2). clear - NM. change (2 ^ 52) with 4503599627370496 in NM. lia.
  - apply Z.leb_le in LE2. rewrite LE2. split; [split; [reflexivity|exact EM]|]. cbn [sfval]. rewrite V2. split; [apply F|].
    split; [intros Q1 Q2; now rewrite (G Q1 Q2)|]. intros Q1 Q2. cbn [normal]. apply Z.leb_le in LE2. change (1024 - 53) with 971 in LE2. exact (conj eq_refl (conj (NM Q1 Q2) (conj EM LE2))).
  - clear - P2. lia.
Qed.

Lemma Zdigits2_unique m k : 0 < k -> 2 ^ (k - 1) <= m < 2 ^ k -> Zdigits2 m = k.
Proof.
  intros Hk H. assert (0 < 2 ^ (k - 1)) by (apply Z.pow_pos_nonneg; lia). destruct (Zdigits2_pos m) as (A & B & C); [lia|].
  assert (~ Zdigits2 m < k). { intros L. assert (2 ^ Zdigits2 m <= 2 ^ (k - 1)) by (apply Z.pow_le_mono_r; lia). lia. }
  assert (~ k < Zdigits2 m). { intros L. assert (2 ^ k <= 2 ^ (Zdigits2 m - 1)) by (apply Z.pow_le_mono_r; lia). lia. }
  lia.
Qed.
Lemma round_canon s m e : Zdigits2 (Z.pos m) = 53 -> -1074 <= e <= 971 -> binary_round_aux 53 1024 s (Z.pos m) e loc_Exact = S754_finite s m e.
Proof.
  intros D E. unfold binary_round_aux, shr_fexp. rewrite !fexp_eq, D. replace (Z.max (53 + e - 53) (-1074) - e) with 0 by lia. cbn [shr shr_record_of_loc shr_m loc_of_shr_record round_nearest_even].
  rewrite fexp_eq, D. replace (Z.max (53 + e - 53) (-1074) - e) with 0 by lia. cbn [shr shr_record_of_loc shr_m].
  destruct (Z.leb_spec e (1024 - 53)); [reflexivity|lia].
Qed.
(** Small integers are doubles. *)
Lemma int_double s p : Z.pos p < 2 ^ 52 ->
  exists m d, 0 < d < 53 /\ Z.pos p < 2 ^ d /\ 2 ^ (d - 1) <= Z.pos p /\ Z.pos m = Z.pos p * 2 ^ (53 - d) /\ Zdigits2 (Z.pos m) = 53 /\
  binary_round 53 1024 s p 0 = S754_finite s m (d - 53).
Proof.
  intros H. destruct (digits_pos p) as (L & U). set (d := Z.pos (digits2_pos p)) in *.
  assert (Hd : 0 < d < 53).
  { split; [unfold d; lia|]. destruct (Z.lt_ge_cases d 53); [assumption|]. assert (2 ^ 52 <= 2 ^ (d - 1)) by (apply Z.pow_le_mono_r; lia). lia. }
  unfold binary_round. fold d. rewrite Z.add_0_r, fexp_eq. replace (Z.max (d - 53) (-1074)) with (d - 53) by lia.
  unfold shl_align. rewrite Z.sub_0_r.
  destruct (d - 53) as [|q|q] eqn:E; try lia.
  assert (P : Z.pos (shift_pos q p) = Z.pos p * 2 ^ (53 - d)).
  { rewrite shift_pos_correct, Zpower_pos_nat, Zpower_nat_Z. rewrite positive_nat_Z. replace (53 - d) with (Z.pos q) by lia. ring. }
  assert (D : Zdigits2 (Z.pos (shift_pos q p)) = 53).
  { apply Zdigits2_unique; [lia|]. rewrite P. replace (53 - 1) with (d - 1 + (53 - d)) by lia. rewrite Z.pow_add_r by lia.
    replace 53 with (d + (53 - d)) at 4 by lia. rewrite Z.pow_add_r by lia. assert (0 < 2 ^ (53 - d)) by (apply Z.pow_pos_nonneg; lia). nia. }
  exists (shift_pos q p), d. repeat (split; [assumption|]). rewrite round_canon by (assumption || lia). now rewrite <- E.
Qed.

Lemma divisor_eq : FIXPOINTDIVISOR = S754_finite false 5497558138880000 (-39).
Proof. reflexivity. Qed.
Lemma divisor_z : 5497558138880000 = 10000 * 2 ^ 39. Proof. reflexivity. Qed.

(** Division by 10000. *)
Lemma ddiv_pos s p : Z.pos p <= 8000000 ->
  (finite (ddiv (binary_round 53 1024 s p 0) FIXPOINTDIVISOR) = true /\ normal s (ddiv (binary_round 53 1024 s p 0) FIXPOINTDIVISOR)) /\
  Z.abs (10000 * sfval (ddiv (binary_round 53 1024 s p 0) FIXPOINTDIVISOR) - (if s then -1 else 1) * (Z.pos p * 2 ^ K)) <= 30000 * 2 ^ (K - 44).
Proof.
  intros H. destruct (int_double s p) as (m & d & Hd & Lt & Ge & Em & Dm & ->). { change (2 ^ 52) with 4503599627370496. lia. }
  assert (Hd' : d <= 23).
  { destruct (Z.le_gt_cases d 23); [assumption|]. assert (2 ^ 23 <= 2 ^ (d - 1)) by (apply Z.pow_le_mono_r; lia). change (2 ^ 23) with 8388608 in *. lia. }
  rewrite divisor_eq. unfold ddiv, SFdiv, SFdiv_core_binary. rewrite Dm.
  change (Zdigits2 (Z.pos 5497558138880000)) with 53. rewrite fexp_eq.
  replace (Z.min (Z.max (53 + (d - 53) - (53 + -39) - 53) (-1074)) (d - 53 - -39)) with (d - 67) by lia.
  replace (d - 53 - -39 - (d - 67)) with 53 by lia. cbn iota. rewrite Z.shiftl_mul_pow2 by lia.
  destruct (Z.div_eucl (Z.pos m * 2 ^ 53) (Z.pos 5497558138880000)) as [q r] eqn:Eq.
  pose proof (Z_div_mod (Z.pos m * 2 ^ 53) (Z.pos 5497558138880000) ltac:(reflexivity)) as DM. rewrite Eq in DM. destruct DM as (DM & Rr).
  assert (Bm : 2 ^ 52 <= Z.pos m < 2 ^ 53). { destruct (Zdigits2_pos (Z.pos m)) as (_ & A & B); [lia|]. rewrite Dm in A, B. auto. }
  change (2 ^ 52) with 4503599627370496 in Bm. change (2 ^ 53) with 9007199254740992 in *.
  assert (Bq : 0 < q < 2 ^ 54). { change (2 ^ 54) with 18014398509481984. lia. }
  assert (Dq : 0 <= Zdigits2 q <= 54) by (apply Zdigits2_le; lia).
  destruct (round_aux (xorb s false) q (d - 67) (new_location (Z.pos 5497558138880000) r)) as ((F & _) & B & _ & Nm); [lia|lia|lia|].
  assert (Q52 : 2 ^ 52 <= q) by (change (2 ^ 52) with 4503599627370496; lia).
  assert (D53 : 53 <= Zdigits2 q).
  { destruct (Zdigits2_pos q) as (_ & _ & U); [lia|]. destruct (Z.le_gt_cases 53 (Zdigits2 q)); [assumption|].
    assert (2 ^ Zdigits2 q <= 2 ^ 52) by (apply Z.pow_le_mono_r; lia). lia. }
  specialize (Nm D53 ltac:(lia)). rewrite xorb_false_r in *.
  split; [split; [exact F|exact Nm]|].
  assert (RX : rexp q (d - 67) <= d - 66) by (unfold rexp; lia).
  assert (PB : 2 ^ (rexp q (d - 67) + K) <= 2 * 2 ^ (d - 67 + K)).
  { replace (2 * 2 ^ (d - 67 + K)) with (2 ^ (d - 66 + K)); [apply Z.pow_le_mono_r; lia|].
    replace (d - 66 + K) with (Z.succ (d - 67 + K)) by lia. apply Z.pow_succ_r. unfold K. lia. }
  assert (V : Z.pos p * 2 ^ K * 2 ^ 39 = (5497558138880000 * q + r) * 2 ^ (d - 67 + K)).
  { rewrite <- DM, Em. rewrite <- !Z.mul_assoc. f_equal. change 9007199254740992 with (2 ^ 53).
    rewrite <- !Z.pow_add_r by (unfold K; lia). f_equal. lia. }
  assert (PB2 : 2 ^ (d - 67 + K) <= 2 ^ (K - 44)) by (apply Z.pow_le_mono_r; lia).
  assert (P0 : 0 < 2 ^ (d - 67 + K)) by (apply Z.pow_pos_nonneg; unfold K; lia).
  set (X := sfval _) in *. set (t := 2 ^ (d - 67 + K)) in *. set (T := 2 ^ K) in *. set (u := 2 ^ (rexp q (d - 67) + K)) in *. set (w := 2 ^ (K - 44)) in *.
  clear - V B PB PB2 P0 Rr. change (2 ^ 39) with 549755813888 in V.
  assert (W : Z.abs (10000 * (q * t) - Z.pos p * T) <= 10000 * t).
  { assert (0 <= r * t < 5497558138880000 * t) by nia.
    replace ((5497558138880000 * q + r) * t) with (5497558138880000 * (q * t) + r * t) in V by ring. set (qt := q * t) in *. set (pT := Z.pos p * T) in *. set (rt := r * t) in *. lia. }
  set (qt := q * t) in *. set (pT := Z.pos p * T) in *. destruct s; lia.
Qed.
Lemma fix_decode p : Z.abs p <= 8000000 ->
  finite (ddiv (double_of_int p) FIXPOINTDIVISOR) = true /\
  Z.abs (10000 * sfval (ddiv (double_of_int p) FIXPOINTDIVISOR) - p * 2 ^ K) <= 30000 * 2 ^ (K - 44).
Proof.
  intros H. unfold double_of_int, binary_normalize. destruct p as [|p|p].
  - split; [reflexivity|]. apply Z.leb_le. vm_compute. reflexivity.
  - destruct (ddiv_pos false p) as ((A & _) & B); [lia|]. split; [exact A|]. rewrite Z.mul_1_l in B. exact B.
  - destruct (ddiv_pos true p) as ((A & _) & B); [lia|]. split; [exact A|].
    replace (Z.neg p * 2 ^ K) with (-1 * (Z.pos p * 2 ^ K)); [exact B|].
    change (Z.neg p) with (- Z.pos p). set (T := 2 ^ K). clearbody T. lia.
Qed.
Lemma fix_decode_inj p q : Z.abs p <= 8000000 -> Z.abs q <= 8000000 ->
  sfval (ddiv (double_of_int p) FIXPOINTDIVISOR) = sfval (ddiv (double_of_int q) FIXPOINTDIVISOR) -> p = q.
Proof.
  intros Hp Hq E. destruct (fix_decode p Hp) as (_ & A). destruct (fix_decode q Hq) as (_ & B). rewrite E in A.
  set (X := 10000 * sfval _) in *. assert (W : 60000 * 2 ^ (K - 44) < 2 ^ K) by reflexivity.
  set (T := 2 ^ K) in *. set (w := 2 ^ (K - 44)) in *. clearbody X T w. nia.
Qed.

(** The bits of the decoded number tell the fixpoint numbers apart. *)
Lemma normal_bits s x : normal s x -> exists m e, x = S754_finite s m e /\ bits_of_double x = (if s then 2 ^ 63 else 0) + ((e + 1075) * 2 ^ 52 + (Z.pos m - 2 ^ 52)) /\
  0 <= Z.pos m - 2 ^ 52 < 2 ^ 52 /\ 1 <= e + 1075 <= 2046.
Proof.
  destruct x as [b|b| |b m e]; cbn [normal]; try contradiction. intros (-> & M & E). exists m, e. split; [reflexivity|].
  cbn [bits_of_double]. destruct (Z.ltb_spec (Z.pos m) (2 ^ 52)); [lia|]. split; [reflexivity|]. change (2 ^ 53) with (2 ^ 52 + 2 ^ 52) in M. lia.
Qed.
Lemma fix_bits_normal p : Z.abs p <= 8000000 -> p <> 0 -> normal (p <? 0) (ddiv (double_of_int p) FIXPOINTDIVISOR).
Proof.
  intros H N. unfold double_of_int, binary_normalize. destruct p as [|p|p]; [congruence| |].
  - destruct (ddiv_pos false p) as ((_ & A) & _); [lia|]. exact A.
  - destruct (ddiv_pos true p) as ((_ & A) & _); [lia|]. exact A.
Qed.
Lemma fix_bits_inj p q : Z.abs p <= 8000000 -> Z.abs q <= 8000000 ->
  bits_of_double (ddiv (double_of_int p) FIXPOINTDIVISOR) = bits_of_double (ddiv (double_of_int q) FIXPOINTDIVISOR) -> p = q.
Proof.
  intros Hp Hq E. destruct (Z.eq_dec p 0) as [-> | Np]; destruct (Z.eq_dec q 0) as [-> | Nq]; [reflexivity|exfalso|exfalso|].
  - destruct (normal_bits _ _ (fix_bits_normal q Hq Nq)) as (m & e & _ & B & M & X). rewrite B in E.
    change (bits_of_double (ddiv (double_of_int 0) FIXPOINTDIVISOR)) with 0 in E. change (2 ^ 63) with (2048 * 2 ^ 52) in E.
    change (2 ^ 52) with 4503599627370496 in *. destruct (q <? 0); lia.
  - destruct (normal_bits _ _ (fix_bits_normal p Hp Np)) as (m & e & _ & B & M & X). rewrite B in E.
    change (bits_of_double (ddiv (double_of_int 0) FIXPOINTDIVISOR)) with 0 in E. change (2 ^ 63) with (2048 * 2 ^ 52) in E.
    change (2 ^ 52) with 4503599627370496 in *. destruct (p <? 0); lia.
  - destruct (normal_bits _ _ (fix_bits_normal p Hp Np)) as (m & e & Xp & B & M & X).
    destruct (normal_bits _ _ (fix_bits_normal q Hq Nq)) as (m' & e' & Xq & B' & M' & X'). rewrite B, B' in E.
    change (2 ^ 63) with (2048 * 2 ^ 52) in E. change (2 ^ 52) with 4503599627370496 in *.
    assert (S3 : (p <? 0) = (q <? 0) /\ e = e' /\ m = m').
    { destruct (p <? 0), (q <? 0); try (exfalso; lia); split; try reflexivity; lia. }
    destruct S3 as (S1 & S2 & S3). apply fix_decode_inj; [exact Hp|exact Hq|]. rewrite Xp, Xq, S1, S2, S3. reflexivity.
Qed.
Lemma pcmp a b : Pos.compare_cont Eq a b = Pos.compare a b. Proof. reflexivity. Qed.
(** The doubles the encoder accepts. *)
Lemma fits_val x : valid_binary 53 1024 x = true -> dfits_fixpoint x = true ->
  match x with
  | S754_zero _ => True
  | S754_finite _ m e => -1074 <= e <= -43 /\ Z.pos m < 2 ^ 53 /\ Z.pos m * 2 ^ (e + K) <= 800 * 2 ^ K
  | _ => False
  end.
Proof.
  intros V F. unfold dfits_fixpoint in F. apply andb_true_iff in F. destruct F as (F1 & F2).
  change (double_of_int MAXFIXPOINT) with (S754_finite false 7036874417766400 (-43)) in F1.
  change (double_of_int MINFIXPOINT) with (S754_finite true 7036874417766400 (-43)) in F2.
  destruct x as [s|s| |s m e]; [exact Logic.I| | |].
  - destruct s; [discriminate F2|discriminate F1].
  - discriminate F1.
  - cbn [valid_binary] in V. unfold bounded, canonical_mantissa in V. apply andb_true_iff in V. destruct V as (V1 & V2).
    apply Zeq_bool_eq in V1. rewrite fexp_eq in V1. destruct (digits_pos m) as (L & U). set (d := Z.pos (digits2_pos m)) in *.
    assert (Hd : d <= 53) by lia. assert (He : -1074 <= e) by lia.
    assert (Um : Z.pos m < 2 ^ 53) by (eapply Z.lt_le_trans; [exact U|apply Z.pow_le_mono_r; lia]).
    assert (Q : e <= -43 /\ (e = -43 -> Z.pos m <= 7036874417766400)).
    { unfold SFleb, SFcompare in F1, F2. rewrite pcmp in F1, F2. destruct s; cbv iota in F1, F2.
      - clear F1. destruct (Z.compare_spec (-43) e) as [Q | Q | Q]; [|discriminate|split; intros; lia].
        split; [lia|]. intros _. destruct (Pos.compare 7036874417766400 m) eqn:Ec; try discriminate.
        + apply Pos.compare_eq in Ec. rewrite Ec. apply Z.le_refl.
        + apply Pos.compare_gt_iff in Ec. apply Z.lt_le_incl. exact Ec.
      - clear F2. destruct (Z.compare_spec e (-43)) as [Q | Q | Q]; [|split; intros; lia|discriminate].
        split; [lia|]. intros _. destruct (Pos.compare m 7036874417766400) eqn:Ec; try discriminate.
        + apply Pos.compare_eq in Ec. rewrite Ec. apply Z.le_refl.
        + apply Pos.compare_lt_iff in Ec. apply Z.lt_le_incl. exact Ec. }
    clear F1 F2. destruct Q as (Q1 & Q2). split; [lia|]. split; [assumption|].
    change (800 * 2 ^ K) with (7036874417766400 * 2 ^ (-43 + K)).
    destruct (Z.eq_dec e (-43)) as [-> | N].
    + apply Z.mul_le_mono_nonneg_r; [apply Z.pow_nonneg; lia|auto].
    + assert (B : 2 * 2 ^ (e + K) <= 2 ^ (-43 + K)).
      { rewrite <- Z.pow_succ_r by (unfold K; lia). apply Z.pow_le_mono_r; lia. }
      change (2 ^ 53) with 9007199254740992 in Um. assert (0 < 2 ^ (e + K)) by (apply Z.pow_pos_nonneg; unfold K; lia).
      set (a := 2 ^ (e + K)) in *. set (b := 2 ^ (-43 + K)) in *. clearbody a b. nia.
Qed.
Lemma c_round_ok x : finite x = true -> emin_ok x ->
  exists r, c_round x = Some r /\ 2 * Z.abs (r * 2 ^ K - sfval x) <= 2 ^ K.
Proof.
  intros F E. destruct x as [s|s| |s m e]; try discriminate.
  - exists 0. split; [reflexivity|]. apply Z.leb_le. reflexivity.
  - cbn [emin_ok] in E. unfold c_round. eexists. split; [reflexivity|]. cbn [sfval].
    assert (G : 2 * Z.abs ((if 0 <=? e then Z.pos m * 2 ^ e else (Z.pos m + 2 ^ (- e - 1)) / 2 ^ (- e)) * 2 ^ K - Z.pos m * 2 ^ (e + K)) <= 2 ^ K).
    { destruct (Z.leb_spec 0 e) as [L | L].
      - rewrite <- Z.mul_assoc, <- Z.pow_add_r by (unfold K; lia). rewrite Z.sub_diag. cbn [Z.abs]. rewrite Z.mul_0_r. apply Z.pow_nonneg. lia.
      - assert (P : 2 ^ K = 2 ^ (- e) * 2 ^ (e + K)). { rewrite <- Z.pow_add_r by (unfold K; lia). f_equal. lia. }
        assert (H : 2 ^ (- e) = 2 * 2 ^ (- e - 1)). { rewrite <- Z.pow_succ_r by lia. f_equal. lia. }
        assert (0 < 2 ^ (- e - 1)) by (apply Z.pow_pos_nonneg; lia).
        assert (0 < 2 ^ (e + K)) by (apply Z.pow_pos_nonneg; unfold K; lia).
        rewrite P. pose proof (Z.div_mod (Z.pos m + 2 ^ (- e - 1)) (2 ^ (- e)) ltac:(lia)) as DM.
        pose proof (Z.mod_pos_bound (Z.pos m + 2 ^ (- e - 1)) (2 ^ (- e)) ltac:(lia)) as MB.
        set (v := (Z.pos m + 2 ^ (- e - 1)) / 2 ^ (- e)) in *. set (rr := (Z.pos m + 2 ^ (- e - 1)) mod 2 ^ (- e)) in *.
        set (a := 2 ^ (- e)) in *. set (h := 2 ^ (- e - 1)) in *. set (t := 2 ^ (e + K)) in *. clearbody v rr a h t.
        replace (v * (a * t) - Z.pos m * t) with ((a * v - Z.pos m) * t) by ring.
        rewrite Z.abs_mul, (Z.abs_eq t) by lia. replace (2 * (Z.abs (a * v - Z.pos m) * t)) with (2 * Z.abs (a * v - Z.pos m) * t) by ring.
        apply Z.mul_le_mono_nonneg_r; lia. }
    destruct s; [|rewrite Z.mul_1_l; exact G].
    set (v := if 0 <=? e then _ else _) in *. replace (- v * 2 ^ K - -1 * (Z.pos m * 2 ^ (e + K))) with (- (v * 2 ^ K - Z.pos m * 2 ^ (e + K))) by ring.
    rewrite Z.abs_opp. exact G.
Qed.

Lemma fix_encode x : valid_binary 53 1024 x = true -> dfits_fixpoint x = true ->
  exists p, c_round (dmul x FIXPOINTDIVISOR) = Some p /\ Z.abs p <= 8000000 /\
    2 * Z.abs (p * 2 ^ K - 10000 * sfval x) <= 2 ^ K + 2 ^ (K - 29).
Proof.
  intros V F. pose proof (fits_val x V F) as B. destruct x as [s|s| |s m e]; try contradiction.
  - exists 0. split; [destruct s; reflexivity|]. split; [cbn; lia|]. apply Z.leb_le. reflexivity.
  - destruct B as (He & Um & Bv). rewrite divisor_eq. unfold dmul, SFmul. rewrite xorb_false_r.
    assert (EV : Z.pos (m * 5497558138880000) * 2 ^ (e + -39 + K) = 10000 * (Z.pos m * 2 ^ (e + K))).
    { rewrite Pos2Z.inj_mul, divisor_z. replace (10000 * (Z.pos m * 2 ^ (e + K))) with (Z.pos m * 10000 * 2 ^ (e + K)) by ring.
      replace (e + K) with (39 + (e + -39 + K)) by lia. rewrite (Z.pow_add_r 2 39 (e + -39 + K)) by (unfold K; lia). ring. }
    assert (Dg : Zdigits2 (Z.pos (m * 5497558138880000)) + (e + -39) <= 23).
    { destruct (Zdigits2_pos (Z.pos (m * 5497558138880000))) as (A & B & _); [lia|]. set (D := Zdigits2 _) in *.
      destruct (Z.le_gt_cases (D + (e + -39)) 23) as [L | L]; [assumption|exfalso].
      assert (2 ^ (23 + K) <= 2 ^ (D - 1) * 2 ^ (e + -39 + K)).
      { rewrite <- Z.pow_add_r by (unfold K; lia). apply Z.pow_le_mono_r; lia. }
      assert (0 < 2 ^ (e + -39 + K)) by (apply Z.pow_pos_nonneg; unfold K; lia).
      assert (2 ^ (D - 1) * 2 ^ (e + -39 + K) <= 8000000 * 2 ^ K).
      { eapply Z.le_trans; [apply Z.mul_le_mono_nonneg_r; [lia|exact B]|]. rewrite EV.
        replace (8000000 * 2 ^ K) with (10000 * (800 * 2 ^ K)) by (rewrite Z.mul_assoc; reflexivity). lia. }
      assert (8000000 * 2 ^ K < 2 ^ (23 + K)) by reflexivity. lia. }
    assert (RX : rexp (Z.pos (m * 5497558138880000)) (e + -39) <= -30) by (unfold rexp; set (D := Zdigits2 _) in *; clearbody D; lia).
    destruct (round_aux s (Z.pos (m * 5497558138880000)) (e + -39) loc_Exact) as ((Fy & Ey) & By & _); [lia|lia|eapply Z.le_trans; [exact Dg|lia]|].
    set (y := binary_round_aux _ _ _ _ _ _) in *. rewrite EV in By.
    destruct (c_round_ok y Fy Ey) as (p & Ep & Bp). exists p. split; [exact Ep|].
    assert (B2 : 2 ^ (rexp (Z.pos (m * 5497558138880000)) (e + -39) + K) <= 2 ^ (K - 30)) by (apply Z.pow_le_mono_r; lia).
    change (2 ^ (K - 29)) with (2 * 2 ^ (K - 30)). cbn [sfval].
    assert (Sm : 16 * 2 ^ (K - 30) < 2 ^ K) by reflexivity. assert (0 < 2 ^ (K - 30)) by reflexivity.
    clear EV Dg RX.
    assert (M0 : 0 <= Z.pos m * 2 ^ (e + K)) by (apply Z.mul_nonneg_nonneg; [lia|apply Z.pow_nonneg; lia]). set (w := 2 ^ (K - 30)) in *. set (T := 2 ^ K) in *. set (Y := sfval y) in *. set (M := Z.pos m * 2 ^ (e + K)) in *.
    set (u := 2 ^ (rexp _ _ + K)) in *. clearbody w T Y M u.
    split; [|destruct s; lia].
    assert (Z.abs (p * T) <= 8000000 * T + T - w).
    { destruct s; lia. }
    assert (Z.abs p * T < 8000001 * T). { rewrite <- (Z.abs_eq T) at 1 by lia. rewrite <- Z.abs_mul. lia. }
    nia.
Qed.
