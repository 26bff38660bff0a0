(** Properties C01, C02, C03. *)
From Coq Require Import ZArith List Bool Lia.
From Verif Require Import Base EncodingModel FixAllocModel FixAllocSpec FixAllocProofs IntModel EncodingProofs.
Import ListNotations.
Open Scope Z_scope.

(** A segment of 100000 bytes with a 64 byte header. *)
Lemma ex_params : params_ok 64 100000 8.
Proof. unfold params_ok. repeat split; lia. Qed.

(** C01: in every history, every integer handle not yet freed decodes to the
    integer that was encoded, and is not the error value. *)
Theorem C01_int_roundtrip : forall hdr size s hs e v,
  params_ok hdr size 8 -> ireach hdr size (s, hs) -> In (e, v) hs ->
  wg_decode_int (fs_mem s) e = v /\ e <> WG_ILLEGAL.
Proof.
  intros hdr size s hs e v P R H. exact (handle_decode _ _ (proj2 (ireach_inv _ _ _ P R) _ H)).
Qed.
Print Assumptions C01_int_roundtrip.

(** C01: encoding in any reachable state either reports failure or gives a
    handle decoding to the value at once; values of 61 bits never fail, and
    failure leaves every other handle intact. *)
Theorem C01_int_encode_now : forall hdr size s hs v s' e,
  params_ok hdr size 8 -> ireach hdr size (s, hs) -> is64 v -> wg_encode_int s v = (s', e) ->
  (e = WG_ILLEGAL \/ wg_decode_int (fs_mem s') e = v) /\
  (- 2 ^ 60 <= v < 2 ^ 60 -> e <> WG_ILLEGAL) /\
  (forall e1 v1, In (e1, v1) hs -> wg_decode_int (fs_mem s') e1 = v1).
Proof.
  intros hdr size s hs v s' e P R Hv He.
  pose proof (IStep _ _ _ _ R (IEnc s hs v s' e Hv He)) as R'.
  pose proof (proj2 (ireach_inv _ _ _ P R')) as HI. cbn [fst snd] in HI.
  destruct (Z.eqb_spec e WG_ILLEGAL) as [E|E].
  - split; [auto|]. split.
    + intros Hr. exfalso. unfold wg_encode_int in He.
      rewrite (proj2 (fits_smallint_spec v Hv) Hr) in He. injection He as <- <-.
      destruct (smallint_facts v Hr) as (_ & F & _). contradiction.
    + intros e1 v1 H1. exact (proj1 (handle_decode _ _ (HI _ H1))).
  - split; [right; exact (proj1 (handle_decode _ (e, v) (HI _ (or_introl eq_refl))))|].
    split; [auto|]. intros e1 v1 H1. exact (proj1 (handle_decode _ _ (HI _ (or_intror H1)))).
Qed.
Print Assumptions C01_int_encode_now.

(** Two big integers, one small one, a release and a reuse of the cell. *)
Definition ex_run : option (Z * Z * Z * Z * list Z) :=
  match init_fix_area (fun _ => 0) 64 100000 8 with
  | None => None
  | Some s0 =>
      let '(s1, a) := wg_encode_int s0 (2 ^ 62) in
      let '(s2, b) := wg_encode_int s1 (- 2 ^ 63) in
      let '(s3, c) := wg_encode_int s2 (-5) in
      let s4 := wg_free_encoded_int s3 a in
      let '(s5, d) := wg_encode_int s4 (2 ^ 61) in
      Some (a, b, c, d, map (wg_decode_int (fs_mem s5)) [b; c; d])
  end.
Example C01_ex : exists s0 s5 b c d hs,
  init_fix_area (fun _ => 0) 64 100000 8 = Some s0 /\
  ireach 64 100000 (s5, hs) /\ hs = [(d, 2 ^ 61); (c, -5); (b, - 2 ^ 63)] /\
  map (wg_decode_int (fs_mem s5)) [b; c; d] = [- 2 ^ 63; -5; 2 ^ 61].
Proof.
  destruct (init_fix_area (fun _ => 0) 64 100000 8) as [s0|] eqn:E0; [|vm_compute in E0; discriminate].
  destruct (wg_encode_int s0 (2 ^ 62)) as (s1, a) eqn:E1.
  destruct (wg_encode_int s1 (- 2 ^ 63)) as (s2, b) eqn:E2.
  destruct (wg_encode_int s2 (-5)) as (s3, c) eqn:E3.
  destruct (wg_encode_int (wg_free_encoded_int s3 a) (2 ^ 61)) as (s5, d) eqn:E5.
  assert (Hrun : ex_run = Some (a, b, c, d, map (wg_decode_int (fs_mem s5)) [b; c; d])).
  { unfold ex_run. rewrite E0, E1, E2, E3, E5. reflexivity. }
  assert (Hval : ex_run = Some (65, 73, -37, 65, [- 2 ^ 63; -5; 2 ^ 61])) by (vm_compute; reflexivity).
  rewrite Hrun in Hval.
  assert (Hl : map (wg_decode_int (fs_mem s5)) [b; c; d] = [- 2 ^ 63; -5; 2 ^ 61])
    by exact (f_equal (fun o => match o with Some (_, l) => l | None => [] end) Hval).
  injection Hval as Ha Hb Hc Hd _ _ _.
  exists s0, s5, b, c, d, [(d, 2 ^ 61); (c, -5); (b, - 2 ^ 63)].
  split; [reflexivity|]. split; [|split; [reflexivity|exact Hl]].
  assert (I0 := IInit 64 100000 _ _ E0).
  assert (I1 := IStep _ _ _ _ I0 (IEnc s0 _ (2 ^ 62) _ _ ltac:(unfold is64; lia) E1)).
  assert (I2 := IStep _ _ _ _ I1 (IEnc s1 _ (- 2 ^ 63) _ _ ltac:(unfold is64; lia) E2)).
  assert (I3 := IStep _ _ _ _ I2 (IEnc s2 _ (-5) _ _ ltac:(unfold is64; lia) E3)).
  clear Hrun Hl. subst a b c d. cbn [Z.eqb Pos.eqb WG_ILLEGAL] in I1, I2, I3.
  assert (I4 := IStep _ _ _ _ I3 (IFree s3 [(-37, -5); (73, - 2 ^ 63)] 65 (2 ^ 62) [])).
  cbn [app] in I4.
  exact (IStep _ _ _ _ I4 (IEnc _ _ (2 ^ 61) _ _ ltac:(unfold is64; lia) E5)).
Qed.

(** C02: characters, dates, times, fixpoint numbers (as the stored count of
    1/10000 parts), variables and anonymous constants. *)
Theorem C02_char : forall c, - 128 <= c < 128 ->
  wg_decode_char (wg_encode_char c) = c /\ wg_encode_char c <> WG_ILLEGAL.
Proof. exact char_roundtrip. Qed.
Print Assumptions C02_char.
Example C02_char_ex : - 128 <= -1 < 128 /\ wg_encode_char (-1) = -225. Proof. vm_compute. repeat split; discriminate. Qed.

Theorem C02_date : forall d, MINDATE <= d <= MAXDATE ->
  wg_decode_date (wg_encode_date d) = d /\ wg_encode_date d <> WG_ILLEGAL.
Proof. exact date_roundtrip. Qed.
Print Assumptions C02_date.
Example C02_date_ex : MINDATE <= 733866 <= MAXDATE /\ wg_encode_date 733866 = 187869743.
Proof. vm_compute. repeat split; discriminate. Qed.

(** Times from 2^23 (23:18:06.08) on shift into the sign bit of an [int]; they
    still round-trip because the decoder shifts as unsigned. *)
Theorem C02_time : forall t, 0 <= t <= MAXTIME ->
  wg_decode_time (wg_encode_time t) = t /\ wg_encode_time t <> WG_ILLEGAL.
Proof. exact time_roundtrip. Qed.
Print Assumptions C02_time.
Example C02_time_ex : 0 <= 8639999 <= MAXTIME /\ wg_decode_time (wg_encode_time 8639999) = 8639999.
Proof. vm_compute. repeat split; discriminate. Qed.

Theorem C02_fixpoint : forall p, - 8000000 <= p <= 8000000 ->
  wg_decode_fixpoint (wg_encode_fixpoint p) = p /\ wg_encode_fixpoint p <> WG_ILLEGAL.
Proof. exact fixpoint_roundtrip. Qed.
Print Assumptions C02_fixpoint.
Example C02_fixpoint_ex : - 8000000 <= -7999999 <= 8000000 /\ wg_encode_fixpoint (-7999999) = -2047999729.
Proof. vm_compute. repeat split; discriminate. Qed.

Theorem C02_var : forall v, is64 v ->
  (wg_encode_var v <> WG_ILLEGAL <-> - 2 ^ 59 <= v < 2 ^ 59) /\
  (wg_encode_var v <> WG_ILLEGAL -> wg_decode_var (wg_encode_var v) = v).
Proof. intros v H. split; [exact (var_accepts v H)|exact (var_roundtrip v H)]. Qed.
Print Assumptions C02_var.
Example C02_var_ex : wg_encode_var (-3) <> WG_ILLEGAL /\ wg_encode_var (2 ^ 59) = WG_ILLEGAL.
Proof. vm_compute. split; [discriminate|reflexivity]. Qed.

Theorem C02_anonconst : forall i, - 2 ^ 55 <= i < 2 ^ 55 -> decode_anonconst (encode_anonconst i) = i.
Proof. exact anonconst_roundtrip. Qed.
Print Assumptions C02_anonconst.
Example C02_anonconst_ex : decode_anonconst (encode_anonconst 12345) = 12345. Proof. reflexivity. Qed.

(** C03: the type reported for a value is the type whose encoder made it. *)
Theorem C03_type : forall m t e, produced m t e -> encoded_type m e = t /\ e <> WG_ILLEGAL.
Proof. exact produced_type. Qed.
Print Assumptions C03_type.

Theorem C03_types_disjoint : forall m t1 t2 e1 e2,
  produced m t1 e1 -> produced m t2 e2 -> t1 <> t2 -> e1 <> e2.
Proof.
  intros m t1 t2 e1 e2 H1 H2 Hne ->. apply Hne.
  destruct (produced_type _ _ _ H1) as (A & _). destruct (produced_type _ _ _ H2) as (B & _). congruence.
Qed.
Print Assumptions C03_types_disjoint.

Example C03_ex : produced (upd (fun _ => 0) 4104 (Z.lor (Z.shiftl 3 8) WG_URITYPE)) WG_URITYPE (encode_longstr_offset 4096)
  /\ produced (fun _ => 0) WG_CHARTYPE (wg_encode_char 65).
Proof.
  split; [|apply PChar; lia]. eapply PLong with (lendif := 3); try lia; cbn; auto.
Qed.
