From Coq Require Import ZArith List Bool Lia.
From Verif Require Import Base EncodingModel FixAllocModel FixAllocSpec FixAllocProofs IntModel.
Import ListNotations.
Open Scope Z_scope.

(** ** Encoders as arithmetic *)

Lemma shl64_small i n : 0 <= n -> is64 (i * 2 ^ n) -> shl64 i n = i * 2 ^ n.
Proof.
  intros. unfold shl64. rewrite Z.shiftl_mul_pow2 by assumption. now apply wrap64_id.
Qed.
Lemma shl32_small i n : 0 <= n -> is32 (i * 2 ^ n) -> shl32 i n = i * 2 ^ n.
Proof.
  intros. unfold shl32. rewrite Z.shiftl_mul_pow2 by assumption. now apply wrap32_id.
Qed.

Lemma land_3 x : Z.land x 3 = x mod 4.
Proof. apply (land_ones_mod x 2). lia. Qed.
Lemma land_7 x : Z.land x 7 = x mod 8.
Proof. apply (land_ones_mod x 3). lia. Qed.
Lemma land_15 x : Z.land x 15 = x mod 16.
Proof. apply (land_ones_mod x 4). lia. Qed.
Lemma land_255 x : Z.land x 255 = x mod 256.
Proof. apply (land_ones_mod x 8). lia. Qed.
Lemma land_n3 x : Z.land x (Z.lnot 3) = x - x mod 4.
Proof. apply (land_lnot_mask x 2). lia. Qed.
Lemma land_n7 x : Z.land x (Z.lnot 7) = x - x mod 8.
Proof. apply (land_lnot_mask x 3). lia. Qed.

Definition smallint_range (i : Z) : Prop := - 2 ^ 60 <= i < 2 ^ 60.

Lemma fits_smallint_spec i : is64 i -> fits_smallint i = true <-> smallint_range i.
Proof.
  unfold fits_smallint, shl64, is64, smallint_range. intros Hi.
  rewrite Z.shiftl_mul_pow2, Z.shiftr_div_pow2 by lia. rewrite Z.eqb_eq.
  change (2 ^ 3) with 8. unfold wrap64.
  change (2 ^ 60) with 1152921504606846976 in *.
  change (2 ^ 63) with 9223372036854775808 in *.
  change (2 ^ 64) with 18446744073709551616 in *. lia.
Qed.

Lemma encode_smallint_eq i : smallint_range i -> encode_smallint i = i * 8 + 3.
Proof.
  unfold smallint_range. intros H. unfold encode_smallint.
  rewrite shl64_small by (unfold is64; lia). apply (lor_low i 3 3); lia.
Qed.

Lemma lor8_eq o c : o mod 8 = 0 -> 0 <= c < 8 -> Z.lor o c = o + c.
Proof.
  intros H Hc. rewrite (Z.div_mod o 8) at 1 2 by lia. rewrite H, Z.add_0_r, (Z.mul_comm 8).
  apply (lor_low (o / 8) 3 c); lia.
Qed.

Lemma encode_var_eq i : - 2 ^ 59 <= i < 2 ^ 59 -> encode_var i = i * 16 + 7.
Proof.
  intros H. unfold encode_var. rewrite shl64_small by (unfold is64; lia).
  apply (lor_low i 4 7); lia.
Qed.
Lemma fits_var_spec i : is64 i -> fits_var i = true <-> - 2 ^ 59 <= i < 2 ^ 59.
Proof.
  unfold fits_var, shl64, is64. intros Hi.
  rewrite Z.shiftl_mul_pow2, Z.shiftr_div_pow2 by lia. rewrite Z.eqb_eq.
  change (2 ^ 4) with 16. unfold wrap64.
  change (2 ^ 59) with 576460752303423488 in *.
  change (2 ^ 63) with 9223372036854775808 in *.
  change (2 ^ 64) with 18446744073709551616 in *. lia.
Qed.
Lemma encode_char_eq i : - 128 <= i < 128 -> encode_char i = i * 256 + 31.
Proof.
  intros H. unfold encode_char. rewrite shl64_small by (unfold is64; lia).
  apply (lor_low i 8 31); lia.
Qed.
Lemma encode_date_eq i : fits_date i = true -> encode_date i = i * 256 + 47 /\ MINDATE <= i <= MAXDATE.
Proof.
  unfold fits_date. rewrite andb_true_iff, Z.leb_le, Z.geb_le. unfold MAXDATE, MINDATE.
  intros H. unfold encode_date. rewrite shl32_small by (unfold is32; lia).
  rewrite (lor_low i 8 47) by lia. lia.
Qed.
Lemma encode_time_eq i : fits_time i = true ->
  encode_time i = wrap32 (i * 256) + 63 /\ exists q, wrap32 (i * 256) = q * 256.
Proof.
  unfold fits_time. rewrite andb_true_iff, Z.leb_le, Z.geb_le. unfold MAXTIME, MINTIME.
  intros H. unfold encode_time, shl32. rewrite Z.shiftl_mul_pow2 by lia. change (2 ^ 8) with 256.
  assert (exists q, wrap32 (i * 256) = q * 256) as (q & Hq).
  { unfold wrap32. exists ((i + 2^23) mod 2^24 - 2^23).
    change (2^31) with 2147483648. change (2^32) with 4294967296. change (2^23) with 8388608. change (2^24) with 16777216. lia. }
  rewrite Hq. split; [|eauto]. change (q * 256) with (q * 2 ^ 8) at 1. rewrite (lor_low q 8 63) by lia. lia.
Qed.
Lemma encode_fixpoint_eq p : - 8000000 <= p <= 8000000 -> encode_fixpoint p = p * 256 + 15.
Proof.
  intros H. unfold encode_fixpoint. rewrite shl32_small by (unfold is32; lia).
  apply (lor_low p 8 15); lia.
Qed.
Lemma encode_anonconst_eq i : - 2 ^ 55 <= i < 2 ^ 55 -> encode_anonconst i = i * 256 + 95.
Proof.
  intros H. unfold encode_anonconst. rewrite shl64_small by (unfold is64; lia).
  apply (lor_low i 8 95); lia.
Qed.

(** ** Round trips *)

Lemma smallint_roundtrip i : smallint_range i -> decode_smallint (encode_smallint i) = i /\ issmallint (encode_smallint i) = true.
Proof.
  intros H. rewrite encode_smallint_eq by assumption. unfold decode_smallint, issmallint.
  rewrite Z.shiftr_div_pow2 by lia. rewrite land_7, Z.eqb_eq. change (2^3) with 8. lia.
Qed.

Lemma var_roundtrip v : is64 v -> wg_encode_var v <> WG_ILLEGAL -> wg_decode_var (wg_encode_var v) = v.
Proof.
  intros Hv. unfold wg_encode_var. destruct (fits_var v) eqn:E; [|easy]. intros _.
  apply fits_var_spec in E; [|assumption]. rewrite encode_var_eq by assumption.
  unfold wg_decode_var, decode_var. destruct (Z.eqb_spec (v * 16 + 7) 0); [lia|].
  rewrite Z.shiftr_div_pow2 by lia. change (2^4) with 16. lia.
Qed.
Lemma var_accepts v : is64 v -> wg_encode_var v <> WG_ILLEGAL <-> - 2 ^ 59 <= v < 2 ^ 59.
Proof.
  intros Hv. rewrite <- fits_var_spec by assumption. unfold wg_encode_var, WG_ILLEGAL.
  destruct (fits_var v) eqn:E; [|easy].
  apply fits_var_spec in E; [|assumption]. rewrite encode_var_eq by assumption. split; [easy|lia].
Qed.

Lemma char_roundtrip c : - 128 <= c < 128 ->
  wg_decode_char (wg_encode_char c) = c /\ wg_encode_char c <> WG_ILLEGAL.
Proof.
  intros H. unfold wg_decode_char, wg_encode_char, decode_char. rewrite encode_char_eq by assumption.
  rewrite Z.shiftr_div_pow2 by lia. unfold wrap8, WG_ILLEGAL. change (2^8) with 256. change (2^7) with 128. lia.
Qed.

Lemma date_roundtrip d : MINDATE <= d <= MAXDATE ->
  wg_decode_date (wg_encode_date d) = d /\ wg_encode_date d <> WG_ILLEGAL.
Proof.
  intros H. unfold wg_encode_date.
  assert (E : fits_date d = true) by (unfold fits_date; rewrite andb_true_iff, Z.leb_le, Z.geb_le; lia).
  rewrite E. apply encode_date_eq in E. destruct E as (-> & _).
  unfold MINDATE, MAXDATE in *.
  unfold wg_decode_date, isdate, decode_date. rewrite land_255.
  destruct (Z.eqb_spec ((d * 256 + 47) mod 256) 47); [|lia].
  rewrite Z.shiftr_div_pow2 by lia. unfold wrap32, WG_ILLEGAL.
  change (2^8) with 256. change (2^31) with 2147483648. change (2^32) with 4294967296. lia.
Qed.

Lemma time_roundtrip t : 0 <= t <= MAXTIME ->
  wg_decode_time (wg_encode_time t) = t /\ wg_encode_time t <> WG_ILLEGAL.
Proof.
  intros H. unfold wg_encode_time.
  assert (E : fits_time t = true).
  { unfold fits_time, MINTIME. rewrite andb_true_iff, Z.leb_le, Z.geb_le. lia. }
  rewrite E. apply encode_time_eq in E. destruct E as (-> & q & Hq).
  unfold MAXTIME in *. unfold wrap32 in *.
  change (2^31) with 2147483648 in *. change (2^32) with 4294967296 in *.
  unfold wg_decode_time, istime, decode_time, u32, WG_ILLEGAL. rewrite land_255.
  destruct (Z.eqb_spec (((t * 256 + 2147483648) mod 4294967296 - 2147483648 + 63) mod 256) 63); [|lia].
  rewrite Z.shiftr_div_pow2 by lia. unfold wrap32.
  change (2^8) with 256. change (2^31) with 2147483648. change (2^32) with 4294967296.
  split; lia.
Qed.

Lemma fixpoint_roundtrip p : - 8000000 <= p <= 8000000 ->
  wg_decode_fixpoint (wg_encode_fixpoint p) = p /\ wg_encode_fixpoint p <> WG_ILLEGAL.
Proof.
  intros H. unfold wg_encode_fixpoint.
  destruct (Z.leb_spec p (800 * 10000)); [|lia]. destruct (Z.geb_spec p (- 800 * 10000)); [|lia].
  cbn [andb]. rewrite encode_fixpoint_eq by assumption.
  unfold wg_decode_fixpoint, isfixpoint, decode_fixpoint, WG_ILLEGAL. rewrite land_255.
  destruct (Z.eqb_spec ((p * 256 + 15) mod 256) 15); [|lia].
  rewrite Z.shiftr_div_pow2 by lia. change (2^8) with 256. lia.
Qed.

Lemma anonconst_roundtrip i : - 2 ^ 55 <= i < 2 ^ 55 -> decode_anonconst (encode_anonconst i) = i.
Proof.
  intros H. rewrite encode_anonconst_eq by assumption. unfold decode_anonconst.
  rewrite Z.shiftr_div_pow2 by lia. change (2^8) with 256. lia.
Qed.

(** ** Types *)

(** How the encoders produce handles of each type; [m] is the memory holding
    the long string headers. Offsets are positive multiples of 8. *)
Inductive produced (m : mem) : Z -> Z -> Prop :=
| PNull : produced m WG_NULLTYPE 0
| PRecord o : 0 < o -> o mod 8 = 0 -> produced m WG_RECORDTYPE (wg_encode_record o)
| PSmall i : is64 i -> fits_smallint i = true -> produced m WG_INTTYPE (encode_smallint i)
| PFull o : 0 < o -> o mod 8 = 0 -> produced m WG_INTTYPE (encode_fullint_offset o)
| PDouble o : 0 < o -> o mod 8 = 0 -> produced m WG_DOUBLETYPE (encode_fulldouble_offset o)
| PShort o : 0 < o -> o mod 8 = 0 -> produced m WG_STRTYPE (encode_shortstr_offset o)
| PLong o t lendif : 0 < o -> o mod 8 = 0 -> In t [WG_STRTYPE; WG_XMLLITERALTYPE; WG_URITYPE; WG_BLOBTYPE] ->
    0 <= lendif < 256 -> m (o + 8) = Z.lor (Z.shiftl lendif 8) t -> produced m t (encode_longstr_offset o)
| PChar c : - 128 <= c < 128 -> produced m WG_CHARTYPE (wg_encode_char c)
| PFix p : - 8000000 <= p <= 8000000 -> produced m WG_FIXPOINTTYPE (wg_encode_fixpoint p)
| PDate d : MINDATE <= d <= MAXDATE -> produced m WG_DATETYPE (wg_encode_date d)
| PTime t : MINTIME <= t <= MAXTIME -> produced m WG_TIMETYPE (wg_encode_time t)
| PAnon i : - 2 ^ 55 <= i < 2 ^ 55 -> produced m WG_ANONCONSTTYPE (encode_anonconst i)
| PVar v : - 2 ^ 59 <= v < 2 ^ 59 -> produced m WG_VARTYPE (wg_encode_var v).

Lemma type_imm m e t :
  e mod 256 = t -> e <> 0 -> (t = 31 \/ t = 15 \/ t = 47 \/ t = 63 \/ t = 95) ->
  encoded_type m e = (if t =? 31 then WG_CHARTYPE else if t =? 15 then WG_FIXPOINTTYPE
     else if t =? 47 then WG_DATETYPE else if t =? 63 then WG_TIMETYPE else WG_ANONCONSTTYPE).
Proof.
  intros He H0 Ht. unfold encoded_type, isvar, issmallint.
  destruct (Z.eqb_spec e 0); [easy|].
  rewrite land_3, land_15, land_7. change (Z.land e 0xff) with (Z.land e 255). rewrite land_255, He.
  destruct (Z.eqb_spec (e mod 4) 3) as [_|]; [|lia].
  destruct (Z.eqb_spec (e mod 16) 7) as [|_]; [lia|].
  destruct (Z.eqb_spec (e mod 8) 3) as [|_]; [lia|].
  destruct Ht as [->|[->|[->|[->| ->]]]]; reflexivity.
Qed.

Lemma type_ptr m e k :
  e <> 0 -> e mod 8 = k -> (k = 0 \/ k = 4 \/ k = 6 \/ k = 2 \/ k = 1) ->
  encoded_type m e = (if k =? 0 then WG_RECORDTYPE
    else if k =? 4 then Z.land (m (e - 4 + 8)) 255
    else if k =? 6 then WG_STRTYPE else if k =? 2 then WG_DOUBLETYPE else WG_INTTYPE).
Proof.
  intros H0 He Hk. unfold encoded_type.
  destruct (Z.eqb_spec e 0); [easy|].
  rewrite land_3, land_7, He.
  destruct (Z.eqb_spec (e mod 4) 3) as [|_]; [lia|].
  destruct Hk as [->|[->|[->|[->| ->]]]]; try reflexivity.
  cbn [Z.eqb Pos.eqb]. unfold decode_longstr_offset, LONGSTR_META_POS, LONGSTR_META_TYPEMASK.
  rewrite land_n7, He. reflexivity.
Qed.

Lemma produced_type m t e : produced m t e -> encoded_type m e = t /\ e <> WG_ILLEGAL.
Proof.
  unfold WG_ILLEGAL. intros H. destruct H.
  - split; [reflexivity|lia].
  - unfold wg_encode_record, encode_datarec_offset. split; [|lia].
    rewrite (type_ptr m o 0); [reflexivity|lia|assumption|auto].
  - apply fits_smallint_spec in H0; [|assumption]. rewrite encode_smallint_eq by assumption.
    unfold encoded_type, isvar, issmallint. rewrite land_3, land_15, land_7.
    destruct (Z.eqb_spec (i * 8 + 3) 0); [lia|].
    destruct (Z.eqb_spec ((i * 8 + 3) mod 4) 3); [|lia].
    destruct (Z.eqb_spec ((i * 8 + 3) mod 16) 7); [lia|].
    destruct (Z.eqb_spec ((i * 8 + 3) mod 8) 3); [|lia]. split; [reflexivity|lia].
  - unfold encode_fullint_offset. rewrite lor8_eq by lia. split; [|lia].
    rewrite (type_ptr m (o + 1) 1); [reflexivity|lia|lia|auto].
  - unfold encode_fulldouble_offset. rewrite lor8_eq by lia. split; [|lia].
    rewrite (type_ptr m (o + 2) 2); [reflexivity|lia|lia|auto].
  - unfold encode_shortstr_offset. rewrite lor8_eq by lia. split; [|lia].
    rewrite (type_ptr m (o + 6) 6); [reflexivity|lia|lia|auto].
  - unfold encode_longstr_offset. rewrite lor8_eq by lia. split; [|lia].
    rewrite (type_ptr m (o + 4) 4); [|lia|lia|auto].
    cbn [Z.eqb Pos.eqb]. replace (o + 4 - 4 + 8) with (o + 8) by ring. rewrite H3.
    rewrite Z.shiftl_mul_pow2 by lia.
    assert (0 <= t < 256) by (unfold WG_STRTYPE, WG_XMLLITERALTYPE, WG_URITYPE, WG_BLOBTYPE in *; cbn in H1; lia).
    rewrite (lor_low lendif 8 t) by lia. rewrite land_255. change (2^8) with 256. lia.
  - unfold wg_encode_char. rewrite encode_char_eq by assumption. split; [|lia].
    rewrite (type_imm m (c * 256 + 31) 31); [reflexivity|lia|lia|auto].
  - pose proof (fixpoint_roundtrip p H) as (_ & Hn). split; [|exact Hn].
    unfold wg_encode_fixpoint in *. destruct (_ && _); [|easy].
    rewrite encode_fixpoint_eq by assumption.
    rewrite (type_imm m (p * 256 + 15) 15); [reflexivity|lia|lia|auto].
  - pose proof (date_roundtrip d H) as (_ & Hn). split; [|exact Hn].
    unfold wg_encode_date in *. destruct (fits_date d) eqn:E; [|easy].
    apply encode_date_eq in E. destruct E as (-> & _).
    rewrite (type_imm m (d * 256 + 47) 47); [reflexivity|lia|lia|auto].
  - pose proof (time_roundtrip t H) as (_ & Hn). split; [|exact Hn].
    unfold wg_encode_time in *. destruct (fits_time t) eqn:E; [|easy].
    apply encode_time_eq in E. destruct E as (-> & q & ->).
    rewrite (type_imm m (q * 256 + 63) 63); [reflexivity|lia|lia|auto 6].
  - rewrite encode_anonconst_eq by assumption. split; [|lia].
    rewrite (type_imm m (i * 256 + 95) 95); [reflexivity|lia|lia|auto 6].
  - assert (Hv : is64 v) by (unfold is64; lia).
    unfold wg_encode_var. destruct (fits_var v) eqn:E.
    2: { exfalso. apply fits_var_spec in H; [congruence|assumption]. }
    rewrite encode_var_eq by assumption.
    unfold encoded_type, isvar. rewrite land_3, land_15.
    destruct (Z.eqb_spec (v * 16 + 7) 0); [lia|].
    destruct (Z.eqb_spec ((v * 16 + 7) mod 4) 3); [|lia].
    destruct (Z.eqb_spec ((v * 16 + 7) mod 16) 7); [|lia]. split; [reflexivity|lia].
Qed.

(** ** Integer histories *)

Definition offs (h : Z * Z) : list Z := if isfullint (fst h) then [decode_fullint_offset (fst h)] else [].

Definition handle_ok (m : mem) (h : Z * Z) : Prop :=
  is64 (snd h) /\
  ((smallint_range (snd h) /\ fst h = encode_smallint (snd h)) \/
   (exists o, 0 < o /\ o mod 8 = 0 /\ fst h = encode_fullint_offset o /\ m o = snd h)).

Lemma fullint_facts o : 0 < o -> o mod 8 = 0 ->
  isfullint (encode_fullint_offset o) = true /\ issmallint (encode_fullint_offset o) = false /\
  decode_fullint_offset (encode_fullint_offset o) = o /\ encode_fullint_offset o <> WG_ILLEGAL /\
  isptr (encode_fullint_offset o) = true /\ Z.land (encode_fullint_offset o) 7 = 1.
Proof.
  intros H0 H8. unfold isfullint, issmallint, decode_fullint_offset, encode_fullint_offset, isptr, WG_ILLEGAL.
  rewrite lor8_eq by lia. rewrite land_3, land_7, land_n3.
  split; [apply Z.eqb_eq; lia|]. split; [apply Z.eqb_neq; lia|].
  split; [lia|]. split; [lia|]. split; [|lia].
  - apply andb_true_iff. rewrite !negb_true_iff, !Z.eqb_neq. lia.
Qed.

Lemma smallint_facts i : smallint_range i ->
  isfullint (encode_smallint i) = false /\ encode_smallint i <> WG_ILLEGAL /\ isptr (encode_smallint i) = false.
Proof.
  intros H. rewrite encode_smallint_eq by assumption. unfold isfullint, WG_ILLEGAL, isptr. rewrite land_3.
  repeat split.
  - apply Z.eqb_neq. lia.
  - lia.
  - apply andb_false_iff. right. rewrite negb_false_iff, Z.eqb_eq. lia.
Qed.

Lemma handle_decode m h : handle_ok m h -> wg_decode_int m (fst h) = snd h /\ fst h <> WG_ILLEGAL.
Proof.
  intros (H64 & [(Hr & ->)|(o & H0 & H8 & -> & Hm)]).
  - destruct (smallint_roundtrip _ Hr) as (Hd & Hs). unfold wg_decode_int. rewrite Hs.
    split; [exact Hd|]. apply smallint_facts; assumption.
  - destruct (fullint_facts _ H0 H8) as (F1 & F2 & F3 & F4 & _).
    unfold wg_decode_int. rewrite F1, F2, F3. auto.
Qed.

Lemma handle_ext m m' h : (forall o, In o (offs h) -> m' o = m o) -> handle_ok m h -> handle_ok m' h.
Proof.
  intros He (H64 & [H|(o & H0 & H8 & E & Hm)]); split; auto.
  right. exists o. repeat split; auto. rewrite He; auto.
  unfold offs. destruct (fullint_facts _ H0 H8) as (F1 & F2 & F3 & _). rewrite E, F1, F3. now left.
Qed.

Lemma wparams hdr size : params_ok hdr size 8 <-> 0 < hdr < 2 ^ 63 /\ hdr mod 8 = 0 /\ size < 2 ^ 63.
Proof.
  unfold params_ok. split; [tauto|]. intros (H1 & H2 & H3).
  split; [exact H1|]. split; [exact H2|]. split; [exact H3|]. split; [lia|reflexivity].
Qed.

Lemma ireach_inv hdr size c :
  params_ok hdr size 8 -> ireach hdr size c ->
  freach hdr size 8 (fst c, flat_map offs (snd c)) /\
  (forall h, In h (snd c) -> handle_ok (fs_mem (fst c)) h).
Proof.
  intros P H. induction H as [m s Hi | c c' Hr (IH1 & IH2) Hs].
  - split; [exact (FInit _ _ _ m s Hi)|easy].
  - destruct Hs as [s hs v s' e H64 He | s h1 e v h2 | s hs a v Ha | s hs req cc free' Hreq Hc];
      cbn [fst snd] in *.
    + unfold wg_encode_int in He. destruct (fits_smallint v) eqn:Ef.
      * injection He as <- <-. apply fits_smallint_spec in Ef; [|assumption].
        destruct (smallint_facts _ Ef) as (F1 & F2 & F3).
        destruct (Z.eqb_spec (encode_smallint v) WG_ILLEGAL); [easy|]. split.
        -- cbn [flat_map]. unfold offs at 1. cbn [fst]. rewrite F1. exact IH1.
        -- intros h [<-|Hh]; auto. split; auto.
      * destruct (wg_alloc_fixlen_object s) as (s1, o) eqn:Ea.
        destruct (Z.eqb_spec o 0) as [->|Ho].
        -- injection He as <- <-. rewrite Z.eqb_refl. split.
           ++ apply (FStep _ _ _ _ (Alloc 0) _ IH1). apply (FAlloc _ _ _ _ Ea).
           ++ intros h Hh. eapply handle_ext; [|apply IH2; exact Hh].
              intros x Hx. eapply fix_alloc_keeps; eauto; [|].
              ** apply in_flat_map. eauto.
              ** lia.
        -- injection He as <- <-.
           destruct (fix_alloc_fresh _ _ _ _ _ _ _ P IH1 Ea Ho) as (Hn & Hov & Hal & Hh & Hf & _).
           pose proof (proj1 (wparams _ _) P) as (P1 & _).
           destruct (fullint_facts o ltac:(lia) Hal) as (F1 & F2 & F3 & F4 & _).
           destruct (Z.eqb_spec (encode_fullint_offset o) WG_ILLEGAL); [easy|].
           assert (R1 : freach hdr size 8 (s1, o :: flat_map offs hs)).
           { eapply FStep; [exact IH1|]. pose proof (FAlloc _ (flat_map offs hs) _ _ Ea) as Hst.
             destruct (Z.eqb_spec o 0); [easy|]. exact Hst. }
           cbn [flat_map]. unfold offs at 1. cbn [fst]. rewrite F1, F3. cbn [app]. split.
           ++ eapply FStep; [exact R1|]. apply FWrite. left. exists o. split; [now left|].
              destruct (reach_inv _ _ _ _ P R1) as (fl & I). destruct I as [G _ _ _]. cbn in G.
              rewrite (g_len _ _ _ _ G). lia.
           ++ intros h [<-|Hh'].
              ** split; auto. right. exists o. cbn. rewrite upd_same. repeat split; auto; try lia.
              ** eapply handle_ext; [|apply IH2; exact Hh'].
                 intros x Hx. cbn. assert (Hxl : In x (flat_map offs hs)) by (apply in_flat_map; eauto).
                 rewrite upd_other by (intros ->; contradiction).
                 eapply fix_alloc_keeps; eauto. lia.
    + assert (Hh : handle_ok (fs_mem s) (e, v)) by (apply IH2; rewrite in_app_iff; cbn; auto).
      rewrite flat_map_app in IH1. cbn [flat_map] in IH1.
      destruct Hh as (H64 & [(Hrg & He)|(o & H0 & H8 & He & Hm)]); cbn [fst snd] in *; subst e.
      * destruct (smallint_facts _ Hrg) as (F1 & F2 & F3).
        unfold wg_free_encoded_int. rewrite F3. rewrite flat_map_app.
        unfold offs at 2 in IH1. cbn [fst] in IH1. rewrite F1 in IH1. cbn [app] in IH1.
        split; auto. intros h Hh. apply IH2. rewrite in_app_iff in *. cbn. tauto.
      * destruct (fullint_facts _ H0 H8) as (F1 & F2 & F3 & F4 & F5 & F6).
        unfold wg_free_encoded_int. rewrite F5, F6, F3. cbn [orb Z.eqb Pos.eqb]. rewrite flat_map_app.
        unfold offs at 2 in IH1. cbn [fst] in IH1. rewrite F1, F3 in IH1. cbn [app] in IH1.
        split.
        -- eapply FStep; [exact IH1|]. apply FFree.
        -- intros h Hh. assert (Hh' : In h (h1 ++ (encode_fullint_offset o, v) :: h2)).
           { rewrite in_app_iff in *. cbn. tauto. }
           eapply handle_ext; [|apply IH2; exact Hh'].
           intros x Hx. eapply fix_free_keeps with (o := x); eauto.
           ++ rewrite in_app_iff. cbn. auto.
           ++ rewrite in_app_iff in Hh |- *. cbn. destruct Hh as [Hh|Hh].
              ** left. apply in_flat_map. eauto.
              ** right. right. apply in_flat_map. eauto.
           ++ intros ->. destruct (fix_nodup_live _ _ _ _ _ P IH1) as (Hnd & _).
              apply NoDup_remove in Hnd. destruct Hnd as (_ & Hni). apply Hni.
              rewrite in_app_iff in Hh |- *. destruct Hh as [Hh|Hh]; [left|right]; apply in_flat_map; eauto.
           ++ lia.
    + split.
      * eapply FStep; [exact IH1|]. apply FWrite. auto.
      * intros h Hh. eapply handle_ext; [|apply IH2; exact Hh].
        intros x Hx. cbn. apply upd_other. intros ->. apply Ha.
        apply (fix_live_range _ _ _ _ _ _ P IH1). apply in_flat_map. eauto.
    + split.
      * eapply FStep; [exact IH1|]. eapply FChunk; eauto.
      * intros h Hh. apply IH2. exact Hh.
Qed.
