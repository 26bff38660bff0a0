(** C63, C64: strings come back from their bytes; copies stay in their buffer. *)
From Coq Require Import ZArith List Bool Lia.
From Verif Require Import Base EncodingModel EncodingProofs CompareModel CompareProofs UnistrModel UnistrBytes UnistrProofs.
From Verif Require IntModel.
Import ListNotations.
Open Scope Z_scope.
#[local] Ltac Zify.zify_post_hook ::= Z.div_mod_to_equations.

(** ** C63 *)
(** The words of the object find_create_longstr asks for (Db/dbdata.c l.2619-2625). *)
Definition in_object (off : Z) (data : list Z) (w : Z) : Prop := off <= w < off + 8 * longstr_gints (slen data).

(** A string or blob stored by find_create_longstr in an object the allocator made
    for it reads back with its type, length, bytes and extra string, now and later:
    the words for the count, the backlinks and the chain and the flag bits of the
    header may change, and everything outside the object. *)
Theorem C63_longstr m off data type ext harr m1 e m2 z :
  off mod 8 = 0 -> 0 <= type < 256 -> Forall (fun c => 0 <= c < 256) data -> slen data < 2 ^ 40 ->
  Z.land (m off) (Z.lnot 3) = 8 * longstr_gints (slen data) ->
  harr mod 8 = 0 -> ~ in_object off data harr ->
  (forall f, ext = Some f -> (forall m w, in_object off data w -> fst (f m) w = m w) /\
     forall m, isshortstr (snd (f m)) = true \/ islongstr (snd (f m)) = true /\ ~ in_object off data (decode_longstr_offset (snd (f m)) + 16)) ->
  create_longstr m off data type ext harr = (m1, e) ->
  Z.land (m2 off) (Z.lnot 3) = Z.land (m1 off) (Z.lnot 3) -> (forall w, in_object off data w -> w = off + 8 \/ off + 40 <= w -> m2 w = m1 w) ->
  encoded_type m2 e = type /\ wg_decode_blob_len (CSt m2 z) e = slen data /\ wg_decode_unistr_len (CSt m2 z) e = slen data - 1 /\
  (exists p, wg_decode_unistr e = Some p /\ forall i, (i < length data)%nat -> byte m2 (p + Z.of_nat i) = nth i data 0) /\
  (ext = None -> unistr_lang (CSt m2 z) e type = None) /\
  (forall f, ext = Some f -> unistr_lang (CSt m2 z) e type = wg_decode_unistr (snd (f (fill_longstr m off data)))).
Proof.
  intros H1 H2 H3 H4 H5 H6 H7 H8 E K1 K2. pose proof (gints_bounds (slen data) ltac:(lia)) as G. unfold in_object in *.
  assert (H8' : forall f, ext = Some f -> leaves f off (8 * longstr_gints (slen data)) /\ forall m1, let t := snd (f m1) in t mod 8 = 6 \/ t mod 8 = 4 /\ (t + 12 < off \/ off + 8 * longstr_gints (slen data) <= t - 4 + 16)).
  { intros f Ef. destruct (H8 f Ef) as [F1 F2]. split; [intros m3 w Hw; apply F1; exact Hw|]. intros m3. cbv zeta. destruct (F2 m3) as [F|[F F']].
    - left. unfold isshortstr in F. apply Z.eqb_eq in F. now rewrite land_7 in F.
    - right. unfold islongstr in F. apply Z.eqb_eq in F. rewrite land_7 in F. unfold decode_longstr_offset in F'. rewrite land_n7 in F'. lia. }
  destruct (create_LS m off data type ext harr m1 e H1 H2 H3 H4 H5 H6 H7 H8' E) as (-> & tmp & L & T1 & T2).
  assert (L2 : LS m2 off type data tmp) by (apply (LS_keep m1); auto; [apply K2; lia|apply K2; lia|intros w Hw; apply K2; lia]).
  destruct (LS_decode m2 off type data tmp z L2 H2) as (D1 & D2 & D3 & D4). destruct (long_enc off H1) as (E1 & E2 & E3).
  split; [exact D1|]. split; [exact D3|]. split; [unfold wg_decode_unistr_len; rewrite E1, E2, D3; reflexivity|]. split; [exists (off + 48); split; [exact D2|exact (ls_bytes _ _ _ _ _ L2)]|].
  unfold unistr_lang. rewrite E2, andb_false_r, D4. split.
  - intros Hn. rewrite (T1 Hn). reflexivity.
  - intros f Hf. assert (T3 : snd (f (fill_longstr m off data)) = tmp) by (symmetry; exact (T2 f Hf)). rewrite T3. destruct (Z.eqb_spec tmp 0) as [Et|]; [|reflexivity]. exfalso. destruct (H8' f Hf) as [_ F]. specialize (F (fill_longstr m off data)). cbv zeta in F. rewrite T3, Et in F. change (0 mod 8) with 0 in F. lia.
Qed.
Print Assumptions C63_longstr.

(** So a string (stored with its final 0) is the C string the decoder points at. *)
Theorem C63_string m p str z : Forall (fun c => 0 < c < 256) str -> slen str < z -> (forall i, (i < length (str ++ [0%Z]))%nat -> byte m (p + Z.of_nat i) = nth i (str ++ [0]) 0) -> cstring (CSt m z) p = str.
Proof.
  intros H1 H2 H3. unfold cstring. cbn [segsize]. rewrite app_length in H3. cbn [length] in H3. apply cstr_is.
  - intros i Hi. rewrite H3 by lia. apply app_nth1. exact Hi.
  - rewrite H3 by lia. now rewrite app_nth2, Nat.sub_diag by lia.
  - now apply cbytes_nz.
  - lia.
Qed.
Print Assumptions C63_string.

(** A short string of at most 31 bytes stays in its cell of 32 bytes and reads back. *)
Theorem C63_shortstr m off str z : off mod 8 = 0 -> Forall (fun c => 0 < c < 256) str -> slen str < 32 -> slen str < z ->
  let m' := store_shortstr m off str in let e := encode_shortstr_offset off in
  encoded_type m' e = WG_STRTYPE /\ text (CSt m' z) e = str /\ wg_decode_unistr_len (CSt m' z) e = slen str /\ unistr_lang (CSt m' z) e WG_STRTYPE = None /\
  (forall x, ~ off <= x < off + 32 -> byte m' x = byte m x) /\ (forall x, off + slen str <= x < off + 32 -> byte m' x = 0).
Proof.
  intros H1 H2 H3 Hz. cbv zeta. destruct (short_enc off H1) as (E1 & E2).
  assert (B : forall x, byte (store_shortstr m off str) x = if (off <=? x) && (x <? off + 32) then nth (Z.to_nat (x - off)) (str ++ [0]) 0 else byte m x).
  { intros x. unfold store_shortstr. change SHORTSTR_SIZE with 32. rewrite memcpy_byte, memcpy_byte, repeat_length, slen0.
    destruct (Z.leb_spec (off + slen str + 1) x), (Z.ltb_spec x (off + slen str + 1 + Z.of_nat (Z.to_nat (32 - slen str - 1)))), (Z.leb_spec off x), (Z.ltb_spec x (off + (slen str + 1))), (Z.ltb_spec x (off + 32)); cbn [andb]; try lia; try reflexivity.
    - rewrite nth_repeat. rewrite (nth_overflow (str ++ [0])); [reflexivity|]. rewrite app_length. cbn [length]. lia.
    - apply bytes_nth, bytes_ok0, H2. }
  split; [now apply short_type|].
  assert (T : cstring (CSt (store_shortstr m off str) z) off = str).
  { apply C63_string; auto. intros i Hi. rewrite app_length in Hi. cbn [length] in Hi. rewrite B. destruct (Z.leb_spec off (off + Z.of_nat i)); [|lia]. destruct (Z.ltb_spec (off + Z.of_nat i) (off + 32)); [|lia]. cbn [andb]. f_equal. lia. }
  split; [unfold text, wg_decode_unistr; rewrite E1, E2; exact T|]. split; [unfold wg_decode_unistr_len; rewrite E1, E2, T; reflexivity|]. split; [unfold unistr_lang; now rewrite E1|]. split.
  - intros x Hx. rewrite B. destruct (Z.leb_spec off x), (Z.ltb_spec x (off + 32)); cbn [andb]; try reflexivity. lia.
  - intros x Hx. rewrite B. destruct (Z.leb_spec off x); [|lia]. destruct (Z.ltb_spec x (off + 32)); [|lia]. cbn [andb]. destruct (Z.eq_dec x (off + slen str)) as [->|N].
    + rewrite app_nth2 by lia. replace (Z.to_nat (off + slen str - off) - length str)%nat with 0%nat by lia. reflexivity.
    + apply nth_overflow. rewrite app_length. cbn [length]. lia.
Qed.
Print Assumptions C63_shortstr.

(** A text parameter whose block is below 2^31 bytes writes only into its block,
    decodes to the text, extra string and type it was made from, and is released by
    freeing its block. *)
Theorem C63_param_text m dptr data type ext z : dptr mod 8 = 0 -> In type [WG_STRTYPE; WG_XMLLITERALTYPE; WG_URITYPE] ->
  Forall (fun c => 0 < c < 256) data -> (forall e, ext = Some e -> Forall (fun c => 0 < c < 256) e /\ slen e < z) -> slen data < z ->
  slen data + match ext with Some e => slen e | None => 0 end < 2 ^ 31 - 64 ->
  exists p size, wg_encode_query_param_text m dptr data type ext = Some p /\ pr_block p = Some (dptr, size) /\
    (forall x, ~ dptr <= x < dptr + size -> byte (pr_mem p) x = byte m x) /\
    let s := CSt (pr_mem p) z in
    encoded_type (pr_mem p) (pr_enc p) = type /\ text s (pr_enc p) = data /\ wg_decode_unistr_len s (pr_enc p) = slen data /\
    option_map (cstring s) (unistr_lang s (pr_enc p) type) = ext /\
    wg_free_query_param (pr_enc p) = Some dptr.
Proof.
  intros H1 H2 H3 H4 Hz H5. pose proof (gints_bounds (slen data + 1) ltac:(lia)) as G.
  assert (Free6 : wg_free_query_param (encode_shortstr_offset dptr) = Some dptr).
  { destruct (short_enc dptr H1) as (E1 & E2). unfold wg_free_query_param, isptr. rewrite E2. unfold encode_shortstr_offset. rewrite lor8_eq, land_3, land_7 by (auto; lia). replace ((dptr + 6) mod 8) with 6 by lia. replace ((dptr + 6) mod 4) with 2 by lia. destruct (Z.eqb_spec (dptr + 6) 0); [lia|reflexivity]. }
  assert (Free4 : wg_free_query_param (encode_longstr_offset dptr) = Some dptr).
  { destruct (long_enc dptr H1) as (E1 & _ & E2). unfold wg_free_query_param, isptr. rewrite E2. unfold encode_longstr_offset. rewrite lor8_eq, land_3, land_7 by (auto; lia). replace ((dptr + 4) mod 8) with 4 by lia. replace ((dptr + 4) mod 4) with 0 by lia. destruct (Z.eqb_spec (dptr + 4) 0); [lia|reflexivity]. }
  assert (Q : ext = None /\ type = WG_STRTYPE \/ (ext = None -> type <> WG_STRTYPE)).
  { destruct ext; [right; discriminate|]. destruct (Z.eq_dec type WG_STRTYPE); [now left|right; auto]. }
  destruct Q as [[-> ->]|Q].
  - destruct (param_short m dptr data H1 H3 ltac:(lia)) as (p & P1 & P2 & P3 & P4 & P5). exists p, (slen data + 1). split; [exact P1|]. split; [exact P3|]. split; [exact P4|]. cbv zeta. rewrite P2.
    destruct (short_enc dptr H1) as (E1 & E2).
    assert (T : cstring (CSt (pr_mem p) z) dptr = data) by (apply C63_string; auto; intros i Hi; rewrite app_length in Hi; cbn [length] in Hi; apply P5; lia).
    split; [now apply short_type|]. split; [unfold text, wg_decode_unistr; rewrite E1, E2; exact T|]. split; [unfold wg_decode_unistr_len; rewrite E1, E2, T; reflexivity|]. split; [unfold unistr_lang; now rewrite E1|exact Free6].
  - assert (Ht : 0 <= type < 256 /\ type <> WG_BLOBTYPE) by (cbn [In] in H2; unfold WG_STRTYPE, WG_XMLLITERALTYPE, WG_URITYPE, WG_BLOBTYPE in *; lia). destruct Ht as [Ht Hb].
    destruct (param_long m dptr data type ext H1 Ht Hb Q H3) as (p & P1 & P2 & P3 & L & P4 & P5); [destruct ext; lia|]. cbv zeta in *. set (N := 8 * longstr_gints (slen data + 1)) in *.
    exists p, (N + match ext with Some e => slen e + 1 | None => 0 end). split; [exact P1|]. split; [exact P3|]. split; [exact P4|]. rewrite P2. destruct (LS_decode _ _ _ _ _ z L Ht) as (D1 & D2 & D3 & D4). destruct (long_enc dptr H1) as (E1 & E2 & E3).
    split; [exact D1|]. split; [unfold text; rewrite D2; cbn [ostring]; apply C63_string; auto; exact (ls_bytes _ _ _ _ _ L)|]. split; [unfold wg_decode_unistr_len; rewrite E1, E2, D3, slen0; lia|]. split; [|exact Free4].
    unfold unistr_lang. rewrite E2, andb_false_r, D4. destruct ext as [e|]; [|reflexivity]. assert (ND : (dptr + N) mod 8 = 0) by (unfold N; lia). destruct (short_enc (dptr + N) ND) as (S1 & S2).
    assert (NZ : encode_shortstr_offset (dptr + N) <> 0) by (unfold encode_shortstr_offset; rewrite lor8_eq by (auto; lia); lia).
    destruct (Z.eqb_spec (encode_shortstr_offset (dptr + N)) 0); [contradiction|]. unfold wg_decode_unistr. rewrite S1, S2. cbn [option_map]. f_equal. destruct (H4 e eq_refl) as [He Hez]. apply C63_string; auto. intros i Hi. rewrite app_length in Hi. cbn [length] in Hi. apply (P5 e i eq_refl He). lia.
Qed.
Print Assumptions C63_param_text.

(** Numbers as parameters. *)
Theorem C63_param_number m dptr v z : dptr mod 8 = 0 -> dptr <> 0 -> is64 v ->
  (let p := wg_encode_query_param_int m dptr v in
   wg_decode_int (CSt (pr_mem p) z) (pr_enc p) = v /\ encoded_type (pr_mem p) (pr_enc p) = WG_INTTYPE /\ wg_free_query_param (pr_enc p) = option_map fst (pr_block p) /\
   forall w, w <> dptr -> pr_mem p w = m w) /\
  (let p := wg_encode_query_param_double m dptr (u64 v) in
   wg_decode_double (CSt (pr_mem p) z) (pr_enc p) = u64 v /\ encoded_type (pr_mem p) (pr_enc p) = WG_DOUBLETYPE /\ wg_free_query_param (pr_enc p) = option_map fst (pr_block p) /\
   forall w, w <> dptr -> pr_mem p w = m w).
Proof.
  intros H1 H0 Hv. split; cbv zeta.
  - unfold wg_encode_query_param_int. destruct (fits_smallint v) eqn:F; cbn [pr_mem pr_enc pr_block option_map fst].
    + assert (M7 : encode_smallint v mod 8 = 3). { unfold encode_smallint, shl64. rewrite Z.shiftl_mul_pow2 by lia. change (2 ^ 3) with 8. assert (R : exists q, wrap64 (v * 8) = q * 8) by (exists (wrap64 (v * 8) / 8); unfold wrap64; change (2 ^ 63) with 9223372036854775808; change (2 ^ 64) with 18446744073709551616; lia). destruct R as (q & ->). rewrite Z.mul_comm, lor8_eq by lia. lia. }
      assert (M3 : encode_smallint v mod 4 = 3) by lia. assert (M15 : encode_smallint v mod 16 <> 7) by lia. assert (NZ : encode_smallint v <> 0) by lia.
      split; [|split; [|split; [|reflexivity]]].
      * unfold wg_decode_int, issmallint. rewrite land_7, M7. cbn [Z.eqb Pos.eqb]. unfold decode_smallint, encode_smallint. rewrite Z.shiftr_lor. change (Z.shiftr 3 3) with 0. rewrite Z.lor_0_r. unfold fits_smallint in F. now apply Z.eqb_eq in F.
      * unfold encoded_type, isvar, issmallint. rewrite land_3, land_7, land_15, M3, M7. destruct (Z.eqb_spec (encode_smallint v) 0); [contradiction|]. destruct (Z.eqb_spec (encode_smallint v mod 16) 7); [contradiction|]. reflexivity.
      * unfold wg_free_query_param, isptr. rewrite land_3, M3. rewrite andb_false_r. reflexivity.
    + assert (E : encode_fullint_offset dptr = dptr + 1) by (apply lor8_eq; auto; lia). assert (M7 : (dptr + 1) mod 8 = 1) by lia. assert (M3 : (dptr + 1) mod 4 = 1) by lia.
      assert (D : decode_fullint_offset (dptr + 1) = dptr) by (unfold decode_fullint_offset; rewrite land_n3; lia). rewrite E. split; [|split; [|split]].
      * unfold wg_decode_int, issmallint, isfullint. rewrite land_7, land_3, M7, M3, D. cbn [Z.eqb Pos.eqb words]. apply upd_same.
      * unfold encoded_type. rewrite land_3, land_7, M3, M7. destruct (Z.eqb_spec (dptr + 1) 0); [lia|reflexivity].
      * unfold wg_free_query_param, isptr. rewrite land_3, land_7, M3, M7, D. destruct (Z.eqb_spec (dptr + 1) 0); [lia|reflexivity].
      * intros w Hw. apply upd_other. exact Hw.
  - unfold wg_encode_query_param_double. cbn [pr_mem pr_enc pr_block option_map fst].
    assert (E : encode_fulldouble_offset dptr = dptr + 2) by (apply lor8_eq; auto; lia). assert (M7 : (dptr + 2) mod 8 = 2) by lia. assert (M3 : (dptr + 2) mod 4 = 2) by lia.
    assert (D : decode_fulldouble_offset (dptr + 2) = dptr) by (unfold decode_fulldouble_offset; rewrite land_n7; lia). rewrite E. split; [|split; [|split]].
    + unfold wg_decode_double, isfulldouble. rewrite land_7, M7, D. cbn [Z.eqb Pos.eqb words]. rewrite upd_same. apply u64_wrap64. unfold u64. apply Z.mod_pos_bound. lia.
    + unfold encoded_type. rewrite land_3, land_7, M3, M7. destruct (Z.eqb_spec (dptr + 2) 0); [lia|reflexivity].
    + unfold wg_free_query_param, isptr. rewrite land_3, land_7, M3, M7, D. destruct (Z.eqb_spec (dptr + 2) 0); [lia|reflexivity].
    + intros w Hw. apply upd_other. exact Hw.
Qed.
Print Assumptions C63_param_number.

(** A query compares a text parameter with stored values by its text (and extra string). *)
Theorem C63_param_compare m dptr data type ext z p d e : dptr mod 8 = 0 -> In type [WG_STRTYPE; WG_XMLLITERALTYPE; WG_URITYPE] ->
  Forall (fun c => 0 < c < 256) data -> (forall e, ext = Some e -> Forall (fun c => 0 < c < 256) e /\ slen e < z) -> slen data < z ->
  slen data + match ext with Some e => slen e | None => 0 end < 2 ^ 31 - 64 ->
  wg_encode_query_param_text m dptr data type ext = Some p -> e <> pr_enc p ->
  let s := CSt (pr_mem p) z in
  encoded_type (words s) e = type ->
  WG_COMPARE_at s d (pr_enc p) e =
    if type =? WG_STRTYPE then strcmp data (text s e)
    else let x := strcmp (match ext with Some x => x | None => [] end) (extra s e) in if x =? 0 then strcmp data (text s e) else x.
Proof.
  intros H1 H2 H3 H4 Hz H5 Ep Ne. cbv zeta. intros Te. destruct (C63_param_text m dptr data type ext z H1 H2 H3 H4 Hz H5) as (p' & size & Ep' & _ & _ & T1 & T2 & _ & T4 & _). cbv zeta in *. rewrite Ep in Ep'. injection Ep' as <-.
  unfold WG_COMPARE_at. destruct (Z.eqb_spec (pr_enc p) e) as [E|_]; [now contradict Ne|]. cbn [words] in Te.
  assert (W : wg_compare (CSt (pr_mem p) z) d (pr_enc p) e = if type =? WG_STRTYPE then strcmp data (text (CSt (pr_mem p) z) e) else
     let ex := extra_cmp (CSt (pr_mem p) z) (wg_decode_unistr_lang (CSt (pr_mem p) z) (pr_enc p)) (wg_decode_unistr_lang (CSt (pr_mem p) z) e) in if ex =? 0 then strcmp data (text (CSt (pr_mem p) z) e) else ex).
  { destruct d as [|d]; cbn [wg_compare words]; rewrite T1, Te, Z.eqb_refl; fold (text (CSt (pr_mem p) z) e); fold (text (CSt (pr_mem p) z) (pr_enc p)); rewrite T2; (destruct H2 as [<-|[<-|[<-|[]]]]; reflexivity). }
  rewrite W. destruct (Z.eqb_spec type WG_STRTYPE) as [|Nt]; [reflexivity|]. cbv zeta. rewrite extra_cmp_eq.
  assert (X : extra (CSt (pr_mem p) z) (pr_enc p) = match ext with Some x => x | None => [] end).
  { unfold extra. unfold unistr_lang in T4. destruct (Z.eqb_spec type WG_STRTYPE); [contradiction|]. cbn [andb] in T4. destruct (wg_decode_unistr_lang _ _); cbn [option_map ostring] in *; [now rewrite <- T4|now rewrite <- T4]. }
  rewrite X. reflexivity.
Qed.
Print Assumptions C63_param_compare.

(** Texts whose length is 2^31 - 9 or more in an int leave the block: dlen wraps below
    0, 32 bytes are taken and more than 2^31 are written. *)
Theorem C63_param_block_refuted : exists m dptr data p size x, dptr mod 8 = 0 /\ Forall (fun c => 0 < c < 256) data /\ slen data = 2 ^ 31 - 10 /\
  wg_encode_query_param_text m dptr data WG_URITYPE None = Some p /\ pr_block p = Some (dptr, size) /\ ~ dptr <= x < dptr + size /\ byte (pr_mem p) x <> byte m x.
Proof.
  set (n := Z.to_nat (2 ^ 31 - 10)). assert (Hn : Z.of_nat n = 2 ^ 31 - 10) by (apply Z2Nat.id; lia). clearbody n.
  assert (W : wrap32 (Z.of_nat n) = 2 ^ 31 - 10) by (rewrite Hn; reflexivity).
  set (data := repeat 65 n). assert (Hl : length data = n) by apply repeat_length.
  assert (En : wg_encode_query_param_text (fun _ => 0) 4096 data WG_URITYPE None = encode_query_param_unistr (fun _ => 0) 4096 data WG_URITYPE None (2 ^ 31 - 10)) by (unfold wg_encode_query_param_text; now rewrite Hl, W).
  unfold encode_query_param_unistr in En. change (WG_URITYPE =? WG_STRTYPE) with false in En. change (WG_URITYPE =? WG_BLOBTYPE) with false in En. cbv iota in En. change (wrap32 (2 ^ 31 - 10 + 1)) with 2147483639 in En.
  change (2147483639 <? 0) with false in En. cbv iota zeta in En. change (2147483639 mod 8 =? 0) with false in En. cbv iota in En. change (wrap32 (8 * (LONGSTR_HEADER_GINTS + (2147483639 / 8 + 1)))) with (- 2147483608) in En. change (-2147483608 <? MIN_VARLENOBJ_SIZE) with true in En. cbv iota in En.
  change (MIN_VARLENOBJ_SIZE mod 8 =? 0) with true in En. cbv iota in En. change (wrap32 (MIN_VARLENOBJ_SIZE + 0)) with 32 in En.
  match type of En with _ = Some ?P => set (p := P) in En end.
  exists (fun _ => 0), 4096, data, p, 32, (4096 + 48). split; [reflexivity|]. split; [unfold data; apply Forall_forall; intros x Hx; apply repeat_spec in Hx; lia|]. split; [now rewrite Hl|]. split; [exact En|]. split; [reflexivity|]. split; [lia|].
  assert (B : byte (pr_mem p) (4096 + 48) = 65).
  { unfold p. cbn [pr_mem]. rewrite !upd_byte by (unfold LONGSTR_HASHCHAIN_POS, LONGSTR_BACKLINKS_POS, LONGSTR_REFCOUNT_POS, LONGSTR_META_POS, LONGSTR_EXTRASTR_POS; lia). rewrite memcpy_byte. change (4096 + 2147483639 + LONGSTR_HEADER_GINTS * 8 <=? 4096 + 48) with false. cbn [andb]. rewrite memcpy_byte. change (4096 + LONGSTR_HEADER_GINTS * 8 <=? 4096 + 48) with true. cbn [andb].
    rewrite firstn_length, app_length, Hl. cbn [length]. destruct (Z.ltb_spec (4096 + 48) (4096 + LONGSTR_HEADER_GINTS * 8 + Z.of_nat (Nat.min (Z.to_nat 2147483639) (n + 1)))) as [_|Bad]; [|exfalso; change (LONGSTR_HEADER_GINTS * 8) with 48 in Bad; lia].
    change (Z.to_nat (4096 + 48 - (4096 + LONGSTR_HEADER_GINTS * 8))) with 0%nat. unfold data. destruct n as [|n']; [lia|]. cbn [repeat app]. destruct (Z.to_nat 2147483639) eqn:Ez; [lia|]. reflexivity. }
  rewrite B. discriminate.
Qed.
Print Assumptions C63_param_block_refuted.

(** A text of 2^32 + 5 bytes gives the parameter of its first five. *)
Theorem C63_param_length_refuted : exists m dptr data data', slen data = 2 ^ 32 + 5 /\ slen data' = 5 /\ Forall (fun c => 0 < c < 256) data /\
  wg_encode_query_param_text m dptr data WG_STRTYPE None = wg_encode_query_param_text m dptr data' WG_STRTYPE None.
Proof.
  set (n := Z.to_nat (2 ^ 32)). assert (Hn : Z.of_nat n = 2 ^ 32) by (apply Z2Nat.id; lia). clearbody n.
  exists (fun _ => 0), 4096, (repeat 65 (5 + n)), (repeat 65 5). rewrite !repeat_length. split; [lia|]. split; [reflexivity|]. split; [apply Forall_forall; intros x Hx; apply repeat_spec in Hx; lia|].
  unfold wg_encode_query_param_text. rewrite !repeat_length. replace (Z.of_nat (5 + n)) with (2 ^ 32 + 5) by lia. change (wrap32 (2 ^ 32 + 5)) with 5. change (wrap32 (Z.of_nat 5)) with 5. cbn [Nat.add repeat app]. reflexivity.
Qed.
Print Assumptions C63_param_length_refuted.

(** wg_find_record_int takes an int: the integer searched for is cut to 32 bits. *)
Theorem C63_find_int_refuted : exists v, is64 v /\ forall m dptr, wg_decode_int (CSt (pr_mem (find_record_int_param m dptr v)) 0) (pr_enc (find_record_int_param m dptr v)) <> v.
Proof. exists (2 ^ 32 + 5). split; [unfold is64; lia|]. intros m dptr. unfold find_record_int_param. change (wrap32 (2 ^ 32 + 5)) with 5. vm_compute. discriminate. Qed.
Print Assumptions C63_find_int_refuted.

(** Concrete cases: "hello" with the language "en", stored and as a parameter. *)
Definition hello : list Z := [104; 101; 108; 108; 111].
Definition en_lang : list Z := [101; 110].
(** The extra string kept in a cell of its own (Db/dbdata.c l.2637-2645). *)
Definition ex_ext (m : mem) : mem * Z := (store_shortstr m 4096 en_lang, encode_shortstr_offset 4096).
Example C63_longstr_case : let m := upd (fun _ => 0) 1024 57 in
  let '(m1, e) := create_longstr m 1024 (hello ++ [0]) WG_STRTYPE (Some ex_ext) 2048 in
  Z.land (m 1024) (Z.lnot 3) = 8 * longstr_gints (slen (hello ++ [0])) /\
  encoded_type m1 e = WG_STRTYPE /\ text (CSt m1 10000) e = hello /\ extra (CSt m1 10000) e = en_lang /\ wg_decode_unistr_len (CSt m1 10000) e = 5 /\ m1 2048 = e.
Proof. vm_compute. repeat split. Qed.
Lemma memcpy_far l : forall m a w, w + 8 <= a -> memcpy m a l w = m w.
Proof. induction l as [|c l IH]; intros m a w H; cbn [memcpy]; [reflexivity|]. rewrite IH by lia. unfold setbyte. apply upd_other. lia. Qed.
Example C63_ex_ext : (forall m w, in_object 1024 (hello ++ [0]) w -> fst (ex_ext m) w = m w) /\ forall m, isshortstr (snd (ex_ext m)) = true.
Proof.
  split; [|reflexivity]. intros m w Hw. unfold in_object in Hw. change (8 * longstr_gints (slen (hello ++ [0]))) with 56 in Hw. unfold ex_ext, store_shortstr. cbn [fst].
  rewrite memcpy_far by (cbn; lia). apply memcpy_far. lia.
Qed.
Example C63_shortstr_case : let m := store_shortstr (fun _ => -1) 4096 hello in text (CSt m 10000) (encode_shortstr_offset 4096) = hello /\ byte m 4127 = 0 /\ byte m 4128 = 255.
Proof. vm_compute. repeat split. Qed.
Example C63_param_case : match wg_encode_query_param_text (fun _ => 0) (-800) hello WG_URITYPE (Some en_lang) with
  | Some p => text (CSt (pr_mem p) 10000) (pr_enc p) = hello /\ extra (CSt (pr_mem p) 10000) (pr_enc p) = en_lang /\ pr_block p = Some (-800, 59) /\ wg_free_query_param (pr_enc p) = Some (-800)
  | None => False end.
Proof. vm_compute. repeat split. Qed.
Example C63_param_number_case : let p := wg_encode_query_param_int (fun _ => 0) (-800) (2 ^ 62 + 1) in pr_block p = Some (-800, 8) /\ wg_decode_int (CSt (pr_mem p) 0) (pr_enc p) = 2 ^ 62 + 1.
Proof. vm_compute. split; reflexivity. Qed.
Example C63_param_compare_case : let m := store_shortstr (fun _ => 0) 4096 hello in
  match wg_encode_query_param_text m (-800) hello WG_STRTYPE None, wg_encode_query_param_text m (-1600) en_lang WG_STRTYPE None with
  | Some p, Some q => WG_COMPARE (CSt (pr_mem p) 10000) (pr_enc p) (encode_shortstr_offset 4096) = WG_EQUAL /\ WG_COMPARE (CSt (pr_mem q) 10000) (pr_enc q) (encode_shortstr_offset 4096) = WG_LESSTHAN
  | _, _ => False end.
Proof. vm_compute. split; reflexivity. Qed.

(** ** C64 *)
(** The copying decoders write only inside the buffer, whatever value, memory and
    buffer length they are given. *)
Lemma short_copy_in k : forall m src buf dst buflen x, 0 <= dst < buflen -> ~ 0 <= x < buflen -> fst (short_copy k m src buf dst (dst + 1) buflen) x = buf x.
Proof.
  induction k as [|k IH]; intros m src buf dst buflen x Hd Hx; cbn [short_copy]; [apply upd_other; lia|]. destruct (byte m src =? 0); [apply upd_other; lia|].
  destruct (Z.leb_spec buflen (dst + 1)); [reflexivity|]. rewrite IH by lia. apply upd_other. lia.
Qed.
Lemma copy_out_in m src buf n buflen x : n <= buflen -> ~ 0 <= x < buflen -> copy_out m src buf n x = buf x.
Proof. intros Hn Hx. unfold copy_out. destruct (Z.leb_spec 0 x), (Z.ltb_spec x n); cbn [andb]; try reflexivity. lia. Qed.
Theorem C64_bounded s data buf buflen type x : ~ 0 <= x < buflen ->
  fst (checked_copy wg_decode_unistr_copy s data buf buflen type) x = buf x /\
  fst (checked_copy wg_decode_unistr_lang_copy s data buf buflen type) x = buf x.
Proof.
  intros Hx. unfold checked_copy. destruct (data =? 0); [split; reflexivity|]. destruct (Z.ltb_spec buflen 1) as [|Hb]; [split; reflexivity|]. split.
  - unfold wg_decode_unistr_copy. destruct (_ && _); [apply (short_copy_in 31 (words s) _ buf 0); lia|]. destruct (islongstr data); [|reflexivity]. cbv zeta. destruct (Z.ltb_spec buflen (wg_decode_blob_len s data)); [reflexivity|]. cbn [fst]. apply copy_out_in with buflen; lia.
  - unfold wg_decode_unistr_lang_copy. destruct (unistr_lang s data type); [|apply upd_other; lia]. cbv zeta. destruct (Z.leb_spec buflen (Z.of_nat (length (cstring s z)))); [reflexivity|]. cbn [fst]. apply copy_out_in with buflen; lia.
Qed.
Print Assumptions C64_bounded.

(** A C string read from memory and its bytes. *)
Lemma cstr_inv z : forall fuel m a str, cstr fuel (CSt m z) a = str -> (length str < fuel)%nat ->
  forall i, (i <= length str)%nat -> byte m (a + Z.of_nat i) = nth i (str ++ [0]) 0 /\ (byte m (a + Z.of_nat i) = 0 -> i = length str).
Proof.
  induction fuel as [|f IH]; intros m a str E L i Hi; [lia|]. cbn [cstr] in E. rewrite byte_at_byte in E. destruct (Z.eqb_spec (byte m a) 0) as [E0|N0].
  - subst str. cbn [length] in Hi. assert (i = 0%nat) by lia. subst i. rewrite Z.add_0_r. split; [exact E0|reflexivity].
  - destruct str as [|c str]; [discriminate|]. injection E as Ec E. cbn [length] in L, Hi. destruct i as [|i].
    + rewrite Z.add_0_r. cbn [app nth]. split; [exact Ec|intros; contradiction].
    + destruct (IH m (a + 1) str E ltac:(lia) i ltac:(lia)) as [I1 I2]. replace (a + Z.of_nat (S i)) with (a + 1 + Z.of_nat i) by lia. cbn [app nth length]. split; [exact I1|]. intros H0. f_equal. apply I2, H0.
Qed.
Lemma short_copy_text m : forall str k src buf dst buflen,
  (forall i, (i <= length str)%nat -> byte m (src + Z.of_nat i) = nth i (str ++ [0]) 0 /\ (byte m (src + Z.of_nat i) = 0 -> i = length str)) ->
  (length str <= k)%nat -> 0 <= dst < buflen ->
  let '(b, r) := short_copy k m src buf dst (dst + 1) buflen in
  r = (if dst + slen str <? buflen then dst + slen str else -1) /\
  (forall x, 0 <= x < dst -> b x = buf x) /\ (r <> -1 -> forall i, (i <= length str)%nat -> b (dst + Z.of_nat i) = nth i (str ++ [0]) 0).
Proof.
  induction str as [|c str IH]; intros k src buf dst buflen H Hk Hd.
  - assert (E : short_copy k m src buf dst (dst + 1) buflen = (upd buf dst 0, dst + 1 - 1)).
    { destruct (H 0%nat (le_n _)) as [H0 _]. rewrite Z.add_0_r in H0. cbn [app nth] in H0. destruct k; cbn [short_copy]; [reflexivity|]. now rewrite H0. }
    rewrite E. cbn [length Z.of_nat]. rewrite Z.add_0_r. destruct (Z.ltb_spec dst buflen); [|lia]. split; [lia|]. split; [intros x Hx; apply upd_other; lia|]. intros _ i Hi. assert (i = 0%nat) by lia. subst i. rewrite Z.add_0_r. apply upd_same.
  - destruct k as [|k]; [cbn in Hk; lia|]. cbn [length] in *. destruct (H 0%nat ltac:(lia)) as [H0 H0']. rewrite Z.add_0_r in H0, H0'. cbn [app nth] in H0. cbn [short_copy]. destruct (Z.eqb_spec (byte m src) 0) as [E0|N0]; [specialize (H0' E0); lia|].
    destruct (Z.leb_spec buflen (dst + 1)) as [B|B].
    + destruct (Z.ltb_spec (dst + Z.of_nat (S (length str))) buflen); [lia|]. split; [reflexivity|]. split; [reflexivity|]. intros; contradiction.
    + specialize (IH k (src + 1) (upd buf dst (byte m src)) (dst + 1) buflen). destruct (short_copy k m (src + 1) (upd buf dst (byte m src)) (dst + 1) (dst + 1 + 1) buflen) as [b r].
      destruct IH as (I1 & I2 & I3); [|lia|lia|].
      { intros i Hi. destruct (H (S i) ltac:(lia)) as [J1 J2]. replace (src + 1 + Z.of_nat i) with (src + Z.of_nat (S i)) by lia. cbn [app nth] in J1. split; [exact J1|]. intros J. specialize (J2 J). lia. }
      replace (dst + Z.of_nat (S (length str))) with (dst + 1 + slen str) by lia. split; [exact I1|]. split; [intros x Hx; rewrite I2 by lia; apply upd_other; lia|]. intros Hr i Hi. destruct i as [|i].
      * rewrite Z.add_0_r. rewrite I2 by lia. rewrite upd_same. exact H0.
      * replace (dst + Z.of_nat (S i)) with (dst + 1 + Z.of_nat i) by lia. cbn [app nth]. apply I3; [exact Hr|lia].
Qed.

(** With room for the text and its final 0 the copy is the text and its length is
    returned; without, -1. *)
Theorem C64_copy s e buf buflen type : let t := text s e in
  type <> WG_BLOBTYPE -> isshortstr e = true /\ type = WG_STRTYPE /\ slen t < SHORTSTR_SIZE \/ islongstr e = true /\ isshortstr e = false ->
  wg_decode_unistr_len s e = slen t -> slen t < segsize s -> e <> 0 -> 1 <= buflen ->
  let '(b, r) := checked_copy wg_decode_unistr_copy s e buf buflen type in
  r = (if slen t <? buflen then slen t else -1) /\ (slen t < buflen -> forall i, (i <= length t)%nat -> b (Z.of_nat i) = nth i (t ++ [0]) 0).
Proof.
  cbv zeta. intros Ht He Hl Hz Hn Hb. destruct s as [m z]. cbn [segsize] in Hz. unfold checked_copy. destruct (Z.eqb_spec e 0); [contradiction|]. destruct (Z.ltb_spec buflen 1); [lia|]. unfold wg_decode_unistr_copy. cbn [words].
  unfold wg_decode_unistr_len in Hl. destruct He as [(E & -> & S)|(E & F)].
  - unfold text, wg_decode_unistr in *. rewrite E in *. change (WG_STRTYPE =? WG_STRTYPE) with true. cbn [andb ostring] in *. set (p := decode_shortstr_offset e) in *. set (t := cstring (CSt m z) p) in *.
    pose proof (short_copy_text m t 31 p buf 0 buflen) as C. change (0 + 1) with 1 in C. destruct (short_copy 31 m p buf 0 1 buflen) as [b r]. destruct C as (C1 & C2 & C3); [|change SHORTSTR_SIZE with 32 in S; lia|lia|].
    + intros i Hi. apply (cstr_inv z (Z.to_nat z) m p t); [reflexivity|lia|exact Hi].
    + rewrite Z.add_0_l in C1. split; [exact C1|]. intros Hlt i Hi. specialize (C3 ltac:(destruct (Z.ltb_spec (slen t) buflen); lia) i Hi). rewrite Z.add_0_l in C3. exact C3.
  - unfold text, wg_decode_unistr in *. rewrite E, F in *. rewrite andb_false_r. cbn [ostring] in *. set (p := decode_longstr_offset e + LONGSTR_HEADER_GINTS * 8) in *. set (t := cstring (CSt m z) p) in *. cbv zeta.
    destruct (Z.eqb_spec type WG_BLOBTYPE); [contradiction|]. replace (wg_decode_blob_len (CSt m z) e) with (slen t + 1) by lia. destruct (Z.ltb_spec buflen (slen t + 1)), (Z.ltb_spec (slen t) buflen); try lia.
    split; [lia|]. intros _ i Hi. unfold copy_out. destruct (Z.leb_spec 0 (Z.of_nat i)); [|lia]. destruct (Z.ltb_spec (Z.of_nat i) (slen t + 1)); [|lia]. cbn [andb]. apply (cstr_inv z (Z.to_nat z) m p t); [reflexivity|lia|exact Hi].
Qed.
Print Assumptions C64_copy.

(** A blob is copied whole, without a final 0, or not at all. *)
Theorem C64_copy_blob s e buf buflen p : islongstr e = true -> wg_decode_unistr e = Some p -> e <> 0 -> 1 <= buflen ->
  let n := wg_decode_blob_len s e in
  let '(b, r) := checked_copy wg_decode_unistr_copy s e buf buflen WG_BLOBTYPE in
  (n <= buflen -> r = n /\ forall x, b x = if (0 <=? x) && (x <? n) then byte (words s) (p + x) else buf x) /\
  (buflen < n -> r = -1 /\ b = buf).
Proof.
  intros E Ep Hn Hb. cbv zeta. unfold checked_copy. destruct (Z.eqb_spec e 0); [contradiction|]. destruct (Z.ltb_spec buflen 1); [lia|]. unfold wg_decode_unistr_copy. change (WG_BLOBTYPE =? WG_STRTYPE) with false. cbn [andb]. rewrite E. cbv zeta.
  assert (P : p = decode_longstr_offset e + LONGSTR_HEADER_GINTS * 8).
  { unfold wg_decode_unistr in Ep. unfold islongstr, isshortstr in *. apply Z.eqb_eq in E. rewrite E in Ep. cbn [Z.eqb Pos.eqb] in Ep. now injection Ep as <-. }
  destruct (Z.ltb_spec buflen (wg_decode_blob_len s e)).
  - split; [lia|]. intros _. split; reflexivity.
  - split; [|lia]. intros _. split; [reflexivity|]. intros x. unfold copy_out. rewrite P. reflexivity.
Qed.
Print Assumptions C64_copy_blob.

(** The same for the extra string; a missing one is copied as the empty string. *)
Theorem C64_copy_lang s e buf buflen type : e <> 0 -> 1 <= buflen ->
  let t := ostring s (unistr_lang s e type) in slen t < segsize s ->
  let '(b, r) := checked_copy wg_decode_unistr_lang_copy s e buf buflen type in
  r = (if slen t <? buflen then slen t else -1) /\ (slen t < buflen -> forall i, (i <= length t)%nat -> b (Z.of_nat i) = nth i (t ++ [0]) 0).
Proof.
  intros Hn Hb. cbv zeta. unfold checked_copy. destruct (Z.eqb_spec e 0); [contradiction|]. destruct (Z.ltb_spec buflen 1); [lia|]. unfold wg_decode_unistr_lang_copy. destruct (unistr_lang s e type) as [p|]; cbn [ostring].
  - destruct s as [m z]. cbn [segsize words]. set (t := cstring (CSt m z) p). intros Hz. destruct (Z.leb_spec buflen (slen t)), (Z.ltb_spec (slen t) buflen); try lia.
    split; [reflexivity|]. intros _ i Hi. unfold copy_out. destruct (Z.leb_spec 0 (Z.of_nat i)); [|lia]. destruct (Z.ltb_spec (Z.of_nat i) (slen t + 1)); [|lia]. cbn [andb]. apply (cstr_inv z (Z.to_nat z) m p t); [reflexivity|lia|exact Hi].
  - cbn [length Z.of_nat]. intros _. destruct (Z.ltb_spec 0 buflen); [|lia]. split; [reflexivity|]. intros _ i Hi. assert (i = 0%nat) by lia. subst i. reflexivity.
Qed.
Print Assumptions C64_copy_lang.

(** A query parameter for a plain text of more than 31 bytes has the form of a short
    string: its copy is cut after 31 bytes and the result says so only by its value. *)
Definition ex_long : list Z := repeat 65 40.
Theorem C64_copy_param_refuted : exists m dptr data p buf, wg_encode_query_param_text m dptr data WG_STRTYPE None = Some p /\
  let s := CSt (pr_mem p) 10000 in wg_decode_unistr_len s (pr_enc p) = slen data /\ slen data < 100 /\ snd (checked_copy wg_decode_unistr_copy s (pr_enc p) buf 100 WG_STRTYPE) = 31 /\ slen data = 40.
Proof. exists (fun _ => 0), (-800), ex_long. eexists. exists (fun _ => 0). split; [reflexivity|]. vm_compute. repeat split. Qed.
Print Assumptions C64_copy_param_refuted.
(** Without the checks of the public functions one byte is written into a buffer of length 0. *)
Theorem C64_unchecked_refuted : exists s e buf, fst (wg_decode_unistr_copy s e buf 0 WG_STRTYPE) 0 <> buf 0.
Proof. exists (CSt (fun _ => 0) 100), (encode_shortstr_offset 64), (fun _ => 7). vm_compute. discriminate. Qed.
Print Assumptions C64_unchecked_refuted.

Example C64_case : let m := store_shortstr (fun _ => -1) 4096 hello in let s := CSt m 10000 in let e := encode_shortstr_offset 4096 in
  let '(b, r) := checked_copy wg_decode_unistr_copy s e (fun _ => 7) 6 WG_STRTYPE in
  r = 5 /\ map b [0; 1; 2; 3; 4; 5; 6] = hello ++ [0; 7] /\ snd (checked_copy wg_decode_unistr_copy s e (fun _ => 7) 5 WG_STRTYPE) = -1.
Proof. vm_compute. repeat split. Qed.
Example C64_blob_case : let m := upd (fun _ => 0) 1024 56 in let '(m1, e) := create_longstr m 1024 hello WG_BLOBTYPE (Some ex_ext) 2048 in
  let '(b, r) := checked_copy wg_decode_unistr_copy (CSt m1 10000) e (fun _ => 7) 5 WG_BLOBTYPE in
  r = 5 /\ map b [0; 1; 2; 3; 4; 5] = hello ++ [7] /\ snd (checked_copy wg_decode_unistr_copy (CSt m1 10000) e (fun _ => 7) 4 WG_BLOBTYPE) = -1 /\
  snd (checked_copy wg_decode_unistr_lang_copy (CSt m1 10000) e (fun _ => 7) 3 WG_BLOBTYPE) = 2 /\ snd (checked_copy wg_decode_unistr_lang_copy (CSt m1 10000) e (fun _ => 7) 2 WG_BLOBTYPE) = -1.
Proof. vm_compute. repeat split. Qed.
