(** Bytes of strings: proofs. *)
From Coq Require Import ZArith List Bool Lia.
From Verif Require Import Base EncodingModel EncodingProofs CompareModel CompareProofs UnistrModel UnistrBytes.
Import ListNotations.
Open Scope Z_scope.
#[local] Ltac Zify.zify_post_hook ::= Z.div_mod_to_equations.

Notation slen l := (Z.of_nat (length l)).

(** A long string object at [off] with contents [data] and encoded extra string [ext]. *)
Record LS (m : mem) (off type : Z) (data : list Z) (ext : Z) : Prop := {
  ls_off : off mod 8 = 0;
  ls_head : Z.land (m off) (Z.lnot 3) = 8 * longstr_gints (slen data);
  ls_meta : m (off + 8) = Z.lor (Z.shiftl (8 * longstr_gints (slen data) - slen data) 8) type;
  ls_ext : m (off + 40) = ext;
  ls_bytes : forall i, (i < length data)%nat -> byte m (off + 48 + Z.of_nat i) = nth i data 0 }.

Lemma gints_bounds n : 0 <= n -> 8 * longstr_gints n - 56 < n <= 8 * longstr_gints n - 48.
Proof. intros H. unfold longstr_gints, LONGSTR_HEADER_GINTS. destruct (Z.eqb_spec (n mod 8) 0); lia. Qed.
Lemma used_size h n : 0 <= n -> Z.land h (Z.lnot 3) = 8 * longstr_gints n -> getusedobjectsize h = 8 * longstr_gints n.
Proof.
  intros Hn E. unfold getusedobjectsize, MIN_VARLENOBJ_SIZE. rewrite E. pose proof (gints_bounds n Hn). cbv zeta. destruct (Z.leb_spec (8 * longstr_gints n) 32); [lia|].
  rewrite Z.mul_comm, Z.mod_mul by lia. reflexivity.
Qed.
Lemma meta_parts d t : 0 <= d < 256 -> 0 <= t < 256 -> Z.land (Z.lor (Z.shiftl d 8) t) 0xff = t /\ Z.shiftr (Z.land (Z.lor (Z.shiftl d 8) t) 0xFF00) 8 = d.
Proof.
  intros Hd Ht. rewrite Z.shiftl_mul_pow2 by lia. rewrite lor_low by (change (2 ^ 8) with 256; lia). change (2 ^ 8) with 256. split.
  - rewrite land_255. lia.
  - change 0xFF00 with (Z.shiftl (2 ^ 8 - 1) 8). rewrite Z.shiftr_land, Z.shiftr_shiftl_l by lia. change (8 - 8) with 0. rewrite Z.shiftl_0_r, land_ones_mod by lia. rewrite Z.shiftr_div_pow2 by lia. change (2 ^ 8) with 256. lia.
Qed.
Lemma long_enc off : off mod 8 = 0 -> islongstr (encode_longstr_offset off) = true /\ isshortstr (encode_longstr_offset off) = false /\ decode_longstr_offset (encode_longstr_offset off) = off.
Proof.
  intros H. unfold islongstr, isshortstr, encode_longstr_offset, decode_longstr_offset. rewrite lor8_eq by (auto; lia). rewrite land_n7, !land_7.
  replace ((off + 4) mod 8) with 4 by lia. repeat split; try reflexivity. lia.
Qed.
Lemma short_enc off : off mod 8 = 0 -> isshortstr (encode_shortstr_offset off) = true /\ decode_shortstr_offset (encode_shortstr_offset off) = off.
Proof.
  intros H. unfold isshortstr, encode_shortstr_offset, decode_shortstr_offset. rewrite lor8_eq by (auto; lia). rewrite land_n7, !land_7.
  replace ((off + 6) mod 8) with 6 by lia. repeat split; try reflexivity. lia.
Qed.
Lemma long_type m off : off mod 8 = 0 -> encoded_type m (encode_longstr_offset off) = Z.land (m (off + 8)) 0xff.
Proof.
  intros H. destruct (long_enc off H) as (_ & _ & D). unfold encoded_type. rewrite D. unfold encode_longstr_offset. rewrite lor8_eq by (auto; lia). rewrite land_3, land_7.
  destruct (Z.eqb_spec (off + 4) 0); [lia|]. replace ((off + 4) mod 4) with 0 by lia. replace ((off + 4) mod 8) with 4 by lia. reflexivity.
Qed.
Lemma short_type m off : off mod 8 = 0 -> encoded_type m (encode_shortstr_offset off) = WG_STRTYPE.
Proof.
  intros H. unfold encoded_type. unfold encode_shortstr_offset. rewrite lor8_eq by (auto; lia). rewrite land_3, land_7.
  destruct (Z.eqb_spec (off + 6) 0); [lia|]. replace ((off + 6) mod 4) with 2 by lia. replace ((off + 6) mod 8) with 6 by lia. reflexivity.
Qed.

(** What the decoders see. *)
Lemma LS_decode m off type data ext z : LS m off type data ext -> 0 <= type < 256 ->
  let e := encode_longstr_offset off in
  encoded_type m e = type /\ wg_decode_unistr e = Some (off + 48) /\ wg_decode_blob_len (CSt m z) e = slen data /\
  wg_decode_unistr_lang (CSt m z) e = (if ext =? 0 then None else wg_decode_unistr ext).
Proof.
  intros [L1 L2 L3 L4 L5] Ht. cbv zeta. destruct (long_enc off L1) as (E1 & E2 & E3). pose proof (gints_bounds (slen data) ltac:(lia)) as G.
  destruct (meta_parts (8 * longstr_gints (slen data) - slen data) type ltac:(lia) Ht) as [M1 M2]. split; [|split; [|split]].
  - rewrite long_type, L3 by exact L1. exact M1.
  - unfold wg_decode_unistr. rewrite E1, E2, E3. reflexivity.
  - unfold wg_decode_blob_len. rewrite E3. cbn [words]. change (LONGSTR_META_POS * 8) with 8. rewrite (used_size (m off) (slen data)) by (auto; lia). rewrite L3, M2. lia.
  - unfold wg_decode_unistr_lang. rewrite E1, E3. cbn [words]. change (LONGSTR_EXTRASTR_POS * 8) with 40. rewrite L4. reflexivity.
Qed.
(** The object stays readable as long as its words stay, up to the two flag bits of
    the header and the words for the count, the backlinks and the chain. *)
Lemma LS_keep m m' off type data ext : LS m off type data ext ->
  Z.land (m' off) (Z.lnot 3) = Z.land (m off) (Z.lnot 3) -> m' (off + 8) = m (off + 8) -> m' (off + 40) = m (off + 40) ->
  (forall w, off + 48 <= w < off + 8 * longstr_gints (slen data) -> m' w = m w) -> LS m' off type data ext.
Proof.
  intros [L1 L2 L3 L4 L5] H1 H2 H3 H4. constructor; try congruence. intros i Hi. rewrite <- (L5 i Hi). apply byte_word. apply H4.
  pose proof (gints_bounds (slen data) ltac:(lia)). lia.
Qed.
Definition bytes_ok (l : list Z) : Prop := Forall (fun c => 0 <= c < 256) l.
Lemma bytes_nth l i : bytes_ok l -> nth i l 0 mod 256 = nth i l 0.
Proof.
  intros H. apply Z.mod_small. destruct (Nat.lt_ge_cases i (length l)) as [Hi|Hi]; [|rewrite nth_overflow by exact Hi; lia]. unfold bytes_ok in H. rewrite Forall_forall in H. apply H, nth_In, Hi.
Qed.
Lemma bytes_app a b : bytes_ok a -> bytes_ok b -> bytes_ok (a ++ b).
Proof. apply Forall_app_2 || (intros; apply Forall_app; auto). Qed.

(** Both places fill in the contents the same way. *)
Lemma pad_len n : 0 <= n -> n + Z.of_nat (Z.to_nat (if n mod 8 =? 0 then 0 else 8 - n mod 8)) = 8 * longstr_gints n - 48.
Proof. intros H. unfold longstr_gints, LONGSTR_HEADER_GINTS. destruct (Z.eqb_spec (n mod 8) 0); lia. Qed.
Lemma fill_word m off data w : w mod 8 = 0 -> w < off + 48 \/ off + 8 * longstr_gints (slen data) <= w -> off mod 8 = 0 -> fill_longstr m off data w = m w.
Proof.
  intros Hw H Ho. pose proof (pad_len (slen data) ltac:(lia)) as P. pose proof (gints_bounds (slen data) ltac:(lia)). unfold fill_longstr. change (LONGSTR_HEADER_GINTS * 8) with 48.
  rewrite !memcpy_word; auto; rewrite ?repeat_length; lia.
Qed.
Lemma fill_byte m off data i : bytes_ok data -> (i < length data)%nat -> byte (fill_longstr m off data) (off + 48 + Z.of_nat i) = nth i data 0.
Proof.
  intros B Hi. unfold fill_longstr. change (LONGSTR_HEADER_GINTS * 8) with 48. rewrite memcpy_byte. destruct (Z.leb_spec (off + slen data + 48) (off + 48 + Z.of_nat i)); [lia|]. cbn [andb].
  rewrite memcpy_byte. destruct (Z.leb_spec (off + 48) (off + 48 + Z.of_nat i)); [|lia]. destruct (Z.ltb_spec (off + 48 + Z.of_nat i) (off + 48 + slen data)); [|lia]. cbn [andb].
  rewrite bytes_nth by exact B. f_equal. lia.
Qed.

Ltac oth := match goal with |- context [upd ?m ?a ?v ?x] => rewrite (upd_other m a v x) by lia end.
(** Creation. The encoder of the extra string does not touch the object. *)
Definition leaves (f : mem -> mem * Z) (off n : Z) : Prop :=
  forall m w, off <= w < off + n -> fst (f m) w = m w.
Lemma create_LS m off data type ext harr m' e : off mod 8 = 0 -> 0 <= type < 256 -> bytes_ok data -> slen data < 2 ^ 40 ->
  Z.land (m off) (Z.lnot 3) = 8 * longstr_gints (slen data) ->
  harr mod 8 = 0 -> ~ off <= harr < off + 8 * longstr_gints (slen data) ->
  (forall f, ext = Some f -> leaves f off (8 * longstr_gints (slen data)) /\ forall m1, let t := snd (f m1) in t mod 8 = 6 \/ t mod 8 = 4 /\ (t + 12 < off \/ off + 8 * longstr_gints (slen data) <= t - 4 + 16)) ->
  create_longstr m off data type ext harr = (m', e) ->
  e = encode_longstr_offset off /\ exists tmp, LS m' off type data tmp /\ (ext = None -> tmp = 0) /\ (forall f, ext = Some f -> tmp = snd (f (fill_longstr m off data))).
Proof.
  intros H1 H2 H3 H4 H5 H6 H7 H8 E. pose proof (gints_bounds (slen data) ltac:(lia)) as G. set (N := 8 * longstr_gints (slen data)) in *.
  unfold create_longstr in E. set (m1 := fill_longstr m off data) in *. set (q := match ext with Some f => f m1 | None => (m1, 0) end) in E.
  assert (Q : (forall w, off <= w < off + N -> fst q w = m1 w) /\ (ext = None -> snd q = 0) /\ (forall f, ext = Some f -> snd q = snd (f m1)) /\ (islongstr (snd q) = true -> forall w, off <= w < off + N -> w <> decode_longstr_offset (snd q) + 16)).
  { unfold q. destruct ext as [f|]; cbn [fst snd].
    - destruct (H8 f eq_refl) as [F1 F2]. split; [apply F1|]. split; [discriminate|]. split; [now intros g [= ->]|]. intros I w Hw. specialize (F2 m1). cbv zeta in F2. unfold islongstr in I. apply Z.eqb_eq in I. rewrite land_7 in I. unfold decode_longstr_offset. rewrite land_n7. lia.
    - repeat split; auto; try discriminate. }
  clearbody q. destruct q as (m2 & tmp). cbn [fst snd] in Q. destruct Q as (Q1 & Q2 & Q3 & Q4). change (LONGSTR_EXTRASTR_POS * 8) with 40 in E. change (LONGSTR_REFCOUNT_POS * 8) with 16 in E. change (LONGSTR_META_POS * 8) with 8 in E.
  change (LONGSTR_BACKLINKS_POS * 8) with 24 in E. change (LONGSTR_HASHCHAIN_POS * 8) with 32 in E.
  set (m3 := if islongstr tmp then _ else _) in E. assert (M3 : forall w, off <= w < off + N -> m3 w = if w =? off + 40 then tmp else m2 w).
  { intros w Hw. unfold m3. destruct (islongstr tmp) eqn:El.
    - rewrite upd_other by (apply Q4; auto). unfold upd. reflexivity.
    - reflexivity. }
  clearbody m3. injection E as <- <-. split; [reflexivity|]. exists tmp. split; [|split; [exact Q2|exact Q3]].
  assert (M0 : m3 off = m off). { rewrite M3 by lia. destruct (Z.eqb_spec off (off + 40)); [lia|]. rewrite Q1 by lia. unfold m1. apply fill_word; auto. lia. }
  assert (S : getusedobjectsize (m3 off) = N) by (rewrite M0; apply used_size; [lia|exact H5]).
  constructor.
  - exact H1.
  - do 5 oth. rewrite M0. exact H5.
  - oth. rewrite (upd_other _ harr) by lia. do 2 oth. rewrite upd_same. rewrite S. change LONGSTR_META_LENDIFSHFT with 8. unfold shl64. rewrite wrap64_id; [reflexivity|]. rewrite Z.shiftl_mul_pow2 by lia. unfold is64. change (2 ^ 8) with 256. lia.
  - oth. rewrite (upd_other _ harr) by lia. do 3 oth. rewrite M3 by lia. now rewrite Z.eqb_refl.
  - intros i Hi. rewrite <- (fill_byte m off data i H3 Hi). fold m1. apply byte_word. set (w := 8 * ((off + 48 + Z.of_nat i) / 8)). assert (W : off + 48 <= w < off + N) by (unfold w; lia).
    oth. rewrite (upd_other _ harr) by lia. do 3 oth. rewrite M3 by lia. destruct (Z.eqb_spec w (off + 40)); [lia|]. apply Q1. lia.
Qed.

(** ** Parameters *)
Lemma wrap32_small z : 0 <= z < 2 ^ 31 -> wrap32 z = z.
Proof. intros H. apply wrap32_id. unfold is32. lia. Qed.
Lemma firstn_all2' {A} (l : list A) n : n = slen l -> firstn (Z.to_nat n) l = l.
Proof. intros ->. rewrite Nat2Z.id. apply firstn_all. Qed.
Definition cbytes (l : list Z) : Prop := Forall (fun c => 0 < c < 256) l.
Lemma cbytes_ok l : cbytes l -> bytes_ok l.
Proof. apply Forall_impl. intros; lia. Qed.
Lemma cbytes_nz l : cbytes l -> Forall (fun c => c <> 0) l.
Proof. apply Forall_impl. intros; lia. Qed.
Lemma bytes_ok0 l : cbytes l -> bytes_ok (l ++ [0]).
Proof. intros H. apply bytes_app; [now apply cbytes_ok|]. repeat constructor; lia. Qed.
Lemma slen0 (l : list Z) : slen (l ++ [0]) = slen l + 1.
Proof. rewrite app_length. cbn [length]. lia. Qed.

(** The block of a parameter with a header. *)
Lemma param_long m dptr data type ext : dptr mod 8 = 0 -> 0 <= type < 256 -> type <> WG_BLOBTYPE -> (ext = None -> type <> WG_STRTYPE) -> cbytes data ->
  8 * longstr_gints (slen data + 1) + match ext with Some e => slen e + 1 | None => 0 end < 2 ^ 31 ->
  exists p, wg_encode_query_param_text m dptr data type ext = Some p /\ pr_enc p = encode_longstr_offset dptr /\
    let N := 8 * longstr_gints (slen data + 1) in let size := N + match ext with Some e => slen e + 1 | None => 0 end in
    pr_block p = Some (dptr, size) /\
    LS (pr_mem p) dptr type (data ++ [0]) (match ext with Some _ => encode_shortstr_offset (dptr + N) | None => 0 end) /\
    (forall x, ~ dptr <= x < dptr + size -> byte (pr_mem p) x = byte m x) /\
    (forall e i, ext = Some e -> cbytes e -> (i <= length e)%nat -> byte (pr_mem p) (dptr + N + Z.of_nat i) = nth i (e ++ [0]) 0).
Proof.
  intros H1 H2 H3 H4 H5 H6. pose proof (gints_bounds (slen data + 1) ltac:(lia)) as G. cbv zeta. set (N := 8 * longstr_gints (slen data + 1)) in *.
  unfold wg_encode_query_param_text. rewrite (wrap32_small (slen data)) by (destruct ext; lia). unfold encode_query_param_unistr.
  assert (Pl : match ext with None => type =? WG_STRTYPE | Some _ => false end = false) by (destruct ext; [reflexivity|apply Z.eqb_neq; auto]). rewrite Pl. clear Pl. cbv zeta.
  destruct (Z.eqb_spec type WG_BLOBTYPE); [contradiction|]. rewrite (wrap32_small (slen data + 1)) by (destruct ext; lia). destruct (Z.ltb_spec (slen data + 1) 0); [lia|].
  assert (DN : 8 * (LONGSTR_HEADER_GINTS + ((slen data + 1) / 8 + (if (slen data + 1) mod 8 =? 0 then 0 else 1))) = N) by (unfold N, longstr_gints; lia). rewrite DN.
  rewrite (wrap32_small N) by (destruct ext; lia). change MIN_VARLENOBJ_SIZE with 32. destruct (Z.ltb_spec N 32); [lia|]. assert (NM : N mod 8 = 0) by (unfold N; rewrite Z.mul_comm; apply Z.mod_mul; lia). rewrite NM. cbn [Z.eqb].
  assert (Wm : wrap32 (Z.shiftl (N - (slen data + 1)) LONGSTR_META_LENDIFSHFT) = Z.shiftl (N - (slen data + 1)) 8) by (change LONGSTR_META_LENDIFSHFT with 8; apply wrap32_small; rewrite Z.shiftl_mul_pow2 by lia; change (2 ^ 8) with 256; lia). rewrite Wm.
  rewrite (firstn_all2' (data ++ [0])) by (rewrite slen0; reflexivity). change (LONGSTR_EXTRASTR_POS * 8) with 40. change (LONGSTR_REFCOUNT_POS * 8) with 16. change (LONGSTR_META_POS * 8) with 8.
  change (LONGSTR_BACKLINKS_POS * 8) with 24. change (LONGSTR_HASHCHAIN_POS * 8) with 32. change (LONGSTR_HEADER_GINTS * 8) with 48.
  set (m1 := memcpy (memcpy m (dptr + 48) (data ++ [0])) (dptr + (slen data + 1) + 48) _).
  assert (M1 : m1 = fill_longstr m dptr (data ++ [0])) by (unfold m1, fill_longstr; rewrite slen0; reflexivity).
  assert (S0 : 8 * longstr_gints (slen (data ++ [0])) = N) by (rewrite slen0; reflexivity).
  assert (O1 : forall x, ~ dptr <= x < dptr + N -> byte m1 x = byte m x).
  { intros x Hx. unfold m1. rewrite memcpy_byte, memcpy_byte, repeat_length, slen0. pose proof (pad_len (slen data + 1) ltac:(lia)) as P. fold N in P.
    destruct (Z.leb_spec (dptr + (slen data + 1) + 48) x), (Z.ltb_spec x (dptr + (slen data + 1) + 48 + Z.of_nat (Z.to_nat (if (slen data + 1) mod 8 =? 0 then 0 else 8 - (slen data + 1) mod 8)))); cbn [andb]; try lia;
    (destruct (Z.leb_spec (dptr + 48) x), (Z.ltb_spec x (dptr + 48 + (slen data + 1))); cbn [andb]; try reflexivity; lia). }
  clearbody m1.
  set (mx := match ext with Some e => _ | None => upd m1 _ 0 end). set (x := match ext with Some _ => encode_shortstr_offset (dptr + N) | None => 0 end).
  assert (X1 : forall w, w mod 8 = 0 -> dptr <= w < dptr + N -> w <> dptr + 40 -> mx w = m1 w).
  { intros w Hw Hr Hn. unfold mx. destruct ext as [e|]; [|oth; reflexivity]. oth. pose proof (Zlength_correct e). rewrite (wrap32_small (slen e)) by lia. rewrite setbyte_word by (auto; lia). apply memcpy_word; [exact Hw|]. left. lia. }
  assert (X2 : mx (dptr + 40) = x) by (unfold mx, x; destruct ext; now rewrite upd_same).
  assert (X3 : forall y, ~ dptr <= y < dptr + (N + match ext with Some e => slen e + 1 | None => 0 end) -> byte mx y = byte m y).
  { intros y Hy. unfold mx. destruct ext as [e|]; rewrite upd_byte by lia; [|apply O1; lia]. rewrite (wrap32_small (slen e)) by lia. rewrite setbyte_byte, memcpy_byte. rewrite (firstn_all2' e) by reflexivity.
    destruct (Z.eqb_spec y (dptr + N + slen e)); [lia|]. destruct (Z.leb_spec (dptr + N) y), (Z.ltb_spec y (dptr + N + slen e)); cbn [andb]; try (apply O1; lia). lia. }
  assert (X4 : forall e i, ext = Some e -> cbytes e -> (i <= length e)%nat -> byte mx (dptr + N + Z.of_nat i) = nth i (e ++ [0]) 0).
  { intros e i -> Be Hi. unfold mx. rewrite upd_byte by lia. rewrite (wrap32_small (slen e)) by lia. rewrite setbyte_byte, memcpy_byte. rewrite (firstn_all2' e) by reflexivity.
    destruct (Z.eqb_spec (dptr + N + Z.of_nat i) (dptr + N + slen e)) as [Ei|Ni].
    - assert (i = length e) as -> by lia. rewrite app_nth2, Nat.sub_diag by lia. reflexivity.
    - destruct (Z.leb_spec (dptr + N) (dptr + N + Z.of_nat i)); [|lia]. destruct (Z.ltb_spec (dptr + N + Z.of_nat i) (dptr + N + slen e)); [|lia]. cbn [andb]. rewrite bytes_nth by now apply cbytes_ok. rewrite app_nth1 by lia. f_equal. lia. }
  clearbody mx x. eexists. split; [reflexivity|]. cbn [pr_enc pr_block pr_mem]. split; [reflexivity|]. split; [|split; [|split]].
  - do 2 f_equal. destruct ext as [e|]; rewrite ?(wrap32_small (slen e)) by lia; apply wrap32_small; lia.
  - constructor; [exact H1| | | |].
    + do 4 oth. rewrite upd_same. rewrite S0. rewrite land_n3. lia.
    + do 3 oth. rewrite upd_same. rewrite S0, slen0. reflexivity.
    + do 5 oth. exact X2.
    + intros i Hi. rewrite <- (fill_byte m dptr (data ++ [0]) i (bytes_ok0 _ H5) Hi), <- M1. apply byte_word. rewrite app_length in Hi. cbn [length] in Hi. set (w := 8 * _). assert (W : dptr + 48 <= w < dptr + N) by (unfold w; lia).
      do 5 oth. apply X1; [unfold w; rewrite Z.mul_comm; apply Z.mod_mul; lia|lia|lia].
  - intros y Hy. rewrite !upd_byte by (destruct ext; lia). apply X3. exact Hy.
  - intros e i E1 E2 E3. rewrite !upd_byte by (destruct ext; lia). now apply X4.
Qed.
(** The block of a plain string parameter. *)
Lemma param_short m dptr data : dptr mod 8 = 0 -> cbytes data -> slen data + 1 < 2 ^ 31 ->
  exists p, wg_encode_query_param_text m dptr data WG_STRTYPE None = Some p /\ pr_enc p = encode_shortstr_offset dptr /\ pr_block p = Some (dptr, slen data + 1) /\
    (forall x, ~ dptr <= x < dptr + (slen data + 1) -> byte (pr_mem p) x = byte m x) /\
    (forall i, (i <= length data)%nat -> byte (pr_mem p) (dptr + Z.of_nat i) = nth i (data ++ [0]) 0).
Proof.
  intros H1 H2 H3. unfold wg_encode_query_param_text, encode_query_param_unistr. rewrite (wrap32_small (slen data)) by lia. rewrite Z.eqb_refl. cbv zeta. destruct (Z.ltb_spec (slen data) 0); [lia|].
  eexists. split; [reflexivity|]. cbn [pr_enc pr_block pr_mem]. split; [reflexivity|]. split; [rewrite wrap32_small by lia; reflexivity|].
  assert (F : firstn (Z.to_nat (slen data)) (data ++ [0]) = data) by (rewrite Nat2Z.id, firstn_app, Nat.sub_diag, firstn_all; cbn [firstn]; apply app_nil_r). rewrite F. split.
  - intros x Hx. rewrite setbyte_byte, memcpy_byte. destruct (Z.eqb_spec x (dptr + slen data)); [lia|]. destruct (Z.leb_spec dptr x), (Z.ltb_spec x (dptr + slen data)); cbn [andb]; try reflexivity. lia.
  - intros i Hi. rewrite setbyte_byte, memcpy_byte. destruct (Z.eqb_spec (dptr + Z.of_nat i) (dptr + slen data)) as [Ei|Ni].
    + assert (i = length data) as -> by lia. rewrite app_nth2, Nat.sub_diag by lia. reflexivity.
    + destruct (Z.leb_spec dptr (dptr + Z.of_nat i)); [|lia]. destruct (Z.ltb_spec (dptr + Z.of_nat i) (dptr + slen data)); [|lia]. cbn [andb]. rewrite bytes_nth by now apply cbytes_ok. rewrite app_nth1 by lia. f_equal. lia.
Qed.
