(** C20: strings stored in fields: reference counts and sharing.

    A history consists of calls that create and delete records, assign fields, encode strings
    and blobs, free encoded values, change meta bits and indexes. The indexes are
    arbitrary functions. What a caller may do is stated by [may_store], [may_free] (StringHist). *)
From Coq Require Import ZArith List Bool Lia.
From Verif Require Import Base EncodingModel EncodingProofs RecordModel RecordProofs RecordProps StringModel StringProofs StringHist.
Import ListNotations.
Open Scope Z_scope.
#[local] Ltac Zify.zify_post_hook ::= idtac.

(** What a client reads from a handle: type, bytes with the terminating 0 (blobs have none),
    language, datatype or prefix. *)
Definition value (s : sst) (h : Z) : option (Z * list Z * option (list Z)) :=
  if Z.land h 7 =? 4 then
    match long_at s (decode_longstr_offset h) with
    | None => None
    | Some x => match l_lang s x with None => None | Some e => Some (l_type x, firstn (Z.to_nat (l_strsize x)) (l_data x), e) end
    end
  else if Z.land h 7 =? 6 then
    match s_short s (decode_shortstr_offset h) with None => None | Some c => Some (WG_STRTYPE, cstr c ++ [0], None) end
  else None.
(** Strings that do not meet the two defects of the code, see [C20_same_handle_refuted] and [C20_encode_refuted]. *)
Definition no_clash (alen : Z) (data : list Z) (lang : option (list Z)) : Prop := zlen data < 2 ^ 31 /\ apart alen data lang.

Section Props.
Variable alen : Z.
Context {I : Type}.
Notation V := (option sst).
Notation rdb := (@rdb I V).
Variable ix_any ix_tab : I -> Z -> bool.
Variable ix_add_rec ix_del_rec : rmap -> V -> I -> Z -> option (I * Z).
Variable ix_add_field ix_del_field : rmap -> V -> I -> Z -> Z -> option (I * Z).
Notation sstep := (sstep alen ix_any ix_tab ix_add_rec ix_del_rec ix_add_field ix_del_field).
Notation sreach := (sreach alen ix_any ix_tab ix_add_rec ix_del_rec ix_add_field ix_del_field).
Notation Inv := (@Inv alen I).
Notation effect := (@effect I).

(** A field of a live record holds the handle or a live string has it as language or prefix. *)
Definition in_use (d : rdb) (h : Z) : Prop :=
  held d h \/ exists s, d_val d = Some s /\ lang_of_live s h.
(** Histories in which the handle is in use all the time. *)
Inductive used_along (allow : list Z -> option (list Z) -> Prop) (h : Z) : rdb -> rdb -> Prop :=
| ua_here d : in_use d h -> used_along allow h d d
| ua_step d d1 d2 : in_use d h -> sstep allow d d1 -> used_along allow h d1 d2 -> used_along allow h d d2.

Lemma use_hc M cl L s d h : Inv M cl L s d -> tagged h -> in_use d h <-> 0 < hc M (cnt (fl (d_rec d) L)) s h.
Proof.
  intros Iv T. assert (Nz : h <> 0) by (intros ->; destruct T; discriminate). unfold in_use, hc.
  rewrite (held_cnt alen _ _ _ _ _ h Iv). pose proof (lang_cnt alen _ _ _ _ _ h Iv Nz) as Lc.
  pose proof (cnt_nonneg (fl (d_rec d) L) h). pose proof (cnt_nonneg (extras M s) h).
  rewrite (iv_val _ _ _ _ _ _ Iv). split.
  - intros [C | (s0 & E & C)]; [lia|]. injection E as <-. apply Lc in C. lia.
  - intros C. destruct (Z.lt_ge_cases 0 (cnt (fl (d_rec d) L) h)) as [P | P]; [now left|]. right. exists s. split; [reflexivity|]. apply Lc. lia.
Qed.
Lemma value_long M cl L s d h x : Inv M cl L s d -> Z.land h 7 = 4 -> long_at s (decode_longstr_offset h) = Some x ->
  exists e, value s h = Some (l_type x, l_bytes x, e) /\ content s x = (l_type x, l_bytes x, Some e).
Proof.
  intros Iv T E. assert (Im : In (decode_longstr_offset h) M) by (apply (iv_full _ _ _ _ _ _ Iv); congruence).
  destruct (lang_some alen _ _ _ _ _ _ (iv_SI _ _ _ _ _ _ Iv) Im E) as (e & Ee).
  exists e. unfold value, content. rewrite T. change (4 =? 4) with true. cbn iota. rewrite E, Ee. auto.
Qed.
Lemma value_tag s h : value s h <> None -> tagged h.
Proof.
  unfold value, tagged. destruct (Z.eqb_spec (Z.land h 7) 4); [auto|]. destruct (Z.eqb_spec (Z.land h 7) 6); [auto|]. congruence.
Qed.

(** What is live on both sides of a step is the same. *)
Lemma value_kept M cl L s d M' cl' L' s' d' h : Inv M cl L s d -> Inv M' cl' L' s' d' -> effect M cl L s d M' cl' L' s' d' ->
  (Z.land h 7 = 4 -> In (decode_longstr_offset h) M /\ In (decode_longstr_offset h) M') ->
  (Z.land h 7 = 6 -> s_short s (decode_shortstr_offset h) <> None /\ s_short s' (decode_shortstr_offset h) <> None) ->
  tagged h -> value s' h = value s h /\ value s h <> None.
Proof.
  intros Iv Iv' Ef H4 H6 [T | T].
  - destruct (H4 T) as (Ho & Ho'). destruct (ef_frame _ _ _ _ _ _ _ _ _ _ Ef _ Ho Ho') as (x & x' & E & E' & _).
    pose proof (content_kept alen _ _ _ _ _ _ _ _ _ _ _ _ _ Iv Iv' Ef Ho Ho' E E') as C.
    destruct (value_long _ _ _ _ _ _ _ Iv T E) as (e & V1 & C1). destruct (value_long _ _ _ _ _ _ _ Iv' T E') as (e' & V2 & C2).
    rewrite V1, V2. split; [|discriminate]. rewrite C1, C2 in C. injection C as -> -> ->. reflexivity.
  - destruct (H6 T) as (Hs & Hs'). unfold value. rewrite T. change (6 =? 4) with false. change (6 =? 6) with true. cbn iota.
    destruct (ef_short _ _ _ _ _ _ _ _ _ _ Ef _ Hs) as [-> | C]; [|contradiction].
    split; [reflexivity|]. destruct (s_short s (decode_shortstr_offset h)); [discriminate|contradiction].
Qed.

(** *** The calls are always defined and release everything once *)
Theorem C20_defined allow d : sreach allow d ->
  exists s, d_val d = Some s /\
   (forall h, may_free d s h -> wg_free_encoded alen s h <> None) /\
   (forall str lang type o eo, In type [WG_STRTYPE; WG_XMLLITERALTYPE; WG_URITYPE] -> cstring str ->
      str_mem s str lang type o -> extra_args s lang o eo -> wg_encode_unistr alen s str lang type o eo <> None) /\
   (forall data lang o eo, block_ok s o -> extra_args s lang o eo -> wg_encode_uniblob alen s data lang WG_BLOBTYPE o eo <> None).
Proof.
  intros R. destruct (sreach_inv _ _ _ _ _ _ _ _ _ R) as (M & cl & L & s & Iv & _). exists s. split; [apply Iv|]. split; [|split].
  - intros h Mf. destruct (freed_inv alen _ _ _ _ _ h Iv Mf) as (M' & cl' & s' & E & _). congruence.
  - intros str lang type o eo Ty Cs Mm Ex.
    destruct (unistr_made alen _ _ _ _ _ _ _ _ _ _ Iv Ty Cs Mm Ex) as (M' & cl' & s' & h & E & _). congruence.
  - intros data lang o eo Mm Ex. destruct (blob_made alen _ _ _ _ _ data _ _ _ Iv Mm Ex) as (M' & cl' & s' & h & E & _). congruence.
Qed.

(** *** A string keeps its value as long as anything refers to it *)
Theorem C20_kept allow h d d' s s' : sreach allow d -> used_along allow h d d' -> Z.land h 7 = 4 \/ Z.land h 7 = 6 ->
  d_val d = Some s -> d_val d' = Some s' -> value s' h = value s h /\ value s h <> None.
Proof.
  intros R U T. revert s. destruct (sreach_inv _ _ _ _ _ _ _ _ _ R) as (M & cl & L & s0 & Iv & _). clear R. revert M cl L s0 Iv.
  assert (K4 : forall M cl L s d, Inv M cl L s d -> in_use d h -> Z.land h 7 = 4 -> In (decode_longstr_offset h) M).
  { intros M cl L s d0 Iv Us T4. apply (use_hc _ _ _ _ _ _ Iv T) in Us. now apply (si_long _ _ _ _ _ (iv_SI _ _ _ _ _ _ Iv)). }
  assert (K6 : forall M cl L s d, Inv M cl L s d -> in_use d h -> Z.land h 7 = 6 -> s_short s (decode_shortstr_offset h) <> None).
  { intros M cl L s d0 Iv Us T6. apply (use_hc _ _ _ _ _ _ Iv T) in Us. now apply (si_short _ _ _ _ _ (iv_SI _ _ _ _ _ _ Iv)). }
  assert (In0 : forall d0 d1, used_along allow h d0 d1 -> in_use d0 h) by (destruct 1; assumption).
  induction U as [d Us|d d1 d2 Us St U IH]; intros M cl L s0 Iv s E E'.
  - rewrite (iv_val _ _ _ _ _ _ Iv) in E, E'. injection E as <-. injection E' as <-. split; [reflexivity|].
    destruct T as [T | T].
    + pose proof (K4 _ _ _ _ _ Iv Us T) as Im. destruct (si_obj _ _ _ _ _ (iv_SI _ _ _ _ _ _ Iv) _ Im) as (_ & _ & x & Ex & _).
      destruct (value_long _ _ _ _ _ _ _ Iv T Ex) as (e & V1 & _). congruence.
    + pose proof (K6 _ _ _ _ _ Iv Us T) as Im. unfold value. rewrite T. change (6 =? 4) with false. change (6 =? 6) with true. cbn iota.
      destruct (s_short s0 (decode_shortstr_offset h)); [discriminate|contradiction].
  - destruct (sstep_inv _ _ _ _ _ _ _ _ _ _ _ _ _ _ Iv St) as (M1 & cl1 & L1 & s1 & Iv1 & Ef & _).
    rewrite (iv_val _ _ _ _ _ _ Iv) in E. injection E as <-. pose proof (In0 _ _ U) as Us1.
    destruct (value_kept _ _ _ _ _ _ _ _ _ _ h Iv Iv1 Ef) as (V1 & V2); auto.
    + intros T4. split; [now apply (K4 _ _ _ _ _ Iv)|now apply (K4 _ _ _ _ _ Iv1)].
    + intros T6. split; [now apply (K6 _ _ _ _ _ Iv)|now apply (K6 _ _ _ _ _ Iv1)].
    + destruct (IH _ _ _ _ Iv1 s1 (iv_val _ _ _ _ _ _ Iv1) E') as (V3 & V4). split; congruence.
Qed.

(** *** A string is released by the call that removes its last reference *)
Theorem C20_released allow d d' s' h : sreach allow d -> sstep allow d d' -> d_val d' = Some s' ->
  in_use d h -> ~ in_use d' h ->
  (Z.land h 7 = 4 -> s_long s' (decode_longstr_offset h) = None) /\ (Z.land h 7 = 6 -> s_short s' (decode_shortstr_offset h) = None).
Proof.
  intros R St E' Us Nu. destruct (sreach_inv _ _ _ _ _ _ _ _ _ R) as (M & cl & L & s & Iv & _).
  destruct (sstep_inv _ _ _ _ _ _ _ _ _ _ _ _ _ _ Iv St) as (M1 & cl1 & L1 & s1 & Iv1 & Ef & _).
  rewrite (iv_val _ _ _ _ _ _ Iv1) in E'. injection E' as <-.
  assert (K : tagged h -> gone s1 h).
  { intros T. apply (ef_rel _ _ _ _ _ _ _ _ _ _ Ef h T); [now apply (use_hc _ _ _ _ _ _ Iv T)|].
    rewrite (use_hc _ _ _ _ _ _ Iv1 T) in Nu. lia. }
  split; intros T; [apply (K (or_introl T)), T|apply (K (or_intror T)), T].
Qed.

(** *** wg_free_encoded releases a string that nothing refers to and leaves the others alone *)
Theorem C20_free allow d s h : sreach allow d -> d_val d = Some s -> may_free d s h ->
  exists s', wg_free_encoded alen s h = Some s' /\
   (~ in_use d h -> (Z.land h 7 = 4 -> s_long s' (decode_longstr_offset h) = None) /\ (Z.land h 7 = 6 -> s_short s' (decode_shortstr_offset h) = None)) /\
   (forall g, held d g -> value s' g = value s g).
Proof.
  intros R E Mf. destruct (sreach_inv _ _ _ _ _ _ _ _ _ R) as (M & cl & L & s0 & Iv & _).
  rewrite (iv_val _ _ _ _ _ _ Iv) in E. injection E as ->.
  destruct (freed_inv alen _ _ _ _ _ h Iv Mf) as (M' & cl' & s' & E & Iv' & Ef & _ & Inc & Rl). exists s'. split; [exact E|]. split.
  - intros Nu.
    assert (K : tagged h -> gone s' h).
    { intros T. rewrite (use_hc _ _ _ _ _ _ Iv T) in Nu.
      assert (P : 0 < hc M (addf (cnt (fl (d_rec d) L)) h) s h).
      { unfold hc, addf in *. rewrite hit_same. pose proof (cnt_nonneg (fl (d_rec d) L) h). pose proof (cnt_nonneg (extras M s) h). lia. }
      destruct (Z.le_gt_cases (hc M' (cnt (fl (d_rec d) L)) s' h) 0) as [C | C]; [now apply (Rl h T P)|].
      (* the languages left were there before *)
      exfalso. unfold hc in C, Nu. pose proof (cnt_nonneg (fl (d_rec d) L) h). pose proof (cnt_nonneg (extras M s) h).
      assert (Cx : 0 < cnt (extras M' s') h) by lia. apply cnt_in in Cx. unfold extras in Cx. apply in_map_iff in Cx.
      destruct Cx as (p & Ep & Ip). pose proof (Inc p Ip) as Im.
      assert (0 < cnt (extras M s) h); [|lia]. apply cnt_in, in_map_iff. exists p. split; [|exact Im].
      destruct (ef_frame _ _ _ _ _ _ _ _ _ _ Ef p Im Ip) as (x & x' & Ex & Ex' & B). unfold extra_at in *. rewrite Ex' in Ep. rewrite Ex.
      unfold body in B. congruence. }
    split; intros T; [apply (K (or_introl T)), T|apply (K (or_intror T)), T].
  - intros g Hg.
    assert (Dec : tagged g \/ ~ tagged g).
    { unfold tagged. destruct (Z.eq_dec (Z.land g 7) 4); [auto|]. destruct (Z.eq_dec (Z.land g 7) 6); [auto|]. right. tauto. }
    destruct Dec as [T | NT].
    + assert (U : in_use d g) by now left. assert (U' : in_use (RDB (d_rec d) (d_ix d) (Some s')) g) by now left.
      apply (use_hc _ _ _ _ _ _ Iv T) in U. apply (use_hc _ _ _ _ _ _ Iv' T) in U'.
      apply (value_kept _ _ _ _ _ _ _ _ _ _ g Iv Iv' Ef); auto.
      * intros T4. split; [now apply (si_long _ _ _ _ _ (iv_SI _ _ _ _ _ _ Iv))|now apply (si_long _ _ _ _ _ (iv_SI _ _ _ _ _ _ Iv'))].
      * intros T6. split; [now apply (si_short _ _ _ _ _ (iv_SI _ _ _ _ _ _ Iv))|now apply (si_short _ _ _ _ _ (iv_SI _ _ _ _ _ _ Iv'))].
    + unfold value. unfold tagged in NT. destruct (Z.eqb_spec (Z.land g 7) 4); [tauto|]. destruct (Z.eqb_spec (Z.land g 7) 6); [tauto|]. reflexivity.
Qed.

(** *** The handle returned by encoding stands for the string; nothing else changes *)
Lemma kept_by_encode M cl L s d M' cl' s' : Inv M cl L s d -> SI alen M' cl' (cnt (fl (d_rec d) L)) s' -> grow M s M' s' ->
  forall g, value s g <> None -> value s' g = value s g.
Proof.
  intros Iv H' G g Vg. destruct (made_inv alen _ _ _ _ _ _ _ _ Iv H' G) as (Iv' & Ef).
  pose proof (value_tag _ _ Vg) as T. apply (value_kept _ _ _ _ _ _ _ _ _ _ g Iv Iv' Ef); auto.
  - intros T4. assert (Im : In (decode_longstr_offset g) M).
    { apply (iv_full _ _ _ _ _ _ Iv). intros C. apply Vg. unfold value. rewrite T4, C. reflexivity. }
    split; [exact Im|now apply (g_incl _ _ _ _ G)].
  - intros T6. assert (Hs : s_short s (decode_shortstr_offset g) <> None).
    { intros C. apply Vg. unfold value. rewrite T6, C. reflexivity. }
    split; [exact Hs|]. now rewrite (g_short _ _ _ _ G).
Qed.
Lemma value_result M cl L s d h data lang type : Inv M cl L s d -> result_ok M s h data lang type ->
  (forall p x, long_at s p = Some x -> is32 (l_strsize x)) -> Z.land h 7 = 4 /\ value s h = Some (type, data, lang).
Proof.
  intros Iv (p & x & Ip & -> & Ex & Tx & Fx & Lx & Bx) Sm.
  destruct (si_obj _ _ _ _ _ (iv_SI _ _ _ _ _ _ Iv) p Ip) as (Pp & Mp & _). destruct (enc_long p Mp) as (D & T).
  split; [exact T|]. assert (Ex2 : long_at s (decode_longstr_offset (encode_longstr_offset p)) = Some x) by now rewrite D.
  destruct (value_long _ _ _ _ _ _ _ Iv T Ex2) as (e & V1 & C1). rewrite V1, Tx, (Bx (Sm _ _ Ex)).
  unfold content in C1. rewrite Lx in C1. injection C1 as ->. reflexivity.
Qed.
Theorem C20_encode_string allow d s str lang type o eo : sreach allow d -> d_val d = Some s ->
  In type [WG_STRTYPE; WG_XMLLITERALTYPE; WG_URITYPE] -> cstring str -> str_mem s str lang type o -> extra_args s lang o eo ->
  exists s' h, wg_encode_unistr alen s str lang type o eo = Some (s', h) /\
   (forall g, value s g <> None -> value s' g = value s g) /\
   ((h = WG_ILLEGAL /\ (o = 0 \/ (lang <> None /\ eo = 0))) \/
    ((forall p x, long_at s' p = Some x -> is32 (l_strsize x)) -> value s' h = Some (type, str ++ [0], lang))).
Proof.
  intros R E Ty Cs Mm Ex. destruct (sreach_inv _ _ _ _ _ _ _ _ _ R) as (M & cl & L & s0 & Iv & _).
  rewrite (iv_val _ _ _ _ _ _ Iv) in E. injection E as ->.
  destruct (unistr_made alen _ _ _ _ _ _ _ _ _ _ Iv Ty Cs Mm Ex) as (M' & cl' & s' & h & E & H' & G & Rs & _).
  exists s', h. split; [exact E|]. split; [now apply (kept_by_encode M cl L s d M' cl')|].
  destruct (made_inv alen _ _ _ _ _ _ _ _ Iv H' G) as (Iv' & _).
  destruct Rs as [Rs | [Rs | (-> & -> & Sh & T & c & Ec & Cc & _)]]; [now left| |].
  - right. intros Sm. now apply (value_result M' cl' L s' _ h _ _ _ Iv').
  - right. intros _. unfold value. rewrite T, Ec, Cc. reflexivity.
Qed.
Theorem C20_encode_blob allow d s data lang o eo : sreach allow d -> d_val d = Some s ->
  block_ok s o -> extra_args s lang o eo ->
  exists s' h, wg_encode_uniblob alen s data lang WG_BLOBTYPE o eo = Some (s', h) /\
   (forall g, value s g <> None -> value s' g = value s g) /\
   ((h = WG_ILLEGAL /\ (o = 0 \/ (lang <> None /\ eo = 0))) \/
    ((forall p x, long_at s' p = Some x -> is32 (l_strsize x)) -> value s' h = Some (WG_BLOBTYPE, data, lang))).
Proof.
  intros R E Mm Ex. destruct (sreach_inv _ _ _ _ _ _ _ _ _ R) as (M & cl & L & s0 & Iv & _).
  rewrite (iv_val _ _ _ _ _ _ Iv) in E. injection E as ->.
  destruct (blob_made alen _ _ _ _ _ data _ _ _ Iv Mm Ex) as (M' & cl' & s' & h & E & H' & G & Rs & _).
  exists s', h. split; [exact E|]. split; [now apply (kept_by_encode M cl L s d M' cl')|].
  destruct (made_inv alen _ _ _ _ _ _ _ _ Iv H' G) as (Iv' & _).
  destruct Rs as [Rs | Rs]; [now left|]. right. intros Sm. now apply (value_result M' cl' L s' _ h _ _ _ Iv').
Qed.

(** *** Equal strings share one handle
    Full claim: after any history, encoding a string that is live as a long string returns its
    handle and changes nothing. Missing: histories that encode a string of 2^31 bytes or more,
    or one whose extra string is long and falls in its own bucket ([no_clash]); for those
    the claim is false, see [C20_same_handle_refuted]. *)
Theorem C20_same_handle_partial d s h str lang type o eo : sreach (no_clash alen) d -> d_val d = Some s ->
  Z.land h 7 = 4 -> value s h = Some (type, str ++ [0], lang) -> lang <> None \/ type <> WG_STRTYPE \/ SHORTSTR_SIZE <= zlen str ->
  wg_encode_unistr alen s str lang type o eo = Some (s, h).
Proof.
  intros R E T Vh Lg. destruct (sreach_inv _ _ _ _ _ _ _ _ _ R) as (M & cl & L & s0 & Iv & Gd).
  rewrite (iv_val _ _ _ _ _ _ Iv) in E. injection E as ->. specialize (Gd (fun _ _ H => H)).
  destruct (long_at s (decode_longstr_offset h)) as [x|] eqn:Ex; [|unfold value in Vh; rewrite T, Ex in Vh; discriminate].
  assert (Ip : In (decode_longstr_offset h) M) by (apply (iv_full _ _ _ _ _ _ Iv); congruence).
  destruct (value_long _ _ _ _ _ _ _ Iv T Ex) as (e & V1 & C1). rewrite Vh in V1. injection V1 as -> V1 ->. rewrite <- V1 in C1.
  unfold wg_encode_unistr, encode_unistr.
  replace ((match e with None => true | Some _ => false end) && (l_type x =? WG_STRTYPE) && (zlen str <? SHORTSTR_SIZE)) with false.
  2:{ symmetry. destruct e; [reflexivity|]. destruct (Z.eqb_spec (l_type x) WG_STRTYPE); [|reflexivity].
      destruct (Z.ltb_spec (zlen str) SHORTSTR_SIZE); [|reflexivity]. exfalso. destruct Lg as [C | [C | C]]; [congruence|congruence|lia]. }
  rewrite (found_again alen (encode_extra alen eo) M cl _ s (str ++ [0]) e (l_type x) o _ x (iv_SI _ _ _ _ _ _ Iv) Gd Ip Ex C1).
  destruct (si_obj _ _ _ _ _ (iv_SI _ _ _ _ _ _ Iv) _ Ip) as (Pp & Mp & _).
  destruct (Z.eqb_spec (encode_longstr_offset (decode_longstr_offset h)) 0) as [C | _]; [now apply enc_long_nz in C|].
  rewrite enc_long_idem by assumption. now rewrite <- (proj1 (long_handle h T)).
Qed.
Theorem C20_same_blob_partial d s h data lang o eo : sreach (no_clash alen) d -> d_val d = Some s ->
  Z.land h 7 = 4 -> value s h = Some (WG_BLOBTYPE, data, lang) ->
  wg_encode_uniblob alen s data lang WG_BLOBTYPE o eo = Some (s, h).
Proof.
  intros R E T Vh. destruct (sreach_inv _ _ _ _ _ _ _ _ _ R) as (M & cl & L & s0 & Iv & Gd).
  rewrite (iv_val _ _ _ _ _ _ Iv) in E. injection E as ->. specialize (Gd (fun _ _ H => H)).
  destruct (long_at s (decode_longstr_offset h)) as [x|] eqn:Ex; [|unfold value in Vh; rewrite T, Ex in Vh; discriminate].
  assert (Ip : In (decode_longstr_offset h) M) by (apply (iv_full _ _ _ _ _ _ Iv); congruence).
  destruct (value_long _ _ _ _ _ _ _ Iv T Ex) as (e & V1 & C1). rewrite Vh in V1. injection V1 as V0 V1 ->. rewrite <- V1, <- V0 in C1.
  unfold wg_encode_uniblob.
  rewrite (found_again alen (encode_extra alen eo) M cl _ s data e WG_BLOBTYPE o _ x (iv_SI _ _ _ _ _ _ Iv) Gd Ip Ex C1).
  destruct (si_obj _ _ _ _ _ (iv_SI _ _ _ _ _ _ Iv) _ Ip) as (Pp & Mp & _).
  destruct (Z.eqb_spec (encode_longstr_offset (decode_longstr_offset h)) 0) as [C | _]; [now apply enc_long_nz in C|].
  rewrite enc_long_idem by assumption. now rewrite <- (proj1 (long_handle h T)).
Qed.
End Props.
Print Assumptions C20_defined.
Print Assumptions C20_kept.
Print Assumptions C20_released.
Print Assumptions C20_free.
Print Assumptions C20_encode_string.
Print Assumptions C20_encode_blob.
Print Assumptions C20_same_handle_partial.
Print Assumptions C20_same_blob_partial.

(** ** Examples *)
(** A database without indexes and with the 25000 buckets of a segment of 10 MB (Db/dballoc.c l.419-420 with
    config-gcc.h l.61). *)
Definition sx_alen := 25000.
Definition sx_no (_ : unit) (_ : Z) : bool := false.
Definition sx_rec (_ : rmap) (_ : option sst) (u : unit) (_ : Z) : option (unit * Z) := Some (u, 0).
Definition sx_field (_ : rmap) (_ : option sst) (u : unit) (_ _ : Z) : option (unit * Z) := Some (u, 0).
Notation sx_reach := (sreach sx_alen sx_no sx_no sx_rec sx_rec sx_field sx_field).
Notation sx_step := (sstep sx_alen sx_no sx_no sx_rec sx_rec sx_field sx_field).
Notation sx_along := (used_along sx_alen sx_no sx_no sx_rec sx_rec sx_field sx_field).
Notation sxdb := (@rdb unit (option sst)).
Definition sx0 : sxdb := RDB (fun _ => None) Datatypes.tt (Some s_init).

(** Calls of the examples; the conditions are checked before each call. Short strings are stored by [Keep] and
    values without a string by [Put]. *)
Inductive sx_op := Make (len o : Z) | Str (str : list Z) (lang : option (list Z)) (type o eo : Z) | Blob (data : list Z) (lang : option (list Z)) (o eo : Z)
  | Put (o i h : Z) | Del (o : Z) | Drop (h : Z).
Definition b_isnone {A} (x : option A) : bool := match x with None => true | Some _ => false end.
Definition b_cell (none : bool) (o : Z) : bool := (o =? 0) || ((0 <? o) && (o mod 8 =? 0) && none).
Definition b_str_mem (s : sst) (str : list Z) (lang : option (list Z)) (type o : Z) : bool :=
  if (match lang with None => true | Some _ => false end) && (type =? WG_STRTYPE) && (zlen str <? SHORTSTR_SIZE)
  then b_cell (b_isnone (s_short s o)) o else b_cell (b_isnone (s_long s o)) o.
Definition b_cstring (l : list Z) : bool := forallb (fun b => negb (b =? 0)) l.
Definition b_extra (s : sst) (lang : option (list Z)) (o eo : Z) : bool :=
  match lang with
  | None => true
  | Some e => b_cstring e && b_cell (if zlen e <? SHORTSTR_SIZE then b_isnone (s_short s eo) else b_isnone (s_long s eo)) eo && ((eo =? 0) || negb (eo =? o))
  end.
Definition b_clash (data : list Z) (lang : option (list Z)) : bool :=
  (zlen data <? 2 ^ 31) &&
  match lang with
  | None => true
  | Some e => (zlen e <? 2 ^ 31 - 1) && ((zlen e <? SHORTSTR_SIZE) || negb (wg_hash_typedstr sx_alen (e ++ [0]) None =? wg_hash_typedstr sx_alen data (Some e)))
  end.
Definition b_live (s : sst) (h : Z) : bool :=
  negb (is_record_ref h) && negb (Z.land h 7 =? 6) && (negb (Z.land h 7 =? 4) || negb (b_isnone (long_at s (decode_longstr_offset h)))).
Definition sx_do (chk : list Z -> option (list Z) -> bool) (d : sxdb) (op : sx_op) : option sxdb :=
  match d_val d with
  | None => None
  | Some s =>
  match op with
  | Make len o =>
      if is_record_ref o && b_isnone (d_rec d o) then match wg_create_record sx_rec d len o with Some (d', _) => Some d' | None => None end else None
  | Str str lang type o eo =>
      if ((type =? 5) || (type =? 6) || (type =? 7)) && b_cstring str && b_str_mem s str lang type o && b_extra s lang o eo && chk (str ++ [0]) lang then
        match wg_encode_unistr sx_alen s str lang type o eo with Some (s', _) => Some (RDB (d_rec d) (d_ix d) (Some s')) | None => None end
      else None
  | Blob data lang o eo =>
      if b_cell (b_isnone (s_long s o)) o && b_extra s lang o eo && chk data lang then
        match wg_encode_uniblob sx_alen s data lang WG_BLOBTYPE o eo with Some (s', _) => Some (RDB (d_rec d) (d_ix d) (Some s')) | None => None end
      else None
  | Put o i h =>
      if b_live s h then
        match wg_set_field sx_no sx_no sx_field sx_field v_ref (v_free sx_alen) d o i h true with
        | Some (d', c) => if c =? -3 then None else Some d' | None => None end
      else None
  | Del o =>
      match wg_delete_record sx_rec (v_free sx_alen) d o true with Some (d', c) => if c =? -3 then None else Some d' | None => None end
  | Drop h =>
      if b_live s h then match wg_free_encoded sx_alen s h with Some s' => Some (RDB (d_rec d) (d_ix d) (Some s')) | None => None end else None
  end
  end.
Lemma b_isnone_ok {A} (x : option A) : b_isnone x = true -> x = None.
Proof. destruct x; [discriminate|reflexivity]. Qed.
Lemma b_cell_ok (P : Prop) none o : (none = true -> P) -> b_cell none o = true -> o = 0 \/ (0 < o /\ o mod 8 = 0 /\ P).
Proof.
  intros H E. unfold b_cell in E. apply orb_prop in E. destruct E as [E | E]; [left; now apply Z.eqb_eq|right].
  apply andb_prop in E. destruct E as (E & E3). apply andb_prop in E. destruct E as (E1 & E2).
  split; [now apply Z.ltb_lt|]. split; [now apply Z.eqb_eq|auto].
Qed.
Lemma b_cstring_ok l : b_cstring l = true -> cstring l.
Proof. unfold b_cstring, cstring. intros E C. rewrite forallb_forall in E. specialize (E 0 C). discriminate. Qed.
Lemma b_extra_ok s lang o eo : b_extra s lang o eo = true -> extra_args s lang o eo.
Proof.
  destruct lang as [e|]; [|intros _; exact Logic.I]. cbn [b_extra extra_args]. intros E.
  apply andb_prop in E. destruct E as (E & E3). apply andb_prop in E. destruct E as (E1 & E2).
  split; [now apply b_cstring_ok|]. split.
  - unfold fresh_for. revert E2. apply b_cell_ok. intros E. destruct (zlen e <? SHORTSTR_SIZE); now apply b_isnone_ok.
  - apply orb_prop in E3. destruct E3 as [E3 | E3]; [left; now apply Z.eqb_eq|right]. intros ->. rewrite Z.eqb_refl in E3. discriminate.
Qed.
Lemma b_str_mem_ok s str lang type o : b_str_mem s str lang type o = true -> str_mem s str lang type o.
Proof.
  unfold b_str_mem, str_mem, cell_ok, block_ok. destruct (_ && _ && _); apply b_cell_ok, b_isnone_ok.
Qed.
Lemma b_live_ok (d : sxdb) s h : b_live s h = true -> may_store d s h /\ may_free d s h.
Proof.
  unfold b_live, may_store, may_free, good_data. intros E. apply andb_prop in E. destruct E as (E & E3). apply andb_prop in E. destruct E as (E1 & E2).
  assert (A : is_record_ref h = true -> d_rec d h <> None) by (intros C; rewrite C in E1; discriminate).
  assert (B : Z.land h 7 = 4 -> long_at s (decode_longstr_offset h) <> None).
  { intros T. rewrite T in E3. change (negb (4 =? 4)) with false in E3. cbn [orb] in E3. intros C. rewrite C in E3. discriminate. }
  assert (C : Z.land h 7 = 6 -> s_short s (decode_shortstr_offset h) <> None /\ ~ held d h /\ ~ lang_of_live s h).
  { intros T. rewrite T in E2. discriminate. }
  auto.
Qed.
Lemma sx_do_step chk (allow : list Z -> option (list Z) -> Prop) d op d' : (forall x y, chk x y = true -> allow x y) -> sx_do chk d op = Some d' -> sx_step allow d d'.
Proof.
  intros Hc E. unfold sx_do in E. destruct (d_val d) as [s|] eqn:Ev; [|discriminate].
  destruct op as [len o|str lang type o eo|data lang o eo|o i h|o|h].
  - destruct (is_record_ref o && b_isnone (d_rec d o)) eqn:K; [|discriminate]. apply andb_prop in K. destruct K as (K1 & K2).
    destruct (wg_create_record sx_rec d len o) as [[d1 x]|] eqn:W; [|discriminate]. injection E as <-.
    apply (ss_create _ _ _ _ _ _ _ allow d len o d1 x K1 (b_isnone_ok _ K2) W).
  - destruct (((type =? 5) || (type =? 6) || (type =? 7)) && _ && _ && _ && _) eqn:K; [|discriminate].
    apply andb_prop in K. destruct K as (K & K5). apply andb_prop in K. destruct K as (K & K4). apply andb_prop in K. destruct K as (K & K3).
    apply andb_prop in K. destruct K as (K1 & K2).
    destruct (wg_encode_unistr sx_alen s str lang type o eo) as [[s' h]|] eqn:W; [|discriminate]. injection E as <-.
    apply (ss_str _ _ _ _ _ _ _ allow d s str lang type o eo s' h Ev); auto.
    + apply orb_prop in K1. destruct K1 as [K1 | K1]; [apply orb_prop in K1; destruct K1 as [K1 | K1]|]; apply Z.eqb_eq in K1; rewrite K1; cbn; auto.
    + now apply b_cstring_ok.
    + now apply b_str_mem_ok.
    + now apply b_extra_ok.
  - destruct (_ && _ && _) eqn:K; [|discriminate]. apply andb_prop in K. destruct K as (K & K3). apply andb_prop in K. destruct K as (K1 & K2).
    destruct (wg_encode_uniblob sx_alen s data lang WG_BLOBTYPE o eo) as [[s' h]|] eqn:W; [|discriminate]. injection E as <-.
    apply (ss_blob _ _ _ _ _ _ _ allow d s data lang o eo s' h Ev); auto.
    + revert K1. apply b_cell_ok, b_isnone_ok.
    + now apply b_extra_ok.
  - destruct (b_live s h) eqn:K; [|discriminate].
    destruct (wg_set_field _ _ _ _ _ _ d o i h true) as [[d1 c]|] eqn:W; [|discriminate].
    destruct (Z.eqb_spec c (-3)); [discriminate|]. injection E as <-.
    apply (ss_set _ _ _ _ _ _ _ allow d s o i h true d1 c Ev); auto. now apply b_live_ok.
  - destruct (wg_delete_record _ _ d o true) as [[d1 c]|] eqn:W; [|discriminate].
    destruct (Z.eqb_spec c (-3)); [discriminate|]. injection E as <-. apply (ss_delete _ _ _ _ _ _ _ allow d o true d1 c W). assumption.
  - destruct (b_live s h) eqn:K; [|discriminate]. destruct (wg_free_encoded sx_alen s h) as [s'|] eqn:W; [|discriminate]. injection E as <-.
    apply (ss_free _ _ _ _ _ _ _ allow d s h s' Ev); auto. now apply (b_live_ok d).
Qed.
Fixpoint sx_run (chk : list Z -> option (list Z) -> bool) (d : sxdb) (ops : list sx_op) : option sxdb :=
  match ops with [] => Some d | op :: ops => match sx_do chk d op with None => None | Some d => sx_run chk d ops end end.
Lemma sx_run_reach chk (allow : list Z -> option (list Z) -> Prop) : (forall x y, chk x y = true -> allow x y) -> forall ops d d',
  sx_reach allow d -> sx_run chk d ops = Some d' -> sx_reach allow d'.
Proof.
  intros Hc. induction ops as [|op ops IH]; intros d d' R E; cbn [sx_run] in E; [now injection E as <-|].
  destruct (sx_do chk d op) as [d1|] eqn:D; [|discriminate]. apply (IH d1); [|exact E].
  apply (sr_step _ _ _ _ _ _ _ _ d d1 R). now apply (sx_do_step chk allow d op).
Qed.
Definition free_all_ok (x : list Z) (y : option (list Z)) : Prop := True.
Definition b_all (x : list Z) (y : option (list Z)) : bool := true.
Lemma b_clash_ok x y : b_clash x y = true -> no_clash sx_alen x y.
Proof.
  unfold b_clash, no_clash, apart. intros E. apply andb_prop in E. destruct E as (E1 & E2). split; [now apply Z.ltb_lt|].
  destruct y as [e|]; [|exact Logic.I]. apply andb_prop in E2. destruct E2 as (E2 & E3). split; [now apply Z.ltb_lt|].
  apply orb_prop in E3. destruct E3 as [E3 | E3]; [left; now apply Z.ltb_lt|right]. intros C. rewrite C, Z.eqb_refl in E3. discriminate.
Qed.

(** Two records hold one string of 40 bytes with the language "en"; one of them lets go of it. *)
Definition sx_text : list Z := repeat 97 40.
Definition sx_h : Z := encode_longstr_offset 1000.
Definition sx_lang : Z := encode_shortstr_offset 2000.
Definition sx_ops : list sx_op :=
  [Make 2 64; Make 1 128; Str sx_text (Some [101; 110]) 5 1000 2000; Put 64 0 sx_h; Put 128 0 sx_h;
   Blob [1; 0; 2] None 1200 0; Put 64 1 (encode_longstr_offset 1200)].
Definition sx_get (o : option sxdb) : sxdb := match o with Some d => d | None => sx0 end.
Definition sx_state : sxdb := sx_get (sx_run b_clash sx0 sx_ops).
Definition sx_val (d : sxdb) : sst := match d_val d with Some s => s | None => s_init end.
Lemma sx_state_run : sx_run b_clash sx0 sx_ops = Some sx_state.
Proof. unfold sx_state. destruct (sx_run b_clash sx0 sx_ops) eqn:E; [reflexivity|]. exfalso. assert (C : b_isnone (sx_run b_clash sx0 sx_ops) = false) by (vm_compute; reflexivity). rewrite E in C. discriminate. Qed.
Lemma sx_state_reach : sx_reach (no_clash sx_alen) sx_state.
Proof. apply (sx_run_reach b_clash _ b_clash_ok sx_ops sx0); [constructor|apply sx_state_run]. Qed.
Lemma sx_val_ok : d_val sx_state = Some (sx_val sx_state).
Proof. unfold sx_val. assert (C : b_isnone (d_val sx_state) = false) by (vm_compute; reflexivity). destruct (d_val sx_state); [reflexivity|discriminate]. Qed.

Example C20_defined_ex : sx_reach (no_clash sx_alen) sx_state /\ exists s, d_val sx_state = Some s /\
  value s sx_h = Some (5, sx_text ++ [0], Some [101; 110]) /\ value s (encode_longstr_offset 1200) = Some (8, [1; 0; 2], None).
Proof.
  split; [apply sx_state_reach|]. exists (sx_val sx_state). split; [apply sx_val_ok|]. split; vm_compute; reflexivity.
Qed.

(** The field of the first record is cleared, the second keeps the string; when that one is cleared
    too, the string and its language are released. *)
Definition sx_after1 : sxdb := sx_get (sx_do b_clash sx_state (Put 64 0 0)).
Definition sx_after2 : sxdb := sx_get (sx_do b_clash sx_after1 (Put 128 0 0)).
Lemma sx_get_ok chk d op : b_isnone (sx_do chk d op) = false -> sx_do chk d op = Some (sx_get (sx_do chk d op)).
Proof. destruct (sx_do chk d op); [reflexivity|discriminate]. Qed.
Lemma sx_step1 : sx_step (no_clash sx_alen) sx_state sx_after1.
Proof. apply (sx_do_step b_clash _ _ (Put 64 0 0) _ b_clash_ok). apply sx_get_ok. vm_compute. reflexivity. Qed.
Lemma sx_step2 : sx_step (no_clash sx_alen) sx_after1 sx_after2.
Proof. apply (sx_do_step b_clash _ _ (Put 128 0 0) _ b_clash_ok). apply sx_get_ok. vm_compute. reflexivity. Qed.
Definition sx_fields (d : sxdb) (o : Z) : list Z := match d_rec d o with Some r => r_fields r | None => [] end.
Lemma held_at (d : sxdb) o h : In h (sx_fields d o) -> held d h.
Proof. unfold sx_fields. destruct (d_rec d o) as [r|] eqn:E; [|contradiction]. intros H. exists o, r. auto. Qed.
Example C20_kept_ex : sx_along (no_clash sx_alen) sx_h sx_state sx_after1 /\
  value (sx_val sx_after1) sx_h = Some (5, sx_text ++ [0], Some [101; 110]).
Proof.
  split; [|vm_compute; reflexivity]. apply (ua_step _ _ _ _ _ _ _ _ _ _ sx_after1).
  - left. apply (held_at _ 64). vm_compute. auto.
  - apply sx_step1.
  - apply ua_here. left. apply (held_at _ 128). vm_compute. auto.
Qed.
Example C20_released_ex : sx_reach (no_clash sx_alen) sx_after1 /\ sx_step (no_clash sx_alen) sx_after1 sx_after2 /\
  in_use sx_after1 sx_h /\ in_use sx_after1 sx_lang /\ ~ in_use sx_after2 sx_h /\ ~ in_use sx_after2 sx_lang /\
  s_long (sx_val sx_after1) 1000 <> None /\ s_short (sx_val sx_after1) 2000 <> None.
Proof.
  assert (R : sx_reach (no_clash sx_alen) sx_after1) by apply (sr_step _ _ _ _ _ _ _ _ _ _ sx_state_reach sx_step1).
  split; [exact R|]. split; [apply sx_step2|].
  split; [left; apply (held_at _ 128); vm_compute; auto|].
  split.
  { right. exists (sx_val sx_after1). split; [vm_compute; reflexivity|].
    exists 1000. eexists. split; vm_compute; reflexivity. }
  assert (F : forall h, h <> 0 -> h <> encode_longstr_offset 1200 -> ~ held sx_after2 h).
  { intros h N0 N1 (p & r & E & H). revert E. vm_compute.
    repeat match goal with |- context [match ?x with _ => _ end] => is_var x; destruct x; try discriminate end.
    all: intros E; injection E as <-; cbn in H; unfold encode_longstr_offset in N1; cbn in N1; intuition congruence. }
  assert (G : forall h, h <> 0 -> ~ lang_of_live (sx_val sx_after2) h).
  { intros h N0 (p & x & E & H). revert E. vm_compute.
    repeat match goal with |- context [match ?x with _ => _ end] => is_var x; destruct x; try discriminate end.
    all: intros E; injection E as <-; cbn in H; congruence. }
  split; [|split].
  - intros [C | (s & E & C)]; [revert C; apply F; discriminate|].
    assert (s = sx_val sx_after2) by (unfold sx_val; now rewrite E). subst s. revert C. apply G. discriminate.
  - intros [C | (s & E & C)]; [revert C; apply F; discriminate|].
    assert (s = sx_val sx_after2) by (unfold sx_val; now rewrite E). subst s. revert C. apply G. discriminate.
  - split; vm_compute; discriminate.
Qed.
(** The only reference to a short string is a field: overwriting the field releases it. *)
Definition sx_short : Z := encode_shortstr_offset 3000.
Definition sx_one : sxdb := sx_get (sx_run b_clash sx0 [Make 1 64; Str [104; 105] None 5 3000 0]).
Definition sx_one1 : sxdb := match wg_set_field sx_no sx_no sx_field sx_field v_ref (v_free sx_alen) sx_one 64 0 sx_short true with Some (d, _) => d | None => sx0 end.
Definition sx_one2 : sxdb := sx_get (sx_do b_clash sx_one1 (Put 64 0 (encode_smallint 7))).
Lemma sx_one_reach : sx_reach (no_clash sx_alen) sx_one.
Proof.
  apply (sx_run_reach b_clash _ b_clash_ok [Make 1 64; Str [104; 105] None 5 3000 0] sx0); [constructor|]. unfold sx_one.
  assert (C : b_isnone (sx_run b_clash sx0 [Make 1 64; Str [104; 105] None 5 3000 0]) = false) by (vm_compute; reflexivity).
  destruct (sx_run _ _ _); [reflexivity|discriminate].
Qed.
Example C20_released_short_ex : sx_reach (no_clash sx_alen) sx_one1 /\ sx_step (no_clash sx_alen) sx_one1 sx_one2 /\
  in_use sx_one1 sx_short /\ ~ in_use sx_one2 sx_short /\ value (sx_val sx_one1) sx_short = Some (5, [104; 105; 0], None) /\ value (sx_val sx_one2) sx_short = None.
Proof.
  assert (Nh : ~ held sx_one sx_short).
  { intros (p & r & E & H). revert E. vm_compute.
    repeat match goal with |- context [match ?x with _ => _ end] => is_var x; destruct x; try discriminate end.
    all: intros E; injection E as <-; cbn in H; unfold sx_short in H; cbn in H; intuition congruence. }
  assert (Nl : forall d, In d [sx_one; sx_one2] -> ~ lang_of_live (sx_val d) sx_short).
  { intros d [<- | [<- | []]] (p & x & E & H); revert E; vm_compute; discriminate. }
  split; [|split; [|split; [|split; [|split]]]].
  - apply (sr_step _ _ _ _ _ _ _ _ _ _ sx_one_reach).
    apply (ss_set _ _ _ _ _ _ _ _ sx_one (sx_val sx_one) 64 0 sx_short true sx_one1 0); [vm_compute; reflexivity| |vm_compute; reflexivity|discriminate].
    split; [intros C; vm_compute in C; discriminate|]. split; [intros C; vm_compute in C; discriminate|]. intros _.
    split; [vm_compute; discriminate|]. split; [exact Nh|]. apply Nl. now left.
  - apply (sx_do_step b_clash _ _ (Put 64 0 (encode_smallint 7)) _ b_clash_ok). apply sx_get_ok. vm_compute. reflexivity.
  - left. apply (held_at _ 64). vm_compute. auto.
  - intros [C | (s & E & C)].
    + destruct C as (p & r & E & H). revert E. vm_compute.
      repeat match goal with |- context [match ?x with _ => _ end] => is_var x; destruct x; try discriminate end.
      all: intros E; injection E as <-; cbn in H; unfold sx_short in H; cbn in H; intuition congruence.
    + assert (s = sx_val sx_one2) by (unfold sx_val; now rewrite E). subst s. revert C. apply Nl. right. now left.
  - vm_compute. reflexivity.
  - vm_compute. reflexivity.
Qed.

(** A string that was encoded and not stored is freed. *)
Definition sx_loose : sxdb := sx_get (sx_run b_clash sx0 [Str sx_text None 7 1000 0]).
Example C20_free_ex : sx_reach (no_clash sx_alen) sx_loose /\ may_free sx_loose (sx_val sx_loose) sx_h /\ ~ in_use sx_loose sx_h /\
  value (sx_val sx_loose) sx_h = Some (7, sx_text ++ [0], None).
Proof.
  split; [|split; [|split]].
  - apply (sx_run_reach b_clash _ b_clash_ok [Str sx_text None 7 1000 0] sx0); [constructor|]. unfold sx_loose.
    assert (C : b_isnone (sx_run b_clash sx0 [Str sx_text None 7 1000 0]) = false) by (vm_compute; reflexivity).
    destruct (sx_run _ _ _); [reflexivity|discriminate].
  - apply (b_live_ok sx_loose). vm_compute. reflexivity.
  - intros [(p & r & E & H) | (s & E & p & x & C & H)].
    + revert E. vm_compute. discriminate.
    + assert (s = sx_val sx_loose) by (unfold sx_val; now rewrite E). subst s. revert C. vm_compute.
      repeat match goal with |- context [match ?x with _ => _ end] => is_var x; destruct x; try discriminate end.
      all: intros C; injection C as <-; revert H; vm_compute; discriminate.
  - vm_compute. reflexivity.
Qed.

(** Encoding: a URI with a prefix, the same string again, a blob with zeros, and no memory. *)
Example C20_encode_string_ex : str_mem (sx_val sx_state) [120; 121] (Some [112]) WG_URITYPE 1400 /\ extra_args (sx_val sx_state) (Some [112]) 1400 2048 /\
  (exists s, wg_encode_unistr sx_alen (sx_val sx_state) [120; 121] (Some [112]) WG_URITYPE 1400 2048 = Some (s, encode_longstr_offset 1400) /\
    value s (encode_longstr_offset 1400) = Some (WG_URITYPE, [120; 121; 0], Some [112])) /\
  wg_encode_unistr sx_alen (sx_val sx_state) [120; 121] (Some [112]) WG_URITYPE 0 2048 = Some (sx_val sx_state, WG_ILLEGAL).
Proof.
  split; [apply b_str_mem_ok; vm_compute; reflexivity|]. split; [apply b_extra_ok; vm_compute; reflexivity|]. split.
  - set (r := wg_encode_unistr _ _ _ _ _ _ _). assert (C : b_isnone r = false) by (vm_compute; reflexivity).
    destruct r as [[s h]|] eqn:E; [|discriminate]. exists s.
    assert (K : match r with Some (s, h) => h = encode_longstr_offset 1400 /\ value s (encode_longstr_offset 1400) = Some (WG_URITYPE, [120; 121; 0], Some [112]) | None => False end).
    { vm_compute. auto. }
    rewrite E in K. destruct K as (-> & K). auto.
  - vm_compute. reflexivity.
Qed.
Example C20_encode_blob_ex : block_ok (sx_val sx_state) 1400 /\
  (exists s, wg_encode_uniblob sx_alen (sx_val sx_state) [0; 255; 0] None WG_BLOBTYPE 1400 0 = Some (s, encode_longstr_offset 1400) /\
    value s (encode_longstr_offset 1400) = Some (WG_BLOBTYPE, [0; 255; 0], None)).
Proof.
  split; [right; split; [lia|]; split; [reflexivity|vm_compute; reflexivity]|].
  set (r := wg_encode_uniblob _ _ _ _ _ _ _). assert (C : b_isnone r = false) by (vm_compute; reflexivity).
  destruct r as [[s h]|] eqn:E; [|discriminate]. exists s.
  assert (K : match r with Some (s, h) => h = encode_longstr_offset 1400 /\ value s (encode_longstr_offset 1400) = Some (WG_BLOBTYPE, [0; 255; 0], None) | None => False end).
  { vm_compute. auto. }
  rewrite E in K. destruct K as (-> & K). auto.
Qed.
Example C20_same_handle_ex : Z.land sx_h 7 = 4 /\ value (sx_val sx_state) sx_h = Some (5, sx_text ++ [0], Some [101; 110]) /\
  wg_encode_unistr sx_alen (sx_val sx_state) sx_text (Some [101; 110]) 5 4000 5000 = Some (sx_val sx_state, sx_h).
Proof.
  split; [reflexivity|]. split; [vm_compute; reflexivity|].
  apply (C20_same_handle_partial sx_alen sx_no sx_no sx_rec sx_rec sx_field sx_field sx_state); [apply sx_state_reach|apply sx_val_ok|reflexivity|vm_compute; reflexivity|left; discriminate].
Qed.
Example C20_same_blob_ex : value (sx_val sx_state) (encode_longstr_offset 1200) = Some (WG_BLOBTYPE, [1; 0; 2], None) /\
  wg_encode_uniblob sx_alen (sx_val sx_state) [1; 0; 2] None WG_BLOBTYPE 4000 0 = Some (sx_val sx_state, encode_longstr_offset 1200).
Proof.
  split; [vm_compute; reflexivity|].
  apply (C20_same_blob_partial sx_alen sx_no sx_no sx_rec sx_rec sx_field sx_field sx_state); [apply sx_state_reach|apply sx_val_ok|reflexivity|vm_compute; reflexivity].
Qed.

(** ** Where the code breaks the claim *)
(** The URI "item38231" with the prefix "http://example.org/ns/vocabulary#": the prefix is long, so it is entered in
    the hash table while the URI is being made, in the very bucket of the URI; the URI is
    then put in front of the chain read before that (Db/dbdata.c l.2604-2606, l.2664-2668). The prefix is lost
    from the table and encoding it as a string makes a second copy. *)
Definition clash_prefix : list Z :=
  [104;116;116;112;58;47;47;101;120;97;109;112;108;101;46;111;114;103;47;110;115;47;118;111;99;97;98;117;108;97;114;121;35].
Definition clash_name : list Z := [105;116;101;109;51;56;50;51;49].
Definition clash_ops : list sx_op := [Make 1 64; Str clash_name (Some clash_prefix) 7 1000 1200; Put 64 0 sx_h].
Definition clash_state : sxdb := sx_get (sx_run b_all sx0 clash_ops).
Theorem C20_same_handle_refuted : sx_reach free_all_ok clash_state /\
  exists s s' h', d_val clash_state = Some s /\
  in_use clash_state (encode_longstr_offset 1200) /\ value s (encode_longstr_offset 1200) = Some (WG_STRTYPE, clash_prefix ++ [0], None) /\
  wg_encode_unistr sx_alen s clash_prefix None WG_STRTYPE 1400 0 = Some (s', h') /\ h' <> encode_longstr_offset 1200.
Proof.
  split.
  - apply (sx_run_reach b_all _ (fun _ _ _ => Logic.I) clash_ops sx0); [constructor|]. unfold clash_state.
    assert (C : b_isnone (sx_run b_all sx0 clash_ops) = false) by (vm_compute; reflexivity).
    destruct (sx_run b_all sx0 clash_ops); [reflexivity|discriminate].
  - exists (sx_val clash_state). set (r := wg_encode_unistr sx_alen (sx_val clash_state) clash_prefix None WG_STRTYPE 1400 0).
    assert (C : b_isnone r = false) by (vm_compute; reflexivity). destruct r as [[s' h']|] eqn:E; [|discriminate].
    exists s', h'. split; [vm_compute; reflexivity|]. split.
    + right. exists (sx_val clash_state). split; [vm_compute; reflexivity|]. exists 1000. eexists. split; vm_compute; reflexivity.
    + split; [vm_compute; reflexivity|]. split; [reflexivity|].
      assert (K : match r with Some (_, h) => h =? encode_longstr_offset 1200 | None => true end = false) by (vm_compute; reflexivity).
      rewrite E in K. now apply Z.eqb_neq.
Qed.
Print Assumptions C20_same_handle_refuted.

(** A blob of 2^32+8 zeros and then one of 8 zeros: both hash to bucket 0 and the length is compared as an
    [int] (Db/dbhash.c l.190, l.196), so the second call returns the handle of the first blob. *)
Lemma hash_zeros n : fold_left hash_step (repeat 0 n) 0 = 0.
Proof. induction n as [|n IH]; [reflexivity|]. cbn [repeat fold_left]. change (hash_step 0 0) with 0. exact IH. Qed.
Lemma firstn_repeat (n m : nat) (l : list Z) : (n <= m)%nat -> firstn n (repeat 0 m ++ l) = repeat 0 n.
Proof.
  revert m. induction n as [|n IH]; intros m H; [reflexivity|]. destruct m as [|m]; [lia|]. cbn [repeat app firstn]. now rewrite IH by lia.
Qed.
Lemma big_blob (big : list Z) : zlen big = 2 ^ 32 + 8 -> wg_hash_typedstr sx_alen big None = 0 ->
  wg_hash_typedstr sx_alen (repeat 0 (Z.to_nat 8)) None = 0 ->
  firstn (Z.to_nat 8) (padded big) = repeat 0 (Z.to_nat 8) -> exists d s h s' h',
  sx_reach free_all_ok d /\ d_val d = Some s /\ value s h = Some (WG_BLOBTYPE, big, None) /\
  wg_encode_uniblob sx_alen s (repeat 0 (Z.to_nat 8)) None WG_BLOBTYPE 2000 0 = Some (s', h') /\ h' = h.
Proof.
  intros Lb Hbig Hb F.
  set (x := LS (obj_size (zlen big)) (Z.lor (Z.shiftl (obj_size (zlen big) - zlen big) LONGSTR_META_LENDIFSHFT) WG_BLOBTYPE) 0 0 0 (padded big)).
  destruct (l_new big WG_BLOBTYPE 0 0 0 ltac:(unfold WG_BLOBTYPE; lia)) as (N1 & N2 & N3 & N4 & N5). fold x in N1, N2, N3, N4, N5.
  set (s1 := set_bucket (set_long (set_long (set_made s_init) 1000 (Some None)) 1000 (Some (Some x))) 0 (encode_longstr_offset 1000)).
  assert (E1 : wg_encode_uniblob sx_alen s_init big None WG_BLOBTYPE 1000 0 = Some (s1, encode_longstr_offset 1000)).
  { unfold wg_encode_uniblob, find_create_longstr. rewrite Hbig. reflexivity. }
  assert (Ex : long_at s1 1000 = Some x) by reflexivity.
  exists (RDB (fun _ => None) Datatypes.tt (Some s1)), s1, (encode_longstr_offset 1000), s1, (encode_longstr_offset 1000).
  split.
  { apply (sr_step _ _ _ _ _ _ _ _ sx0); [constructor|].
    apply (ss_blob _ _ _ _ _ _ _ free_all_ok sx0 s_init big None 1000 0 s1 (encode_longstr_offset 1000)); auto.
    - right. split; [lia|]. split; reflexivity.
    - exact Logic.I.
    - exact Logic.I. }
  split; [reflexivity|]. split.
  { unfold value. change (Z.land (encode_longstr_offset 1000) 7 =? 4) with true. cbn iota.
    change (decode_longstr_offset (encode_longstr_offset 1000)) with 1000. rewrite Ex. change (l_lang s1 x) with (Some (@None (list Z))). cbn iota.
    rewrite N1. change (firstn (Z.to_nat (l_strsize x)) (l_data x)) with (l_bytes x). now rewrite N3. }
  split; [|reflexivity].
  unfold wg_encode_uniblob, find_create_longstr. rewrite Hb. change (s_hash s1 0) with (encode_longstr_offset 1000). change (s_made s1) with 1%nat.
  cbn [wg_find_strhash_bucket]. change (encode_longstr_offset 1000 =? 0) with false. cbn iota.
  change (decode_longstr_offset (encode_longstr_offset 1000)) with 1000. rewrite Ex.
  assert (Rb : wg_right_strhash_bucket s1 x (repeat 0 (Z.to_nat 8)) None WG_BLOBTYPE (zlen (repeat 0 (Z.to_nat 8))) = Some true).
  { unfold wg_right_strhash_bucket. rewrite N1, Z.eqb_refl. cbn [negb]. rewrite N2, Lb. change (wrap32 (2 ^ 32 + 8)) with 8.
    change (zlen (repeat 0 (Z.to_nat 8))) with 8. change (negb (8 =? 8)) with false. cbn iota.
    change (l_data x) with (padded big).
    rewrite F. destruct (list_eq_dec Z.eq_dec (repeat 0 (Z.to_nat 8)) (repeat 0 (Z.to_nat 8))) as [_ | C]; [|congruence].
    change (l_lang s1 x) with (Some (@None (list Z))). reflexivity. }
  rewrite Rb. reflexivity.
Qed.
Theorem C20_encode_refuted : exists d s h s' h',
  sx_reach free_all_ok d /\ d_val d = Some s /\ value s h = Some (WG_BLOBTYPE, repeat 0 (Z.to_nat (2 ^ 32 + 8)), None) /\
  wg_encode_uniblob sx_alen s (repeat 0 (Z.to_nat 8)) None WG_BLOBTYPE 2000 0 = Some (s', h') /\ h' = h.
Proof.
  assert (G : forall n, 2 ^ 32 + 8 = Z.of_nat n -> exists d s h s' h',
    sx_reach free_all_ok d /\ d_val d = Some s /\ value s h = Some (WG_BLOBTYPE, repeat 0 n, None) /\
    wg_encode_uniblob sx_alen s (repeat 0 (Z.to_nat 8)) None WG_BLOBTYPE 2000 0 = Some (s', h') /\ h' = h).
  { intros n En. apply big_blob.
    - unfold zlen. rewrite repeat_length. now symmetry.
    - unfold wg_hash_typedstr. now rewrite app_nil_r, hash_zeros.
    - unfold wg_hash_typedstr. now rewrite app_nil_r, hash_zeros.
    - unfold padded. apply firstn_repeat. lia. }
  apply G. rewrite Z2Nat.id; [reflexivity|]. discriminate.
Qed.
Print Assumptions C20_encode_refuted.
