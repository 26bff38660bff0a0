From Coq Require Import ZArith List Bool Lia.
From Verif Require Import Base CrcModel CrcProofs DumpModel.
Import ListNotations.
Open Scope Z_scope.

Ltac plia := unfold MARK_POS, VERSION_POS, FEATURES_POS, CHECKSUM_POS, SIZE_POS, FREE_POS, KEY_POS in *;
  cbn [length le_bytes] in *; lia.

(** ** Slices and splices *)

Lemma splice_length off bs img : (off + length bs <= length img)%nat -> length (splice off bs img) = length img.
Proof. intros H. unfold splice. rewrite !app_length, firstn_length, skipn_length. lia. Qed.

Lemma nth_firstn (A : Type) (d : A) n : forall l i, (i < n)%nat -> nth i (firstn n l) d = nth i l d.
Proof.
  induction n as [|n IH]; intros [|x l] i H; try lia; [reflexivity|]. destruct i; [reflexivity|]. cbn. apply IH. lia.
Qed.
Lemma nth_skipn (A : Type) (d : A) n : forall l i, nth i (skipn n l) d = nth (n + i) l d.
Proof. induction n as [|n IH]; intros [|x l] i; cbn; auto. destruct i; reflexivity. Qed.

Lemma nth_splice off bs img i : (off + length bs <= length img)%nat ->
  nth i (splice off bs img) 0 =
  if Nat.ltb i off then nth i img 0
  else if Nat.ltb i (off + length bs) then nth (i - off) bs 0 else nth i img 0.
Proof.
  intros H. unfold splice. destruct (Nat.ltb_spec i off).
  - rewrite app_nth1 by (rewrite firstn_length; lia). apply nth_firstn. assumption.
  - rewrite app_nth2 by (rewrite firstn_length; lia). rewrite firstn_length, Nat.min_l by lia.
    destruct (Nat.ltb_spec i (off + length bs)).
    + rewrite app_nth1 by lia. reflexivity.
    + rewrite app_nth2 by lia. rewrite nth_skipn. f_equal. lia.
Qed.

Lemma list_ext (a b : list Z) : length a = length b -> (forall i, (i < length a)%nat -> nth i a 0 = nth i b 0) -> a = b.
Proof. intros H1 H2. apply (nth_ext a b 0 0); assumption. Qed.

Lemma slice_length off n img : (off + n <= length img)%nat -> length (slice off n img) = n.
Proof. intros H. unfold slice. rewrite firstn_length, skipn_length. lia. Qed.

Lemma nth_slice off n img i : (i < n)%nat -> nth i (slice off n img) 0 = nth (off + i) img 0.
Proof. intros H. unfold slice. rewrite nth_firstn by assumption. apply nth_skipn. Qed.

Lemma slice_ext pos n a b : (pos + n <= length a)%nat -> (pos + n <= length b)%nat ->
  (forall i, (pos <= i < pos + n)%nat -> nth i a 0 = nth i b 0) -> slice pos n a = slice pos n b.
Proof.
  intros Ha Hb H. apply list_ext; rewrite !slice_length by assumption; [reflexivity|].
  intros i Hi. rewrite !nth_slice by assumption. apply H. lia.
Qed.

Lemma slice_splice_same off bs img : (off + length bs <= length img)%nat -> slice off (length bs) (splice off bs img) = bs.
Proof.
  intros H. apply list_ext; rewrite slice_length by (rewrite ?splice_length by assumption; assumption); [reflexivity|].
  intros i Hi. rewrite nth_slice, nth_splice by assumption.
  destruct (Nat.ltb_spec (off + i) off); [lia|]. destruct (Nat.ltb_spec (off + i) (off + length bs)); [|lia].
  f_equal. lia.
Qed.

Lemma slice_splice_other pos n off bs img : (off + length bs <= length img)%nat -> (pos + n <= length img)%nat ->
  (pos + n <= off \/ off + length bs <= pos)%nat -> slice pos n (splice off bs img) = slice pos n img.
Proof.
  intros H1 H2 H3. apply slice_ext; rewrite ?splice_length by assumption; try assumption.
  intros i Hi. rewrite nth_splice by assumption.
  destruct (Nat.ltb_spec i off); [reflexivity|]. destruct (Nat.ltb_spec i (off + length bs)); [lia|reflexivity].
Qed.

Lemma le_bytes_length n : forall v, length (le_bytes n v) = n.
Proof. induction n; intros; cbn; auto. Qed.

Lemma le_roundtrip n : forall v, le_value (le_bytes n v) = v mod 256 ^ Z.of_nat n.
Proof.
  induction n as [|n IH]; intros v; [cbn; rewrite Z.mod_1_r; reflexivity|].
  cbn [le_bytes le_value]. rewrite IH, Nat2Z.inj_succ, Z.pow_succ_r by lia.
  assert (0 < 256 ^ Z.of_nat n) by (apply Z.pow_pos_nonneg; lia).
  rewrite (Z.rem_mul_r v 256) by lia. ring.
Qed.

Lemma put32_length pos v img : (pos + 4 <= length img)%nat -> length (put32 pos v img) = length img.
Proof. intros. apply splice_length. rewrite le_bytes_length. assumption. Qed.
Lemma put64_length pos v img : (pos + 8 <= length img)%nat -> length (put64 pos v img) = length img.
Proof. intros. apply splice_length. rewrite le_bytes_length. assumption. Qed.
Lemma nth_put32 pos v img i : (pos + 4 <= length img)%nat -> (i < pos \/ pos + 4 <= i)%nat ->
  nth i (put32 pos v img) 0 = nth i img 0.
Proof.
  intros H Hi. unfold put32. rewrite nth_splice by (rewrite le_bytes_length; assumption). rewrite le_bytes_length.
  destruct (Nat.ltb_spec i pos); [reflexivity|]. destruct (Nat.ltb_spec i (pos + 4)); [lia|reflexivity].
Qed.
Lemma nth_put64 pos v img i : (pos + 8 <= length img)%nat -> (i < pos \/ pos + 8 <= i)%nat ->
  nth i (put64 pos v img) 0 = nth i img 0.
Proof.
  intros H Hi. unfold put64. rewrite nth_splice by (rewrite le_bytes_length; assumption). rewrite le_bytes_length.
  destruct (Nat.ltb_spec i pos); [reflexivity|]. destruct (Nat.ltb_spec i (pos + 8)); [lia|reflexivity].
Qed.

Lemma get32_put32 pos v img : (pos + 4 <= length img)%nat -> is32 v -> get32 pos (put32 pos v img) = v.
Proof.
  intros H Hv. unfold get32, put32. rewrite <- (le_bytes_length 4 v) at 1.
  rewrite slice_splice_same by (rewrite le_bytes_length; assumption).
  rewrite le_roundtrip. unfold wrap32, is32 in *. change (256 ^ Z.of_nat 4) with 4294967296.
  change (2 ^ 31) with 2147483648 in *. change (2 ^ 32) with 4294967296. lia.
Qed.
Lemma get64_put64 pos v img : (pos + 8 <= length img)%nat -> is64 v -> get64 pos (put64 pos v img) = v.
Proof.
  intros H Hv. unfold get64, put64. rewrite <- (le_bytes_length 8 v) at 1.
  rewrite slice_splice_same by (rewrite le_bytes_length; assumption).
  rewrite le_roundtrip. unfold wrap64, is64 in *. change (256 ^ Z.of_nat 8) with 18446744073709551616.
  change (2 ^ 63) with 9223372036854775808 in *. change (2 ^ 64) with 18446744073709551616. lia.
Qed.

(** ** The check *)

Lemma BUFSIZE_pos : exists k, BUFSIZE = S k.
Proof. destruct BUFSIZE eqn:E; [|eauto]. apply (f_equal Z.of_nat) in E. unfold BUFSIZE in E. rewrite Z2Nat.id in E by lia. discriminate. Qed.
Lemma BUFSIZE_Z : Z.of_nat BUFSIZE = 8192.
Proof. unfold BUFSIZE. apply Z2Nat.id. lia. Qed.
Global Opaque BUFSIZE.

Lemma check_loop_eq fuel : forall buf rest fs crc, (length rest <= fuel)%nat ->
  check_loop fuel buf rest fs crc =
  Some (fs + Z.of_nat (length buf) + Z.of_nat (length rest), update_crc32 (buf ++ rest) crc).
Proof.
  destruct BUFSIZE_pos as (k & Hk).
  induction fuel as [|f IH]; intros buf rest fs crc Hf.
  - destruct rest; [|cbn in Hf; lia]. cbn [check_loop]. rewrite firstn_nil, app_nil_r. do 2 f_equal. cbn. lia.
  - cbn [check_loop]. destruct (firstn BUFSIZE rest) as [|x l] eqn:E.
    + assert (rest = []) as -> by (rewrite Hk in E; destruct rest; [reflexivity|discriminate]).
      rewrite app_nil_r. do 2 f_equal. cbn. lia.
    + assert (L : (length (x :: l) + length (skipn BUFSIZE rest) = length rest)%nat).
      { rewrite <- E, <- app_length, firstn_skipn. reflexivity. }
      rewrite IH by (cbn [length] in L; lia). f_equal. f_equal; [lia|].
      rewrite <- crc_chunks. rewrite <- E, firstn_skipn. reflexivity.
Qed.

Definition accepted (file : list Z) : Prop :=
  8192 <= Z.of_nat (length file) /\ wg_check_header_compat file = 0 /\
  Z.of_nat (length file) = get64 FREE_POS file /\
  update_crc32 (put32 CHECKSUM_POS 0 file) 0 = get32 CHECKSUM_POS file.

Lemma slice_firstn pos n B (img : list Z) : (pos + n <= B)%nat -> slice pos n (firstn B img) = slice pos n img.
Proof.
  intros H. unfold slice. rewrite skipn_firstn_comm, firstn_firstn. f_equal. lia.
Qed.

Lemma compat_firstn B file : (12 <= B)%nat -> wg_check_header_compat (firstn B file) = wg_check_header_compat file.
Proof.
  intros H. unfold wg_check_header_compat, get32. rewrite !slice_firstn by plia.
  rewrite firstn_firstn, Nat.min_l by lia. reflexivity.
Qed.

Lemma check_dump_spec file :
  accepted file <-> fst (fst (wg_check_dump file)) = 0.
Proof.
  pose proof BUFSIZE_Z as HB.
  unfold wg_check_dump, accepted. destruct (Z.ltb_spec (Z.of_nat (length file)) 8192).
  { split; [lia|discriminate]. }
  rewrite compat_firstn by lia. destruct (Z.eqb_spec (wg_check_header_compat file) 0) as [E|E]; cbn [negb].
  2: { split; [tauto|discriminate]. }
  rewrite check_loop_eq by (rewrite skipn_length; lia).
  unfold get64, get32. rewrite !slice_firstn by plia.
  assert (P : put32 CHECKSUM_POS 0 (firstn BUFSIZE file) ++ skipn BUFSIZE file = put32 CHECKSUM_POS 0 file).
  { unfold put32, splice. rewrite le_bytes_length, firstn_firstn, Nat.min_l by plia.
    rewrite <- !app_assoc. do 2 f_equal.
    rewrite <- (firstn_skipn BUFSIZE file) at 3. rewrite skipn_app.
    f_equal. rewrite firstn_length. replace (CHECKSUM_POS + 4 - Nat.min BUFSIZE (length file))%nat with 0%nat by plia.
    reflexivity. }
  rewrite P. rewrite put32_length by (rewrite firstn_length; plia).
  rewrite <- Z.add_assoc, <- Nat2Z.inj_add, <- app_length, firstn_skipn. cbn [Z.add].
  destruct (Z.eqb_spec (Z.of_nat (length file)) (wrap64 (le_value (slice FREE_POS 8 file)))); cbn [negb fst];
    [|split; [tauto|discriminate]].
  destruct (Z.eqb_spec (update_crc32 (put32 CHECKSUM_POS 0 file) 0) (wrap32 (le_value (slice CHECKSUM_POS 4 file)))); cbn [negb fst];
    split; try tauto; try discriminate.
Qed.

Lemma check_dump_sizes file : accepted file ->
  wg_check_dump file = (0, get64 FREE_POS file, get64 SIZE_POS file).
Proof.
  intros A. pose proof (proj1 (check_dump_spec file) A) as E. pose proof BUFSIZE_Z as HB.
  unfold wg_check_dump in *.
  destruct (_ <? 8192); [discriminate|]. destruct (negb _); [discriminate|].
  destruct (check_loop _ _ _ _ _) as [(fs, c)|]; [|discriminate].
  destruct (negb _); [discriminate|]. destruct (negb _); [discriminate|].
  unfold get64. rewrite !slice_firstn by plia. reflexivity.
Qed.

(** ** Dump *)

(** A well-formed image in a segment: valid header, used part at least 8192
    bytes (every area is created with that much), checksum field 0. *)
Record image_ok (img : list Z) : Prop := {
  im_compat : wg_check_header_compat img = 0;
  im_size : get64 SIZE_POS img = Z.of_nat (length img);
  im_free : 8192 <= get64 FREE_POS img <= Z.of_nat (length img);
  im_sum : slice CHECKSUM_POS 4 img = [0; 0; 0; 0] }.

Lemma put32_zero img : (16 <= length img)%nat -> slice CHECKSUM_POS 4 img = [0; 0; 0; 0] ->
  put32 CHECKSUM_POS 0 img = img.
Proof.
  intros Hl H. apply list_ext; rewrite put32_length by plia; [reflexivity|]. intros i Hi.
  destruct (le_lt_dec 12 i); [|apply nth_put32; plia].
  destruct (le_lt_dec 16 i); [apply nth_put32; plia|].
  unfold put32. rewrite nth_splice by plia.
  destruct (Nat.ltb_spec i CHECKSUM_POS) as [Hx|_]; [plia|]. 
  destruct (Nat.ltb_spec i (CHECKSUM_POS + length (le_bytes 4 0))) as [_|Hx]; [|plia].
  replace (nth i img 0) with (nth (i - 12) (slice CHECKSUM_POS 4 img) 0).
  - rewrite H. reflexivity.
  - rewrite nth_slice by lia. f_equal. cbn. lia.
Qed.

Lemma put32_put32 pos v w img : (pos + 4 <= length img)%nat -> put32 pos v (put32 pos w img) = put32 pos v img.
Proof.
  intros H. apply list_ext; rewrite !put32_length by (rewrite ?put32_length by assumption; assumption); [reflexivity|].
  intros i Hi. unfold put32. rewrite !nth_splice by (rewrite ?splice_length; rewrite ?le_bytes_length; assumption).
  rewrite !le_bytes_length. destruct (Nat.ltb i pos); [reflexivity|]. destruct (Nat.ltb i (pos + 4)); reflexivity.
Qed.

Lemma compat_ext a b : (12 <= length a)%nat -> (12 <= length b)%nat -> (forall i, (i < 12)%nat -> nth i a 0 = nth i b 0) ->
  wg_check_header_compat a = wg_check_header_compat b.
Proof.
  intros Ha Hb H. unfold wg_check_header_compat, get32.
  rewrite !(slice_ext _ 4 a b) by (try plia; intros; apply H; plia).
  replace (firstn 4 a) with (firstn 4 b); [reflexivity|].
  symmetry. apply (slice_ext 0 4 a b); try plia. intros; apply H; plia.
Qed.

Lemma get64_ext pos a b : (pos + 8 <= length a)%nat -> (pos + 8 <= length b)%nat ->
  (forall i, (pos <= i < pos + 8)%nat -> nth i a 0 = nth i b 0) -> get64 pos a = get64 pos b.
Proof. intros. unfold get64. rewrite (slice_ext pos 8 a b) by assumption. reflexivity. Qed.

Section Dump.
Variables img0 img : list Z.
Hypothesis W : image_ok img.
Hypothesis Same : get64 FREE_POS img0 = get64 FREE_POS img.
Let n := Z.to_nat (get64 FREE_POS img).
Let file := snd (wg_dump img0 img true).

Lemma n_bounds : (8192 <= Z.of_nat n)%Z /\ (n <= length img)%nat /\ Z.of_nat n = get64 FREE_POS img.
Proof. destruct W as [_ _ F _]. unfold n. lia. Qed.

Lemma file_eq : file = put32 CHECKSUM_POS (update_crc32 (firstn n img) 0) (firstn n img).
Proof. unfold file, wg_dump. cbn [negb snd]. rewrite Same. reflexivity. Qed.

Lemma file_length : length file = n.
Proof.
  pose proof n_bounds. rewrite file_eq, put32_length; rewrite firstn_length; plia.
Qed.

Lemma file_nth i : (i < n)%nat -> (i < 12 \/ 16 <= i)%nat -> nth i file 0 = nth i img 0.
Proof.
  intros Hi H. pose proof n_bounds. rewrite file_eq, nth_put32; [|rewrite firstn_length; plia|plia].
  apply nth_firstn. assumption.
Qed.

Lemma file_zero : put32 CHECKSUM_POS 0 file = firstn n img.
Proof.
  pose proof n_bounds. rewrite file_eq, put32_put32 by (rewrite firstn_length; plia).
  apply put32_zero; [rewrite firstn_length; lia|]. rewrite slice_firstn by plia. apply (im_sum _ W).
Qed.

Lemma dump_accepted : accepted file.
Proof.
  pose proof n_bounds as (A & B & C). unfold accepted. rewrite file_length. repeat split.
  - exact A.
  - rewrite <- (im_compat _ W). apply compat_ext; rewrite ?file_length; try lia.
    intros i Hi. apply file_nth; plia.
  - rewrite C. apply get64_ext; rewrite ?file_length; try plia.
    intros i Hi. symmetry. apply file_nth; plia.
  - rewrite file_zero. rewrite file_eq. symmetry. apply get32_put32; [rewrite firstn_length; plia|].
    apply crc_range. unfold is32. lia.
Qed.

Lemma dump_check : wg_check_dump file = (0, get64 FREE_POS img, get64 SIZE_POS img).
Proof.
  rewrite check_dump_sizes by exact dump_accepted. pose proof n_bounds as (A & B & C).
  f_equal; [f_equal|]; apply get64_ext; rewrite ?file_length; try plia; intros i Hi; apply file_nth; plia.
Qed.

(** Import into a target segment. *)
Variable ly : layout.
Hypothesis Lh : (48 <= hdr_size ly /\ hdr_size ly <= n)%nat.
Hypothesis Lx : (16 <= extdbs_pos ly /\ extdbs_pos ly + 8 <= hdr_size ly)%nat.
Hypothesis Ll : (hdr_size ly <= lock_pos ly /\ lock_pos ly + 8 <= n)%nat.
Hypothesis Lw : (hdr_size ly <= writers_pos ly /\ writers_pos ly + 8 <= n)%nat.
Hypothesis Noext : get64 (extdbs_pos ly) img = 0.
Variable db : list Z.
Hypothesis Dsize : get64 SIZE_POS db = Z.of_nat (length db).
Hypothesis Dbig : (n <= length db)%nat.
Hypothesis Dgint : Z.of_nat (length db) < 2 ^ 63.

Definition in_word (pos i : nat) : Prop := (pos <= i < pos + 8)%nat.

Lemma import_ok : exists db', wg_import_dump ly db file = (0, db') /\
  length db' = length db /\
  get64 SIZE_POS db' = get64 SIZE_POS db /\
  slice CHECKSUM_POS 4 db' = [0; 0; 0; 0] /\
  (forall i, (i < n)%nat -> ~ in_word SIZE_POS i -> ~ in_word (lock_pos ly) i -> ~ in_word (writers_pos ly) i ->
     nth i db' 0 = nth i img 0) /\
  (forall i, (n <= i < length db)%nat -> nth i db' 0 = nth i db 0).
Proof.
  pose proof n_bounds as (A & B & C). pose proof file_length as FL.
  unfold wg_import_dump. rewrite FL.
  destruct (Nat.ltb_spec n (hdr_size ly)); [lia|].
  assert (E1 : get64 (extdbs_pos ly) file = 0).
  { rewrite <- Noext. apply get64_ext; rewrite ?FL; try lia. intros i Hi. apply file_nth; plia. }
  rewrite E1. cbn [Z.eqb negb].
  assert (E2 : get64 FREE_POS file = get64 FREE_POS img).
  { apply get64_ext; rewrite ?FL; try plia. intros i Hi. apply file_nth; plia. }
  rewrite E2, <- C, Nat2Z.id. destruct (Z.ltb_spec (get64 SIZE_POS db) (Z.of_nat n)); [lia|].
  destruct (Z.ltb_spec 0 (Z.of_nat n)); [|lia]. rewrite Nat.ltb_irrefl.
  replace (firstn n file) with file by (rewrite firstn_all2; [reflexivity|lia]).
  set (d0 := splice 0 file db). set (d1 := put64 SIZE_POS (get64 SIZE_POS db) d0).
  set (d2 := put32 CHECKSUM_POS 0 d1). set (d3 := put64 (lock_pos ly) 0 d2).
  set (d4 := put64 (writers_pos ly) 0 d3).
  assert (L0 : length d0 = length db) by (apply splice_length; rewrite FL; plia).
  assert (L1 : length d1 = length db) by (unfold d1; rewrite put64_length; rewrite ?L0; plia).
  assert (L2 : length d2 = length db) by (unfold d2; rewrite put32_length; rewrite ?L1; plia).
  assert (L3 : length d3 = length db) by (unfold d3; rewrite put64_length; rewrite ?L2; plia).
  assert (L4 : length d4 = length db) by (unfold d4; rewrite put64_length; rewrite ?L3; plia).
  assert (N4 : forall i, ~ in_word (writers_pos ly) i -> nth i d4 0 = nth i d3 0)
    by (intros i Hi; apply nth_put64; unfold in_word in Hi; lia).
  assert (N3 : forall i, ~ in_word (lock_pos ly) i -> nth i d3 0 = nth i d2 0)
    by (intros i Hi; apply nth_put64; unfold in_word in Hi; lia).
  assert (N2 : forall i, (i < 12 \/ 16 <= i)%nat -> nth i d2 0 = nth i d1 0)
    by (intros i Hi; apply nth_put32; plia).
  assert (N1 : forall i, ~ in_word SIZE_POS i -> nth i d1 0 = nth i d0 0)
    by (intros i Hi; apply nth_put64; unfold in_word in Hi; plia).
  assert (N0 : forall i, nth i d0 0 = if Nat.ltb i n then nth i file 0 else nth i db 0).
  { intros i. unfold d0. rewrite nth_splice by (rewrite FL; plia). rewrite FL.
    destruct (Nat.ltb_spec i 0); [lia|]. rewrite Nat.sub_0_r. reflexivity. }
  unfold in_word in *. unfold SIZE_POS, CHECKSUM_POS in *.
  assert (S4 : slice 12 4 d4 = [0; 0; 0; 0]).
  { transitivity (slice 12 4 d2).
    - apply slice_ext; try lia. intros i Hi. rewrite N4, N3 by lia. reflexivity.
    - apply (slice_splice_same 12 (le_bytes 4 0) d1). rewrite le_bytes_length. lia. }
  exists d4. split; [reflexivity|]. split; [exact L4|]. split; [|split; [exact S4|split]].
  - transitivity (get64 16 d1).
    + apply get64_ext; try lia. intros i Hi. rewrite N4, N3, N2 by lia. reflexivity.
    + apply get64_put64; [lia|]. rewrite Dsize. unfold is64. lia.
  - intros i Hi G1 G2 G3. destruct (le_lt_dec 12 i) as [Hlo|Hlo]; [destruct (le_lt_dec 16 i) as [Hhi|Hhi]|].
    + rewrite N4, N3, N2, N1, N0 by lia. destruct (Nat.ltb_spec i n); [|lia]. apply file_nth; plia.
    + replace (nth i d4 0) with (nth (i - 12) (slice 12 4 d4) 0) by (rewrite nth_slice by lia; f_equal; lia).
      replace (nth i img 0) with (nth (i - 12) (slice 12 4 img) 0) by (rewrite nth_slice by lia; f_equal; lia).
      rewrite S4. pose proof (im_sum _ W) as S. unfold CHECKSUM_POS in S. rewrite S. reflexivity.
    + rewrite N4, N3, N2, N1, N0 by lia. destruct (Nat.ltb_spec i n); [|lia]. apply file_nth; plia.
  - intros i Hi. rewrite N4, N3, N2, N1, N0 by lia. destruct (Nat.ltb_spec i n); [lia|reflexivity].
Qed.
End Dump.

Lemma import_fail ly db file r : wg_import_dump ly db file = (-1, r) -> r = db.
Proof.
  unfold wg_import_dump.
  destruct (Nat.ltb _ _); [congruence|]. destruct (negb _); [congruence|].
  destruct (_ <? _); [congruence|]. destruct (0 <? _); [|congruence].
  destruct (Nat.ltb _ _); discriminate.
Qed.

(** ** Damage *)

Lemma put32_inj_out v a b : (16 <= length a)%nat -> length a = length b ->
  put32 CHECKSUM_POS v a = put32 CHECKSUM_POS v b -> slice CHECKSUM_POS 4 a = slice CHECKSUM_POS 4 b -> a = b.
Proof.
  intros La Lb E S. apply list_ext; [assumption|]. intros i Hi.
  destruct (le_lt_dec 12 i) as [Hlo|Hlo]; [destruct (le_lt_dec 16 i) as [Hhi|Hhi]|].
  - apply (f_equal (fun l => nth i l 0)) in E. rewrite !nth_put32 in E by plia. exact E.
  - apply (f_equal (fun l => nth (i - 12) l 0)) in S. rewrite !nth_slice in S by lia.
    replace (CHECKSUM_POS + (i - 12))%nat with i in S by plia. exact S.
  - apply (f_equal (fun l => nth i l 0)) in E. rewrite !nth_put32 in E by plia. exact E.
Qed.

Lemma split3 (l : list Z) a b : (a + b <= length l)%nat -> l = firstn a l ++ slice a b l ++ skipn (a + b) l.
Proof.
  intros H. unfold slice. rewrite <- (firstn_skipn a l) at 1. f_equal.
  rewrite <- (firstn_skipn b (skipn a l)) at 1. f_equal.
  rewrite <- (firstn_skipn a l) at 2. rewrite skipn_app, firstn_length, Nat.min_l by lia.
  rewrite (skipn_all2 (firstn a l)) by (rewrite firstn_length; lia). cbn. f_equal. lia.
Qed.

Lemma nth_app_mid (p w s : list Z) i : (i < length p \/ length p + length w <= i)%nat ->
  forall w', length w' = length w -> nth i (p ++ w ++ s) 0 = nth i (p ++ w' ++ s) 0.
Proof.
  intros Hi w' Hl. destruct Hi as [Hi|Hi].
  - rewrite !app_nth1 by assumption. reflexivity.
  - rewrite !(app_nth2 p) by lia. rewrite !app_nth2 by lia. f_equal. lia.
Qed.

Lemma Forall_firstn (A : Type) (P : A -> Prop) n l : Forall P l -> Forall P (firstn n l).
Proof. intros H. revert n. induction H; intros [|n]; cbn; constructor; auto. Qed.
Lemma Forall_skipn (A : Type) (P : A -> Prop) n l : Forall P l -> Forall P (skipn n l).
Proof. intros H. revert n. induction H; intros [|n]; cbn; auto. Qed.

Lemma put32_bytes v img : Forall isbyte img -> Forall isbyte (put32 CHECKSUM_POS v img).
Proof.
  intros H. unfold put32, splice. apply Forall_app. split; [apply Forall_firstn; assumption|].
  apply Forall_app. split; [|apply Forall_skipn; assumption].
  assert (G : forall n v, Forall isbyte (le_bytes n v)).
  { induction n; intros; cbn; constructor; auto. unfold isbyte. lia. }
  apply G.
Qed.

Lemma damage_detected p w w' s : let f := p ++ w ++ s in let f' := p ++ w' ++ s in
  Forall isbyte f -> Forall isbyte f' -> (length w <= 4)%nat -> length w = length w' -> w <> w' ->
  slice CHECKSUM_POS 4 f = slice CHECKSUM_POS 4 f' -> accepted f -> ~ accepted f'.
Proof.
  intros f f' Bf Bf' Hw Hl Hne Hs (A1 & A2 & A3 & A4) (B1 & B2 & B3 & B4).
  assert (Lf : length f = length f') by (unfold f, f'; rewrite !app_length; lia).
  assert (Hc : update_crc32 (put32 CHECKSUM_POS 0 f) 0 = update_crc32 (put32 CHECKSUM_POS 0 f') 0).
  { rewrite A4, B4. unfold get32. rewrite Hs. reflexivity. }
  set (z := put32 CHECKSUM_POS 0 f) in *. set (z' := put32 CHECKSUM_POS 0 f') in *.
  assert (Lz : length z = length f) by (apply put32_length; plia).
  assert (Lz' : length z' = length f') by (apply put32_length; plia).
  assert (Bound : (length p + length w <= length f)%nat) by (unfold f; rewrite !app_length; lia).
  assert (Out : forall i, (i < length p \/ length p + length w <= i)%nat -> nth i z 0 = nth i z' 0).
  { intros i Hi. unfold z, z', put32. rewrite !nth_splice by (rewrite le_bytes_length; plia).
    pose proof (nth_app_mid p w s i Hi w' ltac:(lia)) as E. fold f in E. fold f' in E. rewrite E. reflexivity. }
  assert (Hz : z <> z').
  { intros E. apply Hne. apply put32_inj_out in E; [|lia|assumption|assumption].
    unfold f, f' in E. apply app_inv_head in E. apply app_inv_tail in E. exact E. }
  rewrite (split3 z (length p) (length w)) in Hc by lia.
  rewrite (split3 z' (length p) (length w)) in Hc by lia.
  replace (firstn (length p) z') with (firstn (length p) z) in Hc.
  2: { apply (slice_ext 0 (length p) z z'); try lia. intros i Hi. apply Out. lia. }
  replace (skipn (length p + length w) z') with (skipn (length p + length w) z) in Hc.
  2: { apply list_ext; rewrite !skipn_length; [lia|]. intros i Hi. rewrite !nth_skipn. apply Out. lia. }
  revert Hc. apply crc_window.
  - rewrite slice_length by lia. assumption.
  - rewrite !slice_length by lia. reflexivity.
  - unfold slice. apply Forall_firstn, Forall_skipn. apply put32_bytes. exact Bf.
  - unfold slice. apply Forall_firstn, Forall_skipn. apply put32_bytes. exact Bf'.
  - unfold is32. lia.
  - intros E. apply Hz. apply list_ext; [lia|]. intros i Hi.
    destruct (le_lt_dec (length p) i) as [Hlo|Hlo]; [|apply Out; lia].
    destruct (le_lt_dec (length p + length w) i) as [Hhi|Hhi]; [apply Out; lia|].
    apply (f_equal (fun l => nth (i - length p) l 0)) in E. rewrite !nth_slice in E by lia.
    replace (length p + (i - length p))%nat with i in E by lia. exact E.
Qed.
