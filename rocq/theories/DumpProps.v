(** Properties C34, C35, C36. *)
From Coq Require Import ZArith List Bool Lia.
From Verif Require Import Base CrcModel CrcProofs DumpModel DumpProofs.
Import ListNotations.
Open Scope Z_scope.

(** A small image: header with the given size, free and key, then data. *)
Definition mk_image (len : nat) (free key : Z) : list Z :=
  put32 0 MEMSEGMENT_MAGIC_MARK (put32 4 MEMSEGMENT_VERSION (put32 8 MEMSEGMENT_FEATURES (put32 12 0
  (put64 16 (Z.of_nat len) (put64 24 free (put64 40 key (put64 56 0
  (map (fun i => Z.of_nat i * 37 mod 256) (seq 0 len))))))))).
Definition ex_layout := Layout 64 56 64 72.
Definition ex_len := Z.to_nat 8300.
Definition ex_img := mk_image ex_len 8200 1000.
Definition ex_db := mk_image ex_len 8192 2000.

Lemma ex_img_ok : image_ok ex_img.
Proof. split; [vm_compute; reflexivity|vm_compute; reflexivity|vm_compute; split; discriminate|vm_compute; reflexivity]. Qed.
Lemma ex_db_ok : image_ok ex_db.
Proof. split; [vm_compute; reflexivity|vm_compute; reflexivity|vm_compute; split; discriminate|vm_compute; reflexivity]. Qed.

(** C34: a dump taken while the used size does not change is accepted by the
    check, which reports the right minimal and original sizes. *)
Theorem C34_dump_checks : forall img, image_ok img ->
  wg_check_dump (snd (wg_dump img img true)) = (0, get64 FREE_POS img, get64 SIZE_POS img).
Proof. intros img W. exact (dump_check img img W eq_refl). Qed.
Print Assumptions C34_dump_checks.

(** C34: importing it into any segment large enough succeeds and restores every
    byte of the used part, except the size field (the target keeps its own)
    and the lock words (reset to 0); the rest of the target is untouched. *)
Theorem C34_import_restores : forall img ly db, image_ok img ->
  let n := Z.to_nat (get64 FREE_POS img) in
  (48 <= hdr_size ly /\ hdr_size ly <= n)%nat ->
  (16 <= extdbs_pos ly /\ extdbs_pos ly + 8 <= hdr_size ly)%nat ->
  (hdr_size ly <= lock_pos ly /\ lock_pos ly + 8 <= n)%nat ->
  (hdr_size ly <= writers_pos ly /\ writers_pos ly + 8 <= n)%nat ->
  get64 (extdbs_pos ly) img = 0 ->
  get64 SIZE_POS db = Z.of_nat (length db) -> (n <= length db)%nat -> Z.of_nat (length db) < 2 ^ 63 ->
  exists db', wg_import_dump ly db (snd (wg_dump img img true)) = (0, db') /\
    length db' = length db /\
    get64 SIZE_POS db' = get64 SIZE_POS db /\
    slice CHECKSUM_POS 4 db' = [0; 0; 0; 0] /\
    (forall i, (i < n)%nat -> ~ in_word SIZE_POS i -> ~ in_word (lock_pos ly) i -> ~ in_word (writers_pos ly) i ->
       nth i db' 0 = nth i img 0) /\
    (forall i, (n <= i < length db)%nat -> nth i db' 0 = nth i db 0).
Proof. intros img ly db W n H1 H2 H3 H4 H5 H6 H7 H8. exact (import_ok img img W eq_refl ly H1 H2 H3 H4 H5 db H6 H7 H8). Qed.
Print Assumptions C34_import_restores.

Example C34_ex : image_ok ex_img /\ get64 (extdbs_pos ex_layout) ex_img = 0 /\
  get64 SIZE_POS ex_db = Z.of_nat (length ex_db) /\
  nth 500 (snd (wg_import_dump ex_layout ex_db (snd (wg_dump ex_img ex_img true)))) 0 = nth 500 ex_img 0 /\
  fst (wg_import_dump ex_layout ex_db (snd (wg_dump ex_img ex_img true))) = 0.
Proof. split; [exact ex_img_ok|]. vm_compute. auto. Qed.

(** C34: an import that reports -1 leaves the target unchanged. *)
Theorem C34_failed_import_keeps : forall ly db file r, wg_import_dump ly db file = (-1, r) -> r = db.
Proof. exact import_fail. Qed.
Print Assumptions C34_failed_import_keeps.
Example C34_failed_ex : fst (wg_import_dump ex_layout ex_db (firstn 60 (snd (wg_dump ex_img ex_img true)))) = -1.
Proof. vm_compute. reflexivity. Qed.

(** Finding: the shared memory key is part of the dumped header and is not put
    back after import, so the target segment afterwards carries the key of the
    segment that was dumped (the journal file name and the permission query use
    this key). *)
Theorem C34_own_key_kept_refuted : exists img ly db,
  image_ok img /\ image_ok db /\ get64 KEY_POS db = 2000 /\
  fst (wg_import_dump ly db (snd (wg_dump img img true))) = 0 /\
  get64 KEY_POS (snd (wg_import_dump ly db (snd (wg_dump img img true)))) = 1000.
Proof.
  exists ex_img, ex_layout, ex_db. split; [exact ex_img_ok|]. split; [exact ex_db_ok|]. vm_compute. auto.
Qed.
Print Assumptions C34_own_key_kept_refuted.

(** C35: a file accepted by the check is no longer accepted after any change
    inside a window of at most four bytes that leaves the stored checksum. *)
Theorem C35_damage_detected : forall p w w' s,
  Forall isbyte (p ++ w ++ s) -> Forall isbyte (p ++ w' ++ s) ->
  (length w <= 4)%nat -> length w = length w' -> w <> w' ->
  slice CHECKSUM_POS 4 (p ++ w ++ s) = slice CHECKSUM_POS 4 (p ++ w' ++ s) ->
  fst (fst (wg_check_dump (p ++ w ++ s))) = 0 -> fst (fst (wg_check_dump (p ++ w' ++ s))) <> 0.
Proof.
  intros p w w' s B B' Hw Hl Hne Hs Ha Ha'.
  apply check_dump_spec in Ha, Ha'. exact (damage_detected p w w' s B B' Hw Hl Hne Hs Ha Ha').
Qed.
Print Assumptions C35_damage_detected.

(** C35: changing only the stored checksum, or the length of the file, is
    detected too. *)
Theorem C35_checksum_damage : forall f f',
  length f = length f' -> (forall i, (i < 12 \/ 16 <= i)%nat -> nth i f 0 = nth i f' 0) ->
  get32 CHECKSUM_POS f <> get32 CHECKSUM_POS f' ->
  fst (fst (wg_check_dump f)) = 0 -> fst (fst (wg_check_dump f')) <> 0.
Proof.
  intros f f' Hl Hn Hc Ha Ha'. apply check_dump_spec in Ha, Ha'.
  destruct Ha as (A1 & _ & _ & A4), Ha' as (_ & _ & _ & B4). apply Hc. rewrite <- A4, <- B4. f_equal.
  apply list_ext; rewrite !put32_length by plia; [assumption|]. intros i Hi.
  unfold put32. rewrite !nth_splice by plia.
  destruct (Nat.ltb_spec i CHECKSUM_POS); [apply Hn; plia|].
  destruct (Nat.ltb_spec i (CHECKSUM_POS + length (le_bytes 4 0))); [reflexivity|apply Hn; plia].
Qed.
Print Assumptions C35_checksum_damage.
Theorem C35_length_damage : forall f f',
  (forall i, (i < 32)%nat -> nth i f 0 = nth i f' 0) -> (32 <= length f')%nat -> length f <> length f' ->
  fst (fst (wg_check_dump f)) = 0 -> fst (fst (wg_check_dump f')) <> 0.
Proof.
  intros f f' Hn Hl Hne Ha Ha'. apply check_dump_spec in Ha, Ha'.
  destruct Ha as (A1 & _ & A3 & _), Ha' as (B1 & _ & B3 & _).
  rewrite (get64_ext FREE_POS f f') in A3; [lia|plia|plia|]. intros i Hi. apply Hn. plia.
Qed.
Print Assumptions C35_length_damage.

(** The dump of the example image, one byte changed near its end. *)
Example C35_ex : exists p w w' s, (p ++ w ++ s) = snd (wg_dump ex_img ex_img true) /\ w <> w' /\
  fst (fst (wg_check_dump (p ++ w ++ s))) = 0 /\ fst (fst (wg_check_dump (p ++ w' ++ s))) = -3.
Proof.
  exists (firstn 100 (snd (wg_dump ex_img ex_img true))), (slice 100 1 (snd (wg_dump ex_img ex_img true))), [77],
    (skipn 101 (snd (wg_dump ex_img ex_img true))).
  split; [symmetry; apply (split3 _ 100 1); apply Nat.leb_le; vm_compute; reflexivity|].
  split; [vm_compute; discriminate|]. vm_compute. auto.
Qed.

(** C36, the part that holds: if the used size does not change between entering
    wg_dump and getting the lock, the dump is the complete image as of the time
    the lock is held, whatever else changed. *)
Theorem C36_concurrent_dump_partial : forall img0 img1,
  image_ok img1 -> get64 FREE_POS img0 = get64 FREE_POS img1 ->
  wg_check_dump (snd (wg_dump img0 img1 true)) = (0, get64 FREE_POS img1, get64 SIZE_POS img1) /\
  forall i, (i < Z.to_nat (get64 FREE_POS img1))%nat -> (i < 12 \/ 16 <= i)%nat ->
    nth i (snd (wg_dump img0 img1 true)) 0 = nth i img1 0.
Proof.
  intros img0 img1 W E. split; [exact (dump_check img0 img1 W E)|exact (file_nth img0 img1 W E)].
Qed.
Print Assumptions C36_concurrent_dump_partial.
Example C36_partial_ex : image_ok ex_img /\ get64 FREE_POS (put64 4000 12345 ex_img) = get64 FREE_POS ex_img.
Proof. split; [exact ex_img_ok|vm_compute; reflexivity]. Qed.

(** C36, the finding: whenever the database grew in between, wg_dump reports
    success and the file is rejected by the check. *)
Theorem C36_concurrent_dump_refuted : forall img0 img1,
  image_ok img0 -> image_ok img1 -> length img0 = length img1 ->
  get64 FREE_POS img0 < get64 FREE_POS img1 ->
  fst (wg_dump img0 img1 true) = 0 /\ fst (fst (wg_check_dump (snd (wg_dump img0 img1 true)))) <> 0.
Proof.
  intros img0 img1 W0 W1 Hl Hlt. split; [reflexivity|]. intros Ha. apply check_dump_spec in Ha.
  destruct Ha as (_ & _ & A3 & _). destruct W0 as [_ _ F0 _], W1 as [_ _ F1 _].
  set (n := Z.to_nat (get64 FREE_POS img0)) in *.
  assert (Hf : snd (wg_dump img0 img1 true) = put32 CHECKSUM_POS (update_crc32 (firstn n img1) 0) (firstn n img1)) by reflexivity.
  rewrite Hf in A3. rewrite put32_length in A3 by (rewrite firstn_length; plia).
  rewrite firstn_length, Nat.min_l in A3 by lia.
  rewrite (get64_ext FREE_POS _ img1) in A3.
  - lia.
  - rewrite put32_length; rewrite firstn_length; plia.
  - plia.
  - intros i Hi. rewrite nth_put32 by (rewrite ?firstn_length; plia). apply nth_firstn. plia.
Qed.
Print Assumptions C36_concurrent_dump_refuted.
Example C36_refuted_ex : image_ok ex_db /\ image_ok ex_img /\ length ex_db = length ex_img /\
  get64 FREE_POS ex_db < get64 FREE_POS ex_img /\
  fst (fst (wg_check_dump (snd (wg_dump ex_db ex_img true)))) = -3.
Proof. split; [exact ex_db_ok|]. split; [exact ex_img_ok|]. vm_compute. auto. Qed.

(** C36: a dump that could not take the lock reports failure and leaves no file
    that would be accepted. *)
Theorem C36_without_lock : forall img0 img1,
  fst (wg_dump img0 img1 false) <> 0 /\ fst (fst (wg_check_dump (snd (wg_dump img0 img1 false)))) <> 0.
Proof. intros img0 img1. split; [discriminate|]. cbn. discriminate. Qed.
Print Assumptions C36_without_lock.
Example C36_without_lock_ex : fst (wg_dump ex_img ex_img false) = -1 /\ fst (wg_dump ex_img ex_img true) = 0.
Proof. split; reflexivity. Qed.
