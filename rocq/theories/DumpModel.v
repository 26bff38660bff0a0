(** Memory image dumps (Db/dbdump.c) without journal (USE_DBLOG off). Images
    and files are lists of bytes; words are little endian. *)
From Coq Require Import ZArith List Bool.
From Verif Require Import Base CrcModel.
Import ListNotations.
Open Scope Z_scope.

(** Little endian reads and writes of [n] bytes (words of the image, Db/dballoc.h l.195-198). *)
Fixpoint le_value (bs : list Z) : Z :=
  match bs with
  | [] => 0
  | b :: r => b + 256 * le_value r
  end.
(** The bytes of a word of the image (Db/dballoc.h l.195-198). *)
Fixpoint le_bytes (n : nat) (v : Z) : list Z :=
  match n with
  | O => []
  | S k => v mod 256 :: le_bytes k (v / 256)
  end.
(** A part of the image (Db/dbdump.c l.95-270). *)
Definition slice (off len : nat) (img : list Z) : list Z := firstn len (skipn off img).
(** A part of the image replaced (Db/dbdump.c l.95-270). *)
Definition splice (off : nat) (bs img : list Z) : list Z :=
  firstn off img ++ bs ++ skipn (off + length bs) img.

(** Db/dballoc.h l.464-477: positions of the header fields. *)
Definition MARK_POS := 0%nat.
(** Db/dballoc.h l.464-477. *)
Definition VERSION_POS := 4%nat.
(** Db/dballoc.h l.464-477. *)
Definition FEATURES_POS := 8%nat.
(** Db/dballoc.h l.464-477. *)
Definition CHECKSUM_POS := 12%nat.
(** Db/dballoc.h l.464-477. *)
Definition SIZE_POS := 16%nat.
(** Db/dballoc.h l.464-477. *)
Definition FREE_POS := 24%nat.
(** Db/dballoc.h l.464-477. *)
Definition KEY_POS := 40%nat.
(** Db/dballoc.h l.464-477. *)
Definition get32 (pos : nat) (img : list Z) : Z := wrap32 (le_value (slice pos 4 img)).
(** Db/dballoc.h l.464-477. *)
Definition get64 (pos : nat) (img : list Z) : Z := wrap64 (le_value (slice pos 8 img)).
(** Db/dballoc.h l.464-477. *)
Definition put32 (pos : nat) (v : Z) (img : list Z) : list Z := splice pos (le_bytes 4 v) img.
(** Db/dballoc.h l.464-477. *)
Definition put64 (pos : nat) (v : Z) (img : list Z) : list Z := splice pos (le_bytes 8 v) img.

(** Db/dballoc.h l.145, l.147 with config-gcc.h (0.8.0), Db/dbfeatures.h
    l.30-90. The feature bits depend on the configuration; the proofs do not
    use the values. *)
Definition MEMSEGMENT_MAGIC_MARK := 1232319011.
(** Db/dballoc.h l.145, l.147, Db/dbfeatures.h l.30-90. *)
Definition MEMSEGMENT_VERSION := 2048.
(** Db/dballoc.h l.145, l.147, Db/dbfeatures.h l.30-90. *)
Definition MEMSEGMENT_FEATURES := 0x2d.

(** Db/dbmem.c l.472-499 [wg_check_header_compat]. *)
Definition wg_check_header_compat (img : list Z) : Z :=
  if negb (get32 MARK_POS img =? MEMSEGMENT_MAGIC_MARK) then
    if get32 MARK_POS (rev (firstn 4 img)) =? MEMSEGMENT_MAGIC_MARK then -2 else -1
  else if negb (get32 VERSION_POS img =? MEMSEGMENT_VERSION) then -3
  else if negb (get32 FEATURES_POS img =? MEMSEGMENT_FEATURES) then -4
  else 0.

(** Db/dbdump.c l.85-180 [wg_dump_internal], locking dump without journal:
    [dbsize] is read on entry (l.88) from the image [img0]; the lock is taken
    later, after which the image is [img1]; [locked] tells whether the lock was
    obtained. Result: error code and file contents. Writing is assumed to
    succeed. *)
Definition wg_dump (img0 img1 : list Z) (locked : bool) : Z * list Z :=
  let dbsize := Z.to_nat (get64 FREE_POS img0) in
  if negb locked then (-1, [])
  else
    let crc := update_crc32 (firstn dbsize img1) 0 in
    (0, put32 CHECKSUM_POS crc (firstn dbsize img1)).

(** Db/dbdump.c l.188. *)
Definition BUFSIZE := Z.to_nat 8192.

(** Db/dbdump.c l.246-249: the reading loop; [buf] holds the chunk just read,
    [rest] the remaining file. *)
Fixpoint check_loop (fuel : nat) (buf rest : list Z) (filesize crc : Z) : option (Z * Z) :=
  let filesize := filesize + Z.of_nat (length buf) in
  let crc := update_crc32 buf crc in
  match firstn BUFSIZE rest with
  | [] => Some (filesize, crc)
  | buf' => match fuel with
            | O => None
            | S f => check_loop f buf' (skipn BUFSIZE rest) filesize crc
            end
  end.

(** Db/dbdump.c l.200-265 [wg_check_dump]: error code, minsize, maxsize. *)
Definition wg_check_dump (file : list Z) : Z * Z * Z :=
  let buf := firstn BUFSIZE file in
  if Z.of_nat (length file) <? 8192 then (-1, 0, 0)
  else if negb (wg_check_header_compat buf =? 0) then (-2, 0, 0)
  else
    let minsize := get64 FREE_POS buf in
    let maxsize := get64 SIZE_POS buf in
    let dump_crc := get32 CHECKSUM_POS buf in
    let buf := put32 CHECKSUM_POS 0 buf in
    match check_loop (length file) buf (skipn BUFSIZE file) 0 0 with
    | None => (-1, minsize, maxsize)
    | Some (filesize, crc) =>
        if negb (filesize =? minsize) then (-3, minsize, maxsize)
        else if negb (crc =? dump_crc) then (-3, minsize, maxsize)
        else (0, minsize, maxsize)
    end.

(** Positions that depend on the full header layout: size of the header
    (sizeof(db_memsegment_header)), position of the external database count,
    positions of the two lock words (Db/dblock.c l.1238-1274, protocols 1 and
    2). *)
Record layout := Layout { hdr_size : nat; extdbs_pos : nat; lock_pos : nat; writers_pos : nat }.

(** Db/dbdump.c l.276-362 [wg_import_dump] with Db/dblock.c l.1238
    [wg_init_locks] for the spinlock protocols. *)
Definition wg_import_dump (ly : layout) (db file : list Z) : Z * list Z :=
  if Nat.ltb (length file) (hdr_size ly) then (-1, db)
  else if negb (get64 (extdbs_pos ly) file =? 0) then (-1, db)
  else
    let dbsize := get64 FREE_POS file in
    if get64 SIZE_POS db <? dbsize then (-1, db)
    else if 0 <? dbsize then
      let n := Z.to_nat dbsize in
      let newsize := get64 SIZE_POS db in
      if Nat.ltb (length file) n then (-2, splice 0 file db)
      else
        let db := splice 0 (firstn n file) db in
        let db := put64 SIZE_POS newsize db in
        let db := put32 CHECKSUM_POS 0 db in
        let db := put64 (lock_pos ly) 0 db in
        (0, put64 (writers_pos ly) 0 db)
    else (-1, db).
