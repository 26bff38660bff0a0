(** The files of the journal: starting, stopping and backing up (Db/dblog.c l.133-262, l.687-990), and the calls of these by
    dumps and imports (Db/dbdump.c). The operations run one at a time: they hold the write lock or have exclusive access. *)
From Coq Require Import ZArith List Bool.
Import ListNotations.
Open Scope Z_scope.

(** Db/dblog.h l.39-40: WG_JOURNAL_MAGIC. *)
Definition magic : list Z := [119; 103; 100; 98].
(** Db/dblog.h l.38. *)
Definition MAX_BACKUPS : nat := 10.

(** ** Files *)
(** Names of journal files by the key of the database (Db/dblog.c l.692) and of their backups (Db/dblog.c l.175). *)
Inductive name := Journal (k : Z) | Backup (k : Z) (i : nat).
(** Equality of names (Db/dblog.c l.175, l.692). *)
Definition name_eqb (a b : name) : bool :=
  match a, b with Journal k, Journal l => k =? l | Backup k i, Backup l j => (k =? l) && Nat.eqb i j | _, _ => false end.
(** A directory of names, and the contents of files; a file stays when its name is gone (files of Db/dblog.c l.163-262). *)
Record files := FS { dir : name -> option nat; data : nat -> list Z; next : nat }.
(** A name gets another file or none (rename and open, Db/dblog.c l.197, l.246). *)
Definition set_dir (d : name -> option nat) (n : name) (v : option nat) : name -> option nat := fun m => if name_eqb m n then v else d m.
(** The contents of a file changed (ftruncate and write, Db/dblog.c l.799-800, l.980). *)
Definition set_data (d : nat -> list Z) (i : nat) (c : list Z) : nat -> list Z := fun j => if Nat.eqb j i then c else d j.
(** Db/dblog.c l.138-152: check_journal. *)
Definition check_journal (c : list Z) : bool := if list_eq_dec Z.eq_dec (firstn 4 c) magic then true else false.

(** Fields of the header of the segment: key, and the logging area (Db/dballoc.h l.431-436). *)
Record hdr := H { h_key : Z; h_active : bool; h_dirty : bool; h_serial : Z }.
(** A file descriptor as kept in a handle: none, open on a file, or closed but still kept (Db/dblog.h l.54-58, Db/dblog.c l.985). *)
Inductive fdst := NoFd | Fd (i : nat) | Closed.
(** Db/dblog.h l.54-58: the log data of a handle. *)
Record ld := LD { ld_fd : fdst; ld_serial : Z }.

(** ** Backups *)
(** Db/dblog.c l.169-191: the number of the backup; [there] tells which exist, [mt] the times of change. *)
Fixpoint backup_loop (there : nat -> bool) (mt : nat -> Z) (n i : nat) (oldest : Z) (logidx : nat) : nat :=
  match n with
  | O => logidx
  | S n =>
      if negb (there i) then i
      else if (oldest =? 0) || (mt i <? oldest) then backup_loop there mt n (S i) (mt i) i
      else backup_loop there mt n (S i) oldest logidx
  end.
(** Db/dblog.c l.163-204: backup_journal of the file of the journal; [ok] tells whether rename succeeds. *)
Definition backup_journal (fs : files) (h : hdr) (mt : nat -> Z) (ok : bool) (i : nat) : files * hdr * bool :=
  if ok then
    let k := h_key h in
    let idx := backup_loop (fun j => match dir fs (Backup k j) with Some _ => true | None => false end) mt MAX_BACKUPS 0 0 0 in
    (FS (set_dir (set_dir (dir fs) (Journal k) None) (Backup k idx) (Some i)) (data fs) (next fs), H k (h_active h) (h_dirty h) (h_serial h + 1), true)
  else (fs, h, false).
(** Outcomes of the system calls of one operation: times of change, rename, open, bytes written, and the file that took the number
    of a descriptor closed before (Db/dblog.c l.178, l.197, l.246, l.980). *)
Record sys := Sys { y_mtime : nat -> Z; y_rename : bool; y_open : bool; y_written : nat; y_reuse : option nat }.
(** Db/dblog.c l.213-262: open_journal. *)
Definition open_journal (fs : files) (h : hdr) (y : sys) (create : bool) : files * hdr * option nat :=
  let '(fs, h, ok) :=
    if create && negb (h_dirty h) then
      match dir fs (Journal (h_key h)) with Some i => backup_journal fs h (y_mtime y) (y_rename y) i | None => (fs, h, true) end
    else (fs, h, true) in
  if negb ok then (fs, h, None)
  else if negb (y_open y) then (fs, h, None)
  else match dir fs (Journal (h_key h)) with
       | Some i => (fs, h, Some i)
       | None => if create then (FS (set_dir (dir fs) (Journal (h_key h)) (Some (next fs))) (set_data (data fs) (next fs) []) (S (next fs)), h, Some (next fs)) else (fs, h, None)
       end.

(** ** Operations *)
(** Db/dblog.c l.780-836: wg_start_logging. *)
Definition wg_start_logging (fs : files) (h : hdr) (y : sys) : files * hdr * Z :=
  if h_active h then (fs, h, -1)
  else
    let '(fs, h, fd) := open_journal fs h y true in
    match fd with
    | None => (fs, h, -2)
    | Some i =>
        if negb (h_dirty h) then
          let fs := FS (dir fs) (set_data (data fs) i (firstn (y_written y) magic)) (next fs) in
          if Nat.ltb (y_written y) 4 then (fs, h, -3) else (fs, H (h_key h) true (h_dirty h) (h_serial h), 0)
        else if check_journal (data fs i) then (fs, H (h_key h) true (h_dirty h) (h_serial h), 0)
        else (fs, h, -2)
    end.
(** Db/dblog.c l.843-857: wg_stop_logging. *)
Definition wg_stop_logging (h : hdr) : hdr * Z := if h_active h then (H (h_key h) false (h_dirty h) (h_serial h), 0) else (h, -1).
(** Db/dblog.c l.941-990: write_log_buffer. A write to a descriptor closed before goes to the file that has the number now. *)
Definition write_log_buffer (fs : files) (h : hdr) (l : ld) (y : sys) (buf : list Z) : files * hdr * ld * Z :=
  let l := match ld_fd l with NoFd => l | _ => if ld_serial l =? h_serial h then l else LD NoFd (ld_serial l) end in
  let l := match ld_fd l with
           | NoFd =>
               match snd (open_journal fs h y false) with
               | Some i => if check_journal (data fs i) then LD (Fd i) (h_serial h) else l
               | None => l
               end
           | _ => l
           end in
  let h' := H (h_key h) (h_active h) true (h_serial h) in
  match ld_fd l with
  | NoFd => (fs, h, l, -1)
  | Fd i =>
      let fs := FS (dir fs) (set_data (data fs) i (data fs i ++ firstn (y_written y) buf)) (next fs) in
      if Nat.ltb (y_written y) (length buf) then (fs, h', LD Closed (ld_serial l), -5) else (fs, h', l, 0)
  | Closed =>
      match y_reuse y with
      | Some j => (FS (dir fs) (set_data (data fs) j (data fs j ++ buf)) (next fs), h', l, 0)
      | None => (fs, h', l, -5)
      end
  end.
(** Db/dbdump.c l.85-178: wg_dump_internal; the dump holds the header as it is while the image is written, [ok] tells whether that
    succeeds. *)
Definition wg_dump (fs : files) (h : hdr) (y : sys) (ok : bool) : files * hdr * option hdr * Z :=
  let active := h_active h in
  let image := H (h_key h) false (h_dirty h) (h_serial h) in
  let err := if ok then 0 else -1 in
  let dump := if ok then Some image else None in
  if active then
    let '(fs, h, r) := wg_start_logging fs (H (h_key h) false false (h_serial h)) y in
    (fs, h, dump, if r =? 0 then err else -2)
  else (fs, h, dump, err).
(** Db/dbdump.c l.280-357: wg_import_dump of a dump that fits; all of the header comes from the dump. *)
Definition wg_import_dump (fs : files) (h : hdr) (y : sys) (dump : hdr) : files * hdr * Z :=
  let h' := H (h_key dump) false false (h_serial dump) in
  if h_active h then
    let '(fs, h, r) := wg_start_logging fs h' y in (fs, h, if r =? 0 then 0 else -2)
  else (fs, h', 0).
(** Db/dblog.c l.870-936: wg_replay_log of a file that can be opened and has the magic bytes ([read]), the table of
    translations can be made ([table]), the entries can be replayed ([good]). *)
Definition wg_replay_log (fs : files) (h : hdr) (y : sys) (read table good : bool) : files * hdr * Z :=
  if negb read then (fs, h, -1)
  else
    let off d := H (h_key h) false d (h_serial h) in
    if negb table then (fs, off (h_dirty h), -1)
    else if negb good then (fs, off (h_dirty h), -2)
    else if h_active h then
      let '(fs, h, r) := wg_start_logging fs (off false) y in (fs, h, if r =? 0 then 0 else -2)
    else (fs, off false, 0).

(** ** Histories *)
(** Files, header, handles, and the dumps made (Db/dblog.c, Db/dbdump.c). *)
Record st := St { s_fs : files; s_hdr : hdr; s_ld : nat -> ld; s_dumps : list hdr }.
(** Calls by a handle: starting, stopping, an entry of an operation on the data, opening and closing the handle (Db/dblog.c l.705-737), dump,
    import of the n-th dump, and replay. *)
Inductive op :=
| O_start (y : sys) | O_stop | O_log (n : nat) (y : sys) (buf : list Z) | O_open (n : nat) | O_close (n : nat)
| O_dump (y : sys) (ok : bool) | O_import (y : sys) (d : nat) | O_replay (y : sys) (read table good : bool).
(** One call and its result (Db/dblog.c l.705-990). Operations on the data log only while logging is active (Db/dbdata.c l.158); the result is
    1 when there is nothing to do. *)
Definition step (s : st) (o : op) : st * Z :=
  let with_ld n l := fun m => if Nat.eqb m n then l else s_ld s m in
  match o with
  | O_start y => let '(fs, h, r) := wg_start_logging (s_fs s) (s_hdr s) y in (St fs h (s_ld s) (s_dumps s), r)
  | O_stop => let '(h, r) := wg_stop_logging (s_hdr s) in (St (s_fs s) h (s_ld s) (s_dumps s), r)
  | O_log n y buf =>
      if h_active (s_hdr s) then
        let '(fs, h, l, r) := write_log_buffer (s_fs s) (s_hdr s) (s_ld s n) y buf in (St fs h (with_ld n l) (s_dumps s), r)
      else (s, 1)
  | O_open n => (St (s_fs s) (s_hdr s) (with_ld n (LD NoFd 0)) (s_dumps s), 0)
  | O_close n => (St (s_fs s) (s_hdr s) (with_ld n (LD NoFd 0)) (s_dumps s), 0)
  | O_dump y ok =>
      let '(fs, h, d, r) := wg_dump (s_fs s) (s_hdr s) y ok in
      (St fs h (s_ld s) (match d with Some d => s_dumps s ++ [d] | None => s_dumps s end), r)
  | O_import y d =>
      match nth_error (s_dumps s) d with
      | Some d => let '(fs, h, r) := wg_import_dump (s_fs s) (s_hdr s) y d in (St fs h (s_ld s) (s_dumps s), r)
      | None => (s, -1)
      end
  | O_replay y a b c => let '(fs, h, r) := wg_replay_log (s_fs s) (s_hdr s) y a b c in (St fs h (s_ld s) (s_dumps s), r)
  end.
(** Db/dballoc.c l.405-407, Db/dblog.c l.705-717: a new database with handles just opened. *)
Definition fresh (fs : files) (k : Z) : st := St fs (H k false false 1) (fun _ => LD NoFd 0) [].
