(** Permission bits of new segments and journal files. *)
From Coq Require Import ZArith.
Open Scope Z_scope.

(** Db/dbmem.c l.177-187 [normalize_perms]. Octal constants: 0666 = 438,
    0600 = 384, 0060 = 48, 0606 = 390, 0006 = 6, 0660 = 432, 0777 = 511. *)
Definition normalize_perms (mode : Z) : Z :=
  let mode := Z.land mode 438 in
  let mode := Z.lor mode 384 in
  let mode := if negb (Z.land mode 48 =? 48) then Z.land mode 390 else mode in
  let mode := if negb (Z.land mode 6 =? 6) then Z.land mode 432 else mode in
  mode.

(** Db/dbmem.c l.296-297 and l.766: the permission part of the shmget flags
    when a segment is created with the mode given by the caller. *)
Definition segment_mode (mode : Z) : Z := normalize_perms mode.

(** Db/dbmem.c l.314, Db/dblog.c l.748-759 [wg_log_umask(~mode)] and l.228-250
    [open_journal]: the journal is created with 0666 under that umask. *)
Definition journal_mode (mode : Z) : Z :=
  Z.land 438 (Z.lnot (Z.land (Z.lnot (normalize_perms mode)) 511)).
