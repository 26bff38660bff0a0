(** The two spin locks of Db/dblock.c as interleavings of atomic steps.
    One step of a client is one access to shared memory (a plain read of the
    lock word or one atomic operation) followed by its local computation.
    Shared memory is sequentially consistent (see DESIGN.md, trusted base). *)
From Coq Require Import ZArith List Bool.
From Verif Require Import Base ConcLib.
Import ListNotations.
Open Scope Z_scope.

(** Db/dblock.c l.77: WAFLAG, writer active flag. *)
Definition WAFLAG : Z := 1.
(** Db/dblock.c l.78: RC_INCR, step of the reader count. *)
Definition RC_INCR : Z := 2.
(** Db/dblock.c l.125: SPIN_COUNT on non-Windows systems. *)
Definition SPIN_COUNT : Z := 500.
(** Db/dblock.c l.126: SLEEP_NSEC. *)
Definition SLEEP_NSEC : Z := 500000.
(** INT_MAX of limits.h (used in Db/dblock.c l.133-134). *)
Definition INT_MAX : Z := 2147483647.

(** Db/dblock.c l.132-136: INIT_SPIN_TIMEOUT. INT_MAX/1000000 = 2147. *)
Definition init_spin_timeout (t : Z) : Z :=
  if INT_MAX / 1000000 <? t then INT_MAX else wrap64 (t * 1000000).

(** What a client asks for: calls of the lock API (Db/dblock.c l.473-499,
    dblock.h l.104-160); [Run c] lets client [c] take its next step. *)
Inductive ev :=
| StartWrite (c : nat) (timeout : Z)   (* db_*_wlock(db, timeout) *)
| StartRead (c : nat) (timeout : Z)    (* db_*_rlock(db, timeout) *)
| Finish (c : nat)                     (* db_*_wulock / db_*_rulock *)
| Run (c : nat).

(** ** Length of the wait *)

(** Nanoseconds slept by the spin loops before giving up when the lock never
    becomes free: Db/dblock.c l.559-585 (also l.656-681, l.754-781). *)
Fixpoint total_sleep (fuel : nat) (t ts : Z) : option Z :=
  match fuel with
  | O => None
  | S k => let t' := wrap64 (t - ts) in
           if t' <? 0 then Some 0
           else option_map (Z.add ts) (total_sleep k t' (ts + SLEEP_NSEC))
  end.

(** Db/dblock.c l.145-147: INIT_QLOCK_TIMEOUT, as the number of nanoseconds
    that the futex call then waits (C division truncates). *)
Definition qlock_wait_ns (t : Z) : Z := Z.quot t 1000 * 1000000000 + Z.rem t 1000.
