From Coq Require Import ZArith List Bool.
From Verif Require Import Base ConcLib SpinLockModel.
Import ListNotations.
Open Scope Z_scope.

(** ** Reader-preference spin lock (Db/dblock.c l.517-706) *)
(** Control points. [t] is the variable [timeout], [ts] is [ts.tv_nsec] and
    [i] the spin counter. [Idle r]: last call returned [r] (Db/dblock.c l.523-705). *)
Inductive pc :=
| Idle (r : Z)
| WTry (t : Z)            (* l.545 first compare_and_swap *)
| WSpin (t ts i : Z)      (* l.563 read of *gl in the spin loop *)
| WCas (t ts i : Z)       (* l.563 compare_and_swap in the spin loop *)
| WHold                   (* wlock returned 1 *)
| WRel                    (* l.606 atomic_and *)
| RInc (t : Z)            (* l.640 fetch_and_add *)
| RChk (t : Z)            (* l.643 first read *)
| RSpin (t ts i : Z)      (* l.660 read in the spin loop *)
| RGive                   (* l.668 fetch_and_add after time-out *)
| RHold                   (* rlock returned 1 *)
| RRel.                   (* l.702 fetch_and_add *)

(** End of one turn of the writer's loops: l.559-585. *)
Definition w_next (t ts i : Z) : pc :=
  if i + 1 <? SPIN_COUNT then WSpin t ts (i + 1)
  else let t' := wrap64 (t - ts) in
       if t' <? 0 then Idle 0 else WSpin t' (ts + SLEEP_NSEC) 0.

(** End of one turn of the reader's loops: l.656-681. *)
Definition r_next (t ts i : Z) : pc :=
  if i + 1 <? SPIN_COUNT then RSpin t ts (i + 1)
  else let t' := wrap64 (t - ts) in
       if t' <? 0 then RGive else RSpin t' (ts + SLEEP_NSEC) 0.

(** One step of a client at control point [p] with lock word [g]:
    l.523-587 (wlock), l.592-609 (wulock), l.618-683 (rlock), l.688-705
    (rulock). *)
Definition cstep (g : Z) (p : pc) : Z * pc :=
  match p with
  | Idle _ | WHold | RHold => (g, p)
  | WTry t => if g =? 0 then (WAFLAG, WHold)
              else (g, WSpin (init_spin_timeout t) SLEEP_NSEC 0)
  | WSpin t ts i => if g =? 0 then (g, WCas t ts i) else (g, w_next t ts i)
  | WCas t ts i => if g =? 0 then (WAFLAG, WHold) else (g, w_next t ts i)
  | WRel => (Z.land g (Z.lnot WAFLAG), Idle 1)
  | RInc t => (wrap64 (g + RC_INCR), RChk t)
  | RChk t => if Z.land g WAFLAG =? 0 then (g, RHold)
              else (g, RSpin (init_spin_timeout t) SLEEP_NSEC 0)
  | RSpin t ts i => if Z.land g WAFLAG =? 0 then (g, RHold) else (g, r_next t ts i)
  | RGive => (wrap64 (g - RC_INCR), Idle 0)
  | RRel => (wrap64 (g - RC_INCR), Idle 1)
  end.

(** The lock word (dbh->locks.global_lock) and the clients (Db/dballoc.h l.333). *)
Record st := mk { gl : Z; cl : list pc }.

(** Start of a call by a client (dispatch of the wg_start/wg_end functions,
    Db/dblock.c l.473-499). A client only unlocks what it holds. *)
Definition ccall (p : pc) (e : ev) : pc :=
  match e, p with
  | StartWrite _ t, Idle _ => WTry t
  | StartRead _ t, Idle _ => RInc t
  | Finish _, WHold => WRel
  | Finish _, RHold => RRel
  | _, _ => p
  end.

(** One event of the whole system (interleaving of the functions above,
    Db/dblock.c l.517-706). *)
Definition step (s : st) (e : ev) : st :=
  match e with
  | StartWrite c _ | StartRead c _ | Finish c =>
      match nth_error (cl s) c with
      | Some p => mk (gl s) (lset c (ccall p e) (cl s))
      | None => s
      end
  | Run c =>
      match nth_error (cl s) c with
      | Some p => let '(g, p') := cstep (gl s) p in mk g (lset c p' (cl s))
      | None => s
      end
  end.

(** Db/dblock.c l.1238-1274 wg_init_locks: the word starts at 0; [n] clients. *)
Definition init (n : nat) : st := mk 0 (repeat (Idle 1) n).

(** Execution of a list of events (Db/dblock.c l.517-706). *)
Definition exec (es : list ev) (s : st) : st := fold_left step es s.
