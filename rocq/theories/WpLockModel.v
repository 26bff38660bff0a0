From Coq Require Import ZArith List Bool.
From Verif Require Import Base ConcLib SpinLockModel.
Import ListNotations.
Open Scope Z_scope.

(** ** Writer-preference spin lock (Db/dblock.c l.708-920) *)
(** Control points, as above (Db/dblock.c l.714-920). *)
Inductive pc :=
| Idle (r : Z)
| WInc (t : Z)            (* l.737 atomic_increment(w, 1) *)
| WTry (t : Z)            (* l.740 first compare_and_swap *)
| WSpin (t ts i : Z)      (* l.758 read of *gl *)
| WCas (t ts i : Z)       (* l.758 compare_and_swap *)
| WGive                   (* l.767 atomic_increment(w, -1) after time-out *)
| WHold                   (* wlock returned 1 *)
| WRel                    (* l.803 atomic_and *)
| WRelW                   (* l.806 atomic_increment(w, -1) *)
| RChkW (t : Z)           (* l.840 first read of *w *)
| RRead1 (t : Z)          (* l.841 read of *gl *)
| RCas1 (t r : Z)         (* l.842 compare_and_swap; [r] is [readers] *)
| RLoop (t ts : Z)        (* l.859 while condition, read of *w *)
| RSpin (t ts i : Z)      (* l.862 read of *w in the spin loop *)
| RRead (t : Z)           (* l.882 read of *gl *)
| RCas (t r : Z)          (* l.892 compare_and_swap *)
| RWhile (t : Z)          (* l.894 do-while condition, read of *w *)
| RHold                   (* rlock returned 1 *)
| RRel.                   (* l.917 atomic_increment(gl, -RC_INCR) *)

(** End of one turn of the writer's loops: l.754-781. *)
Definition w_next (t ts i : Z) : pc :=
  if i + 1 <? SPIN_COUNT then WSpin t ts (i + 1)
  else let t' := wrap64 (t - ts) in
       if t' <? 0 then WGive else WSpin t' (ts + SLEEP_NSEC) 0.

(** End of one turn of the reader's waiting loops: l.859-879. *)
Definition r_next (t ts i : Z) : pc :=
  if i + 1 <? SPIN_COUNT then RSpin t ts (i + 1)
  else let t' := wrap64 (t - ts) in
       if t' <? 0 then Idle 0 else RLoop t' (ts + SLEEP_NSEC).

(** One step of a client: lock word [g], writer count [w].
    l.714-783 (wlock), l.788-809 (wulock), l.817-898 (rlock), l.903-920
    (rulock). *)
Definition cstep (g w : Z) (p : pc) : Z * Z * pc :=
  match p with
  | Idle _ | WHold | RHold => (g, w, p)
  | WInc t => (g, wrap64 (w + 1), WTry t)
  | WTry t => if g =? 0 then (WAFLAG, w, WHold)
              else (g, w, WSpin (init_spin_timeout t) SLEEP_NSEC 0)
  | WSpin t ts i => if g =? 0 then (g, w, WCas t ts i) else (g, w, w_next t ts i)
  | WCas t ts i => if g =? 0 then (WAFLAG, w, WHold) else (g, w, w_next t ts i)
  | WGive => (g, wrap64 (w - 1), Idle 0)
  | WRel => (Z.land g (Z.lnot WAFLAG), w, WRelW)
  | WRelW => (g, wrap64 (w - 1), Idle 1)
  | RChkW t => if w =? 0 then (g, w, RRead1 t)
               else (g, w, RLoop (init_spin_timeout t) SLEEP_NSEC)
  | RRead1 t => (g, w, RCas1 t (Z.land g (Z.lnot WAFLAG)))
  | RCas1 t r => if g =? r then (wrap64 (r + RC_INCR), w, RHold)
                 else (g, w, RLoop (init_spin_timeout t) SLEEP_NSEC)
  | RLoop t ts => if w =? 0 then (g, w, RRead t) else (g, w, RSpin t ts 0)
  | RSpin t ts i => if w =? 0 then (g, w, RRead t) else (g, w, r_next t ts i)
  | RRead t => (g, w, RCas t (Z.land g (Z.lnot WAFLAG)))
  | RCas t r => if g =? r then (wrap64 (r + RC_INCR), w, RHold)
                else (g, w, RWhile t)
  | RWhile t => if w =? 0 then (g, w, RRead t) else (g, w, RLoop t SLEEP_NSEC)
  | RRel => (wrap64 (g - RC_INCR), w, Idle 1)
  end.

(** The lock word, the writer count (dbh->locks.global_lock, .writers) and
    the clients (Db/dballoc.h l.333-334). *)
Record st := mk { gl : Z; wr : Z; cl : list pc }.

(** Start of a call by a client (Db/dblock.c l.473-499). *)
Definition ccall (p : pc) (e : ev) : pc :=
  match e, p with
  | StartWrite _ t, Idle _ => WInc t
  | StartRead _ t, Idle _ => RChkW t
  | Finish _, WHold => WRel
  | Finish _, RHold => RRel
  | _, _ => p
  end.

(** One event of the whole system (Db/dblock.c l.708-920). *)
Definition step (s : st) (e : ev) : st :=
  match e with
  | StartWrite c _ | StartRead c _ | Finish c =>
      match nth_error (cl s) c with
      | Some p => mk (gl s) (wr s) (lset c (ccall p e) (cl s))
      | None => s
      end
  | Run c =>
      match nth_error (cl s) c with
      | Some p => let '(g, w, p') := cstep (gl s) (wr s) p in mk g w (lset c p' (cl s))
      | None => s
      end
  end.

(** Db/dblock.c l.1238-1274 wg_init_locks. *)
Definition init (n : nat) : st := mk 0 0 (repeat (Idle 1) n).

(** Execution of a list of events (Db/dblock.c l.708-920). *)
Definition exec (es : list ev) (s : st) : st := fold_left step es s.
