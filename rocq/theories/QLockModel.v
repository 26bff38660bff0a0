(** The task-fair queue lock of Db/dblock.c (LOCK_PROTO 3, l.922-1230 and
    l.1376-1425) as interleavings of steps. One step is one access to the queue
    mutex, one whole section protected by that mutex, one plain read of the
    client's own [waiting] word, or one futex call. That the protected
    sections never run at the same time is proved (QLockProofs.v). *)
From Coq Require Import ZArith List Bool.
From Verif Require Import Base ConcLib.
Import ListNotations.
Open Scope Z_scope.

(** Db/dblock.c l.81-82: LOCKQ_READ, LOCKQ_WRITE. *)
Definition LOCKQ_READ : Z := 2.
(** Db/dblock.c l.81-82. *)
Definition LOCKQ_WRITE : Z := 4.

(** Db/dblock.h l.56-65: lock_queue_node. *)
Record node := Node { ncell : Z; class : Z; waiting : Z; next : Z; prev : Z }.

(** Queue part of the segment header (Db/dballoc.h l.331-343, syn_var_area:
    tail, freelist) and the cells by offset. [tk] and [now] are ghost: the
    order in which cells were put into the queue. *)
Record qst := Qst { tail : Z; freelist : Z; nodes : Z -> node; tk : Z -> Z; now : Z }.

(** Writes to single members of a cell (lock_queue_node, Db/dblock.h l.56-65). *)
Definition setnode (nd : Z -> node) (a : Z) (n : node) : Z -> node :=
  fun x => if x =? a then n else nd x.
(** Db/dblock.h l.56-65. *)
Definition set_ncell (nd : Z -> node) a v :=
  setnode nd a (Node v (class (nd a)) (waiting (nd a)) (next (nd a)) (prev (nd a))).
(** Db/dblock.h l.56-65. *)
Definition set_waiting (nd : Z -> node) a v :=
  setnode nd a (Node (ncell (nd a)) (class (nd a)) v (next (nd a)) (prev (nd a))).
(** Db/dblock.h l.56-65. *)
Definition set_next (nd : Z -> node) a v :=
  setnode nd a (Node (ncell (nd a)) (class (nd a)) (waiting (nd a)) v (prev (nd a))).
(** Db/dblock.h l.56-65. *)
Definition set_prev (nd : Z -> node) a v :=
  setnode nd a (Node (ncell (nd a)) (class (nd a)) (waiting (nd a)) (next (nd a)) v).

(** What happens after a section protected by the mutex (Db/dblock.c l.984-1230). *)
Inductive after :=
| ARet (r : Z)                        (* return r *)
| AChk (w : bool) (l : Z)             (* l.1027 / l.1143: if(lockp->waiting) *)
| AWake (a : Z)                       (* l.1079-1088, l.1219-1228: wake a (0: nobody), return 1 *)
| AWakeHold (a : Z) (l : Z).          (* l.1171-1181: wake a (0: nobody), return lock *)

(** Section to be entered once the mutex is obtained (Db/dblock.c l.984-1230). *)
Inductive kont :=
| KLock (w : bool)                    (* l.1006-1025, l.1118-1141 *)
| KWUnlock (l : Z)                    (* l.1068-1078 *)
| KRUnlock (l : Z)                    (* l.1202-1218 *)
| KTmo (l : Z)                        (* l.1032-1035, l.1149-1152 *)
| KCasc (l : Z).                      (* l.1162-1170 *)

(** Control points of a client (Db/dblock.c l.939-1230). *)
Inductive pc :=
| Idle (r : Z)
| QTry (k : kont)                     (* l.939, l.953 compare_and_swap *)
| QSpin (k : kont)                    (* l.953 read of the mutex *)
| QBody (k : kont)                    (* inside the section *)
| QUnl (a : after)                    (* l.975 unlock_queue *)
| Chk (w : bool) (l : Z)              (* l.1027, l.1143 read of lockp->waiting *)
| FWait (w : bool) (l : Z)            (* l.1031, l.1148 futex call *)
| Blocked (w : bool) (l : Z)          (* asleep in the futex call *)
| Wake (a : Z) (k : option Z)         (* futex_wake(a, 1); then hold k or return 1 *)
| Hold (w : bool) (l : Z).            (* lock call returned l *)

(** Db/dblock.c l.1379-1390: alloc_lock. *)
Definition alloc_lock (q : qst) : Z * qst :=
  let t := freelist q in
  if t =? 0 then (0, q)
  else (t, Qst (tail q) (ncell (nodes q t)) (nodes q) (tk q) (now q)).

(** Db/dblock.c l.1392-1397: free_lock. *)
Definition free_lock (q : qst) (a : Z) : qst :=
  Qst (tail q) a (set_ncell (nodes q) a (freelist q)) (tk q) (now q).

(** Db/dblock.c l.1007-1023 (writer), l.1119-1140 (reader): ALLOC_LOCK and
    joining the queue. *)
Definition body_lock (w : bool) (q0 : qst) : qst * after :=
  let '(lock, q) := alloc_lock q0 in
  if lock =? 0 then (q0, ARet 0)                       (* l.149-155 ALLOC_LOCK *)
  else
    let pv := tail q in
    let cls := if w then LOCKQ_WRITE else LOCKQ_READ in
    let nd := nodes q in
    let nd1 := setnode nd lock (Node (ncell (nd lock)) cls (waiting (nd lock)) 0 pv) in
    let nd2 := if pv =? 0 then nd1 else set_next nd1 pv lock in
    let wt := if pv =? 0 then 0
              else if w then 1
              else if (class (nd2 pv) =? LOCKQ_READ) && (waiting (nd2 pv) =? 0) then 0 else 1 in
    (Qst lock (freelist q) (set_waiting nd2 lock wt)
         (fun x => if x =? lock then now q else tk q x) (now q + 1), AChk w lock).

(** Db/dblock.c l.1069-1077: release by a writer. *)
Definition body_wunlock (l : Z) (q : qst) : qst * after :=
  let nx := next (nodes q l) in
  let '(q1, a) :=
    if negb (nx =? 0)
    then (Qst (tail q) (freelist q) (set_prev (set_waiting (nodes q) nx 0) nx 0) (tk q) (now q), nx)
    else if tail q =? l then (Qst 0 (freelist q) (nodes q) (tk q) (now q), 0)
    else (q, 0) in
  (free_lock q1 l, AWake a).

(** Db/dblock.c l.1203-1217: release by a reader. *)
Definition body_runlock (l : Z) (q : qst) : qst * after :=
  let nd := nodes q in
  let pv := prev (nd l) in
  let nd1 := if negb (pv =? 0) then set_next nd pv (next (nd l)) else nd in
  let nx := next (nd1 l) in
  let '(q1, a) :=
    if negb (nx =? 0) then
      let nd2 := set_prev nd1 nx (prev (nd1 l)) in
      if negb (waiting (nd2 nx) =? 0) &&
         ((prev (nd2 l) =? 0) || (class (nd2 nx) =? LOCKQ_READ))
      then (Qst (tail q) (freelist q) (set_waiting nd2 nx 0) (tk q) (now q), nx)
      else (Qst (tail q) (freelist q) nd2 (tk q) (now q), 0)
    else if tail q =? l then (Qst (prev (nd1 l)) (freelist q) nd1 (tk q) (now q), 0)
    else (Qst (tail q) (freelist q) nd1 (tk q) (now q), 0) in
  (free_lock q1 l, AWake a).

(** Db/dblock.c l.157-167 DEQUEUE_LOCK and l.1032-1036, l.1149-1153: time-out. *)
Definition body_tmo (l : Z) (q : qst) : qst * after :=
  let nd := nodes q in
  let pv := prev (nd l) in
  let nd1 := if negb (pv =? 0) then set_next nd pv (next (nd l)) else nd in
  let nx := next (nd1 l) in
  let q1 :=
    if negb (nx =? 0) then
      Qst (tail q) (freelist q) (set_prev nd1 nx (prev (nd1 l))) (tk q) (now q)
    else if tail q =? l then Qst (prev (nd1 l)) (freelist q) nd1 (tk q) (now q)
    else Qst (tail q) (freelist q) nd1 (tk q) (now q) in
  (free_lock q1 l, ARet 0).

(** Db/dblock.c l.1163-1169: a reader that has been woken lets the next
    reader in. *)
Definition body_casc (l : Z) (q : qst) : qst * after :=
  let nx := next (nodes q l) in
  if negb (nx =? 0) && (class (nodes q nx) =? LOCKQ_READ) && negb (waiting (nodes q nx) =? 0)
  then (Qst (tail q) (freelist q) (set_waiting (nodes q) nx 0) (tk q) (now q), AWakeHold nx l)
  else (q, AWakeHold 0 l).

(** The protected sections (Db/dblock.c l.1006-1218). *)
Definition body (k : kont) (q : qst) : qst * after :=
  match k with
  | KLock w => body_lock w q
  | KWUnlock l => body_wunlock l q
  | KRUnlock l => body_runlock l q
  | KTmo l => body_tmo l q
  | KCasc l => body_casc l q
  end.

(** Control after unlock_queue (Db/dblock.c l.1027, l.1079-1088, l.1143,
    l.1171-1181, l.1219-1228). *)
Definition cont (a : after) : pc :=
  match a with
  | ARet r => Idle r
  | AChk w l => Chk w l
  | AWake x => if x =? 0 then Idle 1 else Wake x None
  | AWakeHold x l => if x =? 0 then Hold false l else Wake x (Some l)
  end.

(** Return from the futex call other than by time-out: the writer holds the
    lock (l.1047), the reader goes on to l.1162. *)
Definition woken (w : bool) (l : Z) : pc := if w then Hold true l else QTry (KCasc l).

(** Futex wake-up of at most one client asleep on the cell [a]
    (Db/dblock.c l.1420-1423; the futex word is [waiting] of the cell). *)
Fixpoint wake (a : Z) (l : list pc) : list pc :=
  match l with
  | [] => []
  | Blocked w x :: r => if x =? a then woken w x :: r else Blocked w x :: wake a r
  | p :: r => p :: wake a r
  end.

(** Whole state: the mutex word, the queue, the clients (Db/dballoc.h l.331-343). *)
Record st := mk { ql : Z; qs : qst; cl : list pc }.

(** Events: calls, steps, and two ways the futex call returns by itself:
    ETIMEDOUT, or any other errno (EINTR) / spurious return 0 (Db/dblock.c l.984-1230, l.1400-1425). *)
Inductive ev :=
| StartWrite (c : nat)                (* db_tfqueue_wlock *)
| StartRead (c : nat)                 (* db_tfqueue_rlock *)
| Finish (c : nat)                    (* db_tfqueue_wulock / rulock *)
| Run (c : nat)
| Timeout (c : nat)
| Intr (c : nat).

(** Calls and futex returns of one client (Db/dblock.c l.984, l.1053, l.1096,
    l.1187, l.1031-1037, l.1148-1154). *)
Definition ccall (p : pc) (e : ev) : pc :=
  match e, p with
  | StartWrite _, Idle _ => QTry (KLock true)
  | StartRead _, Idle _ => QTry (KLock false)
  | Finish _, Hold true l => QTry (KWUnlock l)
  | Finish _, Hold false l => QTry (KRUnlock l)
  | Timeout _, Blocked w l => QTry (KTmo l)
  | Intr _, Blocked w l => woken w l
  | _, _ => p
  end.

(** One step of client [c] at control point [p]: lock_queue l.922-966,
    unlock_queue l.970-976, futex_trywait l.1411-1418 (the kernel compares
    the word with 1 and returns EAGAIN if it differs). *)
Definition run1 (s : st) (c : nat) (p : pc) : st :=
  match p with
  | Idle _ | Blocked _ _ | Hold _ _ => s
  | QTry k => if ql s =? 0 then mk 1 (qs s) (lset c (QBody k) (cl s))
              else mk (ql s) (qs s) (lset c (QSpin k) (cl s))
  | QSpin k => if ql s =? 0 then mk (ql s) (qs s) (lset c (QTry k) (cl s)) else s
  | QBody k => let '(q, a) := body k (qs s) in mk (ql s) q (lset c (QUnl a) (cl s))
  | QUnl a => mk 0 (qs s) (lset c (cont a) (cl s))
  | Chk w l => if waiting (nodes (qs s) l) =? 0 then mk (ql s) (qs s) (lset c (Hold w l) (cl s))
               else mk (ql s) (qs s) (lset c (FWait w l) (cl s))
  | FWait w l => if waiting (nodes (qs s) l) =? 1 then mk (ql s) (qs s) (lset c (Blocked w l) (cl s))
                 else mk (ql s) (qs s) (lset c (woken w l) (cl s))
  | Wake a k => mk (ql s) (qs s)
                  (lset c (match k with Some l => Hold false l | None => Idle 1 end)
                     (wake a (cl s)))
  end.

(** One event of the whole system (Db/dblock.c l.922-1230). *)
Definition step (s : st) (e : ev) : st :=
  match e with
  | Run c => match nth_error (cl s) c with Some p => run1 s c p | None => s end
  | StartWrite c | StartRead c | Finish c | Timeout c | Intr c =>
      match nth_error (cl s) c with
      | Some p => mk (ql s) (qs s) (lset c (ccall p e) (cl s))
      | None => s
      end
  end.

(** Execution of a list of events (Db/dblock.c l.922-1230). *)
Definition exec (es : list ev) (s : st) : st := fold_left step es s.

(** Db/dblock.c l.1253-1270 wg_init_locks: [m] cells of SYN_VAR_PADDING (128)
    bytes from [base] on, chained; the last chain member is 0. *)
Definition init_nodes (base : Z) (m : nat) : Z -> node :=
  fun x => Node (if x =? base + 128 * (Z.of_nat m - 1) then 0 else x + 128) 0 0 0 0.
(** Db/dblock.c l.1253-1270. *)
Definition init (base : Z) (m n : nat) : st :=
  mk 0 (Qst 0 base (init_nodes base m) (fun _ => 0) 0) (repeat (Idle 1) n).
