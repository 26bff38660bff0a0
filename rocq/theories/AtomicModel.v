(** Lock-free field updates of Db/dbdata.c as interleavings of atomic steps.
    One step of a client is one access to the shared field: the plain read at
    the head of the loop or the compare-and-swap. *)
From Coq Require Import ZArith List Bool.
From Verif Require Import Base ConcLib EncodingModel.
Import ListNotations.
Open Scope Z_scope.

(** Db/dbdata.h l.311 with an [int] argument: the shifts are 32-bit shifts. *)
Definition fits_smallint32 (i : Z) : bool := Z.shiftr (shl32 i 3) 3 =? i.
(** Db/dbdata.h l.312 with an [int] argument, widened to gint. *)
Definition encode_smallint32 (i : Z) : Z := Z.lor (shl32 i 3) 3.

(** Db/dbdata.h l.435: isimmediatedata. *)
Definition isimmediatedata (i : Z) : bool := (i =? 0) || (negb (isptr i) && negb (isfullint i)).

(** A call: wg_add_int_atomic_field(db,rec,nr,d) (Db/dbdata.c l.1107) or
    wg_set_atomic_field(db,rec,nr,d) (l.1055). *)
Inductive op := Add (d : Z) | Set_ (d : Z).

(** Control points. [i] is the loop counter (Db/dbdata.c l.1055-1146). *)
Inductive pc :=
| Idle
| Read (o : op) (i : Z)                    (* l.1072, l.1125: old=*fieldadr *)
| Cas (o : op) (old nxt i : Z).            (* l.1039 wg_compare_and_swap *)

(** A client: control point and the calls that have returned, with results
    (latest first) (Db/dbdata.c l.1055-1146). *)
Record client := Client { at_ : pc; hist : list (op * Z) }.

(** Database facts that the calls test: an index on the field, active journal
    (Db/dbdata.c l.1018-1035). They do not change while the calls run. *)
Record env := Env { indexed : bool; logging : bool }.

(** Checks of wg_update_atomic_field before the compare-and-swap
    (Db/dbdata.c l.1015-1035); 0 if they pass. *)
Definition update_checks (e : env) (data old : Z) : Z :=
  if negb (isimmediatedata data) then -10
  else if negb (isimmediatedata old) then -11
  else if indexed e then -13
  else if logging e then -14
  else 0.

(** From the read of the field to the compare-and-swap: l.1072-1073 (set),
    l.1125-1130 (add). [inr r]: return r. *)
Definition after_read (e : env) (o : op) (old : Z) : Z + Z :=
  match o with
  | Set_ d => let r := update_checks e d old in if r =? 0 then inl d else inr r
  | Add d =>
      if negb (issmallint old) then inr (-11)
      else
        let sum := wrap32 (decode_smallint old + d) in
        if negb (fits_smallint32 sum) then inr (-16)
        else let nxt := encode_smallint32 sum in
             let r := update_checks e nxt old in
             if r =? 0 then inl nxt else inr r
  end.

(** Return of a call (Db/dbdata.c l.1055-1089, l.1107-1146). *)
Definition ret (k : client) (o : op) (r : Z) : client := Client Idle ((o, r) :: hist k).

(** One step of a client with field content [f]; new content and client
    (Db/dbdata.c l.1069-1088, l.1122-1145). Sleeping is left out. *)
Definition cstep (e : env) (f : Z) (k : client) : Z * client :=
  match at_ k with
  | Idle => (f, k)
  | Read o i =>
      match after_read e o f with
      | inl nxt => (f, Client (Cas o f nxt i) (hist k))
      | inr r => (f, ret k o r)
      end
  | Cas o old nxt i =>
      if f =? old then (nxt, ret k o 0)
      else if 1000 <? i then (f, ret k o (-17))
      else (f, Client (Read o (i + 1)) (hist k))
  end.

(** The field and the clients (Db/dbdata.c l.1055-1146). *)
Record st := mk { field : Z; cl : list client }.

(** Start of a call, or a step of a client (Db/dbdata.c l.1055-1146). *)
Inductive ev := Start (c : nat) (o : op) | Run (c : nat).

(** One event (Db/dbdata.c l.1055-1146); a call starts only when the client's
    previous call has returned. *)
Definition step (e : env) (s : st) (x : ev) : st :=
  match x with
  | Start c o =>
      match nth_error (cl s) c with
      | Some k => match at_ k with
                  | Idle => mk (field s) (lset c (Client (Read o 0) (hist k)) (cl s))
                  | _ => s end
      | None => s end
  | Run c =>
      match nth_error (cl s) c with
      | Some k => let '(f, k') := cstep e (field s) k in mk f (lset c k' (cl s))
      | None => s end
  end.

(** Execution of a list of events (Db/dbdata.c l.1055-1146), [n] clients,
    field content [f0] at the start. *)
Definition exec (e : env) (es : list ev) (s : st) : st := fold_left (step e) es s.
(** Db/dbdata.c l.1055-1146. *)
Definition init (n : nat) (f0 : Z) : st := mk f0 (repeat (Client Idle []) n).
