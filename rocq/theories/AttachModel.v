(** Model of attaching to, deleting and detaching from databases in shared memory (Db/dbmem.c,
    Db/dballoc.c l.91-252) by any number of clients. One step of a client is one system call or one
    access to shared memory. The System V calls: shmget with IPC_CREAT and IPC_EXCL makes a new
    segment of zeroes unless the key is in use; IPC_RMID takes the key from a segment, which
    stays usable for those attached to it. *)
From Coq Require Import ZArith List Bool.
From Verif Require Import Base ConcLib.
Import ListNotations.
Open Scope Z_scope.

(** Db/dballoc.h l.145-146. *)
Definition MEMSEGMENT_MAGIC_MARK := 1232319011.
(** Db/dballoc.h l.145-146. *)
Definition MEMSEGMENT_MAGIC_INIT := 1916950123.
(** Db/dbmem.h l.39-41. *)
Definition DEFAULT_MEMDBASE_KEY := 1000.
(** Db/dbmem.h l.39-41. *)
Definition DEFAULT_MEMDBASE_SIZE := 10000000.
(** The parts wg_init_db_memsegment sets up after the first header fields: ten areas, string hash,
    synchronisation, external databases, indexes, record bitmap, logging (Db/dballoc.c l.123-246). *)
Definition INIT_PARTS : nat := 16.

(** A segment: header fields mark, version and features (as one number), size and logging.active
    (Db/dballoc.h), and how many of the parts are set up (Db/dballoc.c l.106-112). *)
Record seg := Seg { s_mark : Z; s_ver : Z; s_size : Z; s_log : bool; s_parts : nat }.
(** A new segment is filled with zeroes (shmget) (Db/dbmem.c l.767). *)
Definition new_seg : seg := Seg 0 0 0 false 0.
(** The operating system: the segment of each key and all segments ever made (Db/dbmem.c l.701, l.767, l.830). *)
Record world := World { keys : Z -> option nat; segs : list seg }.

(** Arguments of wg_attach_memsegment (Db/dbmem.c l.196), after the default handling of l.215-218, see
    [attach_args]. The mode is the concern of PermsModel. *)
Record args := Args { a_key : Z; a_min : Z; a_size : Z; a_create : bool; a_log : bool }.
(** Control points of a client; the numbers are lines of Db/dbmem.c (Db/dbmem.c l.196-830). *)
Inductive pc :=
| Idle
| Link (a : args)                              (* l.701: shmget of an existing segment *)
| LinkAt (a : args) (g : nat)                  (* l.706: shmat *)
| Check (a : args) (g : nat)                   (* l.226: dbcheckh *)
| CheckSize (a : args) (g : nat)               (* l.232-246 *)
| CheckLog (a : args) (g : nat)                (* l.249-259 *)
| MemMode (a : args) (g : nat)                 (* l.264: wg_memmode *)
| Create (a : args) (size : Z)                 (* l.767: shmget of a new segment *)
| CreateAt (a : args) (g : nat) (size : Z)     (* l.790: shmat *)
| Init (a : args) (g : nat) (size : Z)         (* l.312: wg_init_db_memsegment, next part *)
| StartLog (a : args) (g : nat)                (* l.316: wg_start_logging *)
| Undo (a : args)                              (* l.324: free_shared_memory, shmget (l.812) *)
| UndoRm (g : nat)                             (* l.830: shmctl *)
| Compat (a : args) (g : nat)                  (* l.87-103: CHECK_SEGMENT *)
| Del (key : Z)                                (* l.365: free_shared_memory, shmget (l.812) *)
| DelRm (g : nat).                             (* l.830: shmctl *)

(** What a call returned: a handle for a segment, NULL, or a code (Db/dbmem.c l.196-380). *)
Inductive result := Handle (g : nat) | Null | Code (c : Z).
(** A client: its version of the program, control point, handles in use with the arguments they were
    asked for, segments mapped into its memory, and the result of the last call (Db/dbmem.c l.196-830). *)
Record client := Client { c_ver : Z; c_pc : pc; c_held : list (nat * args); c_maps : list nat; c_last : option result }.
(** Whether the system call or library call of a step succeeds where that is up to the system: it
    does, it fails, it fails with EACCES (Db/dbmem.c l.701-840). *)
Inductive answer := Yes | No | Denied.
(** Success of a call of Db/dbmem.c l.701-840. *)
Definition is_yes (x : answer) : bool := match x with Yes => true | _ => false end.

(** The next control point (Db/dbmem.c l.196-830). *)
Definition goto (c : client) (p : pc) : client := Client (c_ver c) p (c_held c) (c_maps c) (c_last c).
(** shmat (Db/dbmem.c l.706, l.790). *)
Definition map_seg (c : client) (g : nat) (p : pc) : client := Client (c_ver c) p (c_held c) (g :: c_maps c) (c_last c).
(** Return from a call (Db/dbmem.c l.196-380). *)
Definition return_ (c : client) (r : result) : client := Client (c_ver c) Idle (c_held c) (c_maps c) (Some r).
(** Return of a handle (Db/dbmem.c l.331-337). *)
Definition give (c : client) (g : nat) (a : args) : client := Client (c_ver c) Idle ((g, a) :: c_held c) (c_maps c) (Some (Handle g)).
(** Writes to a segment (Db/dballoc.c l.107-246). *)
Definition set_seg (w : world) (g : nat) (s : seg) : world := World (keys w) (lset g s (segs w)).
(** Removal of a segment by IPC_RMID: its key, if it still has it, is free (Db/dbmem.c l.830). *)
Definition remove_id (w : world) (g : nat) : world :=
  World (fun k => match keys w k with Some h => if Nat.eqb h g then None else Some h | None => None end) (segs w).

(** Db/dbmem.c l.293-301: the size used at first, and what follows when creating has failed. *)
Definition first_size (a : args) : Z := if a_size a =? 0 then DEFAULT_MEMDBASE_SIZE else a_size a.
(** Db/dbmem.c l.293-301. *)
Definition create_failed (c : client) (a : args) (size : Z) : client :=
  if negb (a_min a =? 0) && (a_min a <? size) then goto c (Create a (a_min a)) else return_ c Null.
(** l.271-292: linking has failed. *)
Definition link_failed (c : client) (a : args) (x : answer) : client :=
  if negb (a_create a) || match x with Denied => true | _ => false end then return_ c Null else goto c (Create a (first_size a)).

(** Db/dballoc.c l.91-252: wg_init_db_memsegment, one part per step; [No]: no memory for the part. The
    first step sets the header fields (l.97-121), the last one the mark (l.250). *)
Definition init_step (x : answer) (w : world) (c : client) (a : args) (g : nat) (size : Z) (s : seg) : world * client :=
  if s_mark s =? MEMSEGMENT_MAGIC_INIT then
    if (s_parts s <? INIT_PARTS)%nat then
      if is_yes x then (set_seg w g (Seg (s_mark s) (s_ver s) (s_size s) (s_log s) (S (s_parts s))), c)
      else (w, goto c (Undo a))
    else (set_seg w g (Seg MEMSEGMENT_MAGIC_MARK (s_ver s) (s_size s) (s_log s) (s_parts s)),
          if a_log a then goto c (StartLog a g) else goto c (Compat a g))
  else (set_seg w g (Seg MEMSEGMENT_MAGIC_INIT (c_ver c) size (s_log s) (s_parts s)), c).

(** A step of a client (Db/dbmem.c l.196-330, l.362-380, l.690-840). *)
Definition cstep (x : answer) (w : world) (c : client) : world * client :=
  let with_seg g (f : seg -> world * client) := match nth_error (segs w) g with None => (w, c) | Some s => f s end in
  match c_pc c with
  | Idle => (w, c)
  | Link a => (w, match keys w (a_key a) with Some g => if is_yes x then goto c (LinkAt a g) else link_failed c a No | None => link_failed c a No end)
  | LinkAt a g => (w, if is_yes x then map_seg c g (Check a g) else link_failed c a x)
  | Check a g => with_seg g (fun s => (w, if s_mark s =? MEMSEGMENT_MAGIC_MARK then goto c (CheckSize a g) else return_ c Null))
  | CheckSize a g => with_seg g (fun s => (w, if negb (a_min a =? 0) && (s_size s <? a_min a) then return_ c Null else goto c (CheckLog a g)))
  | CheckLog a g => with_seg g (fun s => (w, if a_log a && negb (s_log s) then return_ c Null else goto c (MemMode a g)))
  | MemMode a g => (w, if is_yes x then goto c (Compat a g) else return_ c Null)
  | Create a size =>
      match keys w (a_key a) with
      | Some _ => (w, create_failed c a size)
      | None =>
          if is_yes x then
            let g := length (segs w) in
            (World (fun k => if k =? a_key a then Some g else keys w k) (segs w ++ [new_seg]), goto c (CreateAt a g size))
          else (w, create_failed c a size)
      end
  | CreateAt a g size => (w, if is_yes x then map_seg c g (Init a g size) else create_failed c a size)
  | Init a g size => with_seg g (init_step x w c a g size)
  | StartLog a g =>
      with_seg g (fun s => if is_yes x then (set_seg w g (Seg (s_mark s) (s_ver s) (s_size s) true (s_parts s)), goto c (Compat a g)) else (w, goto c (Undo a)))
  | Undo a => match keys w (a_key a) with
              | Some g => (w, if is_yes x then goto c (UndoRm g) else return_ c Null)
              | None => (w, return_ c Null)
              end
  | UndoRm g => (if is_yes x then remove_id w g else w, return_ c Null)
  | Compat a g => with_seg g (fun s => (w, if (s_mark s =? MEMSEGMENT_MAGIC_MARK) && (s_ver s =? c_ver c) then give c g a else return_ c Null))
  | Del key => match keys w key with
               | Some g => (w, if is_yes x then goto c (DelRm g) else return_ c (Code (-1)))
               | None => (w, return_ c (Code (-1)))
               end
  | DelRm g => if is_yes x then (remove_id w g, return_ c (Code 0)) else (w, return_ c (Code (-2)))
  end.

(** Db/dbmem.c l.215-218: default arguments; [key] is the number in the name (0 for NULL). *)
Definition the_key (key : Z) : Z :=
  if (key <=? 0) || (key =? - 2 ^ 31) || (key =? 2 ^ 31 - 1) then DEFAULT_MEMDBASE_KEY else key.
(** Db/dbmem.c l.215-218. *)
Definition attach_args (key minsize size : Z) (create logging : bool) : args :=
  let minsize := if minsize <? 0 then 0 else minsize in
  Args (the_key key) minsize (if size <? minsize then minsize else size) create logging.
(** Calls: wg_attach_database and the like (Db/dbmem.c l.120-171), wg_delete_database (l.359), wg_detach_database (l.344)
    of the handle at a position, with the answer of shmdt. *)
Inductive call := Attach (key minsize size : Z) (create logging : bool) | Delete (key : Z) | Detach (i : nat) (x : answer).
(** Db/dbmem.c l.120-171, l.359, l.344. *)
Fixpoint drop {A} (i : nat) (l : list A) : list A :=
  match l, i with [], _ => [] | _ :: r, O => r | a :: r, S k => a :: drop k r end.
(** Remove one copy of a number (shmdt of one mapping, Db/dbmem.c l.847-863). *)
Fixpoint take_out (g : nat) (l : list nat) : list nat :=
  match l with [] => [] | h :: r => if Nat.eqb h g then r else h :: take_out g r end.
(** The beginning of a call; wg_detach_database is one step (l.344-352, l.849-867). *)
Definition begin (c : client) (k : call) : client :=
  match c_pc c with
  | Idle =>
      match k with
      | Attach key minsize size create logging => goto c (Link (attach_args key minsize size create logging))
      | Delete key => goto c (Del (the_key key))
      | Detach i x =>
          match nth_error (c_held c) i with
          | None => c
          | Some (g, _) =>
              if is_yes x then Client (c_ver c) Idle (drop i (c_held c)) (take_out g (c_maps c)) (Some (Code 0))
              else return_ c (Code (-2))
          end
      end
  | _ => c
  end.

(** A state and what can happen next: a client begins a call or takes a step (Db/dbmem.c l.196-856). *)
Record state := State { st_world : world; st_clients : list client }.
(** The calls and steps of Db/dbmem.c l.196-856. *)
Inductive event := Begin (i : nat) (k : call) | Step (i : nat) (x : answer).
(** One of them (Db/dbmem.c l.196-856). *)
Definition event_step (s : state) (e : event) : state :=
  match e with
  | Begin i k => match nth_error (st_clients s) i with None => s | Some c => State (st_world s) (lset i (begin c k) (st_clients s)) end
  | Step i x => match nth_error (st_clients s) i with
                | None => s
                | Some c => let (w, c) := cstep x (st_world s) c in State w (lset i c (st_clients s))
                end
  end.
(** At first there are no segments; each client has its version of the program (Db/dbmem.c l.196-856). *)
Definition start (vers : list Z) : state :=
  State (World (fun _ => None) []) (map (fun v => Client v Idle [] [] None) vers).
(** One after the other (Db/dbmem.c l.196-856). *)
Definition run (s : state) (es : list event) : state := fold_left event_step es s.
