(** Specification side of the fixed-length areas: histories of cell requests,
    releases, writes by clients and growth of the other areas. *)
From Coq Require Import ZArith List Bool.
From Verif Require Import Base FixAllocModel.
Import ListNotations.
Open Scope Z_scope.

Definition overlap (o1 o2 len : Z) : Prop := exists a, o1 <= a < o1 + len /\ o2 <= a < o2 + len.

(** [a] belongs to the memory handed to the area. *)
Definition in_area (s : fstate) (a : Z) : Prop :=
  exists sub, In sub (fs_subs s) /\ sa_aoffset sub <= a < sa_aoffset sub + sa_asize sub.

Inductive fop := Alloc (r : Z) | Free (o : Z) | Write (a v : Z) | Chunk (req : Z) | Other.

(** One step of a history. [live] is the list of cells handed out and not yet
    returned. A client frees only live cells and writes only to live cells;
    everybody else writes outside the area, one word or many; other areas take segment chunks. *)
Inductive fstep : fstate * list Z -> fop -> fstate * list Z -> Prop :=
| FAlloc s live s' r :
    wg_alloc_fixlen_object s = (s', r) ->
    fstep (s, live) (Alloc r) (s', if r =? 0 then live else r :: live)
| FFree s live1 o live2 :
    fstep (s, live1 ++ o :: live2) (Free o) (wg_free_fixlen_object s o, live1 ++ live2)
| FWrite s live a v :
    (exists o, In o live /\ o <= a < o + fs_objlen s) \/ ~ in_area s a ->
    fstep (s, live) (Write a v)
          (FS (upd (fs_mem s) a v) (fs_free s) (fs_size s) (fs_objlen s) (fs_freelist s) (fs_subs s), live)
| FOther s live m :
    (forall a, in_area s a -> m a = fs_mem s a) ->
    fstep (s, live) Other
          (FS m (fs_free s) (fs_size s) (fs_objlen s) (fs_freelist s) (fs_subs s), live)
| FChunk s live req c free' :
    0 <= req < 2 ^ 63 ->
    alloc_db_segmentchunk (fs_free s) (fs_size s) req = (c, free') ->
    fstep (s, live) (Chunk req)
          (FS (fs_mem s) free' (fs_size s) (fs_objlen s) (fs_freelist s) (fs_subs s), live).

(** States reachable in a database segment whose header ends at [hdr]. *)
Inductive freach (hdr size objlen : Z) : fstate * list Z -> Prop :=
| FInit m s :
    init_fix_area m hdr size objlen = Some s -> freach hdr size objlen (s, [])
| FStep c op c' : freach hdr size objlen c -> fstep c op c' -> freach hdr size objlen c'.

(** Sensible parameters: aligned positive header, word-multiple cells that fit
    a subarea (the cells of WhiteDB have 8 to 144 bytes). *)
Definition params_ok (hdr size objlen : Z) : Prop :=
  0 < hdr < 2 ^ 63 /\ hdr mod 8 = 0 /\ size < 2 ^ 63 /\ 0 < objlen <= 4096 /\ objlen mod 8 = 0.
