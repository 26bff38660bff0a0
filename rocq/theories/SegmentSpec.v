(** Specification side of the segment: histories of requests, releases and writes
    in all areas, creation of hash arrays. *)
From Coq Require Import ZArith List Bool.
From Verif Require Import Base FixAllocModel FixAllocSpec VarAllocModel VarAllocSpec SegmentModel.
Import ListNotations.
Open Scope Z_scope.

(** [fixed_len s k] is the cell length of a fixed-length area. *)
Definition fixed_len (s : seg) (k : nat) : option Z :=
  match nth_error (g_areas s) k with Some (AFix len _ _) => Some len | _ => None end.
(** Words of an object asked for with [nr] words in area [k]. *)
Definition words (s : seg) (k : nat) (nr : Z) : Z := match fixed_len s k with Some len => len / 8 | None => nr end.
(** Bytes taken by an object of area [k], and the first byte its client may write. *)
Definition extent (s : seg) (k : nat) (o : obj) : Z := match fixed_len s k with Some len => len | None => osize (onr o) end.
Definition first_byte (s : seg) (k : nat) (o : obj) : Z := match fixed_len s k with Some _ => oa o | None => oa o + 8 end.
Definition with_mem (s : seg) (m : mem) : seg := SG m (g_free s) (g_size s) (g_areas s) (g_hash s) (g_locks s).

(** A state with the live objects of all areas (area, object) and with the arrays
    that are chunks of their own: hash arrays and the words of the lock queue. *)
Definition config : Type := seg * list (nat * obj) * list obj.
Definition arrays (s : seg) : list obj :=
  (if g_locks s =? 0 then [] else [Obj (g_locks s) 1056 (g_mem s)]) ++ map (fun t => Obj (ht_start t) (ht_len t) (g_mem s)) (g_hash s).

(** One step. Clients write only into their live objects (in a variable-length
    object not into the header word) and into the arrays. *)
Inductive sstep : config -> config -> Prop :=
| SAlloc s live hs k nr s' r :
    - 2 ^ 60 <= nr -> nr * 8 < 2 ^ 40 -> seg_alloc s k nr = Some (s', r) ->
    sstep (s, live, hs) (s', if r =? 0 then live else (k, Obj r (words s k nr) (g_mem s')) :: live, hs)
| SFree s l1 k o l2 hs s' :
    seg_free s k (oa o) = Some s' -> sstep (s, l1 ++ (k, o) :: l2, hs) (s', l1 ++ l2, hs)
| SWrite s l1 k o l2 hs a v :
    first_byte s k o <= a < oa o + 8 * onr o ->
    sstep (s, l1 ++ (k, o) :: l2, hs) (with_mem s (upd (g_mem s) a v), l1 ++ (k, Obj (oa o) (onr o) (upd (od o) a v)) :: l2, hs)
| SHash s live hs size s' t :
    size < 2 ^ 40 -> wg_create_hash s size = Some s' -> g_hash s' = t :: g_hash s ->
    sstep (s, live, hs) (s', live, Obj (ht_start t) (ht_len t) (g_mem s') :: hs)
| SArray s live h1 o h2 a v :
    oa o <= a < oa o + 8 * onr o ->
    sstep (s, live, h1 ++ o :: h2) (with_mem s (upd (g_mem s) a v), live, h1 ++ Obj (oa o) (onr o) (upd (od o) a v) :: h2).

(** Reachable from a new segment with header of [HEADER proto3] bytes. *)
Inductive sreach (proto3 : bool) : config -> Prop :=
| SInit m size slen s :
    size <= 2 ^ 40 -> 0 <= slen < 2 ^ 40 -> wg_init_db_memsegment proto3 m size slen = Some s -> sreach proto3 (s, [], arrays s)
| SStep c c' : sreach proto3 c -> sstep c c' -> sreach proto3 c'.

(** The live objects of one area. *)
Definition live_of (k : nat) (live : list (nat * obj)) : list obj := map snd (filter (fun p => Nat.eqb (fst p) k) live).
