(** Specification side of the variable-length areas: histories of requests,
    releases, writes by clients and growth of the other areas. *)
From Coq Require Import ZArith List Bool.
From Verif Require Import Base FixAllocModel VarAllocModel.
Import ListNotations.
Open Scope Z_scope.

(** An object handed out: address, requested number of words, what the client
    last saw or wrote in its words (the first word is the header). *)
Record obj := Obj { oa : Z; onr : Z; od : Z -> Z }.
(** Bytes occupied by an object of [nr] words (Db/dballoc.h l.163: at least 32). *)
Definition osize (nr : Z) : Z := Z.max 32 (8 * nr).

(** [a] belongs to the memory handed to the area. *)
Definition in_varea (s : vstate) (a : Z) : Prop :=
  exists u, In u (vsubs s) /\ sa_aoffset u <= a < sa_aoffset u + sa_asize u.

(** One step of a history. A client frees and writes only its own objects, and
    not their headers; everybody else writes outside the area; other areas take
    segment chunks. Requests are below 2^40 bytes. *)
Inductive vstep : vstate * list obj -> vstate * list obj -> Prop :=
| VAlloc s live nr s' r :
    - 2 ^ 60 <= nr -> nr * 8 < 2 ^ 40 -> wg_alloc_gints s nr = VOk s' r ->
    vstep (s, live) (s', if r =? 0 then live else Obj r nr (vm s') :: live)
| VFree s live1 o live2 s' r :
    wg_free_object s (oa o) = VOk s' r -> vstep (s, live1 ++ o :: live2) (s', live1 ++ live2)
| VWrite s live1 o live2 a v :
    oa o + 8 <= a < oa o + 8 * onr o ->
    vstep (s, live1 ++ o :: live2) (store s a v, live1 ++ Obj (oa o) (onr o) (upd (od o) a v) :: live2)
| VOther s live m : (forall a, in_varea s a -> m a = vm s a) -> vstep (s, live) (VS m (vb s) (vhdr s) (vfree s) (vsize s) (vsubs s), live)
| VChunk s live req c free' :
    0 <= req < 2 ^ 63 -> alloc_db_segmentchunk (vfree s) (vsize s) req = (c, free') ->
    vstep (s, live) (VS (vm s) (vb s) (vhdr s) free' (vsize s) (vsubs s), live).

(** Reachable: the area is created in a segment of which [free] bytes are taken. *)
Inductive vreach : vstate * list obj -> Prop :=
| VInit m hdr free size s :
    0 < free -> free mod 8 = 0 -> free < size <= 2 ^ 40 -> init_var_area m hdr free size = Some s -> vreach (s, [])
| VStep c c' : vreach c -> vstep c c' -> vreach c'.

(** The regions from [a] to [e] as told by their headers: (address, size, header). *)
Fixpoint walk (n : nat) (s : vstate) (a e : Z) : option (list (Z * Z * Z)) :=
  if a =? e then Some []
  else match n with
       | O => None
       | S n' =>
           let h := vm s a in
           let size := if isfreeobject h then getfreeobjectsize h else getusedobjectsize h in
           match walk n' s (a + size) e with None => None | Some l => Some ((a, size, h) :: l) end
       end.
(** The objects of a bucket, following the links. *)
Fixpoint follow (n : nat) (s : vstate) (a : Z) : list Z :=
  match n with
  | O => []
  | S n' => if a =? 0 then [] else a :: follow n' s (vm s (a + 8))
  end.
(** A region that can be given out: free object or victim. *)
Definition available (s : vstate) (r : Z * Z * Z) : bool :=
  let '(a, _, h) := r in isfreeobject h || (isspecialusedobject h && (a =? vb s DVBUCKET)).
Definition region_used (r : Z * Z * Z) : bool := let '(_, _, h) := r in isnormalusedobject h.
