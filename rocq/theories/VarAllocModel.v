(** Variable-length object areas (Db/dballoc.c l.605-714, l.862-1374): buckets of
    free objects, designated victim (dv), splitting, merging, growth; and the
    record scan over such an area (Db/dbdata.c l.296-412). One area is modelled
    together with the segment it lives in. *)
From Coq Require Import ZArith List Bool.
From Verif Require Import Base FixAllocModel.
Import ListNotations.
Open Scope Z_scope.

(** Db/dballoc.h l.158-162. *)
Definition EXACTBUCKETS_NR := 256.
(** Db/dballoc.h l.158-162. *)
Definition VARBUCKETS_NR := 32.
(** Db/dballoc.h l.158-162. *)
Definition DVBUCKET := EXACTBUCKETS_NR + VARBUCKETS_NR.
(** Db/dballoc.h l.158-162. *)
Definition DVSIZEBUCKET := EXACTBUCKETS_NR + VARBUCKETS_NR + 1.

(** Area header and segment (Db/dballoc.h l.304-323, l.464-505): memory of the
    segment, the freebuckets array, its offset in the segment, dbh->free,
    dbh->size, subareas (newest first). The array is kept apart from the memory. *)
Record vstate := VS { vm : mem; vb : Z -> Z; vhdr : Z; vfree : Z; vsize : Z; vsubs : list subarea }.

(** Db/dballoc.h l.196-198: dbfetch, dbstore, dbaddr of a bucket. *)
Definition fetch (s : vstate) (a : Z) : Z := vm s a.
(** Db/dballoc.h l.196-198. *)
Definition store (s : vstate) (a v : Z) : vstate := VS (upd (vm s) a v) (vb s) (vhdr s) (vfree s) (vsize s) (vsubs s).
(** Db/dballoc.h l.196-198. *)
Definition setb (s : vstate) (i v : Z) : vstate := VS (vm s) (upd (vb s) i v) (vhdr s) (vfree s) (vsize s) (vsubs s).
(** Db/dballoc.h l.196-198. *)
Definition baddr (s : vstate) (i : Z) : Z := vhdr s + 8 * i.

(** Db/dballoc.h l.215-238: header word macros. *)
Definition isfreeobject (h : Z) : bool := Z.land h 3 =? 1.
(** Db/dballoc.h l.215-238. *)
Definition isnormalusedobject (h : Z) : bool := Z.land h 1 =? 0.
(** Db/dballoc.h l.215-238. *)
Definition isnormalusedobjectprevfree (h : Z) : bool := Z.land h 3 =? 2.
(** Db/dballoc.h l.215-238. *)
Definition isspecialusedobject (h : Z) : bool := Z.land h 3 =? 3.
(** Db/dballoc.h l.215-238. *)
Definition getfreeobjectsize (h : Z) : Z := Z.land h (Z.lnot 3).
(** Db/dballoc.h l.215-238. *)
Definition getusedobjectsize (h : Z) : Z :=
  let w := Z.land h (Z.lnot 3) in
  if w <=? MIN_VARLENOBJ_SIZE then MIN_VARLENOBJ_SIZE else if negb (Z.rem w 8 =? 0) then w + 4 else w.
(** Db/dballoc.h l.215-238. *)
Definition getusedobjectwantedgintsnr (h : Z) : Z := Z.shiftr (Z.land h (Z.lnot 3)) 3.
(** Db/dballoc.h l.215-238. *)
Definition makefreeobjectsize (i : Z) : Z := Z.lor (Z.land i (Z.lnot 3)) 1.
(** Db/dballoc.h l.215-238. *)
Definition makeusedobjectsizeprevused (i : Z) : Z := Z.land i (Z.lnot 3).
(** Db/dballoc.h l.215-238. *)
Definition makeusedobjectsizeprevfree (i : Z) : Z := Z.lor (Z.land i (Z.lnot 3)) 2.
(** Db/dballoc.h l.215-238. *)
Definition makespecialusedobjectsize (i : Z) : Z := Z.lor i 3.
(** Db/dballoc.h l.215-238. *)
Definition SPECIALGINT1DV := 1.

(** Outcome of a call: new state and returned value, or an access to
    freebuckets[-1] (Db/dballoc.c l.873-1165). *)
Inductive vres := VOk (s : vstate) (r : Z) | VUndef.

(** Db/dballoc.c l.1154-1165: wg_freebuckets_index; the loop has 32 rounds. *)
Fixpoint fbi_loop (n : nat) (i cursize size : Z) : Z :=
  match n with
  | O => -1
  | S n' => if size <? cursize then EXACTBUCKETS_NR + i else fbi_loop n' (i + 1) (cursize * 2) size
  end.
(** Db/dballoc.c l.1154-1165. *)
Definition wg_freebuckets_index (size : Z) : Z :=
  if size <? EXACTBUCKETS_NR then size else fbi_loop 32 0 (EXACTBUCKETS_NR * 2) size.

(** Put an object at the front of its bucket: Db/dballoc.c l.660-672 (old dv when
    the area grows), l.1128-1136 (rest after a split), l.1365-1372 (freed object).
    The stores go to different words, so their order does not matter. *)
Definition push_free (s : vstate) (o size : Z) : option vstate :=
  let i := wg_freebuckets_index size in
  if i <? 0 then None
  else
    let s := store s o (makefreeobjectsize size) in
    let s := store s (o + size - 8) (makefreeobjectsize size) in
    let freelist := vb s i in
    let s := if freelist =? 0 then s else store s (freelist + 16) o in
    let s := store s (o + 8) freelist in
    let s := store s (o + 16) (baddr s i) in
    Some (setb s i o).

(** Take a free object out of its bucket: Db/dballoc.c l.1233-1248, l.1263-1275,
    l.1307-1322. *)
Definition unlink_free (s : vstate) (o size : Z) : option vstate :=
  let nextptr := fetch s (o + 8) in
  let prevptr := fetch s (o + 16) in
  let i := wg_freebuckets_index size in
  if i <? 0 then None
  else if vb s i =? o then
    let s := setb s i nextptr in
    Some (if nextptr =? 0 then s else store s (nextptr + 16) prevptr)
  else
    let s := store s (prevptr + 8) nextptr in
    Some (if nextptr =? 0 then s else store s (nextptr + 16) prevptr).

(** Take the first object out of bucket [i]: Db/dballoc.c l.897-901, l.965-969,
    l.1085-1090. *)
Definition take_first (s : vstate) (i : Z) : vstate :=
  let res := vb s i in
  let nextel := fetch s (res + 8) in
  let s := setb s i nextel in
  if nextel =? 0 then s else store s (nextel + 16) (baddr s i).

(** Db/dballoc.c l.905-907, l.974-976, l.1281-1285, l.1349-1351: a used object at [o] follows a used one. *)
Definition mark_prevused (s : vstate) (o : Z) : vstate :=
  let h := fetch s o in
  if isnormalusedobject h then store s o (makeusedobjectsizeprevused h) else s.

(** Db/dballoc.c l.1068-1141: split_free of the first object of bucket [i];
    result 0 or negative. *)
Definition split_free (s : vstate) (nr i : Z) : vstate * Z :=
  let object := vb s i in
  let h := fetch s object in
  if negb (isfreeobject h) then (s, -1)
  else
    let oldsize := getfreeobjectsize h in
    let s := take_first s i in
    let s := store s object (makeusedobjectsizeprevused nr) in
    match push_free s (object + nr) (oldsize - nr) with
    | None =>
        let s := store s (object + nr) (makefreeobjectsize (oldsize - nr)) in
        (store s (object + nr + (oldsize - nr) - 8) (makefreeobjectsize (oldsize - nr)), -1)
    | Some s => (s, 0)
    end.

(** The search of Db/dballoc.c l.911-913 and l.947-949: first bucket from [i] whose
    first object can be split; [n] rounds, below 256. *)
Fixpoint find_split (n : nat) (s : vstate) (i used : Z) : option Z :=
  match n with
  | O => None
  | S n' =>
      if i <? EXACTBUCKETS_NR then
        if negb (vb s i =? 0) && (used + MIN_VARLENOBJ_SIZE <=? getfreeobjectsize (fetch s (vb s i)))
        then Some i else find_split n' s (i + 1) used
      else None
  end.

(** Split the first object of bucket [i] and give out its beginning
    (Db/dballoc.c l.915-920, l.951-956, l.980-986). *)
Definition split_give (s : vstate) (i used wanted : Z) : vstate * Z :=
  let res := vb s i in
  let '(s, tmp) := split_free s used i in
  if tmp <? 0 then (s, 0) else (store s res (makeusedobjectsizeprevused wanted), res).

(** The loop of Db/dballoc.c l.960-989 over the buckets from [i]; [None]: nothing found. *)
Fixpoint var_loop (n : nat) (s : vstate) (i used wanted : Z) : option (vstate * Z) :=
  match n with
  | O => None
  | S n' =>
      if i <? EXACTBUCKETS_NR + VARBUCKETS_NR then
        if vb s i =? 0 then var_loop n' s (i + 1) used wanted
        else
          let size := getfreeobjectsize (fetch s (vb s i)) in
          if size =? used then
            let res := vb s i in
            let s := take_first s i in
            let s := store s res (makeusedobjectsizeprevused wanted) in
            Some (mark_prevused s (res + size), res)
          else if used + MIN_VARLENOBJ_SIZE <=? size then Some (split_give s i used wanted)
          else var_loop n' s (i + 1) used wanted
      else None
  end.

(** Db/dballoc.c l.886-892: bytes wanted and used. *)
Definition wanted_bytes (nr : Z) : Z := wrap64 (nr * 8).
(** Db/dballoc.c l.886-892. *)
Definition used_bytes (wanted : Z) : Z :=
  if wanted <=? MIN_VARLENOBJ_SIZE then MIN_VARLENOBJ_SIZE
  else if negb (Z.rem wanted 8 =? 0) then wanted + 4 else wanted.

(** Db/dballoc.c l.895-989: wg_alloc_gints without growing; [TDone s r] returns
    [r], [TNone] means that nothing suits, [TUndef] is an access to freebuckets[-1]. *)
Inductive tried := TDone (s : vstate) (r : Z) | TNone | TUndef.
(** Db/dballoc.c l.895-989. *)
Definition alloc_try (s : vstate) (wanted : Z) : tried :=
  let used := used_bytes wanted in
  if (used <? EXACTBUCKETS_NR) && negb (vb s used =? 0) then
    let res := vb s used in
    let s := take_first s used in
    let s := store s res (makeusedobjectsizeprevused wanted) in
    TDone (mark_prevused s (res + used)) res
  else match find_split 3 s (used + 1) used with
  | Some i => let '(s, r) := split_give s i used wanted in TDone s r
  | None =>
    let size := vb s DVSIZEBUCKET in
    let dv := vb s DVBUCKET in
    if (used <=? size) && negb (dv =? 0) && (used =? size) then
      let s := setb (setb s DVBUCKET 0) DVSIZEBUCKET 0 in
      TDone (store s dv (makeusedobjectsizeprevused wanted)) dv
    else if (used <=? size) && negb (dv =? 0) && (used + MIN_VARLENOBJ_SIZE <=? size) then
      let s := store s (dv + used) (makespecialusedobjectsize (size - used)) in
      let s := store s (dv + used + 8) SPECIALGINT1DV in
      let s := setb (setb s DVBUCKET (dv + used)) DVSIZEBUCKET (size - used) in
      TDone (store s dv (makeusedobjectsizeprevused wanted)) dv
    else match find_split 256 s (used + 1) used with
    | Some i => let '(s, r) := split_give s i used wanted in TDone s r
    | None =>
      let i := wg_freebuckets_index used in
      if i <? 0 then TUndef
      else match var_loop 288 s i used wanted with
           | Some (s, r) => TDone s r
           | None => TNone
           end
    end
  end.

(** Db/dballoc.c l.269-295: init_db_subarea for the next index; [None] is a
    non-zero return. *)
Definition init_vsubarea (s : vstate) (size : Z) : option vstate :=
  if size <? MINIMAL_SUBAREA_SIZE then None
  else
    let '(chunk, free') := alloc_db_segmentchunk (vfree s) (vsize s) size in
    if chunk =? 0 then None
    else
      let i := align_fill chunk in
      let asize := size - i in
      let asz := asize - Z.rem asize MIN_VARLENOBJ_SIZE in
      Some (VS (vm s) (vb s) (vhdr s) free' (vsize s) (Sub size chunk asz (chunk + i) :: vsubs s)).

(** Db/dballoc.c l.656-677: the victim of the older subareas becomes a free object. *)
Definition retire_dv (s : vstate) : option vstate :=
  let dv := vb s DVBUCKET in
  let dvsize := vb s DVSIZEBUCKET in
  if negb (dv =? 0) && (MIN_VARLENOBJ_SIZE <=? dvsize) then
    match push_free s dv dvsize with
    | None => None
    | Some s =>
        let nextobj := dv + dvsize in
        let h := fetch s nextobj in
        Some (if isnormalusedobject h then store s nextobj (makeusedobjectsizeprevfree (getusedobjectsize h)) else s)
    end
  else Some s.

(** Db/dballoc.c l.632-714: init_subarea_freespace for the newest subarea; the
    first subarea of an area has index 0. *)
Definition init_subarea_freespace (s : vstate) : option vstate :=
  match vsubs s with
  | [] => None
  | sub :: rest =>
      let size := sa_asize sub in
      let offset := sa_aoffset sub in
      match (match rest with [] => Some s | _ => retire_dv s end) with
      | None => None
      | Some s =>
          let s := store s offset (makespecialusedobjectsize MIN_VARLENOBJ_SIZE) in
          let s := store s (offset + 8) 0 in
          let s := store s (offset + 16) 0 in
          let s := store s (offset + MIN_VARLENOBJ_SIZE - 8) MIN_VARLENOBJ_SIZE in
          let endm := offset + size - MIN_VARLENOBJ_SIZE in
          let s := store s endm (makespecialusedobjectsize MIN_VARLENOBJ_SIZE) in
          let s := store s (endm + 8) 0 in
          let s := store s (endm + 16) 0 in
          let s := store s (endm + MIN_VARLENOBJ_SIZE - 8) MIN_VARLENOBJ_SIZE in
          let fo := offset + MIN_VARLENOBJ_SIZE in
          let fs := size - 2 * MIN_VARLENOBJ_SIZE in
          let s := store s fo (makespecialusedobjectsize fs) in
          let s := store s (fo + 8) SPECIALGINT1DV in
          Some (setb (setb s DVBUCKET fo) DVSIZEBUCKET fs)
      end
  end.

(** Db/dballoc.c l.1038: the doubling loop; 64 rounds exhaust a 64-bit value. *)
Fixpoint grow (n : nat) (newsize minsize : Z) : Z :=
  match n with
  | O => newsize
  | S n' => if (0 <=? newsize) && (newsize <? minsize) then grow n' (wrap64 (Z.shiftl newsize 1)) minsize else newsize
  end.
(** Db/dballoc.c l.1041-1048: try that size, then halves of it. *)
Fixpoint extend_vtry (n : nat) (s : vstate) (newsize minsize : Z) : option vstate :=
  match n with
  | O => None
  | S n' =>
      if minsize <=? newsize then
        match init_vsubarea s newsize with
        | Some s' => Some s'
        | None => extend_vtry n' s (Z.shiftr newsize 1) minsize
        end
      else None
  end.
(** Db/dballoc.c l.1014-1056: extend_varlen_area; result 0 (no growth) or 1. *)
Definition extend_varlen_area (s : vstate) (minbytes : Z) : vres :=
  match vsubs s with
  | [] => VOk s 0
  | last :: _ =>
      let i := Z.of_nat (length (vsubs s)) - 1 in
      if SUBAREA_ARRAY_SIZE <=? i + 1 then VOk s 0
      else
        let minsize := wrap64 (minbytes + SUBAREA_ALIGNMENT_BYTES + 2 * MIN_VARLENOBJ_SIZE) in
        if minsize <? 0 then VOk s 0
        else
          let minsize := if minsize <? MINIMAL_SUBAREA_SIZE then MINIMAL_SUBAREA_SIZE else minsize in
          let newsize := grow 64 (wrap64 (Z.shiftl (sa_size last) 1)) minsize in
          match extend_vtry 64 s newsize minsize with
          | None => VOk s 0
          | Some s' => match init_subarea_freespace s' with None => VUndef | Some s'' => VOk s'' 1 end
          end
  end.

(** Db/dballoc.c l.873-1000: wg_alloc_gints; [n] bounds the recursion, which adds a
    subarea each time (64 at most). *)
Fixpoint alloc_rec (n : nat) (s : vstate) (wanted : Z) : vres :=
  match alloc_try s wanted with
  | TDone s r => VOk s r
  | TUndef => VUndef
  | TNone =>
      match n with
      | O => VUndef
      | S n' =>
          match extend_varlen_area s (used_bytes wanted) with
          | VUndef => VUndef
          | VOk s r => if r =? 0 then VOk s 0 else alloc_rec n' s wanted
          end
      end
  end.
(** Db/dballoc.c l.873-1000. *)
Definition wg_alloc_gints (s : vstate) (nr : Z) : vres :=
  let wanted := wanted_bytes nr in
  if wanted <? 0 then VOk s 0 else alloc_rec 64 s wanted.

(** Db/dballoc.c l.1342-1361: the victim is replaced by the freed object [o];
    the object to put into a bucket, if any. *)
Definition replace_dv (s : vstate) (o size : Z) : vstate * option (Z * Z) :=
  let dv := vb s DVBUCKET in
  let dvsize := vb s DVSIZEBUCKET in
  let s := setb (setb s DVBUCKET o) DVSIZEBUCKET size in
  let s := store s o (makespecialusedobjectsize size) in
  let s := store s (o + 8) SPECIALGINT1DV in
  let s := mark_prevused s (o + size) in
  if dv =? 0 then (s, None)
  else
    let h := fetch s (dv + dvsize) in
    (if isnormalusedobject h then store s (dv + dvsize) (makeusedobjectsizeprevfree h) else s, Some (dv, dvsize)).

(** Db/dballoc.c l.1299-1374: merge with what follows and store. *)
Definition free_tail (s : vstate) (o size : Z) : vres :=
  let nextobject := o + size in
  let h := fetch s nextobject in
  let finish s size :=
    if vb s DVSIZEBUCKET <? size then
      match replace_dv s o size with
      | (s, None) => VOk s 0
      | (s, Some (o', size')) => match push_free s o' size' with None => VUndef | Some s => VOk s 0 end
      end
    else match push_free s o size with None => VUndef | Some s => VOk s 0 end in
  if isfreeobject h then
    match unlink_free s nextobject (getfreeobjectsize h) with
    | None => VUndef
    | Some s => finish s (size + getfreeobjectsize h)
    end
  else if isspecialusedobject h && (nextobject =? vb s DVBUCKET) then
    let size := size + vb s DVSIZEBUCKET in
    let s := setb (setb s DVBUCKET o) DVSIZEBUCKET size in
    VOk (store (store s o (makespecialusedobjectsize size)) (o + 8) SPECIALGINT1DV) 0
  else if isnormalusedobject h then finish (store s nextobject (makeusedobjectsizeprevfree h)) size
  else finish s size.

(** Db/dballoc.c l.1254-1294: merge with the victim before the object. *)
Definition free_onto_dv (s : vstate) (size : Z) : vres :=
  let o := vb s DVBUCKET in
  let size := size + vb s DVSIZEBUCKET in
  let nextobject := o + size in
  let h := fetch s nextobject in
  let done s size :=
    let s := store s o (makespecialusedobjectsize size) in
    let s := store s (o + 8) SPECIALGINT1DV in
    VOk (setb s DVSIZEBUCKET size) 0 in
  if isfreeobject h then
    match unlink_free s nextobject (getfreeobjectsize h) with
    | None => VUndef
    | Some s => let size := size + getfreeobjectsize h in done (mark_prevused s (o + size)) size
    end
  else done s size.

(** Db/dballoc.c l.1174-1374: wg_free_object. *)
Definition wg_free_object (s : vstate) (object : Z) : vres :=
  let h := fetch s object in
  if isfreeobject h then VOk s (-2)
  else
    let size := getusedobjectsize h in
    if size <? MIN_VARLENOBJ_SIZE then VOk s (-3)
    else if isnormalusedobjectprevfree h then
      let psize := getfreeobjectsize (fetch s (object - 8)) in
      let prev := object - psize in
      let ph := fetch s prev in
      if negb (isfreeobject ph) || negb (getfreeobjectsize ph =? psize) then VOk s (-4)
      else match unlink_free s prev psize with
           | None => VUndef
           | Some s => free_tail s prev (size + psize)
           end
    else if vb s DVBUCKET + vb s DVSIZEBUCKET =? object then free_onto_dv s size
    else free_tail s object size.

(** Creation of an area (Db/dballoc.c l.129-135 for records, l.608-623
    init_area_buckets): [m] is the segment, [free] bytes are taken already. *)
Definition init_var_area (m : mem) (hdr free size : Z) : option vstate :=
  match init_vsubarea (VS m (fun _ => 0) hdr free size []) INITIAL_SUBAREA_SIZE with
  | None => None
  | Some s => init_subarea_freespace s
  end.

(** ** Scan over the objects of an area (Db/dbdata.c l.317-412) *)

(** Db/dbdata.c l.386-394: index of the subarea holding [cur], from [i] on. *)
Fixpoint find_subarea (l : list subarea) (i : nat) (cur : Z) : option nat :=
  match l with
  | [] => None
  | sub :: r => if (sa_aoffset sub <=? cur) && (cur <? sa_offset sub + sa_size sub) then Some i else find_subarea r (S i) cur
  end.
(** Db/dbdata.c l.362-411: the loop; 0 is NULL, [None] not enough rounds. *)
Fixpoint next_loop (n : nat) (s : vstate) (cur head : Z) (freemarker : bool) : option Z :=
  match n with
  | O => None
  | S n' =>
      let cur := cur + (if freemarker then getfreeobjectsize head else getusedobjectsize head) in
      let head := fetch s cur in
      if isnormalusedobject head then Some cur
      else if isfreeobject head then next_loop n' s cur head true
      else if fetch s (cur + 8) =? SPECIALGINT1DV then next_loop n' s cur head false
      else
        let subs := rev (vsubs s) in
        match find_subarea subs 0 cur with
        | None => Some 0
        | Some i =>
            match nth_error subs (S i) with
            | None => Some 0
            | Some sub => next_loop n' s (sa_aoffset sub) (fetch s (sa_aoffset sub)) false
            end
        end
  end.
(** Db/dbdata.c l.338-412: wg_get_next_raw_record. *)
Definition wg_get_next_raw_record (n : nat) (s : vstate) (record : Z) : option Z :=
  let head := fetch s record in
  if isfreeobject head then Some 0 else next_loop n s record head false.
(** Db/dbdata.c l.317-333: wg_get_first_raw_record. *)
Definition wg_get_first_raw_record (n : nat) (s : vstate) : option Z :=
  match rev (vsubs s) with
  | [] => Some 0
  | sub :: _ => wg_get_next_raw_record n s (sa_aoffset sub)
  end.

(** Db/dbdata.h l.257, l.264, l.270-271: is_special_record. *)
Definition is_special_record (s : vstate) (record : Z) : bool := negb (Z.land (fetch s (record + 8)) 1 =? 0).
(** Db/dbdata.c l.306-312: wg_get_next_record; [k] bounds the rounds of its loop. *)
Fixpoint wg_get_next_record (k n : nat) (s : vstate) (record : Z) : option Z :=
  match k with
  | O => None
  | S k' =>
      match wg_get_next_raw_record n s record with
      | None => None
      | Some res => if negb (res =? 0) && is_special_record s res then wg_get_next_record k' n s res else Some res
      end
  end.
(** Db/dbdata.c l.296-301: wg_get_first_record. *)
Definition wg_get_first_record (k n : nat) (s : vstate) : option Z :=
  match wg_get_first_raw_record n s with
  | None => None
  | Some res => if negb (res =? 0) && is_special_record s res then wg_get_next_record k n s res else Some res
  end.
