(** The answer of dserve: the growing output buffer and the printing of values and records
    into it (Server/dserve_util.c, Server/dserve.c). A buffer is the list of its bytes, -1 for a
    byte never written; writing outside of the buffer, or into or freeing a freed one, is [Bad]. *)
From Coq Require Import ZArith List Bool.
From Verif Require Import Base CsvModel DserveModel.
Import ListNotations.
Open Scope Z_scope.

(** tdata->buf, tdata->bufptr - tdata->buf; bufsize is the length of [s_buf]
    (Server/dserve.h l.334-336). *)
Record ost := Ost { s_buf : list Z; s_ptr : nat; s_freed : bool }.
(** Outcomes of the printing functions: 1 or a pointer, 0 or NULL, an access outside of the
    buffer, no return (Server/dserve_util.c l.215, l.302-303). *)
Inductive out := Good (st : ost) | Fail (st : ost) | Bad | Loop.

(** Server/dserve.h l.126-129. *)
Definition INITIAL_MALLOC : nat := Z.to_nat 1000.
(** Server/dserve.h l.127. *)
Definition MAX_MALLOC : Z := 100000000.
(** Server/dserve.h l.128. *)
Definition MIN_STRLEN : Z := 100.
(** Server/dserve.h l.129. *)
Definition STRLEN_FACTOR : Z := 6.

(** A run of chars stored one after the other from position [p] on (Server/dserve_util.c l.458-545). *)
Definition store (st : ost) (p : nat) (l : list Z) : option ost :=
  if s_freed st then None
  else if Nat.leb (p + length l) (length (s_buf st))
  then Some (Ost (firstn p (s_buf st) ++ l ++ skipn (p + length l) (s_buf st)) (s_ptr st) false)
  else None.
(** snprintf(p, limit, ..) of a text (Server/dserve_util.c l.321). *)
Definition snprintf (st : ost) (p : nat) (limit : Z) (t : list Z) : option ost :=
  store st p (firstn (Z.to_nat (limit - 1)) t ++ [0]).
(** Moving bufptr (Server/dserve_util.c l.240). *)
Definition at_ptr (st : ost) (p : nat) : ost := Ost (s_buf st) p (s_freed st).
(** *bptr+strlen( *bptr), stored into bufptr by the caller (Server/dserve_util.c l.322, l.268). *)
Definition adv (st : option ost) : out :=
  match st with
  | None => Bad
  | Some st =>
      match strlen_from (s_buf st) (s_ptr st) with
      | Some n => Good (at_ptr st (s_ptr st + n))
      | None => Bad
      end
  end.
(** Storing one char at bufptr and moving on: **bptr = c; ( *bptr)++ (Server/dserve_util.c l.239-240). *)
Definition putc (st : ost) (c : Z) : out :=
  match store st (s_ptr st) [c] with Some st => Good (at_ptr st (S (s_ptr st))) | None => Bad end.
(** Going on after a success (Server/dserve_util.c l.231: if not, return 0). *)
Definition bind (o : out) (f : ost -> out) : out :=
  match o with Good st => f st | Fail st => Fail st | Bad => Bad | Loop => Loop end.

(** Server/dserve_util.c l.598-607: str_new. *)
Definition str_new (len : nat) : ost := Ost (repeat (-1) (len - 1) ++ [0]) 0 false.

(** Server/dserve_util.c l.622-653: str_guarantee_space; [alloc] tells whether realloc gives that many bytes. *)
Definition str_guarantee_space (alloc : Z -> bool) (needed : Z) (st : ost) : out :=
  let size := Z.of_nat (length (s_buf st)) in
  if size - Z.of_nat (s_ptr st) <? needed then
    let newlen := size * 2 in
    let newlen := if newlen <? needed then needed else newlen in
    if MAX_MALLOC <? newlen then Fail st
    else if alloc newlen
    then Good (Ost (s_buf st ++ repeat (-1) (Z.to_nat (newlen - size - 1)) ++ [0]) (s_ptr st) (s_freed st))
    else Fail (Ost (s_buf st) (s_ptr st) true)
  else Good st.

(** How to print (Server/dserve.h l.324-333): json or csv, record ids, depth, kind of escapes. *)
Record pconf := Pconf { c_json : bool; c_showid : bool; c_depth : Z; c_maxdepth : Z; c_strenc : Z }.

(** hex_chars (Server/dserve_util.c l.455). *)
Definition hexchar (d : Z) : Z := if d <? 10 then 48 + d else 87 + d.
(** Server/dserve_util.c l.499-504, l.570-577: a percent sign and two digits. *)
Definition urlesc (c : Z) : list Z :=
  if (c <? 32) || (c =? 37) || (c =? 34) || (126 <? c) then [37; hexchar (c / 16); hexchar (c mod 16)] else [c].
(** Server/dserve_util.c l.512-542: the escapes of json. *)
Definition jsonesc (c : Z) : list Z :=
  if c =? 8 then [92; 98]
  else if c =? 10 then [92; 110]
  else if c =? 13 then [92; 114]
  else if c =? 9 then [92; 116]
  else if c =? 12 then [92; 102]
  else if c =? 34 then [92; 34]
  else if c =? 92 then [92; 92]
  else if c =? 47 then [92; 47]
  else if c <? 32 then [92; 117; 48; 48; hexchar (c / 16); hexchar (c mod 16)]
  else [c].
(** Server/dserve_util.c l.464-543: one char of the string. *)
Definition esc (strenc c : Z) : list Z :=
  if strenc =? 0 then [c]
  else if strenc =? 3 then (if c =? 34 then [34; 34] else [c])
  else if strenc =? 1 then urlesc c
  else jsonesc c.
(** Server/dserve_util.c l.452-548: sprint_string of a string (without 0) at position [p]. *)
Definition sprint_string (st : ost) (p : nat) (limit : nat) (s : list Z) (strenc : Z) : option ost :=
  store st p (34 :: concat (map (esc strenc) (firstn limit s)) ++ [34; 0]).
(** Server/dserve_util.c l.551-581: sprint_blob. *)
Definition sprint_blob (st : ost) (p : nat) (limit : nat) (s : list Z) : option ost :=
  store st p (34 :: concat (map urlesc (firstn limit s)) ++ [34; 0]).

(** A decoded value, as the decoding functions give it (Server/dserve_util.c l.316-425); texts of
    doubles, dates and times are those of snprintf "%g" and wg_strf_iso_datetime. *)
Inductive dval :=
| D_null
| D_rec (enc : Z)
| D_int (n : Z)
| D_num (t : list Z)
| D_str (s : list Z) (lang : option (list Z))
| D_uri (s : list Z) (prefix : option (list Z))
| D_xml (s t : list Z)
| D_char (c : Z)
| D_date (t : list Z)
| D_var (n : Z)
| D_blob (s : list Z)
| D_other.

(** The length of a string as an int (Server/dserve_util.c l.357). *)
Definition zlen (s : list Z) : Z := Z.of_nat (length s).
(** strlen of a string that may be NULL (Server/dserve_util.c l.359-360). *)
Definition olen (s : option (list Z)) : Z := match s with Some s => zlen s | None => 0 end.

(** Server/dserve_util.c l.307-427: sprint_value with the move of bufptr by the caller (l.268);
    [rp] is sprint_record. *)
Definition sprint_value (alloc : Z -> bool) (cf : pconf) (rp : Z -> ost -> out) (v : dval) (st : ost) : out :=
  let fixed t := bind (str_guarantee_space alloc MIN_STRLEN st) (fun st => adv (snprintf st (s_ptr st) MIN_STRLEN t)) in
  match v with
  | D_null =>
      bind (str_guarantee_space alloc MIN_STRLEN st)
        (fun st => if c_json cf then adv (snprintf st (s_ptr st) MIN_STRLEN [91; 93]) else Good st)
  | D_rec enc =>
      bind (str_guarantee_space alloc MIN_STRLEN st)
        (fun st =>
           if negb (c_json cf) || (c_maxdepth cf <=? c_depth cf)
           then adv (snprintf st (s_ptr st) MIN_STRLEN (print_int (wrap32 enc)))
           else
             match rp enc st with
             | Good st | Fail st =>
                 match store st (s_ptr st) [0] with Some st => Good st | None => Bad end
             | Bad => Bad
             | Loop => Loop
             end)
  | D_int n => fixed (print_int (wrap32 n))
  | D_num t => fixed t
  | D_str s lang =>
      bind (str_guarantee_space alloc (MIN_STRLEN + STRLEN_FACTOR * (zlen s + olen lang)) st)
        (fun st =>
           match sprint_string st (s_ptr st) (length s + Z.to_nat (olen lang)) s (c_strenc cf) with
           | None => Bad
           | Some st =>
               match lang with
               | None => adv (Some st)
               | Some e => adv (snprintf st (s_ptr st + length s + 1) MIN_STRLEN (64 :: e ++ [34]))
               end
           end)
  | D_uri s prefix =>
      let limit := MIN_STRLEN + STRLEN_FACTOR * (zlen s + olen prefix) in
      bind (str_guarantee_space alloc limit st)
        (fun st =>
           adv (snprintf st (s_ptr st) limit
                  (34 :: match prefix with None => s | Some e => e ++ 58 :: s end ++ [34])))
  | D_xml s t =>
      let limit := MIN_STRLEN + STRLEN_FACTOR * (zlen s + zlen t) in
      bind (str_guarantee_space alloc limit st)
        (fun st => adv (snprintf st (s_ptr st) limit (34 :: t ++ 58 :: s ++ [34])))
  | D_char c => fixed [34; c; 34]
  | D_date t => fixed (34 :: t ++ [34])
  | D_var n => fixed (34 :: 63 :: print_int n ++ [34])
  | D_blob s =>
      bind (str_guarantee_space alloc (MIN_STRLEN + STRLEN_FACTOR * zlen (cstring s)) st)
        (fun st => adv (sprint_blob st (s_ptr st) (length s) (cstring s)))
  | D_other => fixed [34; 34]
  end.

(** Server/dserve_util.c l.253-269: the fields of a record; [sep] says that a separator comes first. *)
Fixpoint sprint_fields (alloc : Z -> bool) (pv : dval -> ost -> out) (fs : list dval) (sep : bool) (st : ost) : out :=
  match fs with
  | [] => Good st
  | v :: r =>
      bind (str_guarantee_space alloc MIN_STRLEN st)
        (fun st => bind (if sep then putc st 44 else Good st)
           (fun st => bind (pv v st) (fun st => sprint_fields alloc pv r true st)))
  end.
(** Server/dserve_util.c l.221-278: sprint_record of the record with encoding [enc]; [heap] gives the
    fields of a record. *)
Fixpoint sprint_record (fuel : nat) (alloc : Z -> bool) (cf : pconf) (heap : Z -> option (list dval)) (enc : Z) (st : ost) : out :=
  match fuel with
  | O => Loop
  | S fuel =>
      bind (str_guarantee_space alloc MIN_STRLEN st)
        (fun st => bind (if c_json cf then putc st 91 else Good st)
           (fun st =>
              match heap enc with
              | None => Fail st
              | Some fs =>
                  bind (if c_showid cf then adv (snprintf st (s_ptr st) (MIN_STRLEN - 1) (print_int (wrap32 enc))) else Good st)
                    (fun st => bind (sprint_fields alloc (sprint_value alloc cf (sprint_record fuel alloc cf heap)) fs (c_showid cf) st)
                       (fun st =>
                          if c_json cf
                          then bind (str_guarantee_space alloc MIN_STRLEN st) (fun st => putc st 93)
                          else Good st))
              end))
  end.

(** snprintf and bufptr += itmp, the length of the whole text (Server/dserve.c l.1215-1217). *)
Definition snprintf_all (st : ost) (t : list Z) : out :=
  match snprintf st (s_ptr st) MIN_STRLEN t with
  | Some st => Good (at_ptr st (s_ptr st + length t))
  | None => Bad
  end.
(** Server/dserve.c l.1208-1226: op_print_data_start. *)
Definition op_print_data_start (alloc : Z -> bool) (cf : pconf) (jsonp : option (list Z)) (listflag : bool) (st : ost) : out :=
  bind (str_guarantee_space alloc MIN_STRLEN st)
    (fun st =>
       if c_json cf then
         match jsonp with
         | Some j => snprintf_all st (if listflag then j ++ [40; 91; 10] else j ++ [40])
         | None => if listflag then snprintf_all st [91; 10] else Good st
         end
       else Good st).
(** Server/dserve.c l.1231-1249: op_print_data_end. *)
Definition op_print_data_end (alloc : Z -> bool) (cf : pconf) (jsonp : option (list Z)) (listflag : bool) (st : ost) : out :=
  bind (str_guarantee_space alloc MIN_STRLEN st)
    (fun st =>
       if c_json cf then
         match jsonp with
         | Some _ => snprintf_all st (if listflag then [10; 93; 41; 59] else [41; 59])
         | None => if listflag then snprintf_all st [10; 93] else Good st
         end
       else Good st).
(** Server/dserve.c l.1110-1128: op_print_record; [first] is gcount = 1. *)
Definition op_print_record (fuel : nat) (alloc : Z -> bool) (cf : pconf) (heap : Z -> option (list dval)) (first : bool) (enc : Z) (st : ost) : out :=
  bind (str_guarantee_space alloc MIN_STRLEN st)
    (fun st => bind (if negb first && c_json cf then snprintf_all st [44; 10] else Good st)
       (fun st => bind (sprint_record fuel alloc cf heap enc st)
          (fun st =>
             if c_json cf then Good st
             else bind (str_guarantee_space alloc MIN_STRLEN st) (fun st => snprintf_all st [13; 10])))).
(** Server/dserve.c l.689-710: the records found are printed one after the other. *)
Fixpoint print_records (fuel : nat) (alloc : Z -> bool) (cf : pconf) (heap : Z -> option (list dval)) (first : bool) (encs : list Z) (st : ost) : out :=
  match encs with
  | [] => Good st
  | e :: r => bind (op_print_record fuel alloc cf heap first e st) (fun st => print_records fuel alloc cf heap false r st)
  end.
(** Server/dserve.c l.664-673, l.689-710, l.811-813: all printing of a search. *)
Definition print_search (fuel : nat) (alloc : Z -> bool) (cf : pconf) (heap : Z -> option (list dval)) (jsonp : option (list Z)) (encs : list Z) : out :=
  bind (op_print_data_start alloc cf jsonp true (str_new INITIAL_MALLOC))
    (fun st => bind (print_records fuel alloc cf heap true encs st)
       (fun st => op_print_data_end alloc cf jsonp true st)).
(** What is sent (Server/dserve.c l.813; Server/dserve_util.c l.1019-1055): the string in the buffer, or an
    error message after the buffer has been freed; [None] is undefined behaviour. *)
Definition answer (o : out) : option (option (list Z)) :=
  match o with
  | Good st => match cstr_at (s_buf st) 0 with Some s => Some (Some s) | None => None end
  | Fail st => if s_freed st then None else Some None
  | Bad => None
  | Loop => None
  end.
