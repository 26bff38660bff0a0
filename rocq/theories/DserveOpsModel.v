(** Which records a request to dserve handles (Server/dserve.c l.555-814), and the order of authorization,
    attaching and locking (Server/dserve.c l.555-1103). *)
From Coq Require Import ZArith List Bool.
From Coq Require String.
From Verif Require Import DserveModel DserveConfModel.
Import ListNotations.
Import String.StringSyntax.
Open Scope Z_scope.

(** Server/dserve.h l.263-266. *)
Inductive opcode := COUNT_CODE | SEARCH_CODE | DELETE_CODE | UPDATE_CODE.
(** Server/dserve.h l.107. *)
Definition MAXCOUNT : Z := 100000.
(** Server/dserve.h l.108. *)
Definition MAXIDS : nat := 1000.
(** LONG_MAX of limits.h (Server/dserve.c l.584). *)
Definition LONG_MAX : Z := 9223372036854775807.
(** Conversion to unsigned long (Server/dserve.c l.573, l.626, l.689). *)
Definition ulong (z : Z) : Z := z mod 18446744073709551616.

(** ** Numbers in parameters *)
(** The digits at the start of a text (Server/dserve.c l.606, l.624, l.626: atoi). *)
Fixpoint take_digits (s : list Z) : list Z :=
  match s with c :: r => if isdigit c then c :: take_digits r else [] | [] => [] end.
(** Blanks at the start of a text are passed by atoi (Server/dserve.c l.606). *)
Fixpoint drop_space (s : list Z) : list Z :=
  match s with c :: r => if isspace c then drop_space r else s | [] => [] end.
(** atoi of any text; [None] when the number does not fit in int (Server/dserve.c l.606, l.624, l.626). *)
Definition atoi_text (s : list Z) : option Z :=
  let fit v := if (-2147483648 <=? v) && (v <=? 2147483647) then Some v else None in
  match drop_space s with
  | c :: r =>
      if c =? 45 then fit (- digits_value (take_digits r))
      else if c =? 43 then fit (digits_value (take_digits r))
      else fit (digits_value (take_digits (c :: r)))
  | [] => Some 0
  end.
(** Server/dserve.c l.608: on to the next comma. *)
Fixpoint to_comma (s : list Z) : list Z :=
  match s with c :: r => if c =? 44 then s else to_comma r | [] => [] end.
(** Server/dserve.c l.605-609: the record ids in the value of recids. *)
Fixpoint recids (fuel : nat) (s : list Z) (acc : list Z) : option (list Z) :=
  match fuel with
  | O => None
  | S fuel =>
      match s with
      | [] => Some acc
      | _ =>
          match atoi_text s with
          | None => None
          | Some v =>
              let acc := if 0 <? v then acc ++ [v] else acc in
              if Nat.leb MAXIDS (length acc) then Some acc else recids fuel (tl (to_comma s)) acc
          end
      end
  end.
(** Server/dserve.c l.566, l.603: the array with zeros behind the ids. *)
Definition id_array (ids : list Z) : list Z := ids ++ repeat 0 (MAXIDS - length ids).

(** ** Parameters of a search *)
(** What the parameters say (Server/dserve.c l.561-573). [p_from], [p_count] are the C variables. *)
Record sparams := Sp { p_ids : option (list Z); p_fields : list (list Z); p_values : list (list Z); p_compares : list (list Z);
  p_types : list (list Z); p_from : Z; p_count : Z; p_sfcount : Z }.
(** Server/dserve.c l.571-573, l.584-585: defaults; sfcount is not initialised. *)
Definition sp_start (op : opcode) (junk : Z) : sparams :=
  Sp None [] [] [] [] 0 (match op with COUNT_CODE => LONG_MAX | _ => MAXCOUNT end) junk.
(** Server/dserve.c l.599-631: one parameter; the generic ones change nothing here. [None] is undefined. *)
Definition search_param (p : sparams) (name value : list Z) : option sparams :=
  let 'Sp i f v c t fr co sf := p in
  if streq name (bytes "recids") then
    match recids (S (length value)) value [] with Some ids => Some (Sp (Some ids) f v c t fr co sf) | None => None end
  else if streq name (bytes "fld") then
    (if (0 <=? sf) && (sf <? Z.of_nat MAXPARAMS) then Some (Sp i f v c t fr co (sf + 1)) else None)
  else if streq name (bytes "field") then
    (if Nat.ltb (length f) MAXPARAMS then Some (Sp i (f ++ [value]) v c t fr co sf) else None)
  else if streq name (bytes "value") then
    (if Nat.ltb (length v) MAXPARAMS then Some (Sp i f (v ++ [value]) c t fr co sf) else None)
  else if streq name (bytes "compare") then
    (if Nat.ltb (length c) MAXPARAMS then Some (Sp i f v (c ++ [value]) t fr co sf) else None)
  else if streq name (bytes "type") then
    (if Nat.ltb (length t) MAXPARAMS then Some (Sp i f v c (t ++ [value]) fr co sf) else None)
  else if streq name (bytes "from") then
    match atoi_text value with Some n => Some (Sp i f v c t n co sf) | None => None end
  else if streq name (bytes "count") then
    match atoi_text value with Some n => Some (Sp i f v c t fr (ulong n) sf) | None => None end
  else Some p.
(** Server/dserve.c l.598-632: all parameters. *)
Fixpoint search_params (p : sparams) (l : list (list Z * list Z)) : option sparams :=
  match l with
  | [] => Some p
  | (n, v) :: r => match search_param p n v with Some p => search_params p r | None => None end
  end.

(** ** Records handled *)
Section Select.
Variable rec : Type.
(** Server/dserve.c l.706: wg_get_record_len above 0. *)
Variable haslen : rec -> bool.

(** Server/dserve.c l.687-713: full scan over the records in the order of the database; the records printed,
    counted, updated or handed to wg_delete_record. *)
Fixpoint full_scan (op : opcode) (from count rcount gcount : Z) (recs : list rec) : list rec :=
  match recs with
  | [] => []
  | r :: rest =>
      let del := if haslen r then [r] else [] in
      if ulong from <=? rcount then
        (if count <? gcount + 1 then []
         else match op with DELETE_CODE => del | _ => [r] end ++ full_scan op from count (rcount + 1) (gcount + 1) rest)
      else match op with DELETE_CODE => del | _ => [] end ++ full_scan op from count (rcount + 1) gcount rest
  end.
(** Server/dserve.c l.774-792: the records of a query; [recs] is what wg_fetch gives. *)
Fixpoint field_scan (from count rcount gcount : Z) (recs : list rec) : list rec :=
  match recs with
  | [] => []
  | r :: rest =>
      let take := ulong from <=? rcount in
      let gcount := if take then gcount + 1 else gcount in
      (if take then [r] else []) ++ (if count <=? gcount then [] else field_scan from count (rcount + 1) gcount rest)
  end.
End Select.

(** Memory of the database by byte offset: the gint there, [None] outside of the segment (Db/dballoc.h l.196). *)
Definition mem := Z -> option Z.
(** Server/dserve.c l.717, Db/dbdata.c l.1358-1405: is the type of the id WG_RECORDTYPE? For long strings the type is
    read from memory (Db/dbdata.h l.329-333, l.616, l.625). *)
Definition is_record (m : mem) (id : Z) : option bool :=
  if Z.land id 3 =? 3 then Some false
  else if Z.land id 7 =? 0 then Some true
  else if Z.land id 7 =? 4 then match m (id - 4 + 8) with Some w => Some (Z.land w 255 =? 2) | None => None end
  else Some false.
(** Db/dbdata.c l.582-591, Db/dballoc.h l.229: wg_get_record_len of the record at the id. *)
Definition record_len (m : mem) (id : Z) : option Z :=
  match m id with Some w => Some (Z.shiftr (Z.land w (-4)) 3 - 3) | None => None end.
(** Server/dserve.c l.716-746: the records by ids that are handled; the id is read before [j] is compared
    with MAXIDS. *)
Fixpoint id_scan (fuel : nat) (m : mem) (count gcount : Z) (arr : list Z) (j : nat) : option (list Z) :=
  match fuel with
  | O => None
  | S fuel =>
      match nth_error arr j with
      | None => None
      | Some id =>
          if (id =? 0) || negb (Nat.ltb j MAXIDS) then Some []
          else
            match is_record m id with
            | None => None
            | Some false => id_scan fuel m count gcount arr (S j)
            | Some true =>
                match record_len m id with
                | None => None
                | Some x =>
                    if x <=? 0 then id_scan fuel m count gcount arr (S j)
                    else if count <? gcount + 1 then Some []
                    else match id_scan fuel m count (gcount + 1) arr (S j) with Some l => Some (id :: l) | None => None end
                end
            end
      end
  end.

(** ** Order of actions *)
(** Kinds of lock (Server/dserve.h l.249-250). *)
Inductive lock := READ_LOCK | WRITE_LOCK.
(** What a request does (Server/dserve.c l.555-1103): successful authorization for a level, attaching, creating or dropping a database,
    locking, work on a record, and the ways back. *)
Inductive ev :=
| E_auth (l : level)
| E_attach | E_create | E_drop | E_detach
| E_lock (k : lock) | E_unlock (k : lock)
| E_read (r : nat) | E_write (r : nat)
| E_alloc | E_free
| E_error | E_done | E_null | E_terminate.
(** Answers of the calls a request makes (Server/dserve.c l.598-812): parameters understood, authorized for reading, writing and
    administration, parameters fit together, attached, created, buffer allocated, start printed, shutdown seen, locked, query made, work done
    on which record without failing, number printed, unlocked (also in the error path), end printed, detached, dropped. *)
Record world := W { w_params : bool; w_auth : level -> bool; w_check : bool; w_attach : bool; w_create : bool; w_alloc : bool;
  w_start : bool; w_shutdown : bool; w_lock : bool; w_query : bool; w_work : nat -> bool; w_number : bool; w_unlock : bool; w_unlock_err : bool;
  w_end : bool; w_detach : bool; w_drop : bool }.
(** Server/dserve_util.c l.1019-1053: err_clear_detach_halt; db, lock and buffer as noted in tdata. *)
Definition err_clear_detach_halt (w : world) (db : bool) (lk : option lock) : list ev :=
  match (if db then lk else None) with
  | Some k => if w_unlock_err w then [E_unlock k] ++ [E_detach; E_free; E_error] else [E_terminate]
  | None => (if db then [E_detach] else []) ++ [E_free; E_error]
  end.
(** Server/dserve.c l.687-796: the records handled, one after the other; printing may fail. The flag tells whether all went well. *)
Fixpoint work (w : world) (op : opcode) (recs : list nat) : list ev * bool :=
  match recs with
  | [] => ([], true)
  | r :: rest =>
      match op with
      | SEARCH_CODE =>
          if w_work w r then let '(t, ok) := work w op rest in (E_read r :: t, ok) else ([E_read r], false)
      | COUNT_CODE => let '(t, ok) := work w op rest in (E_read r :: t, ok)
      | _ => let '(t, ok) := work w op rest in (E_write r :: t, ok)
      end
  end.
(** Server/dserve.c l.555-814: search. *)
Definition search (w : world) (op : opcode) (recs : list nat) : list ev :=
  let lv := match op with DELETE_CODE | UPDATE_CODE => WRITE_LEVEL | _ => READ_LEVEL end in
  if negb (w_params w) then [E_error]
  else if negb (w_auth w lv) then [E_error]
  else E_auth lv ::
    (if negb (w_check w) then [E_error]
     else if negb (w_attach w) then [E_error]
     else E_attach ::
       (if negb (w_alloc w) then [E_error]
        else E_alloc ::
          (if negb (w_start w) then err_clear_detach_halt w true None
           else if w_shutdown w then [E_null]
           else if negb (w_lock w) then err_clear_detach_halt w true None
           else E_lock READ_LOCK ::
             (if negb (w_query w) then err_clear_detach_halt w true (Some READ_LOCK)
              else let '(t, ok) := work w op recs in
              t ++
              (if negb ok then err_clear_detach_halt w true (Some READ_LOCK)
               else if match op with COUNT_CODE | DELETE_CODE => negb (w_number w) | _ => false end
                    then err_clear_detach_halt w true (Some READ_LOCK)
               else if negb (w_unlock w) then err_clear_detach_halt w true (Some READ_LOCK)
               else [E_unlock READ_LOCK; E_detach] ++
                 (if negb (w_end w) then err_clear_detach_halt w false None else [E_done])))))).
(** Server/dserve.c l.819-953: insert; no record is made, the parser is commented out. *)
Definition insert (w : world) : list ev :=
  if negb (w_params w) then [E_error]
  else if negb (w_auth w WRITE_LEVEL) then [E_error]
  else E_auth WRITE_LEVEL ::
    (let go :=
       if negb (w_alloc w) then [E_error]
       else E_alloc ::
         (if w_shutdown w then [E_null]
          else if negb (w_lock w) then err_clear_detach_halt w (w_attach w) None
          else E_lock WRITE_LOCK ::
            (if negb (w_number w) then err_clear_detach_halt w (w_attach w) (Some WRITE_LOCK)
             else if negb (w_unlock w) then err_clear_detach_halt w (w_attach w) (Some WRITE_LOCK)
             else [E_unlock WRITE_LOCK; E_detach] ++
               (if negb (w_end w) then err_clear_detach_halt w false None else [E_done]))) in
     if w_attach w then E_attach :: go
     else if negb (w_auth w ADMIN_LEVEL) then [E_error]
     else E_auth ADMIN_LEVEL ::
       (if w_shutdown w then [E_null]
        else if negb (w_create w) then err_clear_detach_halt w false None
        else E_create :: E_attach :: go)).
(** Server/dserve.c l.959-1027: create. *)
Definition create (w : world) : list ev :=
  if negb (w_params w) then [E_error]
  else if negb (w_auth w ADMIN_LEVEL) then [E_error]
  else E_auth ADMIN_LEVEL ::
    (if negb (w_alloc w) then [E_error]
     else E_alloc ::
       (if w_shutdown w then [E_null]
        else if negb (w_create w) then [E_error]
        else [E_create; E_attach] ++
          (if negb (w_number w) then err_clear_detach_halt w true None
           else E_detach :: (if negb (w_end w) then err_clear_detach_halt w false None else [E_done])))).
(** Server/dserve.c l.1031-1103: drop; [w_check] is the test of the list of databases. *)
Definition drop (w : world) : list ev :=
  if negb (w_params w) then [E_error]
  else if negb (w_auth w ADMIN_LEVEL) then [E_error]
  else E_auth ADMIN_LEVEL ::
    (if negb (w_alloc w) then [E_error]
     else E_alloc ::
       (if negb (w_check w) then [E_error]
        else if negb (w_attach w) then [E_error]
        else E_attach ::
          (if w_shutdown w then [E_null]
           else if negb (w_lock w) then err_clear_detach_halt w true None
           else E_lock WRITE_LOCK ::
             (if negb (w_detach w) then err_clear_detach_halt w true (Some WRITE_LOCK)
              else E_detach ::
                (if negb (w_drop w) then [E_error]
                 else E_drop ::
                   (if negb (w_number w) then err_clear_detach_halt w false None
                    else if negb (w_end w) then [E_error] else [E_done])))))).
