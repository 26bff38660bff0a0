(** Variable-length integers of the journal (Db/dblog.c l.270-440, 64-bit). *)
From Coq Require Import ZArith List Bool.
From Verif Require Import Base.
Import ListNotations.
Open Scope Z_scope.

(** [(unsigned char)((val >> k) | 0x80)], [(unsigned char)(val >> k)] and the
    final [&= 0x7f] of Db/dblog.c l.270-327. *)
Definition more_byte (val k : Z) : Z := Z.land (Z.lor (Z.shiftr val k) 0x80) 0xff.
(** Db/dblog.c l.270-327. *)
Definition last_byte (val k : Z) : Z := Z.land (more_byte val k) 0x7f.
(** Db/dblog.c l.270-327. *)
Definition full_byte (val k : Z) : Z := Z.land (Z.shiftr val k) 0xff.

(** Db/dblog.c l.270-327 [enc_varint]: the bytes written. *)
Definition enc_varint (val : Z) : list Z :=
  if 2 ^ 7 <=? val then
    more_byte val 0 ::
    if 2 ^ 14 <=? val then
      more_byte val 7 ::
      if 2 ^ 21 <=? val then
        more_byte val 14 ::
        if 2 ^ 28 <=? val then
          more_byte val 21 ::
          if 2 ^ 35 <=? val then
            more_byte val 28 ::
            if 2 ^ 42 <=? val then
              more_byte val 35 ::
              if 2 ^ 49 <=? val then
                more_byte val 42 ::
                if 2 ^ 56 <=? val then
                  more_byte val 49 :: [full_byte val 56]
                else [last_byte val 49]
              else [last_byte val 42]
            else [last_byte val 35]
          else [last_byte val 28]
        else [last_byte val 21]
      else [last_byte val 14]
    else [last_byte val 7]
  else [last_byte val 0].

(** Db/dblog.c l.400-441 [fget_varint] over the rest of the file; [None] is the
    error return at end of file. [k] counts the bytes read so far; [tmp] is
    the value accumulated. The ninth byte is taken whole (l.430). *)
Fixpoint fget_varint_from (n : nat) (tmp k : Z) (f : list Z) : option (Z * list Z) :=
  match f with
  | [] => None
  | c :: f' =>
      match n with
      | O => Some (Z.lor tmp (Z.shiftl c k), f')
      | S n' =>
          let tmp' := Z.lor tmp (Z.shiftl (Z.land c 0x7f) k) in
          if Z.land c 0x80 =? 0 then Some (tmp', f')
          else fget_varint_from n' tmp' (k + 7) f'
      end
  end.
(** Db/dblog.c l.400-441, l.430. *)
Definition fget_varint (f : list Z) : option (Z * list Z) := fget_varint_from 8 0 0 f.

(** The [(wg_uint)] casts at the call sites (Db/dblog.c l.1018-1171) and the
    pointer cast of [GET_LOG_VARINT] (l.97-100). *)
Definition log_gint (v : Z) : list Z := enc_varint (u64 v).
(** Db/dblog.c l.1018-1171, l.97-100. *)
Definition read_gint (f : list Z) : option (Z * list Z) :=
  match fget_varint f with
  | None => None
  | Some (v, rest) => Some (wrap64 v, rest)
  end.
