(** Fixpoint numbers with their floating point arithmetic (Db/dbdata.h l.386-396, Db/dbdata.c
    l.1605-1640): the C type double as IEEE binary64 with rounding to nearest even. *)
From Coq Require Import ZArith Bool Floats.SpecFloat.
From Verif Require Import Base EncodingModel CompareModel.
Open Scope Z_scope.

(** Operations of the C type double (Db/dbdata.h l.395-396). *)
Definition dmul (x y : spec_float) : spec_float := SFmul 53 1024 x y.
(** Db/dbdata.h l.395-396. *)
Definition ddiv (x y : spec_float) : spec_float := SFdiv 53 1024 x y.
(** Conversion of an integer to double (Db/dbdata.h l.395-396). *)
Definition double_of_int (i : Z) : spec_float := binary_normalize 53 1024 i 0 false.
(** Db/dbdata.h l.390-392. *)
Definition MAXFIXPOINT := 800.
(** Db/dbdata.h l.390-392. *)
Definition MINFIXPOINT := -800.
(** Db/dbdata.h l.390-392. *)
Definition FIXPOINTDIVISOR : spec_float := double_of_int 10000.

(** Db/dbdata.h l.394: fits_fixpoint of a double. *)
Definition dfits_fixpoint (x : spec_float) : bool :=
  SFleb x (double_of_int MAXFIXPOINT) && SFleb (double_of_int MINFIXPOINT) x.
(** round() and the conversion to int (Db/dbdata.h l.395): halfway cases away from zero;
    [None] is an infinity or NaN. *)
Definition c_round (x : spec_float) : option Z :=
  match x with
  | S754_zero _ => Some 0
  | S754_finite s m e =>
      let v := if 0 <=? e then Z.pos m * 2 ^ e else (Z.pos m + 2 ^ (- e - 1)) / 2 ^ (- e) in
      Some (if s then - v else v)
  | _ => None
  end.
(** Db/dbdata.c l.1605-1628: wg_encode_fixpoint of a double. *)
Definition dencode_fixpoint (x : spec_float) : Z :=
  if dfits_fixpoint x then
    match c_round (dmul x FIXPOINTDIVISOR) with Some p => encode_fixpoint p | None => WG_ILLEGAL end
  else WG_ILLEGAL.
(** Db/dbdata.c l.1630-1640: wg_decode_fixpoint with the macro of Db/dbdata.h l.396. *)
Definition ddecode_fixpoint (e : Z) : spec_float :=
  if isfixpoint e then ddiv (double_of_int (decode_fixpoint e)) FIXPOINTDIVISOR else S754_zero false.
(** The 64 bits of a double (the bytes hashed in Db/dbhash.c l.325-327). *)
Definition bits_of_double (x : spec_float) : Z :=
  let sg (s : bool) := if s then 2 ^ 63 else 0 in
  match x with
  | S754_zero s => sg s
  | S754_infinity s => sg s + 2047 * 2 ^ 52
  | S754_nan => 2047 * 2 ^ 52 + 2 ^ 51
  | S754_finite s m e => sg s + (if Z.pos m <? 2 ^ 52 then Z.pos m else (e + 1075) * 2 ^ 52 + (Z.pos m - 2 ^ 52))
  end.
