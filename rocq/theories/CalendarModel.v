(** Calendar and time-of-day conversions (Db/dbdata.c l.1809-1860, l.2892-2932).
    [unsigned] is 32 bits, [long] is 64 bits, [int] is 32 bits. *)
From Coq Require Import ZArith List Bool.
From Verif Require Import Base.
Open Scope Z_scope.

(** Db/dbdata.c l.2896 [isleap]. *)
Definition isleap (yr : Z) : bool :=
  (yr mod 400 =? 0) || ((yr mod 4 =? 0) && negb (yr mod 100 =? 0)).

(** Db/dbdata.c l.2900 [months_to_days], unsigned arithmetic. *)
Definition months_to_days (month : Z) : Z := u32 (month * 3057 - 3007) / 100.

(** Db/dbdata.c l.2904 [years_to_days]. *)
Definition years_to_days (yr : Z) : Z := wrap64 (yr * 365 + yr / 4 - yr / 100 + yr / 400).

(** Db/dbdata.c l.2908 [ymd_to_scalar]; arguments are unsigned; [yr--] wraps
    to 2^32-1 for year 0. *)
Definition ymd_to_scalar (yr mo day : Z) : Z :=
  let scalar := u32 (day + months_to_days mo) in
  let scalar := if 2 <? mo then scalar - (if isleap yr then 1 else 2) else scalar in
  wrap64 (scalar + years_to_days (u32 (yr - 1))).

(** Db/dbdata.c l.2921: [for (n = ...; years_to_days(n) < scalar;) n++].
    Fuel exhaustion gives [None]. *)
Fixpoint year_loop (fuel : nat) (n scalar : Z) : option Z :=
  if years_to_days n <? scalar
  then match fuel with
       | O => None
       | S f => year_loop f (u32 (n + 1)) scalar
       end
  else Some n.

(** Db/dbdata.c l.2918 [scalar_to_ymd]. *)
Definition scalar_to_ymd (scalar : Z) : option (Z * Z * Z) :=
  match year_loop 16 (u32 (Z.quot (wrap64 (scalar * 400)) 146097)) scalar with
  | None => None
  | Some yr =>
      let n := u32 (scalar - years_to_days (u32 (yr - 1))) in
      let n := if 59 <? n then
                 let n := u32 (n + 2) in
                 if isleap yr then u32 (n - (if 62 <? n then 1 else 2)) else n
               else n in
      let mo := u32 (n * 100 + 3007) / 3057 in
      Some (yr, mo, u32 (n - months_to_days mo))
  end.

(** Db/dbdata.c l.1810 [wg_ymd_to_date]; the long result is returned as int. *)
Definition wg_ymd_to_date (yr mo day : Z) : Z :=
  if (yr <? 0) || (mo <? 1) || (12 <? mo) || (day <? 1) || (31 <? day) then -1
  else wrap32 (ymd_to_scalar yr mo day).

(** Db/dbdata.c l.1823 [wg_date_to_ymd]; unsigned results stored in ints. *)
Definition wg_date_to_ymd (date : Z) : option (Z * Z * Z) :=
  match scalar_to_ymd date with
  | None => None
  | Some (y, m, d) => Some (wrap32 y, wrap32 m, wrap32 d)
  end.

(** Db/dbdata.c l.1816 [wg_hms_to_time]. *)
Definition wg_hms_to_time (hr min sec prt : Z) : Z :=
  if (hr <? 0) || (24 <? hr) || (min <? 0) || (60 <? min) || (sec <? 0) || (60 <? sec)
     || (prt <? 0) || (99 <? prt) then -1
  else wrap32 (hr * (60 * 60 * 100) + min * (60 * 100) + sec * 100 + prt).

(** Db/dbdata.c l.1833 [wg_time_to_hms]; C division truncates. *)
Definition wg_time_to_hms (time : Z) : Z * Z * Z * Z :=
  let hr := Z.quot time (60 * 60 * 100) in
  let t := time - hr * (60 * 60 * 100) in
  let min := Z.quot t (60 * 100) in
  let t := t - min * (60 * 100) in
  let sec := Z.quot t 100 in
  (hr, min, sec, t - sec * 100).
