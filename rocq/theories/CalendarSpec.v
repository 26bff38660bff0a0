(** The Gregorian calendar, independently of the code. *)
From Coq Require Import ZArith List Bool.
Import ListNotations.
Open Scope Z_scope.

Definition leap_year (y : Z) : Prop := (Z.divide 4 y /\ ~ Z.divide 100 y) \/ Z.divide 400 y.

Definition leap_yearb (y : Z) : bool :=
  ((y mod 4 =? 0) && negb (y mod 100 =? 0)) || (y mod 400 =? 0).

Definition month_length (leap : bool) (m : Z) : Z :=
  if m =? 2 then (if leap then 29 else 28)
  else if (m =? 4) || (m =? 6) || (m =? 9) || (m =? 11) then 30 else 31.

Definition date := (Z * Z * Z)%type.

Definition valid_date (t : date) : Prop :=
  let '(y, m, d) := t in
  1 <= y /\ 1 <= m <= 12 /\ 1 <= d <= month_length (leap_yearb y) m.

Definition next_day (t : date) : date :=
  let '(y, m, d) := t in
  if d <? month_length (leap_yearb y) m then (y, m, d + 1)
  else if m <? 12 then (y, m + 1, 1) else (y + 1, 1, 1).

Definition earlier (a b : date) : Prop :=
  let '(y1, m1, d1) := a in
  let '(y2, m2, d2) := b in
  y1 < y2 \/ (y1 = y2 /\ (m1 < m2 \/ (m1 = m2 /\ d1 < d2))).

Definition valid_time (h m s c : Z) : Prop := 0 <= h < 24 /\ 0 <= m < 60 /\ 0 <= s < 60 /\ 0 <= c < 100.

Definition time_earlier (a b : Z * Z * Z * Z) : Prop :=
  let '(h1, m1, s1, c1) := a in
  let '(h2, m2, s2, c2) := b in
  h1 < h2 \/ (h1 = h2 /\ (m1 < m2 \/ (m1 = m2 /\ (s1 < s2 \/ (s1 = s2 /\ c1 < c2))))).
