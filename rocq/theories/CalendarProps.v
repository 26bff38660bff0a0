(** Properties C04, C05. *)
From Coq Require Import ZArith List Bool Lia.
From Verif Require Import Base EncodingModel EncodingProofs CalendarModel CalendarSpec CalendarProofs.
Import ListNotations.
Open Scope Z_scope.

(** C04: valid dates (up to year 5000000, well beyond 9999) convert and convert
    back. *)
Theorem C04_roundtrip : forall y m d, valid_date (y, m, d) -> y <= 5000000 ->
  wg_ymd_to_date y m d <> -1 /\ 1 <= wg_ymd_to_date y m d < 2 ^ 31 /\
  wg_date_to_ymd (wg_ymd_to_date y m d) = Some (y, m, d).
Proof. exact date_roundtrip_ymd. Qed.
Print Assumptions C04_roundtrip.

(** C04: day numbers are consecutive, starting with 1 on 1 January of year 1. *)
Theorem C04_consecutive : wg_ymd_to_date 1 1 1 = 1 /\
  forall y m d y' m' d', valid_date (y, m, d) -> next_day (y, m, d) = (y', m', d') -> y' <= 5000000 ->
    wg_ymd_to_date y' m' d' = wg_ymd_to_date y m d + 1.
Proof.
  split; [reflexivity|]. intros y m d y' m' d' V E H.
  pose proof (date_next (y, m, d) V) as N. rewrite E in N. exact (proj2 (N H)).
Qed.
Print Assumptions C04_consecutive.

(** C04: calendar order is the order of day numbers. *)
Theorem C04_order : forall y1 m1 d1 y2 m2 d2,
  valid_date (y1, m1, d1) -> valid_date (y2, m2, d2) -> y1 <= 5000000 -> y2 <= 5000000 ->
  earlier (y1, m1, d1) (y2, m2, d2) <-> wg_ymd_to_date y1 m1 d1 < wg_ymd_to_date y2 m2 d2.
Proof. exact date_order. Qed.
Print Assumptions C04_order.

(** C04: every day number is some valid date's. *)
Theorem C04_every_day : forall n, 1 <= n < 1800000000 ->
  exists y m d, wg_date_to_ymd n = Some (y, m, d) /\ valid_date (y, m, d) /\ wg_ymd_to_date y m d = n.
Proof. intros n H. destruct (date_surj n H) as (y & m & d & A & B & _ & C). eauto 8. Qed.
Print Assumptions C04_every_day.

(** C04: through the field encoding (dates up to year 9999). *)
Theorem C04_through_encoding : forall y m d, valid_date (y, m, d) -> y <= 9999 ->
  wg_date_to_ymd (wg_decode_date (wg_encode_date (wg_ymd_to_date y m d))) = Some (y, m, d).
Proof.
  intros y m d V H. destruct (date_roundtrip_ymd y m d V) as (_ & R & E); [unfold MAXYEAR; lia|].
  assert (B : wg_ymd_to_date y m d <= wg_ymd_to_date 9999 12 31).
  { destruct (Z_lt_le_dec (wg_ymd_to_date 9999 12 31) (wg_ymd_to_date y m d)) as [L|L]; [|exact L].
    apply date_order in L; try (unfold MAXYEAR; lia); [|cbn; lia|exact V].
    destruct V as (V1 & V2 & V3). cbn [earlier] in L.
    pose proof (month_length_bounds (leap_yearb y) m). lia. }
  change (wg_ymd_to_date 9999 12 31) with 3652059 in B.
  assert (D : MINDATE <= wg_ymd_to_date y m d <= MAXDATE) by (unfold MINDATE, MAXDATE; lia).
  rewrite (proj1 (date_roundtrip _ D)). exact E.
Qed.
Print Assumptions C04_through_encoding.

Example C04_ex : valid_date (2000, 2, 29) /\ next_day (2000, 2, 29) = (2000, 3, 1) /\
  wg_ymd_to_date 2000 2 29 = 730179 /\ wg_date_to_ymd 730179 = Some (2000, 2, 29).
Proof. vm_compute. repeat split; discriminate. Qed.

(** The other direction fails: impossible dates are accepted and mean another
    day, and year 0 is accepted although it has no day number. *)
Theorem C04_rejects_invalid_refuted :
  (wg_ymd_to_date 2011 2 31 <> -1 /\ wg_date_to_ymd (wg_ymd_to_date 2011 2 31) = Some (2011, 3, 3)) /\
  (wg_ymd_to_date 0 1 1 <> -1 /\ wg_date_to_ymd (wg_ymd_to_date 0 1 1) = Some (2851611, 2, 9)).
Proof. vm_compute. repeat split; discriminate. Qed.
Print Assumptions C04_rejects_invalid_refuted.

(** Months and days out of their general range and negative years are refused. *)
Theorem C04_rejects_out_of_range : forall y m d, y < 0 \/ ~ 1 <= m <= 12 \/ ~ 1 <= d <= 31 -> wg_ymd_to_date y m d = -1.
Proof.
  intros y m d H. unfold wg_ymd_to_date.
  destruct (Z.ltb_spec y 0), (Z.ltb_spec m 1), (Z.ltb_spec 12 m), (Z.ltb_spec d 1), (Z.ltb_spec 31 d); try reflexivity. exfalso. lia.
Qed.
Print Assumptions C04_rejects_out_of_range.
Example C04_rejects_out_of_range_ex : ~ 1 <= 32 <= 31 /\ wg_ymd_to_date 2011 1 32 = -1 /\ wg_ymd_to_date 2011 1 31 = 734168.
Proof. split; [lia|split; reflexivity]. Qed.

(** C05: times of day. *)
Theorem C05_roundtrip : forall h m s c, valid_time h m s c ->
  0 <= wg_hms_to_time h m s c < 8640000 /\ wg_time_to_hms (wg_hms_to_time h m s c) = (h, m, s, c).
Proof. exact hms_roundtrip. Qed.
Print Assumptions C05_roundtrip.

Theorem C05_every_time : forall n, 0 <= n < 8640000 ->
  exists h m s c, wg_time_to_hms n = (h, m, s, c) /\ valid_time h m s c /\ wg_hms_to_time h m s c = n.
Proof. exact hms_surj. Qed.
Print Assumptions C05_every_time.

Theorem C05_order : forall h1 m1 s1 c1 h2 m2 s2 c2, valid_time h1 m1 s1 c1 -> valid_time h2 m2 s2 c2 ->
  time_earlier (h1, m1, s1, c1) (h2, m2, s2, c2) <-> wg_hms_to_time h1 m1 s1 c1 < wg_hms_to_time h2 m2 s2 c2.
Proof. exact hms_order. Qed.
Print Assumptions C05_order.

(** C05: through the field encoding. *)
Theorem C05_through_encoding : forall h m s c, valid_time h m s c ->
  wg_time_to_hms (wg_decode_time (wg_encode_time (wg_hms_to_time h m s c))) = (h, m, s, c).
Proof.
  intros h m s c V. destruct (hms_roundtrip h m s c V) as (R & E).
  assert (D : 0 <= wg_hms_to_time h m s c <= MAXTIME) by (unfold MAXTIME; lia).
  rewrite (proj1 (time_roundtrip _ D)). exact E.
Qed.
Print Assumptions C05_through_encoding.

Example C05_ex : valid_time 23 59 59 99 /\ wg_hms_to_time 23 59 59 99 = 8639999 /\
  wg_time_to_hms 8639999 = (23, 59, 59, 99).
Proof. split; [unfold valid_time; lia|split; reflexivity]. Qed.

(** Parts out of their range are refused (24 hours, 60 minutes and 60 seconds are
    taken). *)
Theorem C05_rejects_out_of_range : forall h m s c, ~ 0 <= h <= 24 \/ ~ 0 <= m <= 60 \/ ~ 0 <= s <= 60 \/ ~ 0 <= c <= 99 -> wg_hms_to_time h m s c = -1.
Proof.
  intros h m s c H. unfold wg_hms_to_time.
  destruct (Z.ltb_spec h 0), (Z.ltb_spec 24 h); try reflexivity; destruct (Z.ltb_spec m 0), (Z.ltb_spec 60 m); try reflexivity;
  destruct (Z.ltb_spec s 0), (Z.ltb_spec 60 s); try reflexivity; destruct (Z.ltb_spec c 0), (Z.ltb_spec 99 c); try reflexivity. exfalso. lia.
Qed.
Print Assumptions C05_rejects_out_of_range.
Example C05_rejects_out_of_range_ex : ~ 0 <= 61 <= 60 /\ wg_hms_to_time 1 61 0 0 = -1 /\ wg_hms_to_time 1 59 0 0 <> -1.
Proof. split; [lia|split; [reflexivity|discriminate]]. Qed.
