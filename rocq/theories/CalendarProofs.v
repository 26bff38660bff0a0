From Coq Require Import ZArith List Bool Lia.
From Verif Require Import Base CalendarModel CalendarSpec.
Import ListNotations.
Open Scope Z_scope.

Lemma leap_yearb_spec y : leap_yearb y = true <-> leap_year y.
Proof.
  unfold leap_yearb, leap_year. rewrite orb_true_iff, andb_true_iff, negb_true_iff, !Z.eqb_eq, Z.eqb_neq.
  rewrite <- !Z.mod_divide by lia. tauto.
Qed.

Lemma isleap_eq y : isleap y = leap_yearb y.
Proof. unfold isleap, leap_yearb. apply orb_comm. Qed.

(** Years handled by [int] day numbers. *)
Definition MAXYEAR := 5000000.

Definition ytd (y : Z) : Z := y * 365 + y / 4 - y / 100 + y / 400.

Lemma years_to_days_eq y : 0 <= y <= 2 * MAXYEAR -> years_to_days y = ytd y.
Proof. unfold MAXYEAR, years_to_days, ytd. intros H. apply wrap64_id. unfold is64. lia. Qed.

Lemma u32_id z : 0 <= z < 2 ^ 32 -> u32 z = z.
Proof. unfold u32. intros. apply Z.mod_small. assumption. Qed.

(** Day of the year, computed by the code. *)
Definition doy (leap : bool) (m d : Z) : Z :=
  d + months_to_days m - (if 2 <? m then (if leap then 1 else 2) else 0).

(** Month and day from the day of the year, as in the code. *)
Definition undoy (leap : bool) (n : Z) : Z * Z :=
  let n := if 59 <? n then
             let n := u32 (n + 2) in
             if leap then u32 (n - (if 62 <? n then 1 else 2)) else n
           else n in
  let mo := u32 (n * 100 + 3007) / 3057 in
  (mo, u32 (n - months_to_days mo)).

Definition zrange (n : nat) : list Z := map Z.of_nat (seq 1 n).
Lemma zrange_in n z : In z (zrange n) <-> 1 <= z <= Z.of_nat n.
Proof.
  unfold zrange. rewrite in_map_iff. split.
  - intros (k & <- & Hk). apply in_seq in Hk. lia.
  - intros H. exists (Z.to_nat z). split; [lia|]. apply in_seq. lia.
Qed.

Definition year_len (leap : bool) : Z := if leap then 366 else 365.

Definition check_doy (leap : bool) : bool :=
  forallb (fun m => forallb (fun d =>
     if d <=? month_length leap m then
       let n := doy leap m d in
       (1 <=? n) && (n <=? year_len leap) && (u32 (d + months_to_days m) =? d + months_to_days m) &&
       (fst (undoy leap n) =? m) && (snd (undoy leap n) =? d) &&
       (if d <? month_length leap m then doy leap m (d + 1) =? n + 1
        else if m <? 12 then doy leap (m + 1) 1 =? n + 1 else n =? year_len leap)
     else true) (zrange 31)) (zrange 12).
Definition check_undoy (leap : bool) : bool :=
  forallb (fun n => if n <=? year_len leap then
     let '(m, d) := undoy leap n in
     (1 <=? m) && (m <=? 12) && (1 <=? d) && (d <=? month_length leap m) && (doy leap m d =? n)
     else true) (zrange 366).

Lemma check_doy_ok leap : check_doy leap = true.
Proof. destruct leap; vm_compute; reflexivity. Qed.
Lemma check_undoy_ok leap : check_undoy leap = true.
Proof. destruct leap; vm_compute; reflexivity. Qed.

Lemma month_length_bounds leap m : 28 <= month_length leap m <= 31.
Proof. unfold month_length. destruct (m =? 2), leap; try lia; destruct (_ || _); lia. Qed.

Lemma doy_facts leap m d : 1 <= m <= 12 -> 1 <= d <= month_length leap m ->
  1 <= doy leap m d <= year_len leap /\ u32 (d + months_to_days m) = d + months_to_days m /\
  undoy leap (doy leap m d) = (m, d) /\
  (if d <? month_length leap m then doy leap m (d + 1) = doy leap m d + 1
   else if m <? 12 then doy leap (m + 1) 1 = doy leap m d + 1 else doy leap m d = year_len leap).
Proof.
  intros Hm Hd. pose proof (month_length_bounds leap m).
  pose proof (check_doy_ok leap) as H1. unfold check_doy in H1.
  rewrite forallb_forall in H1. specialize (H1 m (proj2 (zrange_in 12 m) Hm)).
  rewrite forallb_forall in H1. specialize (H1 d (proj2 (zrange_in 31 d) ltac:(lia))).
  destruct (Z.leb_spec d (month_length leap m)); [|lia].
  rewrite !andb_true_iff, !Z.leb_le, !Z.eqb_eq in H1.
  destruct H1 as (((((A & B) & C) & D) & E) & F).
  split; [lia|]. split; [exact C|]. split; [rewrite (surjective_pairing (undoy _ _)); congruence|].
  destruct (d <? _); [|destruct (m <? 12)]; apply Z.eqb_eq; exact F.
Qed.

Lemma undoy_facts leap n : 1 <= n <= year_len leap ->
  let '(m, d) := undoy leap n in 1 <= m <= 12 /\ 1 <= d <= month_length leap m /\ doy leap m d = n.
Proof.
  intros Hn. pose proof (check_undoy_ok leap) as H1. unfold check_undoy in H1.
  rewrite forallb_forall in H1.
  assert (Hl : year_len leap <= 366) by (destruct leap; cbn; lia).
  specialize (H1 n (proj2 (zrange_in 366 n) ltac:(lia))).
  destruct (Z.leb_spec n (year_len leap)); [|lia].
  destruct (undoy leap n) as (m, d). rewrite !andb_true_iff, !Z.leb_le, Z.eqb_eq in H1. lia.
Qed.

Lemma ytd_step y : 1 <= y -> ytd y = ytd (y - 1) + year_len (leap_yearb y).
Proof.
  intros H. unfold ytd, leap_yearb, year_len.
  destruct (Z.eqb_spec (y mod 4) 0); destruct (Z.eqb_spec (y mod 100) 0); destruct (Z.eqb_spec (y mod 400) 0);
    cbn [andb orb negb]; lia.
Qed.

Lemma ytd_mono a b : 0 <= a <= b -> ytd a <= ytd b.
Proof. unfold ytd. lia. Qed.

Lemma ymd_to_date_eq y m d :
  valid_date (y, m, d) -> y <= MAXYEAR ->
  wg_ymd_to_date y m d = ytd (y - 1) + doy (leap_yearb y) m d.
Proof.
  intros (Hy & Hm & Hd) Hmax. unfold MAXYEAR in *.
  pose proof (month_length_bounds (leap_yearb y) m).
  destruct (doy_facts _ _ _ Hm Hd) as (Hr & Hu & _).
  unfold wg_ymd_to_date.
  destruct (Z.ltb_spec y 0); [lia|]. destruct (Z.ltb_spec m 1); [lia|]. destruct (Z.ltb_spec 12 m); [lia|].
  destruct (Z.ltb_spec d 1); [lia|]. destruct (Z.ltb_spec 31 d); [lia|]. cbn [orb].
  unfold ymd_to_scalar. rewrite Hu, u32_id, years_to_days_eq by (unfold MAXYEAR; lia).
  rewrite isleap_eq. unfold doy in *.
  assert (Hyl : 1 <= year_len (leap_yearb y) <= 366) by (unfold year_len; destruct (leap_yearb y); lia).
  assert (Hyt : 0 <= ytd (y - 1) <= 1900000000) by (unfold ytd; lia).
  destruct (2 <? m); rewrite wrap64_id by (unfold is64; lia); rewrite wrap32_id by (unfold is32; lia); lia.
Qed.

Lemma year_loop_ok y scalar : forall fuel n,
  1 <= y <= MAXYEAR -> 0 <= n <= y -> (Z.to_nat (y - n) <= fuel)%nat ->
  ytd (y - 1) < scalar <= ytd y -> year_loop fuel n scalar = Some y.
Proof.
  unfold MAXYEAR. induction fuel as [|f IH]; intros n Hy Hn Hf Hs; cbn [year_loop];
    rewrite years_to_days_eq by (unfold MAXYEAR; lia).
  - replace n with y by lia. destruct (Z.ltb_spec (ytd y) scalar); [lia|reflexivity].
  - destruct (Z.eq_dec n y) as [->|Hne].
    + destruct (Z.ltb_spec (ytd y) scalar); [lia|reflexivity].
    + pose proof (ytd_mono n (y - 1) ltac:(lia)).
      destruct (Z.ltb_spec (ytd n) scalar); [|lia]. rewrite u32_id by lia. apply IH; lia.
Qed.

Lemma first_guess y scalar : 1 <= y <= MAXYEAR -> ytd (y - 1) < scalar <= ytd y ->
  0 <= scalar * 400 / 146097 <= y /\ y - scalar * 400 / 146097 <= 16.
Proof. unfold MAXYEAR, ytd. lia. Qed.

Lemma date_to_ymd_eq y n : 1 <= y <= MAXYEAR -> 1 <= n <= year_len (leap_yearb y) ->
  wg_date_to_ymd (ytd (y - 1) + n) = Some (y, fst (undoy (leap_yearb y) n), snd (undoy (leap_yearb y) n)).
Proof.
  intros Hy Hn. pose proof (ytd_step y ltac:(lia)) as Hst.
  assert (Hs : ytd (y - 1) < ytd (y - 1) + n <= ytd y) by lia.
  destruct (first_guess _ _ Hy Hs) as (G1 & G2).
  assert (Hyt : 0 <= ytd (y - 1) <= 1900000000) by (unfold MAXYEAR, ytd in *; lia).
  assert (Hyl : year_len (leap_yearb y) <= 366) by (destruct (leap_yearb y); cbn; lia).
  unfold wg_date_to_ymd, scalar_to_ymd. rewrite wrap64_id by (unfold is64; lia).
  rewrite Z.quot_div_nonneg by lia. unfold MAXYEAR in *. rewrite u32_id by lia.
  rewrite (year_loop_ok y); try (unfold MAXYEAR; lia).
  rewrite (u32_id (y - 1)) by lia. rewrite years_to_days_eq by (unfold MAXYEAR; lia).
  replace (ytd (y - 1) + n - ytd (y - 1)) with n by ring. rewrite (u32_id n) by lia.
  rewrite isleap_eq. pose proof (undoy_facts _ _ Hn) as Hu. unfold undoy in *. cbv zeta in Hu |- *.
  set (k := if 59 <? n then _ else _) in *. cbn [fst snd].
  destruct Hu as (U1 & U2 & _). pose proof (month_length_bounds (leap_yearb y) (u32 (k * 100 + 3007) / 3057)).
  rewrite !wrap32_id by (unfold is32; lia). reflexivity.
Qed.

Lemma date_roundtrip_ymd y m d : valid_date (y, m, d) -> y <= MAXYEAR ->
  wg_ymd_to_date y m d <> -1 /\ 1 <= wg_ymd_to_date y m d < 2 ^ 31 /\
  wg_date_to_ymd (wg_ymd_to_date y m d) = Some (y, m, d).
Proof.
  intros Hv Hmax. pose proof Hv as (Hy & Hm & Hd). rewrite ymd_to_date_eq by assumption.
  destruct (doy_facts _ _ _ Hm Hd) as (Hr & _ & Hu & _).
  assert (Hyt : 0 <= ytd (y - 1) <= 1900000000) by (unfold MAXYEAR, ytd in *; lia).
  assert (Hyl : year_len (leap_yearb y) <= 366) by (destruct (leap_yearb y); cbn; lia).
  split; [lia|]. split; [lia|]. rewrite date_to_ymd_eq by (try lia). rewrite Hu. reflexivity.
Qed.

Lemma date_next t : valid_date t -> fst (fst (next_day t)) <= MAXYEAR ->
  let '(y, m, d) := t in let '(y', m', d') := next_day t in
  valid_date (y', m', d') /\ wg_ymd_to_date y' m' d' = wg_ymd_to_date y m d + 1.
Proof.
  destruct t as ((y, m), d). intros Hv Hmax. pose proof Hv as (Hy & Hm & Hd).
  destruct (doy_facts _ _ _ Hm Hd) as (Hr & _ & _ & Hs).
  cbn [next_day] in *. destruct (Z.ltb_spec d (month_length (leap_yearb y) m)).
  - assert (Hv' : valid_date (y, m, d + 1)) by (cbn; lia). split; [exact Hv'|].
    rewrite !ymd_to_date_eq by (try assumption; cbn in *; lia). lia.
  - destruct (Z.ltb_spec m 12).
    + pose proof (month_length_bounds (leap_yearb y) (m + 1)).
      assert (Hv' : valid_date (y, m + 1, 1)) by (cbn; lia). split; [exact Hv'|].
      rewrite !ymd_to_date_eq by (try assumption; cbn in *; lia). lia.
    + assert (Hv' : valid_date (y + 1, 1, 1)) by (cbn; lia). split; [exact Hv'|].
      rewrite !ymd_to_date_eq by (try assumption; cbn in *; lia). rewrite Hs.
      replace (y + 1 - 1) with y by ring. rewrite (ytd_step y) by lia.
      replace (doy (leap_yearb (y + 1)) 1 1) with 1 by reflexivity. lia.
Qed.

Lemma doy_mono leap m1 d1 m2 d2 : 1 <= m1 <= 12 -> 1 <= d1 <= month_length leap m1 ->
  1 <= m2 <= 12 -> 1 <= d2 <= month_length leap m2 ->
  (m1 < m2 \/ (m1 = m2 /\ d1 < d2)) -> doy leap m1 d1 < doy leap m2 d2.
Proof.
  intros Hm1 Hd1 Hm2 Hd2 H.
  assert (Hmm : forall m, 1 <= m < 12 -> doy leap m (month_length leap m) < doy leap (m + 1) 1).
  { intros m Hm. pose proof (month_length_bounds leap m).
    destruct (doy_facts leap m (month_length leap m) ltac:(lia) ltac:(lia)) as (_ & _ & _ & F).
    rewrite Z.ltb_irrefl in F. destruct (Z.ltb_spec m 12); lia. }
  assert (Hdd : forall m a b, doy leap m a <= doy leap m b <-> a <= b) by (intros; unfold doy; lia).
  destruct H as [H|(-> & H)]; [|unfold doy; lia].
  assert (Hall : forall k m, (k = Z.to_nat (m - m1))%nat -> m1 < m <= 12 -> doy leap m1 (month_length leap m1) < doy leap m 1).
  { induction k as [|k IH]; intros m Hk Hm; [lia|].
    destruct (Z.eq_dec m (m1 + 1)) as [->|Hne]; [apply Hmm; lia|].
    specialize (IH (m - 1) ltac:(lia) ltac:(lia)). specialize (Hmm (m - 1) ltac:(lia)).
    replace (m - 1 + 1) with m in Hmm by ring.
    pose proof (month_length_bounds leap (m - 1)).
    pose proof (proj2 (Hdd (m - 1) 1 (month_length leap (m - 1))) ltac:(lia)). lia. }
  specialize (Hall _ m2 eq_refl ltac:(lia)).
  pose proof (proj2 (Hdd m1 d1 (month_length leap m1)) ltac:(lia)).
  pose proof (proj2 (Hdd m2 1 d2) ltac:(lia)). lia.
Qed.

Lemma date_order_lt y1 m1 d1 y2 m2 d2 :
  valid_date (y1, m1, d1) -> valid_date (y2, m2, d2) -> y1 <= MAXYEAR -> y2 <= MAXYEAR ->
  earlier (y1, m1, d1) (y2, m2, d2) -> wg_ymd_to_date y1 m1 d1 < wg_ymd_to_date y2 m2 d2.
Proof.
  intros V1 V2 M1 M2 H. rewrite !ymd_to_date_eq by assumption.
  destruct V1 as (A1 & A2 & A3), V2 as (B1 & B2 & B3).
  destruct (doy_facts _ _ _ A2 A3) as (R1 & _). destruct (doy_facts _ _ _ B2 B3) as (R2 & _).
  cbn [earlier] in H. destruct H as [H|(-> & H)].
  - pose proof (ytd_step y1 ltac:(lia)). pose proof (ytd_mono y1 (y2 - 1) ltac:(lia)). lia.
  - pose proof (doy_mono _ _ _ _ _ A2 A3 B2 B3 H). lia.
Qed.

Lemma date_order y1 m1 d1 y2 m2 d2 :
  valid_date (y1, m1, d1) -> valid_date (y2, m2, d2) -> y1 <= MAXYEAR -> y2 <= MAXYEAR ->
  earlier (y1, m1, d1) (y2, m2, d2) <-> wg_ymd_to_date y1 m1 d1 < wg_ymd_to_date y2 m2 d2.
Proof.
  intros V1 V2 M1 M2. split; [apply date_order_lt; assumption|]. intros H.
  assert (T : earlier (y1, m1, d1) (y2, m2, d2) \/ (y1, m1, d1) = (y2, m2, d2) \/ earlier (y2, m2, d2) (y1, m1, d1)).
  { cbn [earlier]. destruct (Z.lt_trichotomy y1 y2) as [?|[->|?]]; [tauto| |tauto].
    destruct (Z.lt_trichotomy m1 m2) as [?|[->|?]]; [tauto| |tauto].
    destruct (Z.lt_trichotomy d1 d2) as [?|[->|?]]; tauto. }
  destruct T as [T|[T|T]]; auto.
  - injection T as -> -> ->. lia.
  - apply date_order_lt in T; auto. lia.
Qed.

Lemma date_surj n : 1 <= n < 1800000000 ->
  exists y m d, wg_date_to_ymd n = Some (y, m, d) /\ valid_date (y, m, d) /\ y <= MAXYEAR /\ wg_ymd_to_date y m d = n.
Proof.
  intros Hn.
  assert (E : exists y, 1 <= y <= MAXYEAR /\ ytd (y - 1) < n <= ytd y).
  { unfold MAXYEAR. assert (H : ytd 0 < n <= ytd 5000000) by (unfold ytd; lia).
    assert (G : forall k, ytd (Z.of_nat k) >= n -> exists y, 1 <= y <= Z.of_nat k /\ ytd (y - 1) < n <= ytd y).
    { induction k as [|k IH]; intros Hk; [change (ytd (Z.of_nat 0)) with 0 in Hk; lia|].
      destruct (Z_lt_le_dec (ytd (Z.of_nat k)) n).
      - exists (Z.of_nat (S k)). split; [lia|]. replace (Z.of_nat (S k) - 1) with (Z.of_nat k) by lia. lia.
      - destruct IH as (y & Hy & Hyt); [lia|]. exists y. split; [lia|exact Hyt]. }
    destruct (G (Z.to_nat 5000000)) as (y & Hy & Hyt).
    - rewrite Z2Nat.id by lia. lia.
    - exists y. split; [rewrite Z2Nat.id in Hy by lia; lia|exact Hyt]. }
  destruct E as (y & Hy & Hs). pose proof (ytd_step y ltac:(lia)).
  pose proof (date_to_ymd_eq y (n - ytd (y - 1)) Hy ltac:(lia)) as Hd.
  replace (ytd (y - 1) + (n - ytd (y - 1))) with n in Hd by ring.
  pose proof (undoy_facts (leap_yearb y) (n - ytd (y - 1)) ltac:(lia)) as Hu.
  destruct (undoy _ _) as (m, d). cbn [fst snd] in Hd. destruct Hu as (U1 & U2 & U3).
  exists y, m, d. assert (V : valid_date (y, m, d)) by (cbn; lia).
  repeat split; auto; try lia. rewrite ymd_to_date_eq by (auto; lia). lia.
Qed.

Lemma hms_eq h m s c : valid_time h m s c -> wg_hms_to_time h m s c = h * 360000 + m * 6000 + s * 100 + c.
Proof.
  intros (Hh & Hm & Hs & Hc). unfold wg_hms_to_time.
  destruct (Z.ltb_spec h 0); [lia|]. destruct (Z.ltb_spec 24 h); [lia|].
  destruct (Z.ltb_spec m 0); [lia|]. destruct (Z.ltb_spec 60 m); [lia|].
  destruct (Z.ltb_spec s 0); [lia|]. destruct (Z.ltb_spec 60 s); [lia|].
  destruct (Z.ltb_spec c 0); [lia|]. destruct (Z.ltb_spec 99 c); [lia|]. cbn [orb].
  rewrite wrap32_id by (unfold is32; lia). lia.
Qed.

Lemma hms_roundtrip h m s c : valid_time h m s c ->
  0 <= wg_hms_to_time h m s c < 8640000 /\
  wg_time_to_hms (wg_hms_to_time h m s c) = (h, m, s, c).
Proof.
  intros V. rewrite hms_eq by assumption. destruct V as (Hh & Hm & Hs & Hc). split; [lia|].
  unfold wg_time_to_hms. cbv zeta.
  change (60 * 60 * 100) with 360000. change (60 * 100) with 6000.
  rewrite Z.quot_div_nonneg by lia.
  replace ((h * 360000 + m * 6000 + s * 100 + c) / 360000) with h by lia.
  replace (h * 360000 + m * 6000 + s * 100 + c - h * 360000) with (m * 6000 + s * 100 + c) by ring.
  rewrite Z.quot_div_nonneg by lia. replace ((m * 6000 + s * 100 + c) / 6000) with m by lia.
  replace (m * 6000 + s * 100 + c - m * 6000) with (s * 100 + c) by ring.
  rewrite Z.quot_div_nonneg by lia. replace ((s * 100 + c) / 100) with s by lia.
  do 2 f_equal; ring.
Qed.

Lemma hms_surj n : 0 <= n < 8640000 ->
  exists h m s c, wg_time_to_hms n = (h, m, s, c) /\ valid_time h m s c /\ wg_hms_to_time h m s c = n.
Proof.
  intros Hn. set (h := n / 360000). set (m := n mod 360000 / 6000). set (s := n mod 6000 / 100). set (c := n mod 100).
  assert (V : valid_time h m s c) by (unfold valid_time, h, m, s, c; lia).
  assert (E : wg_hms_to_time h m s c = n) by (rewrite hms_eq by assumption; unfold h, m, s, c; lia).
  exists h, m, s, c. split; [|auto]. rewrite <- E. apply hms_roundtrip. exact V.
Qed.

Lemma hms_order h1 m1 s1 c1 h2 m2 s2 c2 : valid_time h1 m1 s1 c1 -> valid_time h2 m2 s2 c2 ->
  time_earlier (h1, m1, s1, c1) (h2, m2, s2, c2) <-> wg_hms_to_time h1 m1 s1 c1 < wg_hms_to_time h2 m2 s2 c2.
Proof. intros V1 V2. rewrite !hms_eq by assumption. unfold valid_time, time_earlier in *. lia. Qed.
