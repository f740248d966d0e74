(** C108: Julian dates and the UTC clock.  C109: the decimal year and the space weather row taken for a date. *)
From Coq Require Import Reals Lra Lia List Bool ZArith Psatz String.
From Verif Require Import Base RBase SensorModel ThermalProofs TimeSpec TimeProofs JulianModel JulianProofs.
Import ListNotations.
Open Scope R_scope.

(** * C108 *)
(** A date of the calendar with the given leap-year rule, and the day after it. *)
Definition is_date (leap : Z -> bool) (y m d : Z) : Prop := (1 <= m <= 12)%Z /\ (1 <= d <= month_length leap y m)%Z.
Definition next_day (leap : Z -> bool) (y m d : Z) : Z * Z * Z :=
  if (d <? month_length leap y m)%Z then (y, m, d + 1)%Z else if (m <? 12)%Z then (y, m + 1, 1)%Z else (y + 1, 1, 1)%Z.
Definition is_clock (h mi : Z) (s : R) : Prop := (0 <= h < 24)%Z /\ (0 <= mi < 60)%Z /\ 0 <= s < 60.
Definition jd_of (s : stamp) : R := jday (s_year s) (s_mon s) (s_day s) (s_hr s) (s_min s) (s_sec s).

Lemma leap_rules y : (1901 <= y <= 2099)%Z -> leap_simple y = leap_gregorian y.
Proof.
  intros H. unfold leap_simple, leap_gregorian, divides. destruct (y mod 4 =? 0)%Z eqn:A; [|reflexivity]. cbn [andb].
  destruct (y mod 100 =? 0)%Z eqn:B; [|reflexivity]. cbn [negb orb]. apply Z.eqb_eq in B. destruct (y mod 400 =? 0)%Z eqn:C; [reflexivity|]. apply Z.eqb_neq in C. exfalso. apply C.
  assert (y = 2000)%Z by (Z.to_euclidean_division_equations; lia). subst y. reflexivity.
Qed.
(** The Julian date: 12 h on 1 January 2000 is 2451545; the day after has a Julian date greater by one, for every Gregorian date
    from 1901 to 2099 (and any year when every fourth is a leap year); the time of day counts as its fraction of a day. *)
Theorem C108_julian_date :
  jday 2000 1 1 12 0 0 = 2451545 /\
  (forall y m d h mi s, is_date leap_simple y m d ->
     let '(y', m', d') := next_day leap_simple y m d in jday y' m' d' h mi s = jday y m d h mi s + 1) /\
  (forall y m d h mi s, (1901 <= y <= 2099)%Z -> is_date leap_gregorian y m d ->
     let '(y', m', d') := next_day leap_gregorian y m d in jday y' m' d' h mi s = jday y m d h mi s + 1) /\
  (forall y m d h mi s, jday y m d h mi s = jday y m d 0 0 0 + (IZR h * 3600 + IZR mi * 60 + s) / 86400).
Proof.
  assert (N : forall y m d h mi s, is_date leap_simple y m d ->
     let '(y', m', d') := next_day leap_simple y m d in jday y' m' d' h mi s = jday y m d h mi s + 1).
  { intros y m d h mi s [M D]. unfold next_day.
    assert (K : forall y' m' d', jdn y' m' d' = (jdn y m d + 1)%Z -> jday y' m' d' h mi s = jday y m d h mi s + 1).
    { intros y' m' d' E. rewrite !jday_jdn, E, plus_IZR. lra. }
    destruct (Z.ltb_spec d (month_length leap_simple y m)) as [L|L]; [|destruct (Z.ltb_spec m 12) as [L2|L2]]; apply K.
    - rewrite !(jdn_doy y m) by exact M. lia.
    - rewrite (jdn_doy y m) by exact M. rewrite (jdn_doy y (m + 1)) by lia. replace (Z.to_nat (m + 1 - 1)) with (S (Z.to_nat (m - 1))) by lia. cbn [days_of_months].
      replace (Z.of_nat (S (Z.to_nat (m - 1)))) with m by lia. lia.
    - assert (m = 12%Z) by lia. subst m. rewrite year_len, (jdn_doy y 12) by lia. unfold month_length in D, L. cbn in D, L. rewrite days_of_months_doy, nth_doy by lia.
      set (j := jdn y 1 1). clearbody j. destruct (leap_simple y); cbn; lia. }
  split; [|split; [exact N|split]].
  - rewrite jday_jdn. change (jdn 2000 1 1) with 2451545%Z. lra.
  - intros y m d h mi s Y H. assert (E : forall m, month_length leap_gregorian y m = month_length leap_simple y m) by (intros; unfold month_length; rewrite leap_rules by exact Y; reflexivity).
    unfold is_date in H. rewrite E in H. specialize (N y m d h mi s H). unfold next_day in *. rewrite E. exact N.
  - intros y m d h mi s. rewrite !jday_jdn. lra.
Qed.
Print Assumptions C108_julian_date.

(** Days since 1 January 1970, counted month by month in the Gregorian calendar. *)
Theorem C108_julian_date_1970 : forall y m d h mi s, (1970 <= y <= 2099)%Z -> is_date leap_gregorian y m d ->
  jday y m d h mi s = 2440587.5 + IZR (day_number leap_gregorian y m d) + (IZR h * 3600 + IZR mi * 60 + s) / 86400.
Proof.
  intros y m d h mi s Y [M D]. rewrite jday_jdn.
  assert (E : jdn y m d = (2440588 + day_number leap_gregorian y m d)%Z).
  { pose proof (code_vs_gregorian y m d ltac:(lia) M) as C. rewrite wrong_leaps_2100 in C by (destruct (3 <=? m)%Z; lia). rewrite Z.add_0_r in C. rewrite <- C.
    rewrite code_days_simple by lia. unfold day_number. rewrite simple_years, (jdn_doy y m d M), jan1, Z2Nat.id by lia. Z.to_euclidean_division_equations; lia. }
  rewrite E, plus_IZR. lra.
Qed.
Print Assumptions C108_julian_date_1970.

(** The UTC clock of the simulation: from a valid start and at any elapsed time, the reported calendar date and time (every
    fourth year a leap year) is that of the start plus the elapsed time: exactly, or, on 31 December only, 0.864 microseconds
    early.  Fields are in range; the seconds may be negative by at most 0.864 microseconds.  The date is a valid one
    unless the instant is in the last 0.864 microseconds of a day. *)
Theorem C108_utc_clock : forall (start : stamp) (elapsed : R),
  let now := current_utc start elapsed in
  let jd := jd_of start + elapsed / 86400 in
  (jd_of now = jd \/ (jd_of now = jd - 0.000000864 / 86400 /\ s_mon now = 12%Z /\ s_day now = 31%Z)) /\
  (1 <= s_mon now <= 12)%Z /\ (1 <= s_day now)%Z /\ (0 <= s_hr now < 24)%Z /\ (0 <= s_min now < 60)%Z /\ -0.000000864 <= s_sec now < 60 - 0.000000864 /\
  (Int_part (jd + 1 / 2 + 0.000000864 / 86400) = Int_part (jd + 1 / 2) -> is_date leap_simple (s_year now) (s_mon now) (s_day now)).
Proof.
  intros start t. cbv zeta. unfold current_utc, current_jd. replace (t / (60 * 60 * 24)) with (t / 86400) by (f_equal; ring). fold (jd_of start). set (jd := jd_of start + t / 86400).
  destruct (invjday_spec jd) as (M & D & H & MI & S1 & E & V). assert (NU : 86400 * nudge = 0.000000864) by (unfold nudge; lra). assert (NU2 : 0.000000864 / 86400 = nudge) by (unfold nudge; lra). rewrite NU in S1. rewrite NU2.
  split; [exact E|]. do 5 (split; [first [assumption|lra]|]). intros I. split; [exact M|]. split; [exact D|]. apply V. exact I.
Qed.
Print Assumptions C108_utc_clock.

(** A Julian date computed from a date and time gives that date and time back, provided the seconds are not within
    0.864 microseconds of the end of the minute: exactly, or with 0.864 microseconds less on 31 December. *)
Theorem C108_round_trip : forall y m d h mi s, is_date leap_simple y m d -> is_clock h mi s -> s < 60 - 0.000000864 ->
  invjday (jday y m d h mi s) = mkStamp y m d h mi s \/
  (invjday (jday y m d h mi s) = mkStamp y m d h mi (s - 0.000000864) /\ m = 12%Z /\ d = 31%Z).
Proof.
  intros y m d h mi s [M D] (H & MI & SE) SN. pose proof (invjday_spec (jday y m d h mi s)) as I. cbv zeta in I.
  destruct (invjday (jday y m d h mi s)) as [y' m' d' h' mi' s'] eqn:EI. cbn [s_year s_mon s_day s_hr s_min s_sec] in I.
  destruct I as (M' & D' & H' & MI' & S' & E & V). assert (NU : 86400 * nudge = 0.000000864) by (unfold nudge; lra). rewrite NU in S'.
  assert (HR : 0 <= IZR h <= 23) by (split; [apply (IZR_le 0)|apply (IZR_le h 23)]; lia). assert (MR : 0 <= IZR mi <= 59) by (split; [apply (IZR_le 0)|apply (IZR_le mi 59)]; lia).
  assert (HR' : 0 <= IZR h' <= 23) by (split; [apply (IZR_le 0)|apply (IZR_le h' 23)]; lia). assert (MR' : 0 <= IZR mi' <= 59) by (split; [apply (IZR_le 0)|apply (IZR_le mi' 59)]; lia).
  assert (V' : (d' <= month_length leap_simple y' m')%Z).
  { apply V. rewrite jday_jdn. transitivity (jdn y m d); [|symmetry]; apply Int_part_unique; lra. }
  clear V. rewrite !jday_jdn in E.
  assert (T : exists ee, (ee = 0 \/ (ee = 0.000000864 /\ m' = 12%Z /\ d' = 31%Z)) /\ IZR (jdn y' m' d') - IZR (jdn y m d) = (3600 * IZR h + 60 * IZR mi + (s - ee) - (3600 * IZR h' + 60 * IZR mi' + s')) / 86400).
  { destruct E as [E|(E & E1 & E2)]; [exists 0; split; [left; reflexivity|lra]|exists 0.000000864; split; [right; repeat split; assumption|unfold nudge in E; lra]]. }
  destruct T as (ee & EE & T). assert (EB : 0 <= ee <= 0.000000864) by (destruct EE as [->|(-> & _)]; lra).
  assert (J : jdn y' m' d' = jdn y m d).
  { enough (- 1 < jdn y' m' d' - jdn y m d < 1)%Z by lia. split; apply lt_IZR; rewrite minus_IZR; rewrite T; lra. }
  destruct (jdn_inj y' m' d' y m d M' M (conj D' V') D J) as (-> & -> & ->).
  replace (IZR (jdn y m d) - IZR (jdn y m d)) with 0 in T by ring.
  assert (T2 : IZR ((60 * h + mi) - (60 * h' + mi')) * 60 = s' - (s - ee)) by (rewrite minus_IZR, !plus_IZR, !mult_IZR; lra).
  assert (HH : (60 * h + mi = 60 * h' + mi')%Z).
  { enough (- 1 < (60 * h + mi) - (60 * h' + mi') < 1)%Z by lia. split; apply lt_IZR; lra. }
  assert (h' = h) by lia. assert (mi' = mi) by lia. subst h' mi'. rewrite Z.sub_diag in T2.
  destruct EE as [->|(-> & X1 & X2)]; [left|right; split; [|split; assumption]]; f_equal; lra.
Qed.
Print Assumptions C108_round_trip.

(** The reported date is not always a valid one: at the end of 2023 it is 32 December for 0.864 microseconds. *)
Theorem C108_valid_date_refuted :
  ~ (forall (start : stamp) (elapsed : R), is_date leap_gregorian (s_year start) (s_mon start) (s_day start) -> is_clock (s_hr start) (s_min start) (s_sec start) ->
       (2000 <= s_year start <= 2050)%Z -> 0 <= elapsed <= 86400 ->
       let now := current_utc start elapsed in (s_day now <= 31)%Z).
Proof.
  intros H. specialize (H (mkStamp 2023 12 31 0 0 0) (86400 - 1 / 10 ^ 7)). cbv zeta in H. cbn [s_year s_mon s_day s_hr s_min s_sec] in H.
  assert (X : (s_day (current_utc (mkStamp 2023 12 31 0 0 0) (86400 - 1 / 10 ^ 7)) <= 31)%Z).
  { apply H; [split; [lia|cbn; lia]|unfold is_clock; repeat split; try lia; lra|lia|lra]. }
  unfold current_utc, current_jd in X. cbn [s_year s_mon s_day s_hr s_min s_sec] in X. rewrite jday_jdn in X. change (jdn 2023 12 31) with 2460310%Z in X.
  set (jd := 2460310 - 1 / 2 + (3600 * 0 + 60 * 0 + 0) / 86400 + (86400 - 1 / 10 ^ 7) / (60 * 60 * 24)) in *.
  assert (J : 2460310.5 - 2 / 10 ^ 12 < jd < 2460310.5 - 1 / 10 ^ 12) by (unfold jd; lra).
  assert (I : Int_part ((jd - 2415019.5) / 365.25) = 123%Z) by (apply Int_part_unique; lra).
  unfold invjday, year_and_days in X. rewrite I in X. change (1900 + 123)%Z with 2023%Z in X. change (2023 - 1901)%Z with 122%Z in X. change (2023 - 1900)%Z with 123%Z in X.
  assert (I2 : Int_part (122 * 0.25) = 30%Z) by (apply Int_part_unique; lra). rewrite I2 in X.
  rewrite rlt_false in X by lra. unfold days2mdhms in X.
  assert (I3 : Int_part (jd - 2415019.5 - (123 * 365 + 30) + 1 / 10 ^ 11) = 366%Z) by (apply Int_part_unique; lra). rewrite I3 in X.
  revert X. cbn. lia.
Qed.
Print Assumptions C108_valid_date_refuted.

(** The seconds written to the log are not always between 0 and 60: on 31 December at noon of 2020 they are -0.001. *)
Theorem C108_logged_seconds :
  (forall (start : stamp) (elapsed : R), -0.001 <= logged_second start elapsed < 60 /\ logged_second start elapsed <= s_sec (current_utc start elapsed) < logged_second start elapsed + 0.001) /\
  logged_second (mkStamp 2020 12 31 12 0 0) 0 = -0.001.
Proof.
  split.
  - intros st t. unfold logged_second, rfloor. pose proof (floor_bounds (s_sec (current_utc st t) * 1000)) as F. destruct (C108_utc_clock st t) as (_ & _ & _ & _ & _ & B & _).
    set (x := s_sec (current_utc st t)) in *. set (k := Int_part (x * 1000)) in *. assert (-1 <= k)%Z by (enough (-2 < k)%Z by lia; apply lt_IZR; lra). assert (K : -1 <= IZR k) by (apply (IZR_le (-1)); exact H). lra.
  - unfold logged_second, rfloor, current_utc, current_jd. cbn [s_year s_mon s_day s_hr s_min s_sec]. rewrite jday_jdn. change (jdn 2020 12 31) with 2459215%Z.
    set (jd := 2459215 - 1 / 2 + (3600 * 12 + 60 * 0 + 0) / 86400 + 0 / (60 * 60 * 24)). assert (J : jd = 2459215) by (unfold jd; lra). rewrite J.
    assert (I : Int_part ((2459215 - 2415019.5) / 365.25) = 121%Z) by (apply Int_part_unique; lra).
    unfold invjday, year_and_days. rewrite I. change (1900 + 121)%Z with 2021%Z. change (2021 - 1901)%Z with 120%Z. change (2021 - 1900)%Z with 121%Z. change (2021 - 1)%Z with 2020%Z. change (2020 - 1901)%Z with 119%Z. change (2020 - 1900)%Z with 120%Z.
    assert (I2 : Int_part (120 * 0.25) = 30%Z) by (apply Int_part_unique; lra). assert (I2' : Int_part (119 * 0.25) = 29%Z) by (apply Int_part_unique; lra). rewrite I2, I2'.
    rewrite rlt_true by lra. unfold days2mdhms.
    assert (I3 : Int_part (2459215 - 2415019.5 - (120 * 365 + 29)) = 366%Z) by (apply Int_part_unique; lra). rewrite I3.
    assert (I4 : Int_part ((2459215 - 2415019.5 - (120 * 365 + 29) - 366) * 24) = 12%Z) by (apply Int_part_unique; lra). rewrite I4.
    assert (I5 : Int_part (((2459215 - 2415019.5 - (120 * 365 + 29) - 366) * 24 - 12) * 60) = 0%Z) by (apply Int_part_unique; lra). rewrite I5.
    destruct (month_loop 366 (lmonth 2020) 1 0) as [mm dd]. cbn [s_year s_mon s_day s_hr s_min s_sec].
    match goal with |- IZR (Int_part ?x) / 1000 = _ => assert (I6 : Int_part x = (-1)%Z) by (apply Int_part_unique; lra) end. rewrite I6. lra.
Qed.
Print Assumptions C108_logged_seconds.

(** * C109 *)
Definition year_days (y : Z) : R := if leap_gregorian y then 366 else 365.
(** The decimal year of an instant of year y: y + (days elapsed since the start of the year + 1) / 365.25 (with up to
    0.864 microseconds more): the day of the year counted from 1, not the elapsed part of the year. *)
Theorem C109_decimal_year : forall (y m d h mi : Z) (s : R), is_date leap_simple y m d -> is_clock h mi s ->
  let jd := jday y m d h mi s in
  Int_part (jd + 1 / 2 + 0.000000864 / 86400) = Int_part (jd + 1 / 2) ->
  exists e, 0 <= e <= 0.000000864 / 86400 /\ jd_to_decyear jd = IZR y + (jd - jday y 1 1 0 0 0 + 1 + e) / 365.25.
Proof.
  intros y m d h mi s [M D] (H & MI & SE). cbv zeta. set (jd := jday y m d h mi s). intros I. assert (NU2 : 0.000000864 / 86400 = nudge) by (unfold nudge; lra). rewrite NU2 in *.
  assert (HR : 0 <= IZR h <= 23) by (split; [apply (IZR_le 0)|apply (IZR_le h 23)]; lia). assert (MR : 0 <= IZR mi <= 59) by (split; [apply (IZR_le 0)|apply (IZR_le mi 59)]; lia).
  pose proof (year_and_days_spec jd) as Y. unfold jd_to_decyear. destruct (year_and_days jd) as [y' days]. destruct Y as [D1 Y].
  assert (IJ : Int_part (jd + 1 / 2) = jdn y m d) by (unfold jd; rewrite jday_jdn; apply Int_part_unique; lra).
  pose proof (floor_bounds (jd + 1 / 2)) as F1. pose proof (floor_bounds (jd + 1 / 2 + nudge)) as F2. rewrite I in F2. rewrite IJ in *.
  assert (NU : 0 < nudge < 1 / 10) by (unfold nudge; lra).
  assert (EY : y' = y).
  { pose proof (mdhms_spec y' days D1) as MD. cbv zeta in MD. destruct (days2mdhms y' days) as [y2 m2 d2 h2 mi2 s2]. cbn [s_year s_mon s_day s_hr s_min s_sec] in MD. destruct MD as (-> & M2 & D2 & _ & _ & _ & _ & L & J).
    assert (FL : Int_part days = (jdn y m d - jdn y' 1 1 + 1)%Z) by (apply Int_part_unique; rewrite plus_IZR, minus_IZR; destruct Y as [[Y1 _]|[Y1 _]]; lra).
    assert (LL : days < 366 + (if leap_simple y' then 1 else 0)).
    { destruct Y as [[Y1 Y2]|[Y1 Y2]]; [|lra]. apply Rnot_le_lt. intros C.
      assert (K2 : IZR (jdn y m d) < IZR (jdn y' 1 1 + 365 + (if leap_simple y' then 1 else 0))) by (rewrite !plus_IZR; destruct (leap_simple y'); lra).
      apply lt_IZR in K2. assert (K3 : (jdn y m d + 1 <= jdn y' 1 1 + 365 + (if leap_simple y' then 1 else 0))%Z) by lia. apply IZR_le in K3. rewrite !plus_IZR in K3. destruct (leap_simple y'); lra. }
    specialize (L LL). destruct (jdn_inj y' m2 d2 y m d M2 M (conj D2 L) D) as (E & _); [rewrite J, FL; lia|exact E]. }
  subst y'. exists (IZR (jdn y 1 1) + days - 1 - (jd + 1 / 2)). split; [destruct Y as [[Y1 _]|[Y1 _]]; lra|].
  rewrite (jday_jdn y 1 1). f_equal. f_equal. lra.
Qed.
Print Assumptions C109_decimal_year.

(** So its integer part is not always the year: at 6 h on 31 December of a common year it is the next one; *)
Theorem C109_decimal_year_integer_part_refuted :
  ~ (forall (y m d h mi : Z) (s : R), (2000 <= y <= 2050)%Z -> is_date leap_gregorian y m d -> is_clock h mi s ->
       Int_part (jd_to_decyear (jday y m d h mi s)) = y).
Proof.
  intros H. specialize (H 2023%Z 12%Z 31%Z 12%Z 0%Z 0 ltac:(lia)).
  assert (D : is_date leap_gregorian 2023 12 31) by (split; [lia|cbn; lia]). assert (C : is_clock 12 0 0) by (unfold is_clock; repeat split; try lia; lra).
  specialize (H D C). assert (D2 : is_date leap_simple 2023 12 31) by (split; [lia|cbn; lia]).
  destruct (C109_decimal_year 2023 12 31 12 0 0 D2 C) as (e & E1 & E2).
  - rewrite jday_jdn. change (jdn 2023 12 31) with 2460310%Z. transitivity 2460310%Z; [|symmetry]; apply Int_part_unique; lra.
  - rewrite E2 in H. rewrite !jday_jdn in H. change (jdn 2023 12 31) with 2460310%Z in H. change (jdn 2023 1 1) with 2459946%Z in H.
    rewrite (Int_part_unique _ 2024) in H by lra. discriminate.
Qed.
Print Assumptions C109_decimal_year_integer_part_refuted.
(** and it does not increase with time: at the end of a leap year it goes back by three quarters of a day. *)
Theorem C109_decimal_year_increasing_refuted :
  ~ (forall jd jd' : R, 2451544.5 <= jd < jd' -> jd' <= 2469807.5 -> jd_to_decyear jd < jd_to_decyear jd').
Proof.
  intros H. assert (D1 : is_date leap_simple 2020 12 31) by (split; [lia|cbn; lia]). assert (D2 : is_date leap_simple 2021 1 1) by (split; [lia|cbn; lia]).
  assert (C1 : is_clock 23 0 0) by (unfold is_clock; repeat split; try lia; lra). assert (C2 : is_clock 0 0 0) by (unfold is_clock; repeat split; try lia; lra).
  destruct (C109_decimal_year 2020 12 31 23 0 0 D1 C1) as (e & E1 & E2).
  { rewrite jday_jdn. change (jdn 2020 12 31) with 2459215%Z. transitivity 2459215%Z; [|symmetry]; apply Int_part_unique; lra. }
  destruct (C109_decimal_year 2021 1 1 0 0 0 D2 C2) as (e' & E1' & E2').
  { rewrite jday_jdn. change (jdn 2021 1 1) with 2459216%Z. transitivity 2459216%Z; [|symmetry]; apply Int_part_unique; lra. }
  specialize (H (jday 2020 12 31 23 0 0) (jday 2021 1 1 0 0 0)). rewrite E2, E2' in H. rewrite !jday_jdn in H.
  change (jdn 2020 12 31) with 2459215%Z in H. change (jdn 2021 1 1) with 2459216%Z in H. change (jdn 2020 1 1) with 2458850%Z in H. lra.
Qed.
Print Assumptions C109_decimal_year_increasing_refuted.

Lemma leap_year_gregorian y : leap_year y = leap_gregorian y.
Proof.
  unfold leap_year, leap_gregorian, divides.
  assert (E : forall k, (0 < k)%Z -> (Z.rem y k =? 0)%Z = (y mod k =? 0)%Z) by (intros k K; apply Bool.eq_iff_eq_true; rewrite !Z.eqb_eq, Z.rem_divide, Z.mod_divide by lia; reflexivity).
  rewrite !E by lia. destruct (y mod 4 =? 0)%Z eqn:A; cbn [andb orb]; [reflexivity|].
  apply Z.eqb_neq in A. destruct (y mod 400 =? 0)%Z eqn:B; [|reflexivity]. apply Z.eqb_eq in B. exfalso. apply A. Z.to_euclidean_division_equations; lia.
Qed.
(** Day of the year to month and day: the calendar date for days 1 to 365 or 366 (Gregorian rule); nothing is written beyond,
    and "day 0" or less is taken as that day of January. *)
Theorem C109_month_day : forall (y days : Z),
  ((1 <= days <= (if leap_gregorian y then 366 else 365))%Z ->
   exists m d, days_to_month_day days (leap_year y) = Some (m, d) /\ is_date leap_gregorian y m d /\ (days_of_months leap_gregorian y (Z.to_nat (m - 1)) + d = days)%Z) /\
  ((days < 1)%Z -> days_to_month_day days (leap_year y) = Some (1, days)%Z) /\
  (((if leap_gregorian y then 366 else 365) < days)%Z -> days_to_month_day days (leap_year y) = None).
Proof.
  intros y days. rewrite leap_year_gregorian. unfold days_to_month_day. destruct (leap_gregorian y) eqn:L;
  (destruct (Z.leb_spec days 31); [split; [intros; exists 1%Z, days; split; [reflexivity|split; [split; [lia|cbn; lia]|cbn; lia]]|split; [reflexivity|lia]]|]);
  (unfold md_from; cbn [Nat.add Nat.sub];
   repeat match goal with |- context [acc ?b ?k] => let r := eval vm_compute in (acc b k) in change (acc b k) with r end;
   split; [|split; [lia|]]; intros R;
   repeat match goal with |- context [((?a <? ?b) && (?b <=? ?c))%Z%bool] => destruct (Z.ltb_spec a b), (Z.leb_spec b c); cbn [andb]; try lia end; try reflexivity;
   eexists; eexists; (split; [reflexivity|]; split; [split; [lia|unfold month_length; rewrite L; cbn; lia]|]; rewrite days_of_months_doy, nth_doy by lia; rewrite L;
     cbn [Z.of_nat Pos.of_succ_nat Pos.succ Z.eqb Pos.eqb Z.leb Z.compare Pos.compare Pos.compare_cont andb]; lia)).
Qed.
Print Assumptions C109_month_day.

(** Decimal year to date: always a valid Gregorian date and time of the year in its integer part; the day of the year is the
    whole number of days elapsed (at least 1), so every date comes one day late and 31 December never comes. *)
Theorem C109_date : forall decyear : R, 0 <= decyear ->
  exists y m d h mi s, decyear_to_date decyear = Ok (mkStamp y m d h mi (IZR s)) /\
    IZR y <= decyear < IZR y + 1 /\ is_date leap_gregorian y m d /\ (0 <= h < 24)%Z /\ (0 <= mi < 60)%Z /\ (0 <= s < 60)%Z /\
    (days_of_months leap_gregorian y (Z.to_nat (m - 1)) + d = Z.max 1 (Int_part ((decyear - IZR y) * year_days y)))%Z /\
    ~ (m = 12%Z /\ d = 31%Z) /\
    let day_part := (decyear - IZR y) * year_days y - IZR (Int_part ((decyear - IZR y) * year_days y)) in
    IZR (3600 * h + 60 * mi + s) <= day_part * 86400 < IZR (3600 * h + 60 * mi + s) + 1.
Proof.
  intros t T. unfold decyear_to_date. destruct (trunc_nonneg t T) as [Y1 Y2]. set (y := trunc t) in *. 
  replace (if leap_year y then 366 else 365) with (year_days y) by (unfold year_days; rewrite leap_year_gregorian; reflexivity).
  set (dd := (t - IZR y) * year_days y). assert (YD : 365 <= year_days y <= 366) by (unfold year_days; destruct (leap_gregorian y); lra).
  assert (B : 0 <= dd < year_days y) by (unfold dd; split; [apply Rmult_le_pos; lra|rewrite <- (Rmult_1_l (year_days y)) at 2; apply Rmult_lt_compat_r; lra]).
  destruct (trunc_nonneg dd (proj1 B)) as [D1 D2]. assert (TI : Int_part dd = trunc dd) by (apply Int_part_unique; lra). set (k := trunc dd) in *.
  assert (K0 : (0 <= k)%Z) by (enough (-1 < k)%Z by lia; apply lt_IZR; lra).
  set (hd := (dd - IZR k) * 24). assert (HB : 0 <= hd < 24) by (unfold hd; lra). destruct (trunc_nonneg hd (proj1 HB)) as [H1 H2]. set (h := trunc hd) in *.
  set (md := (hd - IZR h) * 60). assert (MB : 0 <= md < 60) by (unfold md; lra). destruct (trunc_nonneg md (proj1 MB)) as [M1 M2]. set (mi := trunc md) in *.
  set (sd := (md - IZR mi) * 60). assert (SB : 0 <= sd < 60) by (unfold sd; lra). destruct (trunc_nonneg sd (proj1 SB)) as [S1 S2]. set (s := trunc sd) in *.
  assert (days : (if (k =? 0)%Z then 1%Z else k) = Z.max 1 k) by (destruct (Z.eqb_spec k 0); lia). rewrite days.
  assert (KL : (k < (if leap_gregorian y then 366 else 365))%Z) by (apply lt_IZR; unfold year_days in B; destruct (leap_gregorian y); lra).
  destruct (C109_month_day y (Z.max 1 k)) as [MD _]. destruct MD as (m & d & E & V & DM); [destruct (leap_gregorian y); lia|]. rewrite E.
  exists y, m, d, h, mi, s. fold dd. rewrite TI. split; [reflexivity|]. split; [lra|]. split; [exact V|].
  split; [split; [enough (-1 < h)%Z by lia|]; apply lt_IZR; lra|]. split; [split; [enough (-1 < mi)%Z by lia|]; apply lt_IZR; lra|]. split; [split; [enough (-1 < s)%Z by lia|]; apply lt_IZR; lra|].
  split; [exact DM|]. split.
  - intros [-> ->]. rewrite days_of_months_doy, nth_doy in DM by lia. cbn in DM. destruct (leap_gregorian y); cbn in DM; lia.
  - cbv zeta. repeat (rewrite plus_IZR || rewrite mult_IZR). unfold sd, md, hd in *. lra.
Qed.
Print Assumptions C109_date.

(** Date to decimal year and back: the same date at 0 h, except that 31 December comes back as 1 January of the next year. *)
Theorem C109_date_round_trip : forall y m d : Z, (0 <= y)%Z -> is_date leap_gregorian y m d ->
  exists decyear, date_to_decyear y m d = Ok decyear /\
    decyear_to_date decyear = Ok (if ((m =? 12) && (d =? 31))%Z%bool then mkStamp (y + 1) 1 1 0 0 0 else mkStamp y m d 0 0 0).
Proof.
  intros y m d Y0 V. assert (V' := V). destruct V' as [M D]. unfold date_to_decyear. rewrite (proj2 (Z.leb_le 1 m)), (proj2 (Z.leb_le m 13)) by lia. cbn [andb].
  eexists. split; [reflexivity|]. rewrite leap_year_gregorian.
  assert (AC : acc (leap_gregorian y) (Z.to_nat (m - 1)) = days_of_months leap_gregorian y (Z.to_nat (m - 1))).
  { rewrite days_of_months_doy, nth_doy by exact M. destruct (leap_gregorian y); (destruct (month_cases m M) as [->|[->|[->|[->|[->|[->|[->|[->|[->|[->|[->| ->]]]]]]]]]]]); reflexivity. }
  rewrite AC. fold (year_days y). rewrite <- plus_IZR. set (n := (days_of_months leap_gregorian y (Z.to_nat (m - 1)) + d)%Z).
  assert (N : (1 <= n <= (if leap_gregorian y then 366 else 365))%Z /\ ((n = (if leap_gregorian y then 366 else 365))%Z <-> m = 12%Z /\ d = 31%Z)).
  { unfold n. rewrite days_of_months_doy, nth_doy by exact M. unfold month_length in D. clear -M D. destruct (leap_gregorian y); (destruct (month_cases m M) as [->|[->|[->|[->|[->|[->|[->|[->|[->|[->|[->| ->]]]]]]]]]]]); cbn [Z.eqb Pos.eqb Z.leb Z.compare Pos.compare Pos.compare_cont andb orb] in D |- *; lia. }
  destruct N as [N NE]. assert (YD : 365 <= year_days y <= 366) by (unfold year_days; destruct (leap_gregorian y); lra).
  assert (YY : 0 <= IZR y) by (apply (IZR_le 0); exact Y0). assert (NN : 1 <= IZR n <= year_days y) by (unfold year_days; destruct (leap_gregorian y); split; apply (IZR_le 1) || apply IZR_le; lia).
  assert (T0 : forall (z : Z) x, (0 <= z)%Z -> IZR z <= x < IZR z + 1 -> trunc x = z).
  { intros z x Z0 X. apply (IZR_le 0) in Z0. unfold trunc. rewrite rle_true by lra. apply Int_part_unique. lra. }
  destruct ((m =? 12) && (d =? 31))%Z%bool eqn:LAST.
  - apply andb_true_iff in LAST. rewrite !Z.eqb_eq in LAST. apply NE in LAST. assert (NV : IZR n = year_days y) by (rewrite LAST; unfold year_days; destruct (leap_gregorian y); reflexivity).
    rewrite NV. replace (year_days y / year_days y) with 1 by (field; lra). rewrite <- plus_IZR. unfold decyear_to_date. rewrite (T0 (y + 1)%Z (IZR (y + 1))) by (lia || (rewrite plus_IZR; lra)).
    replace (IZR (y + 1) - IZR (y + 1)) with 0 by ring. rewrite Rmult_0_l. rewrite (T0 0%Z 0) by (lia || lra). cbn [Z.eqb]. replace ((0 - 0) * 24) with 0 by ring. rewrite (T0 0%Z 0) by (lia || lra). replace ((0 - 0) * 60) with 0 by ring. rewrite (T0 0%Z 0) by (lia || lra). replace ((0 - 0) * 60) with 0 by ring. rewrite (T0 0%Z 0) by (lia || lra).
    reflexivity.
  - assert (NL : (n < (if leap_gregorian y then 366 else 365))%Z).
    { assert (n <> (if leap_gregorian y then 366 else 365)%Z); [|lia]. intros C. apply NE in C. destruct C as [-> ->]. discriminate. }
    assert (NV : IZR n < year_days y) by (unfold year_days; destruct (leap_gregorian y); apply IZR_lt; exact NL).
    assert (F : 0 <= IZR n / year_days y < 1).
    { split; [apply Rmult_le_pos; [lra|left; apply Rinv_0_lt_compat; lra]|]. apply (Rmult_lt_reg_r (year_days y)); [lra|]. unfold Rdiv. rewrite Rmult_assoc, Rinv_l by lra. lra. }
    unfold decyear_to_date. rewrite (T0 y (IZR y + IZR n / year_days y)) by (lia || lra). rewrite leap_year_gregorian. fold (year_days y).
    replace ((IZR y + IZR n / year_days y - IZR y) * year_days y) with (IZR n) by (field; lra). rewrite (T0 n (IZR n)) by (lia || lra). destruct (Z.eqb_spec n 0) as [C|_]; [lia|].
    replace ((IZR n - IZR n) * 24) with 0 by ring. rewrite (T0 0%Z 0) by (lia || lra). replace ((0 - 0) * 60) with 0 by ring. rewrite (T0 0%Z 0) by (lia || lra). replace ((0 - 0) * 60) with 0 by ring. rewrite (T0 0%Z 0) by (lia || lra).
    destruct (C109_month_day y n) as [MD _]. destruct (MD N) as (m' & d' & E & [M' D'] & DM). rewrite leap_year_gregorian in E. rewrite E.
    assert (m' = m /\ d' = d) as [-> ->]; [|reflexivity].
    unfold n in DM. rewrite !days_of_months_doy, !nth_doy in DM by assumption. unfold month_length in D, D'. clear -M M' D D' DM.
    destruct (leap_gregorian y); (destruct (month_cases m M) as [->|[->|[->|[->|[->|[->|[->|[->|[->|[->|[->| ->]]]]]]]]]]]);
     (destruct (month_cases m' M') as [->|[->|[->|[->|[->|[->|[->|[->|[->|[->|[->| ->]]]]]]]]]]]); cbn [Z.eqb Pos.eqb Z.leb Z.compare Pos.compare Pos.compare_cont andb orb] in D, D', DM; lia.
Qed.
Print Assumptions C109_date_round_trip.

(** The date used for the space weather of an instant is at most one day off the true date (as long as the decimal year has not
    already passed to the next year, 365.25 days after the last day of the previous one). *)
Theorem C109_weather_day : forall (y m d h mi : Z) (s : R), (1901 <= y <= 2099)%Z -> is_date leap_gregorian y m d -> is_clock h mi s ->
  let jd := jday y m d h mi s in
  Int_part (jd + 1 / 2 + 0.000000864 / 86400) = Int_part (jd + 1 / 2) ->
  jd - jday y 1 1 0 0 0 + 1 + 0.000000864 / 86400 < 365.25 ->
  exists m' d' h' mi' s', decyear_to_date (jd_to_decyear jd) = Ok (mkStamp y m' d' h' mi' s') /\ is_date leap_gregorian y m' d' /\
    (Z.abs ((days_of_months leap_gregorian y (Z.to_nat (m' - 1)) + d') - (days_of_months leap_gregorian y (Z.to_nat (m - 1)) + d)) <= 1)%Z.
Proof.
  intros y m d h mi s Y V C. cbv zeta. set (jd := jday y m d h mi s). intros I LT. assert (V' := V). destruct V' as [M D].
  assert (ML : forall k, month_length leap_simple y k = month_length leap_gregorian y k) by (intros; unfold month_length; rewrite leap_rules by exact Y; reflexivity).
  assert (VS : is_date leap_simple y m d) by (split; [exact M|rewrite ML; exact D]).
  destruct (C109_decimal_year y m d h mi s VS C I) as (e & E & DY). fold jd in DY. set (f := jd - jday y 1 1 0 0 0) in *.
  destruct C as (H & MI & SE). assert (HR : 0 <= IZR h <= 23) by (split; [apply (IZR_le 0)|apply (IZR_le h 23)]; lia). assert (MR : 0 <= IZR mi <= 59) by (split; [apply (IZR_le 0)|apply (IZR_le mi 59)]; lia).
  assert (DM : days_of_months leap_simple y (Z.to_nat (m - 1)) = days_of_months leap_gregorian y (Z.to_nat (m - 1))) by (rewrite !days_of_months_doy by exact M; rewrite leap_rules by exact Y; reflexivity).
  set (doy := (days_of_months leap_gregorian y (Z.to_nat (m - 1)) + d)%Z).
  assert (FE : f + 1 = IZR doy + (3600 * IZR h + 60 * IZR mi + s) / 86400).
  { unfold f, jd. rewrite !jday_jdn. rewrite (jdn_doy y m d M), DM. unfold doy. rewrite minus_IZR, !plus_IZR. lra. }
  assert (FB : IZR doy <= f + 1 /\ f + 1 + e < IZR doy + 1).
  { split; [lra|]. pose proof (floor_bounds (jd + 1 / 2 + 0.000000864 / 86400)) as F2. rewrite I in F2.
    assert (IJ : Int_part (jd + 1 / 2) = jdn y m d) by (unfold jd; rewrite jday_jdn; apply Int_part_unique; lra). rewrite IJ in F2.
    assert (IZR (jdn y m d) = jday y 1 1 0 0 0 - 1 / 2 + IZR doy).
    { rewrite jday_jdn, (jdn_doy y m d M), DM. unfold doy. rewrite minus_IZR, !plus_IZR. lra. }
    unfold f. lra. }
  assert (Y0 : 1901 <= IZR y) by (apply (IZR_le 1901); lia).
  assert (F1 : 1 <= f + 1). { assert (1 <= doy)%Z; [|apply (IZR_le 1) in H0; lra]. unfold doy. rewrite days_of_months_doy, nth_doy by exact M. destruct (leap_gregorian y && (3 <=? m)%Z)%bool; destruct (month_cases m M) as [->|[->|[->|[->|[->|[->|[->|[->|[->|[->|[->| ->]]]]]]]]]]]; cbn [Z.eqb Pos.eqb]; lia. }
  assert (P : 0 <= jd_to_decyear jd) by (rewrite DY; assert (0 <= (f + 1 + e) / 365.25) by (apply Rmult_le_pos; lra); lra).
  destruct (C109_date (jd_to_decyear jd) P) as (y' & m' & d' & h' & mi' & s' & DE & YB & V' & _ & _ & _ & N & _).
  assert (y' = y).
  { rewrite DY in YB. assert (Q : 0 <= (f + 1 + e) / 365.25 < 1) by (split; [apply Rmult_le_pos; lra|]; apply (Rmult_lt_reg_r 365.25); [lra|]; unfold Rdiv; rewrite Rmult_assoc, Rinv_l by lra; lra).
    enough (-1 < y' - y < 1)%Z by lia. split; apply lt_IZR; rewrite minus_IZR; lra. }
  subst y'. exists m', d', h', mi', (IZR s'). split; [exact DE|]. split; [exact V'|]. rewrite N. rewrite DY.
  replace (IZR y + (f + 1 + e) / 365.25 - IZR y) with ((f + 1 + e) / 365.25) by ring.
  set (x := (f + 1 + e) / 365.25 * year_days y). pose proof (floor_bounds x) as FX. set (k := Int_part x) in *.
  assert (XB : f + 1 + e - 0.26 <= x <= f + 1 + e + 0.76) by (unfold x, year_days; destruct (leap_gregorian y); lra).
  assert (K1 : (doy - 1 <= k)%Z) by (enough (doy - 2 < k)%Z by lia; apply lt_IZR; rewrite minus_IZR; lra).
  assert (K2 : (k <= doy + 1)%Z) by (enough (k < doy + 2)%Z by lia; apply lt_IZR; rewrite plus_IZR; lra).
  assert (1 <= doy)%Z by (enough (0 < doy)%Z by lia; apply lt_IZR; lra). lia.
Qed.
Print Assumptions C109_weather_day.

(** The day of the year handed to the density model is the true one. *)
Theorem C109_day_of_year : forall (y m d h mi : Z) (s : R), (1901 <= y <= 2099)%Z -> is_date leap_gregorian y m d -> is_clock h mi s ->
  let jd := jday y m d h mi s in
  Int_part (jd + 1 / 2 + 0.000000864 / 86400) = Int_part (jd + 1 / 2) ->
  jd - jday y 1 1 0 0 0 + 1 + 0.000000864 / 86400 < 365.25 ->
  nrl_doy (jd_to_decyear jd) = (days_of_months leap_gregorian y (Z.to_nat (m - 1)) + d)%Z.
Proof.
  intros y m d h mi s Y V C. cbv zeta. set (jd := jday y m d h mi s). intros I LT. assert (V' := V). destruct V' as [M D].
  assert (ML : forall k, month_length leap_simple y k = month_length leap_gregorian y k) by (intros; unfold month_length; rewrite leap_rules by exact Y; reflexivity).
  assert (VS : is_date leap_simple y m d) by (split; [exact M|rewrite ML; exact D]).
  destruct (C109_decimal_year y m d h mi s VS C I) as (e & E & DY). fold jd in DY. set (f := jd - jday y 1 1 0 0 0) in *.
  destruct C as (H & MI & SE). assert (HR : 0 <= IZR h <= 23) by (split; [apply (IZR_le 0)|apply (IZR_le h 23)]; lia). assert (MR : 0 <= IZR mi <= 59) by (split; [apply (IZR_le 0)|apply (IZR_le mi 59)]; lia).
  assert (DM : days_of_months leap_simple y (Z.to_nat (m - 1)) = days_of_months leap_gregorian y (Z.to_nat (m - 1))) by (rewrite !days_of_months_doy by exact M; rewrite leap_rules by exact Y; reflexivity).
  set (doy := (days_of_months leap_gregorian y (Z.to_nat (m - 1)) + d)%Z).
  assert (FE : f + 1 = IZR doy + (3600 * IZR h + 60 * IZR mi + s) / 86400).
  { unfold f, jd. rewrite !jday_jdn. rewrite (jdn_doy y m d M), DM. unfold doy. rewrite minus_IZR, !plus_IZR. lra. }
  assert (FB : IZR doy <= f + 1 /\ f + 1 + e < IZR doy + 1).
  { split; [lra|]. pose proof (floor_bounds (jd + 1 / 2 + 0.000000864 / 86400)) as F2. rewrite I in F2.
    assert (IJ : Int_part (jd + 1 / 2) = jdn y m d) by (unfold jd; rewrite jday_jdn; apply Int_part_unique; lra). rewrite IJ in F2.
    assert (IZR (jdn y m d) = jday y 1 1 0 0 0 - 1 / 2 + IZR doy).
    { rewrite jday_jdn, (jdn_doy y m d M), DM. unfold doy. rewrite minus_IZR, !plus_IZR. lra. }
    unfold f. lra. }
  assert (Y0 : 1901 <= IZR y) by (apply (IZR_le 1901); lia).
  assert (D1 : (1 <= doy)%Z). { unfold doy. rewrite days_of_months_doy, nth_doy by exact M. destruct (leap_gregorian y && (3 <=? m)%Z)%bool; destruct (month_cases m M) as [->|[->|[->|[->|[->|[->|[->|[->|[->|[->|[->| ->]]]]]]]]]]]; cbn [Z.eqb Pos.eqb]; lia. }
  assert (D1R : 1 <= IZR doy) by (apply (IZR_le 1); exact D1).
  assert (Q : 0 <= (f + 1 + e) / 365.25 < 1) by (split; [apply Rmult_le_pos; lra|]; apply (Rmult_lt_reg_r 365.25); [lra|]; unfold Rdiv; rewrite Rmult_assoc, Rinv_l by lra; lra).
  unfold nrl_doy. rewrite DY. set (t := IZR y + (f + 1 + e) / 365.25) in *.
  destruct (trunc_nonneg t ltac:(unfold t; lra)) as [T1 T2].
  assert (TY : trunc t = y). { enough (-1 < trunc t - y < 1)%Z by lia. split; apply lt_IZR; rewrite minus_IZR; unfold t in *; lra. }
  rewrite TY. replace ((t - IZR y) * 365.25) with (f + 1 + e) by (unfold t; lra).
  destruct (trunc_nonneg (f + 1 + e) ltac:(lra)) as [U1 U2]. enough (-1 < trunc (f + 1 + e) - doy < 1)%Z by lia. split; apply lt_IZR; rewrite minus_IZR; lra.
Qed.
Print Assumptions C109_day_of_year.

(** The rows of the table that are kept: those dated between 31/365 of a year before the start and the end, dates counted in years of
    their own length.  Within a year of 365 days these are the rows from 31 days before the start on. *)
Definition date_years (y m d : Z) : R := IZR y + IZR (days_of_months leap_gregorian y (Z.to_nat (m - 1)) + d) / year_days y.
Theorem C109_rows_kept : forall (ini fin : stamp) (y m d : Z),
  is_date leap_gregorian (s_year ini) (s_mon ini) (s_day ini) -> is_date leap_gregorian (s_year fin) (s_mon fin) (s_day fin) -> is_date leap_gregorian y m d ->
  exists b, row_kept ini fin y m d = Ok b /\
  (b = true <-> date_years (s_year ini) (s_mon ini) (s_day ini) - 31 / 365 <= date_years y m d <= date_years (s_year fin) (s_mon fin) (s_day fin)) /\
  (leap_gregorian y = false -> s_year ini = y -> s_year fin = y ->
   let doy m d := (days_of_months leap_gregorian y (Z.to_nat (m - 1)) + d)%Z in
   (b = true <-> (doy (s_mon ini) (s_day ini) - 31 <= doy m d <= doy (s_mon fin) (s_day fin))%Z)).
Proof.
  intros ini fin y m d VI VF V.
  assert (G : forall y m d, is_date leap_gregorian y m d -> date_to_decyear y m d = Ok (date_years y m d)).
  { clear. intros y m d [M D]. unfold date_to_decyear, date_years. rewrite (proj2 (Z.leb_le 1 m)), (proj2 (Z.leb_le m 13)) by lia. cbn [andb]. rewrite leap_year_gregorian.
    assert (AC : acc (leap_gregorian y) (Z.to_nat (m - 1)) = days_of_months leap_gregorian y (Z.to_nat (m - 1))).
    { rewrite days_of_months_doy, nth_doy by exact M. destruct (leap_gregorian y); (destruct (month_cases m M) as [->|[->|[->|[->|[->|[->|[->|[->|[->|[->|[->| ->]]]]]]]]]]]); reflexivity. }
    rewrite AC. fold (year_days y). rewrite plus_IZR. reflexivity. }
  unfold row_kept. rewrite (G _ _ _ V), (G _ _ _ VI), (G _ _ _ VF). cbn [bind]. eexists. split; [reflexivity|].
  set (a := date_years (s_year ini) (s_mon ini) (s_day ini)). set (b := date_years y m d). set (c := date_years (s_year fin) (s_mon fin) (s_day fin)).
  assert (K : negb (rlt b (a - 31 / 365) || rlt c b) = true <-> a - 31 / 365 <= b <= c).
  { destruct (rlt_spec b (a - 31 / 365)); destruct (rlt_spec c b); cbn [orb negb]; split; intros Q; first [discriminate|reflexivity|lra|split; lra]. }
  split; [exact K|]. intros L E1 E2. rewrite K. unfold a, b, c, date_years, year_days. rewrite E1, E2, L.
  split.
  - intros [P Q]. split; apply le_IZR; rewrite ?minus_IZR; lra.
  - intros [P Q]. apply IZR_le in P, Q. rewrite minus_IZR in P. lra.
Qed.
Print Assumptions C109_rows_kept.

(** The seconds of the day handed to the density model are not those of the date: at 0 h on 1 July 2023 they are 75600. *)
Theorem C109_seconds_of_day_refuted :
  ~ (forall (y m d h mi : Z) (s : R) (date : stamp), (2000 <= y <= 2050)%Z -> is_date leap_gregorian y m d -> is_clock h mi s -> (m < 12)%Z ->
       decyear_to_date (jd_to_decyear (jday y m d h mi s)) = Ok date ->
       Rabs (nrl_sec date - (IZR h * 3600 + IZR mi * 60 + s)) < 3600).
Proof.
  intros H. assert (V : is_date leap_gregorian 2023 7 1) by (split; [lia|cbn; lia]). assert (C : is_clock 0 0 0) by (unfold is_clock; repeat split; try lia; lra).
  assert (V2 : is_date leap_simple 2023 7 1) by (split; [lia|cbn; lia]). destruct (C109_decimal_year 2023 7 1 0 0 0 V2 C) as (e & E1 & DY).
  { rewrite jday_jdn. change (jdn 2023 7 1) with 2460127%Z. transitivity 2460127%Z; [|symmetry]; apply Int_part_unique; lra. }
  assert (P : 0 <= jd_to_decyear (jday 2023 7 1 0 0 0)).
  { rewrite DY, !jday_jdn. change (jdn 2023 7 1) with 2460127%Z. change (jdn 2023 1 1) with 2459946%Z. lra. }
  destruct (C109_date _ P) as (y' & m' & d' & h' & mi' & s' & DE & YB & V' & HB & MB & SB & N & _ & DP). cbv zeta in DP.
  specialize (H 2023%Z 7%Z 1%Z 0%Z 0%Z 0 _ ltac:(lia) V C ltac:(lia) DE). unfold nrl_sec in H. cbn [s_hr s_min s_sec] in H.
  rewrite DY, !jday_jdn in YB, DP. change (jdn 2023 7 1) with 2460127%Z in YB, DP. change (jdn 2023 1 1) with 2459946%Z in YB, DP.
  assert (Y : y' = 2023%Z). { enough (-1 < y' - 2023 < 1)%Z by lia. split; apply lt_IZR; rewrite minus_IZR; lra. }
  subst y'. unfold year_days in DP. change (leap_gregorian 2023) with false in DP. cbv iota in DP.
  match type of DP with context [Int_part ?x] => set (X := x) in DP end.
  assert (XB : 181 < X < 182) by (unfold X; lra).
  assert (IX : Int_part X = 181%Z) by (apply Int_part_unique; lra). rewrite IX in DP.
  assert (SBR : IZR (3600 * h' + 60 * mi' + s') > 75000) by (unfold X in DP; lra). rewrite !plus_IZR, !mult_IZR in SBR.
  apply Rabs_def2 in H. lra.
Qed.
Print Assumptions C109_seconds_of_day_refuted.
(** It is not always the true date: at 0 h on 30 June 2023 it is 29 June (and a time of day of about 21 h). *)
Theorem C109_weather_same_day_refuted :
  ~ (forall (y m d h mi : Z) (s : R), (2000 <= y <= 2050)%Z -> is_date leap_gregorian y m d -> is_clock h mi s -> (m < 12)%Z ->
       exists m' d' h' mi' s', decyear_to_date (jd_to_decyear (jday y m d h mi s)) = Ok (mkStamp y m' d' h' mi' s') /\ d' = d).
Proof.
  intros H. assert (V : is_date leap_gregorian 2023 6 30) by (split; [lia|cbn; lia]). assert (C : is_clock 0 0 0) by (unfold is_clock; repeat split; try lia; lra).
  destruct (H 2023%Z 6%Z 30%Z 0%Z 0%Z 0 ltac:(lia) V C ltac:(lia)) as (m' & d' & h' & mi' & s' & E & D). subst d'.
  assert (V2 : is_date leap_simple 2023 6 30) by (split; [lia|cbn; lia]). destruct (C109_decimal_year 2023 6 30 0 0 0 V2 C) as (e & E1 & DY).
  { rewrite jday_jdn. change (jdn 2023 6 30) with 2460126%Z. transitivity 2460126%Z; [|symmetry]; apply Int_part_unique; lra. }
  rewrite !jday_jdn in DY. change (jdn 2023 6 30) with 2460126%Z in DY. change (jdn 2023 1 1) with 2459946%Z in DY.
  rewrite (jday_jdn 2023 6 30) in E. change (jdn 2023 6 30) with 2460126%Z in E. rewrite DY in E.
  set (t := 2023 + _) in E. assert (T : 2023 + 181 / 365.25 <= t <= 2023 + 181.1 / 365.25) by (unfold t; lra).
  destruct (C109_date t ltac:(lra)) as (y2 & m2 & d2 & h2 & mi2 & s2 & E2 & YB & VD & _ & _ & _ & N & _). rewrite E in E2. injection E2 as <- <- <- <- <- _.
  assert (YE : year_days 2023 = 365) by reflexivity. rewrite YE in N.
  assert (I : Int_part ((t - 2023) * 365) = 180%Z) by (apply Int_part_unique; lra). rewrite I in N.
  destruct VD as [M _]. rewrite days_of_months_doy, nth_doy in N by exact M. revert N. clear -M. destruct (month_cases m' M) as [->|[->|[->|[->|[->|[->|[->|[->|[->|[->|[->| ->]]]]]]]]]]]; cbn; lia.
Qed.
Print Assumptions C109_weather_same_day_refuted.

(** The space weather row: the first one of the date (before the monthly part of the table) or of the month (in it), the first
    row of the table if there is none, none for an empty table. *)
Theorem C109_weather_row : forall (decyear monthly : R) (table : list weather), 0 <= decyear ->
  exists date, decyear_to_date decyear = Ok date /\
  let matches w := w_year w = s_year date /\ w_month w = s_mon date /\ (decyear < monthly -> w_day w = s_day date) in
  match table with
  | [] => weather_row decyear monthly table = Ok None
  | first :: _ => exists w, weather_row decyear monthly table = Ok (Some w) /\
      ((exists pre post, table = pre ++ w :: post /\ matches w /\ Forall (fun v => ~ matches v) pre) \/ (w = first /\ Forall (fun v => ~ matches v) table))
  end.
Proof.
  intros t mo table T. destruct (C109_date t T) as (y & m & d & h & mi & s & E & _). exists (mkStamp y m d h mi (IZR s)). split; [exact E|].
  cbv zeta. unfold weather_row. rewrite E. cbn [bind]. set (date := mkStamp y m d h mi (IZR s)).
  assert (ME : forall w, row_matches t mo date w = true <-> (w_year w = s_year date /\ w_month w = s_mon date /\ (t < mo -> w_day w = s_day date))).
  { intros w. unfold row_matches. destruct (rlt_spec t mo); rewrite !andb_true_iff, !Z.eqb_eq; intuition congruence. }
  destruct table as [|w0 r]; [reflexivity|]. eexists. split; [reflexivity|]. set (tb := w0 :: r). clearbody tb.
  destruct (find (row_matches t mo date) tb) as [w|] eqn:F.
  - left. clear E. revert F. induction tb as [|a l IH]; [discriminate|]. cbn [find]. destruct (row_matches t mo date a) eqn:A.
    + intros F. injection F as <-. exists [], l. split; [reflexivity|]. split; [apply ME; exact A|constructor].
    + intros F. destruct (IH F) as (pre & post & -> & Mw & Fp). exists (a :: pre), post. split; [reflexivity|]. split; [exact Mw|]. constructor; [|exact Fp]. intros C. apply ME in C. congruence.
  - right. split; [reflexivity|]. apply Forall_forall. intros v Hv C. apply ME in C. rewrite (find_none _ _ F v Hv) in C. discriminate.
Qed.
Print Assumptions C109_weather_row.

(** When the table is taken as monthly: month length plus 14 days after the update date in its header (the length is that of the
    following month); an update date in December, or with an unknown month name, reads out of bounds. *)
Theorem C109_monthly_from : forall (y d : Z) (k : nat) (name : string),
  nth_error ["Jan"; "Feb"; "Mar"; "Apr"; "May"; "Jun"; "Jul"; "Aug"; "Sep"; "Oct"; "Nov"; "Dec"]%string k = Some name ->
  month_num name = (Z.of_nat k + 1)%Z /\
  ((k < 11)%nat -> exists u, date_to_decyear y (Z.of_nat k + 1) d = Ok u /\
     monthly_from y name d = Ok (u + IZR (month_length (fun _ => false) y (Z.of_nat k + 2) + 14) / 365)) /\
  (k = 11%nat -> monthly_from y name d = UB).
Proof.
  intros y d k name H. do 12 (destruct k as [|k]; [cbn in H; injection H as <-; (split; [reflexivity|]); split; intros K; try lia; first [eexists; split; reflexivity|reflexivity]|]). destruct k; discriminate.
Qed.
Print Assumptions C109_monthly_from.
Theorem C109_monthly_from_unknown : forall (y d : Z) (name : string),
  ~ In name ["Jan"; "Feb"; "Mar"; "Apr"; "May"; "Jun"; "Jul"; "Aug"; "Sep"; "Oct"; "Nov"; "Dec"]%string -> monthly_from y name d = UB.
Proof.
  intros y d name H. unfold monthly_from, month_num.
  repeat match goal with |- context [String.eqb name ?s] => destruct (String.eqb_spec name s) as [->|_]; [exfalso; apply H; cbn; tauto|] end. reflexivity.
Qed.
Print Assumptions C109_monthly_from_unknown.

Example julian_example : is_date leap_gregorian 2024 2 29 /\ is_clock 6 30 15.5 /\ invjday (jday 2024 2 29 6 30 15.5) = mkStamp 2024 2 29 6 30 15.5.
Proof.
  assert (V : is_date leap_gregorian 2024 2 29) by (split; [lia|cbn; lia]). assert (C : is_clock 6 30 15.5) by (unfold is_clock; repeat split; try lia; lra).
  split; [exact V|]. split; [exact C|]. destruct (C108_round_trip 2024 2 29 6 30 15.5) as [E|(_ & X & _)]; [split; [lia|cbn; lia]|exact C|lra|exact E|discriminate].
Qed.
