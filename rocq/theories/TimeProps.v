(** C15, C16, C17: calendar, epoch and GPS time. *)
From Coq Require Import List ZArith Bool Reals Lra Lia.
From Verif Require Import Base TimeModel TimeSpec TimeProofs.
Open Scope Z_scope.

(** C15: every date-time valid in the Gregorian calendar from 1970 through 2099, with the seconds
    including their fraction, converts to an EpochTime and back to itself. *)
Theorem C15_round_trip : forall dt,
  valid_date leap_gregorian (year dt) (month dt) (day dt) -> year dt <= 2099 ->
  valid_clock (hour dt) (minute dt) (second dt) ->
  exists e, epoch_of_date dt = Ok (Some e) /\ date_of_epoch e = dt.
Proof.
  intros dt (Hy & Hm & Hd) H99 Hc.
  assert (L : leap_simple (year dt) = leap_gregorian (year dt)).
  { assert (W : wrong_leaps (S (Z.to_nat (year dt - 1970))) = 0) by (apply wrong_leaps_2100; lia).
    cbn [wrong_leaps] in W. rewrite wrong_leaps_2100 in W by lia. rewrite Z2Nat.id in W by lia.
    replace (1970 + (year dt - 1970)) with (year dt) in W by lia.
    pose proof (gregorian_implies_simple (year dt)) as G.
    destruct (leap_simple (year dt)), (leap_gregorian (year dt)); cbn in W; try reflexivity; try lia; now specialize (G eq_refl). }
  assert (V : valid_date leap_simple (year dt) (month dt) (day dt)).
  { split; [lia|split; [lia|]]. unfold month_length in *. now rewrite L. }
  pose proof (month_length_le31 leap_gregorian (year dt) (month dt)).
  pose proof (code_days_bound (year dt) (month dt) (day dt) Hy Hm ltac:(lia)).
  destruct (round_trip_date dt V Hc) as (e & E1 & E2 & _); [unfold max_days; lia|]. eauto.
Qed.
Print Assumptions C15_round_trip.

(** C15: up to 2100-02-28 the epoch is the POSIX time: 86400 seconds per day counted month by
    month in the Gregorian calendar since 1970-01-01, plus the time of day. *)
Theorem C15_posix_time : forall dt,
  valid_date leap_gregorian (year dt) (month dt) (day dt) ->
  year dt <= 2099 \/ (year dt = 2100 /\ month dt <= 2) ->
  valid_clock (hour dt) (minute dt) (second dt) ->
  exists e, epoch_of_date dt = Ok (Some e) /\ normalised e /\
    instant e = (IZR (86400 * day_number leap_gregorian (year dt) (month dt) (day dt)
                      + 3600 * hour dt + 60 * minute dt) + second dt)%R.
Proof.
  intros dt (Hy & Hm & Hd) HB Hc.
  pose proof (month_length_le31 leap_gregorian (year dt) (month dt)).
  assert (V : valid_date leap_simple (year dt) (month dt) (day dt)).
  { split; [lia|split; [lia|]]. unfold month_length in *. pose proof (gregorian_implies_simple (year dt)) as G.
    destruct (leap_gregorian (year dt)); [now rewrite G|]. destruct (month dt =? 2); [destruct (leap_simple (year dt)); lia|lia]. }
  pose proof (code_days_bound (year dt) (month dt) (day dt) Hy Hm ltac:(lia)).
  assert (HM : code_days (year dt) (month dt) (day dt) < max_days) by (unfold max_days; lia).
  destruct (epoch_of_date_valid dt V Hc HM) as (Hs & HD0 & E).
  destruct (round_trip_date dt V Hc HM) as (e & E1 & _ & N). rewrite E in E1. injection E1 as <-.
  eexists. split; [exact E|]. split; [exact N|].
  rewrite (code_vs_gregorian (year dt) (month dt) (day dt)) by lia.
  rewrite wrong_leaps_2100 by (destruct (Z.leb_spec 3 (month dt)); lia).
  unfold instant. cbn [time_s fraction].
  rewrite !plus_IZR, !mult_IZR, !plus_IZR. lra.
Qed.
Print Assumptions C15_posix_time.

(** C15: from 2100-03-01 on every date is late by at least one day: by the number of years the
    rule year%4==0 wrongly takes as leap years. *)
Theorem C15_posix_time_from_2100_refuted : forall dt,
  valid_date leap_gregorian (year dt) (month dt) (day dt) ->
  2100 <= year dt <= 5000000 -> 3 <= month dt \/ 2100 < year dt ->
  valid_clock (hour dt) (minute dt) (second dt) ->
  exists e late, epoch_of_date dt = Ok (Some e) /\ 1 <= late /\
    instant e = (IZR (86400 * (day_number leap_gregorian (year dt) (month dt) (day dt) + late)
                      + 3600 * hour dt + 60 * minute dt) + second dt)%R.
Proof.
  intros dt (Hy & Hm & Hd) HB HA Hc.
  pose proof (month_length_le31 leap_gregorian (year dt) (month dt)).
  assert (V : valid_date leap_simple (year dt) (month dt) (day dt)).
  { split; [lia|split; [lia|]]. unfold month_length in *. pose proof (gregorian_implies_simple (year dt)) as G.
    destruct (leap_gregorian (year dt)); [now rewrite G|]. destruct (month dt =? 2); [destruct (leap_simple (year dt)); lia|lia]. }
  pose proof (code_days_bound (year dt) (month dt) (day dt) Hy Hm ltac:(lia)).
  assert (HM : code_days (year dt) (month dt) (day dt) < max_days) by (unfold max_days; lia).
  destruct (epoch_of_date_valid dt V Hc HM) as (Hs & HD0 & E).
  eexists. exists (wrong_leaps (Z.to_nat (year dt - 1970) + (if 3 <=? month dt then 1 else 0))).
  split; [exact E|]. split.
  - apply wrong_leaps_after. destruct (Z.leb_spec 3 (month dt)); lia.
  - rewrite (code_vs_gregorian (year dt) (month dt) (day dt)) by lia.
    unfold instant. cbn [time_s fraction].
    rewrite !plus_IZR, !mult_IZR, !plus_IZR. lra.
Qed.
Print Assumptions C15_posix_time_from_2100_refuted.

(** C15: the other direction, for every normalised time (about 5.8 million years): the calendar
    date is valid in the calendar "leap iff year%4==0" and converts back to the same time. *)
Theorem C15_round_trip_from_epoch : forall e, normalised e -> time_s e < 2 ^ 31 * 86400 ->
  let dt := date_of_epoch e in
  valid_date leap_simple (year dt) (month dt) (day dt) /\
  valid_clock (hour dt) (minute dt) (second dt) /\
  epoch_of_date dt = Ok (Some e).
Proof. exact round_trip_epoch. Qed.
Print Assumptions C15_round_trip_from_epoch.

(** C15: exactly the dates with a field out of its nominal range are dropped, and then the object
    is left uninitialised (no error is raised). *)
Theorem C15_rejected_dates : forall dt, (0 <= second dt < 1000)%R ->
  (epoch_of_date dt = Ok None <->
   year dt < 1970 \/ month dt < 1 \/ 12 < month dt \/ day dt < 1 \/ 31 < day dt \/ 60 <= minute dt
   \/ (60 <= second dt)%R) /\ epoch_of_date dt <> UB.
Proof.
  intros dt Hs. unfold epoch_of_date.
  assert (B : 0 <= Int_part (second dt) < 1000) by (apply Int_part_range; lra).
  assert (S : (60 <= second dt)%R <-> 60 <= Int_part (second dt)).
  { destruct (base_Int_part (second dt)) as [B1 B2]. split; intros H.
    - assert (60 < Int_part (second dt) + 1); [|lia]. apply lt_IZR. rewrite plus_IZR. lra.
    - apply IZR_le in H. lra. }
  rewrite S.
  destruct (Z.ltb_spec (Int_part (second dt)) 0); [lia|]. destruct (Z.leb_spec (2 ^ 64) (Int_part (second dt))); [lia|].
  cbn [orb].
  destruct (Z.ltb_spec (year dt) 1970); cbn [orb]; [split; [split; [lia|reflexivity]|discriminate]|].
  destruct (Z.ltb_spec (month dt) 1); cbn [orb]; [split; [split; [lia|reflexivity]|discriminate]|].
  destruct (Z.ltb_spec 12 (month dt)); cbn [orb]; [split; [split; [lia|reflexivity]|discriminate]|].
  destruct (Z.ltb_spec (day dt) 1); cbn [orb]; [split; [split; [lia|reflexivity]|discriminate]|].
  destruct (Z.leb_spec 32 (day dt)); cbn [orb]; [split; [split; [lia|reflexivity]|discriminate]|].
  destruct (Z.leb_spec 60 (minute dt)); [split; [split; [lia|reflexivity]|discriminate]|].
  destruct (Z.leb_spec 60 (Int_part (second dt))); [split; [split; [lia|reflexivity]|discriminate]|].
  split; [split; [discriminate|lia]|discriminate].
Qed.
Print Assumptions C15_rejected_dates.

(** C15: nonexistent dates are accepted: 2023-02-31 is 2023-03-03. *)
Theorem C15_nonexistent_date_accepted_refuted :
  exists e, epoch_of_date (mkDT 2023 2 31 0 0 0) = Ok (Some e) /\
            date_of_epoch e = mkDT 2023 3 3 0 0 0.
Proof.
  assert (V : valid_date leap_simple 2023 3 3) by (unfold valid_date; vm_compute; repeat split; discriminate).
  assert (C : valid_clock 0 0 0) by (unfold valid_clock; repeat split; try lia; lra).
  destruct (round_trip_date (mkDT 2023 3 3 0 0 0) V C) as (e & E1 & E2 & _); [vm_compute; reflexivity|].
  exists e. split; [|exact E2]. rewrite <- E1. reflexivity.
Qed.
Print Assumptions C15_nonexistent_date_accepted_refuted.

(** C16: the six comparisons of normalised times are those of the represented instants. *)
Theorem C16_comparisons : forall a b, normalised a -> normalised b ->
  (epoch_eq a b = true <-> instant a = instant b) /\
  (epoch_ne a b = true <-> instant a <> instant b) /\
  (epoch_lt a b = true <-> (instant a < instant b)%R) /\
  (epoch_gt a b = true <-> (instant a > instant b)%R) /\
  (epoch_le a b = true <-> (instant a <= instant b)%R) /\
  (epoch_ge a b = true <-> (instant a >= instant b)%R).
Proof.
  intros a b Ha Hb.
  assert (E : epoch_eq a b = true <-> instant a = instant b).
  { rewrite epoch_eq_spec. split; [now intros ->|]. now apply instant_inj. }
  pose proof (epoch_lt_spec a b Ha Hb) as L. pose proof (epoch_gt_spec a b Ha Hb) as G.
  split; [exact E|]. split; [apply (bool_iff_negb _ _ _ E); tauto|]. split; [exact L|]. split; [exact G|].
  split; [apply (bool_iff_negb _ _ _ G); lra|apply (bool_iff_negb _ _ _ L); lra].
Qed.
Print Assumptions C16_comparisons.

(** C16: addition is exact; the result is normalised unless the fractions sum to exactly 1, in
    which case the code returns the fraction 1. *)
Theorem C16_addition : forall a b, normalised a -> normalised b -> time_s a + time_s b + 1 < 2 ^ 64 ->
  (instant (epoch_add a b) = instant a + instant b)%R /\
  ((fraction a + fraction b)%R <> 1%R -> normalised (epoch_add a b)) /\
  ((fraction a + fraction b)%R = 1%R -> epoch_add a b = mkEpoch (time_s a + time_s b) 1).
Proof. exact epoch_add_spec. Qed.
Print Assumptions C16_addition.

(** C16: hence equal instants can compare unequal: 0.5 s + 0.5 s is neither == nor >= 1 s. *)
Theorem C16_half_plus_half_refuted :
  let h := mkEpoch 0 (1/2) in let one := mkEpoch 1 0 in
  instant (epoch_add h h) = instant one /\ epoch_eq (epoch_add h h) one = false /\
  epoch_ge (epoch_add h h) one = false.
Proof.
  cbv zeta. assert (E : epoch_add (mkEpoch 0 (1/2)) (mkEpoch 0 (1/2)) = mkEpoch 0 1).
  { destruct (epoch_add_spec (mkEpoch 0 (1/2)) (mkEpoch 0 (1/2))) as (_ & _ & H).
    - unfold normalised; cbn [time_s fraction]; split; [lia|lra].
    - unfold normalised; cbn [time_s fraction]; split; [lia|lra].
    - cbn; lia.
    - apply H. cbn. lra. }
  rewrite E. unfold instant. cbn [time_s fraction]. split; [lra|]. split; reflexivity.
Qed.
Print Assumptions C16_half_plus_half_refuted.

(** C16: subtraction of a not-later time is exact and normalised. *)
Theorem C16_subtraction : forall a b, normalised a -> normalised b -> (instant b <= instant a)%R ->
  (instant (epoch_sub a b) = instant a - instant b)%R /\ normalised (epoch_sub a b).
Proof. exact epoch_sub_spec. Qed.
Print Assumptions C16_subtraction.

(** C16: subtracting a later time wraps around at 2^64 seconds. *)
Theorem C16_subtraction_of_later_time_refuted : forall a b, normalised a -> normalised b ->
  (instant a < instant b)%R -> (instant (epoch_sub a b) = instant a - instant b + 2 ^ 64)%R.
Proof. exact epoch_sub_wraps. Qed.
Print Assumptions C16_subtraction_of_later_time_refuted.

(** C16: (a - b) + b = a except when a has fraction 0 and b has not; then the result is the same
    instant written as (a-1 s) + 1.0 s. *)
Theorem C16_subtract_then_add : forall a b, normalised a -> normalised b ->
  (instant b <= instant a)%R -> time_s a + 1 < 2 ^ 64 ->
  (fraction a = 0%R /\ (0 < fraction b)%R -> epoch_add (epoch_sub a b) b = mkEpoch (time_s a - 1) 1) /\
  (~ (fraction a = 0%R /\ (0 < fraction b)%R) -> epoch_add (epoch_sub a b) b = a).
Proof. exact epoch_sub_add. Qed.
Print Assumptions C16_subtract_then_add.

(** C17: for every instant from the GPS epoch (1980-01-06) on: week and elapsed time. *)
Theorem C17_week_and_elapsed : forall e, normalised e -> (instant gps_epoch <= instant e)%R ->
  let g := gps_of_epoch e in
  0 <= g_week g /\ (0 <= g_elapsed g < 604800)%R /\
  (IZR (g_week g) * 604800 + g_elapsed g = instant e - instant gps_epoch)%R.
Proof.
  intros e He HL. pose proof (week_time e He HL) as W. unfold gps_of_epoch.
  destruct (calc_gps_week_time e) as [w el]. exact W.
Qed.
Print Assumptions C17_week_and_elapsed.

(** C17: the GPS epoch constant is 1980-01-06T00:00:00. *)
Theorem C17_gps_epoch : epoch_of_date (mkDT 1980 1 6 0 0 0) = Ok (Some gps_epoch).
Proof. exact gps_epoch_correct. Qed.
Print Assumptions C17_gps_epoch.

(** C17: building from week and elapsed time gives the instant, and reading the week and
    elapsed time of that instant gives the arguments back. *)
Theorem C17_round_trip : forall w el, 0 <= w < 2 ^ 44 -> (0 <= el < 604800)%R ->
  exists g, gps_of_week w el = Ok g /\ g_week g = w /\ g_elapsed g = el /\
    instant (g_epoch g) = (instant gps_epoch + IZR w * 604800 + el)%R /\
    g_week (gps_of_epoch (g_epoch g)) = w /\ g_elapsed (gps_of_epoch (g_epoch g)) = el.
Proof.
  intros w el [Hw HW] Hel. destruct (calc_epoch_time_spec w el Hw Hel HW) as (e & E & N & I).
  unfold gps_of_week. rewrite E. cbn [bind]. eexists. split; [reflexivity|].
  cbn [g_week g_elapsed g_epoch]. split; [reflexivity|]. split; [reflexivity|]. split; [exact I|].
  assert (HL : (instant gps_epoch <= instant e)%R).
  { rewrite I. assert (0 <= IZR w)%R by (apply (IZR_le 0); lia). lra. }
  pose proof (week_time e N HL) as W. unfold gps_of_epoch. destruct (calc_gps_week_time e) as [w' el'].
  destruct W as (W1 & W2 & W3). cbn [g_week g_elapsed]. rewrite I in W3.
  assert (w' = w).
  { assert (w' < w + 1) by (apply lt_IZR; rewrite plus_IZR; lra).
    assert (w < w' + 1) by (apply lt_IZR; rewrite plus_IZR; lra). lia. }
  subst w'. split; [reflexivity|lra].
Qed.
Print Assumptions C17_round_trip.

(** C17: as UTC the instant is 18 s earlier. *)
Theorem C17_utc_is_18s_behind : forall g, normalised (g_epoch g) -> (18 <= instant (g_epoch g))%R ->
  time_s (g_epoch g) < 2 ^ 31 * 86400 ->
  exists e, epoch_of_date (gps_as_utc g) = Ok (Some e) /\ instant e = (instant (g_epoch g) - 18)%R.
Proof.
  intros g N H18 HB.
  assert (NL : normalised leap_seconds) by (unfold normalised, leap_seconds; cbn [time_s fraction]; split; [lia|lra]).
  assert (IL : instant leap_seconds = 18%R) by (unfold instant, leap_seconds; cbn [time_s fraction]; lra).
  destruct (epoch_sub_spec (g_epoch g) leap_seconds N NL) as [E NE]; [lra|].
  exists (epoch_sub (g_epoch g) leap_seconds). split; [|now rewrite E, IL].
  apply round_trip_epoch; [exact NE|]. unfold max_days.
  assert (time_s (epoch_sub (g_epoch g) leap_seconds) < time_s (g_epoch g) + 1).
  { apply lt_IZR. rewrite plus_IZR. unfold instant in E, IL at 1. destruct NE as [_ NE], N as [_ N].
    change (time_s leap_seconds) with 18 in *. change (fraction leap_seconds) with 0%R in *. lra. }
  lia.
Qed.
Print Assumptions C17_utc_is_18s_behind.

(** C17: before the GPS epoch the subtraction wraps: the week number is astronomically large. *)
Theorem C17_before_gps_epoch_refuted : forall e, normalised e -> (instant e < instant gps_epoch)%R ->
  2 ^ 44 <= g_week (gps_of_epoch e).
Proof.
  intros e He HL. pose proof (epoch_sub_wraps e gps_epoch He gps_epoch_normalised HL) as W.
  assert (G : (instant gps_epoch = 315964800)%R) by (unfold instant, gps_epoch; cbn [time_s fraction]; lra).
  unfold gps_of_epoch, calc_gps_week_time. cbn [g_week].
  set (d := epoch_sub e gps_epoch) in *.
  assert (F : (fraction d <= 1)%R).
  { unfold d, epoch_sub. destruct He as [_ Fe]. change (fraction gps_epoch) with 0%R.
    destruct (Rltb_spec (fraction e - 0) 0); cbn [fraction]; lra. }
  assert (HT : 2 ^ 64 - 315964800 - 2 < time_s d).
  { apply lt_IZR. rewrite !minus_IZR. rewrite (pow_IZR 2 64) in W. change (Z.of_nat 64) with 64 in W.
    unfold instant at 1 in W. destruct He as [Te Fe].
    assert (0 <= instant e)%R.
    { unfold instant. assert (0 <= IZR (time_s e))%R by (apply (IZR_le 0); lia). lra. }
    lra. }
  unfold seconds_in_week. apply Z.div_le_lower_bound; lia.
Qed.
Print Assumptions C17_before_gps_epoch_refuted.

(** Hypotheses are met. *)
Example ex_date : valid_date leap_gregorian 2024 2 29 /\ valid_clock 23 59 (59 + 1/2).
Proof. split; [unfold valid_date; vm_compute; repeat split; discriminate|]. unfold valid_clock. repeat split; try lia; lra. Qed.
Example ex_posix : 86400 * day_number leap_gregorian 2024 2 29 + 3600 * 23 + 60 * 59 = 1709251140.
Proof. vm_compute. reflexivity. Qed.
Example ex_norm : normalised (mkEpoch 1709251199 (1/2)) /\ (instant gps_epoch <= instant (mkEpoch 1709251199 (1/2)))%R.
Proof. unfold normalised, instant, gps_epoch. cbn [time_s fraction]. repeat split; try lia; lra. Qed.
