(** Model of src/components/real/aocs/sun_sensor.cpp (exact reals; the numbers drawn by the random
    generators are arguments). *)
From Coq Require Import Reals Lra Lia List Bool.
From Verif Require Import RBase VecModel QuatModel Trig.
Import ListNotations.
Open Scope R_scope.

(** Constructor arguments 15-31, 33-46; the two biases are the numbers drawn in Initialize (48-57),
    ss_solar_constant is GetSolarConstant_W_m2 of the environment *)
Record sun_sensor_config : Type := mkSunSensorConfig {
  ss_q_b2c : quat; ss_half_angle : R; ss_threshold_percent : R;
  ss_bias_alpha : R; ss_bias_beta : R; ss_solar_constant : R }.

(** hpp:97-104 *)
Record sun_sensor : Type := mkSunSensor {
  ss_true_c : vec; ss_measured_c : vec; ss_alpha : R; ss_beta : R; ss_illuminance : R; ss_detected : bool }.
Definition sun_sensor_new : sun_sensor := mkSunSensor (vconst 0) (vconst 0) 0 0 0 false.

(** Sun position from the spacecraft in the body frame, power density of the sunlight, noise draws *)
Record sun_input : Type := mkSunInput { si_sun_b : vec; si_power : R; si_noise_alpha : R; si_noise_beta : R }.

(** 133-137 *)
Definition tan_range (x : R) : R :=
  let x := if rlt (PI / 2) x then PI - x else x in
  if rlt x (- (PI / 2)) then - PI - x else x.

Definition sun_angle (true_c : vec) : R := acos (normalize 3 true_c 2%nat).   (* 102-104, 119-120 *)
(** 101-116: uses the illuminance of the previous measurement *)
Definition sun_detection (c : sun_sensor_config) (true_c : vec) (illuminance : R) : bool :=
  if rlt illuminance (ss_threshold_percent c / 100 * ss_solar_constant c) then false
  else rlt (sun_angle true_c) (ss_half_angle c).
(** 118-131 *)
Definition sun_illuminance (true_c : vec) (power : R) : R :=
  if rlt (PI / 2) (sun_angle true_c) then 0 else power * cos (sun_angle true_c).

(** 64-99 *)
Definition sun_measure (c : sun_sensor_config) (s : sun_sensor) (i : sun_input) : sun_sensor :=
  let true_c := frame_conversion (ss_q_b2c c) (normalize 3 (si_sun_b i)) in
  let lux := sun_illuminance true_c (si_power i) in
  if sun_detection c true_c (ss_illuminance s) then
    let a := tan_range (atan2 (true_c 0%nat) (true_c 2%nat) + ss_bias_alpha c + si_noise_alpha i) in
    let b := tan_range (atan2 (true_c 1%nat) (true_c 2%nat) + ss_bias_beta c + si_noise_beta i) in
    mkSunSensor true_c (normalize 3 (v3 (tan a) (tan b) 1)) a b lux true
  else mkSunSensor true_c (vconst 0) 0 0 lux false.

Definition sun_run (c : sun_sensor_config) (s : sun_sensor) (l : list sun_input) : sun_sensor := fold_left (sun_measure c) l s.
