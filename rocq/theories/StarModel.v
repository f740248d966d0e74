(** Model of src/components/real/aocs/star_sensor.cpp (exact reals, C++ integer arithmetic).
    The numbers drawn by the random generators are arguments of the measurement. *)
From Coq Require Import Reals Lra Lia List Bool ZArith.
From Verif Require Import Base RBase VecModel QuatModel SensorModel Trig.
Import ListNotations.
Open Scope R_scope.

(** Constructor arguments, star_sensor.cpp:21-44, hpp:113-138; output_delay and output_interval are
    unsigned int (0 <= . < 2^32) *)
Record star_config : Type := mkStarConfig {
  st_q_b2c : quat; st_step : R; st_delay : Z; st_interval : Z;
  st_sun_angle : R; st_earth_angle : R; st_moon_angle : R; st_rate_limit : R }.

Record star : Type := mkStar {
  st_measured : quat; st_buffer : list quat; st_pos : nat; st_count : Z; st_error : bool }.

(** conversions of C++: to unsigned int, and from unsigned int to int *)
Definition u32 (z : Z) : Z := (z mod 2 ^ 32)%Z.
Definition s32 (z : Z) : Z := if (z <? 2 ^ 31)%Z then z else (z - 2 ^ 32)%Z.

Definition q_identity : quat := q4 0 0 0 1.
(** 76-77: max_delay_ = int(output_delay_ * 2 / step_time_s_), the product in unsigned int *)
Definition max_delay (c : star_config) : outcome nat :=
  let! n := int_of_double (IZR (u32 (st_delay c * 2)) / st_step c) in
  Ok (if (n <=? 0)%Z then 1%nat else Z.to_nat n).
(** 72-93: Initialize *)
Definition star_new (c : star_config) : outcome star :=
  let! m := max_delay c in
  Ok (mkStar q_identity (repeat q_identity m) 0 0 true).

(** What the sensor reads and draws in one measurement: true quaternion i2b, angular velocity, the
    positions of Sun, Earth and Moon from the spacecraft (body frame), and the three random numbers *)
Record star_input : Type := mkStarInput {
  in_q_i2b : quat; in_rate_b : vec; in_sun_b : vec; in_earth_b : vec; in_moon_b : vec;
  in_sight_noise : R; in_rotation : R; in_ortho_noise : R }.

(** 112-129: the new entry of the delay buffer; sight direction (1,0,0), orthogonal directions (0,1,0)
    and (0,0,1) (84-89), math::tau = 2 pi *)
Definition noise_axis (rotation : R) : vec :=
  let rot := 2 * PI * rotation in vadd (vscal (cos rot) (v3 0 1 0)) (vscal (sin rot) (v3 0 0 1)).
Definition star_value (c : star_config) (i : star_input) : quat :=
  let q := qmul (in_q_i2b i) (st_q_b2c c) in
  qmul (qmul q (q_axis_angle (v3 1 0 0) (in_sight_noise i))) (q_axis_angle (noise_axis (in_rotation i)) (in_ortho_noise i)).

(** 212-219 *)
Definition star_angle (u v : vec) : R := acos (dot 3 (normalize 3 u) (normalize 3 v)).
Definition sight_b (c : star_config) : vec := frame_conversion (qconj (st_q_b2c c)) (v3 1 0 0).   (* 149-150 *)
Definition earth_radius : R := 6378136.6.                         (* physical_constants.hpp:33 *)
(** 148-157, 172-180 *)
Definition near_body (c : star_config) (limit : R) (body : vec) : bool := rlt (star_angle body (sight_b c)) limit.
(** 159-170 *)
Definition near_earth (c : star_config) (earth : vec) : bool :=
  rlt (star_angle earth (sight_b c) - atan2 earth_radius (norm 3 earth)) (st_earth_angle c).
(** 134-146, 182-188 *)
Definition star_judgement (c : star_config) (i : star_input) : bool :=
  near_body c (st_sun_angle c) (in_sun_b i) || near_earth c (in_earth_b i) || near_body c (st_moon_angle c) (in_moon_b i)
  || rlt (st_rate_limit c) (norm 3 (in_rate_b i)).

Fixpoint write_at {A} (n : nat) (x : A) (l : list A) : list A :=
  match l, n with
  | [], _ => []
  | _ :: r, O => x :: r
  | y :: r, S k => y :: write_at k x r
  end.
(** 95-109: Measure; hist is computed in unsigned int and converted to int *)
Definition star_measure (c : star_config) (s : star) (i : star_input) : outcome star :=
  let m := length (st_buffer s) in
  let buf := write_at (st_pos s) (star_value c i) (st_buffer s) in
  let pos := Nat.modulo (S (st_pos s)) m in
  let err := star_judgement c i in
  let! q :=
    (if (st_count s =? 0)%Z then
       let hist := s32 (u32 (u32 (Z.of_nat pos - st_delay c) - 1)) in
       let hist := if (hist <? 0)%Z then (Z.of_nat m - 1)%Z else hist in
       match nth_error buf (Z.to_nat hist) with Some v => Ok v | None => UB end
     else Ok (st_measured s)) in
  let cnt := (st_count s + 1)%Z in
  Ok (mkStar q buf pos (if (cnt =? st_interval c)%Z then 0%Z else cnt) err).

Fixpoint star_run (c : star_config) (s : star) (n : nat) (input : nat -> star_input) : outcome star :=
  match n with
  | O => Ok s
  | S k => let! s' := star_run c s k input in star_measure c s' (input k)
  end.

(** 225-237: what InitStarSensor computes from the delay and interval in seconds *)
Definition steps_of_seconds (seconds step : R) : outcome Z :=
  let! n := int_of_double (seconds / step) in Ok (Z.max n 1).
