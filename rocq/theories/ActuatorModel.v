(** Model of src/components/real/propulsion/simple_thruster.cpp, src/components/ideal/force_generator.cpp,
    src/components/ideal/torque_generator.cpp, src/components/ideal/orbit_observer.cpp and
    src/components/ideal/attitude_observer.cpp (exact reals; the noise samples drawn are inputs).
    Not modelled: log text and initialisation files. *)
From Coq Require Import Reals Lra Lia List Bool ZArith.
From Verif Require Import Base RBase VecModel QuatModel PowerPortModel WheelModel OrbitModel.
Import ListNotations.
Open Scope R_scope.

(** * Simple thruster *)
Record thr_config : Type := mkThrConfig {
  tc_position : vec; tc_direction : vec; tc_max : R; tc_direction_sigma : R; tc_dead : R; tc_tau : R; tc_step : R }.
Record thr : Type := mkThr { th_duty : R; th_buffer : list R; th_lag : R; th_thrust : vec; th_torque : vec }.
(** Draws of one call: magnitude noise, angle turning the error axis about the thrust direction, error angle; and the
    centre of gravity read from the structure *)
Record thr_input : Type := mkThrInput { ti_magnitude : R; ti_turn : R; ti_angle : R; ti_com : vec }.

(** simple_thruster.cpp:61-64; the quotient is assumed not negative *)
Definition thr_buffer_length (c : thr_config) : nat := (Z.to_nat (Int_part (tc_dead c / tc_step c)) + 1)%nat.
Definition thr_new (c : thr_config) : thr := mkThr 0 (repeat 0 (thr_buffer_length c)) 0 (vconst 0) (vconst 0).
(** simple_thruster.hpp:117 *)
Definition set_duty (d : R) (t : thr) : thr := mkThr d (th_buffer t) (th_lag t) (th_thrust t) (th_torque t).
(** 56-60: the stored direction is normalised; 129-150 *)
Definition thr_direction (c : thr_config) (i : thr_input) : vec :=
  let d := normalize 3 (tc_direction c) in
  if rlt (0 + DBL_EPSILON) (tc_direction_sigma c)
  then let axis := frame_conversion (q_axis_angle d (ti_turn i)) (v3 1 0 0) in
       frame_conversion (q_axis_angle axis (ti_angle i)) d
  else d.
(** 66-71, 78-90, 116-127 *)
Definition thr_main (c : thr_config) (i : thr_input) (t : thr) : thr :=
  let '(out, lag) := lag_update (tc_step c) (tc_tau c) (th_lag t) (hd 0 (th_buffer t)) in
  let buf := tl (th_buffer t ++ [th_duty t]) in
  let mag := out * tc_max c in
  let mag := if rlt (0 + DBL_EPSILON) (th_duty t) then mag + ti_magnitude i else mag in
  let thrust := vscal mag (thr_direction c i) in
  mkThr (th_duty t) buf lag thrust (cross (vsub (tc_position c) (ti_com i)) thrust).
(** 73-76 *)
Definition thr_off (t : thr) : thr := mkThr (th_duty t) (th_buffer t) (th_lag t) (vscal 0 (th_thrust t)) (vscal 0 (th_torque t)).

(** * Ideal force and torque generator *)
(** Draws of one call: the three components of a random direction, the (standard normal) angle noise, the magnitude noise *)
Record gen_noise : Type := mkGenNoise { gn_direction : vec; gn_angle : R; gn_magnitude : R }.
(** force_generator.cpp:89-109, torque_generator.cpp:65-85 *)
Definition direction_noise_quaternion (sigma : R) (n : gen_noise) (d : vec) : quat :=
  let axis := cross d (normalize 3 (gn_direction n)) in
  let axis := if rlt (norm 3 axis) (0 + DBL_EPSILON) then d else axis in
  q_axis_angle axis (gn_angle n * sigma).
(** force_generator.cpp:28-41, torque_generator.cpp:26-41 *)
Definition generate (sigma : R) (n : gen_noise) (ordered : vec) : vec :=
  if rlt (0 + DBL_EPSILON) (norm 3 ordered)
  then let d := normalize 3 ordered in
       vscal (norm 3 ordered + gn_magnitude n) (frame_conversion (direction_noise_quaternion sigma n d) d)
  else ordered.
Record force_gen : Type := mkForceGen { fg_ordered_b : vec; fg_b : vec; fg_i : vec; fg_rtn : vec }.
(** The dynamics read: attitude, position and velocity *)
Record motion : Type := mkMotion { mo_q_i2b : quat; mo_r : vec; mo_v : vec }.
(** force_generator.cpp:25-48 *)
Definition force_main (sigma : R) (n : gen_noise) (m : motion) (f : force_gen) : force_gen :=
  let b := generate sigma n (fg_ordered_b f) in
  let i := inverse_frame_conversion (mo_q_i2b m) b in
  mkForceGen (fg_ordered_b f) b i (frame_conversion (quaternion_i2lvlh (mo_r m) (mo_v m)) i).
(** 50-54 *)
Definition force_off (f : force_gen) : force_gen :=
  mkForceGen (fg_ordered_b f) (vscal 0 (fg_b f)) (vscal 0 (fg_i f)) (vscal 0 (fg_rtn f)).
(** force_generator.hpp SetForce_b_N; force_generator.cpp:56-59, 61-67 *)
Definition set_force_b (x : vec) (f : force_gen) : force_gen := mkForceGen x (fg_b f) (fg_i f) (fg_rtn f).
Definition set_force_i (m : motion) (x : vec) (f : force_gen) : force_gen := set_force_b (frame_conversion (mo_q_i2b m) x) f.
Definition set_force_rtn (m : motion) (x : vec) (f : force_gen) : force_gen :=
  set_force_b (frame_conversion (mo_q_i2b m) (inverse_frame_conversion (quaternion_i2lvlh (mo_r m) (mo_v m)) x)) f.

(** * Ideal observers *)
Inductive noise_frame : Type := NoiseInertial | NoiseRtn.
(** orbit_observer.cpp:21-55: observed position and velocity *)
Definition orbit_observe (f : noise_frame) (pn vn r v : vec) : vec * vec :=
  match f with
  | NoiseInertial => (vadd r pn, vadd v vn)
  | NoiseRtn => let q := quaternion_i2lvlh r v in
                (vadd r (inverse_frame_conversion q pn), vadd v (inverse_frame_conversion q vn))
  end.
(** attitude_observer.cpp:19-34 *)
Definition attitude_observe (dir : vec) (angle : R) (q : quat) : quat := qmul (q_axis_angle (normalize 3 dir) angle) q.
