(** Model of src/components/real/aocs/magnetorquer.cpp, magnetometer.cpp, gyro_sensor.cpp and
    mtq_magnetometer_interference.cpp (exact reals; the numbers drawn by the random generators are
    arguments).  The logging and the reading of the parameters are not modelled. *)
From Coq Require Import Reals Lra Lia List Bool ZArith.
From Verif Require Import RBase VecModel QuatModel OdeModel SensorModel.
Import ListNotations.
Open Scope R_scope.

(** magnetorquer.cpp:16-37 and 39-60: constructor arguments *)
Record mtq_config : Type := mkMtqConfig {
  mq_q_b2c : quat; mq_scale : mat; mq_max : vec; mq_min : vec; mq_bias : vec;
  mq_walk_limit : vec; mq_walk_h : R; mq_walk_draws : nat -> nat -> R; mq_noise : nat -> nat -> R }.

(** magnetorquer.hpp:121-123; mq_calls counts the calls of CalcOutputTorque (the random walk has been
    advanced, and the normal generators have been asked, that many times) *)
Record mtq : Type := mkMtq { mq_moment_c : vec; mq_moment_b : vec; mq_torque_b : vec; mq_calls : nat }.
Definition mtq_new : mtq := mkMtq (vconst 0) (vconst 0) (vconst 0) 0.

(** magnetorquer.cpp:78-82 *)
Definition limit_moment (hi lo x : R) : R := if rlt hi x then hi else if rlt x lo then lo else x.
(** 76-87: the loop over the axes; it writes into output_magnetic_moment_c_Am2_ itself *)
Definition disturbed_moment (c : mtq_config) (k : nat) (x : vec) : vec := fun i =>
  limit_moment (mq_max c i) (mq_min c i) (x i) + mq_bias c i
  + walk_after (mq_walk_limit c) (mq_walk_draws c) (mq_walk_h c) k i + mq_noise c i k.
(** 75-99: CalcOutputTorque; field is GetGeomagneticField_b_nT(), kConvertNanoT2T = 1.0e-9 (hpp:120).
    quaternion_c2b_ = quaternion_b2c_.Conjugate() (25, 48) *)
Definition mtq_main (c : mtq_config) (m : mtq) (field : vec) : mtq :=
  let mc := mvec 3 (mq_scale c) (disturbed_moment c (mq_calls m) (mq_moment_c m)) in
  let mb := frame_conversion (qconj (mq_q_b2c c)) mc in
  mkMtq mc mb (cross mb (vscal (/ 10 ^ 9) field)) (S (mq_calls m)).
(** 68-72 *)
Definition mtq_power_off (m : mtq) : mtq :=
  mkMtq (vscal 0 (mq_moment_c m)) (vscal 0 (mq_moment_b m)) (vscal 0 (mq_torque_b m)) (mq_calls m).
(** magnetorquer.hpp:105 *)
Definition mtq_command (m : mtq) (v : vec) : mtq := mkMtq v (mq_moment_b m) (mq_torque_b m) (mq_calls m).

Inductive mtq_op : Type := MtqCommand (v : vec) | MtqStep (field : vec) | MtqPowerOff.
Definition mtq_do (c : mtq_config) (m : mtq) (e : mtq_op) : mtq :=
  match e with MtqCommand v => mtq_command m v | MtqStep f => mtq_main c m f | MtqPowerOff => mtq_power_off m end.
Definition mtq_run (c : mtq_config) (m : mtq) (es : list mtq_op) : mtq := fold_left (mtq_do c) es m.

(** magnetometer.cpp:29-34 and gyro_sensor.cpp:28-33: the k-th measurement; x_b is the geomagnetic
    field resp. the angular velocity in the body frame *)
Definition three_axis_measurement (s : sensor) (q_b2c : quat) (k : nat) (x_b : vec) : vec :=
  measure 3 s k (frame_conversion q_b2c x_b).

(** A magnetometer (its bias, hpp:87, 94, 100) with the interference objects acting on it; int_prev i is
    previous_added_bias_c_nT_ of the i-th one (mtq_magnetometer_interference.hpp:37, initially 0) *)
Record interfered : Type := mkInterfered { if_bias : vec; if_prev : nat -> vec }.
Definition interfered_new (b : vec) : interfered := mkInterfered b (fun _ => vconst 0).

(** mtq_magnetometer_interference.cpp:40-48: the loop over the degrees; coefs holds the matrices of
    degree d, d+1, ... *)
Fixpoint interference_bias (coefs : list mat) (d : nat) (m : vec) (acc : vec) : vec :=
  match coefs with
  | [] => acc
  | a :: r => interference_bias r (S d) m (vadd acc (mvec 3 a (fun i => m i ^ d)))
  end.
(** 34-53: UpdateInterference of object i, whose magnetorquer reports the moment m *)
Definition update_interference (coefs : nat -> list mat) (s : interfered) (i : nat) (m : vec) : interfered :=
  let b1 := vadd (if_bias s) (vscal (-1) (if_prev s i)) in
  let add := interference_bias (coefs i) 1 m (vconst 0) in
  mkInterfered (vadd b1 add) (fun j => if Nat.eqb j i then add else if_prev s j).

Inductive bias_op : Type := SetBias (b : vec) | AddBias (b : vec) | Interfere (i : nat) (m : vec).
Definition bias_do (coefs : nat -> list mat) (s : interfered) (e : bias_op) : interfered :=
  match e with
  | SetBias b => mkInterfered b (if_prev s)                      (* magnetometer.hpp:87 *)
  | AddBias b => mkInterfered (vadd (if_bias s) b) (if_prev s)   (* magnetometer.hpp:94 *)
  | Interfere i m => update_interference coefs s i m
  end.
Definition bias_run (coefs : nat -> list mat) (s : interfered) (es : list bias_op) : interfered :=
  fold_left (bias_do coefs) es s.
