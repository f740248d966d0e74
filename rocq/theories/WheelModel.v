(** Model of src/components/real/aocs/reaction_wheel.cpp, reaction_wheel_ode.cpp and
    src/math_physics/control_utilities/first_order_lag.hpp (exact reals; [abs] is the overload for
    doubles; logging and the reading of the ini file are not modelled here). *)
From Coq Require Import Reals Lra Lia List Bool ZArith.
From Verif Require Import RBase VecModel QuatModel OdeModel.
Import ListNotations.
Open Scope R_scope.

(** constants.hpp:44-45 *)
Definition rpm_to_rad_s : R := 2 * PI / 60.
Definition rad_s_to_rpm : R := 60 / (2 * PI).

(** first_order_lag.hpp:22-40, gain 1 as the wheel uses it; returns the value of Update and the new output_ *)
Definition lag_update (dt tau out input : R) : R * R :=
  if rle (dt + tau) 0 then (0, out)
  else let c_out := tau / (dt + tau) in
       let c_in := 1 * dt / (dt + tau) in
       let o := c_out * out + c_in * input in (o, o).

(** reaction_wheel_ode.cpp:17-36.  The member angular_acceleration_rad_s2_ is the state threaded
    through the evaluations: the function overwrites it when the speed is beyond the limit. *)
Definition wheel_deriv (limit : R) (acc : R) (x : R) (s : vec) : vec * R :=
  let w := s 0%nat in
  let a := if rlt limit w then (if rlt 0 acc then 0 else acc)
           else if rlt w (-1 * limit) then (if rlt acc 0 then 0 else acc)
           else acc in
  (vconst a, a).

(** Constructor arguments (reaction_wheel.cpp:16-34; the jitter is in WheelJitterModel.v) *)
Record wheel_config : Type := mkWheelConfig {
  rw_step : R; rw_inertia : R; rw_max_torque : R; rw_max_rpm : R; rw_q_b2c : quat;
  rw_dead : R; rw_tau : R; rw_friction : list R; rw_stop : R }.

(** Members that change (reaction_wheel.hpp:150-192) *)
Record wheel : Type := mkWheel {
  rw_drive : bool;          (* drive_flag_ *)
  rw_limit_rpm : R;         (* velocity_limit_rpm_ *)
  rw_ode : ode;             (* ode_angular_velocity_: independent variable, state, derivative, step *)
  rw_ode_acc : R;           (* its angular_acceleration_rad_s2_ *)
  rw_ode_limit : R;         (* its velocity_limit_rad_s_ *)
  rw_lag : R;               (* delayed_acceleration_rad_s2_.output_ *)
  rw_buffer : list R;       (* acceleration_delay_buffer_ *)
  rw_target : R;            (* target_acceleration_rad_s2_ *)
  rw_speed : R;             (* angular_velocity_rad_s_ *)
  rw_generated : R;         (* generated_angular_acceleration_rad_s2_ *)
  rw_torque_b : vec;        (* output_torque_b_Nm_ *)
  rw_momentum_b : vec }.    (* angular_momentum_b_Nms_ *)

(** reaction_wheel.cpp:71-73 *)
Definition wheel_axis (c : wheel_config) : vec := inverse_frame_conversion (rw_q_b2c c) (v3 0 0 1).
(** reaction_wheel.cpp:77; floor of a double, for a quotient that is not negative (the cast of a
    negative number to size_t is not modelled) *)
Definition wheel_buffer_length (c : wheel_config) : nat := (Z.to_nat (Int_part (rw_dead c / rw_step c)) + 1)%nat.

(** reaction_wheel.cpp:20-41, 70-88; reaction_wheel_ode.cpp:12-15 *)
Definition wheel_new (c : wheel_config) (drive : bool) (speed0 : R) : wheel :=
  let o := ode_setup (ode_new (rw_step c)) 0 (vconst speed0) in
  mkWheel drive (rw_max_rpm c) o 0 (rw_max_rpm c * rpm_to_rad_s) 0 (repeat 0 (wheel_buffer_length c)) 0
          (state o 0%nat) 0 (vconst 0) (vconst 0).

(** reaction_wheel.cpp:111-115: the loop over the coefficients, i counting from [k] *)
Fixpoint friction_sum (coef : list R) (k : nat) (v acc : R) : R :=
  match coef with [] => acc | f :: r => friction_sum r (S k) v (acc + f * v ^ k) end.

(** reaction_wheel.cpp:104-153 *)
Definition calc_torque (c : wheel_config) (w : wheel) : wheel :=
  let '(buf, lag, o, acc) :=
    if negb (rw_drive w) then
      let buf := repeat 0 (length (rw_buffer w)) in
      let v := Rabs (rw_speed w) in
      let coasting := friction_sum (rw_friction c) 0 v 0 in
      let '(dir, o) := if rlt v (rw_stop c) then (0, ode_setup (rw_ode w) 0 (vconst 0))
                       else if rlt 0 (rw_speed w) then (-1, rw_ode w) else (1, rw_ode w) in
      (buf, rw_lag w, o, coasting * dir)
    else
      let '(a, lag) := lag_update (rw_step c) (rw_tau c) (rw_lag w) (hd 0 (rw_buffer w)) in
      (tl (rw_buffer w ++ [rw_target w]), lag, rw_ode w, a) in
  let '(o', acc') := ode_update (wheel_deriv (rw_ode_limit w)) acc o in
  let speed := state o' 0%nat in
  let gen := (speed - rw_speed w) / rw_step c in
  mkWheel (rw_drive w) (rw_limit_rpm w) o' acc' (rw_ode_limit w) lag buf (rw_target w) speed gen
          (vscal (-1 * rw_inertia c * gen) (wheel_axis c)) (vscal (rw_inertia c * speed) (wheel_axis c)).

(** reaction_wheel.cpp:173-182, 183 *)
Definition set_target (w : wheel) (a : R) : wheel :=
  mkWheel (rw_drive w) (rw_limit_rpm w) (rw_ode w) (rw_ode_acc w) (rw_ode_limit w) (rw_lag w) (rw_buffer w) a
          (rw_speed w) (rw_generated w) (rw_torque_b w) (rw_momentum_b w).
Definition set_target_torque_rw (c : wheel_config) (w : wheel) (torque : R) : wheel :=
  let sign := if rlt 0 torque then 1 else -1 in
  if rlt (Rabs torque) (rw_max_torque c) then set_target w (torque / rw_inertia c)
  else set_target w (sign * rw_max_torque c / rw_inertia c).
Definition set_target_torque_b (c : wheel_config) (w : wheel) (torque : R) : wheel :=
  set_target_torque_rw c w (-1 * torque).

(** reaction_wheel.cpp:185-195 *)
Definition set_velocity_limit (c : wheel_config) (w : wheel) (rpm : R) : wheel :=
  let l := if rlt (rw_max_rpm c) rpm then rw_max_rpm c
           else if rlt rpm (-1 * rw_max_rpm c) then -1 * rw_max_rpm c else rpm in
  mkWheel (rw_drive w) l (rw_ode w) (rw_ode_acc w) (l * rpm_to_rad_s) (rw_lag w) (rw_buffer w) (rw_target w)
          (rw_speed w) (rw_generated w) (rw_torque_b w) (rw_momentum_b w).

(** reaction_wheel.hpp SetDriveFlag; reaction_wheel.cpp:95 *)
Definition set_drive (w : wheel) (b : bool) : wheel :=
  mkWheel b (rw_limit_rpm w) (rw_ode w) (rw_ode_acc w) (rw_ode_limit w) (rw_lag w) (rw_buffer w) (rw_target w)
          (rw_speed w) (rw_generated w) (rw_torque_b w) (rw_momentum_b w).
Definition power_off (w : wheel) : wheel := set_drive w false.

(** What a user or the component scheduler may do to a wheel *)
Inductive wheel_op : Type :=
| CommandRw (torque : R)        (* SetTargetTorque_rw_Nm *)
| CommandB (torque : R)         (* SetTargetTorque_b_Nm *)
| LimitRpm (rpm : R)            (* SetVelocityLimit_rpm *)
| Drive (b : bool)              (* SetDriveFlag *)
| StepOn                        (* Component::Tick with power: MainRoutine *)
| StepOff.                      (* Component::Tick without power: PowerOffRoutine *)

Definition wheel_do (c : wheel_config) (w : wheel) (e : wheel_op) : wheel :=
  match e with
  | CommandRw t => set_target_torque_rw c w t
  | CommandB t => set_target_torque_b c w t
  | LimitRpm l => set_velocity_limit c w l
  | Drive b => set_drive w b
  | StepOn => calc_torque c w
  | StepOff => power_off w
  end.
Fixpoint wheel_run (c : wheel_config) (w : wheel) (ops : list wheel_op) : wheel :=
  match ops with [] => w | e :: r => wheel_run c (wheel_do c w e) r end.
