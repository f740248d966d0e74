(** Model of src/simulation/spacecraft/spacecraft.cpp (SC) and src/dynamics/dynamics.cpp (DY): one step of a spacecraft.
    The attitude, the orbit, the temperatures, the local environment and the components are abstract here: the
    theorems hold for all of them. *)
From Coq Require Import Reals List Bool.
From Verif Require Import Base RBase VecModel QuatModel OrbitModel DisturbanceModel.
Import ListNotations.
Open Scope R_scope.

(** what Update reads of the SimulationTime object *)
Record time_info : Type := mkTime { elapsed_s : R; current_jd : R; att_flag : bool; orb_flag : bool; thermal_flag : bool; comp_flag : bool }.

Section spacecraft.
(** attitude without its torque, orbit without its acceleration, temperatures, local environment, components (with
    the clock generator and the structure they may change) *)
Context {AT OB TH ENV CP X : Type}.
(** Attitude::Propagate(end time) with the torque; GetQuaternion_i2b; Orbit::Propagate with the acceleration;
    Orbit::UpdateByAttitude; Temperature::Propagate; LocalEnvironment::Update; ClockGenerator::UpdateComponents and
    ComponentInterference; GenerateTorque_b_Nm; GenerateForce_b_N; the mass in the structure.
    Simplification: the components do not themselves call AddTorque_b_Nm etc. (none in /repo does). *)
Context (att_propagate : R -> vec -> AT -> AT) (quaternion : AT -> quat)
  (orb_propagate : R -> R -> vec -> OB -> OB) (by_attitude : quat -> OB -> OB)
  (thermal_propagate : ENV -> R -> TH -> TH)
  (env_update : time_info -> OB -> AT -> ENV -> ENV)
  (components_update : time_info -> OB -> AT -> ENV -> CP -> CP)
  (generate_torque : CP -> vec * CP) (generate_force : CP -> vec * CP) (mass : CP -> R).

Record spacecraft : Type := mkSc {
  attitude : AT; torque : vec; orbit : OB; acceleration : vec; thermal : TH; env : ENV; comps : CP;
  dist : list (disturbance (ENV * OB * AT) X) }.

(** DY 59-63 *)
Definition clear (s : spacecraft) : spacecraft :=
  mkSc (attitude s) (vconst 0) (orbit s) (acc_step (acceleration s) (SetAcc (vconst 0))) (thermal s) (env s) (comps s) (dist s).
(** dynamics.hpp:74, 80-82, 88 *)
Definition add_torque (t : vec) (s : spacecraft) : spacecraft :=
  mkSc (attitude s) (vadd (torque s) t) (orbit s) (acceleration s) (thermal s) (env s) (comps s) (dist s).
Definition add_force (f : vec) (s : spacecraft) : spacecraft :=
  mkSc (attitude s) (torque s) (orbit s) (acc_step (acceleration s) (AddForceB f (quaternion (attitude s)) (mass (comps s)))) (thermal s) (env s) (comps s) (dist s).
Definition add_acceleration (a : vec) (s : spacecraft) : spacecraft :=
  mkSc (attitude s) (torque s) (orbit s) (acc_step (acceleration s) (AddAcc a)) (thermal s) (env s) (comps s) (dist s).
(** DY 41-57 *)
Definition dynamics_update (t : time_info) (s : spacecraft) : spacecraft :=
  let a := if att_flag t then att_propagate (elapsed_s t) (torque s) (attitude s) else attitude s in
  let o := if orb_flag t then orb_propagate (elapsed_s t) (current_jd t) (acceleration s) (orbit s) else orbit s in
  let o := by_attitude (quaternion a) o in
  let th := if thermal_flag t then thermal_propagate (env s) (elapsed_s t) (thermal s) else thermal s in
  mkSc a (torque s) o (acceleration s) th (env s) (comps s) (dist s).
(** SC 55-77 *)
Definition spacecraft_update (t : time_info) (s : spacecraft) : spacecraft :=
  let s := clear s in
  let e := env_update t (orbit s) (attitude s) (env s) in
  let (ds, tot) := update_all (orb_flag t) (att_flag t) (e, orbit s, attitude s) (dist s) in
  let c := components_update t (orbit s) (attitude s) e (comps s) in
  let s := mkSc (attitude s) (torque s) (orbit s) (acceleration s) (thermal s) e c ds in
  let s := add_acceleration (tot_acc tot) s in
  let s := add_torque (tot_torque tot) s in
  let s := add_force (tot_force tot) s in
  let (ct, c) := generate_torque (comps s) in
  let s := add_torque ct (mkSc (attitude s) (torque s) (orbit s) (acceleration s) (thermal s) (env s) c (dist s)) in
  let (cf, c) := generate_force (comps s) in
  let s := add_force cf (mkSc (attitude s) (torque s) (orbit s) (acceleration s) (thermal s) (env s) c (dist s)) in
  dynamics_update t s.
(** SC 79 *)
Definition spacecraft_clear (s : spacecraft) : spacecraft := clear s.
End spacecraft.
Arguments spacecraft : clear implicits.
