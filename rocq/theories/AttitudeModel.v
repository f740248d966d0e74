(** Model of src/dynamics/attitude: attitude.cpp (A), attitude_rk4.cpp (K), controlled_attitude.cpp (C),
    attitude_with_cantilever_vibration.cpp (V), ode_attitude_with_cantilever_vibration.hpp (VO).
    Doubles are real numbers.  The inertia tensor is a reference to the spacecraft's structure: its value at
    the time of the call is an argument. *)
From Coq Require Import Reals List Bool Arith.
From Verif Require Import Base RBase VecModel LuModel QuatModel.
From Verif Require RkModel.
Import ListNotations.
Open Scope R_scope.

(** A 62-83: CalcAngularVelocityMatrix *)
Definition omega_matrix (w : vec) : mat := fun i j =>
  match i with
  | 0%nat => q4 0 (w 2%nat) (- w 1%nat) (w 0%nat) j
  | 1%nat => q4 (- w 2%nat) 0 (w 0%nat) (w 1%nat) j
  | 2%nat => q4 (w 1%nat) (- w 0%nat) 0 (w 2%nat) j
  | _ => q4 (- w 0%nat) (- w 1%nat) (- w 2%nat) 0 j
  end.
(** K 77-82, VO 104: 0.5 * CalcAngularVelocityMatrix(omega) * quaternion *)
Definition quaternion_rate (w : vec) (q : vec) : vec := mvec 4 (mscal (1 / 2) (omega_matrix w)) q.

(** A 52-60: CalcAngularMomentum; the total in the body frame, in the inertial frame, its norm, the kinetic energy *)
Definition momentum_b (inertia : mat) (h w : vec) : vec := vadd h (mvec 3 inertia w).
Definition momentum_i (inertia : mat) (h w : vec) (q : quat) : vec := frame_conversion (qconj q) (momentum_b inertia h w).
Definition momentum_norm (inertia : mat) (h w : vec) (q : quat) : R := norm 3 (momentum_i inertia h w q).
Definition kinetic_energy (inertia : mat) (w : vec) : R := 1 / 2 * dot 3 (mvec 3 inertia w) w.

(** state vectors: angular velocity (3), quaternion (4) *)
Definition v7 (w q : vec) : vec := fun i => if Nat.ltb i 3 then w i else q (i - 3)%nat.
Definition omega7 (x : vec) : vec := x.
Definition quat7 (x : vec) : vec := fun i => x (i + 3)%nat.

(** ** AttitudeRk4 *)
(** K 60-89: AttitudeDynamicsAndKinematics.  [prev] is previous_inertia_tensor_kgm2_, [inv] inverse_inertia_tensor_,
    [dtorque] torque_inertia_tensor_change_b_Nm_, [h] the angular momentum of the reaction wheels *)
Definition net_torque (prev : mat) (torque h dtorque w : vec) : vec :=
  vsub (vsub torque (cross w (vadd (mvec 3 prev w) h))) dtorque.
Definition att_deriv (prev inv : mat) (torque h dtorque : vec) (x : vec) : vec :=
  v7 (mvec 3 inv (net_torque prev torque h dtorque (omega7 x))) (quaternion_rate (omega7 x) (quat7 x)).

(** K 91-123: RungeKuttaOneStep; the time argument is not used by the derivative *)
Definition rk_increment (f : vec -> vec) (dt : R) (x : vec) : vec :=
  let k1 := f x in
  let k2 := f (vadd x (vscal (dt / 2) k1)) in
  let k3 := f (vadd x (vscal (dt / 2) k2)) in
  let k4 := f (vadd x (vscal dt k3)) in
  vadd x (vscal (dt / 6) (vadd (vadd (vadd k1 (vscal 2 k2)) (vscal 2 k3)) k4)).
Definition att_step (f : vec -> vec) (dt : R) (st : vec * quat) : vec * quat :=
  let next := rk_increment f dt (v7 (fst st) (snd st)) in
  (omega7 next, qnormalize (quat7 next)).

Record att_rk4 : Type := mkAtt {
  at_omega : vec; at_q : quat; at_torque : vec; at_step : R; at_time : R; at_h : vec; at_prev : mat;
  at_norm : R; at_energy : R }.

(** K 48-51 *)
Fixpoint att_loop (f : vec -> vec) (fuel : nat) (step tend : R) (st : vec * quat) (t : R) : outcome (vec * quat * R) :=
  match fuel with
  | O => Hang
  | S n => if rlt (1 / 10 ^ 6) (tend - t - step) then att_loop f n step tend (att_step f step st) (t + step) else Ok (st, t)
  end.

Section lu.
(** the values of the uninitialised arrays of CalcInverseMatrix *)
Context (coef0 : vec) (index0 : nat -> nat) (inverse0 : mat).
Definition inverse3 (m : mat) : outcome mat := calc_inverse 3 coef0 index0 m inverse0.

(** K 14-27.  The inverse of the inertia tensor computed here is computed again by Propagate before any use. *)
Definition att_new (w : vec) (q : quat) (inertia : mat) (torque : vec) (step : R) : outcome att_rk4 :=
  let! _ := inverse3 inertia in
  Ok (mkAtt w q torque step 0 (vconst 0) inertia (momentum_norm inertia (vconst 0) w q) (kinetic_energy inertia w)).

(** K 41-58.  With end_time_s equal to the current time the code divides by zero and every component becomes
    NaN: UB here. *)
Definition att_propagate (fuel : nat) (enabled : bool) (inertia : mat) (a : att_rk4) (tend : R) : outcome att_rk4 :=
  if negb enabled then Ok a else
  if req (tend - at_time a) 0 then UB else
  let dtorque := mvec 3 (mscal (1 / (tend - at_time a)) (msub inertia (at_prev a))) (at_omega a) in
  let! inv := inverse3 inertia in
  let f := att_deriv (at_prev a) inv (at_torque a) (at_h a) dtorque in
  let! (st, t) := att_loop f fuel (at_step a) tend (at_omega a, at_q a) (at_time a) in
  let (w, q) := att_step f (tend - t) st in
  Ok (mkAtt w q (at_torque a) (at_step a) tend (at_h a) inertia (momentum_norm inertia (at_h a) w q) (kinetic_energy inertia w)).
End lu.
(** attitude.hpp: SetTorque_b_Nm, AddTorque_b_Nm, SetRwAngularMomentum_b_Nms, SetAngularVelocity_b_rad_s, SetQuaternion_i2b *)
Definition set_torque (a : att_rk4) (t : vec) : att_rk4 :=
  mkAtt (at_omega a) (at_q a) t (at_step a) (at_time a) (at_h a) (at_prev a) (at_norm a) (at_energy a).
Definition add_torque (a : att_rk4) (t : vec) : att_rk4 := set_torque a (vadd (at_torque a) t).
Definition set_rw (a : att_rk4) (h : vec) : att_rk4 :=
  mkAtt (at_omega a) (at_q a) (at_torque a) (at_step a) (at_time a) h (at_prev a) (at_norm a) (at_energy a).

(** ** AttitudeWithCantileverVibration *)
(** state vector: angular velocity, angular velocity of the cantilever, quaternion, Euler angles of the cantilever; VO 32-71 *)
Definition v13 (w wc q e : vec) : vec := fun i =>
  if Nat.ltb i 3 then w i else if Nat.ltb i 6 then wc (i - 3)%nat else if Nat.ltb i 10 then q (i - 6)%nat else e (i - 10)%nat.
Definition from13 (k : nat) (s : vec) : vec := fun i => s (i + k)%nat.
Record cant_ode : Type := mkCant {
  c_att : R; c_spring : R; c_torque : vec; c_dtorque : vec; c_h : vec; c_inv : mat; c_prev : mat; c_inertia : mat;
  c_inv_equiv : mat; c_inv_total : mat }.
(** VO 73-118: DerivativeFunction *)
Definition cant_deriv (o : cant_ode) (s : vec) : vec :=
  let w := from13 0 s in let wc := from13 3 s in let q := from13 6 s in let e := from13 10 s in
  let net := net_torque (c_prev o) (c_torque o) (c_h o) (c_dtorque o) w in
  let acc_c := vsub (vneg (mvec 3 (c_inv_equiv o) (vadd (vscal (c_att o) wc) (vscal (c_spring o) e)))) (mvec 3 (c_inv o) net) in
  let rhs := mvec 3 (c_inv_total o) (vsub net (mvec 3 (c_inertia o) acc_c)) in
  v13 rhs acc_c (quaternion_rate w q) wc.

Record cantilever : Type := mkCantilever {
  cv_omega : vec; cv_omega_c : vec; cv_q : quat; cv_euler : vec; cv_torque : vec; cv_step : R; cv_time : R; cv_h : vec;
  cv_ode : cant_ode; cv_integrator : RkModel.integrator; cv_norm : R; cv_energy : R }.

Definition cant_f (o : cant_ode) : R -> vec -> vec := fun _ s => cant_deriv o s.
(** V 91-94: the loop; the step width of the integrator is the one given at its construction *)
Fixpoint cant_loop (o : cant_ode) (fuel : nat) (step tend : R) (i : RkModel.integrator) (t : R) : outcome (RkModel.integrator * R) :=
  match fuel with
  | O => Hang
  | S n => if rlt (1 / 10 ^ 6) (tend - t - step) then cant_loop o n step tend (RkModel.integrate RkModel.rk4 (cant_f o) i) (t + step) else Ok (i, t)
  end.
Section lu2.
Context (coef0 : vec) (index0 : nat -> nat) (inverse0 : mat).
Notation inverse3 := (inverse3 coef0 index0 inverse0).
(** V 13-43; e0 is the uninitialised truncation error of the integrator *)
Definition cant_new (e0 : R) (w : vec) (q : quat) (inertia inertia_c : mat) (damping intrinsic : R) (torque : vec) (step : R) : outcome cantilever :=
  let! inv := inverse3 inertia in
  let! inv_total := inverse3 (madd inertia inertia_c) in
  let o := mkCant (2 * damping * intrinsic) (intrinsic * intrinsic) torque (vconst 0) (vconst 0) inv inertia inertia_c
             (mmul 3 inv (madd inertia inertia_c)) inv_total in
  let o0 := mkCant 0 0 (vconst 0) (vconst 0) (vconst 0) (fun _ _ => 0) (fun _ _ => 0) (fun _ _ => 0) (fun _ _ => 0) (fun _ _ => 0) in
  Ok (mkCantilever w (vconst 0) q (vconst 0) torque step 0 (vconst 0) o (RkModel.construct RkModel.rk4 (cant_f o0) step e0)
        (momentum_norm inertia (vconst 0) w q) (kinetic_energy inertia w)).
(** V 75-104; the assert aborts unless NDEBUG: Throw *)
Definition cant_propagate (fuel : nat) (enabled : bool) (inertia : mat) (a : cantilever) (tend : R) : outcome cantilever :=
  if negb enabled then Ok a else
  if negb (rlt (1 / 10 ^ 6) (tend - cv_time a)) then Throw else
  let p := cv_ode a in
  let dtorque := mvec 3 (mscal (1 / (tend - cv_time a)) (msub inertia (c_prev p))) (cv_omega a) in
  let! inv := inverse3 inertia in
  let o := mkCant (c_att p) (c_spring p) (cv_torque a) dtorque (cv_h a) inv (c_prev p) (c_inertia p) (c_inv_equiv p) (c_inv_total p) in
  let i := RkModel.set_state (cv_integrator a) (cv_step a) (v13 (cv_omega a) (cv_omega_c a) (cv_q a) (cv_euler a)) in
  let! (i, t) := cant_loop o fuel (cv_step a) tend i (cv_time a) in
  let i := RkModel.integrate RkModel.rk4 (cant_f o) (RkModel.set_state i (tend - t) (RkModel.x_cur i)) in
  let s := RkModel.x_cur i in
  let w := from13 0 s in let q := qnormalize (from13 6 s) in
  let o := mkCant (c_att o) (c_spring o) (c_torque o) (c_dtorque o) (c_h o) inv inertia (c_inertia o) (c_inv_equiv o) (c_inv_total o) in
  Ok (mkCantilever w (from13 3 s) q (from13 10 s) (cv_torque a) (cv_step a) tend (cv_h a) o i
        (momentum_norm inertia (cv_h a) w q) (kinetic_energy inertia w)).
End lu2.

(** ** ControlledAttitude *)
Inductive mode : Type := MInertial | MSun | MEarth | MVelocity | MGroundSpeed | MNormal | MSurface | MNone.
Definition mode_eqb (a b : mode) : bool :=
  match a, b with
  | MInertial, MInertial | MSun, MSun | MEarth, MEarth | MVelocity, MVelocity | MGroundSpeed, MGroundSpeed
  | MNormal, MNormal | MSurface, MSurface | MNone, MNone => true
  | _, _ => false
  end.
(** C 147-165 is the table mode name -> mode; modes >= kNoControl are MNone only *)
Record controlled : Type := mkCtl {
  cm_main : mode; cm_sub : mode; cm_main_b : vec; cm_sub_b : vec; cm_enabled : bool; cm_q : quat; cm_omega : vec; cm_torque : vec;
  cm_prev_time : R; cm_prev_q : quat; cm_prev_omega : vec }.
(** 30 degrees, controlled_attitude.hpp *)
Definition min_direction_angle : R := 30 * (PI / 180).
(** C 33-57: Initialize *)
Definition ctl_initialize (c : controlled) : controlled :=
  let en := cm_enabled c && negb (mode_eqb (cm_main c) MNone) && negb (mode_eqb (cm_sub c) MNone) in
  let with_ b m s := mkCtl (cm_main c) (cm_sub c) m s b (cm_q c) (cm_omega c) (cm_torque c) (cm_prev_time c) (cm_prev_q c) (cm_prev_omega c) in
  if mode_eqb (cm_main c) MInertial then with_ en (cm_main_b c) (cm_sub_b c)
  else if mode_eqb (cm_main c) (cm_sub c) then with_ false (cm_main_b c) (cm_sub_b c)
  else
    let m := normalize 3 (cm_main_b c) in let s := normalize 3 (cm_sub_b c) in
    if rlt (cos min_direction_angle) (Rabs (dot 3 m s)) then with_ false m s else with_ en m s.
(** C 12-28; the previous quaternion and angular velocity are not initialised ([q0], [w0]) and not read before being written *)
Definition ctl_new (main sub : mode) (q : quat) (main_b sub_b : vec) (q0 : quat) (w0 : vec) : controlled :=
  ctl_initialize (mkCtl main sub main_b sub_b true q (vconst 0) (vconst 0) (-1) q0 w0).

(** what CalcTargetDirection_i reads: celestial information, orbit, Earth rotation and the target on the ground *)
Record surroundings : Type := mkSur {
  sun_from_sc : vec; sun_i : vec; earth_from_sc : vec; earth_i : vec; sc_pos : vec; sc_vel : vec; sc_vel_ecef : vec;
  dcm_i2ecef : mat; target_ecef : vec }.
(** C 79-114; [direction] is not initialised for the modes that have no branch: UB when it is read (normalized) *)
Definition target_direction (s : surroundings) (m : mode) : outcome vec :=
  let! d :=
    match m with
    | MSun => Ok (if req (norm 3 (sun_from_sc s)) 0 then vsub (sun_i s) (sc_pos s) else sun_from_sc s)
    | MEarth => Ok (if req (norm 3 (earth_from_sc s)) 0 then vsub (earth_i s) (sc_pos s) else earth_from_sc s)
    | MVelocity => Ok (sc_vel s)
    | MGroundSpeed => Ok (mvec 3 (mtrans (dcm_i2ecef s)) (sc_vel_ecef s))
    | MNormal => Ok (cross (sc_pos s) (sc_vel s))
    | MSurface => Ok (vsub (mvec 3 (mtrans (dcm_i2ecef s)) (target_ecef s)) (sc_pos s))
    | MInertial | MNone => UB
    end in
  Ok (normalize 3 d).
(** C 127-145: CalcDcm; the basis vectors are the columns *)
Definition target_dcm (main sub : vec) : mat :=
  let ex := main in
  let ey := normalize 3 (cross (cross ex sub) ex) in
  let ez := normalize 3 (cross ex ey) in
  fun i j => match j with 0%nat => ex i | 1%nat => ey i | _ => ez i end.
(** C 116-125: PointingControl *)
Definition pointing (main_b sub_b main_i sub_i : vec) : quat :=
  from_dcm (mmul 3 (target_dcm main_b sub_b) (mtrans (target_dcm main_i sub_i))).
Section lu3.
Context (coef0 : vec) (index0 : nat -> nat) (inverse0 : mat).
Notation inverse3 := (inverse3 coef0 index0 inverse0).
(** C 167-193: CalcAngularVelocity; a second call at the same time divides by zero (infinities and NaN): UB here *)
Definition ctl_velocity (inertia : mat) (c : controlled) (q : quat) (now : R) : outcome controlled :=
  let! (w, torque) :=
    (if rlt 0 (cm_prev_time c) then
       let dt := now - cm_prev_time c in
       if req dt 0 then UB else
       let d := qscal (2 / dt) (qmul (qconj (cm_prev_q c)) q) in
       let w := v3 (d 0%nat) (d 1%nat) (d 2%nat) in
       let acc := fun i => (cm_prev_omega c i - w i) / dt in
       let! inv := inverse3 inertia in
       Ok (w, mvec 3 inv acc)
     else Ok (vconst 0, vconst 0)) in
  Ok (mkCtl (cm_main c) (cm_sub c) (cm_main_b c) (cm_sub_b c) (cm_enabled c) q w (vadd (cm_torque c) torque) now q w).
(** C 59-77: Propagate *)
Definition ctl_propagate (inertia : mat) (s : surroundings) (c : controlled) (tend : R) : outcome controlled :=
  if negb (cm_enabled c) then Ok c else
  if mode_eqb (cm_main c) MInertial then Ok c else
  let! m := target_direction s (cm_main c) in
  let! d := target_direction s (cm_sub c) in
  ctl_velocity inertia c (pointing (cm_main_b c) (cm_sub_b c) m d) tend.
End lu3.
