(** Model of src/dynamics/orbit/initialize_orbit.cpp (IO), src/dynamics/attitude/initialize_attitude.cpp (IA), of
    SetOrbitInitializeMode (src/dynamics/orbit/orbit.cpp:51-65) and of ConvertStringToCtrlMode
    (src/dynamics/attitude/controlled_attitude.cpp:147-165).
    The settings file is what its reading functions return by section and key.  The constructors are those of OrbitModel and
    AttitudeModel; of SGP4 and time series orbits the constructor's arguments are kept.  Not modelled: the check that the
    altitude is not negative (std::exit), the log flag, error messages and the Monte-Carlo registration. *)
From Coq Require Import Reals List Bool Arith ZArith String.
From Verif Require Import Base RBase VecModel LuModel QuatModel OdeModel OrbitModel AttitudeModel.
From Verif Require RkModel.
Import ListNotations.
Open Scope R_scope.

(** setting_file_reader/initialize_file_access.hpp: ReadString, ReadDouble, ReadInt, ReadEnable, ReadVector, ReadQuaternion *)
Record settings : Type := mkSettings {
  s_string : string -> string -> string; s_double : string -> string -> R; s_int : string -> string -> Z; s_enable : string -> string -> bool;
  s_vector : string -> string -> vec; s_quaternion : string -> string -> quat }.

(** orbit.cpp:51-65 *)
Inductive orbit_init_mode : Type := IDefault | IPosVel | IElements.
Definition set_orbit_initialize_mode (w : string) : orbit_init_mode :=
  if String.eqb w "DEFAULT" then IDefault else
  if String.eqb w "POSITION_VELOCITY_I" then IPosVel else
  if String.eqb w "ORBITAL_ELEMENTS" then IElements else IDefault.

(** IO 141-147 and 85-91 *)
Definition read_elements (c : settings) (sec : string) : elements :=
  mkOe (s_double c sec "semi_major_axis_m") (s_double c sec "eccentricity") (s_double c sec "inclination_rad")
       (s_double c sec "raan_rad") (s_double c sec "argument_of_perigee_rad") (s_double c sec "epoch_jday").
(** IO 132-164: InitializePosVel *)
Definition initialize_pos_vel (fuel : nat) (c : settings) (t_jd mu : R) (sec : string) : outcome (vec * vec) :=
  match set_orbit_initialize_mode (s_string c sec "initialize_mode") with
  | IElements => calc_orbit fuel mu (read_elements c sec) t_jd
  | _ => Ok (s_vector c sec "initial_position_i_m", s_vector c sec "initial_velocity_i_m_s")
  end.

(** the objects made *)
Inductive orbit_object : Type :=
| ORk4 (o : rk4_orbit)
| OSgp4 (wgs : Z) (tle1 tle2 : string)
| ORelative (id : Z) (o : rel_orbit)
| OKepler (mu : R) (oe : elements) (r v : vec)
| OEncke (o : encke)
| OSeries (file : string) (points method : Z) (period : R).

(** the registered dynamics: std::map::at throws std::out_of_range; a null pointer to the relative information is [None] *)
Definition reference_state (rel : option (Z -> option (vec * vec))) (id : Z) : outcome (vec * vec) :=
  match rel with
  | None => UB
  | Some db => match db id with Some s => Ok s | None => Throw end
  end.

(** IO 18-130; [sec] is the section argument, which InitializePosVel is not given (its default is "ORBIT").
    The strings of SGP4: strncpy into 80 characters, not modelled further. *)
Definition init_orbit (fuel : nat) (c : settings) (step t_jd mu : R) (sec : string) (rel : option (Z -> option (vec * vec))) : outcome (orbit_object * bool) :=
  let mode := set_orbit_initialize_mode (s_string c sec "initialize_mode") in
  let w := s_string c sec "propagate_mode" in
  let rk4 := (let! (r, v) := initialize_pos_vel fuel c t_jd mu "ORBIT" in Ok (ORk4 (rk4_new mu step r v 0))) in
  let! o :=
    if String.eqb w "RK4" then rk4
    else if String.eqb w "SGP4" then Ok (OSgp4 (s_int c sec "wgs_setting") (s_string c sec "tle1") (s_string c sec "tle2"))
    else if String.eqb w "RELATIVE" then
      let id := s_int c sec "reference_satellite_id" in
      let! (rr, rv) := reference_state rel id in
      Ok (ORelative id (rel_new mu step (if Z.eqb (s_int c sec "relative_orbit_update_method") 0 then URk4 else UStm)
                          (s_vector c sec "initial_relative_position_lvlh_m") (s_vector c sec "initial_relative_velocity_lvlh_m_s") rr rv))
    else if String.eqb w "KEPLER" then
      let! oe := (match mode with
                  | IPosVel => calc_oe fuel mu t_jd (s_vector c sec "initial_position_i_m") (s_vector c sec "initial_velocity_i_m_s")
                  | _ => Ok (read_elements c sec)
                  end) in
      let! (r, v) := calc_orbit fuel mu oe t_jd in
      Ok (OKepler mu oe r v)
    else if String.eqb w "ENCKE" then
      let! (r, v) := initialize_pos_vel fuel c t_jd mu "ORBIT" in
      let! e := encke_new fuel mu step t_jd r v (s_double c sec "error_tolerance") in
      Ok (OEncke e)
    else if String.eqb w "TIME_SERIES_FILE" then
      Ok (OSeries (s_string c sec "time_series_file_path") (s_int c sec "number_of_interpolation") (s_int c sec "interpolation_method")
            (s_double c sec "orbital_period_correction_s"))
    else rk4 in
  Ok (o, s_enable c sec "calculation").

(** orbit.hpp: GetPosition_i_m and GetVelocity_i_m_s, for the objects whose state is modelled here *)
Definition orbit_state (o : orbit_object) : option (vec * vec) :=
  match o with
  | ORk4 o => Some (rk_pos o, rk_vel o)
  | ORelative _ o => Some (ro_pos o, ro_vel o)
  | OKepler _ _ r v => Some (r, v)
  | OEncke o => Some (en_pos o, en_vel o)
  | OSgp4 _ _ _ | OSeries _ _ _ _ => None
  end.
(** kepler_orbit_propagation.cpp:22-37 *)
Definition kepler_propagate (fuel : nat) (enabled : bool) (mu : R) (oe : elements) (rv : vec * vec) (t_jd : R) : outcome (vec * vec) :=
  if negb enabled then Ok rv else calc_orbit fuel mu oe t_jd.

(** controlled_attitude.cpp:147-165 *)
Definition convert_ctrl_mode (w : string) : mode :=
  if String.eqb w "INERTIAL_STABILIZE" then MInertial else
  if String.eqb w "SUN_POINTING" then MSun else
  if String.eqb w "EARTH_CENTER_POINTING" then MEarth else
  if String.eqb w "VELOCITY_DIRECTION_POINTING" then MVelocity else
  if String.eqb w "GROUND_SPEED_DIRECTION_POINTING" then MGroundSpeed else
  if String.eqb w "ORBIT_NORMAL_POINTING" then MNormal else
  if String.eqb w "EARTH_SURFACE_POINTING" then MSurface else MNone.

Inductive attitude_object : Type := ARk4 (a : att_rk4) | ACantilever (a : cantilever) | AControlled (a : controlled).

Section attitude.
(** uninitialised memory of the matrix inversion, of the integrator and of ControlledAttitude *)
Context (coef0 : vec) (index0 : nat -> nat) (inverse0 : mat) (e0 : R) (q0 : quat) (w0 : vec).
(** IA 27-45 and 87-105: the ControlledAttitude object of the file *)
Definition controlled_of (c : settings) : controlled :=
  ctl_new (convert_ctrl_mode (s_string c "CONTROLLED_ATTITUDE" "main_mode")) (convert_ctrl_mode (s_string c "CONTROLLED_ATTITUDE" "sub_mode"))
    (s_quaternion c "ATTITUDE" "initial_quaternion_i2b")
    (s_vector c "CONTROLLED_ATTITUDE" "main_pointing_direction_b") (s_vector c "CONTROLLED_ATTITUDE" "sub_pointing_direction_b") q0 w0.
(** IA 11-111; [c2] is the structure file, [sur] what the controlled attitude sees at this moment *)
Definition init_attitude (c c2 : settings) (sur : surroundings) (step : R) (inertia : mat) : outcome attitude_object :=
  let pm := s_string c "ATTITUDE" "propagate_mode" in
  let! (w, q, torque) :=
    (if String.eqb (s_string c "ATTITUDE" "initialize_mode") "CONTROLLED" then
       let! a := ctl_propagate coef0 index0 inverse0 inertia sur (controlled_of c) step in
       Ok (vconst 0, cm_q a, vconst 0)
     else Ok (s_vector c "ATTITUDE" "initial_angular_velocity_b_rad_s", s_quaternion c "ATTITUDE" "initial_quaternion_i2b",
              s_vector c "ATTITUDE" "initial_torque_b_Nm")) in
  let rk4 := (let! a := att_new coef0 index0 inverse0 w q inertia torque step in Ok (ARk4 a)) in
  if String.eqb pm "RK4" then rk4
  else if String.eqb pm "CANTILEVER_VIBRATION" then
    let iv := s_vector c2 "CANTILEVER_PARAMETERS" "inertia_tensor_cantilever_kgm2" in
    let! a := cant_new coef0 index0 inverse0 e0 w q inertia (fun i j => iv (i * 3 + j)%nat)
                (s_double c2 "CANTILEVER_PARAMETERS" "damping_ratio_cantilever")
                (s_double c2 "CANTILEVER_PARAMETERS" "intrinsic_angular_velocity_cantilever_rad_s") torque step in
    Ok (ACantilever a)
  else if String.eqb pm "CONTROLLED" then Ok (AControlled (controlled_of c))
  else rk4.
End attitude.

(** attitude.hpp: GetQuaternion_i2b, GetOmega_b_rad_s, GetTorque *)
Definition attitude_state (a : attitude_object) : quat * vec * vec :=
  match a with
  | ARk4 a => (at_q a, at_omega a, at_torque a)
  | ACantilever a => (cv_q a, cv_omega a, cv_torque a)
  | AControlled a => (cm_q a, cm_omega a, cm_torque a)
  end.
