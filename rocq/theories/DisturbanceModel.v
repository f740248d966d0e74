(** Model of src/disturbances: disturbance.hpp (D), disturbances.cpp (DS), gravity_gradient.cpp (GG), surface_force.cpp
    (SF), solar_radiation_pressure_disturbance.cpp (SR), air_drag.cpp (AD), magnetic_disturbance.cpp (MD),
    third_body_gravity.cpp (TB); src/simulation/spacecraft/structure/initialize_structure.cpp (IS).
    Doubles are real numbers. *)
From Coq Require Import Reals List Bool Arith String.
From Coquelicot Require RInt Hierarchy.
From Verif Require Import Base RBase VecModel QuatModel OdeModel.
Import ListNotations.
Open Scope R_scope.

(** D 94-99: the members every disturbance has *)
Record values : Type := mkValues { force_b : vec; torque_b : vec; acc_b : vec; acc_i : vec }.
Definition zero_values : values := mkValues (vconst 0) (vconst 0) (vconst 0) (vconst 0).   (* D 27-30 *)

(** ** The list of disturbances *)
Section disturbances.
(** [E]: what the update functions read (local environment, dynamics); [X]: the members of the derived classes *)
Context {E X : Type}.
(** a disturbance object: its flags, the overridden Update, its members *)
Record disturbance : Type := mkDist {
  enabled : bool; attitude_dependent : bool; update : E -> X * values -> X * values; extra : X; vals : values }.

(** D 42-51: "*= 0.0" on every member *)
Definition times_zero (v : values) : values :=
  mkValues (vscal 0 (force_b v)) (vscal 0 (torque_b v)) (vscal 0 (acc_b v)) (vscal 0 (acc_i v)).
Definition update_if_enabled (e : E) (d : disturbance) : disturbance :=
  let (x, v) := if enabled d then update d e (extra d, vals d) else (extra d, times_zero (vals d)) in
  mkDist (enabled d) (attitude_dependent d) (update d) x v.

(** DS 39-48 *)
Definition update_one (orbit_flag attitude_flag : bool) (e : E) (d : disturbance) : disturbance :=
  if orbit_flag then update_if_enabled e d
  else if attitude_flag then (if attitude_dependent d then update_if_enabled e d else d)
  else d.

Record totals : Type := mkTotals { tot_torque : vec; tot_force : vec; tot_acc : vec }.
(** DS 96-101 *)
Definition zero_totals : totals := mkTotals (vconst 0) (vconst 0) (vconst 0).
(** DS 49-51 *)
Definition add_values (t : totals) (v : values) : totals :=
  mkTotals (vadd (tot_torque t) (torque_b v)) (vadd (tot_force t) (force_b v)) (vadd (tot_acc t) (acc_i v)).
(** DS 34-53: the loop updates each disturbance and adds its values to the totals *)
Fixpoint update_loop (orbit_flag attitude_flag : bool) (e : E) (l : list disturbance) (t : totals) : list disturbance * totals :=
  match l with
  | [] => ([], t)
  | d :: l =>
      let d' := update_one orbit_flag attitude_flag e d in
      let (l', t') := update_loop orbit_flag attitude_flag e l (add_values t (vals d')) in
      (d' :: l', t')
  end.
Definition update_all (orbit_flag attitude_flag : bool) (e : E) (l : list disturbance) : list disturbance * totals :=
  update_loop orbit_flag attitude_flag e l zero_totals.
End disturbances.
Arguments disturbance : clear implicits.

(** DS 62-94: which disturbances a spacecraft has.  Attitude dependence: GG 20, SF 14, TB 13, MD 19,
    geopotential.cpp:23, lunar_gravity_field.cpp:23 *)
Inductive kind : Type := GravityGradient | SolarPressure | ThirdBody | LunarGravity | AirDrag | Magnetic | Geopotential.
Definition depends_on_attitude (k : kind) : bool :=
  match k with
  | GravityGradient | SolarPressure | AirDrag | Magnetic => true
  | ThirdBody | LunarGravity | Geopotential => false
  end.
Definition installed (center : string) : list kind :=
  [GravityGradient; SolarPressure; ThirdBody]
  ++ (if String.eqb center "MOON" then [LunarGravity] else [])
  ++ (if negb (String.eqb center "EARTH") then [] else [AirDrag; Magnetic; Geopotential]).

(** ** Gravity gradient *)
(** GG 28-36.  pow(r, 3.0) is r^3; position (0,0,0) gives NaN in the code *)
Definition gravity_gradient_torque (mu : R) (r : vec) (inertia : mat) : vec :=
  let n := norm 3 r in
  let u := vdiv r n in
  let coeff := 3 * mu / n ^ 3 in
  vscal coeff (cross u (mvec 3 inertia u)).

(** ** Surface forces *)
(** structure/surface.hpp *)
Record surface : Type := mkSurface {
  s_pos : vec; s_normal : vec; s_area : R; s_reflectivity : R; s_specularity : R; s_air_specularity : R }.

(** SF 50-57.  cos_theta_ and sin_theta_ are recomputed for every surface on every call: they are functions here *)
Definition cos_theta (input : vec) (s : surface) : R := dot 3 (s_normal s) (normalize 3 input).
Definition sin_theta (input : vec) (s : surface) : R := sqrt (1 - cos_theta input s * cos_theta input s).

(** SF 34-39; [cn], [ct] the normal and tangential coefficient of the surface *)
Definition force_per_surface (input : vec) (cn ct : R) (s : surface) : vec :=
  let ncu := cross (normalize 3 input) (s_normal s) in
  let in_plane := cross (normalize 3 ncu) (s_normal s) in
  vadd (vscal (-1 * cn) (s_normal s)) (vscal ct in_plane).
(** SF 23-48: the force and the torque; [coef] is CalcCoefficients *)
Definition surface_step (cg input : vec) (coef : surface -> R * R) (acc : vec * vec) (s : surface) : vec * vec :=
  if rlt 0 (cos_theta input s) then
    let (cn, ct) := coef s in
    let f := force_per_surface input cn ct s in
    (vadd (fst acc) f, vadd (snd acc) (cross (vsub (s_pos s) cg) f))
  else acc.
Definition torque_force (cg input : vec) (coef : surface -> R * R) (l : list surface) : vec * vec :=
  fold_left (surface_step cg input coef) l (vconst 0, vconst 0).

(** SR 26-37 *)
Definition srp_coefficients (input : vec) (pressure : R) (s : surface) : R * R :=
  let c := cos_theta input s in
  let rho := s_reflectivity s in let spec := s_specularity s in
  (s_area s * pressure * ((1 + rho * spec) * (c * c) + 2 / 3 * rho * (1 - spec) * c),
   s_area s * pressure * (1 - rho * spec) * c * sin_theta input s).
(** SR 19-24: force and torque from the position of the sun in the body frame *)
Definition srp (l : list surface) (cg sun : vec) (pressure : R) : vec * vec :=
  torque_force cg sun (srp_coefficients sun pressure) l.

(** ** Air drag *)
(** the error function of <cmath> *)
Definition erf (x : R) : R := 2 / sqrt PI * @RInt.RInt Hierarchy.R_CompleteNormedModule (fun t => exp (- (t * t))) 0 x.
(** AD 49-61 *)
Definition func_pi (s : R) : R := s * exp (- s * s) + sqrt PI * (s * s + 1 / 2) * (1 + erf s).
Definition func_chi (s : R) : R := exp (- s * s) + sqrt PI * s * (1 + erf s).
(** physical_constants.hpp:23 *)
Definition boltzmann : R := 1380649 / 10 ^ 29.
(** AD 22-24 in the header: wall temperature, molecular temperature, molecular weight *)
Record air_drag : Type := mkAir { wall_K : R; molecular_K : R; molecular_weight : R }.
(** AD 67-68 *)
Definition speed_ratio (a : air_drag) (v : vec) : R :=
  sqrt (molecular_weight a * norm 3 v * norm 3 v / (2 * boltzmann * wall_K a)).
(** AD 63-78 *)
Definition cn_ct (a : air_drag) (v : vec) (s : surface) : R * R :=
  let sp := speed_ratio a v in
  let sn := sp * cos_theta v s in
  let st := sp * sin_theta v s in
  let diffuse := 1 - s_air_specularity s in
  ((2 - diffuse) / sqrt PI * func_pi sn / (sp * sp)
   + diffuse / 2 * func_chi sn / (sp * sp) * sqrt (wall_K a / molecular_K a),
   diffuse * st * func_chi sn / (sqrt PI * sp * sp)).
(** AD 39-47 *)
Definition drag_coefficients (a : air_drag) (density : R) (v : vec) (s : surface) : R * R :=
  let k := 1 / 2 * density * norm 3 v * norm 3 v * s_area s in
  (k * fst (cn_ct a v s), k * snd (cn_ct a v s)).
(** AD 28-37: the velocity with respect to the rotating Earth, in the body frame *)
Definition air_velocity_b (dcm_j2000_to_ecef : mat) (q_i2b : quat) (v_ecef : vec) : vec :=
  frame_conversion q_i2b (mvec 3 (mtrans dcm_j2000_to_ecef) v_ecef).
Definition drag (a : air_drag) (l : list surface) (cg : vec) (density : R) (v_b : vec) : vec * vec :=
  torque_force cg v_b (drag_coefficients a density v_b) l.

(** ** Third bodies *)
(** TB 33-45 *)
Definition third_body_acceleration (s sr : vec) (mu : R) : vec :=
  let sn := norm 3 s in let sn3 := sn * sn * sn in
  let srn := norm 3 sr in let srn3 := srn * srn * srn in
  vscal mu (vsub (vscal (1 / srn3) sr) (vscal (1 / sn3) s)).
(** TB 19-31: [from_sc] the position of a body from the spacecraft, [gm] its gravity constant.  A std::set is the
    list of its elements (in order, without repetition). *)
Definition third_body_update (bodies : list string) (from_sc : string -> vec) (gm : string -> R) (sc : vec) : vec :=
  fold_left (fun acc b => vadd acc (third_body_acceleration (vadd sc (from_sc b)) (from_sc b) (gm b))) bodies (vconst 0).
(** TB 61-103: the set of third bodies.  A failed assertion aborts: Throw.  insert() into the set keeps one copy. *)
Definition set_insert (b : string) (l : list string) : list string := if existsb (String.eqb b) l then l else l ++ [b].
Definition init_third_bodies (center : string) (selected : list string) (enabled : bool) (names : list string) : outcome (list string) :=
  if negb enabled then Ok [] else
  fold_left (fun acc b =>
    let! l := acc in
    if String.eqb b center then Throw else
    if negb (existsb (String.eqb b) selected) then Throw else Ok (set_insert b l)) names (Ok []).

(** ** Residual magnetic moment *)
(** structure/residual_magnetic_moment.hpp *)
Record rmm_params : Type := mkRmm { rmm_const : vec; rmm_walk_sd : R; rmm_walk_limit : R; rmm_noise_sd : R }.
(** MD 36-40: the function-local statics; they exist once per process, and are constructed by the first call with the
    parameters of the object it is called on.  [st_calls]: the number of increments of the random walk so far. *)
Record rmm_statics : Type := mkStatics { st_walk_sd : R; st_limit : R; st_noise_sd : R; st_calls : nat }.
Section rmm.
(** standard normal numbers: of the three generators of the walk, and of the noise generator *)
Context (walk_z : nat -> nat -> R) (noise_z : nat -> R).
(** MD 35-47: the noise generator is read once per component and call *)
Definition calc_rmm (p : rmm_params) (st : option rmm_statics) : vec * option rmm_statics :=
  let s := match st with
           | Some s => s
           | None => mkStatics (rmm_walk_sd p) (rmm_walk_limit p) (rmm_noise_sd p) 0
           end in
  let walk := walk_after (vconst (st_limit s)) (fun i k => st_walk_sd s * walk_z i k) (1 / 10) (st_calls s) in
  (fun i => rmm_const p i + (walk i + st_noise_sd s * noise_z (3 * st_calls s + i)%nat),
   Some (mkStatics (st_walk_sd s) (st_limit s) (st_noise_sd s) (S (st_calls s)))).
(** MD 23-27 *)
Definition magnetic_torque (p : rmm_params) (b_nT : vec) (st : option rmm_statics) : vec * vec * option rmm_statics :=
  let (m, st') := calc_rmm p st in
  (vscal (1 / 10 ^ 9) (cross m b_nT), m, st').
End rmm.

(** ** Surfaces read from the structure file *)
(** IS 36-108: [raw] the entries of surface 0, 1, ... ; the loop is left at the first entry out of range *)
Definition min_val : R := 1 / 10 ^ 6.
Definition in_unit_range (x : R) : bool := negb (rlt x (- min_val)) && negb (rlt (1 + min_val) x).
Definition accepted (s : surface) : bool :=
  negb (rlt (s_area s) (- min_val)) && in_unit_range (s_reflectivity s) && in_unit_range (s_specularity s) && in_unit_range (s_air_specularity s).
Definition fix_normal (s : surface) : surface :=
  if rlt (1 + min_val) (norm 3 (s_normal s))
  then mkSurface (s_pos s) (normalize 3 (s_normal s)) (s_area s) (s_reflectivity s) (s_specularity s) (s_air_specularity s)
  else s.
Fixpoint init_surfaces (raw : list surface) : list surface :=
  match raw with
  | [] => []
  | s :: l => if accepted s then fix_normal s :: init_surfaces l else []
  end.
(** IS 20-28 *)
Definition inertia_of (v : vec) : mat := fun i j => v (i * 3 + j)%nat.
