(** Model of src/math_physics/orbit: kepler_orbit.cpp (K), orbital_elements.cpp (E), relative_orbit_models.cpp (R),
    and of src/dynamics/orbit: orbit.cpp/hpp (O), kepler_orbit_propagation.cpp (KP), rk4_orbit_propagation.cpp (RK),
    encke_orbit_propagation.cpp (EN), relative_orbit.cpp (RO).  Doubles are real numbers; sqrt of a negative
    number is 0 here and NaN in C++, x / 0 is not meaningful: the theorems exclude both.  The conversion to the
    Earth-fixed frame and to latitude, longitude, altitude at the end of each propagation is GeoModel.v. *)
From Coq Require Import Reals List Bool Arith.
From Verif Require Import Base RBase VecModel Trig QuatModel OdeModel.
Import ListNotations.
Open Scope R_scope.

(** ** Orbital elements *)
(** orbital_elements.hpp:87-94 *)
Record elements : Type := mkOe { sma : R; ecc : R; inc : R; raan : R; argp : R; epoch : R }.
(** seconds of a day, 24.0 * 60.0 * 60.0 *)
Definition day : R := 24 * 60 * 60.
Definition wrap (fuel : nat) (a : R) : outcome R :=
  match wrap_to_2pi Rplus Rminus (2 * PI) fuel a with Some x => Ok x | None => Hang end.
(** K 23-24, E 86: sqrt(mu / pow(a, 3.0)) *)
Definition mean_motion (mu a : R) : R := sqrt (mu / (a * a * a)).

(** E 52-57: right ascension of the ascending node *)
Definition calc_raan (h : vec) : R :=
  let norm_h := sqrt (h 0%nat * h 0%nat + h 1%nat * h 1%nat) in
  if rlt norm_h dbl_epsilon then 0 else asin (h 0%nat / norm_h).
(** E 35-89 *)
Definition calc_oe (fuel : nat) (mu t : R) (r v : vec) : outcome elements :=
  let r_m := norm 3 r in
  let v2 := dot 3 v v in
  let h := cross r v in
  let h_norm := norm 3 h in
  let a := mu / (2 * mu / r_m - v2) in
  let i := acos (normalize 3 h 2%nat) in
  let om := calc_raan h in
  let x_p := r 0%nat * cos om + r 1%nat * sin om in
  let tmp := - r 0%nat * sin om + r 1%nat * cos om in
  let y_p := tmp * cos i + r 2%nat * sin i in
  let dx_p := v 0%nat * cos om + v 1%nat * sin om in
  let dtmp := - v 0%nat * sin om + v 1%nat * cos om in
  let dy_p := dtmp * cos i + v 2%nat * sin i in
  let t1 := (h_norm / mu) * dy_p - x_p / r_m in
  let t2 := - (h_norm / mu) * dx_p - y_p / r_m in
  let e := sqrt (t1 * t1 + t2 * t2) in
  let w := atan2 t2 t1 in
  let phi := atan2 y_p x_p in
  let! f := wrap fuel (phi - w) in
  let! u := wrap fuel (atan2 (r_m * sin f / sqrt (1 - e * e)) (r_m * cos f + a * e)) in
  let n := mean_motion mu a in
  let dt := (u - e * sin u) / n in
  Ok (mkOe a e i om w (t - dt / day)).

(** ** Kepler orbit *)
(** K 87-101 *)
Fixpoint newton (n : nat) (e m limit u_prev u : R) : R :=
  match n with
  | O => u
  | S k => let u' := u - (u_prev - e * sin u_prev - m) / (1 - e * cos u_prev) in
           if rlt (Rabs (u' - u_prev)) limit then u' else newton k e m limit u' u'
  end.
Definition solve_kepler_newton (e m limit : R) (iterations : nat) : R := newton iterations e m limit m 0.
(** K 70-85 *)
Fixpoint first_order (n : nat) (e m limit u_prev u : R) : R :=
  match n with
  | O => u
  | S k => let u' := m + e * sin u_prev in
           if rlt (Rabs (u' - u_prev)) limit then u' else first_order k e m limit u' u'
  end.
Definition solve_kepler_first_order (e m limit : R) (iterations : nat) : R := first_order iterations e m limit m 0.

(** K 27-31 *)
Definition inplane_to_i (oe : elements) : mat :=
  mmul 3 (rot_z (-1 * raan oe)) (mmul 3 (rot_x (-1 * inc oe)) (rot_z (-1 * argp oe))).
(** K 49-63: position and velocity in the plane at eccentric anomaly u *)
Definition inplane_position (a e u : R) : vec := v3 (a * (cos u - e)) (a * sqrt (1 - e * e) * sin u) 0.
Definition inplane_velocity (a e n u : R) : vec :=
  v3 (-1 * a * n * sin u / (1 - e * cos u)) (n * (a * sqrt (1 - e * e)) * cos u / (1 - e * cos u)) 0.
(** K 65-67 *)
Definition state_at (mu : R) (oe : elements) (u : R) : vec * vec :=
  (mvec 3 (inplane_to_i oe) (inplane_position (sma oe) (ecc oe) u),
   mvec 3 (inplane_to_i oe) (inplane_velocity (sma oe) (ecc oe) (mean_motion mu (sma oe)) u)).
(** K 39-41 *)
Definition mean_anomaly (mu : R) (oe : elements) (t : R) : R := mean_motion mu (sma oe) * ((t - epoch oe) * day).
(** K 34-68; result: position and velocity *)
Definition calc_orbit (fuel : nat) (mu : R) (oe : elements) (t : R) : outcome (vec * vec) :=
  let! l := wrap fuel (mean_anomaly mu oe t) in
  let! u := wrap fuel (solve_kepler_newton (ecc oe) l (1 / 10 ^ 5) 10) in
  Ok (state_at mu oe u).

(** ** Relative orbit models *)
(** a matrix given by its rows *)
Definition rows (l : list (list R)) : mat := fun i j => nth j (nth i l []) 0.
(** R 9-51, R 53-95: n = sqrt(mu / pow(radius, 3)) *)
Definition hill_matrix (n : R) : mat := rows
  [[0; 0; 0; 1; 0; 0];
   [0; 0; 0; 0; 1; 0];
   [0; 0; 0; 0; 0; 1];
   [3 * n * n; 0; 0; 0; 2 * n; 0];
   [0; 0; 0; -2 * n; 0; 0];
   [0; 0; - n * n; 0; 0; 0]].
Definition hcw_stm (n t : R) : mat := rows
  [[4 - 3 * cos (n * t); 0; 0; sin (n * t) / n; 2 / n - 2 * cos (n * t) / n; 0];
   [-6 * n * t + 6 * sin (n * t); 1; 0; -2 / n + 2 * cos (n * t) / n; 4 * sin (n * t) / n - 3 * t; 0];
   [0; 0; cos (n * t); 0; 0; sin (n * t) / n];
   [3 * n * sin (n * t); 0; 0; cos (n * t); 2 * sin (n * t); 0];
   [-6 * n + 6 * n * cos (n * t); 0; 0; -2 * sin (n * t); -3 + 4 * cos (n * t); 0];
   [0; 0; - n * sin (n * t); 0; 0; cos (n * t)]].
Definition calc_hill_system_matrix (radius mu : R) : mat := hill_matrix (mean_motion mu radius).
Definition calc_hcw_stm (radius mu t : R) : mat := hcw_stm (mean_motion mu radius) t.

(** ** Orbit base class *)
(** O 9-31 *)
Definition lvlh_dcm (r v : vec) : mat :=
  let lx := r in let lz := cross r v in let ly := cross lz lx in
  fun i => match i with 0%nat => normalize 3 lx | 1%nat => normalize 3 ly | _ => normalize 3 lz end.
Definition quaternion_i2lvlh (r v : vec) : quat := qnormalize (from_dcm (lvlh_dcm r v)).
(** O-hpp: UpdateByAttitude *)
Definition update_by_attitude (q_i2b : quat) (v_i : vec) : vec := frame_conversion q_i2b v_i.
(** O-hpp: SetAcceleration_i_m_s2, AddForce_i_N, AddAcceleration_i_m_s2, AddForce_b_N *)
Inductive acc_call : Type :=
  SetAcc (a : vec) | AddForceI (f : vec) (mass : R) | AddAcc (a : vec) | AddForceB (f : vec) (q_i2b : quat) (mass : R).
Definition acc_step (acc : vec) (c : acc_call) : vec :=
  match c with
  | SetAcc a => a
  | AddForceI f mass => vadd acc (vdiv f mass)
  | AddAcc a => vadd acc a
  | AddForceB f q mass => vadd acc (vdiv (inverse_frame_conversion q f) mass)
  end.

(** ** The propagation loop common to RK 72-79, EN 45-52, RO 125-132; [deriv] is DerivativeFunction *)
Section propagate.
Context (deriv : R -> vec -> vec).
Definition step_of (o : ode) : ode := fst (ode_update (fun (_ : Datatypes.unit) t s => (deriv t s, tt)) tt o).
Definition set_step (o : ode) (h : R) : ode := mkOde (indep o) (state o) (derivative o) h.
Fixpoint prop_loop (fuel : nat) (step tend : R) (o : ode) (t : R) : outcome (ode * R) :=
  match fuel with
  | O => Hang
  | S f => if rlt (1 / 10 ^ 6) (tend - t - step) then prop_loop f step tend (step_of o) (t + step) else Ok (o, t)
  end.
(** result: the ODE object and propagation_time_s_ *)
Definition prop (fuel : nat) (step tend : R) (o : ode) (t : R) : outcome (ode * R) :=
  let! (o1, t1) := prop_loop fuel step tend (set_step o step) t in
  Ok (step_of (set_step o1 (tend - t1)), tend).
End propagate.

(** pow(x, 1.5) for x >= 0 *)
Definition pow15 (x : R) : R := x * sqrt x.
(** ** RK4 orbit *)
(** RK 27-41 *)
Definition rk4_deriv (mu : R) (acc : vec) (t : R) (s : vec) : vec :=
  let x := s 0%nat in let y := s 1%nat in let z := s 2%nat in
  let r3 := pow15 (x * x + y * y + z * z) in
  fun i => match i with
           | 0%nat => s 3%nat | 1%nat => s 4%nat | 2%nat => s 5%nat
           | 3%nat => acc 0%nat - mu / r3 * x
           | 4%nat => acc 1%nat - mu / r3 * y
           | _ => acc 2%nat - mu / r3 * z
           end.
Definition v6 (r v : vec) : vec := fun i =>
  match i with 0%nat => r 0%nat | 1%nat => r 1%nat | 2%nat => r 2%nat | 3%nat => v 0%nat | 4%nat => v 1%nat | _ => v 2%nat end.
Definition pos6 (s : vec) : vec := v3 (s 0%nat) (s 1%nat) (s 2%nat).
Definition vel6 (s : vec) : vec := v3 (s 3%nat) (s 4%nat) (s 5%nat).
Record rk4_orbit : Type := mkRk4 { rk_mu : R; rk_step : R; rk_time : R; rk_ode : ode; rk_acc : vec; rk_pos : vec; rk_vel : vec }.
(** RK 13-23, 43-65; initial_time_s is the argument of Setup only *)
Definition rk4_new (mu step : R) (r v : vec) (initial_time : R) : rk4_orbit :=
  mkRk4 mu step 0 (ode_setup (ode_new step) initial_time (v6 r v)) (vconst 0) r v.
(** RK 67-90 *)
Definition rk4_propagate (fuel : nat) (enabled : bool) (o : rk4_orbit) (tend : R) : outcome rk4_orbit :=
  if negb enabled then Ok o else
  let! (d, t) := prop (rk4_deriv (rk_mu o) (rk_acc o)) fuel (rk_step o) tend (rk_ode o) (rk_time o) in
  Ok (mkRk4 (rk_mu o) (rk_step o) t d (rk_acc o) (pos6 (state d)) (vel6 (state d))).

(** ** Encke's method *)
Record encke : Type := mkEncke {
  en_mu : R; en_tol : R; en_step : R; en_time : R; en_ode : ode;
  ref_pos : vec; ref_vel : vec; ref_oe : elements; dif_pos : vec; dif_vel : vec; en_acc : vec; en_pos : vec; en_vel : vec }.
(** EN 116-128 *)
Definition q_function (sat d : vec) : R :=
  let r2 := dot 3 sat sat in
  let q := dot 3 d (vsub d (vscal 2 sat)) / r2 in
  q * (q * q + 3 * q + 3) / (pow15 (1 + q) + 1).
(** EN 65-85: reads the members spacecraft_position_i_m_, reference_position_i_m_, spacecraft_acceleration_i_m_s2_ *)
Definition encke_deriv (mu : R) (sat ref acc : vec) (t : R) (s : vec) : vec :=
  let d := pos6 s in
  let qf := q_function sat d in
  let r_m := norm 3 ref in
  let r3 := r_m * r_m * r_m in
  let a := vadd (vscal (- (mu / r3)) (vadd (vscal qf sat) d)) acc in
  v6 (vel6 s) a.
(** EN 88-106; reference_kepler_orbit only receives its elements here *)
Definition encke_initialize (fuel : nat) (x : encke) (t_jd : R) (r v : vec) : outcome encke :=
  let! oe := calc_oe fuel (en_mu x) t_jd r v in
  Ok (mkEncke (en_mu x) (en_tol x) (en_step x) (en_time x) (ode_setup (en_ode x) 0 (vconst 0))
        r v oe (vconst 0) (vconst 0) (vconst 0) (vadd r (vconst 0)) (vadd v (vconst 0))).
(** EN 14-24 *)
Definition encke_new (fuel : nat) (mu step t_jd : R) (r v : vec) (tol : R) : outcome encke :=
  encke_initialize fuel (mkEncke mu tol step 0 (ode_new step) (vconst 0) (vconst 0) (mkOe 0 0 0 0 0 0) (vconst 0) (vconst 0) (vconst 0) (vconst 0) (vconst 0))
    t_jd r v.
(** EN 29-62 *)
Definition encke_propagate (fuel : nat) (enabled : bool) (x : encke) (tend t_jd : R) : outcome encke :=
  if negb enabled then Ok x else
  let! x := (if rlt (en_tol x) (norm 3 (dif_pos x) / norm 3 (en_pos x)) then encke_initialize fuel x t_jd (en_pos x) (en_vel x) else Ok x) in
  let! (rp, rv) := calc_orbit fuel (en_mu x) (ref_oe x) t_jd in
  let! (d, t) := prop (encke_deriv (en_mu x) (en_pos x) rp (en_acc x)) fuel (en_step x) tend (en_ode x) (en_time x) in
  let dp := pos6 (state d) in let dv := vel6 (state d) in
  Ok (mkEncke (en_mu x) (en_tol x) (en_step x) t d rp rv (ref_oe x) dp dv (en_acc x) (vadd rp dp) (vadd rv dv)).
(** SetAcceleration_i_m_s2 between the propagations *)
Definition encke_set_acc (x : encke) (a : vec) : encke :=
  mkEncke (en_mu x) (en_tol x) (en_step x) (en_time x) (en_ode x) (ref_pos x) (ref_vel x) (ref_oe x) (dif_pos x) (dif_vel x) a (en_pos x) (en_vel x).

(** ** Relative orbit *)
Inductive update_method : Type := URk4 | UStm.
Record rel_orbit : Type := mkRel {
  ro_mu : R; ro_step : R; ro_time : R; ro_method : update_method; ro_ode : ode; ro_matrix : mat; ro_initial : vec;
  ro_rel_pos : vec; ro_rel_vel : vec; ro_pos : vec; ro_vel : vec }.
(** RO 45-48, 115-119: from the LVLH frame of the reference spacecraft (at ref_r, ref_v) *)
Definition lvlh_to_i (ref_r ref_v : vec) (p : vec) : vec := frame_conversion (qconj (quaternion_i2lvlh ref_r ref_v)) p.
(** RO 13-69 (system_matrix_ is not set with the STM method; zero here) *)
Definition rel_new (mu step : R) (method : update_method) (p v ref_r ref_v : vec) : rel_orbit :=
  mkRel mu step 0 method
    (match method with URk4 => ode_setup (ode_new step) 0 (v6 p v) | UStm => ode_new step end)
    (match method with URk4 => calc_hill_system_matrix (norm 3 ref_r) mu | UStm => rows [] end)
    (v6 p v) p v
    (vadd (lvlh_to_i ref_r ref_v p) ref_r) (vadd (lvlh_to_i ref_r ref_v v) ref_v).
(** RO 99-161 *)
Definition rel_propagate (fuel : nat) (enabled : bool) (o : rel_orbit) (tend : R) (ref_r ref_v : vec) : outcome rel_orbit :=
  if negb enabled then Ok o else
  let! (d, t, s) :=
    match ro_method o with
    | URk4 => let! (d, t) := prop (fun _ s => mvec 6 (ro_matrix o) s) fuel (ro_step o) tend (ro_ode o) (ro_time o) in Ok (d, t, state d)
    | UStm => Ok (ro_ode o, ro_time o, mvec 6 (calc_hcw_stm (norm 3 ref_r) (ro_mu o) tend) (ro_initial o))
    end in
  Ok (mkRel (ro_mu o) (ro_step o) t (ro_method o) d (ro_matrix o) (ro_initial o) (pos6 s) (vel6 s)
        (vadd (lvlh_to_i ref_r ref_v (pos6 s)) ref_r) (vadd (lvlh_to_i ref_r ref_v (vel6 s)) ref_v)).
