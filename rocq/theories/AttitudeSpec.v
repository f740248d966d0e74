(** Rigid-body attitude motion: what is expected, independently of the code. *)
From Coq Require Import Reals List.
From Verif Require Import Base RBase VecModel QuatModel QuatSpec AttitudeModel.
Import ListNotations.
Open Scope R_scope.

(** body-frame components of an inertial vector, and back *)
Definition seen_from_body (q : quat) (v : vec) : vec := mvec 3 (to_dcm q) v.
Definition to_inertial (q : quat) (b : vec) : vec := mvec 3 (mtrans (to_dcm q)) b.

(** x is differentiable and satisfies x' = f(x) at all times (first n components) *)
Definition trajectory (n : nat) (f : vec -> vec) (x : R -> vec) : Prop := forall t i, (i < n)%nat -> derivable_pt_lim (fun s => x s i) t (f (x t) i).

(** the attitude q turns with the body-frame angular velocity w: every inertially fixed vector v, seen from the
    body, turns at the rate - w x v *)
Definition turns_with (w : R -> vec) (q : R -> quat) : Prop := forall (v : vec) t i, (i < 3)%nat ->
  derivable_pt_lim (fun s => seen_from_body (q s) v i) t (- cross (w t) (seen_from_body (q t) v) i).
(** Newton-Euler: the angular momentum in the inertial frame changes at the rate of the torque *)
Definition newton_euler (momentum : R -> vec) (q : R -> quat) (torque : R -> vec) : Prop := forall t i, (i < 3)%nat ->
  derivable_pt_lim (fun s => to_inertial (q s) (momentum s) i) t (to_inertial (q t) (torque t) i).
Definition symmetric3 (m : mat) : Prop := forall i j, (i < 3)%nat -> (j < 3)%nat -> m i j = m j i.

(** the widths of the integration steps that lead from t0 to tend: full steps and a last one *)
Definition widths (k : nat) (step t0 tend : R) : list R := repeat step k ++ [tend - t0 - INR k * step].

(** the cross-coupled equations of a body with a cantilever: the spring and the damper act between both *)
Definition restoring (att spring : R) (wc e : vec) : vec := fun i => att * wc i + spring * e i.

(** the integration steps made one after the other *)
Definition run_steps (f : vec -> vec) (ws : list R) (st : vec * quat) : vec * quat := fold_left (fun st w => att_step f w st) ws st.
(** the angular velocities at the four places where a step of width dt evaluates the equations of motion *)
Definition stage_rates (f : vec -> vec) (dt : R) (x : vec) : list vec :=
  let k1 := f x in let k2 := f (vadd x (vscal (dt / 2) k1)) in let k3 := f (vadd x (vscal (dt / 2) k2)) in
  [omega7 x; omega7 (vadd x (vscal (dt / 2) k1)); omega7 (vadd x (vscal (dt / 2) k2)); omega7 (vadd x (vscal dt k3))].

(** the direction that a pointing mode asks for, in the inertial frame (not normalised): to the Sun and to the
    Earth as the celestial information sees them from the spacecraft (or, if it has none, from the inertial
    positions), along the velocity, along the velocity over ground, along the orbit normal, to the target on
    the ground *)
Definition asked_direction (s : surroundings) (m : mode) (d : vec) : Prop :=
  match m with
  | MSun => (norm 3 (sun_from_sc s) <> 0 /\ d = sun_from_sc s) \/ (norm 3 (sun_from_sc s) = 0 /\ d = vsub (sun_i s) (sc_pos s))
  | MEarth => (norm 3 (earth_from_sc s) <> 0 /\ d = earth_from_sc s) \/ (norm 3 (earth_from_sc s) = 0 /\ d = vsub (earth_i s) (sc_pos s))
  | MVelocity => d = sc_vel s
  | MGroundSpeed => d = mvec 3 (mtrans (dcm_i2ecef s)) (sc_vel_ecef s)
  | MNormal => d = cross (sc_pos s) (sc_vel s)
  | MSurface => d = vsub (mvec 3 (mtrans (dcm_i2ecef s)) (target_ecef s)) (sc_pos s)
  | MInertial | MNone => False
  end.
(** the angle between two vectors is not 0 or 180 degrees *)
Definition not_parallel (u v : vec) : Prop := 0 < norm 3 (cross u v).
