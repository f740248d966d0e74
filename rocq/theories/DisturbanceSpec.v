(** Disturbances: what is expected, independently of the code. *)
From Coq Require Import Reals List Bool String.
From Verif Require Import Base RBase VecModel QuatModel QuatSpec OrbitSpec OdeModel DisturbanceModel.
Import ListNotations.
Open Scope R_scope.

Definition vsum (l : list vec) : vec := fun i => fold_right (fun v s => v i + s) 0 l.

(** ** Holding values between refreshes *)
(** one simulation step: the orbit and the attitude propagation flags, and what the disturbances read *)
Record stepin (E : Type) : Type := mkStep { orbit_flag : bool; attitude_flag : bool; inputs : E }.
Arguments mkStep {E}. Arguments orbit_flag {E}. Arguments attitude_flag {E}. Arguments inputs {E}.
(** a disturbance that depends on the position only is refreshed with the orbit, one that depends on the attitude
    with the orbit or the attitude *)
Definition refreshed {E} (attdep : bool) (s : stepin E) : bool := orbit_flag s || (attitude_flag s && attdep).
(** the values after a history (oldest first): those of the last refresh; a disabled disturbance has none *)
Definition held {E X} (d : disturbance E X) (h : list (stepin E)) : X * values :=
  if enabled d
  then fold_left (fun s i => update d (inputs i) s) (filter (refreshed (attitude_dependent d)) h) (extra d, vals d)
  else (extra d, zero_values).
Definition same_values (v w : values) : Prop :=
  veq 3 (force_b v) (force_b w) /\ veq 3 (torque_b v) (torque_b w) /\ veq 3 (acc_b v) (acc_b w) /\ veq 3 (acc_i v) (acc_i w).
(** a newly made disturbance *)
Definition fresh {E X} (d : disturbance E X) : Prop := vals d = zero_values.
(** the calls of Disturbances::Update *)
Definition run_updates {E X} (l : list (disturbance E X)) (h : list (stepin E)) : list (disturbance E X) * totals :=
  fold_left (fun st s => update_all (orbit_flag s) (attitude_flag s) (inputs s) (fst st)) h (l, zero_totals).

(** ** Gravity gradient *)
(** a body made of point masses at positions from its center of mass *)
Definition body : Type := list (R * vec).
Definition inertia_of_masses (b : body) : mat := fun i j =>
  fold_right (fun m s => fst m * ((if Nat.eqb i j then dot 3 (snd m) (snd m) else 0) - snd m i * snd m j) + s) 0 b.
(** the difference of the attraction at the point x + rho and at x, to first order in rho *)
Definition gravity_gradient (mu : R) (x rho g : vec) : Prop := forall i, (i < 3)%nat ->
  derivable_pt_lim (fun t => gravity mu (vadd x (vscal t rho)) i) 0 (g i).
(** the torque of these differences on all the masses *)
Definition differential_torque (g : vec -> vec) (b : body) : vec :=
  vsum (map (fun m => cross (snd m) (vscal (fst m) (g (snd m)))) b).

(** ** Surface forces *)
Definition direction (v : vec) : vec := fun i => v i / norm 3 v.
Definition facing (source : vec) (s : surface) : Prop := 0 < dot 3 (s_normal s) source.
(** radiation pressure on a flat surface with unit normal n, from the direction u of the Sun: absorbed light pushes
    along - u, specularly reflected light along - n, diffusely reflected light 2/3 along - n *)
Definition pressure_on (p : R) (u : vec) (s : surface) : vec :=
  let c := dot 3 (s_normal s) u in
  let rho := s_reflectivity s in let sp := s_specularity s in
  fun i => - (p * s_area s * c) * ((1 - rho * sp) * u i + 2 * (rho * sp * c + rho * (1 - sp) / 3) * s_normal s i).
Definition lit (source : vec) (l : list surface) : list surface := filter (fun s => rlt 0 (dot 3 (s_normal s) source)) l.
(** moment of forces that act at the given points about the center of gravity *)
Definition moment (cg : vec) (l : list (vec * vec)) : vec := vsum (map (fun pf => cross (vsub (fst pf) cg) (snd pf)) l).

(** surfaces as they should be given: unit normal, area not negative, optical coefficients between 0 and 1 *)
Definition proper (s : surface) : Prop :=
  unit 3 (s_normal s) /\ 0 <= s_area s /\ 0 <= s_reflectivity s <= 1 /\ 0 <= s_specularity s <= 1 /\ 0 <= s_air_specularity s <= 1.

(** ** Third bodies *)
(** the attraction of a body at position b on a point at x *)
Definition attraction (mu : R) (b x : vec) : vec := gravity mu (vsub x b).

(** ** Magnetic moment *)
(** calls of CalcTorque in the order they are made, by any number of objects: the parameters of the object and the
    field; the torque and the moment of every call *)
Fixpoint rmm_run (wz : nat -> nat -> R) (nz : nat -> R) (st : option rmm_statics) (calls : list (rmm_params * vec)) : list (vec * vec) :=
  match calls with
  | [] => []
  | (p, b) :: l => let '(t, m, st') := magnetic_torque wz nz p b st in (t, m) :: rmm_run wz nz st' l
  end.

(** ** Free molecular flow (Schaaf and Chambre) on a surface with unit normal n, moving in the direction u at the
    speed ratio s; sigma: the part of the molecules re-emitted diffusely, tw: the temperature of the wall over that
    of the gas; sn = s (n.u) *)
Definition pressure_coefficient (sigma tw s sn : R) : R :=
  (((2 - sigma) / sqrt PI * sn + sigma / 2 * sqrt tw) * exp (- (sn * sn))
   + ((2 - sigma) * (sn * sn + 1 / 2) + sigma / 2 * sqrt (PI * tw) * sn) * (1 + erf sn)) / (s * s).
Definition shear_coefficient (sigma s sn : R) : R :=
  sigma / (sqrt PI * s) * (exp (- (sn * sn)) + sqrt PI * sn * (1 + erf sn)).
(** q: dynamic pressure.  Pressure pushes along - n, shear along the part of - u in the surface. *)
Definition flow_force (q sigma tw s : R) (u n : vec) (area : R) : vec :=
  let c := dot 3 n u in
  fun i => - (q * area) * (pressure_coefficient sigma tw s (s * c) * n i + shear_coefficient sigma s (s * c) * (u i - c * n i)).
