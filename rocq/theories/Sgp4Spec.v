(** Vocabulary for C125-C131: the resonance integration of deep space orbits, the equations of Spacetrack Report No. 3 for
    position and velocity, runs of a propagator. *)
From Coq Require Import Reals List ZArith.
From Verif Require Import VecModel.
Import ListNotations.
Open Scope R_scope.

(** n steps of length h of the second order method with the rates (second time derivative of the angle, its first derivative,
    derivative of the mean motion rate), from angle x and mean motion y at time 0 *)
Fixpoint march (rates : R -> R -> R -> R * R * R) (h : R) (n : nat) (x y : R) : R * R :=
  match n with
  | O => (x, y)
  | S k =>
    let '(x, y) := march rates h k x y in
    let '(xndt, xldot, xnddt) := rates x y (INR k * h) in
    (x + xldot * h + xndt * (h * h / 2), y + xndt * h + xnddt * (h * h / 2))
  end.
(** and a last partial step *)
Definition march_to (rates : R -> R -> R -> R * R * R) (h : R) (n : nat) (rest x y : R) : R * R :=
  let '(x, y) := march rates h n x y in
  let '(xndt, xldot, xnddt) := rates x y (INR n * h) in
  (x + xldot * rest + xndt * (rest * rest / 2), y + xndt * rest + xnddt * (rest * rest / 2)).

(** Spacetrack Report No. 3, section 6 (and its appendix in the notation of 2006): osculating quantities from the elements after the
    long period terms.  k2 is J2 / 2, [a] the semimajor axis in Earth radii, [n] the mean motion, ax = e cos w, ay = e sin w with the
    eccentricity e and the argument of perigee w, [E] + [w] the solution [x] of Kepler's equation, i the inclination and
    [node] the longitude of the ascending node; ke the gravity constant. *)
Record elems : Type := mkElems { e_a : R; e_n : R; e_ax : R; e_ay : R; e_x : R; e_i : R; e_node : R }.
(** the two-body part: radius, radial and transverse velocity, argument of latitude u *)
Definition p_of (q : elems) : R := e_a q * (1 - (e_ax q * e_ax q + e_ay q * e_ay q)).
Definition r_of (q : elems) : R := e_a q * (1 - (e_ax q * cos (e_x q) + e_ay q * sin (e_x q))).
Definition rdot_of (q : elems) : R := sqrt (e_a q) * (e_ax q * sin (e_x q) - e_ay q * cos (e_x q)) / r_of q.
Definition rfdot_of (q : elems) : R := sqrt (p_of q) / r_of q.
(** u is the angle from the ascending node to the satellite: in the plane of the orbit, with the node along the first axis,
    the satellite is at r (cos u, sin u) *)
Definition is_latitude_argument (q : elems) (u : R) : Prop :=
  let e2 := e_ax q * e_ax q + e_ay q * e_ay q in
  let es := e_ax q * sin (e_x q) - e_ay q * cos (e_x q) in
  r_of q * cos u = e_a q * (cos (e_x q) - e_ax q + e_ay q * es / (1 + sqrt (1 - e2))) /\
  r_of q * sin u = e_a q * (sin (e_x q) - e_ay q - e_ax q * es / (1 + sqrt (1 - e2))).
(** the short period terms of J2 *)
Definition short_period (k2 th ke u : R) (q : elems) : R * R * R * R * R * R :=
  let p := p_of q in
  let e2 := e_ax q * e_ax q + e_ay q * e_ay q in
  (r_of q * (1 - 3 / 2 * k2 * sqrt (1 - e2) / (p * p) * (3 * th ^ 2 - 1)) + k2 / (2 * p) * (1 - th ^ 2) * cos (2 * u),
   u - k2 / (4 * (p * p)) * (7 * th ^ 2 - 1) * sin (2 * u),
   e_node q + 3 * k2 * th / (2 * (p * p)) * sin (2 * u),
   e_i q + 3 * k2 * th / (2 * (p * p)) * sin (e_i q) * cos (2 * u),
   rdot_of q - k2 * (e_n q / ke) / p * (1 - th ^ 2) * sin (2 * u),
   rfdot_of q + k2 * (e_n q / ke) / p * ((1 - th ^ 2) * cos (2 * u) + 3 / 2 * (3 * th ^ 2 - 1))).
(** the orientation vectors *)
Definition v3 (x y z : R) : vec := fun i => match i with 0%nat => x | 1%nat => y | 2%nat => z | _ => 0 end.
Definition vM (node i : R) : vec := v3 (- sin node * cos i) (cos node * cos i) (sin i).
Definition vN (node : R) : vec := v3 (cos node) (sin node) 0.
Definition vU (u node i : R) : vec := fun k => vM node i k * sin u + vN node k * cos u.
Definition vV (u node i : R) : vec := fun k => vM node i k * cos u - vN node k * sin u.
(** position in km and velocity in km/s for an Earth radius of [re] km *)
Definition str3_state (k2 th ke re u : R) (q : elems) : vec * vec :=
  let '(rk, uk, nodek, ik, rdotk, rfdotk) := short_period k2 th ke u q in
  (fun k => rk * vU uk nodek ik k * re,
   fun k => (rdotk * vU uk nodek ik k + rfdotk * vV uk nodek ik k) * (re * ke / 60)).

(** Kepler's equation in the form of the report: x - ax sin x + ay cos x = u *)
Definition kepler_residual (u ax ay x : R) : R := x - ax * sin x + ay * cos x - u.
(** Newton's method from x = u with corrections of at most 0.95 *)
Definition correction (u ax ay x : R) : R := - kepler_residual u ax ay x / (1 - ax * cos x - ay * sin x).
Definition limited (d : R) : R := Rmax (- (0.95)) (Rmin 0.95 d).
Fixpoint estimate (u ax ay : R) (n : nat) : R :=
  match n with O => u | S k => estimate u ax ay k + limited (correction u ax ay (estimate u ax ay k)) end.

(** ** Spacetrack Report No. 3, section 6, for periods below 225 minutes.
    ke: gravity constant in Earth radii^1.5 per minute; k2 = J2 / 2; k4 = - 3 J4 / 8; A30 = - J3; Earth radius [re] km. *)
Record theory : Type := mkTheory { c_ke : R; c_k2 : R; c_k4 : R; c_A30 : R; c_re : R }.
(** drag term B*, eccentricity, argument of perigee, inclination, mean anomaly, mean motion (per minute), node at epoch *)
Record tle_elems : Type := mkTleE { l_B : R; l_e0 : R; l_w0 : R; l_i0 : R; l_M0 : R; l_n0 : R; l_node0 : R }.
Section str3.
Variables (c : theory) (l : tle_elems).
Let th := cos (l_i0 l).
Let e0 := l_e0 l.
Definition beta : R := sqrt (1 - e0 ^ 2).
(** the original mean motion from the one in the element set *)
Definition n_orig : R :=
  let a1 := Rpower (c_ke c / l_n0 l) (2 / 3) in
  let d1 := 3 / 2 * c_k2 c * (3 * th ^ 2 - 1) / (a1 ^ 2 * beta ^ 3) in
  let a0 := a1 * (1 - d1 / 3 - d1 ^ 2 - 134 / 81 * d1 ^ 3) in
  let d0 := 3 / 2 * c_k2 c * (3 * th ^ 2 - 1) / (a0 ^ 2 * beta ^ 3) in
  l_n0 l / (1 + d0).
Definition a_orig : R := Rpower (c_ke c / n_orig) (2 / 3).
Let n := n_orig.
Let a := a_orig.
(** the density parameter s and q0 - s in Earth radii, by the height of the perigee in km *)
Definition perigee_km : R := (a * (1 - e0) - 1) * c_re c.
Definition s_km : R := if Rlt_dec perigee_km 98 then 20 else if Rlt_dec perigee_km 156 then perigee_km - 78 else 78.
Definition s_er : R := s_km / c_re c + 1.
Definition q0s : R := (120 - s_km) / c_re c.
Definition xi : R := / (a - s_er).
Definition eta_ : R := a * e0 * xi.
(** (q0 - s)^4 xi^4 / |1 - eta^2|^(7/2) *)
Definition dens : R := q0s ^ 4 * xi ^ 4 / Rpower (Rabs (1 - eta_ ^ 2)) (7 / 2).
Definition C2 : R := dens * n * (a * (1 + 3 / 2 * eta_ ^ 2 + 4 * e0 * eta_ + e0 * eta_ ^ 3) +
  3 / 2 * c_k2 c * xi / Rabs (1 - eta_ ^ 2) * (- (1 / 2) + 3 / 2 * th ^ 2) * (8 + 24 * eta_ ^ 2 + 3 * eta_ ^ 4)).
Definition C1 : R := l_B l * C2.
(** C3 and the correction of the mean anomaly are left out for nearly circular orbits *)
Definition C3 : R := if Rlt_dec 0.0001 e0 then q0s ^ 4 * xi ^ 5 * c_A30 c * n * sin (l_i0 l) / (c_k2 c * e0) else 0.
Definition C4 : R := 2 * n * dens * a * beta ^ 2 *
  (2 * eta_ * (1 + e0 * eta_) + 1 / 2 * e0 + 1 / 2 * eta_ ^ 3 -
   2 * c_k2 c * xi / (a * Rabs (1 - eta_ ^ 2)) *
   (3 * (1 - 3 * th ^ 2) * (1 + 3 / 2 * eta_ ^ 2 - 2 * e0 * eta_ - 1 / 2 * e0 * eta_ ^ 3) +
    3 / 4 * (1 - th ^ 2) * (2 * eta_ ^ 2 - e0 * eta_ - e0 * eta_ ^ 3) * cos (2 * l_w0 l))).
Definition C5 : R := 2 * dens * a * beta ^ 2 * (1 + 11 / 4 * eta_ * (eta_ + e0) + e0 * eta_ ^ 3).
Definition D2 : R := 4 * a * xi * C1 ^ 2.
Definition D3 : R := 4 / 3 * a * xi ^ 2 * (17 * a + s_er) * C1 ^ 3.
Definition D4 : R := 2 / 3 * a ^ 2 * xi ^ 3 * (221 * a + 31 * s_er) * C1 ^ 4.
(** secular rates of the mean anomaly, the argument of perigee and the node *)
Definition M_rate : R := n * (1 + 3 * c_k2 c * (-1 + 3 * th ^ 2) / (2 * a ^ 2 * beta ^ 3) +
  3 * c_k2 c ^ 2 * (13 - 78 * th ^ 2 + 137 * th ^ 4) / (16 * a ^ 4 * beta ^ 7)).
Definition w_rate : R := n * (- (3 * c_k2 c * (1 - 5 * th ^ 2)) / (2 * a ^ 2 * beta ^ 4) +
  3 * c_k2 c ^ 2 * (7 - 114 * th ^ 2 + 395 * th ^ 4) / (16 * a ^ 4 * beta ^ 8) + 5 * c_k4 c * (3 - 36 * th ^ 2 + 49 * th ^ 4) / (4 * a ^ 4 * beta ^ 8)).
Definition node_rate : R := n * (- (3 * c_k2 c * th) / (a ^ 2 * beta ^ 4) +
  3 * c_k2 c ^ 2 * (4 * th - 19 * th ^ 3) / (2 * a ^ 4 * beta ^ 8) + 5 * c_k4 c * th * (3 - 7 * th ^ 2) / (2 * a ^ 4 * beta ^ 8)).

(** mean elements at t minutes after epoch *)
Record mean : Type := mkMean { m_a : R; m_e : R; m_node : R; m_w : R; m_M : R }.
Definition secular_at (t : R) : mean :=
  let MDF := l_M0 l + M_rate * t in
  let wDF := l_w0 l + w_rate * t in
  let node := l_node0 l + node_rate * t - 21 / 2 * (n * c_k2 c * th / (a ^ 2 * beta ^ 2)) * C1 * t ^ 2 in
  if Rlt_dec perigee_km 220 then
    mkMean (a * (1 - C1 * t) ^ 2) (e0 - l_B l * C4 * t) node wDF (MDF + n * (3 / 2 * C1 * t ^ 2))
  else
    let dw := l_B l * C3 * cos (l_w0 l) * t in
    let dM := if Rlt_dec 0.0001 e0
              then - (2 / 3) * (q0s ^ 4 * l_B l * xi ^ 4 / (e0 * eta_)) * ((1 + eta_ * cos MDF) ^ 3 - (1 + eta_ * cos (l_M0 l)) ^ 3) else 0 in
    let Mp := MDF + dw + dM in
    mkMean (a * (1 - C1 * t - D2 * t ^ 2 - D3 * t ^ 3 - D4 * t ^ 4) ^ 2)
           (e0 - l_B l * C4 * t - l_B l * C5 * (sin Mp - sin (l_M0 l))) node (wDF - dw - dM)
           (Mp + n * (3 / 2 * C1 * t ^ 2 + (D2 + 2 * C1 ^ 2) * t ^ 3 + 1 / 4 * (3 * D3 + 12 * C1 * D2 + 10 * C1 ^ 3) * t ^ 4 +
                      1 / 5 * (3 * D4 + 12 * C1 * D3 + 6 * D2 ^ 2 + 30 * C1 ^ 2 * D2 + 15 * C1 ^ 4) * t ^ 5)).
(** long period terms: the components of the eccentricity vector and the mean longitude from the node; 1 + cos i is kept away from 0 *)
Definition th1 : R := if Rlt_dec 1.5e-12 (Rabs (th + 1)) then 1 + th else 1 + cos (PI - 1e-9).
Definition axN (e : R) (m : mean) : R := e * cos (m_w m).
Definition ayN (e : R) (m : mean) : R := e * sin (m_w m) + c_A30 c * sin (l_i0 l) / (4 * c_k2 c * m_a m * (1 - e ^ 2)).
Definition uN (e : R) (m : mean) : R :=
  m_M m + m_w m + c_A30 c * sin (l_i0 l) / (8 * c_k2 c * m_a m * (1 - e ^ 2)) * (e * cos (m_w m)) * ((3 + 5 * th) / th1).
End str3.
(** the eccentricity used for the long and short period terms is never negative *)
Definition e_used (e : R) : R := if Rlt_dec e 0 then 0.000001 else e.
(** mean elements outside the range of the theory *)
Definition bad_mean (m : mean) : Prop := 1 <= m_e m \/ m_e m < - (0.001) \/ m_a m < 0.95.
(** the elements after the long period terms: e is the eccentricity used, x the eccentric longitude *)
Definition long_period (c : theory) (l : tle_elems) (e : R) (m : mean) (x : R) : elems :=
  mkElems (m_a m) (c_ke c / Rpower (m_a m) (3 / 2)) (axN e m) (ayN c l e m) x (l_i0 l) (m_node m).
(** Newton's method stops after j corrections: the first correction below 1e-12 in size, at the latest the ninth, is not applied *)
Definition newton_stops (u ax ay : R) (j : nat) : Prop :=
  (j <= 9)%nat /\ (forall i, (i < j)%nat -> 1e-12 <= Rabs (limited (correction u ax ay (estimate u ax ay i)))) /\
  ((j < 9)%nat -> Rabs (limited (correction u ax ay (estimate u ax ay j))) < 1e-12).
Definition same_vec (a b : vec) : Prop := forall i, a i = b i.
(** what the theory gives for t minutes after epoch: position and velocity and an error code; no position for an orbit that is not an ellipse *)
Definition str3_report (c : theory) (l : tle_elems) (t : R) (out : option (vec * vec)) (code : Z) : Prop :=
  let m := secular_at c l t in
  let e := e_used (m_e m) in
  0 < m_a m /\
  exists j, newton_stops (uN c l e m) (axN e m) (ayN c l e m) j /\
  let q := long_period c l e m (estimate (uN c l e m) (axN e m) (ayN c l e m) j) in
  match out with
  | None => p_of q < 0 /\ code = 6%Z
  | Some (r, v) =>
    0 < p_of q /\ exists u, is_latitude_argument q u /\
      same_vec r (fst (str3_state (c_k2 c) (cos (l_i0 l)) (c_ke c) (c_re c) u q)) /\
      same_vec v (snd (str3_state (c_k2 c) (cos (l_i0 l)) (c_ke c) (c_re c) u q)) /\
      let rk := fst (fst (fst (fst (fst (short_period (c_k2 c) (cos (l_i0 l)) (c_ke c) u q))))) in
      (rk < 1 -> code = 6%Z) /\ (1 <= rk -> bad_mean m -> code = 1%Z) /\ (1 <= rk -> ~ bad_mean m -> code = 0%Z)
  end.
(** element sets well inside the theory: a period of at most 224 minutes, an ellipse, and a perigee of the two-body orbit with the mean
    motion of the element set at 1.02 Earth radii or more *)
Definition two_body_a (c : theory) (l : tle_elems) : R := Rpower (c_ke c / l_n0 l) (2 / 3).
Definition fair_orbit (c : theory) (l : tle_elems) : Prop :=
  0 < l_n0 l /\ 2 * PI / l_n0 l <= 224 /\ 0 <= l_e0 l < 1 /\ 1.02 <= two_body_a c l * (1 - l_e0 l).
Definition sqnorm (v : vec) : R := v 0%nat * v 0%nat + v 1%nat * v 1%nat + v 2%nat * v 2%nat.
(** the element set of the two lines in the units of the theory: degrees to radians, revolutions per day to radians per minute, B* with its
    decimal exponent *)
Definition line_elems (bstar : R) (ibexp : Z) (ecc argp incl m n node : R) : tle_elems :=
  mkTleE (bstar * powerRZ 10 ibexp) ecc (argp * (PI / 180)) (incl * (PI / 180)) (m * (PI / 180)) (n * (2 * PI) / 1440) (node * (PI / 180)).
(** resonance with the Earth's rotation: the tesseral term (l, m, p) with coefficient D and phase G gives the mean motion the rate
    D sin ((l - 2 p) w + (m / 2) lambda - G) for the resonance angle lambda of half-day orbits *)
Record tesseral : Type := mkTes { t_D : R; t_l : Z; t_m : Z; t_p : Z; t_G : R }.
Definition t_angle (w lambda : R) (x : tesseral) : R := IZR (t_l x - 2 * t_p x) * w + IZR (t_m x) / 2 * lambda - t_G x.
Definition sum_of {A} (f : A -> R) (xs : list A) : R := fold_right (fun x a => f x + a) 0 xs.
Definition half_day_rates (xs : list tesseral) (w lambda lambda_dot : R) : R * R * R :=
  (sum_of (fun x => t_D x * sin (t_angle w lambda x)) xs, lambda_dot,
   sum_of (fun x => t_D x * (IZR (t_m x) / 2) * cos (t_angle w lambda x)) xs * lambda_dot).
(** one-day orbits: the terms (coefficient, multiplicity, phase) *)
Definition one_day_rates (xs : list (R * R * R)) (lambda lambda_dot : R) : R * R * R :=
  (sum_of (fun '(d, k, f) => d * sin (k * (lambda - f))) xs, lambda_dot, sum_of (fun '(d, k, f) => d * k * cos (k * (lambda - f))) xs * lambda_dot).
