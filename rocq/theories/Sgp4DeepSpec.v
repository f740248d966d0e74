(** Vocabulary for C162-C165: means over a revolution, the averaged potential of a distant body, Lagrange's planetary equations, Kaula's
    inclination functions, the orbits of the Sun and the Moon in the theory of deep space satellites (Spacetrack Report No. 3, section 8). *)
From Coq Require Import Reals List ZArith.
From Verif Require Import VecModel Sgp4Spec.
Import ListNotations.
Open Scope R_scope.

(** m is the mean of f over a full turn *)
Definition is_mean (f : R -> R) (m : R) : Prop :=
  exists F, (forall x, derivable_pt_lim F x (f x)) /\ F (2 * PI) - F 0 = 2 * PI * m.

Definition dot3 (a b : vec) : R := a 0%nat * b 0%nat + a 1%nat * b 1%nat + a 2%nat * b 2%nat.
(** mean elements of the satellite: semimajor axis, eccentricity, inclination, argument of perigee, node.  [vU w node i] of Sgp4Spec is the
    unit vector towards the perigee and [vV w node i] the one 90 degrees ahead of it in the plane of the orbit. *)
Record orb : Type := mkOrbE { q_a : R; q_e : R; q_i : R; q_w : R; q_node : R }.
(** position at eccentric anomaly x *)
Definition orbit_pos (q : orb) (x : R) : vec := fun k =>
  q_a q * ((cos x - q_e q) * vU (q_w q) (q_node q) (q_i q) k + sqrt (1 - q_e q ^ 2) * sin x * vV (q_w q) (q_node q) (q_i q) k).
(** tidal potential at r of a distant body of strength k (gravitational parameter over cubed distance) in direction b *)
Definition tide (k : R) (b r : vec) : R := k * (3 / 2 * dot3 r b ^ 2 - 1 / 2 * dot3 r r).
(** its mean over the satellite's revolution, in closed form (C162_single_average) *)
Definition isotropic (k : R) (q : orb) : R := - (k / 2) * q_a q ^ 2 * (1 + 3 / 2 * q_e q ^ 2).
Definition averaged (k : R) (b : vec) (q : orb) : R :=
  3 / 4 * k * q_a q ^ 2 * ((1 + 4 * q_e q ^ 2) * dot3 b (vU (q_w q) (q_node q) (q_i q)) ^ 2 +
                           (1 - q_e q ^ 2) * dot3 b (vV (q_w q) (q_node q) (q_i q)) ^ 2) + isotropic k q.
(** a body on an orbit through the directions A (perigee) and B (90 degrees ahead), of eccentricity [b_ecc] and mean motion [b_n] *)
Record body : Type := mkBody { b_k : R; b_n : R; b_ecc : R; b_A : vec; b_B : vec }.
Definition toward (b : body) (f : R) : vec := fun k => cos f * b_A b k + sin f * b_B b k.
(** the mean over the body's revolution as well, in closed form (C162_double_average) *)
Definition averaged2 (b : body) (q : orb) : R := 1 / 2 * (averaged (b_k b) (b_A b) q + averaged (b_k b) (b_B b) q).

(** ** Lagrange's planetary equations for a disturbing function that does not depend on the mean anomaly: rates of eccentricity, inclination,
    argument of perigee, node and mean anomaly of an orbit with mean motion n *)
Record rates : Type := mkRates { r_e : R; r_i : R; r_w : R; r_node : R; r_M : R }.
Definition lagrange (V : orb -> R) (n : R) (q : orb) (x : rates) : Prop :=
  exists Va Ve Vi Vw Vn,
    derivable_pt_lim (fun z => V (mkOrbE z (q_e q) (q_i q) (q_w q) (q_node q))) (q_a q) Va /\
    derivable_pt_lim (fun z => V (mkOrbE (q_a q) z (q_i q) (q_w q) (q_node q))) (q_e q) Ve /\
    derivable_pt_lim (fun z => V (mkOrbE (q_a q) (q_e q) z (q_w q) (q_node q))) (q_i q) Vi /\
    derivable_pt_lim (fun z => V (mkOrbE (q_a q) (q_e q) (q_i q) z (q_node q))) (q_w q) Vw /\
    derivable_pt_lim (fun z => V (mkOrbE (q_a q) (q_e q) (q_i q) (q_w q) z)) (q_node q) Vn /\
    let beta := sqrt (1 - q_e q ^ 2) in
    let n_a2 := n * q_a q ^ 2 in
    r_e x = - beta / (n_a2 * q_e q) * Vw /\
    r_i x = (cos (q_i q) * Vw - Vn) / (n_a2 * beta * sin (q_i q)) /\
    r_w x = beta / (n_a2 * q_e q) * Ve - cos (q_i q) / (n_a2 * beta * sin (q_i q)) * Vi /\
    r_node x = Vi / (n_a2 * beta * sin (q_i q)) /\
    r_M x = - (beta ^ 2) / (n_a2 * q_e q) * Ve - 2 / (n * q_a q) * Va.

(** the two of them that remain regular for a circular orbit *)
Definition plane_rates (V : orb -> R) (n : R) (q : orb) (idot nodedot : R) : Prop :=
  exists Vi Vw Vn,
    derivable_pt_lim (fun z => V (mkOrbE (q_a q) (q_e q) z (q_w q) (q_node q))) (q_i q) Vi /\
    derivable_pt_lim (fun z => V (mkOrbE (q_a q) (q_e q) (q_i q) z (q_node q))) (q_w q) Vw /\
    derivable_pt_lim (fun z => V (mkOrbE (q_a q) (q_e q) (q_i q) (q_w q) z)) (q_node q) Vn /\
    let n_a2_beta := n * q_a q ^ 2 * sqrt (1 - q_e q ^ 2) in
    idot = (cos (q_i q) * Vw - Vn) / (n_a2_beta * sin (q_i q)) /\ nodedot = Vi / (n_a2_beta * sin (q_i q)).

(** ** The Sun and the Moon *)
(** the Sun's orbit: obliquity 23.4441 degrees and argument of perigee 281.2208 degrees, by their rounded sines and cosines *)
Definition sun : body :=
  let '(ce, se, cg, sg) := (0.91744867, 0.39785416, 0.1945905, - 0.98088458) in
  mkBody (4 * 2.9864797e-6 * 1.19459e-5) 1.19459e-5 0.01675 (v3 cg (sg * ce) (sg * se)) (v3 (- sg) (cg * ce) (cg * se)).
(** the Moon's orbit [day] days after 1899 Dec 31, 12h: D is the longitude of its node on the ecliptic; I and N its inclination to and node on the
    equator, x the arc along it between the two nodes, all by rounded constants of the obliquity of 23.4441 and the inclination of
    5.1454 degrees to the ecliptic; 5.8351514 + 0.0019443680 day the longitude of its perigee *)
Definition is_moon (day : R) (b : body) : Prop :=
  exists I N x k, let D := 4.5236020 - 9.2422029e-4 * day in
    0 < I < PI /\ cos I = 0.91375164 - 0.03568096 * cos D /\
    - (PI / 2) <= N <= PI / 2 /\ sin I * sin N = 0.089683511 * sin D /\
    0 < k /\ k * sin I * sin x = 0.39785416 * sin D /\ k * cos x = cos N * cos D + 0.91744867 * sin N * sin D /\
    let g := 5.8351514 + 0.0019443680 * day + x - D in
    b = mkBody (4 * 4.7968065e-7 * 1.5835218e-4) 1.5835218e-4 0.05490 (vU g N I) (vV g N I).
(** mean anomalies of the Sun and the Moon *)
Definition sun_anomaly (day : R) : R := 6.2565837 + 0.017201977 * day.
Definition moon_anomaly (day : R) : R := 4.7199672 + 0.22997150 * day - (5.8351514 + 0.0019443680 * day).
(** the true anomaly of a body of mean anomaly M, to first order in its eccentricity *)
Definition true_anomaly (ecc M : R) : R := M + 2 * ecc * sin M.
Definition congruent (x y : R) : Prop := exists k : Z, x = y + 2 * PI * IZR k.

(** the periodic change of an element: as a function of the body's true anomaly its derivative is the surplus of the element's rate, in units of
    the body's mean motion, where the part of the rate that the isotropic potential causes follows the body's distance to first order; its mean is 0 *)
Definition periodic (b : body) (rate : R -> R) (mean iso : R) (P : R -> R) : Prop :=
  (forall f, derivable_pt_lim P f ((rate f - mean + iso * (3 * b_ecc b * cos f)) / b_n b)) /\ is_mean P 0.
(** the periodic changes that one body causes: of the eccentricity, of the inclination, of the argument of perigee plus cos i times that of the
    node, of the node times sin i, and of the mean anomaly, as functions of the body's true anomaly *)
Definition body_periodics (b : body) (n : R) (q : orb) (P : R -> rates) : Prop :=
  exists (rate : R -> rates) (mean iso : rates),
    (forall f, lagrange (averaged (b_k b) (toward b f)) n q (rate f)) /\ lagrange (averaged2 b) n q mean /\ lagrange (isotropic (b_k b)) n q iso /\
    let turned x := r_w x + cos (q_i q) * r_node x in
    let swept x := sin (q_i q) * r_node x in
    periodic b (fun f => r_e (rate f)) (r_e mean) (r_e iso) (fun f => r_e (P f)) /\
    periodic b (fun f => r_i (rate f)) (r_i mean) (r_i iso) (fun f => r_i (P f)) /\
    periodic b (fun f => turned (rate f)) (turned mean) (turned iso) (fun f => r_w (P f)) /\
    periodic b (fun f => swept (rate f)) (swept mean) (swept iso) (fun f => r_node (P f)) /\
    periodic b (fun f => r_M (rate f)) (r_M mean) (r_M iso) (fun f => r_M (P f)).

(** ** Kaula's inclination functions (Kaula, Theory of Satellite Geodesy, 3.62) *)
Fixpoint zfact (n : nat) : Z := match n with O => 1 | S k => Z.of_nat n * zfact k end%Z.
Fixpoint choose (n k : nat) : Z :=
  match n, k with _, O => 1 | O, S _ => 0 | S n', S k' => choose n' k' + choose n' k end%Z.
Definition sum_to (n : nat) (f : nat -> R) : R := fold_right (fun k a => f k + a) 0 (seq 0 (S n)).
Definition sign_pow (z : nat) : R := if Nat.even z then 1 else - 1.
Definition kaula (l m p : nat) (i : R) : R :=
  let k := Nat.div (l - m) 2 in
  sum_to (Nat.min p k) (fun t =>
    IZR (zfact (2 * l - 2 * t)) / IZR (zfact t * zfact (l - t) * zfact (l - m - 2 * t) * 2 ^ Z.of_nat (2 * l - 2 * t)) * sin i ^ (l - m - 2 * t) *
    sum_to m (fun s => IZR (choose m s) * cos i ^ s *
      sum_to (p - t) (fun c => IZR (choose (l - m - 2 * t + s) c * choose (m - s) (p - t - c)) * sign_pow (c + k)))).
(** the eccentricity functions of half-day orbits: fits of Spacetrack Report No. 3 in ranges of the eccentricity, as coefficients of 1, e, e^2, e^3 *)
Definition cubic (c : R * R * R * R) (e : R) : R := let '(c0, c1, c2, c3) := c in c0 + c1 * e + c2 * e ^ 2 + c3 * e ^ 3.
Definition ecc_fun (l p q : Z) (e : R) : R :=
  let up_to_065 a b := if Rle_dec e 0.65 then a else b in
  let below_07 a b := if Rlt_dec e 0.7 then a else b in
  cubic (match (l, p, q) with
  | (2, 0, _)%Z => (-0.306 + 0.64 * 0.44, -0.44, 0, 0)
  | (2, 1, _)%Z => up_to_065 (3.616, -13.247, 16.29, 0) (-72.099, 331.819, -508.738, 266.724)
  | (3, 1, _)%Z => up_to_065 (-19.302, 117.39, -228.419, 156.591) (-346.844, 1582.851, -2415.925, 1246.113)
  | (3, 2, _)%Z => up_to_065 (-18.9068, 109.7927, -214.6334, 146.5816) (-342.585, 1554.908, -2366.899, 1215.972)
  | (4, 1, _)%Z => up_to_065 (-41.122, 242.694, -471.094, 313.953) (-1052.797, 4758.686, -7193.992, 3651.957)
  | (4, 2, _)%Z => up_to_065 (-146.407, 841.88, -1629.014, 1083.435) (-3581.69, 16178.11, -24462.77, 12422.52)
  | (5, 2, 0)%Z => up_to_065 (-532.114, 3017.977, -5740.032, 3708.276) (if Rlt_dec 0.715 e then (-5149.66, 29936.92, -54087.36, 31324.56) else (1464.74, -4664.75, 3763.64, 0))
  | (5, 2, 1)%Z => below_07 (-822.71072, 4568.6173, -8491.4146, 5337.524) (-51752.104, 218913.95, -309468.16, 146349.42)
  | (5, 3, 2)%Z => below_07 (-853.666, 4690.25, -8624.77, 5341.4) (-40023.88, 170470.89, -242699.48, 115605.82)
  | (5, 3, 3)%Z => below_07 (-919.2277, 4988.61, -9064.77, 5542.21) (-37995.78, 161616.52, -229838.2, 109377.94)
  | _ => (0, 0, 0, 0)
  end) e.
(** [l, m, p, q] of a term of the geopotential, the size of its coefficient and its phase; the half-day terms *)
Definition half_day_table : list ((Z * Z * Z * Z) * R * R) :=
  [((2, 2, 0, -1)%Z, 1.7891679e-6, 5.7686396); ((2, 2, 1, 1)%Z, 1.7891679e-6, 5.7686396); ((3, 2, 1, 0)%Z, 3.7393792e-7, 0.95240898); ((3, 2, 2, 2)%Z, 3.7393792e-7, 0.95240898);
   ((4, 4, 1, 0)%Z, 7.3636953e-9, 1.8014998); ((4, 4, 2, 2)%Z, 7.3636953e-9, 1.8014998); ((5, 2, 2, 0)%Z, 1.1428639e-7, 1.0508330); ((5, 2, 3, 2)%Z, 1.1428639e-7, 1.0508330);
   ((5, 4, 2, 1)%Z, 2.1765803e-9, 4.4108898); ((5, 4, 3, 3)%Z, 2.1765803e-9, 4.4108898)].
Definition one_day_table : list ((Z * Z * Z) * R * R) :=
  [((3, 1, 1)%Z, 2.1460748e-6, 0.13130908); ((2, 2, 0)%Z, 1.7891679e-6, 2.8843198); ((3, 3, 0)%Z, 2.2123015e-7, 0.37448087)].
(** eccentricity functions of one-day orbits *)
Definition ecc_fun_day (l p : Z) (e : R) : R :=
  match (l, p) with (2, 0)%Z => 1 - 5 / 2 * e ^ 2 + 13 / 16 * e ^ 4 | (3, 1)%Z => 1 + 2 * e ^ 2 | (3, 0)%Z => 1 - 6 * e ^ 2 + 6.60937 * e ^ 4 | _ => 0 end.
