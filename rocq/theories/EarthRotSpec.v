(** The rotation of the Earth and of the Moon, in textbook terms. *)
From Coq Require Import Reals ZArith List.
From Verif Require Import VecModel QuatSpec.
Import ListNotations.
Open Scope R_scope.

(** Greenwich mean sidereal time in seconds of time, T Julian centuries after 2000 January 1, 12 h:
    67310.54841 + (876600 h + 8640184.812866) T + 0.093104 T^2 - 6.2e-6 T^3; a second of time is 1/86400 of a turn *)
Definition gmst_seconds (T : R) : R := 67310.54841 + (876600 * 3600 + 8640184.812866) * T + 0.093104 * T ^ 2 - 62 / 10 ^ 7 * T ^ 3.
Definition gmst (jd : R) : R := gmst_seconds ((jd - 2451545) / 36525) * (2 * PI / 86400).

(** an arc second *)
Definition second_of_arc : R := PI / 648000.
(** unit vector at an azimuth, and a height above the plane *)
Definition at_azimuth (a z : R) : vec := v3 (cos a) (sin a) z.

(** IAU 1976 precession, IAU 1980 nutation (IERS Conventions): a polynomial in Julian centuries T with a constant in degrees and the other
    coefficients in seconds of arc *)
Fixpoint poly (cs : list R) (T : R) : R := match cs with [] => 0 | c :: r => c + T * poly r T end.
Definition arc (degrees : R) (seconds : list R) (T : R) : R := (degrees * 3600 + T * poly seconds T) * second_of_arc.
Definition obliquity : R -> R := arc 23.4392911 [-46.815; -0.00059; 0.001813].
(** the Delaunay arguments: mean anomalies of the Moon and of the Sun, the Moon's argument of latitude, its elongation from the Sun, its node *)
Definition anomaly_moon : R -> R := arc 134.96340251 [1717915923.2178; 31.8792; 0.051635; -0.0002447].
Definition anomaly_sun : R -> R := arc 357.52910918 [129596581.0481; -0.5532; 0.000136; -0.00001149].
Definition latitude_moon : R -> R := arc 93.27209062 [1739527262.8478; -12.7512; -0.001037; 0.00000417].
Definition elongation_moon : R -> R := arc 297.85019547 [1602961601.209; -6.3706; 0.006593; -0.00003169].
Definition node_moon : R -> R := arc 125.04455501 [-6962890.5431; 7.4722; 0.007702; -0.00005939].
(** the largest terms of the nutation: multiples of the five arguments, coefficient in longitude (sine), in obliquity (cosine) *)
Definition nutation_series : list (R * R * R * R * R * R * R) :=
  [(0, 0, 0, 0, 1, -17.206, 9.205); (0, 0, 2, -2, 2, -1.317, 0.573); (0, 0, 0, 0, 2, 0.207, -0.09); (0, 0, 2, 0, 2, -0.228, 0.098);
   (0, 1, 0, 0, 0, 0.148, 0.007); (1, 0, 0, 0, 0, 0.071, -0.001); (0, 1, 2, -2, 2, -0.052, 0.022); (1, 0, 2, 0, 2, -0.03, 0.013); (0, -1, 2, -2, 2, 0.022, -0.01)].
Definition argument (a b c d e T : R) : R :=
  a * anomaly_moon T + b * anomaly_sun T + c * latitude_moon T + d * elongation_moon T + e * node_moon T.
Definition sum_list {A} (f : A -> R) (xs : list A) : R := fold_right (fun x acc => f x + acc) 0 xs.
Definition nutation_longitude (T : R) : R := sum_list (fun '(a, b, c, d, e, p, q) => p * second_of_arc * sin (argument a b c d e T)) nutation_series.
Definition nutation_obliquity (T : R) : R := sum_list (fun '(a, b, c, d, e, p, q) => q * second_of_arc * cos (argument a b c d e T)) nutation_series.
Definition precession_zeta : R -> R := arc 0 [2306.2181; 0.30188; 0.017998].
Definition precession_theta : R -> R := arc 0 [2004.3109; -0.42665; -0.041833].
Definition precession_z : R -> R := arc 0 [2306.2181; 1.09468; 0.018203].
