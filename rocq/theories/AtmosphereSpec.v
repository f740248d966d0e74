(** Air density: what is expected, independently of the code. *)
From Coq Require Import Reals List Bool Arith.
From Verif Require Import Base RBase VecModel AtmosphereModel.
Import ListNotations.
Open Scope R_scope.

(** v is the value at height h of the curve through the entries of the table that is straight on a logarithmic scale *)
Definition log_interpolated (t : list (R * R)) (h v : R) : Prop :=
  exists i h1 d1 h2 d2, nth_error t i = Some (h1, d1) /\ nth_error t (S i) = Some (h2, d2) /\ h1 <= h < h2 /\
    0 < v /\ (h2 - h1) * ln v = (h2 - h) * ln d1 + (h - h1) * ln d2.
(** heights grow, positive densities fall *)
Definition falling (t : list (R * R)) : Prop :=
  forall i h1 d1 h2 d2, nth_error t i = Some (h1, d1) -> nth_error t (S i) = Some (h2, d2) -> h1 < h2 /\ 0 < d2 < d1.
(** the cosine of the angle between two directions *)
Definition cos_angle (u v : vec) : R := dot 3 u v / (norm 3 u * norm 3 v).
(** rotation of a vector about the z axis *)
Definition turned_z (a : R) (v : vec) : vec := v3 (cos a * v 0%nat - sin a * v 1%nat) (sin a * v 0%nat + cos a * v 1%nat) (v 2%nat).

(** The table of the Harris-Priester model (Montenbruck, Gill, Satellite Orbits, table 3.8): height [km], minimum and
    maximum density [g/km3] *)
Definition published_harris_priester : list (R * R * R) :=
  [(100, 497400, 497400); (120, 24900, 24900); (130, 8377, 8710); (140, 3899, 4059); (150, 2122, 2215);
   (160, 1263, 1344); (170, 800.8, 875.8); (180, 528.3, 601); (190, 361.7, 429.7); (200, 255.7, 316.2);
   (210, 183.9, 239.6); (220, 134.1, 185.3); (230, 99.49, 145.5); (240, 74.88, 115.7); (250, 57.09, 93.08);
   (260, 44.03, 75.55); (270, 34.3, 61.82); (280, 26.97, 50.95); (290, 21.39, 42.26); (300, 17.08, 35.26);
   (320, 10.99, 25.11); (340, 7.214, 18.19); (360, 4.824, 13.37); (380, 3.274, 9.955); (400, 2.249, 7.492);
   (420, 1.558, 5.684); (440, 1.091, 4.355); (460, 0.7701, 3.362); (480, 0.5474, 2.612); (500, 0.3916, 2.042);
   (520, 0.2819, 1.605); (540, 0.2042, 1.267); (560, 0.1488, 1.005); (580, 0.1092, 0.7997); (600, 0.0807, 0.639);
   (620, 0.06012, 0.5123); (640, 0.04519, 0.4121); (660, 0.0343, 0.3325); (680, 0.02632, 0.2691); (700, 0.02043, 0.2185);
   (720, 0.01607, 0.1779); (740, 0.01281, 0.1452); (760, 0.01036, 0.119); (780, 0.008496, 0.09776); (800, 0.007069, 0.08059);
   (840, 0.00468, 0.05741); (880, 0.0032, 0.0421); (920, 0.00221, 0.0313); (960, 0.00156, 0.0236); (1000, 0.00115, 0.0181)].

(** The exponential model of the atmosphere (Vallado, table 8-4): base altitude [km], scale height [km], mantissa and decimal
    exponent of the base density [kg/m3] *)
Definition published_exponential : list (R * R * R * nat) :=
  [(0, 7.249, 1.225, 0%nat); (25, 6.349, 3.899, 2%nat); (30, 6.682, 1.774, 2%nat); (40, 7.554, 3.972, 3%nat);
   (50, 8.382, 1.057, 3%nat); (60, 7.714, 3.206, 4%nat); (70, 6.549, 8.77, 5%nat); (80, 5.799, 1.905, 5%nat);
   (90, 5.382, 3.396, 6%nat); (100, 5.877, 5.297, 7%nat); (110, 7.263, 9.661, 8%nat); (120, 9.473, 2.438, 8%nat);
   (130, 12.636, 8.484, 9%nat); (140, 16.149, 3.845, 9%nat); (150, 22.523, 2.07, 9%nat); (180, 29.74, 5.464, 10%nat);
   (200, 37.105, 2.789, 10%nat); (250, 45.546, 7.248, 11%nat); (300, 53.628, 2.418, 11%nat); (350, 53.298, 9.518, 12%nat);
   (400, 58.515, 3.725, 12%nat); (450, 60.828, 1.585, 12%nat); (500, 63.822, 6.967, 13%nat); (600, 71.835, 1.454, 13%nat);
   (700, 88.667, 3.614, 14%nat); (800, 124.64, 1.17, 14%nat); (900, 181.05, 5.245, 15%nat); (1000, 268, 3.019, 15%nat)].
