(** The geomagnetic main field in textbook terms: Schmidt semi-normalised spherical harmonics, geodetic coordinates, and the
    meaning of an IGRF coefficient table. *)
From Coq Require Import Reals List ZArith.
From Verif Require Import GravitySpec IgrfModel.
Import ListNotations.
Open Scope R_scope.

Definition schmidt (n m : nat) : R :=
  sqrt ((match m with O => 1 | _ => 2 end) * INR (fact (n - m)) / INR (fact (n + m))).
(** potential of the main field (degrees 1 to deg) with reference radius a; the field is minus its gradient *)
Definition magnetic_potential (a : R) (deg : nat) (g h : nat -> nat -> R) (x y z : R) : R :=
  a * sum_to deg (fun n => match n with
    | O => 0
    | _ => sum_to n (fun m => schmidt n m * (g n m * fst (solid a n m x y z) + h n m * snd (solid a n m x y z)))
    end).

(** geodetic coordinates: an ellipsoid with semi-axes a and b, height along the normal *)
Definition normal_w (a b lat : R) : R := sqrt (a * a * (cos lat * cos lat) + b * b * (sin lat * sin lat)).
Definition geodetic_x (a b lat lon h : R) : R := (a * a / normal_w a b lat + h) * cos lat * cos lon.
Definition geodetic_y (a b lat lon h : R) : R := (a * a / normal_w a b lat + h) * cos lat * sin lon.
Definition geodetic_z (a b lat h : R) : R := (b * b / normal_w a b lat + h) * sin lat.

(** turning a vector about the third axis by an angle *)
Definition turned (w x y z : R) : R * R * R := (cos w * x - sin w * y, sin w * x + cos w * y, z).

(** A line of the table, epoch by epoch, with the secular variation at its end: the value at [year] on the straight line
    through the two epochs around [first] (before the first epoch: through the first two; after the last: the secular
    variation). *)
Fixpoint in_time (years row : list R) (first year : R) : R :=
  match years, row with
  | y0 :: ys, v0 :: vs =>
      match ys, vs with
      | y1 :: _, v1 :: _ =>
          if Rlt_dec first y1 then v0 + (v1 - v0) / (y1 - y0) * (year - y0) else in_time ys vs first year
      | [], sv :: _ => v0 + sv * (year - y0)
      | _, [] => 0
      end
  | _, _ => 0
  end.
(** the lines of the table: g_1^0, g_1^1, h_1^1, g_2^0, g_2^1, h_2^1, g_2^2, h_2^2, ... *)
Definition row_g (n m : nat) : nat := match m with O => n * n - 1 | S k => n * n + 2 * k end.
Definition row_h (n m : nat) : nat := n * n + 2 * m - 1.
Definition table_g (years : list R) (rows : list (list R)) (first year : R) (n m : nat) : R :=
  in_time years (nth (row_g n m) rows []) first year.
Definition table_h (years : list R) (rows : list (list R)) (first year : R) (n m : nat) : R :=
  match m with O => 0 | _ => in_time years (nth (row_h n m) rows []) first year end.

(** the degree and the number of columns announced in line 1 of a file *)
Definition f_max (f : coef_file) : nat := Z.to_nat (cf_maxod f).
Definition f_ncol (f : coef_file) : nat := Z.to_nat (cf_ncol f).
(** a file with all the lines and columns it announces *)
Definition readable (f : coef_file) : Prop :=
  cf_opens f = true /\ (8 <= cf_maxod f <= 18)%Z /\ (2 <= cf_ncol f <= 50)%Z /\ (f_ncol f - 1 <= length (cf_years f))%nat /\
  ((f_max f + 1) * (f_max f + 1) - 1 <= length (cf_rows f))%nat /\
  forall i, (i < (f_max f + 1) * (f_max f + 1) - 1)%nat -> (f_ncol f <= length (nth i (cf_rows f) []))%nat.
Definition f_years (f : coef_file) : list R := firstn (f_ncol f - 1) (cf_years f).
(** the coefficients at [year] when the straight lines are those around [first] *)
Definition igrf_g (f : coef_file) (first year : R) : nat -> nat -> R := table_g (f_years f) (cf_rows f) first year.
Definition igrf_h (f : coef_file) (first year : R) : nat -> nat -> R := table_h (f_years f) (cf_rows f) first year.
(** no degree at the end of the table has its axial coefficient g_n^0 only *)
Definition complete (f : coef_file) (first : R) : Prop :=
  forall n t, (1 <= n <= f_max f)%nat -> igrf_g f first t n 0%nat <> 0 ->
    exists n' m t', (n <= n' <= f_max f)%nat /\ (1 <= m <= n')%nat /\ (igrf_g f first t' n' m <> 0 \/ igrf_h f first t' n' m <> 0).
(** WGS84 semi-axes in km as used with the IGRF, and the reference radius of the coefficients *)
Definition earth_a : R := 6378.137.
Definition earth_b : R := earth_a * (1 - 1 / 298.25722).
Definition igrf_radius : R := 6371.2.
(** the code converts radians to degrees with pi and back with 3.14159265359 *)
Definition kappa : R := 3.14159265359 / PI.
(** the point of a call: geodetic latitude and longitude (with that factor), altitude in km *)
Definition call_x (a : igrf_args) : R := geodetic_x earth_a earth_b (kappa * ag_lat a) (kappa * ag_lon a) (ag_alt a / 1000).
Definition call_y (a : igrf_args) : R := geodetic_y earth_a earth_b (kappa * ag_lat a) (kappa * ag_lon a) (ag_alt a / 1000).
Definition call_z (a : igrf_args) : R := geodetic_z earth_a earth_b (kappa * ag_lat a) (ag_alt a / 1000).
