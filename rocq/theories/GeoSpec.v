(** Geodetic coordinates, in geometric terms. *)
From Coq Require Import Reals.
From Verif Require Import VecModel GeoModel.
Open Scope R_scope.

(** Points of the reference ellipsoid: semi-axes a and a (1 - f) *)
Definition on_ellipsoid (p : vec) : Prop :=
  (p 0%nat / 6378136.6) ^ 2 + (p 1%nat / 6378136.6) ^ 2 + (p 2%nat / (6378136.6 * (1 - 0.003352797))) ^ 2 = 1.
(** The direction with geodetic latitude and longitude *)
Definition up (lat lon : R) : vec := v3 (cos lat * cos lon) (cos lat * sin lon) (sin lat).
Definition east (lon : R) : vec := v3 (- sin lon) (cos lon) 0.
Definition north (lat lon : R) : vec := v3 (- sin lat * cos lon) (- sin lat * sin lon) (cos lat).
(** [v] is the outward normal of the ellipsoid at p: a positive multiple of the gradient of its equation *)
Definition outward_normal (p v : vec) : Prop :=
  exists k, 0 < k /\ v 0%nat = k * (p 0%nat / 6378136.6 ^ 2) /\ v 1%nat = k * (p 1%nat / 6378136.6 ^ 2) /\
            v 2%nat = k * (p 2%nat / (6378136.6 * (1 - 0.003352797)) ^ 2).
(** Geodetic coordinates of p: p lies at height alt along the normal of direction (lat, lon) above its foot *)
Definition geodetic_of (p : vec) (lat lon alt : R) : Prop :=
  exists foot, on_ellipsoid foot /\ outward_normal foot (up lat lon) /\
    forall i, (i < 3)%nat -> p i = foot i + alt * up lat lon i.
