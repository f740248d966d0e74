(** What the antenna of a GNSS receiver can see, in geometric terms. *)
From Coq Require Import Reals List.
From Verif Require Import VecModel QuatModel GnssRxModel.
Open Scope R_scope.

(** The antenna's boresight in the inertial frame: the z row of the rotation matrix from inertial to antenna frame. *)
Definition boresight_i (c : gnss_config) (i : gnss_input) : vec :=
  fun k => mmul 3 (to_dcm (gc_q_b2c c)) (to_dcm (gi_q_i2b i)) 2%nat k.
(** The antenna's place: the spacecraft's plus the mounting offset rotated from the body to the inertial frame. *)
Definition antenna_i (c : gnss_config) (i : gnss_input) : vec :=
  fun k => gi_pos_i i k + mvec 3 (mtrans (to_dcm (gi_q_i2b i))) (gc_antenna_b c) k.
(** The straight line from a to s stays outside the sphere of the Earth's equatorial radius. *)
Definition clear_line (a s : vec) : Prop :=
  forall t, 0 <= t <= 1 -> 6378136.6 < norm 3 (fun k => a k + t * (s k - a k)).
(** The point at given latitude, longitude and distance in the antenna frame *)
Definition spherical (lat lon dist : R) : vec :=
  v3 (dist * (cos lat * cos lon)) (dist * (cos lat * sin lon)) (dist * sin lat).
