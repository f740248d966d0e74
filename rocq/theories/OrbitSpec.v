(** Two-body and relative motion: what is expected, independently of the code. *)
From Coq Require Import Reals List.
From Verif Require Import RBase VecModel QuatModel.
Open Scope R_scope.

(** Kepler's equation u - e sin u = m *)
Definition residual (e m u : R) : R := u - e * sin u - m.
(** Newton's iteration for it, from the point the code starts at *)
Fixpoint iterate (e m : R) (k : nat) : R :=
  match k with
  | O => e * sin m / (1 - e * cos m)
  | S j => iterate e m j - residual e m (iterate e m j) / (1 - e * cos (iterate e m j))
  end.
(** u gives the eccentric anomaly at every time s (seconds after perigee) of an orbit with mean motion n *)
Definition eccentric_anomaly (e n : R) (u : R -> R) : Prop := forall s, residual e (n * s) (u s) = 0.

(** p, v : R -> vec is a two-body motion about a center of gravity parameter mu: v is the derivative of p and
    the derivative of v is - mu p / |p|^3 *)
Definition two_body (mu : R) (p v : R -> vec) : Prop := forall s i, (i < 3)%nat ->
  derivable_pt_lim (fun x => p x i) s (v s i) /\
  derivable_pt_lim (fun x => v x i) s (- mu / (norm 3 (p s) * norm 3 (p s) * norm 3 (p s)) * p s i).
(** energy negative, not falling straight to the center *)
Definition elliptic (mu : R) (r v : vec) : Prop :=
  0 < mu /\ 0 < norm 3 r /\ 0 < norm 3 (cross r v) /\ dot 3 v v < 2 * mu / norm 3 r.

(** Hill's equations: x'' = 3 n^2 x + 2 n y', y'' = - 2 n x', z'' = - n^2 z;
    s = (x, y, z, x', y', z') *)
Definition hill_motion (n : R) (s : R -> vec) : Prop := forall t,
  let d := fun i x => derivable_pt_lim (fun q => s q i) t x in
  d 0%nat (s t 3%nat) /\ d 1%nat (s t 4%nat) /\ d 2%nat (s t 5%nat) /\
  d 3%nat (3 * n * n * s t 0%nat + 2 * n * s t 4%nat) /\ d 4%nat (- 2 * n * s t 3%nat) /\ d 5%nat (- n * n * s t 2%nat).

(** acceleration of a point mass at r: - mu r / |r|^3 *)
Definition gravity (mu : R) (r : vec) : vec := fun i => - mu / (norm 3 r * norm 3 r * norm 3 r) * r i.

(** the angular momentum h leaves the ascending node (direction (-h y, h x)) on the side of positive x, or
    the orbit lies in the equatorial plane *)
Definition node_ok (h : vec) : Prop :=
  (dbl_epsilon <= sqrt (h 0%nat * h 0%nat + h 1%nat * h 1%nat) /\ h 1%nat <= 0) \/ (h 0%nat = 0 /\ h 1%nat = 0).
