(** The relative orbit integrated by Runge-Kutta: histories of calls and what is expected of them. *)
From Coq Require Import Reals List.
From Verif Require Import Base RBase VecModel QuatModel QuatSpec OdeModel OrbitModel.
Import ListNotations.
Open Scope R_scope.

(** successive calls of Propagate: the end time, and where the reference spacecraft is *)
Fixpoint rel_run (fuel : nat) (o : rel_orbit) (calls : list (R * (vec * vec))) : outcome rel_orbit :=
  match calls with
  | [] => Ok o
  | (tend, (r, v)) :: l => let! y := rel_propagate fuel true o tend r v in rel_run fuel y l
  end.
(** end times that do not go back *)
Fixpoint in_order (t : R) (calls : list (R * (vec * vec))) : Prop :=
  match calls with [] => True | (tend, _) :: l => t <= tend /\ in_order tend l end.
Fixpoint last_time (t : R) (calls : list (R * (vec * vec))) : R :=
  match calls with [] => t | (tend, _) :: l => last_time tend l end.
(** relative motion near a circular orbit of mean motion n is a drift along the track of a centre, an ellipse about it, and an
    oscillation across the plane *)
Definition centre_x (n : R) (p v : vec) : R := 4 * p 0%nat + 2 * v 1%nat / n.
Definition centre_y (n : R) (p v : vec) : R := p 1%nat - 2 * v 0%nat / n.
Definition ellipse (n : R) (p v : vec) : R := sqrt ((p 0%nat - centre_x n p v) ^ 2 + (v 0%nat / n) ^ 2).
Definition across (n : R) (p v : vec) : R := sqrt (p 2%nat ^ 2 + (v 2%nat / n) ^ 2).
