(** Free rotation of a rigid body propagated by Runge-Kutta: histories of calls and the exact motions they are compared with. *)
From Coq Require Import Reals List.
From Verif Require Import Base RBase VecModel QuatModel QuatSpec AttitudeModel AttitudeSpec.
Import ListNotations.
Open Scope R_scope.

(** successive calls of Propagate with the end times given, nothing else being called in between *)
Fixpoint att_run (coef0 : vec) (index0 : nat -> nat) (inverse0 : mat) (fuel : nat) (inertia : mat) (a : att_rk4) (tends : list R) : outcome att_rk4 :=
  match tends with
  | [] => Ok a
  | t :: l => let! b := att_propagate coef0 index0 inverse0 fuel true inertia a t in att_run coef0 index0 inverse0 fuel inertia b l
  end.
(** end times that do not go back *)
Fixpoint in_order (t : R) (tends : list R) : Prop := match tends with [] => True | x :: l => t <= x /\ in_order x l end.
Definition last_time (t : R) (tends : list R) : R := last tends t.
(** a body of revolution about the unit vector e: moment of inertia along the axis and across it *)
Definition of_revolution (inertia : mat) (e : vec) (along across : R) : Prop :=
  dot 3 e e = 1 /\ 0 < along /\ 0 < across /\ veq 3 (mvec 3 inertia e) (vscal along e) /\
  forall v, dot 3 v e = 0 -> veq 3 (mvec 3 inertia v) (vscal across v).
(** Euler's equations without external torque: the momentum I w + h, seen from the body, turns at - w x (I w + h) *)
Definition euler_motion (inertia : mat) (h : vec) (w : R -> vec) : Prop := forall t i, (i < 3)%nat ->
  derivable_pt_lim (fun s => mvec 3 inertia (w s) i) t (- cross (w t) (vadd (mvec 3 inertia (w t)) h) i).
(** the part of the angular velocity across the axis *)
Definition transverse (e w : vec) : vec := vsub w (vscal (dot 3 w e) e).
