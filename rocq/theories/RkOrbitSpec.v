(** The orbit integrated by Runge-Kutta: histories of calls and what is expected of them. *)
From Coq Require Import Reals List.
From Verif Require Import Base RBase VecModel QuatModel QuatSpec OdeModel OrbitModel.
Import ListNotations.
Open Scope R_scope.

(** SetAcceleration_i_m_s2, then Propagate to the end time, again and again *)
Definition rk_set_acc (o : rk4_orbit) (a : vec) : rk4_orbit :=
  mkRk4 (rk_mu o) (rk_step o) (rk_time o) (rk_ode o) a (rk_pos o) (rk_vel o).
Fixpoint rk_run (fuel : nat) (o : rk4_orbit) (calls : list (vec * R)) : outcome rk4_orbit :=
  match calls with
  | [] => Ok o
  | (a, tend) :: l => let! y := rk4_propagate fuel true (rk_set_acc o a) tend in rk_run fuel y l
  end.
(** a change of axes: rotation or reflection *)
Definition orthogonal_axes (m : mat) : Prop := forall i j, (i < 3)%nat -> (j < 3)%nat ->
  m 0%nat i * m 0%nat j + m 1%nat i * m 1%nat j + m 2%nat i * m 2%nat j = if Nat.eqb i j then 1 else 0.
(** the second outcome is the first seen through [f]: position and velocity are mapped, the time is the same *)
Definition seen_through (f : vec -> vec) (a b : outcome rk4_orbit) : Prop :=
  match a, b with
  | Ok x, Ok y => veq 3 (rk_pos y) (f (rk_pos x)) /\ veq 3 (rk_vel y) (f (rk_vel x)) /\ rk_time y = rk_time x
  | Hang, Hang => True
  | _, _ => False
  end.
(** motion with a constant acceleration during each span *)
Fixpoint ballistic (calls : list (vec * R)) (t : R) (p v : vec) : vec * vec :=
  match calls with
  | [] => (p, v)
  | (a, tend) :: l => let d := tend - t in
      ballistic l tend (fun i => p i + v i * d + a i * (d * d) / 2) (fun i => v i + a i * d)
  end.
