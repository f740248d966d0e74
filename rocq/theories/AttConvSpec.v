(** The attitude integrated by Runge-Kutta against the exact motion of a rigid body. *)
From Coq Require Import Reals List.
From Verif Require Import VecModel QuatModel.
Import ListNotations.
Open Scope R_scope.

(** from time 0 to T: w, q move by Euler's equations under a constant torque, with wheels of constant momentum h
    (both in the body frame), and q turns with w: q' = 1/2 q w as a product of quaternions *)
Definition rigid_motion (inertia : mat) (torque h : vec) (T : R) (w : R -> vec) (q : R -> quat) : Prop := forall t, 0 <= t <= T ->
  (forall i, (i < 3)%nat -> derivable_pt_lim (fun u => mvec 3 inertia (w u) i) t (torque i - cross (w t) (vadd (mvec 3 inertia (w t)) h) i)) /\
  (forall i, (i < 4)%nat -> derivable_pt_lim (fun u => q u i) t (1 / 2 * qmul (q t) (q4 (w t 0%nat) (w t 1%nat) (w t 2%nat) 0) i)).
(** no call advances the time by more than eta *)
Fixpoint advances (eta t : R) (tends : list R) : Prop := match tends with [] => True | x :: l => x - t <= eta /\ advances eta x l end.
