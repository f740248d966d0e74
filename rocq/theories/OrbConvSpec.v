(** The orbit integrated by Runge-Kutta against the exact motion. *)
From Coq Require Import Reals List.
From Verif Require Import Base RBase VecModel OrbitModel OrbitSpec ConvSpec.
Import ListNotations.
Open Scope R_scope.

(** from time 0 to T: p, v move under the gravity of a point mass and a constant acceleration a *)
Definition moves_under_gravity (mu : R) (a : vec) (T : R) (p v : R -> vec) : Prop := forall t i, 0 <= t <= T -> (i < 3)%nat ->
  derivable_pt_lim (fun u => p u i) t (v t i) /\ derivable_pt_lim (fun u => v u i) t (gravity mu (p t) i + a i).
Fixpoint in_order (t : R) (ends : list R) : Prop := match ends with [] => True | x :: l => t <= x /\ in_order x l end.
(** no call advances the time by more than eta *)
Fixpoint advances (eta t : R) (ends : list R) : Prop := match ends with [] => True | x :: l => x - t <= eta /\ advances eta x l end.
