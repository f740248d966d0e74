(** Histories of calls, for the statements about orbits. *)
From Coq Require Import Reals List.
From Verif Require Import Base RBase VecModel QuatModel OdeModel OrbitModel.
Import ListNotations.
Open Scope R_scope.

(** successive RK4 steps of the given widths *)
Definition integrate (deriv : R -> vec -> vec) (widths : list R) (o : ode) : ode :=
  fold_left (fun o w => step_of deriv (set_step o w)) widths o.
(** successive calls of Propagate: end time and Julian date of each *)
Fixpoint encke_run (fuel : nat) (x : encke) (calls : list (R * R)) : outcome encke :=
  match calls with
  | [] => Ok x
  | (tend, jd) :: l => let! y := encke_propagate fuel true x tend jd in encke_run fuel y l
  end.
(** calls that only add *)
Fixpoint only_adds (l : list acc_call) : Prop := match l with [] => True | SetAcc _ :: _ => False | _ :: l => only_adds l end.
(** force divided by mass, in the inertial frame *)
Definition contribution (c : acc_call) : vec :=
  match c with
  | SetAcc a | AddAcc a => a
  | AddForceI f mass => fun i => f i / mass
  | AddForceB f q mass => fun i => mvec 3 (mtrans (to_dcm q)) f i / mass
  end.
