(** Model of src/components/examples/example_change_structure.cpp (EX) and of the setters of src/simulation/spacecraft/structure it calls
    (kinematics_parameters.hpp, residual_magnetic_moment.hpp, surface.hpp).  Simplified: of a surface only the area is kept; doubles are
    real numbers. *)
From Coq Require Import Reals List ZArith Bool.
From Verif Require Import Base RBase VecModel.
Import ListNotations.
Open Scope R_scope.

Record structure : Type := mkStructure { mass_kg : R; gravity_center : vec; rmm_constant : vec; areas : list R; inertia : mat }.
(** surfaces_[0].SetArea_m2 (surface.hpp: no check of the value beyond > 0); with no surface the access is out of range *)
Definition set_first_area (l : list R) (x : R) : outcome (list R) := match l with [] => UB | _ :: t => Ok (x :: t) end.
(** EX 17-46; MainRoutine gets the clock's unsigned count as an int *)
Definition int_of_count (k : Z) : Z := let y := (k mod 2 ^ 32)%Z in if (y <? 2 ^ 31)%Z then y else (y - 2 ^ 32)%Z.
Definition change_routine (k : Z) (s : structure) : outcome structure :=
  if (1000 <? int_of_count k)%Z then
    let! a := set_first_area (areas s) (1 / 2) in
    Ok (mkStructure 100 (v3 (1 / 100) (- (1 / 100)) (2 / 100)) (v3 (1 / 10) (- (1 / 10)) (2 / 10)) a
          (fun i j => if Nat.eqb i j then 2 / 10 else 0))
  else Ok s.
(** the routine at the counts first, first + 1, ... (prescaler 1: every count), n times *)
Fixpoint change_run (n : nat) (first : Z) (s : structure) : outcome structure :=
  match n with
  | O => Ok s
  | S m => let! s' := change_routine first s in change_run m (first + 1)%Z s'
  end.
