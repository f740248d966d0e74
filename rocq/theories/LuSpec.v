(** Vocabulary of the statements about matrix inversion. *)
From Coq Require Import Reals.
From Verif Require Import RBase VecModel.
Open Scope R_scope.

(** B is the two-sided inverse of the NxN matrix A *)
Definition is_inverse (n : nat) (A B : mat) : Prop :=
  forall i j, (i < n)%nat -> (j < n)%nat ->
    sumn n (fun k => A i k * B k j) = (if Nat.eqb i j then 1 else 0) /\
    sumn n (fun k => B i k * A k j) = (if Nat.eqb i j then 1 else 0).
(** x solves A x = b *)
Definition solves (n : nat) (A : mat) (x b : vec) : Prop :=
  forall i, (i < n)%nat -> sumn n (fun k => A i k * x k) = b i.
