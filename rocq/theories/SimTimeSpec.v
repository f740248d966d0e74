(** Specification of periodic flags. *)
From Coq Require Import List ZArith Reals.
Import ListNotations.
Open Scope R_scope.

(** k is the number of steps an update interval takes: the least k >= 1 with interval <= k*step. *)
Definition steps_per_interval (step interval : R) (k : Z) : Prop :=
  (1 <= k)%Z /\ IZR (k - 1) * step < interval <= IZR k * step.

(** The number of updates of a run: the first n with n * step > end. *)
Definition first_beyond (step end_ : R) (n : nat) : Prop :=
  INR n * step > end_ /\ forall m, (m < n)%nat -> INR m * step <= end_.
