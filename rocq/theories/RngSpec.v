(** Specification: the minimal standard generator x' = 16807 x mod (2^31 - 1). *)
From Coq Require Import ZArith Reals List.
Open Scope Z_scope.
Definition min_std (s : Z) (n : nat) : Z := (16807 ^ Z.of_nat n * s) mod (2 ^ 31 - 1).
Definition unit_value (x : Z) : R := (IZR x / IZR (2 ^ 31 - 1))%R.
Definition in_long (s : Z) : Prop := - 2 ^ 63 <= s < 2 ^ 63.
