(** Model of src/components/base/sensor_template_functions.hpp and src/utilities/quantization.cpp. *)
From Coq Require Import Reals Lra Lia List Bool ZArith.
From Verif Require Import Base RBase VecModel OdeModel.
Import ListNotations.
Open Scope R_scope.

(** sensor.hpp:45-61: what the constructor stores *)
Record sensor : Type := mkSensor {
  scale : mat; r_const : vec; r_zero : vec; bias : vec;
  walk_limit : vec; walk_h : R;
  walk_draws : nat -> nat -> R;     (* the numbers the random-walk generators deliver *)
  normal_draws : nat -> nat -> R }. (* the numbers the normal noise generators deliver *)

(** 63-78, for one axis: (const, zero) after the check *)
Definition range_check (c z : R) : R * R :=
  let (c1, z1) := if rlt c 0 || rlt z 0 then (Rabs c, Rabs z) else (c, z) in
  if rlt z1 c1 then (c1, 2 * c1) else (c1, z1).

(** 14-28: constructor *)
Definition sensor_new (s : sensor) : sensor :=
  mkSensor (scale s) (fun i => fst (range_check (r_const s i) (r_zero s i)))
           (fun i => snd (range_check (r_const s i) (r_zero s i)))
           (bias s) (walk_limit s) (walk_h s) (walk_draws s) (normal_draws s).

(** 46-61, for one axis *)
Definition clip (c z x : R) : R :=
  if rle c x && rlt x z then c
  else if rle x (- c) && rlt (- z) x then - c
  else if rle z (Rabs x) then 0
  else x.

(** 33-44: the k-th call of Measure (k = 0, 1, ...): the random walk has been advanced k times and
    the normal generators have delivered k numbers before it *)
Definition noisy (n : nat) (s : sensor) (k : nat) (x : vec) : vec := fun i =>
  mvec n (scale s) x i + bias s i
  + walk_after (walk_limit s) (walk_draws s) (walk_h s) k i + normal_draws s i k.
Definition measure (n : nat) (s : sensor) (k : nat) (x : vec) : vec := fun i =>
  clip (r_const s i) (r_zero s i) (noisy n s k x i).

(** C++ conversion double -> int: truncation toward zero, undefined outside the range of int *)
Definition trunc (x : R) : Z := if rle 0 x then Int_part x else (- Int_part (- x))%Z.
Definition int_of_double (x : R) : outcome Z :=
  if (Z.leb (- 2 ^ 31) (trunc x) && Z.ltb (trunc x) (2 ^ 31))%bool then Ok (trunc x) else UB.
(** quantization.cpp:10-13 *)
Definition quantization (x r : R) : outcome R :=
  let! bin := int_of_double (x / r) in Ok (IZR bin * r).
