(** What quaternions, rotation matrices and angles have to satisfy, in textbook terms. *)
From Coq Require Import Reals ZArith.
From Verif Require Import VecModel.
Open Scope R_scope.

Definition veq (n : nat) (u v : vec) : Prop := forall i, (i < n)%nat -> u i = v i.
Definition meq3 (a b : mat) : Prop := forall i j, (i < 3)%nat -> (j < 3)%nat -> a i j = b i j.

(** unit length of an n-vector *)
Definition unit (n : nat) (v : vec) : Prop := dot n v v = 1.

Definition det3 (m : mat) : R :=
  m 0%nat 0%nat * (m 1%nat 1%nat * m 2%nat 2%nat - m 1%nat 2%nat * m 2%nat 1%nat)
  - m 0%nat 1%nat * (m 1%nat 0%nat * m 2%nat 2%nat - m 1%nat 2%nat * m 2%nat 0%nat)
  + m 0%nat 2%nat * (m 1%nat 0%nat * m 2%nat 1%nat - m 1%nat 1%nat * m 2%nat 0%nat).

(** proper rotation: the transpose is the inverse on both sides, and the determinant is one *)
Definition rotation (m : mat) : Prop :=
  meq3 (mmul 3 m (mtrans m)) mident /\ meq3 (mmul 3 (mtrans m) m) mident /\ det3 m = 1.

(** Hamilton's product of scalar-vector pairs: (s, u)(t, v) = (st - u.v, s v + t u + u x v) *)
Definition hamilton_scalar (s : R) (u : vec) (t : R) (v : vec) : R := s * t - dot 3 u v.
Definition hamilton_vector (s : R) (u : vec) (t : R) (v : vec) : vec := vadd (vadd (vscal s v) (vscal t u)) (cross u v).

(** Rodrigues' formula: v turned by the angle about the unit axis *)
Definition rodrigues (axis : vec) (angle : R) (v : vec) : vec :=
  vadd (vadd (vscal (cos angle) v) (vscal (sin angle) (cross axis v))) (vscal (dot 3 axis v * (1 - cos angle)) axis).

(** same angle up to whole turns *)
Definition congruent (a b : R) : Prop := exists k : Z, b = a + IZR k * (2 * PI).
