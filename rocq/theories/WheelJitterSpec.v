(** What wheel jitter should be: rotor imbalance harmonics seen through a structural resonance. *)
From Coq Require Import Reals List Bool.
From Verif Require Import RBase VecModel WheelJitterModel.
Import ListNotations.
Open Scope R_scope.

Fixpoint sum_over {A} (f : A -> R) (l : list A) : R := match l with [] => 0 | x :: r => f x + sum_over f r end.

(** Angle turned by the rotor over updates at the speeds ws, each lasting T *)
Definition rotor_angle (T : R) (ws : list R) : R := T * sum_over (fun w => w) ws.

(** Radial force (or torque) of harmonics (n, a) with start phases p after the rotor turned by theta, at speed w *)
Definition radial (h : list (R * R)) (p : list R) (theta w : R) : vec :=
  v3 (sum_over (fun x => snd (fst x) * w ^ 2 * sin (snd x + fst (fst x) * theta)) (combine h p))
     (sum_over (fun x => snd (fst x) * w ^ 2 * cos (snd x + fst (fst x) * theta)) (combine h p))
     0.

(** [y] answers [u] through the filter *)
Definition answers (c : jitter_config) (u y : nat -> R) : Prop :=
  forall n, coefficient c 0 * y (S (S n)) + coefficient c 1 * y (S n) + coefficient c 2 * y n
          = coefficient c 3 * u (S (S n)) + coefficient c 4 * u (S n) + coefficient c 5 * u n.

(** unfiltered/filtered force component i after each prefix of a run: n-th value after n updates *)
Definition unfiltered_at (j : jitter) (ws : nat -> R) (i n : nat) : R :=
  u0 (jt_f (jitter_run j (map ws (seq 0 n)))) i.
Definition filtered_at (j : jitter) (ws : nat -> R) (i n : nat) : R :=
  f0 (jt_f (jitter_run j (map ws (seq 0 n)))) i.

(** What wheel k would report if it had a jitter object of its own: [n] wheels built so far *)
Fixpoint own (k n : nat) (j : option jitter) (ops : list factory_op) : option jitter :=
  match ops with
  | [] => j
  | Init c pf pt :: r => own k (S n) (if Nat.eqb n k then Some (jitter_new c pf pt) else j) r
  | FastUpdate i w :: r => own k n (if Nat.eqb i k then option_map (fun x => calc_jitter x w) j else j) r
  end.
