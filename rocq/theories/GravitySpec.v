(** The gravitational potential of a body in spherical harmonics, in textbook terms (fully normalised coefficients), and what
    a gradient is. *)
From Coq Require Import Reals List.
Import ListNotations.
Open Scope R_scope.

(** ** Polynomials: the list of the coefficients, constant term first *)
Fixpoint peval (p : list R) (t : R) : R := match p with [] => 0 | a :: r => a + t * peval r t end.
Fixpoint padd (p q : list R) : list R :=
  match p, q with [], _ => q | _, [] => p | a :: p, b :: q => (a + b) :: padd p q end.
Definition pscal (c : R) (p : list R) : list R := map (Rmult c) p.
(** formal derivative: sum of a_k t^k becomes sum of k a_k t^(k-1) *)
Fixpoint pderiv_from (k : nat) (p : list R) : list R := match p with [] => [] | a :: r => INR k * a :: pderiv_from (S k) r end.
Definition pderiv (p : list R) : list R := pderiv_from 1 (tl p).

(** Legendre polynomials: P_0 = 1, P_1 = t, (k + 2) P_(k+2) = (2 k + 3) t P_(k+1) - (k + 1) P_k.  The pair (P_n, P_(n+1)). *)
Fixpoint legendre_pair (n : nat) : list R * list R :=
  match n with
  | O => ([1], [0; 1])
  | S k => let '(p, q) := legendre_pair k in
           (q, padd (pscal ((2 * INR k + 3) / (INR k + 2)) (0 :: q)) (pscal (- (INR k + 1) / (INR k + 2)) p))
  end.
Definition legendre (n : nat) : list R := fst (legendre_pair n).
(** the m-th derivative of P_n *)
Definition legendre_deriv (n m : nat) : list R := Nat.iter m pderiv (legendre n).

(** factor of the full normalisation *)
Definition norm_factor (n m : nat) : R :=
  sqrt ((match m with O => 1 | _ => 2 end) * (2 * INR n + 1) * INR (fact (n - m)) / INR (fact (n + m))).

(** (x + i y)^m *)
Fixpoint cpow (x y : R) (m : nat) : R * R :=
  match m with O => (1, 0) | S k => let '(a, b) := cpow x y k in (x * a - y * b, x * b + y * a) end.

Definition radius (x y z : R) : R := sqrt (x * x + y * y + z * z).
(** the solid harmonic (R/r)^(n+1) P_n^m(sin latitude) e^(i m longitude), in cartesian coordinates:
    cos(latitude)^m e^(i m longitude) = ((x + i y) / r)^m *)
Definition solid (big_r : R) (n m : nat) (x y z : R) : R * R :=
  let r := radius x y z in
  let k := (big_r / r) ^ (n + 1) * peval (legendre_deriv n m) (z / r) / r ^ m in
  (k * fst (cpow x y m), k * snd (cpow x y m)).

Fixpoint sum_to (n : nat) (f : nat -> R) : R := match n with O => f O | S k => sum_to k f + f n end.
(** potential of degree up to [deg] with normalised coefficients c and s *)
Definition potential (mu big_r : R) (deg : nat) (c s : nat -> nat -> R) (x y z : R) : R :=
  mu / big_r * sum_to deg (fun n => sum_to n (fun m =>
    norm_factor n m * (c n m * fst (solid big_r n m x y z) + s n m * snd (solid big_r n m x y z)))).

(** gradient of a function at a point *)
Definition gradient_at (f : R -> R -> R -> R) (x y z : R) (gx gy gz : R) : Prop :=
  derivable_pt_lim (fun u => f u y z) x gx /\ derivable_pt_lim (fun u => f x u z) y gy /\ derivable_pt_lim (fun u => f x y u) z gz.

(** the associated Legendre function of degree n and order m (without the alternating sign) *)
Definition assoc_legendre (n m : nat) (lat : R) : R := cos lat ^ m * peval (legendre_deriv n m) (sin lat).
(** the same potential in spherical coordinates: the textbook formula *)
Definition potential_spherical (mu big_r : R) (deg : nat) (c s : nat -> nat -> R) (r lat lon : R) : R :=
  mu / r * sum_to deg (fun n => (big_r / r) ^ n * sum_to n (fun m =>
    norm_factor n m * assoc_legendre n m lat * (c n m * cos (INR m * lon) + s n m * sin (INR m * lon)))).

(** a matrix of partial derivatives of three functions *)
Definition jacobian_at (f : nat -> R -> R -> R -> R) (x y z : R) (j : nat -> nat -> R) : Prop :=
  forall i, (i < 3)%nat -> gradient_at (f i) x y z (j i 0%nat) (j i 1%nat) (j i 2%nat).

(** the coefficient (n, m) stored in a file: the last line that gives it; none is zero *)
Fixpoint file_value (lines : list (option (BinInt.Z * BinInt.Z * R * R))) (n m : nat) (sine : bool) (v : R) : R :=
  match lines with
  | Some (i, j, c, s) :: r => file_value r n m sine (if andb (BinInt.Z.eqb i (BinInt.Z.of_nat n)) (BinInt.Z.eqb j (BinInt.Z.of_nat m)) then (if sine then s else c) else v)
  | None :: r => file_value r n m sine v
  | [] => v
  end.

(** coefficients given as an array of rows, and what it means that none is missing *)
Definition coefficient (c : list (list R)) (n m : nat) : R := nth m (nth n c []) 0.
Definition has_coefficients (deg : nat) (c : list (list R)) : Prop := forall n m, (m <= n <= deg)%nat -> (m < length (nth n c []))%nat.
