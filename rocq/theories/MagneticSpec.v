(** What magnetorquers and the interference on magnetometers should do. *)
From Coq Require Import Reals List Bool Arith.
From Verif Require Import RBase VecModel MagneticModel.
Import ListNotations.
Open Scope R_scope.

(** Restriction of x to the interval [lo, hi] *)
Definition restrict (lo hi x : R) : R := Rmin hi (Rmax lo x).

(** No scale error, no bias, no noise *)
Definition ideal_mtq (c : mtq_config) : Prop :=
  mq_scale c = mident /\ (forall i, mq_bias c i = 0) /\ (forall i k, mq_noise c i k = 0) /\ (forall i k, mq_walk_draws c i k = 0).
(** Nothing but a constant bias *)
Definition biased_mtq (c : mtq_config) : Prop :=
  mq_scale c = mident /\ (forall i k, mq_noise c i k = 0) /\ (forall i k, mq_walk_draws c i k = 0).
(** Nothing but a constant scale factor per axis *)
Definition scaled_mtq (c : mtq_config) (s : vec) : Prop :=
  (mq_scale c = fun i j => if Nat.eqb i j then s i else 0) /\
  (forall i, mq_bias c i = 0) /\ (forall i k, mq_noise c i k = 0) /\ (forall i k, mq_walk_draws c i k = 0).

(** the number of steps in a history *)
Fixpoint mtq_steps (es : list mtq_op) : nat :=
  match es with [] => O | MtqStep _ :: r => S (mtq_steps r) | _ :: r => mtq_steps r end.

(** Bias vector produced by a moment: sum over the degrees d >= 1 of A_d (m_x^d, m_y^d, m_z^d) *)
Definition polynomial_bias (coefs : list mat) (m : vec) : vec := fun i =>
  sumn (length coefs) (fun d => sumn 3 (fun j => nth d coefs (fun _ _ => 0) i j * m j ^ S d)).

(** The moment object i saw at its last update in a history, if any *)
Fixpoint last_moment (i : nat) (es : list bias_op) (acc : option vec) : option vec :=
  match es with
  | [] => acc
  | Interfere j m :: r => last_moment i r (if Nat.eqb j i then Some m else acc)
  | _ :: r => last_moment i r acc
  end.
Definition present_bias (coefs : nat -> list mat) (i : nat) (es : list bias_op) : vec :=
  match last_moment i es None with Some m => polynomial_bias (coefs i) m | None => fun _ => 0 end.

(** The biases added by the user *)
Fixpoint added (es : list bias_op) (k : nat) : R :=
  match es with [] => 0 | AddBias b :: r => b k + added r k | _ :: r => added r k end.

Definition sets_bias (e : bias_op) : Prop := match e with SetBias _ => True | _ => False end.
Definition uses (n : nat) (e : bias_op) : Prop := match e with Interfere i _ => (i < n)%nat | _ => True end.
