(** What a reaction wheel should do, in mechanical terms. *)
From Coq Require Import Reals List Bool Arith.
From Verif Require Import VecModel WheelModel.
Import ListNotations.
Open Scope R_scope.

(** The torque impulse (component i) given to the spacecraft over a history: every powered step of
    length dt delivers the torque the wheel reports after it. *)
Fixpoint impulse (c : wheel_config) (w : wheel) (ops : list wheel_op) (i : nat) : R :=
  match ops with
  | [] => 0
  | e :: r => (match e with StepOn => rw_torque_b (wheel_do c w e) i * rw_step c | _ => 0 end)
              + impulse c (wheel_do c w e) r i
  end.

(** Symmetric saturation *)
Definition clamp (m x : R) : R := Rmax (- m) (Rmin m x).

(** The response of a first-order lag to inputs u 0, u 1, ... starting from rest: the backward-Euler
    solution of tau dy/dt = u - y. *)
Fixpoint lag_response (dt tau : R) (u : nat -> R) (n : nat) : R :=
  match n with
  | O => 0
  | S k => (tau * lag_response dt tau u k + dt * u k) / (dt + tau)
  end.

(** inputs delayed by d steps *)
Definition delayed (d : nat) (u : nat -> R) (k : nat) : R := if (k <? d)%nat then 0 else u (k - d)%nat.

(** f0 + f1 v + f2 v^2 + ... *)
Fixpoint poly (f : list R) (v : R) : R := match f with [] => 0 | a :: r => a + v * poly r v end.

(** A history in which a driven wheel gets the command u k (in its own axis, rw frame) before its k-th step *)
Fixpoint command_steps (u : nat -> R) (n : nat) : list wheel_op :=
  match n with O => [] | S k => command_steps u k ++ [CommandRw (u k); StepOn] end.
