(** What the thermal components are supposed to do, independent of how the code does it. *)
From Coq Require Import Reals List ZArith.
From Verif Require Import RBase VecModel.
Import ListNotations.
Open Scope R_scope.

(** A heater under hysteresis control with thresholds lo <= up: some reading was below lo and no
    later reading was above up. *)
Definition should_heat (lo up : R) (readings : list R) : Prop :=
  exists before t later, readings = before ++ t :: later /\ t < lo /\ Forall (fun x => x <= up) later.

(** r is the time since the start of the current repetition of a profile of that length *)
Definition time_in_period (period t r : R) : Prop :=
  exists k : Z, t = IZR k * period + r /\ 0 <= r < period.

(** a table of points: increasing times, starting at 0 *)
Definition profile (ts ws : list R) : Prop :=
  (2 <= length ts)%nat /\ length ws = length ts /\ nth 0 ts 0 = 0 /\
  (forall i j, (i < j < length ts)%nat -> nth i ts 0 < nth j ts 0).
(** the straight line through points j and j+1 of the table, at r *)
Definition on_segment (ts ws : list R) (j : nat) (r : R) : R :=
  nth j ws 0 + (r - nth j ts 0) / (nth (S j) ts 0 - nth j ts 0) * (nth (S j) ws 0 - nth j ws 0).
(** w is the piecewise linear interpolation of the table at r *)
Definition interpolates (ts ws : list R) (r w : R) : Prop :=
  exists j, (S j < length ts)%nat /\ nth j ts 0 <= r <= nth (S j) ts 0 /\ w = on_segment ts ws j r.

Definition symmetric (n : nat) (a : mat) : Prop := forall i j, (i < n)%nat -> (j < n)%nat -> a i j = a j i.

(** Physics of a lumped network: heat flowing into node i from the other nodes by conduction
    (conductances G) and radiation (exchange areas A), sigma the Stefan-Boltzmann constant. *)
Definition heat_flow (n : nat) (G A : mat) (sigma : R) (T : vec) (i : nat) : R :=
  sumn n (fun j => G i j * (T j - T i) + sigma * A i j * (T j ^ 4 - T i ^ 4)).
(** thermal energy content *)
Definition stored_energy (n : nat) (C T : vec) : R := sumn n (fun i => C i * T i).
