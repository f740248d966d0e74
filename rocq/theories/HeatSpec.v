(** Histories of a thermal network, and the step widths its explicit integration can bear. *)
From Coq Require Import Reals List Arith.
From Verif Require Import Base RBase VecModel ThermalModel.
Import ListNotations.
Open Scope R_scope.

(** successive calls of Propagate: the end time, and the state of the heat loads (heaters, solar input ...) at the call *)
Fixpoint thermal_run {S : Type} (load : S -> R -> vec * S) (net : network) (fuel : nat) (step : R) (T : vec) (t : R) (calls : list (R * S)) : outcome (vec * R) :=
  match calls with
  | [] => Ok (T, t)
  | (tend, s) :: l => let! (s', T', t') := propagate load net fuel true step tend s T t in thermal_run load net fuel step T' t' l
  end.
Fixpoint in_order {S : Type} (t : R) (calls : list (R * S)) : Prop := match calls with [] => True | (tend, _) :: l => t <= tend /\ in_order tend l end.
Fixpoint last_time {S : Type} (t : R) (calls : list (R * S)) : R := match calls with [] => t | (tend, _) :: l => last_time tend l end.

(** sum over the other nodes *)
Definition others (n : nat) (i : nat) (f : nat -> R) : R := sumn n (fun j => if Nat.eqb j i then 0 else f j).
(** heat flows from hot to cold, and what stores heat has a positive capacity *)
Definition passive (net : network) : Prop := forall i, (i < node_num net)%nat ->
  (ntype net i = Diffusive -> 0 < capacity net i) /\
  forall j, (j < node_num net)%nat -> i <> j -> 0 <= conductance net i j /\ 0 <= radiation net i j.
(** a step of width h moves no node with temperatures up to B past the others *)
Definition mild_step (net : network) (h B : R) : Prop := forall i, (i < node_num net)%nat -> ntype net i = Diffusive ->
  h * (others (node_num net) i (conductance net i) + 4 * stefan_boltzmann * B ^ 3 * others (node_num net) i (radiation net i)) <= capacity net i.
(** every heat load that occurs warms its node by a rate (K/s) between - q1 and q2 *)
Definition loads_within {S : Type} (load : S -> R -> vec * S) (net : network) (q1 q2 : R) : Prop := forall s t i, (i < node_num net)%nat -> ntype net i = Diffusive ->
  - q1 * capacity net i <= fst (load s t) i <= q2 * capacity net i.
