(** Specification vocabulary for the power components. *)
From Coq Require Import Reals List ZArith.
From Verif Require Import PowerModel.
Import ListNotations.
Open Scope R_scope.

(** The discharge curve as a polynomial: sum of coef_i x^i. *)
Fixpoint polynomial (coef : list R) (x : R) : R :=
  match coef with [] => 0 | c :: t => c + x * polynomial t x end.

(** [v] is the value in force at time t: that of a row with time <= t, no row with time <= t is
    later, and rows with the same time further down the file do not exist. *)
Definition in_force (rows : list (R * R)) (t v : R) : Prop :=
  exists pre k post, rows = pre ++ (k, v) :: post /\ k <= t /\
    (forall k' v', In (k', v') pre -> k' <= t -> k' <= k) /\
    (forall k' v', In (k', v') post -> k' <= t -> k' < k).
(** no row at or before t *)
Definition before_all (rows : list (R * R)) (t : R) : Prop := forall k v, In (k, v) rows -> t < k.

(** Sum of the charge currents that were in force at each update: a [None] keeps the previous. *)
Fixpoint charge_sum (last : R) (currents : list (option R)) : R :=
  match currents with
  | [] => 0
  | c :: t => let i := match c with Some i => i | None => last end in i + charge_sum i t
  end.
