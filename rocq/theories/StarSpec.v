(** What a star sensor delivers. *)
From Coq Require Import Reals List Bool Arith.
From Verif Require Import VecModel QuatModel StarModel.
Open Scope R_scope.

(** Index of the measurement whose value a sensor with delay d and buffer of m entries delivers at
    measurement k (None: the initial identity quaternion), for a ring buffer whose wrap-around is
    resolved to its last entry *)
Definition delivered (d m k : nat) : option nat :=
  let p := (S k mod m)%nat in
  if (d <? p)%nat then Some (k - d)%nat
  else if (p <=? k)%nat then Some (k - p)%nat
  else None.

(** The half line from the origin along the unit vector u meets the ball around p of radius r *)
Definition ray_hits_ball (u p : vec) (r : R) : Prop := exists t, 0 <= t /\ norm 3 (vsub (vscal t u) p) <= r.

(** The value of such a source: identity before the first one *)
Definition value_of (c : star_config) (input : nat -> star_input) (o : option nat) : quat :=
  match o with Some t => star_value c (input t) | None => q_identity end.
