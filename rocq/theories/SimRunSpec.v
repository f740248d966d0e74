(** Specification of a whole run. *)
From Coq Require Import List ZArith Bool Arith Reals.
From Verif Require Import ClockModel.
Import ListNotations.

(** the updates 1 <= m < n in which something with a period of k steps is due: k divides m+1 *)
Definition due_before (k : Z) (n : nat) : Z :=
  Z.of_nat (List.length (filter (fun m => (Z.of_nat m + 1) mod k =? 0)%Z (seq 1 (n - 1)))).

(** what one component is asked to do at count k, when its power port is on or not at the moment the main routine
    ([on1]) and the fast routine ([on2]) are due *)
Definition asked (a : attrs) (on1 on2 : bool) (k : Z) : list event :=
  (if k mod Z.max 1 (prescaler a) =? 0 then [if on1 then Main k else PowerOff] else [])%Z ++
  (if needs_fast a && (k mod Z.max 1 (fast_prescaler a) =? 0)%Z then [if on2 then Fast else PowerOff] else []).
