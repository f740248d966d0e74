(** Specification of component scheduling, by histories (newest first). *)
From Coq Require Import List ZArith Bool.
From Verif Require Import ClockModel.
Import ListNotations.
Open Scope Z_scope.

(** Removal of the oldest registration of a component. *)
Fixpoint drop_first (l : list nat) (id : nat) : list nat :=
  match l with
  | [] => []
  | x :: l' => if Nat.eqb x id then l' else x :: drop_first l' id
  end.

(** What one component does at count k: main routine (or power-off routine) at multiples
    of its prescaler, then the fast routine, if enabled, at multiples of the fast one. *)
Definition at_least_1 (p : Z) : Z := Z.max 1 p.
Definition expected (a : attrs) (on : bool) (k : Z) : list event :=
  (if k mod at_least_1 (prescaler a) =? 0 then [if on then Main k else PowerOff] else []) ++
  (if needs_fast a && (k mod at_least_1 (fast_prescaler a) =? 0)
   then [if on then Fast else PowerOff] else []).

(** Registered components, oldest registration first. *)
Fixpoint registered (past : list cop) : list nat :=
  match past with
  | [] => []
  | Register id :: older => registered older ++ [id]
  | Remove id :: older => drop_first (registered older) id
  | _ :: older => registered older
  end.

(** Number of effective updates since the last Clear. *)
Fixpoint ticks_since_clear (past : list cop) : nat :=
  match past with
  | [] => 0
  | Clear :: _ => 0
  | UpdateComponents true _ :: older => S (ticks_since_clear older)
  | _ :: older => ticks_since_clear older
  end.

Definition is_clear (o : cop) : bool := match o with Clear => true | _ => false end.

(** How often [0, n) hits a multiple of p. *)
Definition ceil_div (n p : Z) : Z := (n + p - 1) / p.

