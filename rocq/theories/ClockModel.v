(** Model of src/components/base/component.cpp and
    src/environment/global/clock_generator.cpp. *)
From Coq Require Import List ZArith Bool.
From Verif Require Import Base.
Import ListNotations.
Open Scope Z_scope.

(** component.cpp:14-15, 22-23: a prescaler of 0 becomes 1 (unsigned int). *)
Definition checked_prescaler (p : Z) : Z := if 0 <? p then p else 1.

(** What a component does when ticked. *)
Inductive event : Type := Main (count : Z) | Fast | PowerOff.

(** component.cpp:37-44; [on] is power_port_->GetIsOn(). *)
Definition tick (prescaler : Z) (on : bool) (count : Z) : list event :=
  if 0 <? count mod prescaler then []
  else if on then [Main count] else [PowerOff].

(** component.cpp:46-53 *)
Definition fast_tick (fast_prescaler : Z) (on : bool) (count : Z) : list event :=
  if 0 <? count mod fast_prescaler then []
  else if on then [Fast] else [PowerOff].

(** Constant attributes of a component; components are identified by a number (their
    address).  [on] may depend on the tick number of the component's power history. *)
Record attrs : Type := mkAttrs {
  prescaler : Z; fast_prescaler : Z; needs_fast : bool }.

(** clock_generator.hpp:62-63.  timer_count_ is an uninitialised unsigned int until
    ClearTimerCount is called: [None]. *)
Record clock : Type := mkClock { comps : list nat; count : option Z }.

Definition clock_new : clock := mkClock [] None.

(** clock_generator.cpp:12 *)
Definition register (c : clock) (id : nat) : clock := mkClock (comps c ++ [id]) (count c).

(** clock_generator.cpp:14-23: erases the first match only. *)
Fixpoint remove_first (l : list nat) (id : nat) : list nat :=
  match l with
  | [] => []
  | x :: l' => if Nat.eqb x id then l' else x :: remove_first l' id
  end.
Definition remove (c : clock) (id : nat) : clock := mkClock (remove_first (comps c) id) (count c).

Section Tick.
Variable attr : nat -> attrs.

(** clock_generator.cpp:27-34 for one component. *)
Definition tick_one (on : nat -> bool) (k : Z) (id : nat) : list (nat * event) :=
  map (pair id)
    (tick (checked_prescaler (prescaler (attr id))) (on id) k ++
     (if needs_fast (attr id)
      then fast_tick (checked_prescaler (fast_prescaler (attr id))) (on id) k else [])).

(** clock_generator.cpp:25-36.  [on] gives the power state of each component at this
    tick.  Reading the uninitialised counter is undefined behaviour.  Simplification:
    the routines called do not themselves (de)register components during the loop. *)
Definition tick_all (on : nat -> bool) (c : clock) : outcome (clock * list (nat * event)) :=
  match count c with
  | None => match comps c with [] => Ok (c, []) | _ => UB end
  | Some k => Ok (mkClock (comps c) (Some ((k + 1) mod 2 ^ 32)),
                  flat_map (tick_one on k) (comps c))
  end.

Inductive cop : Type :=
| Register (id : nat) | Remove (id : nat) | Clear
| UpdateComponents (flag : bool) (on : nat -> bool).

(** clock_generator.cpp:38-42, .hpp:59 *)
Definition cstep (c : clock) (o : cop) : outcome (clock * list (nat * event)) :=
  match o with
  | Register id => Ok (register c id, [])
  | Remove id => Ok (remove c id, [])
  | Clear => Ok (mkClock (comps c) (Some 0), [])
  | UpdateComponents flag on => if flag then tick_all on c else Ok (c, [])
  end.

Fixpoint crun (c : clock) (ops : list cop) : outcome (clock * list (list (nat * event))) :=
  match ops with
  | [] => Ok (c, [])
  | o :: os => let! r := cstep c o in
               let! r' := crun (fst r) os in
               Ok (fst r', snd r :: snd r')
  end.
End Tick.
