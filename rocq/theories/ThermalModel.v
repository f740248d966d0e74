(** Model of src/dynamics/thermal: heater.cpp, heater_controller.cpp, heatload.cpp, temperature.cpp
    and the solar part of node.cpp.  Doubles are real numbers. *)
From Coq Require Import Reals Lra Lia List Bool ZArith.
From Verif Require Import Base RBase VecModel SensorModel.
Import ListNotations.
Open Scope R_scope.

(** heater.hpp:86-89 *)
Record heater : Type := mkHeater { rating : R; is_on : bool; output : R }.
(** heater.cpp:10-14, 42-47: a negative rating becomes 0; starts switched off *)
Definition heater_new (p : R) : heater := mkHeater (if rlt p 0 then 0 else p) false 0.
(** heater.cpp:18-25 *)
Definition set_status (h : heater) (on : bool) : heater := mkHeater (rating h) on (if on then rating h else 0).

(** heater_controller.hpp: thresholds; heater_controller.cpp:9-12, 29-36 *)
Record controller : Type := mkController { lower : R; upper : R }.
Definition controller_new (lo up : R) : controller := mkController lo (if rlt up lo then lo + 10 else up).
(** heater_controller.cpp:16-27 *)
Definition control (c : controller) (h : heater) (t : R) : heater :=
  if is_on h then (if rlt (upper c) t then set_status h false else h)
  else (if rlt t (lower c) then set_status h true else h).
(** one call of ControlHeater per temperature *)
Definition control_run (c : controller) (h : heater) (temps : list R) : heater := fold_left (control c) temps h.

(** fmod(x, p): NaN ([None]) for p = 0 *)
Definition fmod (x p : R) : option R := if req p 0 then None else Some (x - p * IZR (trunc (x / p))).

(** heatload.hpp:107-121, the members that matter for the internal heat load *)
Record heatload : Type := mkLoad { times : list R; watts : list R; idx : nat; residual : option R }.
(** heatload.cpp:12-28 with its assertions (56-62): [Throw] stands for a failed assertion *)
Definition heatload_new (ts ws : list R) : outcome heatload :=
  match ts, ws with
  | [], _ => Throw
  | _, [] => Throw
  | _, _ => if Nat.eqb (length ts) (length ws) then Ok (mkLoad ts ws 0 (fmod 0 (last ts 0))) else Throw
  end.
(** heatload.cpp:49-53.  A read outside the table is undefined behaviour; comparing NaN is false. *)
Fixpoint index_loop (fuel : nat) (ts : list R) (r : option R) (i : nat) : outcome nat :=
  match fuel with
  | O => Hang
  | S f =>
      match nth_error ts (S i) with
      | None => UB
      | Some t =>
          if match r with Some x => rlt t x | None => false end
          then index_loop f ts r (if Nat.ltb (length ts - 1) (S i) then 0 else S i)
          else Ok i
      end
  end.
(** heatload.cpp:45-54 *)
Definition set_elapsed (h : heatload) (t : R) : outcome heatload :=
  let r := fmod t (last (times h) 0) in
  let! i := index_loop (S (length (times h))) (times h) r (idx h) in
  Ok (mkLoad (times h) (watts h) i r).
(** heatload.cpp:32-43: [Ok None] is NaN (also when the two times of the segment coincide, where the
    code divides by zero: inf or NaN) *)
Definition internal_load (h : heatload) : outcome (option R) :=
  match nth_error (times h) (idx h), nth_error (times h) (S (idx h)),
        nth_error (watts h) (idx h), nth_error (watts h) (S (idx h)) with
  | Some t0, Some t1, Some w0, Some w1 =>
      Ok (match residual h with
          | Some r => if req (t1 - t0) 0 then None else Some (w0 + (r - t0) / (t1 - t0) * (w1 - w0))
          | None => None
          end)
  | _, _, _, _ => UB
  end.
Fixpoint elapsed_run (h : heatload) (ts : list R) : outcome heatload :=
  match ts with
  | [] => Ok h
  | t :: tl => let! h1 := set_elapsed h t in elapsed_run h1 tl
  end.

(** node.cpp:37-46 *)
Definition solar_radiation (sun_direction normal : vec) (flux area alpha : R) : R :=
  let c := dot 3 sun_direction normal in
  if rlt 0 c then flux * area * alpha * c else 0.

(** node.hpp:21-25 *)
Inductive node_type : Type := Diffusive | Boundary | Arithmetic.

(** temperature.hpp:58-80.  Matrices and node attributes are functions of the node number. *)
Record network : Type := mkNetwork {
  node_num : nat; ntype : nat -> node_type; capacity : nat -> R; heater_id : nat -> nat;
  conductance : mat; radiation : mat }.
(** environment/global/physical_constants.hpp *)
Definition stefan_boltzmann : R := 5670374419 / 10 ^ 17.

(** temperature.cpp:163-170: conductive and radiative heat input of node i at node temperatures T *)
Definition exchange (net : network) (T : vec) (i : nat) : R :=
  sumn (node_num net) (fun j => conductance net i j * (T j - T i))
  + sumn (node_num net) (fun j => stefan_boltzmann * radiation net i j * (T j ^ 4 - T i ^ 4)).

Section step.
(** The heat loads of the nodes (solar, albedo, infrared, heater and internal, lines 147-160) are
    the result of a function of the time with a state of its own (Heatload remembers a table index):
    [load s t] is the total load of every node at time t. *)
Context {S : Type} (load : S -> R -> vec * S).
Variable net : network.

(** temperature.cpp:139-181.  The argument temperatures_K is unused ([stage]); the node temperatures
    stored in the object ([T]) are used instead.  The result vector is zero-initialised. *)
Definition differentials (s : S) (T stage : vec) (t : R) : vec * S :=
  let (q, s') := load s t in
  (fun i => match ntype net i with
            | Diffusive => (exchange net T i + q i) / capacity net i
            | Boundary => 0
            | Arithmetic => 0
            end, s').
(** temperature.cpp:102-137 *)
Definition runge_one_step (s : S) (T : vec) (t h : R) : vec * S :=
  let (k1, s1) := differentials s T T t in
  let (k2, s2) := differentials s1 T (vadd T (vscal (h / 2) k1)) (t + h / 2) in
  let (k3, s3) := differentials s2 T (vadd T (vscal (h / 2) k2)) (t + h / 2) in
  let (k4, s4) := differentials s3 T (vadd T (vscal h k3)) (t + h) in
  (fun i => T i + h / 6 * (k1 i + 2 * k2 i + 2 * k3 i + k4 i), s4).
(** temperature.cpp:57-60: the loop; state (heat loads, temperatures, propagation time) *)
Fixpoint propagate_loop (fuel : nat) (step tend : R) (s : S) (T : vec) (t : R) : outcome (S * vec * R) :=
  match fuel with
  | O => Hang
  | Datatypes.S f =>
      if rlt (1 / 10 ^ 6) (tend - t - step)
      then let (T', s') := runge_one_step s T t step in propagate_loop f step tend s' T' (t + step)
      else Ok (s, T, t)
  end.
(** temperature.cpp:55-63 without the heater update *)
Definition propagate (fuel : nat) (enabled : bool) (step tend : R) (s : S) (T : vec) (t : R) : outcome (S * vec * R) :=
  if enabled then
    let! (s1, T1, t1) := propagate_loop fuel step tend s T t in
    let (T2, s2) := runge_one_step s1 T1 t1 (tend - t1) in
    Ok (s2, T2, tend)
  else Ok (s, T, t).
End step.

(** temperature.cpp:183-190: [heaters_[id - 1]], undefined beyond the end *)
Definition heater_power (net : network) (hs : list heater) (i : nat) : outcome R :=
  match heater_id net i with
  | O => Ok 0
  | S k => match nth_error hs k with Some h => Ok (output h) | None => UB end
  end.
Fixpoint set_nth {A} (k : nat) (a : A) (l : list A) : list A :=
  match l, k with
  | [], _ => []
  | _ :: t, O => a :: t
  | x :: t, S k' => x :: set_nth k' a t
  end.
(** temperature.cpp:192-201; K2degC(T) = T - 273.15 *)
Fixpoint update_heaters (net : network) (cs : list controller) (T : vec) (nodes : list nat) (hs : list heater)
  : outcome (list heater) :=
  match nodes with
  | [] => Ok hs
  | i :: tl =>
      match heater_id net i with
      | O => update_heaters net cs T tl hs
      | S k => match nth_error hs k, nth_error cs k with
               | Some h, Some c => update_heaters net cs T tl (set_nth k (control c h (T i - 27315 / 100)) hs)
               | _, _ => UB
               end
      end
  end.
