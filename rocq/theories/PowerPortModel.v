(** Model of src/components/ports/power_port.cpp (doubles as real numbers). *)
From Coq Require Import Reals List.
From Verif Require Import Base.
Import ListNotations.
Open Scope R_scope.

(** <cfloat> DBL_EPSILON = 2^-52 *)
Definition DBL_EPSILON : R := / 2 ^ 52.

(** power_port.hpp:121-129.  [is_on] is [None] while the member is uninitialised. *)
Record port : Type := mkPort {
  limit_A : R; min_V : R; power_W : R; voltage_V : R; current_A : R; is_on : option bool }.

(** power_port.cpp:14-17 (default constructor), 34-38 *)
Definition port_default : port := mkPort 10 (33/10) 0 0 0 (Some true).
(** power_port.cpp:19-22: is_on_ is not initialised *)
Definition port_id_limit (limit : R) : port := mkPort limit (33/10) 0 0 0 None.
(** power_port.cpp:24-30: is_on_ is not initialised *)
Definition port_full (limit minv p : R) : port := mkPort limit minv p 0 0 None.

Definition Rgeb (a b : R) : bool := if Rle_dec b a then true else false.
Definition Rltb (a b : R) : bool := if Rlt_dec a b then true else false.

(** power_port.cpp:40-56.  A division by a zero voltage (possible only when
    minimum_voltage <= DBL_EPSILON) is inf/NaN in the code and unspecified here; the
    theorems assume minimum_voltage > DBL_EPSILON. *)
Definition update (s : port) : port * bool :=
  let s1 :=
    if Rgeb (voltage_V s) (min_V s - DBL_EPSILON)
    then mkPort (limit_A s) (min_V s) (power_W s) (voltage_V s) (power_W s / voltage_V s) (Some true)
    else mkPort (limit_A s) (min_V s) (power_W s) (voltage_V s) 0 (Some false) in
  let s2 :=
    if Rgeb (current_A s1) (limit_A s1 - DBL_EPSILON)
    then mkPort (limit_A s1) (min_V s1) (power_W s1) 0 0 (Some false)
    else s1 in
  (s2, match is_on s2 with Some b => b | None => false end).

(** power_port.cpp:58-62 *)
Definition set_voltage (s : port) (v : R) : port * bool :=
  update (mkPort (limit_A s) (min_V s) (power_W s) v (current_A s) (is_on s)).

(** power_port.hpp:89-106 *)
Definition set_power (s : port) (p : R) : port :=
  mkPort (limit_A s) (min_V s) p (voltage_V s) (current_A s) (is_on s).
Definition set_min_voltage (s : port) (m : R) : port :=
  mkPort (limit_A s) m (power_W s) (voltage_V s) (current_A s) (is_on s).
Definition set_limit (s : port) (l : R) : port :=
  mkPort l (min_V s) (power_W s) (voltage_V s) (current_A s) (is_on s).
Definition add_power (s : port) (p : R) : port := set_power s (power_W s + p).
(** power_port.cpp:64-68 *)
Definition subtract_power (s : port) (p : R) : port :=
  set_power s (if Rltb (power_W s - p) 0 then 0 else power_W s - p).

(** power_port.hpp:75: reading an uninitialised bool is undefined behaviour. *)
Definition get_is_on (s : port) : outcome bool :=
  match is_on s with Some b => Ok b | None => UB end.

Inductive pop : Type :=
| SetVoltage (v : R) | Update | SetPower (p : R) | SetMinV (m : R) | SetLimit (l : R)
| AddPower (p : R) | SubPower (p : R).

Definition pstep (s : port) (o : pop) : port :=
  match o with
  | SetVoltage v => fst (set_voltage s v)
  | Update => fst (update s)
  | SetPower p => set_power s p
  | SetMinV m => set_min_voltage s m
  | SetLimit l => set_limit s l
  | AddPower p => add_power s p
  | SubPower p => subtract_power s p
  end.
Definition prun (s : port) (ops : list pop) : port := fold_left pstep ops s.
