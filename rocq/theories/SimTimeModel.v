(** Model of src/environment/global/simulation_time.cpp (SimulationTime) and of the main loop
    of src/simulation/case/simulation_case.cpp. *)
From Coq Require Import List ZArith Bool Reals SpecFloat.
From Verif Require Import Base.
Import ListNotations.

(** The arithmetic the code does on [double]: the model is generic over it and instantiated
    with the real numbers ([real_arith]) and with IEEE binary64 ([double_arith]). *)
Record arith : Type := mkArith {
  num : Type;
  zero : num;
  of_int : Z -> num;           (* double(int) *)
  add : num -> num -> num;
  mul : num -> num -> num;
  geb : num -> num -> bool;
  gtb : num -> num -> bool;
  to_int : num -> Z            (* (int)double *)
}.

Definition R_trunc (x : R) : Z := if Rle_dec 0 x then Int_part x else (- Int_part (- x))%Z.
Definition real_arith : arith :=
  mkArith R 0%R IZR Rplus Rmult
    (fun a b => if Rge_dec a b then true else false)
    (fun a b => if Rgt_dec a b then true else false) R_trunc.

(** Coq's standard library executable IEEE 754 binary64 (round to nearest even). *)
Definition d_of_Z (z : Z) : spec_float := binary_normalize 53 1024 z 0 false.
Definition d_trunc (x : spec_float) : Z :=
  match x with
  | S754_finite s m e =>
      let q := match e with
               | Z0 => Z.pos m
               | Zpos p => (Z.pos m * 2 ^ Z.pos p)%Z
               | Zneg p => (Z.pos m / 2 ^ Z.pos p)%Z
               end in
      if s then (- q)%Z else q
  | _ => 0%Z
  end.
Definition double_arith : arith :=
  mkArith spec_float (S754_zero false) d_of_Z (SFadd 53 1024) (SFmul 53 1024)
    (fun a b => SFleb b a) (fun a b => SFltb b a) d_trunc.

Section Generic.
Variable A : arith.

(** Constructor parameters, simulation_time.cpp 25-43. display_period_ is end/step/100 there;
    it is a parameter here. The Runge-Kutta steps, the start date and the SPICE ephemeris time
    do not influence the modelled state. *)
Record params : Type := mkParams {
  end_sec : num A;
  step_sec : num A;
  attitude_interval : num A;
  orbit_interval : num A;
  thermal_interval : num A;
  component_interval : num A;
  log_interval : num A;
  display_period : num A
}.

(** simulation_time.hpp 262-300 (the counters are int: see C13_counters_bounded). *)
Record stime : Type := mkSt {
  elapsed : num A;
  att_counter : Z; att_flag : bool;
  orb_counter : Z; orb_flag : bool;
  thm_counter : Z; thm_flag : bool;
  cmp_counter : Z; cmp_flag : bool;
  log_counter : Z; log_output : bool;
  disp_counter : Z; disp_output : bool;
  finish : bool;
  running : bool
}.

(** Constructor: InitializeState (231-236) then SetParameters (78-91). *)
Definition st_init : stime :=
  mkSt (zero A) 1 false 1 false 1 false 1 false 0 true 0 false false false.

(** One interval test of UpdateTime, e.g. lines 142-146, given the already incremented counter. *)
Definition interval_test (step interval : num A) (counter : Z) : Z * bool :=
  if geb A (mul A (of_int A counter) step) interval then (0%Z, true) else (counter, false).

(** SimulationTime::UpdateTime, lines 93-178. [catch_up] is what the real-time branch (lines
    96-123) does: [None] when simulation_speed_ <= 0 or the computer keeps up, [Some t] when
    elapsed time is overwritten by the wall clock (line 111). The calendar conversion of lines
    136-139 is not part of this state. *)
Definition update_time (p : params) (catch_up : option (num A)) (s : stime) : stime :=
  let e0 := add A (elapsed s) (step_sec p) in
  let e := match catch_up with Some t => t | None => e0 end in
  let fin := gtb A e (end_sec p) in
  let (ac, af) := interval_test (step_sec p) (attitude_interval p) (att_counter s + 1) in
  let (oc, of_) := interval_test (step_sec p) (orbit_interval p) (orb_counter s + 1) in
  let (tc, tf) := interval_test (step_sec p) (thermal_interval p) (thm_counter s + 1) in
  let (cc, cf) := interval_test (step_sec p) (component_interval p) (cmp_counter s + 1) in
  let (lc, lf) := interval_test (step_sec p) (log_interval p) (log_counter s + 1) in
  let dc := (disp_counter s + 1)%Z in
  let d := geb A (of_int A dc) (display_period p) in
  let dc' := if d then (dc - to_int A (display_period p))%Z else dc in
  mkSt e ac af oc of_ tc tf cc cf lc lf dc' d fin true.

(** State after a list of UpdateTime calls (newest first: each with its wall-clock effect). *)
Fixpoint after (p : params) (calls : list (option (num A))) : stime :=
  match calls with
  | [] => st_init
  | c :: older => update_time p c (after p older)
  end.

(** SimulationCase::Main, simulation_case.cpp 54-74, as the list of events: [Log n]: the log
    row written when n updates have been done, [Update n]: the n-th GlobalEnvironment::Update
    and UpdateTargetObjects. Simulation speed 0 (no wall clock). *)
Inductive main_event : Type := Log (n : nat) | Update (n : nat).
Fixpoint main_loop (p : params) (fuel : nat) (n : nat) (s : stime) : outcome (list main_event) :=
  match fuel with
  | O => Hang
  | S fuel' =>
      if finish s then Ok [] else
      let l := if log_output s then [Log n] else [] in
      let s' := update_time p None s in
      let! r := main_loop p fuel' (S n) s' in
      Ok (l ++ Update (S n) :: r)
  end.
End Generic.

Arguments update_time {A} p catch_up s.
Arguments after {A} p calls.
Arguments main_loop {A} p fuel n s.
Arguments mkParams {A}.
Arguments st_init {A}.
