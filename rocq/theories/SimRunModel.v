(** Model of a whole run: src/simulation/case/simulation_case.cpp (SC), src/environment/global/global_environment.cpp
    (GE), src/environment/global/clock_generator.cpp (CG), src/components/base/component.cpp (CO) and, for what is updated, the sample
    case example/src/simulation/case/sample_case.cpp (SA).  The spacecraft step is [spacecraft_update] of
    SpacecraftModel, the time step [update_time] of SimTimeModel (exact arithmetic, simulation speed 0). *)
From Coq Require Import Reals List ZArith Bool.
From Verif Require Import Base RBase VecModel QuatModel OrbitModel DisturbanceModel SimTimeModel ClockModel SpacecraftModel.
Import ListNotations.
Open Scope R_scope.

Notation stime_R := (SimTimeModel.stime real_arith).
Notation params_R := (SimTimeModel.params real_arith).

Section run.
(** G: celestial information and GNSS satellites; AT OB TH ENV X as in SpacecraftModel; C: the state of all components;
    S_: the ground station *)
Context {G AT OB TH ENV C X S_ : Type}.
Context (p : params_R) (start_jd : R).
(** CelestialInformation::UpdateAllObjectsInformation and GnssSatellites::Update, from the time in seconds and the Julian day *)
Context (global_update : R -> R -> G -> G).
Context (att_propagate : R -> vec -> AT -> AT) (quaternion : AT -> quat)
  (orb_propagate : G -> R -> R -> vec -> OB -> OB) (by_attitude : quat -> OB -> OB)
  (thermal_propagate : ENV -> R -> TH -> TH)
  (env_update : G -> time_info -> OB -> AT -> ENV -> ENV)
  (generate_torque : C -> vec * C) (generate_force : C -> vec * C) (mass : C -> R).
(** the components: attributes, GetIsOn of the power port, MainRoutine, FastUpdate, PowerOffRoutine, ComponentInterference.
    The routines read time, environment and dynamics. *)
Context (attr : nat -> attrs) (is_on : C -> nat -> bool)
  (main_routine : G -> time_info -> OB -> AT -> ENV -> nat -> Z -> C -> C)
  (fast_update : G -> time_info -> OB -> AT -> ENV -> nat -> C -> C)
  (power_off : nat -> C -> C) (interference : C -> C).
(** GroundStation::Update and GroundStationCalculator::Update *)
Context (station_update : G -> OB -> AT -> C -> S_ -> S_).

(** the component states with the clock generator they are registered at (CG: components_, timer_count_), and the list of the
    routines called in the last UpdateComponents, a history variable *)
Record crew : Type := mkCrew { clk : clock; cstate : C; called : list (nat * event) }.

Section one_tick.
Context (g : G) (t : time_info) (o : OB) (a : AT) (e : ENV) (k : Z).
(** CO 37-44 *)
Definition do_tick (id : nat) (c : C) : C * list (nat * event) :=
  if (0 <? k mod checked_prescaler (prescaler (attr id)))%Z then (c, [])
  else if is_on c id then (main_routine g t o a e id k c, [(id, Main k)])
  else (power_off id c, [(id, PowerOff)]).
(** CO 46-53 *)
Definition do_fast_tick (id : nat) (c : C) : C * list (nat * event) :=
  if (0 <? k mod checked_prescaler (fast_prescaler (attr id)))%Z then (c, [])
  else if is_on c id then (fast_update g t o a e id c, [(id, Fast)])
  else (power_off id c, [(id, PowerOff)]).
(** CG 27-34.  Simplification: the routines do not register or remove components. *)
Fixpoint tick_list (ids : list nat) (c : C) : C * list (nat * event) :=
  match ids with
  | [] => (c, [])
  | id :: rest =>
      let (c1, e1) := do_tick id c in
      let (c2, e2) := if needs_fast (attr id) then do_fast_tick id c1 else (c1, []) in
      let (c3, e3) := tick_list rest c2 in
      (c3, e1 ++ e2 ++ e3)
  end.
End one_tick.

(** CG 25-42 and spacecraft.cpp 62-64.  An uninitialised counter is read as [None]; the run below starts with it cleared
    (spacecraft.cpp 34). *)
Definition crew_update (g : G) (t : time_info) (o : OB) (a : AT) (e : ENV) (w : crew) : crew :=
  if comp_flag t then
    match count (clk w) with
    | None => w
    | Some k =>
        let (c, evs) := tick_list g t o a e k (ClockModel.comps (clk w)) (cstate w) in
        mkCrew (mkClock (ClockModel.comps (clk w)) (Some ((k + 1) mod 2 ^ 32)%Z)) (interference c) evs
    end
  else mkCrew (clk w) (interference (cstate w)) [].

Definition craft : Type := spacecraft AT OB TH ENV crew X.
Definition lift_gen (f : C -> vec * C) (w : crew) : vec * crew :=
  let (v, c) := f (cstate w) in (v, mkCrew (clk w) c (called w)).

(** all the run changes *)
Record world : Type := mkWorld { tm : stime_R; glob : G; sat : craft; station : S_ }.

(** what Spacecraft::Update reads of SimulationTime (simulation_time.cpp 136: current_jd_) *)
Definition time_of (s : stime_R) : time_info :=
  mkTime (elapsed _ s) (start_jd + elapsed _ s / 86400) (SimTimeModel.att_flag _ s) (SimTimeModel.orb_flag _ s)
    (SimTimeModel.thm_flag _ s) (SimTimeModel.cmp_flag _ s).

Definition craft_update (g : G) (s : stime_R) (x : craft) : craft :=
  spacecraft_update att_propagate quaternion (orb_propagate g) by_attitude thermal_propagate (env_update g) (crew_update g)
    (lift_gen generate_torque) (lift_gen generate_force) (fun w => mass (cstate w)) (time_of s) x.

(** SC 62-65: GE 40-44 then SA 30-35 *)
Definition world_step (w : world) : world :=
  let s := update_time p None (tm w) in
  let g := global_update (elapsed _ s) (start_jd + elapsed _ s / 86400) (glob w) in
  let x := craft_update g s (sat w) in
  mkWorld s g x (station_update g (orbit x) (attitude x) (cstate (comps x)) (station w)).

(** SC 54-74: the rows written to the log (what the objects hold when WriteValues is called) and the final world *)
Fixpoint main_run (fuel : nat) (w : world) : outcome (list world * world) :=
  match fuel with
  | O => Hang
  | S fuel' =>
      if finish _ (tm w) then Ok ([], w) else
      let l := if log_output _ (tm w) then [w] else [] in
      let! r := main_run fuel' (world_step w) in
      Ok (l ++ fst r, snd r)
  end.
End run.
Arguments crew : clear implicits.
Arguments world : clear implicits.
Arguments craft : clear implicits.
