(** Model of src/components/real/aocs/reaction_wheel_jitter.cpp and of its use in reaction_wheel.cpp
    (exact reals). *)
From Coq Require Import Reals Lra Lia List Bool ZArith.
From Verif Require Import RBase VecModel QuatModel.
Import ListNotations.
Open Scope R_scope.

(** Constructor arguments, reaction_wheel_jitter.cpp:14-28.  A row of a coefficient file is
    (harmonic number, amplitude); rows with fewer columns (read out of bounds) are not modelled. *)
Record jitter_config : Type := mkJitterConfig {
  jt_force : list (R * R); jt_torque : list (R * R); jt_interval : R; jt_q_b2c : quat;
  jt_frequency : R; jt_damping : R; jt_bandwidth : R; jt_resonance : bool }.

(** one filtered channel (force or torque): unfiltered n, n-1, n-2, filtered n, n-1, n-2 *)
Record channel : Type := mkChannel { u0 : vec; u1 : vec; u2 : vec; f0 : vec; f1 : vec; f2 : vec }.
Definition channel0 : channel := mkChannel (vconst 0) (vconst 0) (vconst 0) (vconst 0) (vconst 0) (vconst 0).

Record jitter : Type := mkJitter {
  jt_config : jitter_config;
  jt_force_phase : list R; jt_torque_phase : list R;
  jt_f : channel; jt_t : channel;
  jt_force_b : vec; jt_torque_b : vec }.

(** reaction_wheel_jitter.cpp:112-127 and 25: the pre-warped frequency times the interval, then the coefficients *)
Definition prewarped (c : jitter_config) : R := 2 / jt_interval c * tan (2 * PI * jt_frequency c * jt_interval c / 2).
Definition coefficient (c : jitter_config) (k : nat) : R :=
  let T := jt_interval c in let w := prewarped c in let z := jt_damping c in let b := jt_bandwidth c in
  match k with
  | 0%nat => 4 + 4 * b * z * T * w + T ^ 2 * w ^ 2
  | 1%nat => -8 + 2 * T ^ 2 * w ^ 2
  | 2%nat => 4 - 4 * b * z * T * w + T ^ 2 * w ^ 2
  | 3%nat => 4 + 4 * z * T * w + T ^ 2 * w ^ 2
  | 4%nat => -8 + 2 * T ^ 2 * w ^ 2
  | _ => 4 - 4 * z * T * w + T ^ 2 * w ^ 2
  end.

(** reaction_wheel_jitter.cpp:29-43: the initial phases are drawn at random; they are arguments here *)
Definition jitter_new (c : jitter_config) (pf pt : list R) : jitter :=
  mkJitter c pf pt channel0 channel0 (vconst 0) (vconst 0).

(** 53-62 and 65-74: the loop over the harmonics; [v] is the vector being accumulated *)
Fixpoint harmonics (h : list (R * R)) (phase : list R) (w T : R) (v : vec) : list R * vec :=
  match h, phase with
  | (n, a) :: h', p :: phase' =>
      let p' := p + n * w * T in
      let v' := v3 (v 0%nat + a * w * w * sin p') (v 1%nat + a * w * w * cos p') (v 2%nat) in
      let (ps, r) := harmonics h' phase' w T v' in (p' :: ps, r)
  | _, _ => ([], v)
  end.

(** 87-98: the difference equation of one component *)
Definition filter_out (c : jitter_config) (ch : channel) : vec := fun i =>
  (- coefficient c 1 * f1 ch i - coefficient c 2 * f2 ch i + coefficient c 3 * u0 ch i + coefficient c 4 * u1 ch i
   + coefficient c 5 * u2 ch i) / coefficient c 0.
(** 85-110: the output of the filter, then ShiftTimeStep *)
Definition filter_step (c : jitter_config) (ch : channel) : channel :=
  let y := filter_out c ch in mkChannel (u0 ch) (u0 ch) (u1 ch) y y (f1 ch).

Definition set_u0 (ch : channel) (u : vec) : channel := mkChannel u (u1 ch) (u2 ch) (f0 ch) (f1 ch) (f2 ch).

(** 47-83 *)
Definition calc_jitter (j : jitter) (w : R) : jitter :=
  let c := jt_config j in
  let (pf, uf) := harmonics (jt_force c) (jt_force_phase j) w (jt_interval c) (vconst 0) in
  let (pt, ut) := harmonics (jt_torque c) (jt_torque_phase j) w (jt_interval c) (vconst 0) in
  let cf := set_u0 (jt_f j) uf in let ct := set_u0 (jt_t j) ut in
  if jt_resonance c then
    let cf := filter_step c cf in let ct := filter_step c ct in
    mkJitter c pf pt cf ct (inverse_frame_conversion (jt_q_b2c c) (f0 cf)) (inverse_frame_conversion (jt_q_b2c c) (f0 ct))
  else mkJitter c pf pt cf ct (inverse_frame_conversion (jt_q_b2c c) (u0 cf)) (inverse_frame_conversion (jt_q_b2c c) (u0 ct)).

Fixpoint jitter_run (j : jitter) (ws : list R) : jitter :=
  match ws with [] => j | w :: r => jitter_run (calc_jitter j w) r end.

(** reaction_wheel.cpp:155-162 (jitter enabled) *)
Definition output_torque (wheel_torque_b position_b : vec) (j : jitter) : vec :=
  vsub (vsub wheel_torque_b (cross position_b (jt_force_b j))) (jt_torque_b j).

(** reaction_wheel.cpp:259, 331, 336-355: InitReactionWheel assigns the one file-level object
    [rw_jitter] and gives the wheel a reference to it.  [shared] is that object; a wheel is known by
    the order of its creation and keeps nothing of its own. *)
Record factory : Type := mkFactory { shared : jitter; built : nat }.
Inductive factory_op : Type :=
| Init (c : jitter_config) (pf pt : list R)   (* InitReactionWheel with this file and these random phases *)
| FastUpdate (k : nat) (w : R).               (* FastUpdate of wheel k turning at w (98-102) *)
Definition factory_do (f : factory) (e : factory_op) : factory :=
  match e with
  | Init c pf pt => mkFactory (jitter_new c pf pt) (S (built f))
  | FastUpdate k w => if (k <? built f)%nat then mkFactory (calc_jitter (shared f) w) (built f) else f
  end.
Fixpoint factory_run (f : factory) (ops : list factory_op) : factory :=
  match ops with [] => f | e :: r => factory_run (factory_do f e) r end.
(** GetJitterForce_b_N of wheel k, 164-171 *)
Definition wheel_jitter_force (f : factory) (k : nat) : vec := jt_force_b (shared f).
