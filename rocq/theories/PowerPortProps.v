(** C10: power port. *)
From Coq Require Import Reals List Lra.
From Verif Require Import Base PowerPortModel PowerPortProofs.
Import ListNotations.
Open Scope R_scope.

(** C10: what applying a voltage does, in any state. *)
Theorem C10_set_voltage : forall s v, DBL_EPSILON < min_V s -> DBL_EPSILON < limit_A s ->
  let s' := fst (set_voltage s v) in
  (is_on s' = Some (snd (set_voltage s v))) /\
  limit_A s' = limit_A s /\ min_V s' = min_V s /\ power_W s' = power_W s /\
  (snd (set_voltage s v) = true <->
     min_V s - DBL_EPSILON <= v /\ power_W s / v < limit_A s - DBL_EPSILON) /\
  (snd (set_voltage s v) = true ->
     voltage_V s' = v /\ current_A s' * voltage_V s' = power_W s /\
     current_A s' < limit_A s - DBL_EPSILON) /\
  (snd (set_voltage s v) = false ->
     current_A s' = 0 /\
     voltage_V s' = if Rle_dec (min_V s - DBL_EPSILON) v then 0 else v).
Proof. exact set_voltage_char. Qed.
Print Assumptions C10_set_voltage.

(** C10: a port that is off draws no current, after every history. *)
Theorem C10_off_draws_no_current : forall s ops,
  (is_on s = Some false -> current_A s = 0) ->
  is_on (prun s ops) = Some false -> current_A (prun s ops) = 0.
Proof. exact (fun s ops => prun_off ops s). Qed.
Print Assumptions C10_off_draws_no_current.

(** C10: over-current trips the port and it stays off, at 0 V, whatever follows except a
    new SetVoltage (or a minimum voltage set to practically zero). *)
Theorem C10_over_current_latches : forall s v ops,
  DBL_EPSILON < min_V s -> DBL_EPSILON < limit_A s ->
  min_V s - DBL_EPSILON <= v -> limit_A s - DBL_EPSILON <= power_W s / v ->
  Forall keeps_latch ops ->
  let s' := prun s (SetVoltage v :: ops) in
  is_on s' = Some false /\ voltage_V s' = 0 /\ current_A s' = 0.
Proof. exact overcurrent_latches. Qed.
Print Assumptions C10_over_current_latches.

(** C10: consumption never becomes negative by subtraction; histories keep it >= 0. *)
Theorem C10_consumption_non_negative : forall s ops,
  0 <= power_W s -> Forall nonneg_args ops -> 0 <= power_W (prun s ops).
Proof. exact (fun s ops => prun_power_nonneg ops s). Qed.
Print Assumptions C10_consumption_non_negative.

Theorem C10_subtract_consumption : forall s p,
  0 <= power_W (subtract_power s p) /\
  (p <= power_W s -> power_W (subtract_power s p) = power_W s - p).
Proof. exact (fun s p => conj (subtract_nonneg s p) (subtract_exact s p)). Qed.
Print Assumptions C10_subtract_consumption.

(** C10: the switch state is readable once a voltage has been applied ... *)
Theorem C10_switch_state_defined : forall s ops,
  (exists b, is_on s = Some b) \/ Exists is_update ops -> exists b, is_on (prun s ops) = Some b.
Proof. exact (fun s ops => prun_defined ops s). Qed.
Print Assumptions C10_switch_state_defined.

(** ... but before that, on a port built with an id, reading it is undefined. *)
Theorem C10_switch_state_initialised_refuted : forall limit minv p ops,
  ~ Exists is_update ops -> get_is_on (prun (port_full limit minv p) ops) = UB.
Proof. exact is_on_uninit. Qed.
Print Assumptions C10_switch_state_initialised_refuted.

(** Non-vacuity: 5 V on a 1 A port with 4 W works, with 6 W it trips. *)
Lemma eps_small : DBL_EPSILON < 1 / 1000.
Proof. unfold DBL_EPSILON. apply Rmult_lt_reg_l with (2 ^ 52); [apply pow_lt; lra|].
  rewrite Rinv_r by (apply pow_nonzero; lra). simpl. lra. Qed.
Example ex_on : snd (set_voltage (port_full 1 (33/10) 4) 5) = true.
Proof.
  pose proof eps_small. pose proof eps_pos.
  apply (proj2 (proj1 (proj2 (proj2 (proj2 (proj2 (set_voltage_char (port_full 1 (33/10) 4) 5
    ltac:(cbn; lra) ltac:(cbn; lra)))))))).
  cbn. lra.
Qed.
Example ex_trip : DBL_EPSILON < min_V (port_full 1 (33/10) 6) /\ DBL_EPSILON < limit_A (port_full 1 (33/10) 6)
  /\ min_V (port_full 1 (33/10) 6) - DBL_EPSILON <= 5
  /\ limit_A (port_full 1 (33/10) 6) - DBL_EPSILON <= power_W (port_full 1 (33/10) 6) / 5
  /\ Forall keeps_latch [Update; SetPower 1; Update].
Proof. pose proof eps_small. pose proof eps_pos. cbn. repeat split; try lra. repeat constructor. Qed.
