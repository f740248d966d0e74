(** C87: the reaction wheel. *)
From Coq Require Import Reals Lra Lia List Bool ZArith.
From Verif Require Import RBase VecModel VecProofs QuatModel QuatSpec QuatProofs OdeModel WheelModel WheelSpec WheelProofs.
Import ListNotations.
Open Scope R_scope.

(** Over any history of commands, limits, drive switching, powered and unpowered ticks, the torque
    impulse delivered in the powered steps is exactly the momentum the rotor lost. *)
Theorem C87_momentum_conservation :
  forall (c : wheel_config) (drive : bool) (speed0 : R) (ops : list wheel_op) (i : nat),
    rw_step c <> 0 ->
    let w := wheel_run c (wheel_new c drive speed0) ops in
    impulse c (wheel_new c drive speed0) ops i = - (rw_inertia c * (rw_speed w - speed0) * wheel_axis c i).
Proof.
  intros c d s ops i Hs. cbv zeta. pose proof (conservation c (wheel_new c d s) ops i Hs) as H.
  change (rw_speed (wheel_new c d s)) with s in H. lra.
Qed.
Print Assumptions C87_momentum_conservation.

(** The reported angular momentum is the rotor's once a powered step was made; before, it is zero
    whatever the initial speed. *)
Theorem C87_reported_momentum :
  forall (c : wheel_config) (drive : bool) (speed0 : R) (ops : list wheel_op),
    let w := wheel_run c (wheel_new c drive speed0) ops in
    (In StepOn ops -> forall i, rw_momentum_b w i = rw_inertia c * rw_speed w * wheel_axis c i) /\
    (~ In StepOn ops -> (forall i, rw_momentum_b w i = 0) /\ rw_speed w = speed0).
Proof.
  intros c d s ops. cbv zeta. destruct (momentum_reported c (wheel_new c d s) ops) as [H1 H2]. split; [exact H1|].
  intros N. destruct (H2 N) as [E1 E2]. split; [intros i; rewrite E1; reflexivity|exact E2].
Qed.
Print Assumptions C87_reported_momentum.

(** The axis is a unit vector: the component's z axis in the body frame. *)
Theorem C87_axis :
  forall c : wheel_config, unit 4 (rw_q_b2c c) ->
    unit 3 (wheel_axis c) /\ veq 3 (frame_conversion (rw_q_b2c c) (wheel_axis c)) (v3 0 0 1).
Proof. exact axis_spec. Qed.
Print Assumptions C87_axis.

(** Commands saturate at the maximum torque; a command in the body frame is the opposite one. *)
Theorem C87_command_saturation :
  forall (c : wheel_config) (w : wheel) (t : R), 0 < rw_inertia c -> 0 <= rw_max_torque c ->
    rw_inertia c * rw_target (wheel_do c w (CommandRw t)) = clamp (rw_max_torque c) t /\
    rw_inertia c * rw_target (wheel_do c w (CommandB t)) = - clamp (rw_max_torque c) t.
Proof.
  intros c w t HI HM. cbn [wheel_do]. unfold set_target_torque_b. rewrite !command_saturates by assumption.
  split; [field; lra|].
  replace (rw_inertia c * (clamp (rw_max_torque c) (-1 * t) / rw_inertia c)) with (clamp (rw_max_torque c) (-1 * t)) by (field; lra).
  unfold clamp, Rmax, Rmin. destruct (Rle_dec (rw_max_torque c) (-1 * t)); destruct (Rle_dec (rw_max_torque c) t);
    repeat (destruct (Rle_dec _ _)); lra.
Qed.
Print Assumptions C87_command_saturation.

(** The dead time is rounded up to the next whole number of steps, strictly. *)
Theorem C87_dead_time :
  forall c : wheel_config, 0 < rw_step c -> 0 <= rw_dead c ->
    rw_dead c < INR (wheel_buffer_length c) * rw_step c <= rw_dead c + rw_step c.
Proof. exact buffer_length_bounds. Qed.
Print Assumptions C87_dead_time.

(** A driven wheel that gets the command u k before its k-th step spins up by the saturated commands,
    delayed by the dead time and smoothed by the first-order lag, as long as that keeps it within the
    maximum speed. *)
Theorem C87_command_response :
  forall (c : wheel_config) (u : nat -> R) (speed0 : R) (n : nat),
    0 < rw_step c -> 0 <= rw_tau c -> 0 < rw_inertia c -> 0 <= rw_max_torque c ->
    let y := lag_response (rw_step c) (rw_tau c)
               (delayed (wheel_buffer_length c) (fun k => clamp (rw_max_torque c) (u k) / rw_inertia c)) in
    let predicted k := speed0 + rw_step c * sumn k (fun j => y (S j)) in
    (forall k, (k <= n)%nat -> Rabs (predicted k) <= rw_max_rpm c * rpm_to_rad_s) ->
    rw_speed (wheel_run c (wheel_new c true speed0) (command_steps u n)) = predicted n.
Proof. intros. apply driven_response; assumption. Qed.
Print Assumptions C87_command_response.

(** A constant command t: nothing for the dead time, then exponential approach to the saturated
    torque, never beyond it. *)
Theorem C87_constant_command :
  forall (c : wheel_config) (t : R) (n : nat),
    0 < rw_step c -> 0 <= rw_tau c -> 0 < rw_inertia c -> 0 <= rw_max_torque c ->
    let y := lag_response (rw_step c) (rw_tau c)
               (delayed (wheel_buffer_length c) (fun _ => clamp (rw_max_torque c) t / rw_inertia c)) in
    rw_inertia c * y (wheel_buffer_length c + n)%nat = clamp (rw_max_torque c) t * (1 - (rw_tau c / (rw_step c + rw_tau c)) ^ n) /\
    (forall k, rw_inertia c * Rabs (y k) <= rw_max_torque c).
Proof.
  intros c t n Hs Ht HI HM. cbv zeta. split; [rewrite lag_constant by assumption; field; lra|].
  intros k. pose proof (clamp_bound (rw_max_torque c) t HM) as K.
  assert (HI' : 0 < / rw_inertia c) by (apply Rinv_0_lt_compat, HI).
  assert (Y : Rabs (lag_response (rw_step c) (rw_tau c) (delayed (wheel_buffer_length c) (fun _ => clamp (rw_max_torque c) t / rw_inertia c)) k) <= rw_max_torque c / rw_inertia c).
  { apply lag_bounded; try assumption; [apply Rmult_le_pos; lra|]. intros j. unfold delayed. destruct (j <? _)%nat.
    - rewrite Rabs_R0. apply Rmult_le_pos; lra.
    - unfold Rdiv. rewrite Rabs_mult, (Rabs_pos_eq (/ rw_inertia c)) by lra. apply Rmult_le_compat_r; lra. }
  apply (Rle_trans _ (rw_inertia c * (rw_max_torque c / rw_inertia c))); [apply Rmult_le_compat_l; lra|].
  right. field. lra.
Qed.
Print Assumptions C87_constant_command.

(** Over any history the speed passes the maximum by at most one step of maximum torque (or stays
    below the initial speed), if friction only brakes. *)
Theorem C87_speed_limit :
  forall (c : wheel_config) (drive : bool) (speed0 : R) (ops : list wheel_op),
    0 < rw_step c -> 0 <= rw_tau c -> 0 < rw_inertia c -> 0 <= rw_max_torque c -> 0 <= rw_max_rpm c ->
    (forall v, 0 <= v -> rw_stop c <= v -> 0 <= poly (rw_friction c) v /\ poly (rw_friction c) v * rw_step c <= v) ->
    Rabs (rw_speed (wheel_run c (wheel_new c drive speed0) ops))
      <= Rmax (Rabs speed0) (rw_max_rpm c * rpm_to_rad_s + rw_max_torque c / rw_inertia c * rw_step c).
Proof. exact speed_bound. Qed.
Print Assumptions C87_speed_limit.

(** The limit itself is the requested one, saturated at the maximum speed, of either sign... *)
Theorem C87_limit_setting :
  forall (c : wheel_config) (w : wheel) (l : R), 0 <= rw_max_rpm c ->
    let w' := wheel_do c w (LimitRpm l) in
    rw_limit_rpm w' = clamp (rw_max_rpm c) l /\ rw_ode_limit w' = rw_limit_rpm w' * rpm_to_rad_s /\ rw_speed w' = rw_speed w.
Proof.
  intros c w l HM. cbn. repeat split. unfold clamp, Rmax, Rmin.
  destruct (rlt_spec (rw_max_rpm c) l); [destruct (Rle_dec _ _); destruct (Rle_dec _ _); lra|].
  destruct (rlt_spec l (-1 * rw_max_rpm c)); repeat (destruct (Rle_dec _ _)); lra.
Qed.
Print Assumptions C87_limit_setting.

(** ... and beyond it a driven step does not move the speed further out; a negative limit instead
    acts as a set point: above it the wheel cannot speed up, below it cannot slow down. *)
Theorem C87_beyond_the_limit :
  forall (c : wheel_config) (drive0 : bool) (speed0 : R) (ops : list wheel_op), 0 <= rw_step c ->
    let w := wheel_run c (wheel_new c drive0 speed0) ops in
    rw_drive w = true ->
    (rw_ode_limit w < rw_speed w -> rw_speed (wheel_do c w StepOn) <= rw_speed w) /\
    (rw_speed w <= rw_ode_limit w -> rw_speed w < - rw_ode_limit w -> rw_speed w <= rw_speed (wheel_do c w StepOn)).
Proof.
  intros c d s ops Hs. cbv zeta. set (w := wheel_run _ _ _). intros D.
  destruct (run_consistent c _ ops (consistent_new c d s)) as [CS CW]. fold w in CS, CW.
  cbn [wheel_do]. rewrite calc_driven by exact D. cbn [rw_speed].
  destruct (ode_step_between (rw_ode_limit w) (fst (next_input c w)) (rw_ode w)) as (m & E & B & Z). rewrite E, CS, CW. rewrite CS in Z.
  set (a := fst (next_input c w)) in *. split.
  - intros H. unfold gate in Z. rewrite (rlt_true _ _ H) in Z.
    destruct (rlt_spec 0 a) as [P|P]; [rewrite (Z eq_refl); lra|].
    assert (rw_step c * m <= rw_step c * 0) by (apply Rmult_le_compat_l; [exact Hs|destruct B; lra]). lra.
  - intros H1 H2. unfold gate in Z. rewrite (rlt_false _ _ H1), (rlt_true (rw_speed w)) in Z by lra.
    destruct (rlt_spec a 0) as [P|P]; [rewrite (Z eq_refl); lra|].
    assert (rw_step c * 0 <= rw_step c * m) by (apply Rmult_le_compat_l; [exact Hs|destruct B; lra]). lra.
Qed.
Print Assumptions C87_beyond_the_limit.

(** Coasting: below the stop limit the wheel stops at once; otherwise it loses the friction
    polynomial (constant term first) times the step, for either direction of rotation. *)
Theorem C87_coasting_step :
  forall (c : wheel_config) (drive0 : bool) (speed0 : R) (ops : list wheel_op), 0 <= rw_step c ->
    let w := wheel_run c (wheel_new c drive0 speed0) ops in
    let v := Rabs (rw_speed w) in
    rw_drive w = false -> 0 <= rw_ode_limit w ->
    (v < rw_stop c -> rw_speed (wheel_do c w StepOn) = 0) /\
    (rw_stop c <= v -> 0 <= poly (rw_friction c) v -> poly (rw_friction c) v * rw_step c <= v ->
       Rabs (rw_speed (wheel_do c w StepOn)) = v - rw_step c * poly (rw_friction c) v /\
       0 <= rw_speed (wheel_do c w StepOn) * rw_speed w).
Proof.
  intros c d s ops Hs. cbv zeta. set (w := wheel_run _ _ _). intros D Hl.
  assert (C : consistent c w) by (apply run_consistent, consistent_new).
  cbn [wheel_do]. split; [intros H; apply coast_stop; assumption|].
  intros H1 H2 H3. split; [apply coast_abs; assumption|].
  rewrite coast_exact by assumption. set (f := poly (rw_friction c) (Rabs (rw_speed w))) in *.
  assert (0 <= rw_step c * f) by (apply Rmult_le_pos; assumption).
  destruct (rlt_spec 0 (rw_speed w)) as [P|P].
  - rewrite Rabs_pos_eq in H3 by lra. apply Rmult_le_pos; lra.
  - rewrite Rabs_left1 in H3 by lra.
    replace ((rw_speed w - -1 * (rw_step c * f)) * rw_speed w) with ((- rw_speed w - rw_step c * f) * - rw_speed w) by ring.
    apply Rmult_le_pos; lra.
Qed.
Print Assumptions C87_coasting_step.

(** A coasting wheel whose friction never vanishes comes to rest and stays at rest. *)
Theorem C87_coasting_stops :
  forall (c : wheel_config) (drive0 : bool) (speed0 f0 : R) (ops : list wheel_op),
    0 < rw_step c -> 0 < rw_stop c -> 0 < f0 ->
    (forall v, rw_stop c <= v -> f0 <= poly (rw_friction c) v /\ poly (rw_friction c) v * rw_step c <= v) ->
    let w := wheel_run c (wheel_new c drive0 speed0) ops in
    rw_drive w = false -> 0 <= rw_ode_limit w ->
    exists N, forall n, (N <= n)%nat -> rw_speed (wheel_run c w (repeat StepOn n)) = 0.
Proof.
  intros c d s f0 ops Hs Hst Hf Hp. cbv zeta. intros D Hl.
  apply (coast_down c _ f0); try assumption. apply run_consistent, consistent_new.
Qed.
Print Assumptions C87_coasting_stops.

(** Without power nothing moves: speed, reported momentum and reported torque keep the values of the
    last powered step for as long as the power is off. *)
Theorem C87_unpowered_wheel_is_frozen :
  forall (c : wheel_config) (w : wheel) (n : nat),
    let w' := wheel_run c w (repeat StepOff n) in
    rw_speed w' = rw_speed w /\ rw_momentum_b w' = rw_momentum_b w /\ rw_torque_b w' = rw_torque_b w /\
    ((0 < n)%nat -> rw_drive w' = false).
Proof.
  intros c w n. cbv zeta. revert w. induction n as [|n IH]; intros w; [repeat split; lia|].
  cbn [repeat wheel_run wheel_do]. destruct (IH (power_off w)) as (E1 & E2 & E3 & E4).
  rewrite E1, E2, E3. repeat split. intros _. destruct n; [reflexivity|apply E4; lia].
Qed.
Print Assumptions C87_unpowered_wheel_is_frozen.

(** Switching the drive off clears the delayed commands but not the lag: on restart the first step
    takes up tau/(dt+tau) of the acceleration the wheel had when it was switched off. *)
Theorem C87_restart :
  forall (c : wheel_config) (w : wheel) (n : nat), 0 < rw_step c -> 0 <= rw_tau c -> rw_buffer w <> [] ->
    let w' := wheel_run c w (Drive false :: repeat StepOn (S n) ++ [Drive true; StepOn]) in
    rw_lag w' = rw_tau c / (rw_step c + rw_tau c) * rw_lag w.
Proof.
  intros c w n Hs Ht Hb. cbv zeta. cbn [wheel_run]. rewrite run_app. cbn [wheel_run wheel_do].
  assert (G : forall m x, rw_drive x = false -> rw_buffer x <> [] ->
     rw_lag (wheel_run c x (repeat StepOn (S m))) = rw_lag x /\ hd 0 (rw_buffer (wheel_run c x (repeat StepOn (S m)))) = 0).
  { induction m as [|m IH]; intros x Dx Bx; destruct (coast_members c x Dx) as (D1 & _ & _ & L1 & B1 & _).
    - cbn [repeat wheel_run wheel_do]. rewrite L1, B1. split; [reflexivity|]. destruct (rw_buffer x); reflexivity.
    - change (repeat StepOn (S (S m))) with (StepOn :: repeat StepOn (S m)). cbn [wheel_run]. cbn [wheel_do].
      destruct (IH (calc_torque c x) D1) as [E1 E2]; [rewrite B1; destruct (rw_buffer x); [congruence|discriminate]|].
      rewrite E1, E2. split; [exact L1|reflexivity]. }
  destruct (G n (set_drive w false) eq_refl Hb) as [E1 E2].
  set (x := wheel_run c (set_drive w false) (repeat StepOn (S n))) in *.
  rewrite calc_driven by reflexivity. cbn [rw_lag]. unfold next_input.
  change (rw_lag (set_drive x true)) with (rw_lag x). change (rw_buffer (set_drive x true)) with (rw_buffer x).
  rewrite E1, E2, lag_update_eq by assumption. cbn [snd]. change (rw_lag (set_drive w false)) with (rw_lag w). field. lra.
Qed.
Print Assumptions C87_restart.

(** * Claims of the comments that do not hold *)
Definition sample_wheel (stop : R) : wheel_config :=
  mkWheelConfig (1 / 10) (1 / 10000) (1 / 1000) 6000 (q4 0 0 0 1) 1 2 [1 / 10; 1 / 10] stop.

(** "f_rad_s2 = v * coefficients(0) + v^2 * coefficients(1) + ...": the sum starts at power 0. *)
Theorem C87_documented_friction_law_refuted :
  exists (c : wheel_config) (speed0 : R), 0 < speed0 /\ 0 < rw_stop c < speed0 /\
    let f := poly (rw_friction c) speed0 in
    speed0 * f <> f /\
    rw_speed (wheel_do c (wheel_new c false speed0) StepOn) = speed0 - rw_step c * f.
Proof.
  exists (sample_wheel (1 / 10)), 10. split; [lra|]. split; [cbn; lra|]. cbv zeta. split; [cbn; lra|].
  set (c := sample_wheel (1 / 10)). set (w := wheel_new c false 10).
  assert (E : Rabs (rw_speed w) = 10) by (apply Rabs_pos_eq; cbn; unfold vconst; lra).
  assert (L : 0 <= rw_ode_limit w) by (cbn; unfold rpm_to_rad_s; pose proof PI_RGT_0; lra).
  cbn [wheel_do]. rewrite coast_exact; rewrite ?E; try reflexivity; try exact L; try apply consistent_new; try (cbn; lra).
  change (rw_speed w) with 10. rewrite rlt_true by lra. ring.
Qed.
Print Assumptions C87_documented_friction_law_refuted.

(** With a stop limit of zero friction accelerates a wheel that is at rest. *)
Theorem C87_rest_is_kept_without_stop_limit_refuted :
  exists c : wheel_config, rw_stop c = 0 /\ rw_speed (wheel_new c false 0) = 0 /\
    0 < rw_speed (wheel_do c (wheel_new c false 0) StepOn).
Proof.
  exists (sample_wheel 0). split; [reflexivity|]. split; [reflexivity|]. cbn [wheel_do].
  set (c := sample_wheel 0). set (w := wheel_new c false 0).
  assert (L : rw_ode_limit w = 6000 * rpm_to_rad_s) by reflexivity. pose proof rpm_pos as RP.
  assert (RP2 : 1 <= 6000 * rpm_to_rad_s) by (unfold rpm_to_rad_s; pose proof PI2_3_2; unfold PI2 in *; lra).
  rewrite coast_speed by (reflexivity || apply consistent_new). change (rw_speed w) with 0. rewrite Rabs_R0, L.
  change (rw_stop c) with 0. rewrite !rlt_false by lra.
  rewrite ode_step_exact; change (state (rw_ode w) 0%nat) with 0; change (step_width (rw_ode w)) with (1 / 10); cbn [c sample_wheel rw_friction poly].
  - lra.
  - apply gate_inside. lra.
  - apply gate_inside. lra.
  - apply gate_inside. lra.
Qed.
Print Assumptions C87_rest_is_kept_without_stop_limit_refuted.

(** * The hypotheses are met *)
Example C87_example_friction : forall v, rw_stop (sample_wheel (1 / 10)) <= v ->
  1 / 10 <= poly (rw_friction (sample_wheel (1 / 10))) v /\ poly (rw_friction (sample_wheel (1 / 10))) v * rw_step (sample_wheel (1 / 10)) <= v.
Proof. intros v H. cbn in *. lra. Qed.
Example C87_example_stops : exists N, forall n, (N <= n)%nat ->
  rw_speed (wheel_run (sample_wheel (1 / 10)) (wheel_new (sample_wheel (1 / 10)) false (-300)) (repeat StepOn n)) = 0.
Proof.
  apply (C87_coasting_stops (sample_wheel (1 / 10)) false (-300) (1 / 10) []); try (cbn; lra); try reflexivity.
  - apply C87_example_friction.
  - cbn. pose proof rpm_pos. lra.
Qed.
Example C87_example_buffer : wheel_buffer_length (sample_wheel (1 / 10)) = 11%nat.
Proof.
  unfold wheel_buffer_length. cbn [rw_dead rw_step sample_wheel]. replace (1 / (1 / 10)) with (IZR 10) by lra.
  unfold Int_part. replace (up (IZR 10)) with 11%Z; [reflexivity|]. apply tech_up; lra.
Qed.
