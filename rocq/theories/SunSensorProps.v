(** C95: sun sensor. *)
From Coq Require Import Reals Lra Lia List Bool.
From Verif Require Import RBase VecModel VecProofs QuatModel QuatSpec QuatProofs Trig MagneticProofs SunSensorModel SunSensorProofs.
Import ListNotations.
Open Scope R_scope.

(** The true Sun direction in the component frame: the body-frame direction rotated by the mounting. *)
Definition sun_direction_c (c : sun_sensor_config) (i : sun_input) : vec :=
  mvec 3 (to_dcm (ss_q_b2c c)) (fun k => si_sun_b i k / norm 3 (si_sun_b i)).

Lemma direction_code c i : norm 3 (si_sun_b i) <> 0 ->
  veq 3 (frame_conversion (ss_q_b2c c) (normalize 3 (si_sun_b i))) (sun_direction_c c i).
Proof.
  intros H k Hk. rewrite frame_dcm by exact Hk. unfold sun_direction_c, mvec. apply sumn_ext. intros j Hj. rewrite normalize_pos by exact H. reflexivity.
Qed.
Lemma direction_unit c i : unit 4 (ss_q_b2c c) -> norm 3 (si_sun_b i) <> 0 -> unit 3 (sun_direction_c c i).
Proof.
  intros U H. pose proof (true_unit c (si_sun_b i) U H) as T. pose proof (direction_code c i H) as D. unfold unit, dot in *. rewrite sumn3 in *. rewrite !D in T by lia. exact T.
Qed.

(** The illuminance is the power density times the cosine of the incidence angle, zero from behind. *)
Theorem C95_illuminance :
  forall (c : sun_sensor_config) (s : sun_sensor) (i : sun_input),
    unit 4 (ss_q_b2c c) -> norm 3 (si_sun_b i) <> 0 ->
    ss_illuminance (sun_measure c s i) = si_power i * Rmax 0 (sun_direction_c c i 2%nat) /\
    (0 <= si_power i -> 0 <= ss_illuminance (sun_measure c s i) <= si_power i).
Proof.
  intros c s i U H. assert (E : ss_illuminance (sun_measure c s i) = si_power i * Rmax 0 (sun_direction_c c i 2%nat)).
  { rewrite sun_measure_lux, illuminance_z by (apply true_unit; assumption). rewrite direction_code by (try exact H; lia). reflexivity. }
  split; [exact E|]. intros P. rewrite E. pose proof (direction_unit c i U H) as D. destruct (sun_angle_z _ D) as [B _].
  assert (0 <= Rmax 0 (sun_direction_c c i 2%nat) <= 1) by (split; [apply Rmax_l|apply Rmax_lub; lra]).
  split; [apply Rmult_le_pos; lra|]. rewrite <- (Rmult_1_r (si_power i)) at 2. apply Rmult_le_compat_l; lra.
Qed.
Print Assumptions C95_illuminance.

(** The Sun is detected at a measurement if and only if the illuminance of the measurement before it
    (zero before the first) reaches the threshold and the Sun is now inside the detectable half angle. *)
Theorem C95_detection :
  forall (c : sun_sensor_config) (l : list sun_input) (i0 i1 : sun_input),
    unit 4 (ss_q_b2c c) -> norm 3 (si_sun_b i0) <> 0 -> norm 3 (si_sun_b i1) <> 0 ->
    let threshold := ss_threshold_percent c / 100 * ss_solar_constant c in
    (ss_detected (sun_run c sun_sensor_new (l ++ [i0; i1])) = true <->
       threshold <= si_power i0 * Rmax 0 (sun_direction_c c i0 2%nat) /\ acos (sun_direction_c c i1 2%nat) < ss_half_angle c) /\
    (ss_detected (sun_run c sun_sensor_new [i1]) = true <->
       threshold <= 0 /\ acos (sun_direction_c c i1 2%nat) < ss_half_angle c).
Proof.
  intros c l i0 i1 U H0 H1. cbv zeta.
  assert (G : forall s, ss_detected (sun_measure c s i1) = true <->
      ss_threshold_percent c / 100 * ss_solar_constant c <= ss_illuminance s /\ acos (sun_direction_c c i1 2%nat) < ss_half_angle c).
  { intros s. rewrite sun_measure_detected. unfold sun_detection. rewrite (proj2 (sun_angle_z _ (true_unit c _ U H1))).
    rewrite direction_code by (try exact H1; lia).
    destruct (rlt_spec (ss_illuminance s) (ss_threshold_percent c / 100 * ss_solar_constant c)) as [L|L];
      [split; [discriminate|intros [A _]; lra]|].
    destruct (rlt_spec (acos (sun_direction_c c i1 2%nat)) (ss_half_angle c)); split; intros A; try discriminate; try reflexivity; try (split; lra); lra. }
  split; [|apply G]. change [i0; i1] with ([i0] ++ [i1]). rewrite app_assoc, sun_run_app. unfold sun_run at 1. cbn [fold_left].
  rewrite G. rewrite sun_run_app. unfold sun_run at 1. cbn [fold_left]. rewrite (proj1 (C95_illuminance c _ i0 U H0)). reflexivity.
Qed.
Print Assumptions C95_detection.

(** A detected Sun is reported as a unit vector in front of the sensor, an undetected one as zero. *)
Theorem C95_output :
  forall (c : sun_sensor_config) (s : sun_sensor) (i : sun_input),
    let s' := sun_measure c s i in
    (ss_detected s' = true -> norm 3 (ss_measured_c s') = 1 /\ 0 < ss_measured_c s' 2%nat) /\
    (ss_detected s' = false -> (forall k, ss_measured_c s' k = 0) /\ ss_alpha s' = 0 /\ ss_beta s' = 0).
Proof.
  intros c s i. cbv zeta. unfold sun_measure. destruct (sun_detection _ _ _); cbn [ss_detected ss_measured_c ss_alpha ss_beta]; split; try discriminate; intros _.
  - set (a := tan _). set (b := tan _). pose proof (front_norm a b) as N. split; [apply normalize_norm, N|].
    rewrite normalize_pos by exact N. cbn [v3]. pose proof (norm_nonneg 3 (v3 a b 1)). apply Rdiv_lt_0_compat; lra.
  - split; [reflexivity|]. split; reflexivity.
Qed.
Print Assumptions C95_output.

(** Without bias and noise the reported direction is the true one for a Sun in front, and its mirror
    image (z sign dropped) for a Sun behind the sensor, which a half angle above 90 degrees admits. *)
Theorem C95_accuracy :
  forall (c : sun_sensor_config) (s : sun_sensor) (i : sun_input),
    unit 4 (ss_q_b2c c) -> norm 3 (si_sun_b i) <> 0 -> sun_direction_c c i 2%nat <> 0 ->
    ss_bias_alpha c + si_noise_alpha i = 0 -> ss_bias_beta c + si_noise_beta i = 0 ->
    let s' := sun_measure c s i in let d := sun_direction_c c i in
    ss_detected s' = true ->
    veq 3 (ss_measured_c s') (v3 (d 0%nat) (d 1%nat) (Rabs (d 2%nat))).
Proof.
  intros c s i U H Hz Na Nb. cbv zeta. unfold sun_measure. destruct (sun_detection _ _ _); cbn [ss_detected ss_measured_c]; [intros _|discriminate].
  rewrite !(direction_code c i H) by lia. set (d := sun_direction_c c i) in *.
  rewrite !Rplus_assoc, Na, Nb, !Rplus_0_r. rewrite !tan_range_atan2 by exact Hz. rewrite !tan_atan.
  pose proof (direction_unit c i U H) as D. fold d in D. pose proof (Rabs_pos_lt _ Hz) as P.
  apply (normalize_scaled (v3 (d 0%nat) (d 1%nat) (Rabs (d 2%nat))) (/ Rabs (d 2%nat))).
  - unfold unit, dot in *. rewrite sumn3 in *. cbn [v3]. rewrite <- Rabs_mult, (Rabs_pos_eq (d 2%nat * d 2%nat)) by nra. exact D.
  - apply Rinv_0_lt_compat, P.
  - intros [|[|[|k]]] Hk; try lia; unfold vscal; cbn [v3]; field; lra.
Qed.
Print Assumptions C95_accuracy.

(** With errors that keep both angles inside +-90 degrees, the reported direction shows the true
    angles plus these errors. *)
Theorem C95_noisy_angles :
  forall (c : sun_sensor_config) (s : sun_sensor) (i : sun_input),
    norm 3 (si_sun_b i) <> 0 ->
    let s' := sun_measure c s i in let d := sun_direction_c c i in
    let a := atan2 (d 0%nat) (d 2%nat) + ss_bias_alpha c + si_noise_alpha i in
    let b := atan2 (d 1%nat) (d 2%nat) + ss_bias_beta c + si_noise_beta i in
    - (PI / 2) < a < PI / 2 -> - (PI / 2) < b < PI / 2 ->
    ss_detected s' = true ->
    ss_alpha s' = a /\ ss_beta s' = b /\
    atan2 (ss_measured_c s' 0%nat) (ss_measured_c s' 2%nat) = a /\ atan2 (ss_measured_c s' 1%nat) (ss_measured_c s' 2%nat) = b.
Proof.
  intros c s i H. cbv zeta. unfold sun_measure. destruct (sun_detection _ _ _); cbn [ss_detected ss_measured_c ss_alpha ss_beta]; [|discriminate].
  rewrite !(direction_code c i H) by lia. set (d := sun_direction_c c i).
  set (a := _ + si_noise_alpha i). set (b := _ + si_noise_beta i). intros A B _. rewrite !tan_range_id by lra.
  split; [reflexivity|]. split; [reflexivity|]. rewrite !normalize_pos by apply front_norm. cbn [v3].
  pose proof (front_norm (tan a) (tan b)) as N. pose proof (norm_nonneg 3 (v3 (tan a) (tan b) 1)) as N2. set (n := norm 3 (v3 (tan a) (tan b) 1)) in *.
  assert (K : 0 < 1 / n) by (apply Rdiv_lt_0_compat; lra).
  replace (tan a / n) with (1 / n * tan a) by (field; exact N). replace (tan b / n) with (1 / n * tan b) by (field; exact N).
  split; apply atan2_front; assumption.
Qed.
Print Assumptions C95_noisy_angles.

(** Because of the illuminance of the previous measurement, the claim that a detected Sun is lit at
    that measurement is false: the first measurement in an eclipse still detects it. *)
Definition sunlit_config : sun_sensor_config := mkSunSensorConfig (q4 0 0 0 1) 1 10 0 0 1366.
Definition lit (p : R) : sun_input := mkSunInput (v3 0 0 1) p 0 0.
Theorem C95_detected_means_lit_refuted :
  ~ (forall (c : sun_sensor_config) (l : list sun_input) (i : sun_input),
       unit 4 (ss_q_b2c c) -> List.Forall (fun j => norm 3 (si_sun_b j) <> 0) (l ++ [i]) ->
       0 < ss_threshold_percent c / 100 * ss_solar_constant c ->
       ss_detected (sun_run c sun_sensor_new (l ++ [i])) = true -> 0 < si_power i).
Proof.
  intros H. specialize (H sunlit_config [lit 1366] (lit 0)). cbn [app] in H.
  assert (U : unit 4 (ss_q_b2c sunlit_config)) by (unfold unit, dot; cbn; ring).
  assert (N : forall p, norm 3 (si_sun_b (lit p)) = 1) by (intros p; apply unit_norm; unfold unit, dot; rewrite sumn3; unfold lit, v3; cbn; ring).
  assert (D : forall p, sun_direction_c sunlit_config (lit p) 2%nat = 1).
  { intros p. unfold sun_direction_c, mvec. rewrite sumn3, N. unfold sunlit_config, lit, to_dcm, q4, m3, v3. cbn. field. }
  cbn [sunlit_config ss_threshold_percent ss_solar_constant] in H. fold sunlit_config in H.
  assert (K : ss_detected (sun_run sunlit_config sun_sensor_new [lit 1366; lit 0]) = true).
  { change [lit 1366; lit 0] with ([] ++ [lit 1366; lit 0]).
    apply (proj1 (C95_detection sunlit_config [] (lit 1366) (lit 0) U ltac:(rewrite N; lra) ltac:(rewrite N; lra))).
    rewrite !D. rewrite Rmax_right, acos_1 by lra. cbn [sunlit_config ss_threshold_percent ss_solar_constant ss_half_angle lit si_power]. split; lra. }
  specialize (H U ltac:(repeat constructor; rewrite N; lra) ltac:(lra) K). cbn in H. lra.
Qed.
Print Assumptions C95_detected_means_lit_refuted.

Example sun_sensor_example :
  unit 4 (ss_q_b2c sunlit_config) /\ norm 3 (si_sun_b (lit 1366)) <> 0 /\ sun_direction_c sunlit_config (lit 1366) 2%nat <> 0.
Proof.
  assert (N : norm 3 (si_sun_b (lit 1366)) = 1) by (apply unit_norm; unfold unit, dot; rewrite sumn3; unfold lit, v3; cbn; ring).
  split; [unfold unit, dot; cbn; ring|]. split; [lra|].
  unfold sun_direction_c, mvec. rewrite sumn3, N. unfold sunlit_config, lit, to_dcm, q4, m3, v3. cbn.
  match goal with |- ?x <> 0 => replace x with 1 by field end. lra.
Qed.
