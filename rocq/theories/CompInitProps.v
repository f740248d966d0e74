(** C139-C147: devices built from a settings file. *)
From Coq Require Import Reals Lra Lia FunctionalExtensionality List Bool ZArith Ascii String.
From Verif Require Import Base RBase VecModel VecProofs QuatModel QuatSpec QuatProofs OdeModel SensorModel SensorProofs SensorProps StringModel PowerPortModel.
From Verif Require Import CompInitModel CompInitSpec CompInitProofs.
From Verif Require MagneticModel MagneticSpec MagneticProofs MagneticProps ClockModel WheelModel WheelJitterProofs QuatProps StarModel StarProps SunSensorModel SunSensorProofs SunSensorProps TelescopeModel TelescopeProps GnssRxModel LinkModel ActuatorModel PowerProofs PowerProps
  PowerModel.
Import ListNotations.
Open Scope list_scope.
Open Scope R_scope.

(** ** C139 *)
(** What a file says about one numbered device does not influence another one: files that differ in the sections of device
    (k', id') only give the same device (k, id). *)
Theorem C139_isolation :
  forall (k k' : kind) (e : surroundings) (f g : ini) (id id' : Z),
    (k, id) <> (k', id') -> (forall sec, ~ In sec (own_sections k' id') -> same_in sec f g) -> build k e f id = build k e g id.
Proof. intros k k' e f g id id' N H. apply build_agree. intros s I. apply H. exact (own_disjoint k id k' id' s N I). Qed.
Print Assumptions C139_isolation.

(** A device is determined by its own sections. *)
Theorem C139_own_sections :
  forall (k : kind) (e : surroundings) (f g : ini) (id : Z),
    (forall sec, In sec (own_sections k id) -> same_in sec f g) -> build k e f id = build k e g id.
Proof. exact build_agree. Qed.
Print Assumptions C139_own_sections.

(** The wheels initialised before leave no trace in the settings of a wheel: the variables they share are all set anew. *)
Theorem C139_wheels_do_not_leak :
  forall (csv : str -> list (R * R)) (f : ini) (id : Z) (step : R) (s s' : wheel_statics),
    init_wheel csv f id step s = init_wheel csv f id step s'.
Proof. intros csv f id step s s'. unfold init_wheel. now rewrite (params_fresh csv f id step s s'). Qed.
Print Assumptions C139_wheels_do_not_leak.

(** The power port of a device takes its voltage and power from the section POWER_PORT, common to all devices of a file:
    whatever the port was, it then switches on at that voltage and draws that power. *)
Theorem C139_power_port :
  forall (f : ini) (p : port) (v : R),
    let vmin := value f (lit "POWER_PORT") "minimum_voltage_V" in
    let w := value f (lit "POWER_PORT") "assumed_power_consumption_W" in
    DBL_EPSILON < vmin ->
    let s := fst (set_voltage (port_from_file f p) v) in
    (v < vmin - DBL_EPSILON -> is_on s = Some false) /\
    (vmin - DBL_EPSILON <= v -> w / v < limit_A p - DBL_EPSILON -> is_on s = Some true /\ voltage_V s = v /\ current_A s * v = w) /\
    (vmin - DBL_EPSILON <= v -> limit_A p - DBL_EPSILON <= w / v -> is_on s = Some false /\ voltage_V s = 0 /\ current_A s = 0).
Proof.
  intros f p v. cbv zeta. unfold value. set (vmin := rd_double f _ (lit "minimum_voltage_V")). set (w := rd_double f _ (lit "assumed_power_consumption_W")).
  intros P. assert (E0 : 0 < DBL_EPSILON) by (unfold DBL_EPSILON; apply Rinv_0_lt_compat, pow_lt; lra).
  unfold set_voltage, update, port_from_file. fold vmin w.
  cbn [set_power set_min_voltage limit_A min_V power_W voltage_V current_A is_on]. unfold Rgeb. split; [|split].
  - intros L. destruct (Rle_dec (vmin - DBL_EPSILON) v); [lra|]. cbn [current_A limit_A].
    destruct (Rle_dec (limit_A p - DBL_EPSILON) 0); reflexivity.
  - intros L C. destruct (Rle_dec (vmin - DBL_EPSILON) v); [|lra]. cbn [current_A limit_A].
    destruct (Rle_dec (limit_A p - DBL_EPSILON) (w / v)); [lra|]. cbn [fst is_on voltage_V current_A]. repeat split. field. lra.
  - intros L C. destruct (Rle_dec (vmin - DBL_EPSILON) v); [|lra]. cbn [current_A limit_A].
    destruct (Rle_dec (limit_A p - DBL_EPSILON) (w / v)); [|lra]. repeat split.
Qed.
Print Assumptions C139_power_port.

(** ** C140 *)
(** What a gyro or a magnetometer reports (measurement k of the body vector x): the vector is turned into the component frame,
    multiplied by the scale factor matrix of the file (the identity if that is missing), the bias, a random walk and noise of the
    file's standard deviations are added, and the result is cut at the file's ranges, the same on the three axes.  With zero
    standard deviations both random parts vanish. *)
Theorem C140_three_axis_sensors :
  forall (name u : string) (f : ini) (id : Z) (step : R) (zw zn : nat -> nat -> R) (k : nat) (x : vec),
    let t := init_three_axis (lit name) (lit u) f id step zw zn in
    let base := lit "SENSOR_BASE_" ++ text name id in
    let q := ta_q_b2c t in
    exists (m : mat) (v walk : vec),
      scale_matrix f base m /\
      (forall i, (i < 3)%nat ->
         v i = sumn 3 (fun j => m i j * mvec 3 (to_dcm q) x j) + rd_vector f base (lit "constant_bias_c_" ++ lit u) i + walk i
               + rd_vector f base (lit "normal_random_standard_deviation_c_" ++ lit u) i * zn i k /\
         ranged (rd_double f base (lit "range_to_constant_" ++ lit u)) (rd_double f base (lit "range_to_zero_" ++ lit u)) (v i)
                (MagneticModel.three_axis_measurement (ta_sensor t) q k x i)) /\
      ((forall i, rd_vector f base (lit "random_walk_standard_deviation_c_" ++ lit u) i = 0) -> forall i, walk i = 0).
Proof.
  intros name u f id step zw zn k x. cbv zeta. unfold init_three_axis. cbv zeta. cbn [ta_q_b2c ta_sensor].
  set (q := rd_quaternion f _ _). set (p := read_prescaler f _). change (text name id) with (numbered (lit name) id). set (comp := numbered (lit name) id).
  set (base := lit "SENSOR_BASE_" ++ comp). set (s := read_sensor f (step * IZR p) comp (lit u) zw zn).
  pose proof (read_scale f (step * IZR p) comp (lit u) zw zn) as SC. fold s base in SC.
  exists (scale s), (noisy 3 s k (frame_conversion q x)), (walk_after (walk_limit s) (walk_draws s) (walk_h s) k). split; [exact SC|]. split.
  - intros i Hi. split.
    + unfold noisy. f_equal. f_equal. f_equal. unfold mvec at 1. apply sumn_ext. intros j Hj. now rewrite (frame_dcm q x j Hj).
    + unfold MagneticModel.three_axis_measurement.
      set (cfg := mkSensor (scale s) (vconst (rd_double f base (lit "range_to_constant_" ++ lit u)))
                    (vconst (rd_double f base (lit "range_to_zero_" ++ lit u))) (bias s) (walk_limit s) (walk_h s) (walk_draws s) (normal_draws s)).
      assert (Es : s = sensor_new cfg) by reflexivity. rewrite Es.
      exact (C20_regimes cfg 3 k (frame_conversion q x) i).
  - intros Z i. apply MagneticProofs.walk_zero. intros a b. change (walk_draws s a b) with (rd_vector f base (lit "random_walk_standard_deviation_c_" ++ lit u) a * zw a b).
    rewrite Z. ring.
Qed.
Print Assumptions C140_three_axis_sensors.

(** ** C141 *)
(** A device runs on the ticks that are multiples of its prescaler, the file's one or 1 if that is less; the time step it
    computes with (random walk, delays, integration) is the time between two such ticks.  Thrusters are the exception below. *)
Theorem C141_time_step :
  forall (k : kind) (e : surroundings) (f : ini) (id p : Z) (h : R),
    k <> KThruster -> device_prescaler (build k e f id) = Some p -> device_step (build k e f id) = Some h ->
    p = Z.max 1 (rd_int f (hd [] (own_sections k id)) (lit "prescaler")) /\ h = IZR p * su_step e /\
    forall on n, ClockModel.tick p on n <> [] <-> exists r, n = (p * r)%Z.
Proof.
  intros k e f id p h NT HP HH.
  assert (PR : forall s, read_prescaler f s = Z.max 1 (rd_int f s (lit "prescaler"))).
  { intros s. unfold read_prescaler, read_prescaler_key. destruct (Z.leb_spec (rd_int f s (lit "prescaler")) 1); lia. }
  assert (G : p = Z.max 1 (rd_int f (hd [] (own_sections k id)) (lit "prescaler")) /\ h = IZR p * su_step e).
  { destruct k; cbn [own_sections hd]; unfold text; cbn [build] in HP, HH; try discriminate HP; try discriminate HH; try congruence.
    - injection HP as <-. injection HH as <-. split; [apply PR|]. apply Rmult_comm.
    - injection HP as <-. injection HH as <-. split; [apply PR|]. apply Rmult_comm.
    - injection HP as <-. injection HH as <-. split; [apply PR|]. apply Rmult_comm.
    - unfold init_star in HP, HH. cbv zeta in HP, HH. destruct (req _ 0); [discriminate|].
      destruct (StarModel.steps_of_seconds _ _); cbn [bind] in HP, HH; try discriminate.
      destruct (StarModel.steps_of_seconds _ _); cbn [bind] in HP, HH; try discriminate.
      cbn [device_prescaler device_step sr_prescaler sr_config StarModel.st_step] in HP, HH.
      injection HP as <-. injection HH as <-. split; [apply PR|]. apply Rmult_comm.
    - injection HP as <-. injection HH as <-. split; [apply PR|]. apply Rmult_comm.
    - unfold init_wheel, init_params, wheel_mounting, wheel_response in HP, HH. cbv zeta in HP, HH.
      destruct (str_eqb _ _); [|destruct (q_two_vectors _ _)]; cbn [bind] in HP, HH; try discriminate;
      (destruct (rd_vector_double _ _ _ _); cbn [bind] in HP, HH; try discriminate);
      injection HP as <-; injection HH as <-; (split; [apply PR|apply Rmult_comm]). }
  destruct G as [E1 E2]. split; [exact E1|]. split; [exact E2|]. assert (P1 : (1 <= p)%Z) by lia. clear - P1.
  intros on n. unfold ClockModel.tick. split.
  - intros H. destruct (Z.ltb_spec 0 (n mod p)) as [L|L]; [congruence|]. exists (n / p)%Z.
    pose proof (Z.mod_pos_bound n p ltac:(lia)). rewrite (Z.div_mod n p) at 1 by lia. lia.
  - intros (r & ->). rewrite Z.mul_comm, Z_mod_mult. cbn [Z.ltb Z.compare]. destruct on; discriminate.
Qed.
Print Assumptions C141_time_step.

(** A thruster computes its dead time and lag with the step_width_s of the file, whatever its prescaler and the step of the
    components are. *)
Theorem C141_thruster_step :
  forall (e : surroundings) (f : ini) (id : Z),
    device_prescaler (build KThruster e f id) = Some (Z.max 1 (rd_int f (text "THRUSTER_" id) (lit "prescaler"))) /\
    device_step (build KThruster e f id) = Some (value f (text "THRUSTER_" id) "step_width_s").
Proof.
  intros e f id. cbn [build device_prescaler device_step]. split; [|reflexivity]. f_equal. unfold init_thruster. cbn [ti_prescaler].
  unfold read_prescaler, read_prescaler_key, numbered, text. destruct (Z.leb_spec (rd_int f (lit "THRUSTER_" ++ to_string id) (lit "prescaler")) 1); lia.
Qed.
Print Assumptions C141_thruster_step.
Definition empty_file : ini := mkIni (fun _ _ => []) (fun _ _ => 0) (fun _ _ => 0%Z) (fun _ _ => false).
Theorem C141_thruster_time_step_refuted :
  exists (f : ini), forall (e : surroundings) (id p : Z) (h : R), su_step e <> 1 / 10 ->
    device_prescaler (build KThruster e f id) = Some p -> device_step (build KThruster e f id) = Some h -> h <> IZR p * su_step e.
Proof.
  exists (mkIni (fun _ _ => []) (fun _ _ => 1 / 10) (fun _ _ => 1%Z) (fun _ _ => false)). intros e id p h N HP HH.
  destruct (C141_thruster_step e (mkIni (fun _ _ => []) (fun _ _ => 1 / 10) (fun _ _ => 1%Z) (fun _ _ => false)) id) as [A B].
  rewrite A in HP. rewrite B in HH. injection HP as <-. injection HH as <-. cbn [value rd_double rd_int]. unfold value. cbn [rd_double].
  intros H. apply N. change (IZR (Z.max 1 1)) with 1 in H. lra.
Qed.
Print Assumptions C141_thruster_time_step_refuted.

(** ** C142 *)
(** The axis a wheel turns about.  If the file says QUATERNION it is the z axis of the component frame of the file's quaternion;
    with any other word it is the direction direction_b: exactly, except within DBL_EPSILON (in cosine) of plus or minus z, where
    the cosine between the two is at least 1 - DBL_EPSILON; without a direction the program aborts.  The jitter acts in the same frame. *)
Theorem C142_wheel_axis :
  forall (csv : str -> list (R * R)) (f : ini) (id : Z) (step : R) (s0 : wheel_statics),
    let sec := text "REACTION_WHEEL_" id in
    let quaternion_mode := rd_string f sec (lit "direction_determination_mode") = lit "QUATERNION" in
    let d : vec := entry f sec "direction_b" in
    let dir := vscal (1 / norm 3 d) d in
    (forall s w, init_wheel csv f id step s0 = Ok (s, w) ->
       let axis := WheelModel.wheel_axis (ws_config s) in
       (quaternion_mode -> veq 3 axis (inverse_frame_conversion (rd_quaternion f sec (lit "quaternion_b2c")) (v3 0 0 1))) /\
       (~ quaternion_mode -> dbl_epsilon < norm 3 d /\ unit 3 axis /\
          (Rabs (dir 2%nat) <= 1 - dbl_epsilon -> veq 3 axis dir) /\ 1 - dbl_epsilon <= dot 3 axis dir) /\
       WheelJitterModel.jt_q_b2c (ws_jitter s) = WheelModel.rw_q_b2c (ws_config s)) /\
    (~ quaternion_mode -> norm 3 d <= dbl_epsilon -> init_wheel csv f id step s0 = Throw).
Proof.
  intros csv f id step s0. cbv zeta.
  set (sec := text "REACTION_WHEEL_" id). set (d := entry f sec "direction_b"). set (dir := vscal (1 / norm 3 d) d).
  assert (ZN : norm 3 (v3 0 0 1) = 1).
  { apply unit_norm. unfold unit, dot. rewrite sumn3. cbn [v3]. ring. }
  pose proof QuatProofs.eps_pos as EP.
  assert (Z1 : veq 3 (vscal (1 / norm 3 (v3 0 0 1)) (v3 0 0 1)) (v3 0 0 1)).
  { rewrite ZN. intros i _. unfold vscal. field. }
  assert (IP : dot 3 dir (vscal (1 / norm 3 (v3 0 0 1)) (v3 0 0 1)) = dir 2%nat).
  { unfold dot. rewrite sumn3, !Z1 by lia. cbn [v3]. ring. }
  assert (UE : forall s w, init_wheel csv f id step s0 = Ok (s, w) ->
    WheelJitterModel.jt_q_b2c (ws_jitter s) = WheelModel.rw_q_b2c (ws_config s) /\
    ((rd_string f sec (lit "direction_determination_mode") = lit "QUATERNION" /\ WheelModel.rw_q_b2c (ws_config s) = rd_quaternion f sec (lit "quaternion_b2c")) \/
     (rd_string f sec (lit "direction_determination_mode") <> lit "QUATERNION" /\ exists q, q_two_vectors d (v3 0 0 1) = Ok q /\ WheelModel.rw_q_b2c (ws_config s) = qconj q))).
  { intros s w H. unfold init_wheel, init_params, wheel_mounting, wheel_response in H. cbv zeta in H.
    change (numbered (lit "REACTION_WHEEL_") id) with sec in H. change (rd_vector f sec (lit "direction_b")) with d in H.
    destruct (str_eqb_spec (rd_string f sec (lit "direction_determination_mode")) (lit "QUATERNION")) as [E|E]; cbn [bind] in H.
    - destruct (rd_vector_double _ _ _ _); cbn [bind] in H; try discriminate. injection H as <- _.
      split; [reflexivity|]. left. split; [exact E|reflexivity].
    - destruct (q_two_vectors d (v3 0 0 1)) as [q| | |] eqn:Q; cbn [bind] in H; try discriminate.
      destruct (rd_vector_double _ _ _ _); cbn [bind] in H; try discriminate. injection H as <- _.
      split; [reflexivity|]. right. split; [exact E|]. exists q. split; reflexivity. }
  split.
  - intros s w H. destruct (UE s w H) as [J M]. split; [|split; [|exact J]].
    + intros E. destruct M as [[_ M]|[N _]]; [|congruence]. unfold WheelModel.wheel_axis. rewrite M. intros i _. reflexivity.
    + intros NQ. destruct M as [[E _]|[_ (q & Q & M)]]; [congruence|].
      destruct (QuatProps.C54_two_vectors d (v3 0 0 1)) as [(L & _ & q' & Q' & U & A & B & C)|(_ & T)]; [|congruence].
      rewrite Q in Q'. injection Q' as <-. cbv zeta in A, B, C. fold dir in A, B, C. rewrite IP in A, B, C.
      assert (AX : veq 3 (WheelModel.wheel_axis (ws_config s)) (frame_conversion q (v3 0 0 1))).
      { unfold WheelModel.wheel_axis. rewrite M. intros i Hi. clear. destruct i as [|[|[|i]]]; try lia; qunf; ring. }
      assert (AX2 : forall t, veq 3 (inverse_frame_conversion q t) (v3 0 0 1) -> veq 3 (WheelModel.wheel_axis (ws_config s)) t).
      { intros t Ht i Hi. rewrite (AX i Hi), (frame_dcm q _ i Hi).
        transitivity (frame_conversion q (inverse_frame_conversion q t) i).
        - rewrite (frame_dcm q (inverse_frame_conversion q t) i Hi). unfold mvec. apply sumn_ext. intros j Hj. now rewrite (Ht j Hj).
        - exact (proj2 (QuatProps.C25_inverse_conversion_undoes q t U) i Hi). }
      assert (DU : unit 3 dir) by (apply QuatProofs.normalized_unit; lra).
      assert (UA : unit 3 (WheelModel.wheel_axis (ws_config s))).
      { unfold unit, dot. rewrite sumn3, !AX by lia. 
        clear - U AX.
        pose proof (QuatProofs.dcm_rotation q U) as (_ & R1 & _).
        assert (K : forall i, (i < 3)%nat -> frame_conversion q (v3 0 0 1) i = to_dcm q i 2%nat).
        { intros i Hi. rewrite (frame_dcm q _ i Hi). unfold mvec. rewrite sumn3. cbn [v3]. ring. }
        rewrite !K by lia. specialize (R1 2%nat 2%nat ltac:(lia) ltac:(lia)). unfold mmul, mtrans, mident in R1. cbn [Nat.eqb] in R1. rewrite sumn3 in R1. lra. }
      split; [exact L|]. split; [exact UA|]. split.
      * intros R. apply AX2. intros i Hi. rewrite A by (try exact Hi; revert R; unfold Rabs; destruct (Rcase_abs _); lra). apply (Z1 i Hi).
      * pose proof (QuatProps.C54_two_vectors_error d (v3 0 0 1) q Q) as R. fold dir in R.
        replace (dot 3 (WheelModel.wheel_axis (ws_config s)) dir) with (dot 3 (inverse_frame_conversion q dir) (vscal (1 / norm 3 (v3 0 0 1)) (v3 0 0 1))); [exact R|].
        unfold dot. rewrite !sumn3, !Z1, !AX by lia. clear. qunf. ring.
  - intros NQ L. unfold init_wheel, init_params, wheel_mounting. cbv zeta. change (numbered (lit "REACTION_WHEEL_") id) with sec.
    destruct (str_eqb_spec (rd_string f sec (lit "direction_determination_mode")) (lit "QUATERNION")) as [E|E]; [congruence|].
    change (rd_vector f sec (lit "direction_b")) with d.
    destruct (QuatProps.C54_two_vectors d (v3 0 0 1)) as [(L' & _)|(_ & T)]; [lra|]. rewrite T. reflexivity.
Qed.
Print Assumptions C142_wheel_axis.

(** The other values of the wheel are those of its section; coefficient k of the friction, for every k below
    friction_order, is the value of the key friction_coefficients(k), and a negative order throws. *)
Theorem C142_wheel_values :
  forall (csv : str -> list (R * R)) (f : ini) (id : Z) (step : R) (s0 : wheel_statics),
    let sec := text "REACTION_WHEEL_" id in let order := rd_int f sec (lit "friction_order") in
    (forall s w, init_wheel csv f id step s0 = Ok (s, w) ->
       (0 <= order)%Z /\ List.length (WheelModel.rw_friction (ws_config s)) = Z.to_nat order /\
       (forall k, (k < Z.to_nat order)%nat -> nth k (WheelModel.rw_friction (ws_config s)) 0 = entry f sec "friction_coefficients" k) /\
       WheelModel.rw_inertia (ws_config s) = value f sec "moment_of_inertia_kgm2" /\ WheelModel.rw_max_torque (ws_config s) = value f sec "max_output_torque_Nm" /\
       WheelModel.rw_max_rpm (ws_config s) = value f sec "max_angular_velocity_rpm" /\ WheelModel.rw_limit_rpm w = value f sec "max_angular_velocity_rpm" /\
       WheelModel.rw_dead (ws_config s) = value f sec "dead_time_s" /\ WheelModel.rw_tau (ws_config s) = value f sec "time_constant_s" /\
       WheelModel.rw_stop (ws_config s) = value f sec "stop_limit_angular_velocity_rad_s" /\
       WheelModel.rw_drive w = rd_bool f sec (lit "initial_motor_drive_flag") /\
       OdeModel.state (WheelModel.rw_ode w) 0%nat = value f sec "initial_angular_velocity_rad_s" /\
       forall i, ws_position s i = entry f sec "position_b_m" i) /\
    ((order < 0)%Z -> init_wheel csv f id step s0 = Throw).
Proof.
  intros csv f id step s0 sec order. split.
  - intros s w H. unfold init_wheel, init_params, wheel_mounting, wheel_response in H. cbv zeta in H. change (numbered (lit "REACTION_WHEEL_") id) with sec in H.
    assert (G : forall l, rd_vector_double f sec (lit "friction_coefficients") (rd_int f sec (lit "friction_order")) = Ok l ->
      (0 <= order)%Z /\ List.length l = Z.to_nat order /\ forall k, (k < Z.to_nat order)%nat -> nth k l 0 = entry f sec "friction_coefficients" k).
    { intros l L. unfold rd_vector_double in L. fold order in L. destruct (Z.ltb_spec order 0) as [N|N]; [discriminate|]. injection L as <-. split; [exact N|]. rewrite map_length, seq_length. split; [reflexivity|].
      intros k Hk. rewrite (nth_indep _ 0 (rd_vector f sec (lit "friction_coefficients") 0%nat)) by (now rewrite map_length, seq_length). rewrite map_nth, seq_nth by exact Hk. reflexivity. }
    destruct (str_eqb _ _); [|destruct (q_two_vectors _ _); cbn [bind] in H; try discriminate]; cbn [bind] in H;
      (destruct (rd_vector_double f sec (lit "friction_coefficients") _) as [l| | |]; cbn [bind] in H; try discriminate; destruct (G l eq_refl) as (G1 & G2 & G3);
       injection H as <- <-; cbv zeta; repeat split; assumption || reflexivity).
  - intros N. unfold init_wheel, init_params, wheel_mounting, wheel_response. cbv zeta. change (numbered (lit "REACTION_WHEEL_") id) with sec.
    assert (V : rd_vector_double f sec (lit "friction_coefficients") (rd_int f sec (lit "friction_order")) = Throw).
    { unfold rd_vector_double. fold order. destruct (Z.ltb_spec order 0); [reflexivity|lia]. }
    assert (TV : forall a b, q_two_vectors a b = Throw \/ exists q, q_two_vectors a b = Ok q).
    { intros a b. unfold q_two_vectors. cbv zeta. repeat (match goal with |- (if ?c then _ else _) = _ \/ _ => destruct c end); eauto. }
    destruct (str_eqb _ _); [cbn [bind]; rewrite V; reflexivity|]. destruct (TV (rd_vector f sec (lit "direction_b")) (v3 0 0 1)) as [->|(q & ->)]; cbn [bind]; rewrite ?V; reflexivity.
Qed.
Print Assumptions C142_wheel_values.

(** ** C143 *)
(** A star sensor built from a file: it computes with its own update interval h; delay and interval are the file's seconds cut
    to whole updates, but at least one; the error flag is governed by the file's angles and rate in degrees. *)
Theorem C143_star_sensor :
  forall (f : ini) (id : Z) (step : R) (s : star_init),
    init_star f id step = Ok s ->
    let sec := text "STAR_SENSOR_" id in
    let c := sr_config s in
    let h := IZR (Z.max 1 (rd_int f sec (lit "prescaler"))) * step in
    let updates (n : Z) (t : R) := (1 <= n)%Z /\ (t < h -> n = 1%Z) /\ (h <= t -> IZR n * h <= t < (IZR n + 1) * h) in
    StarModel.st_step c = h /\
    (0 < step -> 0 <= value f sec "output_delay_s" -> updates (StarModel.st_delay c) (value f sec "output_delay_s")) /\
    (0 < step -> 0 <= value f sec "output_interval_s" -> updates (StarModel.st_interval c) (value f sec "output_interval_s")) /\
    (forall i, unit 4 (rd_quaternion f sec (lit "quaternion_b2c")) ->
       norm 3 (StarModel.in_sun_b i) <> 0 -> norm 3 (StarModel.in_earth_b i) <> 0 -> norm 3 (StarModel.in_moon_b i) <> 0 ->
       let sight := inverse_frame_conversion (rd_quaternion f sec (lit "quaternion_b2c")) (v3 1 0 0) in
       let off p := angle_two_vectors 3 p sight * (180 / PI) in
       StarModel.star_judgement c i = false <->
         value f sec "sun_exclusion_angle_deg" <= off (StarModel.in_sun_b i) /\
         value f sec "earth_exclusion_angle_deg" + atan (6378136.6 / norm 3 (StarModel.in_earth_b i)) * (180 / PI) <= off (StarModel.in_earth_b i) /\
         value f sec "moon_exclusion_angle_deg" <= off (StarModel.in_moon_b i) /\
         norm 3 (StarModel.in_rate_b i) * (180 / PI) <= value f sec "angular_rate_limit_deg_s").
Proof.
  intros f id step s H. cbv zeta. unfold init_star in H. cbv zeta in H.
  change (numbered (lit "STAR_SENSOR_") id) with (text "STAR_SENSOR_" id) in H. set (sec := text "STAR_SENSOR_" id) in *.
  assert (PR : read_prescaler f sec = Z.max 1 (rd_int f sec (lit "prescaler"))).
  { unfold read_prescaler, read_prescaler_key. destruct (Z.leb_spec (rd_int f sec (lit "prescaler")) 1); lia. }
  rewrite PR in H. set (p := Z.max 1 _) in *. rewrite (Rmult_comm step) in H. set (h := IZR p * step) in *.
  destruct (req h 0) eqn:HZ; [discriminate|].
  destruct (StarModel.steps_of_seconds (rd_double f sec (lit "output_delay_s")) h) as [nd| | |] eqn:D; cbn [bind] in H; try discriminate.
  destruct (StarModel.steps_of_seconds (rd_double f sec (lit "output_interval_s")) h) as [ni| | |] eqn:I; cbn [bind] in H; try discriminate.
  injection H as <-. cbn [sr_config StarModel.st_step StarModel.st_delay StarModel.st_interval].
  assert (P1 : 1 <= IZR p) by (apply IZR_le; unfold p; lia).
  assert (K : forall t n, 0 < step -> 0 <= t -> StarModel.steps_of_seconds t h = Ok n ->
    (1 <= n)%Z /\ (t < h -> n = 1%Z) /\ (h <= t -> IZR n * h <= t < (IZR n + 1) * h)).
  { intros t n S0 T0 E. assert (H0 : 0 < h) by (unfold h; nra).
    assert (B : t / h < 2 ^ 31).
    { unfold StarModel.steps_of_seconds, int_of_double in E. destruct (_ && _)%bool eqn:G; cbn [bind] in E; [|discriminate].
      apply andb_prop in G. destruct G as [_ G]. apply Z.ltb_lt in G.
      assert (0 <= t / h) by (apply Rmult_le_pos; [lra|left; apply Rinv_0_lt_compat; lra]).
      unfold trunc in G. rewrite rle_true in G by assumption. destruct (base_Int_part (t / h)) as [_ B2].
      assert (IZR (Int_part (t / h)) <= IZR (2 ^ 31 - 1)) by (apply IZR_le; lia). change (2 ^ 31)%Z with 2147483648%Z in *. 
      change (2147483648 - 1)%Z with 2147483647%Z in *. lra. }
    destruct (StarProps.C92_seconds t h H0 T0 B) as (m & Em & A1 & A2 & A3). rewrite E in Em. injection Em as <-. auto. }
  split; [reflexivity|]. split; [intros S0 T0; exact (K _ _ S0 T0 D)|]. split; [intros S0 T0; exact (K _ _ S0 T0 I)|].
  intros i U N1 N2 N3. pose proof PI_RGT_0 as PP.
  match goal with |- StarModel.star_judgement ?c i = false <-> _ => pose proof (StarProps.C94_error_flag c i U N1 N2 N3) as E end.
  cbv zeta in E. cbn [StarModel.st_q_b2c StarModel.st_sun_angle StarModel.st_earth_angle StarModel.st_moon_angle StarModel.st_rate_limit] in E.
  rewrite E. unfold deg, value. clear E. set (sight := inverse_frame_conversion _ _).
  assert (G : forall x y, x * PI / 180 <= y <-> x <= y * (180 / PI)).
  { intros x y. split; intros H.
    - apply (Rmult_le_reg_r (PI / 180)); [lra|]. replace (y * (180 / PI) * (PI / 180)) with y by (field; lra). lra.
    - apply (Rmult_le_compat_r (PI / 180)) in H; [|lra]. replace (y * (180 / PI) * (PI / 180)) with y in H by (field; lra). lra. }
  assert (G2 : forall x y, y <= x * PI / 180 <-> y * (180 / PI) <= x).
  { intros x y. split; intros H.
    - apply (Rmult_le_reg_r (PI / 180)); [lra|]. replace (y * (180 / PI) * (PI / 180)) with y by (field; lra). lra.
    - apply (Rmult_le_compat_r (PI / 180)) in H; [|lra]. replace (y * (180 / PI) * (PI / 180)) with y in H by (field; lra). lra. }
  assert (G3 : forall x a y, x * PI / 180 + a <= y <-> x + a * (180 / PI) <= y * (180 / PI)).
  { intros x a y. rewrite <- G. replace ((x + a * (180 / PI)) * PI / 180) with (x * PI / 180 + a) by (field; lra). reflexivity. }
  rewrite G3, !G, G2. reflexivity.
Qed.
Print Assumptions C143_star_sensor.

(** A sun sensor built from a file detects the Sun if the previous illuminance reaches the file's percentage of the solar
    constant and the Sun is less than field_of_view_deg off its boresight. *)
Theorem C143_sun_sensor :
  forall (f : ini) (id : Z) (solar za zb : R) (l : list SunSensorModel.sun_input) (i0 i1 : SunSensorModel.sun_input),
    let sec := text "SUN_SENSOR_" id in
    let q := rd_quaternion f sec (lit "quaternion_b2c") in
    let c := sn_config (init_sun f id solar za zb) in
    let sun i := mvec 3 (to_dcm q) (fun k => SunSensorModel.si_sun_b i k / norm 3 (SunSensorModel.si_sun_b i)) in
    unit 4 q -> norm 3 (SunSensorModel.si_sun_b i0) <> 0 -> norm 3 (SunSensorModel.si_sun_b i1) <> 0 ->
    (SunSensorModel.ss_detected (SunSensorModel.sun_run c SunSensorModel.sun_sensor_new (l ++ [i0; i1])) = true <->
       value f sec "intensity_lower_threshold_percent" / 100 * solar <= SunSensorModel.si_power i0 * Rmax 0 (sun i0 2%nat) /\
       acos (sun i1 2%nat) * (180 / PI) < value f sec "field_of_view_deg").
Proof.
  intros f id solar za zb l i0 i1. cbv zeta. intros U N0 N1.
  pose proof (SunSensorProps.C95_detection (sn_config (init_sun f id solar za zb)) l i0 i1 U N0 N1) as [E _]. cbv zeta in E.
  rewrite E. clear E. unfold init_sun. cbv zeta. change (numbered (lit "SUN_SENSOR_") id) with (text "SUN_SENSOR_" id).
  cbn [sn_config SunSensorModel.ss_threshold_percent SunSensorModel.ss_solar_constant SunSensorModel.ss_half_angle].
  unfold value, SunSensorProps.sun_direction_c. cbn [SunSensorModel.ss_q_b2c].
  pose proof PI_RGT_0 as PP. set (a := acos _). set (v := rd_double f _ (lit "field_of_view_deg")).
  assert (G : a < PI / 180 * v <-> a * (180 / PI) < v).
  { split; intros H.
    - apply (Rmult_lt_reg_r (PI / 180)); [lra|]. replace (a * (180 / PI) * (PI / 180)) with a by (field; lra). lra.
    - apply (Rmult_lt_compat_r (PI / 180)) in H; [|lra]. replace (a * (180 / PI) * (PI / 180)) with a in H by (field; lra). lra. }
  rewrite G. reflexivity.
Qed.
Print Assumptions C143_sun_sensor.

(** So the angle field_of_view_deg of the file is half of the field of view: whatever it is (up to 180), a Sun three quarters
    of it off the boresight, which is outside a field of view of that full angle, is detected. *)
Definition sun_file (fov : R) : ini :=
  mkIni (fun _ _ => []) (fun _ key => if str_eqb key (lit "field_of_view_deg") then fov else if str_eqb key (lit "quaternion_b2c_(3)") then 1 else 0)
        (fun _ _ => 1%Z) (fun _ _ => false).
Theorem C143_sun_full_field_of_view_refuted :
  forall (fov solar za zb : R) (id : Z), 0 < fov < 180 ->
    exists i, let sun := normalize 3 (SunSensorModel.si_sun_b i) in
      value (sun_file fov) (text "SUN_SENSOR_" id) "field_of_view_deg" = fov /\
      rd_quaternion (sun_file fov) (text "SUN_SENSOR_" id) (lit "quaternion_b2c") = q4 0 0 0 1 /\
      fov / 2 < angle_two_vectors 3 sun (v3 0 0 1) * (180 / PI) /\
      SunSensorModel.ss_detected (SunSensorModel.sun_run (sn_config (init_sun (sun_file fov) id solar za zb)) SunSensorModel.sun_sensor_new [i; i]) = true.
Proof.
  intros fov solar za zb id F. pose proof PI_RGT_0 as PP. set (t := 3 / 4 * fov * (PI / 180)).
  assert (T : 0 <= t <= PI) by (unfold t; nra).
  set (d := v3 (sin t) 0 (cos t)).
  assert (ND : norm 3 d = 1).
  { apply unit_norm. unfold unit, dot. rewrite sumn3. unfold d. cbn [v3]. pose proof (sin2_cos2 t) as Q. unfold Rsqr in Q. lra. }
  exists (SunSensorModel.mkSunInput d 1 0 0). cbv zeta. cbn [SunSensorModel.si_sun_b].
  set (sec := text "SUN_SENSOR_" id).
  assert (Q : rd_quaternion (sun_file fov) sec (lit "quaternion_b2c") = q4 0 0 0 1).
  { unfold rd_quaternion, rd_vector, sun_file. cbn [rd_double]. cbv zeta.
    change (str_eqb (element (lit "quaternion_b2c" ++ lit "_") 0) (lit "field_of_view_deg")) with false.
    change (str_eqb (element (lit "quaternion_b2c" ++ lit "_") 1) (lit "field_of_view_deg")) with false.
    change (str_eqb (element (lit "quaternion_b2c" ++ lit "_") 2) (lit "field_of_view_deg")) with false.
    change (str_eqb (element (lit "quaternion_b2c" ++ lit "_") 3) (lit "field_of_view_deg")) with false.
    change (str_eqb (element (lit "quaternion_b2c" ++ lit "_") 0) (lit "quaternion_b2c_(3)")) with false.
    change (str_eqb (element (lit "quaternion_b2c" ++ lit "_") 1) (lit "quaternion_b2c_(3)")) with false.
    change (str_eqb (element (lit "quaternion_b2c" ++ lit "_") 2) (lit "quaternion_b2c_(3)")) with false.
    change (str_eqb (element (lit "quaternion_b2c" ++ lit "_") 3) (lit "quaternion_b2c_(3)")) with true.
    rewrite req_false by lra. cbn iota. 
    change (str_eqb (element (lit "quaternion_b2c" ++ lit "_") 3) (lit "quaternion_b2c_(3)")) with true. reflexivity. }
  split; [reflexivity|]. split; [exact Q|].
  assert (NN : norm 3 (normalize 3 d) = 1).
  { rewrite (WheelJitterProofs.norm3_ext _ d); [exact ND|]. intros i _. rewrite SunSensorProofs.normalize_pos by lra. rewrite ND. field. }
  split.
  - unfold angle_two_vectors. rewrite NN. rewrite (unit_norm (v3 0 0 1)) by (unfold unit, dot; rewrite sumn3; cbn [v3]; ring).
    assert (DD : dot 3 (normalize 3 d) (v3 0 0 1) / (1 * 1) = cos t).
    { unfold dot. rewrite sumn3, !SunSensorProofs.normalize_pos by lra. rewrite ND. unfold d. cbn [v3]. field. }
    rewrite DD, acos_cos by exact T. unfold t. field_simplify; lra.
  - apply (proj2 (C143_sun_sensor (sun_file fov) id solar za zb [] (SunSensorModel.mkSunInput d 1 0 0) (SunSensorModel.mkSunInput d 1 0 0)
      ltac:(fold sec; rewrite Q; unfold unit, dot; cbn [sumn q4]; ring) ltac:(cbn [SunSensorModel.si_sun_b]; lra) ltac:(cbn [SunSensorModel.si_sun_b]; lra))).
    cbn [SunSensorModel.si_sun_b SunSensorModel.si_power]. fold sec. rewrite Q.
    assert (Z2 : mvec 3 (to_dcm (q4 0 0 0 1)) (fun k => d k / norm 3 d) 2%nat = cos t).
    { rewrite ND. unfold mvec. rewrite sumn3. unfold d. qunf. field. }
    rewrite Z2. change (value (sun_file fov) sec "intensity_lower_threshold_percent") with 0. change (value (sun_file fov) sec "field_of_view_deg") with fov.
    split; [pose proof (Rmax_l 0 (cos t)); lra|]. rewrite acos_cos by exact T. unfold t. field_simplify; lra.
Qed.
Print Assumptions C143_sun_full_field_of_view_refuted.

(** ** C144 *)
(** A magnetorquer whose nine scale factors are zero or missing in the file produces neither moment nor torque, whatever the
    commands, noise and bias: unlike for the sensors (C140) the identity is not put in their place. *)
Theorem C144_missing_scale_factor :
  forall (f : ini) (id : Z) (step : R) (zw zn : nat -> nat -> R) (es : list MagneticModel.mtq_op) (field : vec),
    let c := snd (init_mtq f id step zw zn) in
    (forall i, (i < 9)%nat -> entry f (text "MAGNETORQUER_" id) "scale_factor_c" i = 0) ->
    let m := MagneticModel.mtq_run c MagneticModel.mtq_new (es ++ [MagneticModel.MtqStep field]) in
    veq 3 (MagneticModel.mq_moment_c m) (vconst 0) /\ veq 3 (MagneticModel.mq_moment_b m) (vconst 0) /\
    veq 3 (MagneticModel.mq_torque_b m) (vconst 0).
Proof.
  intros f id step zw zn es field. cbv zeta. intros Z. set (c := snd _).
  unfold MagneticModel.mtq_run. rewrite fold_left_app. cbn [fold_left MagneticModel.mtq_do]. set (m := fold_left _ es _).
  unfold MagneticModel.mtq_main. cbn [MagneticModel.mq_moment_c MagneticModel.mq_moment_b MagneticModel.mq_torque_b].
  set (d := MagneticModel.disturbed_moment _ _ _).
  assert (SC : forall i j, (i < 3)%nat -> (j < 3)%nat -> MagneticModel.mq_scale c i j = 0).
  { intros i j Hi Hj. change (MagneticModel.mq_scale c i j) with (rd_matrix3 f (text "MAGNETORQUER_" id) (lit "scale_factor_c") i j).
    unfold rd_matrix3. rewrite (proj2 (Nat.ltb_lt i 3) Hi), (proj2 (Nat.ltb_lt j 3) Hj). cbn [andb]. apply (Z (i * 3 + j)%nat). lia. }
  assert (M0 : veq 3 (mvec 3 (MagneticModel.mq_scale c) d) (vconst 0)).
  { intros i Hi. unfold mvec, vconst. rewrite sumn3, !SC by (assumption || lia). ring. }
  split; [exact M0|]. set (mc := mvec 3 _ d) in *.
  assert (B0 : veq 3 (frame_conversion (qconj (MagneticModel.mq_q_b2c c)) mc) (vconst 0)).
  { intros i Hi. rewrite frame_dcm by exact Hi. unfold mvec, vconst. rewrite sumn3, !M0 by lia. unfold vconst. ring. }
  split; [exact B0|]. intros i Hi. set (mb := frame_conversion _ mc) in *.
  pose proof (B0 0%nat ltac:(lia)) as E0. pose proof (B0 1%nat ltac:(lia)) as E1. pose proof (B0 2%nat ltac:(lia)) as E2. unfold vconst in *.
  destruct i as [|[|[|]]]; [| | |lia]; unfold cross; cbv beta iota; rewrite ?E0, ?E1, ?E2; ring.
Qed.
Print Assumptions C144_missing_scale_factor.

(** With the identity as scale factor, no bias and no noise in the file, and a unit mounting quaternion, a magnetorquer gives the
    commanded moment cut at the file's limits, from the first step after the command on, and the torque moment x field. *)
Theorem C144_ideal_magnetorquer :
  forall (f : ini) (id : Z) (step : R) (zw zn : nat -> nat -> R) (es : list MagneticModel.mtq_op) (v : vec) (fields : nat -> vec) (n : nat),
    let sec := text "MAGNETORQUER_" id in
    let hi := entry f sec "max_output_magnetic_moment_c_Am2" in
    let lo := entry f sec "min_output_magnetic_moment_c_Am2" in
    let q := rd_quaternion f sec (lit "quaternion_b2c") in
    (forall i j, (i < 3)%nat -> (j < 3)%nat -> entry f sec "scale_factor_c" (3 * i + j) = if Nat.eqb i j then 1 else 0) ->
    (forall i, entry f sec "constant_bias_noise_c_Am2" i = 0 /\ entry f sec "random_walk_standard_deviation_c_Am2" i = 0 /\
               entry f sec "white_noise_standard_deviation_c_Am2" i = 0) ->
    unit 4 q -> (forall i, (i < 3)%nat -> lo i <= hi i) ->
    let m := MagneticModel.mtq_run (snd (init_mtq f id step zw zn)) MagneticModel.mtq_new
               (es ++ MagneticModel.MtqCommand v :: map (fun k => MagneticModel.MtqStep (fields k)) (seq 0 (S n))) in
    let moment i := Rmin (hi i) (Rmax (lo i) (v i)) in
    veq 3 (MagneticModel.mq_moment_c m) moment /\
    veq 3 (MagneticModel.mq_torque_b m) (cross (mvec 3 (mtrans (to_dcm q)) moment) (vscal (/ 10 ^ 9) (fields n))).
Proof.
  intros f id step zw zn es v fields n. cbv zeta. intros SC N U L.
  set (c := snd (init_mtq f id step zw zn)).
  assert (ID : MagneticSpec.ideal_mtq c).
  { split; [|split; [|split]].
    - apply functional_extensionality. intros i. apply functional_extensionality. intros j.
      change (MagneticModel.mq_scale c i j) with (rd_matrix3 f (text "MAGNETORQUER_" id) (lit "scale_factor_c") i j).
      unfold rd_matrix3. destruct (Nat.ltb_spec i 3) as [Hi|Hi]; [|reflexivity]. destruct (Nat.ltb_spec j 3) as [Hj|Hj]; [|reflexivity].
      cbn [andb]. transitivity (entry f (text "MAGNETORQUER_" id) "scale_factor_c" (3 * i + j)); [now rewrite (Nat.mul_comm 3 i)|]. rewrite SC by assumption. reflexivity.
    - intros i. exact (proj1 (N i)).
    - intros i k. transitivity (entry f (text "MAGNETORQUER_" id) "white_noise_standard_deviation_c_Am2" i * zn i k); [reflexivity|].
      rewrite (proj2 (proj2 (N i))). ring.
    - intros i k. transitivity (entry f (text "MAGNETORQUER_" id) "random_walk_standard_deviation_c_Am2" i * zw i k); [reflexivity|].
      rewrite (proj1 (proj2 (N i))). ring. }
  destruct (MagneticProps.C89_ideal c es v fields n ID U L) as [A B]. cbv zeta in A, B.
  assert (R0 : forall i, (i < 3)%nat -> MagneticSpec.restrict (MagneticModel.mq_min c i) (MagneticModel.mq_max c i) (v i) =
      Rmin (entry f (text "MAGNETORQUER_" id) "max_output_magnetic_moment_c_Am2" i) (Rmax (entry f (text "MAGNETORQUER_" id) "min_output_magnetic_moment_c_Am2" i) (v i))).
  { intros i Hi. unfold MagneticSpec.restrict.
    change (MagneticModel.mq_min c i) with (entry f (text "MAGNETORQUER_" id) "min_output_magnetic_moment_c_Am2" i).
    change (MagneticModel.mq_max c i) with (entry f (text "MAGNETORQUER_" id) "max_output_magnetic_moment_c_Am2" i). reflexivity. }
  split.
  - intros i Hi. rewrite (A i Hi). exact (R0 i Hi).
  - intros i Hi. rewrite (B i Hi). change (MagneticModel.mq_q_b2c c) with (rd_quaternion f (text "MAGNETORQUER_" id) (lit "quaternion_b2c")).
    set (q := rd_quaternion _ _ _). set (x := fun i => MagneticSpec.restrict _ _ _).
    set (y := fun i => Rmin _ _) in *.
    assert (E : veq 3 (inverse_frame_conversion q x) (mvec 3 (mtrans (to_dcm q)) y)).
    { intros k Hk. rewrite (proj2 (QuatProps.C25_frame_conversion_is_dcm q x) k Hk). unfold mvec. rewrite !sumn3.
      unfold x. rewrite !R0 by lia. reflexivity. }
    pose proof (E 0%nat ltac:(lia)) as E0. pose proof (E 1%nat ltac:(lia)) as E1. pose proof (E 2%nat ltac:(lia)) as E2.
    destruct i as [|[|[|]]]; [| | |lia]; unfold cross; cbv beta iota; rewrite ?E0, ?E1, ?E2; reflexivity.
Qed.
Print Assumptions C144_ideal_magnetorquer.

(** The interference of a magnetorquer with moment m on the magnetometer is the file's polynomial: on axis i the sum over the
    degrees d = 1 .. n of the sum over j of the coefficient number 3 i + j of degree d times the d-th power of m_j.
    A negative degree in the file ends the program. *)
Theorem C144_interference :
  forall (f : ini) (id : Z),
    let sec := text "MTQ_MAGNETOMETER_INTERFERENCE_" id in
    let n := rd_int f sec (lit "polynomial_degree") in
    let coef d k := rd_double f sec (lit "additional_bias_by_mtq_coefficients_" ++ to_string (Z.of_nat d) ++ lit "(" ++ to_string (Z.of_nat k) ++ lit ")") in
    ((n < 0)%Z -> init_interference f id = Throw) /\
    ((0 <= n)%Z -> exists l, init_interference f id = Ok l /\
       forall (m : vec) (i : nat), (i < 3)%nat ->
         MagneticModel.interference_bias l 1 m (vconst 0) i =
         sumn (Z.to_nat n) (fun d => sumn 3 (fun j => coef (S d) (3 * i + j)%nat * m j ^ S d))).
Proof.
  intros f id. cbv zeta. unfold init_interference. cbv zeta.
  change (numbered (lit "MTQ_MAGNETOMETER_INTERFERENCE_") id) with (text "MTQ_MAGNETOMETER_INTERFERENCE_" id).
  set (sec := text _ id). set (n := rd_int f sec _). split; intros H.
  { destruct (Z.ltb_spec n 0); [reflexivity|lia]. }
  destruct (Z.ltb_spec n 0); [lia|]. eexists. split; [reflexivity|]. intros m i Hi.
  set (g := fun d : nat => rd_matrix3 f sec _).
  assert (A : forall k d acc, MagneticModel.interference_bias (map g (seq d k)) d m acc i =
              acc i + sumn k (fun e => sumn 3 (fun j => g (d + e)%nat i j * m j ^ (d + e)))).
  { induction k as [|k IH]; intros d acc; cbn [seq map MagneticModel.interference_bias]; [unfold sumn; ring|].
    rewrite IH. unfold vadd. rewrite Rplus_assoc. f_equal.
    assert (SH : forall (h : nat -> R) q, sumn (S q) h = h 0%nat + sumn q (fun e => h (S e))).
    { intros h q. induction q as [|q IHq]; [unfold sumn; ring|]. change (sumn (S (S q)) h) with (sumn (S q) h + h (S q)). rewrite IHq.
      change (sumn (S q) (fun e => h (S e))) with (sumn q (fun e => h (S e)) + h (S q)). ring. }
    rewrite SH. rewrite Nat.add_0_r. f_equal. apply sumn_ext. intros e _. now rewrite Nat.add_succ_r. }
  rewrite A. unfold vconst. rewrite Rplus_0_l. apply sumn_ext. intros d _. apply sumn_ext. intros j Hj.
  change (1 + d)%nat with (S d). f_equal. unfold g, rd_matrix3.
  rewrite (proj2 (Nat.ltb_lt i 3) Hi), (proj2 (Nat.ltb_lt j 3) Hj). cbn [andb]. unfold rd_vector, element. rewrite <- app_assoc. now rewrite (Nat.mul_comm 3 i).
Qed.
Print Assumptions C144_interference.

(** ** C145 *)
(** A mounting quaternion NAME is read from the keys NAME_(0) .. NAME_(3); if these are all zero or missing, from NAME(0) ..
    NAME(3); it is used as it is, without normalisation, and if those are missing too it is the zero quaternion. *)
Theorem C145_quaternion_keys :
  forall (f : ini) (sec : str) (name : string),
    let new i := rd_double f sec (lit name ++ lit "_(" ++ to_string (Z.of_nat i) ++ lit ")") in
    let old i := entry f sec name i in
    let q := rd_quaternion f sec (lit name) in
    ((exists i, (i < 4)%nat /\ new i <> 0) -> forall i, (i < 4)%nat -> q i = new i) /\
    ((forall i, (i < 4)%nat -> new i = 0) -> forall i, (i < 4)%nat -> q i = old i).
Proof.
  intros f sec name. cbv zeta.
  assert (NW : forall i, rd_vector f sec (lit name ++ lit "_") i = rd_double f sec (lit name ++ lit "_(" ++ to_string (Z.of_nat i) ++ lit ")")).
  { intros i. unfold rd_vector, element. rewrite <- app_assoc. reflexivity. }
  assert (PICK : forall (d : vec) i, (i < 4)%nat -> q4 (d 0%nat) (d 1%nat) (d 2%nat) (d 3%nat) i = d i).
  { intros d i Hi. destruct i as [|[|[|[|]]]]; try reflexivity. lia. }
  split.
  - intros (k & Hk & Nz) i Hi. rewrite <- NW in Nz |- *. unfold rd_quaternion. cbv zeta. set (t := rd_vector f sec (lit name ++ lit "_")) in *.
    assert (Q : 0 < t k * t k) by nra. pose proof (Rle_0_sqr (t 0%nat)) as P0. pose proof (Rle_0_sqr (t 1%nat)) as P1.
    pose proof (Rle_0_sqr (t 2%nat)) as P2. pose proof (Rle_0_sqr (t 3%nat)) as P3. unfold Rsqr in *.
    rewrite req_false; [exact (PICK t i Hi)|]. destruct k as [|[|[|[|]]]]; [lra|lra|lra|lra|lia].
  - intros Z i Hi. assert (Z' : forall k, (k < 4)%nat -> rd_vector f sec (lit name ++ lit "_") k = 0) by (intros k Hk; rewrite NW; exact (Z k Hk)).
    unfold rd_quaternion. cbv zeta. set (t := rd_vector f sec (lit name ++ lit "_")) in *.
    rewrite !Z' by lia. rewrite req_true by ring. rewrite (PICK (rd_vector f sec (lit name)) i Hi). reflexivity.
Qed.
Print Assumptions C145_quaternion_keys.

(** A mounting quaternion that is not of length one stretches what a sensor sees by the square of its length. *)
Theorem C145_not_normalised :
  forall (q : quat) (v : vec), norm 3 (frame_conversion q v) = dot 4 q q * norm 3 v.
Proof.
  intros q v. pose proof (norm_nonneg 3 v) as NV.
  assert (QN : 0 <= dot 4 q q) by (unfold dot; cbn [sumn]; pose proof (Rle_0_sqr (q 0%nat)); pose proof (Rle_0_sqr (q 1%nat)); pose proof (Rle_0_sqr (q 2%nat));
    pose proof (Rle_0_sqr (q 3%nat)); unfold Rsqr in *; lra).
  rewrite (WheelJitterProofs.norm3_ext (frame_conversion q v) (mvec 3 (to_dcm q) v)).
  2: { intros i Hi. apply frame_dcm. exact Hi. }
  unfold norm. rewrite <- (sqrt_square (dot 4 q q)) by exact QN. rewrite <- sqrt_mult.
  2: nra. 2: { unfold dot. rewrite sumn3. pose proof (Rle_0_sqr (v 0%nat)); pose proof (Rle_0_sqr (v 1%nat)); pose proof (Rle_0_sqr (v 2%nat)); unfold Rsqr in *; lra. }
  f_equal. unfold dot. rewrite !sumn3. unfold mvec. rewrite !sumn3. cbn [sumn]. qunf. ring.
Qed.
Print Assumptions C145_not_normalised.

(** So a gyro or magnetometer without a mounting quaternion in the file does not see anything: its readings do not depend on
    the measured vector. *)
Theorem C145_no_mounting_blind :
  forall (name u : string) (f : ini) (id : Z) (step : R) (zw zn : nat -> nat -> R) (k : nat) (x y : vec),
    let t := init_three_axis (lit name) (lit u) f id step zw zn in
    (forall i, (i < 4)%nat -> entry f (text name id) "quaternion_b2c" i = 0 /\ entry f (text name id) "quaternion_b2c_" i = 0) ->
    forall i, (i < 3)%nat -> MagneticModel.three_axis_measurement (ta_sensor t) (ta_q_b2c t) k x i = MagneticModel.three_axis_measurement (ta_sensor t) (ta_q_b2c t) k y i.
Proof.
  intros name u f id step zw zn k x y. cbv zeta. intros Z i Hi. unfold MagneticModel.three_axis_measurement.
  set (s := ta_sensor _). set (q := ta_q_b2c _).
  assert (QZ : forall j, (j < 4)%nat -> q j = 0).
  { intros j Hj. change q with (rd_quaternion f (text name id) (lit "quaternion_b2c")).
    rewrite (proj2 (C145_quaternion_keys f (text name id) "quaternion_b2c")); [exact (proj1 (Z j Hj))| |exact Hj].
    intros m Hm. exact (proj2 (Z m Hm)). }
  assert (F0 : forall v j, (j < 3)%nat -> frame_conversion q v j = 0).
  { intros v j Hj. rewrite frame_dcm by exact Hj. unfold mvec. rewrite sumn3.
    pose proof (QZ 0%nat ltac:(lia)) as Z0. pose proof (QZ 1%nat ltac:(lia)) as Z1. pose proof (QZ 2%nat ltac:(lia)) as Z2. pose proof (QZ 3%nat ltac:(lia)) as Z3.
    clearbody q. destruct j as [|[|[|]]]; [| | |lia]; qunf; rewrite ?Z0, ?Z1, ?Z2, ?Z3; ring. }
  assert (NE : noisy 3 s k (frame_conversion q x) i = noisy 3 s k (frame_conversion q y) i).
  { unfold noisy, mvec. rewrite !sumn3, !F0 by lia. reflexivity. }
  unfold measure. 
  now rewrite NE.
Qed.
Print Assumptions C145_no_mounting_blind.

(** ** C146 *)
(** The words of the file.  A GNSS receiver uses the cone model exactly when the file says CONE and the simulation computes GNSS
    satellites; any other word gives the simple model.  The noise of the orbit observer is in the RTN frame exactly when the file
    says RTN. *)
Theorem C146_words :
  forall (f : ini) (id : Z) (enabled : bool),
    (GnssRxModel.gc_model (snd (fst (fst (init_gnss f id enabled)))) = GnssRxModel.AntCone <->
       rd_string f (text "GNSS_RECEIVER_" id) (lit "antenna_model") = lit "CONE" /\ enabled = true) /\
    (snd (fst (init_orbit_observer f)) = ActuatorModel.NoiseRtn <-> rd_string f (lit "ORBIT_OBSERVER") (lit "noise_frame") = lit "RTN").
Proof.
  intros f id enabled. split.
  - unfold init_gnss. cbv zeta. cbn [fst snd GnssRxModel.gc_model]. change (numbered (lit "GNSS_RECEIVER_") id) with (text "GNSS_RECEIVER_" id).
    set (w := rd_string f _ _). unfold set_antenna_model.
    destruct (str_eqb_spec w (lit "SIMPLE")) as [E|E].
    { split; [discriminate|]. intros [H _]. rewrite H in E. discriminate E. }
    destruct (str_eqb_spec w (lit "CONE")) as [C|C].
    + destruct enabled; cbn [negb]; split; try discriminate; auto. intros [_ H]. discriminate H.
    + split; [discriminate|]. intros [H _]. contradiction.
  - unfold init_orbit_observer. cbn [fst snd]. set (w := rd_string f _ _). unfold set_noise_frame.
    destruct (str_eqb_spec w (lit "INERTIAL")) as [E|E].
    { split; [discriminate|]. intros H. rewrite H in E. discriminate E. }
    destruct (str_eqb_spec w (lit "RTN")) as [C|C]; split; auto; try discriminate. intros H. contradiction.
Qed.
Print Assumptions C146_words.

(** An antenna from a file.  A side that is switched off contributes 0 dB in every direction.  A transmitter whose gain model is
    not RADIATION_PATTERN_CSV has the EIRP of the file's numbers in every direction, a receiver the G/T; with the model
    RADIATION_PATTERN_CSV the gain is the one of the table of the file.  A negative table length of a side in use ends the
    program. *)
Definition side_ok (f : ini) (sec : str) (x : string) : Prop :=
  (0 <= rd_int f sec (lit x ++ lit "_length_theta"))%Z /\ (0 <= rd_int f sec (lit x ++ lit "_length_phi"))%Z.
Definition side_gain (csv : str -> list (list R)) (f : ini) (sec : str) (x : string) (theta phi : R) (g : outcome R) : Prop :=
  (rd_string f sec (lit x ++ lit "_antenna_gain_model") <> lit "RADIATION_PATTERN_CSV" -> g = Ok (rd_double f sec (lit x ++ lit "_gain_dBi"))) /\
  (rd_string f sec (lit x ++ lit "_antenna_gain_model") = lit "RADIATION_PATTERN_CSV" ->
     g = LinkModel.pattern_gain (LinkModel.mkPattern (Z.to_nat (rd_int f sec (lit x ++ lit "_length_theta"))) (Z.to_nat (rd_int f sec (lit x ++ lit "_length_phi")))
           (rd_double f sec (lit x ++ lit "_theta_max_rad")) (rd_double f sec (lit x ++ lit "_phi_max_rad"))
           (csv (rd_string f sec (lit x ++ lit "_antenna_radiation_pattern_file")))) theta phi).
Lemma side_in_use csv f sec (x : string) theta phi p :
  init_ant_params csv f sec (lit x) true = Ok p ->
  LinkModel.ap_feeder p = rd_double f sec (lit x ++ lit "_loss_feeder_dB") /\ LinkModel.ap_pointing p = rd_double f sec (lit x ++ lit "_loss_pointing_dB") /\
  side_gain csv f sec x theta phi (LinkModel.antenna_gain p theta phi).
Proof.
  unfold init_ant_params. cbv zeta. destruct (_ || _)%bool; [discriminate|]. intros E.
  apply (f_equal (fun o => match o with Ok v => v | _ => p end)) in E. cbv beta iota in E. subst p.
  cbn [LinkModel.ap_feeder LinkModel.ap_pointing]. split; [reflexivity|]. split; [reflexivity|].
  unfold side_gain, LinkModel.antenna_gain. cbn [LinkModel.ap_model LinkModel.ap_gain LinkModel.ap_pattern].
  set (w := rd_string f sec (lit x ++ lit "_antenna_gain_model")). unfold set_gain_model. split; intros H.
  - destruct (str_eqb w (lit "ISOTROPIC")); [reflexivity|]. destruct (str_eqb_spec w (lit "RADIATION_PATTERN_CSV")); [contradiction|reflexivity].
  - destruct (str_eqb_spec w (lit "ISOTROPIC")) as [E|E]; [rewrite H in E; discriminate E|].
    destruct (str_eqb_spec w (lit "RADIATION_PATTERN_CSV")); [reflexivity|contradiction].
Qed.
Lemma side_outcome csv f sec (x : string) : (side_ok f sec x /\ exists p, init_ant_params csv f sec (lit x) true = Ok p) \/
  (~ side_ok f sec x /\ init_ant_params csv f sec (lit x) true = Throw).
Proof.
  unfold init_ant_params, side_ok. cbv zeta. destruct (Z.ltb_spec (rd_int f sec (lit x ++ lit "_length_theta")) 0); cbn [orb].
  { right. split; [lia|reflexivity]. }
  destruct (Z.ltb_spec (rd_int f sec (lit x ++ lit "_length_phi")) 0); [right|left].
  - split; [lia|reflexivity].
  - split; [lia|eauto].
Qed.
Theorem C146_antenna :
  forall (csv : str -> list (list R)) (f : ini) (id : Z),
    let sec := text "ANTENNA_" id in
    let tx := rd_bool f sec (lit "is_transmitter") in
    let rx := rd_bool f sec (lit "is_receiver") in
    ((tx = true -> side_ok f sec "tx") /\ (rx = true -> side_ok f sec "rx") ->
     exists a, init_antenna csv f id = Ok a /\ LinkModel.an_freq_MHz a = value f sec "frequency_MHz" /\ LinkModel.an_bitrate a = value f sec "tx_bitrate_bps" /\
       forall theta phi,
         (tx = false -> LinkModel.calc_tx_eirp a theta phi = Ok 0) /\ (rx = false -> LinkModel.calc_rx_gt a theta phi = Ok 0) /\
         (tx = true -> exists g, side_gain csv f sec "tx" theta phi g /\
            LinkModel.calc_tx_eirp a theta phi = let! d := g in
              Ok (10 * LinkModel.log10 (value f sec "tx_output_W") + value f sec "tx_loss_feeder_dB" + value f sec "tx_loss_pointing_dB" + d)) /\
         (rx = true -> exists g, side_gain csv f sec "rx" theta phi g /\
            LinkModel.calc_rx_gt a theta phi = let! d := g in
              Ok (value f sec "rx_loss_feeder_dB" + value f sec "rx_loss_pointing_dB" - 10 * LinkModel.log10 (value f sec "rx_system_noise_temperature_K") + d))) /\
    ((tx = true /\ ~ side_ok f sec "tx") \/ (rx = true /\ ~ side_ok f sec "rx") -> init_antenna csv f id = Throw).
Proof.
  intros csv f id. cbv zeta. unfold init_antenna. cbv zeta. change (numbered (lit "ANTENNA_") id) with (text "ANTENNA_" id). set (sec := text _ id).
  set (tx := rd_bool f sec (lit "is_transmitter")). set (rx := rd_bool f sec (lit "is_receiver")).
  assert (OFF : forall x, exists p, init_ant_params csv f sec x false = Ok p /\ LinkModel.ap_gain p = 0 /\ LinkModel.ap_model p = LinkModel.GainIsotropic).
  { intros x. eexists. split; [reflexivity|]. split; reflexivity. }
  split.
  - intros [HT HR].
    assert (T : exists p, init_ant_params csv f sec (lit "tx") tx = Ok p).
    { destruct tx; [destruct (side_outcome csv f sec "tx") as [[_ E]|[N _]]; [exact E|elim N; auto]|destruct (OFF (lit "tx")) as (p & E & _); eauto]. }
    assert (R1 : exists p, init_ant_params csv f sec (lit "rx") rx = Ok p).
    { destruct rx; [destruct (side_outcome csv f sec "rx") as [[_ E]|[N _]]; [exact E|elim N; auto]|destruct (OFF (lit "rx")) as (p & E & _); eauto]. }
    destruct T as [pt ET], R1 as [pr ER]. rewrite ET, ER. cbn [bind]. eexists. split; [reflexivity|].
    cbn [LinkModel.an_freq_MHz LinkModel.an_bitrate]. split; [reflexivity|]. split; [reflexivity|]. intros theta phi.
    unfold LinkModel.calc_tx_eirp, LinkModel.calc_rx_gt, LinkModel.tx_eirp, LinkModel.rx_gt.
    cbn [LinkModel.an_tx LinkModel.an_rx LinkModel.an_is_tx LinkModel.an_is_rx LinkModel.an_power LinkModel.an_noise_K].
    split; [|split; [|split]]; intros H; rewrite H in *.
    + destruct (OFF (lit "tx")) as (p & E & G & M). rewrite E in ET. injection ET as <-. unfold LinkModel.antenna_gain. rewrite M, G. cbn [bind]. f_equal. ring.
    + destruct (OFF (lit "rx")) as (p & E & G & M). rewrite E in ER. injection ER as <-. unfold LinkModel.antenna_gain. rewrite M, G. cbn [bind]. f_equal. ring.
    + destruct (side_in_use csv f sec "tx" theta phi pt ET) as (F & P & G). eexists. split; [exact G|]. now rewrite F, P.
    + destruct (side_in_use csv f sec "rx" theta phi pr ER) as (F & P & G). eexists. split; [exact G|]. now rewrite F, P.
  - intros [[H N]|[H N]]; rewrite H.
    + destruct (side_outcome csv f sec "tx") as [[O _]|[_ E]]; [contradiction|]. now rewrite E.
    + destruct (side_outcome csv f sec "rx") as [[O _]|[_ E]]; [contradiction|]. rewrite E.
      destruct tx; [|destruct (OFF (lit "tx")) as (p & E' & _); now rewrite E'].
      destruct (side_outcome csv f sec "tx") as [[_ [p E']]|[_ E']]; now rewrite E'.
Qed.
Print Assumptions C146_antenna.

(** The ideal components of a file share one prescaler, that of the section COMPONENT_BASE, and angles are given in degrees and
    used in radians. *)
Theorem C146_ideal_components :
  forall (f : ini) (step : R) (zw zn : nat -> nat -> R),
    let p := Z.max 1 (rd_int f (lit "COMPONENT_BASE") (lit "prescaler")) in
    fst (init_rate_observer f step zw zn) = p /\ walk_h (snd (init_rate_observer f step zw zn)) = step * IZR p /\
    init_attitude_observer f = (p, value f (lit "ATTITUDE_OBSERVER") "error_angle_standard_deviation_deg" * (PI / 180)) /\
    init_force_generator f = (p, value f (lit "FORCE_GENERATOR") "force_magnitude_standard_deviation_N",
                              value f (lit "FORCE_GENERATOR") "force_direction_standard_deviation_deg" * (PI / 180)) /\
    init_torque_generator f = (p, value f (lit "TORQUE_GENERATOR") "torque_magnitude_standard_deviation_Nm",
                               value f (lit "TORQUE_GENERATOR") "torque_direction_standard_deviation_deg" * (PI / 180)) /\
    fst (fst (init_orbit_observer f)) = p.
Proof.
  intros f step zw zn. cbv zeta.
  assert (PR : read_prescaler f (lit "COMPONENT_BASE") = Z.max 1 (rd_int f (lit "COMPONENT_BASE") (lit "prescaler"))).
  { unfold read_prescaler, read_prescaler_key. destruct (Z.leb_spec (rd_int f (lit "COMPONENT_BASE") (lit "prescaler")) 1); lia. }
  unfold init_rate_observer, init_attitude_observer, init_force_generator, init_torque_generator, init_generator, init_orbit_observer. cbv zeta. cbn [fst snd].
  rewrite PR. unfold value. split; [reflexivity|]. split; [reflexivity|]. split; [apply f_equal2; [reflexivity|apply Rmult_comm]|].
  split; [apply f_equal2; [reflexivity|apply Rmult_comm]|]. split; [apply f_equal2; [reflexivity|apply Rmult_comm]|reflexivity].
Qed.
Print Assumptions C146_ideal_components.

(** ** C147 *)
(** A battery from a file: the voltage is the number of cells in series times the file's polynomial of the discharged capacity
    (dod per cent of the cell capacity), of the file's order; a negative order gives 0 V.  The constant charging current is
    rate x capacity x parallel strings. *)
Theorem C147_battery :
  forall (f : ini) (id : Z) (step : R),
    let sec := text "BATTERY_" id in
    let b := init_battery f id step in
    let x := value f sec "initial_dod" / 100 * value f sec "cell_capacity_Ah" in
    PowerModel.bat_voltage (PowerModel.battery_copy b) =
      Some (sumn (Z.to_nat (rd_int f sec (lit "approximation_order") + 1)) (fun i => entry f sec "cell_discharge_curve_coefficients" i * x ^ i)
            * IZR (rd_int f sec (lit "number_of_series"))) /\
    ((rd_int f sec (lit "approximation_order") < 0)%Z -> PowerModel.bat_voltage (PowerModel.battery_copy b) = Some 0) /\
    PowerModel.cc_current b = value f sec "constant_charge_current_rate_C" * value f sec "cell_capacity_Ah" * IZR (rd_int f sec (lit "number_of_parallel")) /\
    PowerModel.cv_voltage b = value f sec "constant_voltage_charge_voltage_V" /\ PowerModel.dod b = value f sec "initial_dod" /\
    PowerModel.resistance b = value f sec "battery_resistance_Ohm".
Proof.
  intros f id step. cbv zeta. unfold init_battery. cbv zeta. change (numbered (lit "BATTERY_") id) with (text "BATTERY_" id). set (sec := text _ id).
  unfold PowerModel.battery_copy, PowerModel.update_voltage, PowerModel.battery_new.
  cbn [PowerModel.bat_voltage PowerModel.n_series PowerModel.curve PowerModel.dod PowerModel.capacity_Ah PowerModel.cc_current PowerModel.cv_voltage PowerModel.resistance].
  set (n := Z.to_nat _). fold (value f sec "initial_dod"). fold (value f sec "cell_capacity_Ah"). set (x := _ / 100 * _).
  assert (C : forall m d acc, PowerModel.curve_from d (map (rd_vector f sec (lit "cell_discharge_curve_coefficients")) (seq d m)) x acc =
              acc + sumn m (fun i => entry f sec "cell_discharge_curve_coefficients" (d + i) * x ^ (d + i))).
  { induction m as [|m IH]; intros d acc; cbn [seq map PowerModel.curve_from]; [unfold sumn; ring|]. rewrite IH.
    assert (SH : forall (h : nat -> R) q, sumn (S q) h = h 0%nat + sumn q (fun e => h (S e))).
    { intros h q. induction q as [|q IHq]; [unfold sumn; ring|]. change (sumn (S (S q)) h) with (sumn (S q) h + h (S q)). rewrite IHq.
      change (sumn (S q) (fun e => h (S e))) with (sumn q (fun e => h (S e)) + h (S q)). ring. }
    rewrite SH, Nat.add_0_r, Rplus_assoc. f_equal. f_equal. apply sumn_ext. intros e _. now rewrite Nat.add_succ_r. }
  assert (V : PowerModel.curve_from 0 (map (rd_vector f sec (lit "cell_discharge_curve_coefficients")) (seq 0 n)) x 0 =
              sumn n (fun i => entry f sec "cell_discharge_curve_coefficients" i * x ^ i)) by (rewrite C; cbn [plus]; ring).
  rewrite V. split; [reflexivity|]. split.
  - intros H. replace n with 0%nat by lia. f_equal. unfold sumn. ring.
  - repeat split.
Qed.
Print Assumptions C147_battery.

(** A solar array panel from a file generates efficiency x transmission x density x area x parallel x series x the cosine of the
    angle between its normal and the Sun, nothing if that is negative — when the variant that is given the position of the Sun
    built it.  The other variant leaves that information uninitialised and computing the power is undefined behaviour, unless a
    power scenario is in use. *)
Theorem C147_solar_panel :
  forall (f : ini) (id : Z) (density : R) (sun : vec),
    let sec := text "SOLAR_ARRAY_PANEL_" id in
    let normal := entry f sec "normal_vector_b" in
    0 <= value f sec "cell_efficiency" -> 0 <= value f sec "transmission_efficiency" -> 0 <= density -> 0 <= value f sec "cell_area_m2" ->
    (0 <= rd_int f sec (lit "number_of_parallel"))%Z -> (0 <= rd_int f sec (lit "number_of_series"))%Z ->
    norm 3 normal <> 0 -> norm 3 sun <> 0 ->
    panel_main (init_panel f id true) density sun =
      Ok (Rmax 0 (value f sec "cell_efficiency" * value f sec "transmission_efficiency" * density * value f sec "cell_area_m2"
                  * IZR (rd_int f sec (lit "number_of_parallel")) * IZR (rd_int f sec (lit "number_of_series"))
                  * (dot 3 normal sun / (norm 3 normal * norm 3 sun)))).
Proof.
  intros f id density sun. cbv zeta. intros E T D A P S1 NN NS. unfold panel_main, init_panel. cbv zeta. cbn [pn_sun_known]. f_equal.
  cbn [pn_cell pn_transmission pn_area pn_parallel pn_series pn_normal]. change (numbered (lit "SOLAR_ARRAY_PANEL_") id) with (text "SOLAR_ARRAY_PANEL_" id).
  set (sec := text _ id) in *. fold (value f sec "cell_efficiency"). fold (value f sec "transmission_efficiency"). fold (value f sec "cell_area_m2").
  change (rd_vector f sec (lit "normal_vector_b")) with (entry f sec "normal_vector_b"). set (normal := entry f sec "normal_vector_b") in *.
  destruct (PowerProps.C50_solar_panel_power _ _ _ _ _ _ normal sun E T D A P S1) as (_ & B & C).
  pose proof (norm_nonneg 3 normal) as N1. pose proof (norm_nonneg 3 sun) as N2.
  assert (PP : 0 < norm 3 normal * norm 3 sun) by nra.
  apply (IZR_le 0) in P. apply (IZR_le 0) in S1.
  set (K := value f sec "cell_efficiency" * value f sec "transmission_efficiency" * density * value f sec "cell_area_m2" * IZR (rd_int f sec (lit "number_of_parallel"))
            * IZR (rd_int f sec (lit "number_of_series"))) in *.
  assert (HK : 0 <= K) by (unfold K; repeat apply Rmult_le_pos; assumption).
  assert (IV : 0 < / (norm 3 normal * norm 3 sun)) by (apply Rinv_0_lt_compat; exact PP).
  destruct (Rle_dec (dot 3 normal sun) 0) as [L|L].
  - rewrite (B L). rewrite Rmax_left; [reflexivity|]. unfold Rdiv. assert (dot 3 normal sun * / (norm 3 normal * norm 3 sun) <= 0) by nra. nra.
  - rewrite (C ltac:(lra) NN NS). rewrite Rmax_right; [reflexivity|]. unfold Rdiv. apply Rmult_le_pos; [exact HK|]. apply Rmult_le_pos; lra.
Qed.
Print Assumptions C147_solar_panel.

Theorem C147_solar_panel_without_sun_refuted :
  forall (f : ini) (id : Z) (density : R) (sun : vec), panel_main (init_panel f id false) density sun = UB.
Proof. reflexivity. Qed.
Print Assumptions C147_solar_panel_without_sun_refuted.

(** A telescope from a file: it is built when pixels x degrees per pixel is less than 90 on both axes and the number of stars to
    log is not negative, the program ends otherwise; forbidden angles are given in degrees. *)
Theorem C147_telescope :
  forall (f : ini) (id : Z),
    let sec := text "TELESCOPE_" id in
    let x := IZR (rd_int f sec (lit "x_number_of_pixel")) * value f sec "x_fov_deg_per_pixel" in
    let y := IZR (rd_int f sec (lit "y_number_of_pixel")) * value f sec "y_fov_deg_per_pixel" in
    (x < 90 /\ y < 90 /\ (0 <= rd_int f sec (lit "number_of_stars_for_log"))%Z ->
     exists t, init_telescope f id = Ok t /\ TelescopeModel.tl_q_b2c t = rd_quaternion f sec (lit "quaternion_b2c") /\
       TelescopeModel.fov_x t = x * (PI / 180) /\ TelescopeModel.fov_y t = y * (PI / 180) /\
       TelescopeModel.tl_sun t = value f sec "sun_exclusion_angle_deg" * (PI / 180) /\
       TelescopeModel.tl_earth t = value f sec "earth_exclusion_angle_deg" * (PI / 180) /\
       TelescopeModel.tl_moon t = value f sec "moon_exclusion_angle_deg" * (PI / 180)) /\
    (90 <= x \/ 90 <= y \/ (rd_int f sec (lit "number_of_stars_for_log") < 0)%Z -> init_telescope f id = Throw).
Proof.
  intros f id. cbv zeta. unfold init_telescope. cbv zeta. change (numbered (lit "TELESCOPE_") id) with (text "TELESCOPE_" id). set (sec := text _ id).
  set (n := rd_int f sec (lit "number_of_stars_for_log")). unfold deg. fold (value f sec "x_fov_deg_per_pixel"). fold (value f sec "y_fov_deg_per_pixel").
  fold (value f sec "sun_exclusion_angle_deg"). fold (value f sec "earth_exclusion_angle_deg"). fold (value f sec "moon_exclusion_angle_deg").
  set (nx := rd_int f sec (lit "x_number_of_pixel")). set (ny := rd_int f sec (lit "y_number_of_pixel")).
  set (dx := value f sec "x_fov_deg_per_pixel"). set (dy := value f sec "y_fov_deg_per_pixel"). set (t := TelescopeModel.mkTele _ _ _ _ _ _ _ _ _).
  pose proof PI_RGT_0 as PP.
  destruct (TelescopeProps.C106_construction t) as [A B].
  change (TelescopeModel.tl_nx t) with nx in A, B. change (TelescopeModel.tl_ny t) with ny in A, B.
  change (TelescopeModel.tl_fx_pix t) with (dx * PI / 180) in A, B. change (TelescopeModel.tl_fy_pix t) with (dy * PI / 180) in A, B.
  split.
  - intros (HX & HY & HN). rewrite (proj2 A) by (split; nra). cbn [bind]. destruct (Z.ltb_spec n 0); [lia|]. exists t. split; [reflexivity|].
    split; [reflexivity|]. split; [unfold TelescopeModel.fov_x; cbn; field|]. split; [unfold TelescopeModel.fov_y; cbn; field|].
    split; [cbn; field|]. split; cbn; field.
  - intros H. destruct (Rlt_dec (IZR nx * dx) 90) as [HX|HX]; [|rewrite (proj2 B) by (left; nra); reflexivity].
    destruct (Rlt_dec (IZR ny * dy) 90) as [HY|HY]; [|rewrite (proj2 B) by (right; nra); reflexivity].
    rewrite (proj2 A) by (split; nra). cbn [bind]. destruct (Z.ltb_spec n 0); [reflexivity|]. destruct H as [H|[H|H]]; [lra|lra|lia].
Qed.
Print Assumptions C147_telescope.

(** ** The statements are not empty *)
(** A file whose numbers do not depend on the section: unit mounting, identity scale factors, no noise, limits -1 .. 1, field of
    view 60 degrees, 10 x 0.5 degree pixels, prescaler 10. *)
Definition ex_double (key : str) : R :=
  if str_eqb key (lit "quaternion_b2c_(3)") then 1
  else if str_eqb key (lit "scale_factor_c(0)") then 1 else if str_eqb key (lit "scale_factor_c(4)") then 1
  else if str_eqb key (lit "scale_factor_c(8)") then 1
  else if str_eqb key (lit "max_output_magnetic_moment_c_Am2(0)") then 1 else if str_eqb key (lit "min_output_magnetic_moment_c_Am2(0)") then -1
  else if str_eqb key (lit "field_of_view_deg") then 60 else if str_eqb key (lit "x_fov_deg_per_pixel") then 1 / 2
  else if str_eqb key (lit "normal_vector_b(0)") then 2 else if str_eqb key (lit "minimum_voltage_V") then 3 else 0.
Definition ex_file : ini :=
  mkIni (fun _ _ => lit "CONE") (fun _ key => ex_double key)
        (fun _ key => if str_eqb key (lit "prescaler") then 10%Z else if str_eqb key (lit "x_number_of_pixel") then 10%Z else 1%Z) (fun _ _ => true).
Example ex_mounting : forall sec, rd_quaternion ex_file sec (lit "quaternion_b2c") = q4 0 0 0 1.
Proof.
  intros sec. assert (E : forall i, rd_vector ex_file sec (lit "quaternion_b2c" ++ lit "_") i = ex_double (element (lit "quaternion_b2c" ++ lit "_") i)) by reflexivity.
  unfold rd_quaternion. cbv zeta. rewrite !E.
  change (ex_double (element (lit "quaternion_b2c" ++ lit "_") 0)) with 0. change (ex_double (element (lit "quaternion_b2c" ++ lit "_") 1)) with 0.
  change (ex_double (element (lit "quaternion_b2c" ++ lit "_") 2)) with 0. change (ex_double (element (lit "quaternion_b2c" ++ lit "_") 3)) with 1.
  rewrite req_false by lra. rewrite !E. reflexivity.
Qed.
(** The hypotheses of C144_ideal_magnetorquer and of C142, C143 *)
Example ex_unit_mounting : forall sec, unit 4 (rd_quaternion ex_file sec (lit "quaternion_b2c")).
Proof. intros sec. rewrite ex_mounting. unfold unit, dot. cbn [sumn q4]. ring. Qed.
Example ex_scale : forall sec i j, (i < 3)%nat -> (j < 3)%nat -> entry ex_file sec "scale_factor_c" (3 * i + j) = if Nat.eqb i j then 1 else 0.
Proof. intros sec i j Hi Hj. destruct i as [|[|[|]]]; [| | |lia]; (destruct j as [|[|[|]]]; [| | |lia]); reflexivity. Qed.
Example ex_moment_limits : forall sec, entry ex_file sec "min_output_magnetic_moment_c_Am2" 0 < entry ex_file sec "max_output_magnetic_moment_c_Am2" 0.
Proof.
  intros sec. change (entry ex_file sec "min_output_magnetic_moment_c_Am2" 0) with (-1).
  change (entry ex_file sec "max_output_magnetic_moment_c_Am2" 0) with 1. lra.
Qed.
(** C146: the cone model is reachable, and so is a transmitting antenna *)
Example ex_cone : GnssRxModel.gc_model (snd (fst (fst (init_gnss ex_file 0 true)))) = GnssRxModel.AntCone.
Proof. reflexivity. Qed.
Example ex_antenna : exists a, init_antenna (fun _ => []) ex_file 0 = Ok a.
Proof. unfold init_antenna. eexists. reflexivity. Qed.
(** C147: a telescope is built, a panel has a normal *)
Example ex_telescope : exists t, init_telescope ex_file 0 = Ok t /\ TelescopeModel.fov_x t = 5 * (PI / 180).
Proof.
  destruct (C147_telescope ex_file 0) as [A _]. cbv zeta in A.
  change (rd_int ex_file (text "TELESCOPE_" 0) (lit "x_number_of_pixel")) with 10%Z in A.
  change (rd_int ex_file (text "TELESCOPE_" 0) (lit "y_number_of_pixel")) with 1%Z in A.
  change (rd_int ex_file (text "TELESCOPE_" 0) (lit "number_of_stars_for_log")) with 1%Z in A.
  change (value ex_file (text "TELESCOPE_" 0) "x_fov_deg_per_pixel") with (1 / 2) in A.
  change (value ex_file (text "TELESCOPE_" 0) "y_fov_deg_per_pixel") with 0 in A.
  destruct A as (t & E & _ & X & _); [repeat split; lra || lia|]. exists t. split; [exact E|]. rewrite X. field.
Qed.
Example ex_panel_normal : norm 3 (entry ex_file (text "SOLAR_ARRAY_PANEL_" 0) "normal_vector_b") <> 0.
Proof.
  unfold norm, dot. rewrite sumn3. change (entry ex_file (text "SOLAR_ARRAY_PANEL_" 0) "normal_vector_b" 0%nat) with 2.
  change (entry ex_file (text "SOLAR_ARRAY_PANEL_" 0) "normal_vector_b" 1%nat) with 0. change (entry ex_file (text "SOLAR_ARRAY_PANEL_" 0) "normal_vector_b" 2%nat) with 0.
  intros H. assert (0 < sqrt (2 * 2 + 0 * 0 + 0 * 0)) by (apply sqrt_lt_R0; lra). lra.
Qed.
(** C139: two gyros are different devices, of the file's prescaler and the time step of C141 *)
Example ex_two_gyros : (KGyro, 1%Z) <> (KGyro, 2%Z).
Proof. discriminate. Qed.
Example ex_gyro_step : forall e, device_step (build KGyro e ex_file 1) = Some (su_step e * 10).
Proof. reflexivity. Qed.
