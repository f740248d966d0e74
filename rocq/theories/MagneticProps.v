(** C89-C91: magnetorquers, commands held over several steps, magnetometers and gyros. *)
From Coq Require Import Reals Lra Lia List Bool ZArith.
From Verif Require Import RBase VecModel VecProofs QuatModel QuatSpec QuatProofs OdeModel SensorModel SensorProofs WheelJitterProofs
  MagneticModel MagneticSpec MagneticProofs.
Import ListNotations.
Open Scope R_scope.

(** ** C89 *)
(** A command takes effect in the next step, whatever happened before: it is limited per axis, then
    bias, random walk and noise are added, then the scale factor matrix is applied; the torque is the
    moment in the body frame times the field in tesla. *)
Theorem C89_commanded_step :
  forall (c : mtq_config) (es : list mtq_op) (v field : vec),
    (forall i, (i < 3)%nat -> mq_min c i <= mq_max c i) ->
    let m := mtq_run c mtq_new (es ++ [MtqCommand v; MtqStep field]) in
    let k := mtq_steps es in
    veq 3 (mq_moment_c m)
      (mvec 3 (mq_scale c) (fun i => restrict (mq_min c i) (mq_max c i) (v i) + mq_bias c i
         + walk_after (mq_walk_limit c) (mq_walk_draws c) (mq_walk_h c) k i + mq_noise c i k)) /\
    veq 3 (mq_moment_b m) (inverse_frame_conversion (mq_q_b2c c) (mq_moment_c m)) /\
    veq 3 (mq_torque_b m) (cross (mq_moment_b m) (vscal (/ 10 ^ 9) field)).
Proof.
  intros c es v field H. cbv zeta. change [MtqCommand v; MtqStep field] with ([MtqCommand v] ++ [MtqStep field]).
  rewrite app_assoc, run_step, run_step. cbn [mtq_do]. unfold mtq_main. cbn [mq_moment_c mq_moment_b mq_torque_b mtq_command mq_calls].
  rewrite mtq_run_calls. cbn [mtq_new mq_calls]. rewrite Nat.add_0_l. split; [|split].
  - intros i Hi. unfold mvec. apply sumn_ext. intros j Hj. f_equal. unfold disturbed_moment. rewrite limit_restrict by (apply H; exact Hj). reflexivity.
  - apply conj_frame.
  - intros i _. reflexivity.
Qed.
Print Assumptions C89_commanded_step.

(** In every reachable state the last torque is perpendicular to the last moment; after a step it is
    also perpendicular to the field, its square is |m|^2|B|^2 - (m.B)^2 (in tesla), so it never
    exceeds |m||B| and vanishes for a moment along the field. *)
Theorem C89_torque_geometry :
  forall (c : mtq_config) (es : list mtq_op) (field : vec),
    unit 4 (mq_q_b2c c) ->
    let m := mtq_run c mtq_new (es ++ [MtqStep field]) in
    let B := vscal (/ 10 ^ 9) field in
    dot 3 (mq_torque_b m) (mq_moment_b m) = 0 /\ dot 3 (mq_torque_b m) field = 0 /\
    dot 3 (mq_torque_b m) (mq_torque_b m) = dot 3 (mq_moment_b m) (mq_moment_b m) * dot 3 B B - dot 3 (mq_moment_b m) B * dot 3 (mq_moment_b m) B /\
    norm 3 (mq_torque_b m) <= norm 3 (mq_moment_c m) * (norm 3 field / 10 ^ 9).
Proof.
  intros c es field U. cbv zeta. rewrite run_step. cbn [mtq_do]. unfold mtq_main. cbn [mq_moment_c mq_moment_b mq_torque_b].
  set (mc := mvec 3 _ _). set (mb := frame_conversion _ _).
  assert (Nb : norm 3 mb = norm 3 mc).
  { unfold mb. rewrite (norm3_ext _ _ (conj_frame _ _)). apply inverse_frame_norm, U. }
  split; [apply cross_dot_l|]. split.
  { pose proof (cross_dot_r mb (vscal (/ 10 ^ 9) field)) as E. unfold dot in *. rewrite sumn3 in *. unfold vscal in E at 2 4 6.
    assert (P : / 10 ^ 9 <> 0) by (apply Rinv_neq_0_compat, pow_nonzero; lra).
    apply (Rmult_eq_reg_l (/ 10 ^ 9)); [|exact P]. rewrite Rmult_0_r, <- E. ring. }
  split; [apply lagrange|].
  assert (L := lagrange mb (vscal (/ 10 ^ 9) field)).
  assert (NB : norm 3 (vscal (/ 10 ^ 9) field) = norm 3 field / 10 ^ 9).
  { unfold norm. replace (sumn 3 (fun i => vscal (/ 10 ^ 9) field i * vscal (/ 10 ^ 9) field i)) with ((/ 10 ^ 9) ^ 2 * sumn 3 (fun i => field i * field i)).
    - rewrite sqrt_mult_alt by (apply pow_le; left; apply Rinv_0_lt_compat, pow_lt; lra).
      rewrite sqrt_pow2 by (left; apply Rinv_0_lt_compat, pow_lt; lra). unfold Rdiv. ring.
    - rewrite !sumn3. unfold vscal. ring. }
  rewrite <- Nb, <- NB. unfold norm at 1. change (sumn 3 (fun i => cross mb (vscal (/ 10 ^ 9) field) i * cross mb (vscal (/ 10 ^ 9) field) i))
    with (dot 3 (cross mb (vscal (/ 10 ^ 9) field)) (cross mb (vscal (/ 10 ^ 9) field))). rewrite L.
  rewrite <- (sqrt_square (norm 3 mb * norm 3 (vscal (/ 10 ^ 9) field))) by (apply Rmult_le_pos; apply norm_nonneg).
  apply sqrt_le_1_alt.
  replace (norm 3 mb * norm 3 (vscal (/ 10 ^ 9) field) * (norm 3 mb * norm 3 (vscal (/ 10 ^ 9) field)))
    with (norm 3 mb * norm 3 mb * (norm 3 (vscal (/ 10 ^ 9) field) * norm 3 (vscal (/ 10 ^ 9) field))) by ring.
  rewrite !norm_sq.   pose proof (Rle_0_sqr (dot 3 mb (vscal (/ 10 ^ 9) field))) as Q. unfold Rsqr in Q. unfold dot, sq in *. lra.
Qed.
Print Assumptions C89_torque_geometry.

(** Without errors a command yields the commanded moment, limited, as long as it is held. *)
Theorem C89_ideal :
  forall (c : mtq_config) (es : list mtq_op) (v : vec) (fields : nat -> vec) (n : nat),
    ideal_mtq c -> unit 4 (mq_q_b2c c) -> (forall i, (i < 3)%nat -> mq_min c i <= mq_max c i) ->
    let m := mtq_run c mtq_new (es ++ MtqCommand v :: map (fun k => MtqStep (fields k)) (seq 0 (S n))) in
    veq 3 (mq_moment_c m) (fun i => restrict (mq_min c i) (mq_max c i) (v i)) /\
    veq 3 (mq_torque_b m) (cross (inverse_frame_conversion (mq_q_b2c c) (fun i => restrict (mq_min c i) (mq_max c i) (v i))) (vscal (/ 10 ^ 9) (fields n))).
Proof.
  intros c es v fields n (S1 & Bz & N & W) U H. cbv zeta.
  assert (E : veq 3 (mq_moment_c (mtq_run c mtq_new (es ++ MtqCommand v :: map (fun k => MtqStep (fields k)) (seq 0 (S n))))) (fun i => restrict (mq_min c i) (mq_max c i) (v i))).
  { rewrite mtq_run_app. set (m0 := mtq_run c mtq_new es). unfold mtq_run at 1. cbn [fold_left mtq_do].
    change (fold_left (mtq_do c) ?l ?m) with (mtq_run c m l).
    assert (BM : biased_mtq c) by (split; [exact S1|split; [exact N|exact W]]).
    induction n as [|n IH]; intros i Hi.
    - cbn [seq map]. unfold mtq_run. cbn [fold_left mtq_do]. rewrite biased_step by assumption. rewrite Bz, limit_restrict by (apply H; exact Hi).
      cbn [mq_moment_c mtq_command]. ring.
    - rewrite (fields_app _ (S n)), run_step. cbn [mtq_do]. rewrite biased_step by assumption. rewrite IH by exact Hi.
      rewrite Bz, limit_restrict by (apply H; exact Hi). rewrite restrict_id by (apply restrict_in, H; exact Hi). ring. }
  split; [exact E|]. rewrite (fields_app _ n) in *. rewrite app_comm_cons, app_assoc in *. rewrite run_step in *. cbn [mtq_do] in *.
  unfold mtq_main in *. cbn [mq_torque_b mq_moment_c] in *. set (mc := mvec 3 _ _) in *.
  assert (F : veq 3 (frame_conversion (qconj (mq_q_b2c c)) mc) (inverse_frame_conversion (mq_q_b2c c) (fun i => restrict (mq_min c i) (mq_max c i) (v i)))).
  { intros i Hi. rewrite conj_frame by exact Hi. apply inverse_frame_ext; assumption. }
  intros [|[|[|i]]] Hi; try lia; unfold cross; rewrite !F by lia; reflexivity.
Qed.
Print Assumptions C89_ideal.

(** Switching off stops the actuator and forgets the command: torque and moments are zero, and an
    error-free torquer switched on again stays at zero until it is commanded. *)
Theorem C89_power_off :
  forall (c : mtq_config) (es : list mtq_op),
    let m := mtq_run c mtq_new (es ++ [MtqPowerOff]) in
    (forall i, mq_moment_c m i = 0 /\ mq_moment_b m i = 0 /\ mq_torque_b m i = 0) /\
    (ideal_mtq c -> (forall i, (i < 3)%nat -> mq_min c i <= 0 <= mq_max c i) ->
     forall (fields : nat -> vec) (n i : nat), (i < 3)%nat ->
       let m' := mtq_run c mtq_new (es ++ [MtqPowerOff] ++ map (fun k => MtqStep (fields k)) (seq 0 n)) in
       mq_moment_c m' i = 0 /\ mq_torque_b m' i = 0).
Proof.
  intros c es. cbv zeta. split.
  - intros i. rewrite run_step. cbn. unfold vscal. repeat split; ring.
  - intros (S1 & Bz & N & W) H fields n.
    assert (BM : biased_mtq c) by (split; [exact S1|split; [exact N|exact W]]).
    rewrite app_assoc, mtq_run_app, run_step. set (m0 := mtq_do c _ _).
    assert (Z0 : forall i, mq_moment_c m0 i = 0 /\ mq_torque_b m0 i = 0) by (intros i; unfold m0; cbn; unfold vscal; split; ring).
    assert (E : forall i, (i < 3)%nat -> mq_moment_c (mtq_run c m0 (map (fun k => MtqStep (fields k)) (seq 0 n))) i = 0).
    { induction n as [|n IH]; intros i Hi; [apply Z0|]. rewrite fields_app, run_step. cbn [mtq_do]. rewrite biased_step by assumption.
      rewrite IH by exact Hi. specialize (H i Hi). rewrite Bz, limit_restrict by lra. rewrite restrict_id by lra. ring. }
    intros i Hi. split; [apply E, Hi|]. destruct n as [|n]; [apply Z0|]. rewrite fields_app, run_step in *. cbn [mtq_do] in *.
    unfold mtq_main in *. cbn [mq_moment_c mq_torque_b] in *. set (mc := mvec 3 _ _) in *.
    assert (F : veq 3 (frame_conversion (qconj (mq_q_b2c c)) mc) (vconst 0)).
    { intros k Hk. rewrite frame_dcm by exact Hk. unfold mvec. rewrite sumn3, !E by lia. unfold vconst. ring. }
    destruct i as [|[|[|i]]]; try lia; unfold cross; rewrite !F by lia; unfold vconst; ring.
Qed.
Print Assumptions C89_power_off.

(** ** C90 *)
(** The output overwrites the command.  With a constant bias b >= 0 (and no other error) a command in
    range that is held for n+1 steps yields min (v + (n+1) b) (max + b). *)
Theorem C90_held_command_bias :
  forall (c : mtq_config) (es : list mtq_op) (v : vec) (fields : nat -> vec) (n i : nat),
    biased_mtq c -> (i < 3)%nat -> mq_min c i <= v i <= mq_max c i -> 0 <= mq_bias c i ->
    mq_moment_c (mtq_run c mtq_new (es ++ MtqCommand v :: map (fun k => MtqStep (fields k)) (seq 0 (S n)))) i
    = Rmin (v i + INR (S n) * mq_bias c i) (mq_max c i + mq_bias c i).
Proof.
  intros c es v fields n i Hc Hi Hv Hb. rewrite mtq_run_app. set (m0 := mtq_run c mtq_new es). unfold mtq_run at 1. cbn [fold_left mtq_do].
  change (fold_left (mtq_do c) ?l ?m) with (mtq_run c m l). apply biased_run; try assumption. reflexivity.
Qed.
Print Assumptions C90_held_command_bias.

(** With a scale factor s in [0, 1] per axis (and no other error) the held command decays as s^n. *)
Theorem C90_held_command_scale :
  forall (c : mtq_config) (s : vec) (es : list mtq_op) (v : vec) (fields : nat -> vec) (n i : nat),
    scaled_mtq c s -> (i < 3)%nat -> mq_min c i <= 0 <= mq_max c i -> mq_min c i <= v i <= mq_max c i -> 0 <= s i <= 1 ->
    mq_moment_c (mtq_run c mtq_new (es ++ MtqCommand v :: map (fun k => MtqStep (fields k)) (seq 0 n))) i = s i ^ n * v i.
Proof.
  intros c s es v fields n i Hc Hi H0 Hv Hs. rewrite mtq_run_app. set (m0 := mtq_run c mtq_new es). unfold mtq_run at 1. cbn [fold_left mtq_do].
  change (fold_left (mtq_do c) ?l ?m) with (mtq_run c m l). apply scaled_run; try assumption. reflexivity.
Qed.
Print Assumptions C90_held_command_scale.

(** A torquer with a bias of 1 Am2 and limits of +-10 Am2 *)
Definition biased_example : mtq_config :=
  mkMtqConfig (q4 0 0 0 1) mident (vconst 10) (vconst (-10)) (vconst 1) (vconst 0) (1 / 10) (fun _ _ => 0) (fun _ _ => 0).

(** So a held command does not keep its output: the claim that it does, for errors that do not change
    with time, is false. *)
Theorem C90_held_command_constant_refuted :
  ~ (forall (c : mtq_config) (v : vec) (fields : nat -> vec) (n : nat),
       biased_mtq c -> (forall i, mq_min c i <= v i <= mq_max c i) ->
       veq 3 (mq_moment_c (mtq_run c mtq_new (MtqCommand v :: map (fun k => MtqStep (fields k)) (seq 0 (S n)))))
             (mq_moment_c (mtq_run c mtq_new (MtqCommand v :: map (fun k => MtqStep (fields k)) (seq 0 1))))).
Proof.
  intros H. assert (BM : biased_mtq biased_example) by (split; [reflexivity|split; reflexivity]).
  specialize (H biased_example (vconst 0) (fun _ => vconst 0) 1%nat BM ltac:(intros i; cbn; unfold vconst; lra) 0%nat ltac:(lia)).
  pose proof (C90_held_command_bias biased_example [] (vconst 0) (fun _ => vconst 0) 1 0 BM ltac:(lia) ltac:(cbn; unfold vconst; lra) ltac:(cbn; unfold vconst; lra)) as A1.
  pose proof (C90_held_command_bias biased_example [] (vconst 0) (fun _ => vconst 0) 0 0 BM ltac:(lia) ltac:(cbn; unfold vconst; lra) ltac:(cbn; unfold vconst; lra)) as A0.
  rewrite app_nil_l in A0, A1.
  pose proof (eq_trans (eq_sym A1) (eq_trans H A0)) as G. clear H. rename G into H. cbn [mq_bias mq_max biased_example] in H. unfold vconst in H. cbn [INR] in H. rewrite Rmin_left in H by lra. rewrite Rmin_left in H by lra. lra.
Qed.
Print Assumptions C90_held_command_constant_refuted.

(** ** C91 *)
(** After any history of interference updates and added biases, the bias of the magnetometer is the
    initial one, plus the biases added by the user, plus for each interference object the polynomial
    of the moment at its latest update: nothing accumulates. *)
Theorem C91_interference_does_not_accumulate :
  forall (coefs : nat -> list mat) (b : vec) (n : nat) (es : list bias_op) (k : nat),
    List.Forall (fun e => ~ sets_bias e /\ uses n e) es ->
    if_bias (bias_run coefs (interfered_new b) es) k
    = b k + added es k + sumn n (fun i => present_bias coefs i es k).
Proof. intros coefs b n es k H. exact (proj2 (bias_history coefs b n es H) k). Qed.
Print Assumptions C91_interference_does_not_accumulate.

(** Setting the bias while an interference is applied is not remembered by the interference: its next
    update takes its old contribution off the new bias. *)
Theorem C91_set_bias_under_interference :
  forall (coefs : nat -> list mat) (b b' : vec) (n : nat) (es : list bias_op) (i : nat) (m : vec) (k : nat),
    List.Forall (fun e => ~ sets_bias e /\ uses n e) es ->
    if_bias (bias_run coefs (interfered_new b) (es ++ [SetBias b'; Interfere i m])) k
    = b' k - present_bias coefs i es k + polynomial_bias (coefs i) m k.
Proof.
  intros coefs b b' n es i m k H. destruct (bias_history coefs b n es H) as [P _]. cbv zeta in P.
  rewrite bias_run_app. set (s := bias_run coefs (interfered_new b) es) in *. unfold bias_run. cbn [fold_left bias_do].
  unfold update_interference. cbn [if_bias if_prev]. unfold vadd, vscal. rewrite P, interference_polynomial. ring.
Qed.
Print Assumptions C91_set_bias_under_interference.

(** Magnetometers and gyros: every output is within the measurable range; without errors and in range
    it is the true vector in the component frame, so of the true length. *)
Theorem C91_three_axis_sensors :
  forall (s0 : sensor) (q : quat) (k : nat) (x : vec),
    unit 4 q ->
    let s := sensor_new s0 in
    let y := three_axis_measurement s q k x in
    (forall i, Rabs (y i) <= r_const s i) /\
    (scale s0 = mident -> (forall i, bias s0 i = 0) -> (forall i k, walk_draws s0 i k = 0) -> (forall i k, normal_draws s0 i k = 0) ->
     (forall i, (i < 3)%nat -> Rabs (mvec 3 (to_dcm q) x i) < r_const s i) ->
     veq 3 y (mvec 3 (to_dcm q) x) /\ norm 3 y = norm 3 x).
Proof.
  intros s0 q k x U. cbv zeta. set (s := sensor_new s0).
  assert (R : forall i, 0 <= r_const s i <= r_zero s i) by (intros i; apply range_check_ok).
  split; [intros i; apply clip_bound, R|]. intros S1 B W N Hr.
  assert (E : veq 3 (three_axis_measurement s q k x) (mvec 3 (to_dcm q) x)).
  { intros i Hi. unfold three_axis_measurement, measure.
    assert (En : noisy 3 s k (frame_conversion q x) i = mvec 3 (to_dcm q) x i).
    { unfold noisy. unfold s, sensor_new. cbn [scale bias walk_limit walk_draws walk_h normal_draws].
      rewrite S1, B, N, walk_zero by exact W. rewrite mvec_ident by exact Hi. rewrite frame_dcm by exact Hi. ring. }
    rewrite En. specialize (Hr i Hi). specialize (R i). set (t := mvec 3 (to_dcm q) x i) in *.
    apply Rabs_def2 in Hr. unfold clip. rewrite (rle_false (r_const s i) t) by lra. cbn [andb].
    rewrite (rle_false t (- r_const s i)) by lra. cbn [andb]. rewrite rle_false; [reflexivity|].
    assert (Rabs t < r_const s i) by (apply Rabs_def1; lra). lra. }
  split; [exact E|]. rewrite (norm3_ext _ _ E). rewrite <- (frame_norm q x U). symmetry. apply norm3_ext, frame_dcm.
Qed.
Print Assumptions C91_three_axis_sensors.

(** ** Examples *)
Example biased_example_hypotheses :
  biased_mtq biased_example /\ unit 4 (mq_q_b2c biased_example) /\ (forall i, mq_min biased_example i <= mq_max biased_example i).
Proof.
  split; [split; [reflexivity|split; reflexivity]|]. split; [unfold unit, dot; cbn; ring|]. intros i. cbn. unfold vconst. lra.
Qed.
Definition ideal_example : mtq_config :=
  mkMtqConfig (q4 0 0 0 1) mident (vconst 10) (vconst (-10)) (vconst 0) (vconst 0) (1 / 10) (fun _ _ => 0) (fun _ _ => 0).
Example ideal_example_torque :
  ideal_mtq ideal_example /\
  mq_torque_b (mtq_run ideal_example mtq_new [MtqCommand (v3 20 0 0); MtqStep (v3 0 (10 ^ 9) 0)]) 2%nat = 10.
Proof.
  split; [split; [reflexivity|split; [reflexivity|split; reflexivity]]|].
  destruct (C89_ideal ideal_example [] (v3 20 0 0) (fun _ => v3 0 (10 ^ 9) 0) 0) as [_ T].
  - split; [reflexivity|split; [reflexivity|split; reflexivity]].
  - unfold unit, dot; cbn; ring.
  - intros i _. cbn. unfold vconst. lra.
  - cbn [app seq map] in T. rewrite T by lia. unfold cross. rewrite !inverse_frame_dcm by lia. unfold mvec. rewrite !sumn3.
    cbn [ideal_example mq_min mq_max mq_q_b2c]. unfold restrict, vconst, v3, vscal.
    rewrite (Rmax_right (-10) 20) by lra. rewrite (Rmin_left 10 20) by lra. rewrite (Rmax_right (-10) 0) by lra. rewrite (Rmin_right 10 0) by lra.
    unfold mtrans, to_dcm, q4, m3, v3. field.
Qed.
Example interference_example :
  (forall k, if_bias (bias_run (fun _ => [mident]) (interfered_new (vconst 3)) [Interfere 0 (v3 1 0 0); AddBias (vconst 2); Interfere 0 (v3 7 0 0)]) k
     = 3 + 2 + polynomial_bias [mident] (v3 7 0 0) k) /\ polynomial_bias [mident] (v3 7 0 0) 0%nat = 7.
Proof.
  split.
  - intros k. rewrite (C91_interference_does_not_accumulate _ _ 1) by (repeat constructor; cbn; auto).
    cbn [added sumn]. unfold present_bias. cbn [last_moment Nat.eqb]. unfold vconst. ring.
  - unfold polynomial_bias. cbn. ring.
Qed.
