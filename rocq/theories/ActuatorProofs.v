(** Lemmas for thruster, force and torque generator, ideal observers. *)
From Coq Require Import Reals Lra Lia List Bool ZArith Psatz.
From Verif Require Import Base RBase VecModel VecProofs QuatModel QuatSpec QuatProofs PowerPortModel WheelModel WheelSpec WheelProofs OrbitModel HillProofs SunSensorProofs MagneticProofs GnssRxProofs ActuatorModel.
Import ListNotations.
Open Scope R_scope.

(** * Rotations by a quaternion made of any axis *)
Lemma eps_pos : 0 < DBL_EPSILON.
Proof. unfold DBL_EPSILON. apply Rinv_0_lt_compat, pow_lt. lra. Qed.
Lemma frame_axis (axis : vec) angle (v : vec) i : (i < 3)%nat ->
  frame_conversion (q_axis_angle axis angle) v i =
     (cos (angle / 2) * cos (angle / 2) - sin (angle / 2) * sin (angle / 2) * dot 3 axis axis) * v i
     - 2 * sin (angle / 2) * cos (angle / 2) * cross axis v i
     + 2 * sin (angle / 2) * sin (angle / 2) * dot 3 axis v * axis i.
Proof.
  intros Hi. replace (angle / 2) with (angle * (1 / 2)) by field. i3 i Hi; unfold frame_conversion, q_axis_angle, dot, cross; rewrite !sumn3; cbv [qmul qmulv qconj q4 Nat.ltb Nat.leb]; ring.
Qed.
Lemma cos_half a : cos a = cos (a / 2) * cos (a / 2) - sin (a / 2) * sin (a / 2).
Proof. replace a with (2 * (a / 2)) at 1 by field. rewrite cos_2a. reflexivity. Qed.
Lemma sc2 a : sin a * sin a + cos a * cos a = 1.
Proof. pose proof (sin2_cos2 a) as H. unfold Rsqr in H. exact H. Qed.
Lemma normalized_unit3 v : norm 3 v <> 0 -> unit 3 (normalize 3 v).
Proof. intros H. unfold unit. change (dot 3 (normalize 3 v) (normalize 3 v)) with (sq 3 (normalize 3 v)). rewrite <- norm_sq, normalize_norm by exact H. ring. Qed.
Lemma dot_sym u v : dot 3 u v = dot 3 v u.
Proof. unfold dot. rewrite !sumn3. ring. Qed.
Lemma norm_unit_sq v k : 0 <= k -> dot 3 v v = k * k -> norm 3 v = k.
Proof. intros K E. unfold norm. change (sumn 3 (fun i => v i * v i)) with (dot 3 v v). rewrite E. apply sqrt_square. exact K. Qed.

(** rotation of d about an axis perpendicular to it, of any length *)
Lemma tilt_dot (a d : vec) angle : unit 3 d -> dot 3 a d = 0 ->
  dot 3 (frame_conversion (q_axis_angle a angle) d) d = cos (angle / 2) * cos (angle / 2) - dot 3 a a * (sin (angle / 2) * sin (angle / 2)).
Proof.
  intros U O. unfold unit, dot in *. rewrite !sumn3 in *. rewrite !frame_axis by lia. unfold dot. rewrite !sumn3, O. cbn [cross].
  set (c := cos (angle / 2)). set (s := sin (angle / 2)). clearbody c s.
  set (A := a 0%nat * a 0%nat + a 1%nat * a 1%nat + a 2%nat * a 2%nat). 
  transitivity ((c * c - s * s * A) * (d 0%nat * d 0%nat + d 1%nat * d 1%nat + d 2%nat * d 2%nat)); [ring|]. rewrite U. ring.
Qed.
Lemma tilt_norm (a d : vec) angle : unit 3 d -> dot 3 a d = 0 ->
  norm 3 (frame_conversion (q_axis_angle a angle) d) = cos (angle / 2) * cos (angle / 2) + dot 3 a a * (sin (angle / 2) * sin (angle / 2)).
Proof.
  intros U O. apply norm_unit_sq.
  { assert (0 <= dot 3 a a) by (change (0 <= sq 3 a); apply sq_nonneg). 
    pose proof (Rle_0_sqr (cos (angle / 2))) as X. pose proof (Rle_0_sqr (sin (angle / 2))) as Y. unfold Rsqr in *. nra. }
  unfold unit, dot in U, O. unfold dot at 1. rewrite !sumn3 in *. rewrite !frame_axis by lia. unfold dot. rewrite !sumn3, O. cbn [cross].
  set (c := cos (angle / 2)). set (s := sin (angle / 2)). clearbody c s.
  set (x := a 0%nat) in *. set (y := a 1%nat) in *. set (z := a 2%nat) in *. set (p := d 0%nat) in *. set (q := d 1%nat) in *. set (r := d 2%nat) in *. clearbody x y z p q r.
  set (A := x * x + y * y + z * z).
  assert (CR : (y * r - z * q) * (y * r - z * q) + (z * p - x * r) * (z * p - x * r) + (x * q - y * p) * (x * q - y * p) = A).
  { transitivity (A * (p * p + q * q + r * r) - (x * p + y * q + z * r) * (x * p + y * q + z * r)); [unfold A; ring|]. rewrite U, O. ring. }
  clearbody A.
  transitivity ((c * c - s * s * A) * (c * c - s * s * A) * (p * p + q * q + r * r) + 4 * s * s * c * c * ((y * r - z * q) * (y * r - z * q) + (z * p - x * r) * (z * p - x * r) + (x * q - y * p) * (x * q - y * p))); [ring|].
  rewrite U, CR. ring.
Qed.
Lemma spin_fixed (d : vec) angle : unit 3 d -> veq 3 (frame_conversion (q_axis_angle d angle) d) d.
Proof.
  intros U i Hi. rewrite frame_axis by exact Hi. rewrite U. unfold unit in U.
  assert (C : cross d d i = 0) by (i3 i Hi; cbn [cross]; ring). rewrite C. replace (cos (angle / 2) * cos (angle / 2)) with (1 - sin (angle / 2) * sin (angle / 2)) by (pose proof (sc2 (angle / 2)); lra). ring.
Qed.

(** * Thruster *)
Lemma thrust_axis_unit c i : norm 3 (tc_direction c) <> 0 ->
  unit 3 (frame_conversion (q_axis_angle (normalize 3 (tc_direction c)) (ti_turn i)) (v3 1 0 0)) /\
  dot 3 (frame_conversion (q_axis_angle (normalize 3 (tc_direction c)) (ti_turn i)) (v3 1 0 0)) (normalize 3 (tc_direction c)) = normalize 3 (tc_direction c) 0%nat.
Proof.
  intros H. pose proof (normalized_unit3 _ H) as U. set (d := normalize 3 (tc_direction c)) in *. split.
  - pose proof (dcm_rotation _ (axis_angle_unit d (ti_turn i) U)) as RT. unfold unit.
    pose proof (rotation_dot _ (v3 1 0 0) (v3 1 0 0) RT) as RD.
    assert (E1 : dot 3 (v3 1 0 0) (v3 1 0 0) = 1) by (unfold dot; rewrite sumn3; cbn [v3]; ring). rewrite E1 in RD.
    apply (eq_trans (y := dot 3 (mvec 3 (to_dcm (q_axis_angle d (ti_turn i))) (v3 1 0 0)) (mvec 3 (to_dcm (q_axis_angle d (ti_turn i))) (v3 1 0 0)))); [|exact RD].
    apply dot_ext; apply frame_dcm.
  - unfold dot at 1. rewrite sumn3. rewrite !frame_axis by lia. unfold unit, dot in U. rewrite sumn3 in U. unfold dot. rewrite !sumn3, U. cbn [cross v3].
    pose proof (sc2 (ti_turn i / 2)) as T. set (cc := cos (ti_turn i / 2)) in *. set (s := sin (ti_turn i / 2)) in *. clearbody cc s.
    set (p := d 0%nat) in *. set (q := d 1%nat) in *. set (r := d 2%nat) in *. clearbody p q r.
    transitivity ((cc * cc - s * s * 1) * p + 2 * s * s * p * (p * p + q * q + r * r)); [ring|]. rewrite U. replace (cc * cc) with (1 - s * s) by lra. ring.
Qed.
Lemma thr_direction_unit c i : norm 3 (tc_direction c) <> 0 -> unit 3 (thr_direction c i).
Proof.
  intros H. pose proof (normalized_unit3 _ H) as U. unfold thr_direction. destruct (rlt _ _); [|exact U].
  destruct (thrust_axis_unit c i H) as [A _].
  set (a := frame_conversion (q_axis_angle (normalize 3 (tc_direction c)) (ti_turn i)) (v3 1 0 0)) in *. set (d := normalize 3 (tc_direction c)) in *.
  pose proof (dcm_rotation _ (axis_angle_unit a (ti_angle i) A)) as RT. unfold unit. rewrite <- U.
  rewrite <- (rotation_dot _ d d RT). apply dot_ext; apply frame_dcm.
Qed.
Lemma thr_deviation c i : norm 3 (tc_direction c) <> 0 -> DBL_EPSILON < tc_direction_sigma c ->
  dot 3 (thr_direction c i) (normalize 3 (tc_direction c)) =
  cos (ti_angle i) + (1 - cos (ti_angle i)) * (normalize 3 (tc_direction c) 0%nat * normalize 3 (tc_direction c) 0%nat).
Proof.
  intros H S'. unfold thr_direction. rewrite rlt_true by lra. destruct (thrust_axis_unit c i H) as [A D]. pose proof (normalized_unit3 _ H) as U.
  set (a := frame_conversion (q_axis_angle (normalize 3 (tc_direction c)) (ti_turn i)) (v3 1 0 0)) in *. set (d := normalize 3 (tc_direction c)) in *.
  clearbody a d. unfold dot at 1. rewrite sumn3, !frame_axis by lia. rewrite A, D. unfold unit, dot in U, A, D. rewrite sumn3 in *. cbn [cross].
  rewrite (cos_half (ti_angle i)). pose proof (sc2 (ti_angle i / 2)) as T. set (cc := cos (ti_angle i / 2)) in *. set (s := sin (ti_angle i / 2)) in *. clearbody cc s.
  transitivity ((cc * cc - s * s * 1) * (d 0%nat * d 0%nat + d 1%nat * d 1%nat + d 2%nat * d 2%nat) + 2 * s * s * d 0%nat * (a 0%nat * d 0%nat + a 1%nat * d 1%nat + a 2%nat * d 2%nat)); [ring|].
  rewrite U, D. replace (1 - (cc * cc - s * s)) with (2 * s * s) by lra. ring.
Qed.
Lemma thr_length_bounds c : 0 < tc_step c -> 0 <= tc_dead c ->
  tc_dead c < INR (thr_buffer_length c) * tc_step c <= tc_dead c + tc_step c.
Proof.
  intros Hs Hd. unfold thr_buffer_length. rewrite plus_INR. set (x := tc_dead c / tc_step c).
  assert (Hx : 0 <= x) by (apply Rmult_le_pos; [lra|apply Rlt_le, Rinv_0_lt_compat, Hs]).
  assert (Ex : tc_dead c = x * tc_step c) by (unfold x; field; lra).
  destruct (base_Int_part x) as [B1 B2].
  assert (Hz : (0 <= Int_part x)%Z).
  { apply le_IZR. apply Rnot_lt_le. intros K. assert (Int_part x < 0)%Z as K2 by (apply lt_IZR; exact K).
    assert (IZR (Int_part x) <= -1) by (apply (IZR_le _ (-1)); lia). lra. }
  rewrite INR_IZR_INZ, Z2Nat.id by exact Hz. cbn [INR]. rewrite Ex. split; [apply Rmult_lt_compat_r; lra|].
  replace (x * tc_step c + tc_step c) with ((x + 1) * tc_step c) by ring. apply Rmult_le_compat_r; lra.
Qed.
(** duty set before each call *)
Fixpoint thr_run (c : thr_config) (u : nat -> R) (w : nat -> thr_input) (n : nat) : thr :=
  match n with O => thr_new c | S k => thr_main c (w k) (set_duty (u k) (thr_run c u w k)) end.
Lemma thr_history c u w n : 0 < tc_step c -> 0 <= tc_tau c ->
  th_lag (thr_run c u w n) = lag_response (tc_step c) (tc_tau c) (delayed (thr_buffer_length c) u) n /\
  th_buffer (thr_run c u w n) = window (thr_buffer_length c) u n.
Proof.
  intros Hs Ht. assert (P : (0 < thr_buffer_length c)%nat) by (unfold thr_buffer_length; lia).
  induction n as [|n [L B]].
  - cbn [thr_run thr_new th_lag th_buffer lag_response]. rewrite window_0. split; reflexivity.
  - cbn [thr_run]. unfold thr_main. rewrite lag_update_eq by assumption. cbn [set_duty th_lag th_buffer th_duty]. rewrite B, L.
    rewrite (window_hd _ _ _ P), (window_next _ u _ P). split; reflexivity.
Qed.
Lemma thr_magnitude c u w n : 0 < tc_step c -> 0 <= tc_tau c ->
  forall k, th_thrust (thr_run c u w (S n)) k =
    (lag_response (tc_step c) (tc_tau c) (delayed (thr_buffer_length c) u) (S n) * tc_max c
     + (if rlt (0 + DBL_EPSILON) (u n) then ti_magnitude (w n) else 0)) * thr_direction c (w n) k.
Proof.
  intros Hs Ht k. destruct (thr_history c u w n Hs Ht) as [L B]. assert (P : (0 < thr_buffer_length c)%nat) by (unfold thr_buffer_length; lia).
  cbn [thr_run]. unfold thr_main. rewrite lag_update_eq by assumption. cbn [set_duty th_lag th_buffer th_duty th_thrust]. rewrite B, L, (window_hd _ _ _ P).
  unfold vscal. cbn [lag_response]. destruct (rlt (0 + DBL_EPSILON) (u n)); ring.
Qed.

(** * Generator *)
Lemma cross_perp d v : dot 3 (cross d v) d = 0.
Proof. unfold dot. rewrite sumn3. cbn [cross]. ring. Qed.
Lemma cross_len d v : unit 3 d -> dot 3 (cross d v) (cross d v) = dot 3 v v - dot 3 d v * dot 3 d v.
Proof.
  intros U. unfold unit, dot in *. rewrite !sumn3 in *. cbn [cross].
  transitivity ((d 0%nat * d 0%nat + d 1%nat * d 1%nat + d 2%nat * d 2%nat) * (v 0%nat * v 0%nat + v 1%nat * v 1%nat + v 2%nat * v 2%nat) - (d 0%nat * v 0%nat + d 1%nat * v 1%nat + d 2%nat * v 2%nat) * (d 0%nat * v 0%nat + d 1%nat * v 1%nat + d 2%nat * v 2%nat)); [ring|]. rewrite U. ring.
Qed.
Lemma norm_vscal k v : norm 3 (vscal k v) = Rabs k * norm 3 v.
Proof.
  apply norm_unit_sq; [apply Rmult_le_pos; [apply Rabs_pos|apply norm_nonneg]|].
  transitivity (k * k * (norm 3 v * norm 3 v)).
  - rewrite norm_sq. unfold dot, sq, vscal. rewrite !sumn3. ring.
  - assert (E : Rabs k * Rabs k = k * k) by (pose proof (Rsqr_abs k) as Q; unfold Rsqr in Q; lra).
    transitivity (Rabs k * Rabs k * (norm 3 v * norm 3 v)); [rewrite E; reflexivity|ring].
Qed.
