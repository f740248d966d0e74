From Coq Require Import Reals Lra Lia List Bool.
From Verif Require Import RBase VecModel VecProofs QuatModel QuatSpec QuatProofs Trig WheelJitterProofs MagneticProofs SunSensorModel.
Import ListNotations.
Open Scope R_scope.

Lemma tan_range_id x : - (PI / 2) <= x <= PI / 2 -> tan_range x = x.
Proof. intros H. unfold tan_range. rewrite (rlt_false (PI / 2) x) by lra. rewrite rlt_false by lra. reflexivity. Qed.

Lemma tan_range_bound x : - (3 * (PI / 2)) <= x <= 3 * (PI / 2) -> - (PI / 2) <= tan_range x <= PI / 2.
Proof.
  intros H. pose proof PI_RGT_0. unfold tan_range. destruct (rlt_spec (PI / 2) x).
  - destruct (rlt_spec (PI - x) (- (PI / 2))); lra.
  - destruct (rlt_spec x (- (PI / 2))); lra.
Qed.

Lemma atan_neg_arg x z : z < 0 -> 0 <= x -> - (PI / 2) < atan (x / z) <= 0.
Proof.
  intros Hz Hx. pose proof (atan_bound (x / z)). split; [lra|].
  assert (x / z <= 0). { unfold Rdiv. assert (/ z < 0) by (apply Rinv_lt_0_compat; lra). nra. }
  destruct (Req_dec (x / z) 0) as [E|E]; [rewrite E, atan_0; lra|]. rewrite <- atan_0. left. apply atan_increasing. lra.
Qed.

Lemma tan_range_atan2 x z : z <> 0 -> tan_range (atan2 x z) = atan (x / Rabs z).
Proof.
  intros Hz. pose proof PI_RGT_0 as P. unfold atan2. pose proof (atan_bound (x / z)) as B.
  destruct (rlt_spec 0 z) as [L|L]; [rewrite Rabs_pos_eq by lra; apply tan_range_id; lra|].
  rewrite rlt_true by lra. rewrite Rabs_left by lra.
  assert (E : atan (x / - z) = - atan (x / z)) by (rewrite <- atan_opp; f_equal; field; lra).
  rewrite E. destruct (rle_spec 0 x) as [X|X].
  - pose proof (atan_neg_arg x z ltac:(lra) X). unfold tan_range. rewrite (rlt_true (PI / 2)) by lra. rewrite rlt_false by lra. lra.
  - pose proof (atan_neg_arg (- x) z ltac:(lra) ltac:(lra)) as A.
    replace (- x / z) with (- (x / z)) in A by (field; lra). rewrite atan_opp in A.
    assert (0 < atan (x / z)).
    { rewrite <- atan_0. apply atan_increasing. unfold Rdiv. assert (/ z < 0) by (apply Rinv_lt_0_compat; lra). nra. }
    unfold tan_range. rewrite (rlt_false (PI / 2)) by lra. rewrite rlt_true by lra. lra.
Qed.

Lemma tan_atan x : tan (atan x) = x. Proof. apply atan_right_inv || apply tan_atan. Qed.

Lemma normalize_pos n v k : norm n v <> 0 -> normalize n v k = v k / norm n v.
Proof. intros H. unfold normalize. rewrite req_false by exact H. unfold vdiv, vscal. field. exact H. Qed.

Lemma normalize_scaled v k : unit 3 v -> 0 < k -> forall w, veq 3 w (vscal k v) -> veq 3 (normalize 3 w) v.
Proof.
  intros U Hk w Hw.
  assert (N : norm 3 w = k).
  { rewrite (norm3_ext _ _ Hw). unfold norm. replace (sumn 3 (fun i => vscal k v i * vscal k v i)) with (k * k).
    - apply sqrt_square. lra.
    - unfold unit, dot in U. rewrite sumn3 in *. unfold vscal.
      transitivity (k * k * (v 0%nat * v 0%nat + v 1%nat * v 1%nat + v 2%nat * v 2%nat)); [rewrite U; ring|ring]. }
  intros i Hi. rewrite normalize_pos by lra. rewrite N, Hw by exact Hi. unfold vscal. field. lra.
Qed.

Lemma front_norm a b : norm 3 (v3 a b 1) <> 0.
Proof. intros H. pose proof (norm_0 3 _ H 2%nat ltac:(lia)) as E. cbn in E. lra. Qed.

Lemma true_unit c s : unit 4 (ss_q_b2c c) -> norm 3 s <> 0 -> unit 3 (frame_conversion (ss_q_b2c c) (normalize 3 s)).
Proof.
  intros U H. unfold unit. pose proof (frame_norm (ss_q_b2c c) (normalize 3 s) U) as E. rewrite normalize_norm in E by exact H.
  change (dot 3 ?x ?x) with (sq 3 x). rewrite <- norm_sq, E. ring.
Qed.

Lemma sun_angle_z v : unit 3 v -> -1 <= v 2%nat <= 1 /\ sun_angle v = acos (v 2%nat).
Proof.
  intros U. assert (N : norm 3 v = 1) by (apply unit_norm, U). split.
  - unfold unit, dot in U. rewrite sumn3 in U. nra.
  - unfold sun_angle. rewrite normalize_pos by lra. rewrite N. f_equal. field.
Qed.

Lemma acos_pi2_lt z : -1 <= z <= 1 -> (PI / 2 < acos z <-> z < 0).
Proof.
  intros H. pose proof PI_RGT_0 as P. split; intros A.
  - pose proof (acos_bound z). assert (cos (acos z) < 0) by (apply cos_lt_0; lra). rewrite cos_acos in H1 by lra. lra.
  - pose proof (acos_bound z). destruct (Rlt_dec (PI / 2) (acos z)); [assumption|exfalso].
    assert (0 <= cos (acos z)) by (apply cos_ge_0; lra). rewrite cos_acos in H1 by lra. lra.
Qed.

Lemma illuminance_z v p : unit 3 v -> sun_illuminance v p = p * Rmax 0 (v 2%nat).
Proof.
  intros U. destruct (sun_angle_z v U) as [B E]. unfold sun_illuminance. rewrite E. destruct (rlt_spec (PI / 2) (acos (v 2%nat))) as [L|L].
  - apply acos_pi2_lt in L; [|exact B]. rewrite Rmax_left by lra. ring.
  - rewrite cos_acos by lra. assert (~ v 2%nat < 0) by (intros G; apply L, acos_pi2_lt; assumption). rewrite Rmax_right by lra. reflexivity.
Qed.

Lemma atan2_front k t : 0 < k -> - (PI / 2) < t < PI / 2 -> atan2 (k * tan t) k = t.
Proof.
  intros Hk Ht. unfold atan2. rewrite rlt_true by exact Hk. replace (k * tan t / k) with (tan t) by (field; lra). apply atan_tan. lra.
Qed.

Lemma sun_measure_detected c s i :
  ss_detected (sun_measure c s i) = sun_detection c (frame_conversion (ss_q_b2c c) (normalize 3 (si_sun_b i))) (ss_illuminance s).
Proof. unfold sun_measure. destruct (sun_detection _ _ _); reflexivity. Qed.
Lemma sun_measure_lux c s i :
  ss_illuminance (sun_measure c s i) = sun_illuminance (frame_conversion (ss_q_b2c c) (normalize 3 (si_sun_b i))) (si_power i).
Proof. unfold sun_measure. destruct (sun_detection _ _ _); reflexivity. Qed.
Lemma sun_run_app c s a b : sun_run c s (a ++ b) = sun_run c (sun_run c s a) b.
Proof. apply fold_left_app. Qed.
