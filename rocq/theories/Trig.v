(** The C library function atan2 over the reals (C17 7.12.4.4, without signed zeros): the angle of
    the point (x, y) in (-pi, pi], 0 for the origin.  Used by the models. *)
From Coq Require Import Reals Lra Lia Bool.
From Verif Require Import RBase.
Open Scope R_scope.

Definition atan2 (y x : R) : R :=
  if rlt 0 x then atan (y / x)
  else if rlt x 0 then (if rle 0 y then atan (y / x) + PI else atan (y / x) - PI)
  else if rlt 0 y then PI / 2 else if rlt y 0 then - (PI / 2) else 0.

Lemma sqrt_hyp x y : x <> 0 -> sqrt (1 + (y / x) * (y / x)) = sqrt (x * x + y * y) / Rabs x.
Proof.
  intros H. replace (1 + y / x * (y / x)) with ((x * x + y * y) / (x * x)) by (field; assumption).
  rewrite sqrt_div_alt by nra. f_equal. rewrite <- (sqrt_Rsqr_abs x). reflexivity.
Qed.
Lemma hyp_pos x y : (x <> 0 \/ y <> 0) -> 0 < sqrt (x * x + y * y).
Proof. intros H. apply sqrt_lt_R0. destruct H; nra. Qed.
Lemma sin_pi_plus t : sin (t + PI) = - sin t. Proof. apply neg_sin. Qed.
Lemma cos_pi_plus t : cos (t + PI) = - cos t. Proof. apply neg_cos. Qed.
Lemma sin_pi_minus t : sin (t - PI) = - sin t.
Proof. rewrite sin_minus, cos_PI, sin_PI. ring. Qed.
Lemma cos_pi_minus t : cos (t - PI) = - cos t.
Proof. rewrite cos_minus, cos_PI, sin_PI. ring. Qed.

Lemma atan2_spec x y : (x <> 0 \/ y <> 0) ->
  cos (atan2 y x) * sqrt (x * x + y * y) = x /\ sin (atan2 y x) * sqrt (x * x + y * y) = y.
Proof.
  intros H. pose proof (hyp_pos x y H) as P. unfold atan2.
  assert (G : x <> 0 -> cos (atan (y / x)) * sqrt (x * x + y * y) = Rabs x /\ sin (atan (y / x)) * sqrt (x * x + y * y) = y / x * Rabs x).
  { intros N. rewrite cos_atan, sin_atan. unfold Rsqr. rewrite sqrt_hyp by exact N.
    pose proof (Rabs_pos_lt x N). split; field; lra. }
  destruct (rlt_spec 0 x).
  { destruct G as [G1 G2]; [lra|]. rewrite G1, G2, Rabs_pos_eq by lra. split; [reflexivity|]. field; lra. }
  destruct (rlt_spec x 0) as [L|L].
  { destruct G as [G1 G2]; [lra|]. rewrite Rabs_left in G1, G2 by lra.
    destruct (rle_spec 0 y); rewrite ?sin_pi_plus, ?cos_pi_plus, ?sin_pi_minus, ?cos_pi_minus.
    - split; [lra|]. transitivity (- (sin (atan (y / x)) * sqrt (x * x + y * y))); [ring|]. rewrite G2. field; lra.
    - split; [lra|]. transitivity (- (sin (atan (y / x)) * sqrt (x * x + y * y))); [ring|]. rewrite G2. field; lra. }
  assert (X : x = 0) by lra. rewrite X in *. clear X x G n L.
  replace (0 * 0 + y * y) with (Rsqr y) in * by (unfold Rsqr; ring). rewrite sqrt_Rsqr_abs in *.
  destruct (rlt_spec 0 y).
  { rewrite cos_PI2, sin_PI2, Rabs_pos_eq by lra. lra. }
  destruct (rlt_spec y 0).
  { rewrite cos_neg, sin_neg, cos_PI2, sin_PI2, Rabs_left by lra. lra. }
  destruct H; exfalso; lra.
Qed.

Lemma atan2_range y x : - PI < atan2 y x <= PI.
Proof.
  pose proof PI_RGT_0 as P. unfold atan2. pose proof (atan_bound (y / x)) as B.
  destruct (rlt_spec 0 x); [lra|]. destruct (rlt_spec x 0).
  - destruct (rle_spec 0 y) as [Y|Y].
    + assert (y / x <= 0). { unfold Rdiv. assert (/ x < 0) by (apply Rinv_lt_0_compat; lra). nra. }
      assert (atan (y / x) <= 0); [|lra]. destruct (Req_dec (y / x) 0) as [E|E]; [rewrite E, atan_0; lra|].
      rewrite <- atan_0. left. apply atan_increasing. lra.
    + assert (0 < y / x). { unfold Rdiv. assert (/ x < 0) by (apply Rinv_lt_0_compat; lra). nra. }
      assert (0 < atan (y / x)); [|lra]. rewrite <- atan_0. apply atan_increasing. lra.
  - destruct (rlt_spec 0 y); [lra|]. destruct (rlt_spec y 0); lra.
Qed.

(** two angles less than a turn apart with the same sine and cosine are equal *)
Lemma angle_unique a b : - (2 * PI) < a - b < 2 * PI -> cos a = cos b -> sin a = sin b -> a = b.
Proof.
  intros R C Sn. assert (E : cos (a - b) = 1).
  { rewrite cos_minus, C, Sn. pose proof (sin2_cos2 b) as H. unfold Rsqr in H. lra. }
  set (d := a - b) in *. assert (E2 : sin (d / 2) * sin (d / 2) = 0).
  { pose proof (cos_2a_sin (d / 2)) as H. replace (2 * (d / 2)) with d in H by field. lra. }
  assert (Z : sin (d / 2) = 0) by nra.
  destruct (Rtotal_order d 0) as [L|[L|L]]; [|unfold d in L; lra|].
  - pose proof (sin_lt_0_var (d / 2)). lra.
  - pose proof (sin_gt_0 (d / 2)). lra.
Qed.

(** atan2 recovers the angle of a point given in polar form *)
Lemma atan2_polar r t : 0 < r -> - PI < t <= PI -> atan2 (r * sin t) (r * cos t) = t.
Proof.
  intros Hr Ht. pose proof (sin2_cos2 t) as E. unfold Rsqr in E.
  assert (N : r * cos t <> 0 \/ r * sin t <> 0).
  { destruct (Req_dec (r * cos t) 0) as [A|A]; [|now left]. right. intros B.
    assert (cos t = 0) by nra. assert (sin t = 0) by nra. nra. }
  destruct (atan2_spec _ _ N) as [C1 S1].
  replace (r * cos t * (r * cos t) + r * sin t * (r * sin t)) with (r * r) in *
    by (transitivity (r * r * (sin t * sin t + cos t * cos t)); [rewrite E; ring|ring]).
  rewrite sqrt_square in C1, S1 by lra.
  pose proof (atan2_range (r * sin t) (r * cos t)) as B.
  apply angle_unique; [lra|nra|nra].
Qed.
