(** Lemmas for the GNSS receiver. *)
From Coq Require Import Reals Lra Lia List Bool ZArith Psatz.
From Verif Require Import Base RBase VecModel VecProofs QuatModel QuatSpec QuatProofs Trig SensorModel SensorProofs SunSensorProofs GeoModel GeoProofs GnssRxModel GnssRxSpec.
Import ListNotations.
Open Scope R_scope.

Lemma norm_gt r v : 0 < r -> (r < norm 3 v <-> r * r < sq 3 v).
Proof.
  intros H. rewrite <- norm_sq. pose proof (norm_nonneg 3 v). split; intros L; nra.
Qed.
Definition seg_sq (a s : vec) (t : R) : R := sq 3 (fun k => a k + t * (s k - a k)).
Lemma seg_expand a s t : seg_sq a s t = sq 3 a + 2 * t * (dot 3 a s - sq 3 a) + t * t * (sq 3 a + sq 3 s - 2 * dot 3 a s).
Proof. unfold seg_sq, sq, dot. rewrite !sumn3. ring. Qed.
Lemma diff_sq a s : sq 3 (vsub s a) = sq 3 a + sq 3 s - 2 * dot 3 a s.
Proof. unfold sq, dot, vsub. rewrite !sumn3. ring. Qed.
Lemma clear_sq a s : clear_line a s <-> forall t, 0 <= t <= 1 -> geo_radius * geo_radius < seg_sq a s t.
Proof. unfold clear_line. split; intros H t Ht; apply (norm_gt geo_radius _ radius_pos); apply (H t Ht). Qed.

Lemma look_dot a s : norm 3 a <> 0 -> norm 3 (vsub s a) <> 0 ->
  dot 3 (vneg (normalize 3 a)) (normalize 3 (vsub s a)) = (sq 3 a - dot 3 a s) / (norm 3 a * norm 3 (vsub s a)).
Proof.
  intros Ha Hd. unfold dot, vneg, sq. rewrite !sumn3. rewrite !normalize_pos by assumption.
  set (x := norm 3 (vsub s a)) in *. set (y := norm 3 a) in *. clearbody x y. unfold vsub.
  field. split; assumption.
Qed.

Lemma blocked_or_clear a s : dot 3 a s <= 0 -> (sat_in_view a s = true <-> clear_line a s).
Proof.
  intros W. unfold sat_in_view. rewrite rlt_false by lra. rewrite clear_sq.
  pose proof radius_pos as RP. set (r := geo_radius) in *. clearbody r.
  pose proof (norm_nonneg 3 a) as NA. pose proof (norm_sq 3 a) as SA.
  assert (Z0 : seg_sq a s 0 = norm 3 a * norm 3 a) by (rewrite seg_expand, SA; ring).
  destruct (Rle_dec (norm 3 a) r) as [L|L].
  - split; [|intros H; exfalso; specialize (H 0 ltac:(lra)); rewrite Z0 in H; nra].
    destruct (req_spec (norm 3 a) 0) as [E|E]; [destruct (rlt 1 (r / norm 3 a)); discriminate|].
    destruct (Req_dec (norm 3 a) r) as [E2|E2].
    + rewrite rlt_false by (rewrite E2; unfold Rdiv; rewrite Rinv_r by lra; lra).
      rewrite E2. replace (r / r) with 1 by (field; lra). rewrite asin_1.
      assert (D0 : norm 3 (vsub s a) <> 0).
      { intros Q. pose proof (norm_sq 3 (vsub s a)) as Q2. rewrite Q, diff_sq in Q2. pose proof (sq_nonneg 3 s). nra. }
      rewrite look_dot by (assumption || lra). pose proof (norm_nonneg 3 (vsub s a)) as DN.
      set (k := (sq 3 a - dot 3 a s) / (norm 3 a * norm 3 (vsub s a))).
      assert (K : 0 < k). { apply Rdiv_lt_0_compat; [nra|apply Rmult_lt_0_compat; lra]. }
      intros H. exfalso. destruct (rlt_spec (PI / 2) (acos k)) as [Q|Q]; [|discriminate].
      destruct (Rle_dec k 1) as [K1|K1]; [assert (C : k < 0) by (apply acos_pi2_lt; lra); lra|].
      pose proof (acos_bound k). assert (acos k = 0).
      { unfold acos. destruct (Rle_dec k (-1)); [lra|]. destruct (Rle_dec 1 k); [reflexivity|lra]. }
      pose proof PI_RGT_0. lra.
    + rewrite rlt_true; [discriminate|]. apply (Rmult_lt_reg_r (norm 3 a)); [lra|]. unfold Rdiv. rewrite Rmult_assoc, Rinv_l by lra. lra.
  - assert (A : r < norm 3 a) by lra. clear L. rewrite rlt_false.
    2:{ apply Rlt_le. apply (Rmult_lt_reg_r (norm 3 a)); [lra|]. unfold Rdiv. rewrite Rmult_assoc, Rinv_l by lra. lra. }
    rewrite req_false by lra.
    assert (DP : 0 < norm 3 (vsub s a)).
    { pose proof (norm_nonneg 3 (vsub s a)) as DN. destruct DN as [DN|DN]; [exact DN|exfalso].
      pose proof (norm_sq 3 (vsub s a)) as Q2. rewrite <- DN, diff_sq in Q2. pose proof (sq_nonneg 3 s). nra. }
    rewrite look_dot by lra. pose proof (dot_le_norms 3 a (vsub s a)) as CS.
    pose proof (norm_sq 3 (vsub s a)) as SD. rewrite diff_sq in SD. pose proof (sq_nonneg 3 s) as SS.
    assert (DD : dot 3 a (vsub s a) = dot 3 a s - sq 3 a) by (unfold dot, sq, vsub; rewrite !sumn3; ring). rewrite DD in CS.
    set (w := dot 3 a s) in *. set (S2 := sq 3 s) in *. rewrite <- SA in *. set (An := norm 3 a) in *. set (D := norm 3 (vsub s a)) in *.
    set (k := (An * An - w) / (An * D)).
    assert (KE : An * D * k = An * An - w) by (unfold k; field; lra).
    assert (K : 0 < k) by (apply Rdiv_lt_0_compat; [nra|apply Rmult_lt_0_compat; lra]).
    assert (K1 : k <= 1).
    { apply (Rmult_le_reg_l (An * D)); [apply Rmult_lt_0_compat; lra|]. rewrite KE, Rmult_1_r. rewrite Rabs_left1 in CS by nra. lra. }
    assert (M : forall t, seg_sq a s t = (t * D - An * k) * (t * D - An * k) + An * An * (1 - k * k)).
    { intros t. rewrite seg_expand. fold w S2. rewrite <- SA, <- SD. replace (w - An * An) with (- (An * D * k)) by lra. ring. }
    assert (EQ : (asin (r / An) < acos k) <-> r * r < An * An * (1 - k * k)).
    { assert (X : 0 < r / An < 1).
      { split; [apply Rdiv_lt_0_compat; lra|]. apply (Rmult_lt_reg_r An); [lra|]. unfold Rdiv. rewrite Rmult_assoc, Rinv_l by lra. lra. }
      assert (XE : r = An * (r / An)) by (field; lra). set (x := r / An) in *.
      assert (AK : 0 <= acos k <= PI / 2).
      { split; [apply acos_bound|]. destruct (Rle_dec (acos k) (PI / 2)); [assumption|exfalso].
        assert (k < 0) by (apply acos_pi2_lt; lra). lra. }
      pose proof (asin_bound x) as AX. pose proof (sin_asin x ltac:(lra)) as SX. pose proof (sin_acos k ltac:(lra)) as SK.
      assert (QQ : sqrt (1 - k²) * sqrt (1 - k²) = 1 - k * k) by (rewrite sqrt_sqrt; unfold Rsqr; nra).
      pose proof (sqrt_pos (1 - k²)) as SP. set (q := sqrt (1 - k²)) in *. clearbody q.
      rewrite XE. replace (An * x * (An * x)) with (An * An * (x * x)) by ring.
      split; intros H.
      - assert (sin (asin x) < sin (acos k)) by (apply sin_increasing_1; lra). rewrite SX, SK in H0.
        apply Rmult_lt_compat_l; [nra|]. nra.
      - apply Rmult_lt_reg_l in H; [|nra]. assert (x < q) by nra.
        apply sin_increasing_0; lra. }
    destruct (rlt_spec (asin (r / An)) (acos k)) as [Q|Q].
    + split; [intros _|reflexivity]. apply EQ in Q. intros t Ht. rewrite M. pose proof (Rle_0_sqr (t * D - An * k)) as Z. unfold Rsqr in Z. lra.
    + split; [discriminate|]. intros H. exfalso. apply Q. apply EQ.
      set (t := An * k / D). assert (TD : t * D = An * k) by (unfold t; field; lra).
      assert (T : 0 <= t <= 1).
      { split; [apply Rmult_le_pos; [nra|left; apply Rinv_0_lt_compat; lra]|]. apply (Rmult_le_reg_r (D * D)); [nra|].
        replace (t * (D * D)) with (An * D * k) by (rewrite <- (Rmult_assoc t), TD; ring). rewrite KE. lra. }
      specialize (H t T). rewrite M, TD in H. lra.
Qed.

Lemma same_side_clear a s : 0 < dot 3 a s -> norm 3 a <> 0 -> norm 3 s <> 0 ->
  1 / (norm 3 a * norm 3 a) + 1 / (norm 3 s * norm 3 s) < 1 / (geo_radius * geo_radius) -> clear_line a s.
Proof.
  intros W Ha Hs H. apply clear_sq. intros t Ht. rewrite seg_expand. rewrite !norm_sq in H.
  assert (A : 0 < sq 3 a). { rewrite <- norm_sq. pose proof (norm_nonneg 3 a). nra. }
  assert (B : 0 < sq 3 s). { rewrite <- norm_sq. pose proof (norm_nonneg 3 s). nra. }
  pose proof radius_pos as RP. set (w := dot 3 a s) in *. set (x := sq 3 a) in *. set (y := sq 3 s) in *. clearbody w x y. set (r := geo_radius) in *. clearbody r.
  assert (H' : r * r * (x + y) < x * y).
  { apply (Rmult_lt_compat_l (r * r * (x * y))) in H; [|apply Rmult_lt_0_compat; nra].
    replace (r * r * (x * y) * (1 / x + 1 / y)) with (r * r * (x + y)) in H by (field; lra).
    replace (r * r * (x * y) * (1 / (r * r))) with (x * y) in H by (field; lra). exact H. }
  set (m := (1 - t) * (1 - t) * x + t * t * y).
  assert (M : x * y <= m * (x + y)).
  { unfold m. pose proof (Rle_0_sqr ((1 - t) * x - t * y)) as Q. unfold Rsqr in Q. nra. }
  assert (G : r * r < m). { apply (Rmult_lt_reg_r (x + y)); lra. }
  assert (0 <= t * (1 - t) * w) by (apply Rmult_le_pos; [apply Rmult_le_pos; lra|lra]). unfold m in G. nra.
Qed.

(** * Directions *)
Lemma antenna_direction_spec c i : veq 3 (antenna_direction c i) (boresight_i c i).
Proof.
  intros k Hk. unfold antenna_direction, boresight_i. rewrite inverse_frame_dcm by exact Hk. unfold mvec, mmul, mtrans.
  rewrite !sumn3. rewrite !inverse_frame_dcm by lia. unfold mvec, mtrans. rewrite !sumn3. cbn [v3]. ring.
Qed.
Lemma antenna_position_spec c i : veq 3 (antenna_position c i) (antenna_i c i).
Proof. intros k Hk. unfold antenna_position, antenna_i, vadd. rewrite inverse_frame_dcm by exact Hk. reflexivity. Qed.

Lemma dot_ext u u' v v' : veq 3 u u' -> veq 3 v v' -> dot 3 u v = dot 3 u' v'.
Proof. intros A B. unfold dot. rewrite !sumn3. rewrite !A, !B by lia. reflexivity. Qed.
Lemma norm_ext u v : veq 3 u v -> norm 3 u = norm 3 v.
Proof. intros A. unfold norm. rewrite !sumn3. rewrite !A by lia. reflexivity. Qed.
Lemma normalize_ext u v : veq 3 u v -> veq 3 (normalize 3 u) (normalize 3 v).
Proof.
  intros A k Hk. unfold normalize. rewrite (norm_ext u v A). destruct (req (norm 3 v) 0); [apply A; exact Hk|].
  unfold vdiv, vscal. rewrite A by exact Hk. reflexivity.
Qed.
Lemma view_ext a a' s : veq 3 a a' -> sat_in_view a s = sat_in_view a' s.
Proof.
  intros A. unfold sat_in_view. rewrite (norm_ext a a' A), (dot_ext a a' s s A) by (intros ? ?; reflexivity).
  assert (E : dot 3 (vneg (normalize 3 a)) (normalize 3 (vsub s a)) = dot 3 (vneg (normalize 3 a')) (normalize 3 (vsub s a'))).
  { apply dot_ext.
    - intros k Hk. unfold vneg. rewrite (normalize_ext a a' A k Hk). reflexivity.
    - apply normalize_ext. intros k Hk. unfold vsub. rewrite A by exact Hk. reflexivity. }
  rewrite E. reflexivity.
Qed.

Lemma boresight_unit c i : unit 4 (gc_q_b2c c) -> unit 4 (gi_q_i2b i) -> unit 3 (boresight_i c i).
Proof.
  intros U V. pose proof (dcm_rotation _ U) as [R1 _]. pose proof (dcm_rotation _ V) as [R2 _].
  set (m := to_dcm (gc_q_b2c c)) in *. set (n := to_dcm (gi_q_i2b i)) in *.
  assert (Bo : forall k, boresight_i c i k = m 2%nat 0%nat * n 0%nat k + m 2%nat 1%nat * n 1%nat k + m 2%nat 2%nat * n 2%nat k).
  { intros k. unfold boresight_i, mmul. rewrite sumn3. reflexivity. }
  unfold unit, dot. rewrite sumn3, !Bo. unfold meq3, mmul, mtrans, mident in R1, R2.
  pose proof (R1 2%nat 2%nat ltac:(lia) ltac:(lia)) as A. rewrite sumn3 in A. cbn [Nat.eqb] in A.
  pose proof (R2 0%nat 0%nat ltac:(lia) ltac:(lia)) as N00. pose proof (R2 1%nat 1%nat ltac:(lia) ltac:(lia)) as N11. pose proof (R2 2%nat 2%nat ltac:(lia) ltac:(lia)) as N22.
  pose proof (R2 0%nat 1%nat ltac:(lia) ltac:(lia)) as N01. pose proof (R2 0%nat 2%nat ltac:(lia) ltac:(lia)) as N02. pose proof (R2 1%nat 2%nat ltac:(lia) ltac:(lia)) as N12.
  rewrite !sumn3 in *. cbn [Nat.eqb] in *.
  set (x := m 2%nat 0%nat) in *. set (y := m 2%nat 1%nat) in *. set (z := m 2%nat 2%nat) in *. clearbody x y z.
  transitivity (x * x * (n 0%nat 0%nat * n 0%nat 0%nat + n 0%nat 1%nat * n 0%nat 1%nat + n 0%nat 2%nat * n 0%nat 2%nat) +
                y * y * (n 1%nat 0%nat * n 1%nat 0%nat + n 1%nat 1%nat * n 1%nat 1%nat + n 1%nat 2%nat * n 1%nat 2%nat) +
                z * z * (n 2%nat 0%nat * n 2%nat 0%nat + n 2%nat 1%nat * n 2%nat 1%nat + n 2%nat 2%nat * n 2%nat 2%nat) +
                2 * x * y * (n 0%nat 0%nat * n 1%nat 0%nat + n 0%nat 1%nat * n 1%nat 1%nat + n 0%nat 2%nat * n 1%nat 2%nat) +
                2 * x * z * (n 0%nat 0%nat * n 2%nat 0%nat + n 0%nat 1%nat * n 2%nat 1%nat + n 0%nat 2%nat * n 2%nat 2%nat) +
                2 * y * z * (n 1%nat 0%nat * n 2%nat 0%nat + n 1%nat 1%nat * n 2%nat 1%nat + n 1%nat 2%nat * n 2%nat 2%nat)); [ring|].
  rewrite N00, N11, N22, N01, N02, N12. lra.
Qed.

(** * The loop *)
Lemma cone_loop_spec c i : forall sats id count chs,
  cone_loop c i sats id count chs =
  let good := filter (fun p => sat_received c i (snd p)) (combine (seq id (List.length sats)) sats) in
  ((count + List.length good)%nat, chs ++ map (fun p => gnss_info c i (vsub (snd p) (antenna_position c i)) (fst p)) good).
Proof.
  induction sats as [|s l IH]; intros id count chs; cbn [cone_loop List.length seq combine filter].
  - cbn [map List.length]. rewrite app_nil_r, Nat.add_0_r. reflexivity.
  - cbn [snd]. destruct (sat_received c i s); rewrite IH; cbv zeta; [|reflexivity].
    cbn [map fst snd List.length]. rewrite <- app_assoc. f_equal; [lia].
Qed.

(** * Spherical coordinates *)
Lemma spherical_actan (w : vec) : norm 3 w <> 0 ->
  veq 3 w (spherical (actan (w 2%nat) (sqrt (w 0%nat * w 0%nat + w 1%nat * w 1%nat))) (actan (w 1%nat) (w 0%nat)) (norm 3 w)).
Proof.
  intros H. set (h := sqrt (w 0%nat * w 0%nat + w 1%nat * w 1%nat)).
  assert (HH : h * h = w 0%nat * w 0%nat + w 1%nat * w 1%nat) by (apply sqrt_sqrt; nra).
  assert (NE : norm 3 w = sqrt (h * h + w 2%nat * w 2%nat)) by (rewrite HH; unfold norm; rewrite sumn3; reflexivity).
  assert (NZ : h <> 0 \/ w 2%nat <> 0).
  { destruct (Req_dec h 0) as [E|E]; [|left; exact E]. right. intros E2. apply H. rewrite NE, E, E2. replace (0 * 0 + 0 * 0) with 0 by ring. apply sqrt_0. }
  destruct (actan_polar (w 2%nat) h NZ) as [CL SL]. rewrite <- NE in CL, SL.
  set (la := actan (w 2%nat) h) in *. set (lo := actan (w 1%nat) (w 0%nat)). set (d := norm 3 w) in *.
  assert (XY : h * cos lo = w 0%nat /\ h * sin lo = w 1%nat).
  { destruct (Req_dec (w 0%nat) 0) as [E0|E0]; [destruct (Req_dec (w 1%nat) 0) as [E1|E1]|].
    - assert (h = 0) by nra. rewrite H0, E0, E1. split; ring.
    - apply (actan_polar (w 1%nat) (w 0%nat)). right. exact E1.
    - apply (actan_polar (w 1%nat) (w 0%nat)). left. exact E0. }
  destruct XY as [X Y]. intros k Hk. i3 k Hk; unfold spherical; cbn [v3].
  - rewrite <- X, <- CL. ring.
  - rewrite <- Y, <- CL. ring.
  - rewrite <- SL. ring.
Qed.
