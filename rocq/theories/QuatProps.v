(** C25-C27, C54-C57: quaternions, rotation matrices, Euler angles, polar coordinates, angle wrapping. *)
From Coq Require Import Reals Lra Lia List Bool ZArith.
From Flocq Require Import Core.
From Verif Require Import Base RBase VecModel VecProofs Trig QuatModel QuatSpec QuatProofs.
Open Scope R_scope.

(** ** C25: algebra and frame conversion *)
Theorem C25_product_is_hamilton : forall p q : quat,
  qmul p q 3%nat = hamilton_scalar (p 3%nat) p (q 3%nat) q /\ veq 3 (qmul p q) (hamilton_vector (p 3%nat) p (q 3%nat) q).
Proof. exact qmul_hamilton. Qed.
Theorem C25_product_associative : forall a b c : quat, veq 4 (qmul (qmul a b) c) (qmul a (qmul b c)).
Proof. exact qmul_assoc. Qed.
Theorem C25_norms_multiply : forall a b : quat, dot 4 (qmul a b) (qmul a b) = dot 4 a a * dot 4 b b.
Proof. exact qmul_norm. Qed.
Theorem C25_conjugate_is_inverse : forall q : quat, unit 4 q ->
  veq 4 (qmul q (qconj q)) (q4 0 0 0 1) /\ veq 4 (qmul (qconj q) q) (q4 0 0 0 1).
Proof. intros q U. unfold unit in U. pose proof (qconj_inverse q) as H. rewrite U in H. exact H. Qed.
(** q * v is the product with the pure quaternion of v *)
Theorem C25_product_with_vector : forall (q : quat) (v : vec), veq 4 (qmulv q v) (qmul q (q4 (v 0%nat) (v 1%nat) (v 2%nat) 0)).
Proof. exact qmulv_pure. Qed.
(** FrameConversion is multiplication by the DCM, InverseFrameConversion by its transpose *)
Theorem C25_frame_conversion_is_dcm : forall (q : quat) (v : vec),
  veq 3 (frame_conversion q v) (mvec 3 (to_dcm q) v) /\ veq 3 (inverse_frame_conversion q v) (mvec 3 (mtrans (to_dcm q)) v).
Proof. intros q v. split; [apply frame_dcm|apply inverse_frame_dcm]. Qed.

Lemma mvec_ext (m : mat) (u v : vec) : veq 3 u v -> forall i, mvec 3 m u i = mvec 3 m v i.
Proof. intros E i. unfold mvec. apply sumn_ext. intros j Hj. now rewrite E. Qed.
Lemma mvec_mul (a b : mat) (v : vec) i : mvec 3 a (mvec 3 b v) i = mvec 3 (mmul 3 a b) v i.
Proof. qunf. ring. Qed.
Lemma mvec_ident (a : mat) (v : vec) : meq3 a mident -> veq 3 (mvec 3 a v) v.
Proof.
  intros E i Hi. unfold mvec. rewrite (sumn_ext 3 _ (fun j => mident i j * v j)) by (intros j Hj; now rewrite E).
  i3 i Hi; qunf; ring.
Qed.

Theorem C25_inverse_conversion_undoes : forall (q : quat) (v : vec), unit 4 q ->
  veq 3 (inverse_frame_conversion q (frame_conversion q v)) v /\ veq 3 (frame_conversion q (inverse_frame_conversion q v)) v.
Proof.
  intros q v U. destruct (dcm_rotation q U) as (A & B & _). split; intros i Hi.
  - rewrite (inverse_frame_dcm q _ i Hi), (mvec_ext _ _ _ (frame_dcm q v)), mvec_mul. now apply mvec_ident.
  - rewrite (frame_dcm q _ i Hi), (mvec_ext _ _ _ (inverse_frame_dcm q v)), mvec_mul. now apply mvec_ident.
Qed.

Lemma dot_ext3 (u u' v v' : vec) : veq 3 u u' -> veq 3 v v' -> dot 3 u v = dot 3 u' v'.
Proof. intros A B. unfold dot. apply sumn_ext. intros i Hi. now rewrite A, B. Qed.
(** lengths, angles and handedness are preserved *)
Theorem C25_frame_conversion_preserves : forall (q : quat) (u v : vec), unit 4 q ->
  dot 3 (frame_conversion q u) (frame_conversion q v) = dot 3 u v /\
  norm 3 (frame_conversion q u) = norm 3 u /\
  veq 3 (frame_conversion q (cross u v)) (cross (frame_conversion q u) (frame_conversion q v)).
Proof.
  intros q u v U.
  assert (D : forall a b : vec, dot 3 (frame_conversion q a) (frame_conversion q b) = dot 3 a b).
  { intros a b. rewrite (dot_ext3 _ _ _ _ (frame_dcm q a) (frame_dcm q b)). apply rotation_dot. now apply dcm_rotation. }
  split; [apply D|]. split; [unfold norm; f_equal; apply (D u u)|].
  apply unit4 in U. intros i Hi.
  assert (G : forall i, (i < 3)%nat -> cross (frame_conversion q u) (frame_conversion q v) i =
    (q 0%nat * q 0%nat + q 1%nat * q 1%nat + q 2%nat * q 2%nat + q 3%nat * q 3%nat) * frame_conversion q (cross u v) i).
  { clear. intros i Hi. i3 i Hi; qunf; ring. }
  rewrite G by exact Hi. rewrite U. ring.
Qed.
(** converting by a product is converting by the left factor, then by the right one *)
Theorem C25_product_composes : forall (p q : quat) (v : vec), veq 3 (frame_conversion (qmul p q) v) (frame_conversion q (frame_conversion p v)).
Proof.
  intros p q v i Hi. rewrite (frame_dcm (qmul p q) v i Hi), (frame_dcm q _ i Hi), (mvec_ext _ _ _ (frame_dcm p v)), mvec_mul.
  unfold mvec. apply sumn_ext. intros j Hj. now rewrite dcm_mul.
Qed.
(** Normalize returns a unit quaternion with the same direction; only the zero quaternion is left alone *)
Theorem C25_normalize : forall q : quat,
  (unit 4 (qnormalize q) /\ exists c, 0 < c /\ veq 4 q (qscal c (qnormalize q))) \/ (veq 4 q (vconst 0) /\ qnormalize q = q).
Proof.
  intros q. unfold qnormalize.
  set (n := 0 + q 0%nat * q 0%nat + q 1%nat * q 1%nat + q 2%nat * q 2%nat + q 3%nat * q 3%nat).
  assert (S0 := Rle_0_sqr (q 0%nat)). assert (S1 := Rle_0_sqr (q 1%nat)).
  assert (S2 := Rle_0_sqr (q 2%nat)). assert (S3 := Rle_0_sqr (q 3%nat)). unfold Rsqr in *.
  destruct (req_spec n 0) as [E|E].
  - right. split; [|reflexivity]. intros i Hi. unfold vconst. apply Rsqr_0_uniq. unfold Rsqr. unfold n in E. i4 i Hi; lra.
  - left. assert (P : 0 < n) by (unfold n in *; lra). pose proof (sqrt_lt_R0 n P) as SP. pose proof (sqrt_sqrt n ltac:(lra)) as SS. split.
    + unfold unit, dot. cbn [sumn].
      transitivity (n * (1 / sqrt n * (1 / sqrt n))); [unfold n; ring|]. rewrite <- SS at 1. field. lra.
    + exists (sqrt n). split; [exact SP|]. intros i Hi. unfold qscal. field. lra.
Qed.
Print Assumptions C25_product_is_hamilton. Print Assumptions C25_product_associative. Print Assumptions C25_norms_multiply.
Print Assumptions C25_conjugate_is_inverse. Print Assumptions C25_product_with_vector. Print Assumptions C25_frame_conversion_is_dcm.
Print Assumptions C25_inverse_conversion_undoes. Print Assumptions C25_frame_conversion_preserves.
Print Assumptions C25_product_composes. Print Assumptions C25_normalize.

(** ** C26: DCM and quaternion *)
Theorem C26_dcm_is_rotation : forall q : quat, unit 4 q -> rotation (to_dcm q).
Proof. exact dcm_rotation. Qed.
Theorem C26_from_dcm_of_rotation : forall m : mat, rotation m -> unit 4 (from_dcm m) /\ meq3 (to_dcm (from_dcm m)) m.
Proof. exact from_dcm_spec. Qed.
Theorem C26_round_trip : forall q : quat, unit 4 q ->
  veq 4 (from_dcm (to_dcm q)) q \/ veq 4 (from_dcm (to_dcm q)) (qscal (-1) q).
Proof.
  intros q U. destruct (from_dcm_spec (to_dcm q) (dcm_rotation q U)) as [V E]. now apply dcm_inj.
Qed.
(** two unit quaternions have the same DCM exactly when they are equal or opposite *)
Theorem C26_double_cover : forall p q : quat, unit 4 p -> unit 4 q ->
  (meq3 (to_dcm p) (to_dcm q) <-> veq 4 p q \/ veq 4 p (qscal (-1) q)).
Proof.
  intros p q Up Uq. split; [now apply dcm_inj|]. intros [E|E] i j Hi Hj.
  - unfold to_dcm. rewrite !E by lia. reflexivity.
  - unfold to_dcm. rewrite !E by lia. unfold qscal. i3 i Hi; i3 j Hj; cbv [m3 v3]; ring.
Qed.
Print Assumptions C26_dcm_is_rotation. Print Assumptions C26_from_dcm_of_rotation. Print Assumptions C26_round_trip.
Print Assumptions C26_double_cover.

(** ** C54: constructors *)
Theorem C54_axis_angle : forall (axis : vec) angle (v : vec), unit 3 axis ->
  unit 4 (q_axis_angle axis angle) /\ veq 3 (inverse_frame_conversion (q_axis_angle axis angle) v) (rodrigues axis angle v).
Proof. intros axis angle v U. split; [now apply axis_angle_unit|now apply axis_angle_rodrigues]. Qed.
(** an axis that is not of unit length is not normalized *)
Theorem C54_axis_not_normalized : forall (axis : vec) angle,
  dot 4 (q_axis_angle axis angle) (q_axis_angle axis angle) = 1 + (dot 3 axis axis - 1) * (sin (angle / 2) * sin (angle / 2)).
Proof.
  intros axis angle. replace (angle / 2) with (angle * (1 / 2)) by field. pose proof (sc (angle * (1 / 2))) as H. qunf.
  set (s := sin (angle * (1 / 2))) in *. set (c := cos (angle * (1 / 2))) in *. 
  transitivity (s * s * (axis 0%nat * axis 0%nat + axis 1%nat * axis 1%nat + axis 2%nat * axis 2%nat) + c * c); [ring|].
  replace (c * c) with (1 - s * s) by lra. ring.
Qed.
(** the two-vector constructor: a unit quaternion that turns the direction of [before] onto the
    direction of [after] exactly, except within DBL_EPSILON (in cosine) of parallel, where it is the
    identity, and of antiparallel, where it turns [before] around exactly; it aborts exactly when an
    argument is not longer than DBL_EPSILON *)
Theorem C54_two_vectors : forall before after : vec,
  let b := vscal (1 / norm 3 before) before in
  let a := vscal (1 / norm 3 after) after in
  (dbl_epsilon < norm 3 before /\ dbl_epsilon < norm 3 after /\
   exists q, q_two_vectors before after = Ok q /\ unit 4 q /\
    (-1 + dbl_epsilon <= dot 3 b a <= 1 - dbl_epsilon -> veq 3 (inverse_frame_conversion q b) a) /\
    (1 - dbl_epsilon < dot 3 b a -> veq 3 (inverse_frame_conversion q b) b) /\
    (dot 3 b a < -1 + dbl_epsilon -> veq 3 (inverse_frame_conversion q b) (vscal (-1) b))) \/
  ((norm 3 before <= dbl_epsilon \/ norm 3 after <= dbl_epsilon) /\ q_two_vectors before after = Throw).
Proof.
  intros before after b a.
  destruct (Rle_lt_dec (norm 3 before) dbl_epsilon) as [L|L].
  { right. split; [now left|]. unfold q_two_vectors. rewrite rlt_false by exact L. reflexivity. }
  destruct (Rle_lt_dec (norm 3 after) dbl_epsilon) as [M|M].
  { right. split; [now right|]. unfold q_two_vectors. rewrite rlt_true by exact L. rewrite rlt_false by exact M. reflexivity. }
  left. split; [exact L|]. split; [exact M|]. destruct (two_vectors_spec before after L M) as (q & E & U & A & B & C).
  exists q. repeat split; assumption.
Qed.
(** in every case the turned direction and the wanted one have cosine at least 1 - DBL_EPSILON *)
Theorem C54_two_vectors_error : forall (before after : vec) q, q_two_vectors before after = Ok q ->
  1 - dbl_epsilon <= dot 3 (inverse_frame_conversion q (vscal (1 / norm 3 before) before)) (vscal (1 / norm 3 after) after).
Proof.
  intros before after q E. pose proof eps_pos as EP. destruct (C54_two_vectors before after) as [(L & M & q' & E' & U & A & B & C)|(_ & T)]; [|congruence].
  rewrite E in E'. injection E' as <-.
  set (b := vscal (1 / norm 3 before) before) in *. set (a := vscal (1 / norm 3 after) after) in *.
  assert (Ua : unit 3 a) by (apply normalized_unit; lra).
  destruct (Rlt_le_dec (1 - dbl_epsilon) (dot 3 b a)) as [P|P].
  { rewrite (dot_ext3 _ _ a a (B P)); [lra|now intros i]. }
  destruct (Rlt_le_dec (dot 3 b a) (-1 + dbl_epsilon)) as [Q|Q].
  { rewrite (dot_ext3 _ _ a a (C Q)); [|now intros i]. replace (dot 3 (vscal (-1) b) a) with (- dot 3 b a) by (clearbody a b; qunf; ring). lra. }
  rewrite (dot_ext3 _ _ a a (A (conj Q P))); [|now intros i]. unfold unit in Ua. rewrite Ua. lra.
Qed.
(** GenerateOrthogonalUnitVector: of unit length and orthogonal, for every nonzero vector *)
Theorem C54_orthogonal_unit_vector : forall v : vec, (exists i, (i < 3)%nat /\ v i <> 0) ->
  unit 3 (orthogonal_unit_vector v) /\ dot 3 v (orthogonal_unit_vector v) = 0.
Proof. exact orthogonal_unit_spec. Qed.
Print Assumptions C54_axis_angle. Print Assumptions C54_axis_not_normalized. Print Assumptions C54_two_vectors.
Print Assumptions C54_two_vectors_error. Print Assumptions C54_orthogonal_unit_vector.

(** ** C55: Euler angles (3-2-1) and elementary rotations *)
Theorem C55_elementary_rotations : forall t, rotation (rot_x t) /\ rotation (rot_y t) /\ rotation (rot_z t).
Proof. intros t. split; [apply rot_x_rotation|]. split; [apply rot_y_rotation|apply rot_z_rotation]. Qed.
Theorem C55_elementary_rotations_add : forall s t,
  meq3 (mmul 3 (rot_x s) (rot_x t)) (rot_x (s + t)) /\ meq3 (mmul 3 (rot_y s) (rot_y t)) (rot_y (s + t)) /\
  meq3 (mmul 3 (rot_z s) (rot_z t)) (rot_z (s + t)).
Proof.
  intros s t. pose proof (sin_plus s t) as E1. pose proof (cos_plus s t) as E2.
  split; [|split]; intros i j Hi Hj; i3 i Hi; i3 j Hj; qunf; rewrite ?E1, ?E2; ring.
Qed.
Theorem C55_from_euler : forall e : vec, unit 4 (from_euler e) /\
  meq3 (to_dcm (from_euler e)) (mmul 3 (rot_x (e 0%nat)) (mmul 3 (rot_y (e 1%nat)) (rot_z (e 2%nat)))).
Proof.
  intros e. unfold from_euler. destruct (from_dcm_spec (euler_dcm e) (euler_rotation e)) as [U E]. split; [exact U|].
  eapply meq3_trans; [exact E|apply euler_composition].
Qed.
Theorem C55_euler_round_trip : forall e : vec,
  - PI < e 0%nat <= PI -> - (PI / 2) < e 1%nat < PI / 2 -> - PI < e 2%nat <= PI -> veq 3 (to_euler (from_euler e)) e.
Proof.
  intros e E0 E1 E2. change (to_euler (from_euler e)) with (euler_of (to_dcm (from_euler e))).
  rewrite (euler_of_ext _ (euler_dcm e)); [now apply euler_of_euler_dcm|].
  unfold from_euler. now destruct (from_dcm_spec (euler_dcm e) (euler_rotation e)).
Qed.
(** away from gimbal lock (the rotated x axis along z) the quaternion is recovered up to sign *)
Theorem C55_quaternion_round_trip : forall q : quat, unit 4 q ->
  (to_dcm q 1%nat 2%nat <> 0 \/ to_dcm q 2%nat 2%nat <> 0) ->
  veq 4 (from_euler (to_euler q)) q \/ veq 4 (from_euler (to_euler q)) (qscal (-1) q).
Proof.
  intros q U N. change (to_euler q) with (euler_of (to_dcm q)). unfold from_euler.
  destruct (from_dcm_spec (euler_dcm (euler_of (to_dcm q))) (euler_rotation _)) as [V E].
  apply dcm_inj; [exact V|exact U|]. eapply meq3_trans; [exact E|]. apply euler_dcm_euler_of; [now apply dcm_rotation|exact N].
Qed.
(** the computed angles are in the usual ranges *)
Theorem C55_euler_range : forall q : quat,
  - PI < to_euler q 0%nat <= PI /\ - (PI / 2) <= to_euler q 1%nat <= PI / 2 /\ - PI < to_euler q 2%nat <= PI.
Proof.
  intros q. unfold to_euler. cbv [v3]. split; [apply atan2_range|]. split; [|apply atan2_range].
  pose proof PI_RGT_0 as PP. match goal with |- context [atan2 ?y (sqrt ?x)] => set (s := sqrt x); pose proof (sqrt_pos x : 0 <= s); set (c := y) end.
  unfold atan2. destruct (rlt_spec 0 s); [pose proof (atan_bound (c / s)); lra|]. rewrite rlt_false by lra.
  destruct (rlt_spec 0 c); [lra|]. destruct (rlt_spec c 0); lra.
Qed.
(** in gimbal lock ConvertToEuler loses the rotation: a quarter-turn quaternion that comes back as another one *)
Definition q_gimbal : quat := q4 (1/2) (1/2) (-1/2) (1/2).
Theorem C55_gimbal_lock_refuted : unit 4 q_gimbal /\
  ~ meq3 (to_dcm (from_euler (to_euler q_gimbal))) (to_dcm q_gimbal).
Proof.
  split; [unfold unit, q_gimbal; qunf; lra|]. intros H.
  assert (E : to_euler q_gimbal 0%nat = 0 /\ to_euler q_gimbal 2%nat = 0).
  { unfold to_euler, q_gimbal. cbv [to_dcm q4 m3 v3].
    replace (2 * (1 / 2 * (-1 / 2) + 1 / 2 * (1 / 2))) with 0 by field.
    replace (1 / 2 * (1 / 2) - 1 / 2 * (1 / 2) - 1 / 2 * (1 / 2) + -1 / 2 * (-1 / 2)) with 0 by field.
    replace (2 * (1 / 2 * (1 / 2) + 1 / 2 * (-1 / 2))) with 0 by field.
    replace (1 / 2 * (1 / 2) + 1 / 2 * (1 / 2) - 1 / 2 * (1 / 2) - -1 / 2 * (-1 / 2)) with 0 by field.
    unfold atan2. rewrite !(rlt_false 0 0) by lra. split; reflexivity. }
  destruct (C55_from_euler (to_euler q_gimbal)) as [_ F]. destruct E as [E0 E2].
  pose proof (H 1 0 ltac:(lia) ltac:(lia))%nat as H10. rewrite (F 1 0 ltac:(lia) ltac:(lia))%nat in H10.
  rewrite E0, E2 in H10. revert H10. unfold q_gimbal. qunf. rewrite sin_0, cos_0. lra.
Qed.
Print Assumptions C55_elementary_rotations. Print Assumptions C55_elementary_rotations_add. Print Assumptions C55_from_euler.
Print Assumptions C55_euler_round_trip. Print Assumptions C55_quaternion_round_trip. Print Assumptions C55_euler_range.
Print Assumptions C55_gimbal_lock_refuted.

(** ** C56: polar coordinates *)
Theorem C56_polar : forall v : vec,
  let r := to_polar v 0%nat in let theta := to_polar v 1%nat in let phi := to_polar v 2%nat in
  0 <= r /\ 0 <= theta <= PI /\ 0 <= phi < 2 * PI /\
  v 0%nat = r * sin theta * cos phi /\ v 1%nat = r * sin theta * sin phi /\ v 2%nat = r * cos theta.
Proof. exact to_polar_spec. Qed.
Print Assumptions C56_polar.

(** ** C27: angle wrapping *)
Notation wrap := (wrap_to_2pi Rplus Rminus (2 * PI)).
Theorem C27_wrap_correct : forall fuel angle r, wrap fuel angle = Some r ->
  congruent angle r /\ 0 <= r <= 2 * PI /\ (angle < 0 -> r < 2 * PI) /\ (0 <= angle <= 2 * PI -> r = angle).
Proof.
  intros fuel a r E. pose proof PI_RGT_0 as PP. unfold wrap_to_2pi in E. destruct (rlt_spec a 0) as [L|L].
  - apply wrap_up_spec in E; [|lra]. destruct E as [E R]. repeat split; try assumption; lra.
  - destruct (rlt_spec (2 * PI) a) as [M|M].
    + apply wrap_down_spec in E; [|lra]. destruct E as [E R]. repeat split; try assumption; lra.
    + injection E as <-. repeat split; try lra. apply congruent_refl.
Qed.
Theorem C27_wrap_terminates : forall angle, exists fuel r, wrap fuel angle = Some r.
Proof.
  intros a. unfold wrap_to_2pi. destruct (rlt_spec a 0).
  - apply wrap_up_total.
  - destruct (rlt_spec (2 * PI) a); [apply wrap_down_total|]. exists 0%nat, a. reflexivity.
Qed.
(** the range is closed at the top: 2 pi is returned unchanged, not as 0 *)
Theorem C27_top_included : forall fuel, wrap fuel (2 * PI) = Some (2 * PI).
Proof.
  intros fuel. pose proof PI_RGT_0 as PP. unfold wrap_to_2pi. rewrite !rlt_false by lra. reflexivity.
Qed.

(** with binary64 arithmetic (round to nearest even) the loop never ends for 2^60 *)
Definition b64 (x : R) : R := round radix2 (FLT_exp (-1074) 53) ZnearestE x.
Definition fadd (a b : R) : R := b64 (a + b).
Definition fsub (a b : R) : R := b64 (a - b).
Lemma fsub_stuck t : 0 < t < 64 -> fsub (bpow radix2 60) t = bpow radix2 60.
Proof.
  intros T. unfold fsub, b64, round, F2R, scaled_mantissa, cexp.
  assert (B60 : bpow radix2 60 = 2 * bpow radix2 59) by (change 2 with (bpow radix2 1); rewrite <- bpow_plus; reflexivity).
  assert (B59 : 64 < bpow radix2 59) by (change 64 with (bpow radix2 6); apply bpow_lt; lia).
  rewrite (mag_unique radix2 (bpow radix2 60 - t) 60).
  2:{ change (60 - 1)%Z with 59%Z. rewrite Rabs_pos_eq by lra. lra. }
  change (FLT_exp (-1074) 53 60) with 7%Z. change (- (7))%Z with (-7)%Z. cbn [Fnum Fexp].
  assert (N : ZnearestE ((bpow radix2 60 - t) * bpow radix2 (-7)) = Z.pow 2 53).
  { apply Znearest_imp. replace (IZR (2 ^ 53)) with (bpow radix2 53) by reflexivity.
    rewrite Rmult_minus_distr_r, <- bpow_plus. change (60 + -7)%Z with 53%Z.
    replace (bpow radix2 53 - t * bpow radix2 (-7) - bpow radix2 53) with (- (t * bpow radix2 (-7))) by ring.
    assert (B : bpow radix2 (-7) = / 128) by reflexivity. rewrite B, Rabs_Ropp, Rabs_pos_eq by lra. lra. }
  rewrite N. replace (IZR (2 ^ 53)) with (bpow radix2 53) by reflexivity. rewrite <- bpow_plus. reflexivity.
Qed.
Theorem C27_double_wrap_never_ends_refuted : forall t, 0 < t < 64 ->
  forall fuel, wrap_to_2pi fadd fsub t fuel (bpow radix2 60) = None.
Proof.
  intros t T fuel. assert (B59 : 64 < bpow radix2 60) by (change 64 with (bpow radix2 6); apply bpow_lt; lia).
  unfold wrap_to_2pi. rewrite rlt_false by lra. rewrite rlt_true by lra.
  induction fuel as [|n IH]; cbn [wrap_down]; rewrite rlt_true by lra; [reflexivity|]. now rewrite fsub_stuck.
Qed.
Print Assumptions C27_wrap_correct. Print Assumptions C27_wrap_terminates. Print Assumptions C27_top_included.
Print Assumptions C27_double_wrap_never_ends_refuted.

(** the hypotheses are met *)
Example ex_unit_quat : unit 4 (q4 (1/2) (-1/2) (1/2) (1/2)).
Proof. unfold unit. qunf. lra. Qed.
Example ex_unit_axis : unit 3 (v3 (3/5) 0 (4/5)).
Proof. unfold unit. qunf. lra. Qed.
Example ex_branch0 : scan_max (q4 (3/5) (1/5) 0 (1/5)) = 0%nat.
Proof.
  unfold scan_max. cbv [q4]. rewrite !(Rabs_pos_eq (3/5)), !(Rabs_pos_eq (1/5)), !Rabs_R0 by lra. rewrite (rlt_true 0 (3/5)) by lra.
  rewrite !rlt_false by lra. reflexivity.
Qed.
Example ex_tau : 0 < 2 * PI < 64.
Proof. pose proof PI_RGT_0. pose proof PI_4. lra. Qed.
