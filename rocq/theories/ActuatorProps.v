(** C99: thruster; C100: ideal force and torque generator; C101: ideal observers. *)
From Coq Require Import Reals Lra Lia List Bool ZArith Psatz.
From Verif Require Import Base RBase VecModel VecProofs QuatModel QuatSpec QuatProofs PowerPortModel WheelModel WheelSpec WheelProofs OrbitModel HillProofs SunSensorProofs MagneticProofs GnssRxProofs ActuatorModel ActuatorProofs.
Import ListNotations.
Open Scope R_scope.

(** * C99 *)
(** Over every history of duty commands the thrust is the maximum thrust times the duty, delayed by a whole number of calls
    that exceeds the dead time by at most one step, and smoothed by the first-order lag, along the thrust direction; the
    magnitude noise is added while the present (undelayed) duty is above zero. *)
Theorem C99_thrust_history :
  forall (c : thr_config) (u : nat -> R) (w : nat -> thr_input) (n : nat),
    0 < tc_step c -> 0 <= tc_tau c -> 0 <= tc_dead c -> norm 3 (tc_direction c) <> 0 ->
    exists (delay : nat) (direction : vec),
      tc_dead c < INR delay * tc_step c <= tc_dead c + tc_step c /\
      unit 3 direction /\
      forall k, th_thrust (thr_run c u w (S n)) k =
        (tc_max c * lag_response (tc_step c) (tc_tau c) (delayed delay u) (S n)
         + (if Rlt_dec (/ 2 ^ 52) (u n) then ti_magnitude (w n) else 0)) * direction k.
Proof.
  intros c u w n Hs Ht Hd Hn. exists (thr_buffer_length c), (thr_direction c (w n)).
  split; [apply thr_length_bounds; assumption|]. split; [apply thr_direction_unit; exact Hn|]. intros k. rewrite thr_magnitude by assumption.
  unfold rlt, DBL_EPSILON. destruct (Rlt_dec (0 + / 2 ^ 52) (u n)), (Rlt_dec (/ 2 ^ 52) (u n)); try lra; ring.
Qed.
Print Assumptions C99_thrust_history.

(** Without noise a thruster with duties in [0, 1] never pushes harder than its maximum, and not at all during the dead time. *)
Theorem C99_thrust_bounds :
  forall (c : thr_config) (u : nat -> R) (w : nat -> thr_input) (n : nat),
    0 < tc_step c -> 0 <= tc_tau c -> norm 3 (tc_direction c) <> 0 -> 0 <= tc_max c ->
    (forall k, 0 <= u k <= 1) -> (forall k, ti_magnitude (w k) = 0) ->
    norm 3 (th_thrust (thr_run c u w n)) <= tc_max c /\
    (0 <= tc_dead c -> INR n * tc_step c <= tc_dead c -> norm 3 (th_thrust (thr_run c u w n)) = 0).
Proof.
  intros c u w n Hs Ht Hn Hm Hu Hw.
  destruct n as [|n].
  { cbn [thr_run thr_new th_thrust]. assert (Z : norm 3 (vconst 0) = 0) by (apply norm_unit_sq; [lra|unfold dot, vconst; rewrite sumn3; ring]). rewrite Z. split; [exact Hm|auto]. }
  set (y := lag_response (tc_step c) (tc_tau c) (delayed (thr_buffer_length c) u) (S n)).
  assert (E : norm 3 (th_thrust (thr_run c u w (S n))) = Rabs (y * tc_max c)).
  { assert (V : veq 3 (th_thrust (thr_run c u w (S n))) (vscal (y * tc_max c) (thr_direction c (w n)))).
    { intros k Hk. rewrite thr_magnitude by assumption. rewrite Hw. unfold vscal. fold y. destruct (rlt _ _); ring. }
    rewrite (norm_ext _ _ V), norm_vscal, (unit_norm _ (thr_direction_unit c (w n) Hn)). ring. }
  rewrite E. split.
  - rewrite Rabs_mult, (Rabs_right (tc_max c)) by lra. assert (B : Rabs y <= 1).
    { unfold y. apply lag_bounded; [assumption..|lra|]. intros k. unfold delayed. destruct (Nat.ltb k (thr_buffer_length c)); [rewrite Rabs_R0; lra|]. pose proof (Hu (k - thr_buffer_length c)%nat). rewrite Rabs_right; lra. }
    pose proof (Rabs_pos y). nra.
  - intros Hd Hde. pose proof (thr_length_bounds c Hs Hd) as [B _]. assert (L : (S n < thr_buffer_length c)%nat).
    { apply INR_lt. apply (Rmult_lt_reg_r (tc_step c)); [exact Hs|]. lra. }
    assert (Z : forall k, (k <= thr_buffer_length c)%nat -> lag_response (tc_step c) (tc_tau c) (delayed (thr_buffer_length c) u) k = 0).
    { induction k as [|k IH]; intros Hk; [reflexivity|]. cbn [lag_response]. rewrite IH by lia. unfold delayed. destruct (Nat.ltb_spec k (thr_buffer_length c)); [field; lra|lia]. }
    unfold y. rewrite Z by lia. rewrite Rmult_0_l. apply Rabs_R0.
Qed.
Print Assumptions C99_thrust_bounds.

(** The torque is that of the thrust acting at the thruster's place, about the centre of gravity read at that call; switched
    off, force and torque vanish, and the command history inside the thruster stays where it was. *)
Theorem C99_torque_and_off :
  forall (c : thr_config) (i : thr_input) (t : thr),
    let t' := thr_main c i t in
    (forall k, (k < 3)%nat -> th_torque t' k = cross (vsub (tc_position c) (ti_com i)) (th_thrust t') k) /\
    dot 3 (th_torque t') (th_thrust t') = 0 /\
    (forall k, th_thrust (thr_off t) k = 0 /\ th_torque (thr_off t) k = 0) /\
    th_duty (thr_off t) = th_duty t /\ th_buffer (thr_off t) = th_buffer t /\ th_lag (thr_off t) = th_lag t.
Proof.
  intros c i t. cbv zeta. unfold thr_main. destruct (lag_update _ _ _ _) as [out lag]. cbn [th_torque th_thrust thr_off th_duty th_buffer th_lag].
  split; [reflexivity|]. split; [unfold dot; rewrite sumn3; cbn [cross]; ring|]. split; [|repeat split; reflexivity].
  intros k. unfold vscal. split; ring.
Qed.
Print Assumptions C99_torque_and_off.

(** The thrust direction deviates from the nominal one by an angle whose cosine is cos a + (1 - cos a) x^2 for a drawn angle
    a, with x the component of the nominal direction along the body x axis: exactly a for a thruster perpendicular to x,
    less for any other one, and not at all for a thruster along x. *)
Theorem C99_direction_error :
  forall (c : thr_config) (i : thr_input),
    norm 3 (tc_direction c) <> 0 -> / 2 ^ 52 < tc_direction_sigma c ->
    let nominal := normalize 3 (tc_direction c) in
    dot 3 (thr_direction c i) nominal = cos (ti_angle i) + (1 - cos (ti_angle i)) * (nominal 0%nat * nominal 0%nat) /\
    (tc_direction c 0%nat = 0 -> dot 3 (thr_direction c i) nominal = cos (ti_angle i)) /\
    (tc_direction c 1%nat = 0 -> tc_direction c 2%nat = 0 -> veq 3 (thr_direction c i) nominal).
Proof.
  intros c i H S'. cbv zeta. pose proof (thr_deviation c i H S') as D. split; [exact D|]. split.
  - intros X. rewrite D, !normalize_pos, X by exact H. field. exact H.
  - intros Y Z. pose proof (normalized_unit3 _ H) as U. pose proof (thr_direction_unit c i H) as V.
    assert (NY : normalize 3 (tc_direction c) 1%nat = 0) by (rewrite normalize_pos, Y by exact H; field; exact H).
    assert (NZ : normalize 3 (tc_direction c) 2%nat = 0) by (rewrite normalize_pos, Z by exact H; field; exact H).
    set (d := normalize 3 (tc_direction c)) in *. unfold unit, dot in U, V, D. rewrite !sumn3 in *. rewrite NY, NZ in U, D.
    assert (XX : d 0%nat * d 0%nat = 1) by lra. rewrite XX in D. set (e := thr_direction c i) in *. clearbody d e.
    assert (EX : e 0%nat * d 0%nat = 1) by lra.
    assert (E0 : e 0%nat = d 0%nat). { transitivity (e 0%nat * (d 0%nat * d 0%nat)); [rewrite XX; ring|]. rewrite <- Rmult_assoc, EX. ring. }
    rewrite E0, XX in V. assert (E1 : e 1%nat = 0) by nra. assert (E2 : e 2%nat = 0) by nra.
    intros k Hk. i3 k Hk; [exact E0|rewrite E1, NY; reflexivity|rewrite E2, NZ; reflexivity].
Qed.
Print Assumptions C99_direction_error.

(** * C100 *)
(** Without noise the generated force (or torque) is the ordered one. *)
Theorem C100_exact :
  forall (sigma : R) (n : gen_noise) (ordered : vec),
    gn_angle n * sigma = 0 -> gn_magnitude n = 0 -> veq 3 (generate sigma n ordered) ordered.
Proof.
  intros sigma n o HA HM k Hk. unfold generate. destruct (rlt_spec (0 + DBL_EPSILON) (norm 3 o)) as [L|L]; [|reflexivity].
  assert (N : norm 3 o <> 0) by (pose proof eps_pos; lra). unfold vscal, direction_noise_quaternion. rewrite HA, HM, frame_axis by exact Hk.
  replace (0 / 2) with 0 by field. rewrite cos_0, sin_0. rewrite normalize_pos by exact N. field. exact N.
Qed.
Print Assumptions C100_exact.

(** Ordered in the inertial or RTN frame and generated at the same attitude and orbit position, the force without noise is
    reported in that frame as ordered; all three reported vectors are the same force, and it keeps its body-frame value when
    the attitude changes later. *)
Theorem C100_frames :
  forall (sigma : R) (n : gen_noise) (m : motion) (x : vec) (f : force_gen),
    unit 4 (mo_q_i2b m) -> 0 < norm 3 (mo_r m) -> 0 < norm 3 (cross (mo_r m) (mo_v m)) ->
    gn_angle n * sigma = 0 -> gn_magnitude n = 0 ->
    veq 3 (fg_b (force_main sigma n m (set_force_b x f))) x /\
    veq 3 (fg_i (force_main sigma n m (set_force_i m x f))) x /\
    veq 3 (fg_rtn (force_main sigma n m (set_force_rtn m x f))) x /\
    veq 3 (mvec 3 (to_dcm (mo_q_i2b m)) (fg_i (force_main sigma n m f))) (fg_b (force_main sigma n m f)) /\
    veq 3 (mvec 3 (lvlh_dcm (mo_r m) (mo_v m)) (fg_i (force_main sigma n m f))) (fg_rtn (force_main sigma n m f)).
Proof.
  intros sigma n m x f U HR HC HA HM.
  pose proof (dcm_rotation _ U) as RT. destruct (lvlh_quaternion _ _ HR HC) as [UL ML]. pose proof (dcm_rotation _ UL) as RL.
  assert (BK : forall q v, rotation (to_dcm q) -> veq 3 (mvec 3 (to_dcm q) (inverse_frame_conversion q v)) v).
  { intros q v Rq k Hk. pose proof (rotation_back _ v Rq k Hk) as B. rewrite <- B. unfold mvec at 1 3. apply sumn_ext. intros j Hj. rewrite inverse_frame_dcm by exact Hj. reflexivity. }
  assert (IV : forall q v, rotation (to_dcm q) -> veq 3 (inverse_frame_conversion q (frame_conversion q v)) v).
  { intros q v Rq k Hk. rewrite inverse_frame_dcm by exact Hk. assert (RT' : rotation (mtrans (to_dcm q))) by (apply WheelJitterProofs.trans_rotation; exact Rq).
    pose proof (rotation_back _ v RT' k Hk) as B. rewrite <- B. unfold mvec at 1 3. apply sumn_ext. intros j Hj. rewrite frame_dcm by exact Hj.
    unfold mvec, mtrans. reflexivity. }
  assert (EXT : forall q v v', veq 3 v v' -> veq 3 (inverse_frame_conversion q v) (inverse_frame_conversion q v')).
  { intros q v v' E k Hk. rewrite !inverse_frame_dcm by exact Hk. unfold mvec. apply sumn_ext. intros j Hj. rewrite E by exact Hj. reflexivity. }
  assert (EXF : forall q v v', veq 3 v v' -> veq 3 (frame_conversion q v) (frame_conversion q v')).
  { intros q v v' E k Hk. rewrite !frame_dcm by exact Hk. unfold mvec. apply sumn_ext. intros j Hj. rewrite E by exact Hj. reflexivity. }
  assert (G : forall o, veq 3 (generate sigma n o) o) by (intros o; apply C100_exact; assumption).
  unfold force_main, set_force_i, set_force_rtn, set_force_b. cbn [fg_ordered_b fg_b fg_i fg_rtn].
  set (q := mo_q_i2b m) in *. set (ql := quaternion_i2lvlh (mo_r m) (mo_v m)) in *.
  split; [apply G|]. split; [|split; [|split]].
  - intros k Hk. rewrite (EXT q _ _ (G (frame_conversion q x)) k Hk). apply IV; assumption.
  - intros k Hk.
    assert (E : veq 3 (inverse_frame_conversion q (generate sigma n (frame_conversion q (inverse_frame_conversion ql x)))) (inverse_frame_conversion ql x)).
    { intros j Hj. rewrite (EXT q _ _ (G _) j Hj). apply IV; assumption. }
    rewrite (EXF ql _ _ E k Hk). rewrite frame_dcm by exact Hk. apply BK; assumption.
  - apply BK. exact RT.
  - intros k Hk. rewrite frame_dcm by exact Hk. unfold mvec. apply sumn_ext. intros j Hj. rewrite ML by assumption. reflexivity.
Qed.
Print Assumptions C100_frames.

(** Switched off, nothing is generated, in any frame; the order stays and is carried out again when the power is back. *)
Theorem C100_off :
  forall (sigma : R) (n : gen_noise) (m : motion) (f : force_gen),
    (forall i, fg_b (force_off f) i = 0 /\ fg_i (force_off f) i = 0 /\ fg_rtn (force_off f) i = 0) /\
    force_main sigma n m (force_off f) = force_main sigma n m f.
Proof.
  intros sigma n m f. split; [|reflexivity]. intro i. unfold force_off, vscal. cbn [fg_b fg_i fg_rtn]. repeat split; ring.
Qed.
Print Assumptions C100_off.

(** With noise, the size of what is generated is the ordered size plus the magnitude noise, times a factor
    cos^2(a/2) + s^2 sin^2(a/2) at most one, where a is the drawn angle and s the sine of the angle between the ordered and
    the drawn random direction (the error axis is used without normalisation); the deviation is at most a. *)
Theorem C100_noise :
  forall (sigma : R) (n : gen_noise) (ordered : vec),
    / 2 ^ 52 < norm 3 ordered -> norm 3 (gn_direction n) <> 0 ->
    let d := normalize 3 ordered in let e := normalize 3 (gn_direction n) in let a := gn_angle n * sigma in
    let s2 := 1 - dot 3 d e * dot 3 d e in
    / 2 ^ 52 <= sqrt s2 ->
    let out := frame_conversion (direction_noise_quaternion sigma n d) d in
    veq 3 (generate sigma n ordered) (vscal (norm 3 ordered + gn_magnitude n) out) /\
    norm 3 out = cos (a / 2) * cos (a / 2) + s2 * (sin (a / 2) * sin (a / 2)) /\ norm 3 out <= 1 /\
    cos a * norm 3 out <= dot 3 out d.
Proof.
  intros sigma n o Ho Hn. cbv zeta. intros Hs.
  pose proof eps_pos as EP. fold DBL_EPSILON in Ho, Hs.
  pose proof (normalized_unit3 o ltac:(lra)) as U. pose proof (normalized_unit3 _ Hn) as UE.
  set (d := normalize 3 o) in *. set (e := normalize 3 (gn_direction n)) in *. set (a := gn_angle n * sigma) in *.
  assert (LEN : dot 3 (cross d e) (cross d e) = 1 - dot 3 d e * dot 3 d e) by (rewrite cross_len by exact U; rewrite UE; reflexivity).
  assert (Q : direction_noise_quaternion sigma n d = q_axis_angle (cross d e) a).
  { unfold direction_noise_quaternion. fold e a. rewrite rlt_false; [reflexivity|]. unfold norm.
    change (sumn 3 (fun i => cross d e i * cross d e i)) with (dot 3 (cross d e) (cross d e)). rewrite LEN. lra. }
  rewrite Q. pose proof (tilt_norm (cross d e) d a U (cross_perp d e)) as TN. pose proof (tilt_dot (cross d e) d a U (cross_perp d e)) as TD.
  rewrite LEN in TN, TD. split; [|split; [exact TN|]].
  - intros k Hk. unfold generate. fold d. rewrite rlt_true by lra. rewrite Q. reflexivity.
  - rewrite TN, TD, (cos_half a). pose proof (sc2 (a / 2)) as T.
    assert (S0 : 0 <= 1 - dot 3 d e * dot 3 d e) by (rewrite <- LEN; change (0 <= sq 3 (cross d e)); apply sq_nonneg).
    set (s2 := 1 - dot 3 d e * dot 3 d e) in *. assert (S1 : s2 <= 1) by (unfold s2; pose proof (Rle_0_sqr (dot 3 d e)) as X; unfold Rsqr in X; lra).
    clearbody s2. set (c := cos (a / 2)) in *. set (s := sin (a / 2)) in *. assert (C2 : c * c = 1 - s * s) by lra.
    assert (SS : 0 <= s * s) by (pose proof (Rle_0_sqr s) as X; unfold Rsqr in X; exact X). assert (SC : s * s <= 1) by (pose proof (Rle_0_sqr c) as X; unfold Rsqr in X; lra).
    rewrite C2. clearbody c s. set (t := s * s) in *. clearbody t. clear - S0 S1 SS SC. split.
    + pose proof (Rmult_le_pos t (1 - s2) SS ltac:(lra)) as X. lra.
    + pose proof (Rmult_le_pos (t * (1 - t)) (1 - s2) (Rmult_le_pos t (1 - t) SS ltac:(lra)) ltac:(lra)) as X. lra.
Qed.
Print Assumptions C100_noise.

(** So the direction noise makes the force smaller: *)
Theorem C100_magnitude_refuted :
  ~ (forall (sigma : R) (n : gen_noise) (ordered : vec), gn_magnitude n = 0 -> norm 3 (generate sigma n ordered) = norm 3 ordered).
Proof.
  intros H. set (n := mkGenNoise (v3 1 1 0) 1 0). specialize (H PI n (v3 1 0 0) eq_refl).
  assert (N1 : norm 3 (v3 1 0 0) = 1) by (apply norm_unit_sq; [lra|unfold dot; rewrite sumn3; cbn [v3]; ring]).
  pose proof (sqrt_sqrt 2 ltac:(lra)) as S2. pose proof (sqrt_pos 2) as SP.
  assert (N2 : norm 3 (v3 1 1 0) = sqrt 2) by (apply norm_unit_sq; [exact SP|rewrite S2; unfold dot; rewrite sumn3; cbn [v3]; ring]).
  assert (SN : sqrt 2 <> 0) by nra.
  assert (D : dot 3 (normalize 3 (v3 1 0 0)) (normalize 3 (gn_direction n)) * dot 3 (normalize 3 (v3 1 0 0)) (normalize 3 (gn_direction n)) = 1 / 2).
  { unfold dot. cbn [n gn_direction]. rewrite !sumn3, !normalize_pos by (rewrite ?N1, ?N2; first [lra | nra]). rewrite N1, N2. cbn [v3].
    transitivity (1 / (sqrt 2 * sqrt 2)); [field; exact SN|rewrite S2; reflexivity]. }
  assert (PW : / 2 ^ 52 <= 1 / 2). { rewrite <- (Rmult_1_r (/ 2 ^ 52)). apply (Rmult_le_reg_l (2 ^ 52)); [apply pow_lt; lra|]. rewrite <- Rmult_assoc, Rinv_r by (apply pow_nonzero; lra). lra. }
  destruct (C100_noise PI n (v3 1 0 0)) as (E & NO & _).
  - rewrite N1. lra.
  - cbn [n gn_direction]. rewrite N2. exact SN.
  - rewrite D. apply Rle_trans with (1 / 2); [exact PW|]. replace (1 - 1 / 2) with (1 / 2) by lra.
    rewrite <- (sqrt_square (1 / 2)) at 1 by lra. apply sqrt_le_1_alt. lra.
  - rewrite (norm_ext _ _ E), norm_vscal, NO, D, N1 in H. cbn [n gn_angle gn_magnitude] in H. rewrite Rmult_1_l, cos_PI2, sin_PI2 in H.
    rewrite Rabs_right in H by lra. lra.
Qed.
Print Assumptions C100_magnitude_refuted.

(** * C101 *)
(** The orbit observer adds the drawn noise along the inertial axes, or along radial, transverse and normal direction. *)
Theorem C101_orbit_observer :
  forall (pn vn r v : vec), 0 < norm 3 r -> 0 < norm 3 (cross r v) ->
    (let o := orbit_observe NoiseInertial pn vn r v in
     forall k, (k < 3)%nat -> fst o k - r k = pn k /\ snd o k - v k = vn k) /\
    (let o := orbit_observe NoiseRtn pn vn r v in
     let radial := fun x : vec => dot 3 x r / norm 3 r in
     let normal := fun x : vec => dot 3 x (cross r v) / norm 3 (cross r v) in
     let transverse := fun x : vec => dot 3 x (cross (cross r v) r) / (norm 3 (cross r v) * norm 3 r) in
     let dp := vsub (fst o) r in let dv := vsub (snd o) v in
     radial dp = pn 0%nat /\ transverse dp = pn 1%nat /\ normal dp = pn 2%nat /\
     radial dv = vn 0%nat /\ transverse dv = vn 1%nat /\ normal dv = vn 2%nat).
Proof.
  intros pn vn r v HR HC. split.
  - cbv zeta. intros k Hk. unfold orbit_observe, vadd. cbn [fst snd]. split; ring.
  - cbv zeta. unfold orbit_observe. cbn [fst snd]. destruct (lvlh_quaternion r v HR HC) as [U M]. pose proof (lvlh_rotation r v HR HC) as RL.
    set (q := quaternion_i2lvlh r v) in *.
    assert (B : forall x base k, (k < 3)%nat -> mvec 3 (lvlh_dcm r v) (vsub (vadd base (inverse_frame_conversion q x)) base) k = x k).
    { intros x base k Hk. rewrite <- (rotation_back _ x RL k Hk). unfold mvec at 1 2. apply sumn_ext. intros j Hj. f_equal.
      unfold vsub, vadd. rewrite inverse_frame_dcm by exact Hj. unfold mvec, mtrans. rewrite !sumn3. rewrite !M by lia. ring. }
    assert (A : forall x base, let w := vsub (vadd base (inverse_frame_conversion q x)) base in
        dot 3 w r / norm 3 r = x 0%nat /\ dot 3 w (cross (cross r v) r) / (norm 3 (cross r v) * norm 3 r) = x 1%nat /\ dot 3 w (cross r v) / norm 3 (cross r v) = x 2%nat).
    { intros x base. cbv zeta. set (w := vsub (vadd base (inverse_frame_conversion q x)) base). destruct (lvlh_apply r v w HR HC) as (A0 & A1 & A2).
      rewrite !(dot_sym w). rewrite <- A0, <- A1, <- A2. unfold w. split; [|split]; apply B; lia. }
    destruct (A pn r) as (P0 & P1 & P2). destruct (A vn v) as (V0 & V1 & V2). cbv zeta in *. repeat split; assumption.
Qed.
Print Assumptions C101_orbit_observer.

(** The attitude observer returns a unit quaternion that differs from the true attitude by a rotation of the drawn angle
    (half its angle has this cosine), about the drawn direction of the inertial frame. *)
Theorem C101_attitude_observer :
  forall (dir : vec) (angle : R) (q : quat), unit 4 q -> norm 3 dir <> 0 ->
    let o := attitude_observe dir angle q in
    unit 4 o /\ dot 4 q o = cos (angle / 2) /\
    forall v, veq 3 (mvec 3 (to_dcm o) v) (mvec 3 (to_dcm q) (frame_conversion (q_axis_angle (normalize 3 dir) angle) v)).
Proof.
  intros dir angle q U H. cbv zeta. pose proof (normalized_unit3 _ H) as D. set (d := normalize 3 dir) in *. pose proof (axis_angle_unit d angle D) as A.
  unfold attitude_observe. fold d. split; [|split].
  - unfold unit. rewrite qmul_norm, U, A. ring.
  - replace (angle / 2) with (angle * (1 / 2)) by field. transitivity (dot 4 q q * cos (angle * (1 / 2))); [|rewrite U; ring].
    clearbody d. clear. unfold dot, qmul, q_axis_angle, q4. cbn [sumn]. ring.
  - intros v k Hk. assert (E : forall i j, (i < 3)%nat -> (j < 3)%nat -> to_dcm (qmul (q_axis_angle d angle) q) i j = mmul 3 (to_dcm q) (to_dcm (q_axis_angle d angle)) i j) by (intros i j Hi Hj; apply dcm_mul; assumption).
    unfold mvec at 1. rewrite sumn3. rewrite !E by (exact Hk || lia). unfold mvec, mmul. rewrite !sumn3. rewrite !frame_dcm by lia. unfold mvec. rewrite !sumn3. ring.
Qed.
Print Assumptions C101_attitude_observer.

(** * Instances *)
Example ex_thruster :
  let c := mkThrConfig (v3 1 0 0) (v3 0 0 2) 5 0 0.25 0.1 0.1 in
  let w := fun _ : nat => mkThrInput 0 0 0 (v3 0 0 0) in
  0 < tc_step c /\ 0 <= tc_tau c /\ norm 3 (tc_direction c) <> 0 /\ 0 <= tc_max c /\
  norm 3 (th_thrust (thr_run c (fun _ => 1) w 2)) = 0.
Proof.
  cbv zeta. cbn [tc_step tc_tau tc_direction tc_max]. assert (N : norm 3 (v3 0 0 2) = 2) by (apply norm_unit_sq; [lra|unfold dot; rewrite sumn3; cbn [v3]; ring]).
  split; [lra|]. split; [lra|]. split; [lra|]. split; [lra|].
  apply (C99_thrust_bounds (mkThrConfig (v3 1 0 0) (v3 0 0 2) 5 0 0.25 0.1 0.1) (fun _ => 1) (fun _ => mkThrInput 0 0 0 (v3 0 0 0)) 2);
    cbn [tc_step tc_tau tc_direction tc_max tc_dead INR]; try lra; try (intros; lra). reflexivity.
Qed.
Example ex_orbit : 0 < norm 3 (v3 7000000 0 0) /\ 0 < norm 3 (cross (v3 7000000 0 0) (v3 0 7500 0)).
Proof.
  assert (A : norm 3 (v3 7000000 0 0) = 7000000) by (apply norm_unit_sq; [lra|unfold dot; rewrite sumn3; cbn [v3]; ring]).
  assert (B : norm 3 (cross (v3 7000000 0 0) (v3 0 7500 0)) = 52500000000) by (apply norm_unit_sq; [lra|unfold dot; rewrite sumn3; unfold cross; cbn [v3]; ring]).
  rewrite A, B. split; lra.
Qed.
