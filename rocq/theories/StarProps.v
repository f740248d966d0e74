(** C92-C94: star sensor. *)
From Coq Require Import Reals Lra Lia List Bool ZArith.
From Verif Require Import Base RBase VecModel VecProofs QuatModel QuatSpec QuatProofs SensorModel SensorProofs Trig MagneticProofs StarModel StarSpec StarProofs.
Import ListNotations.
Open Scope R_scope.

(** ** C92 *)
(** After k+1 measurements the output is the value of the source given by [delivered] for the latest
    output step (a multiple of the interval); an interval of 0 updates once only.  No access is out of bounds. *)
Theorem C92_output :
  forall (c : star_config) (m : nat) (input : nat -> star_input) (s0 : star) (k : nat),
    max_delay c = Ok m -> (Z.of_nat m < 2 ^ 31)%Z -> (0 <= st_delay c < 2 ^ 31)%Z -> (0 <= st_interval c)%Z -> star_new c = Ok s0 ->
    let n := Z.to_nat (st_interval c) in
    exists s, star_run c s0 (S k) input = Ok s /\
      st_measured s = value_of c input (delivered (Z.to_nat (st_delay c)) m (n * (k / n))) /\
      st_error s = star_judgement c (input k).
Proof.
  intros c m input s0 k HM Hm Hd Hi H0. cbv zeta. destruct (star_history c m input s0 HM Hm Hd Hi H0 k) as (s & E & _ & M & Er).
  exists s. auto.
Qed.
Print Assumptions C92_output.

(** Once the sensor has run for the delay d, an output comes from exactly d measurements ago if and
    only if the ring buffer has been entered by at least d places since its start; otherwise it is
    younger, or, in the first round, the identity. *)
Theorem C92_delay_kept_iff :
  forall (d m k : nat), (0 < m)%nat -> (d <= k)%nat ->
    (delivered d m k = Some (k - d)%nat <-> (d < S k mod m \/ d = S k mod m /\ m <= S k))%nat /\
    (forall t, delivered d m k = Some t -> (k - d <= t <= k)%nat) /\
    (delivered d m k = None -> (S k < m)%nat).
Proof.
  intros d m k Hm Hk. pose proof (slot_delivered d m k Hm) as _. unfold delivered.
  pose proof (Nat.div_mod (S k) m ltac:(lia)) as D. pose proof (Nat.mod_upper_bound (S k) m ltac:(lia)) as B.
  set (p := Nat.modulo (S k) m) in *. set (q := (S k / m)%nat) in *.
  assert (Q : q = 0%nat \/ (m <= m * q)%nat) by (destruct q; [left; reflexivity|right; rewrite Nat.mul_succ_r; lia]).
  destruct (Nat.ltb_spec d p), (Nat.leb_spec p k).
  - split; [split; auto|]. split; [intros t E; injection E as <-; lia|discriminate].
  - split; [split; auto|]. split; [intros t E; injection E as <-; lia|discriminate].
  - split; [|split; [intros t E; injection E as <-; lia|discriminate]]. split; intros E.
    + right. injection E as E. destruct Q as [Q|Q]; [rewrite Q, Nat.mul_0_r in D; lia|]. lia.
    + destruct E as [E|[E1 E2]]; [lia|]. rewrite E1. reflexivity.
  - split; [|split; [discriminate|]].
    + split; [discriminate|]. intros [E|[E1 E2]]; [lia|]. exfalso. destruct Q as [Q|Q]; [rewrite Q, Nat.mul_0_r in D|]; lia.
    + intros _. destruct Q as [Q|Q]; [rewrite Q, Nat.mul_0_r in D; lia|lia].
Qed.
Print Assumptions C92_delay_kept_iff.

(** Each time the buffer wraps around the output is not delayed at all, and with a step time of more
    than two seconds (d >= 1) the delay is never kept: every output is younger or the identity. *)
Theorem C92_undelayed_outputs :
  (forall d m k : nat, (0 < m)%nat -> (S k mod m = 0)%nat -> delivered d m k = Some k) /\
  (forall c m, max_delay c = Ok m -> 2 < st_step c -> (1 <= st_delay c < 2 ^ 31)%Z ->
     (m <= Z.to_nat (st_delay c))%nat /\
     forall k, (Z.to_nat (st_delay c) <= k)%nat -> delivered (Z.to_nat (st_delay c)) m k <> Some (k - Z.to_nat (st_delay c))%nat).
Proof.
  split.
  - intros d m k Hm E. unfold delivered. rewrite E. destruct (Nat.ltb_spec d 0); [lia|]. destruct (Nat.leb_spec 0 k); [|lia]. rewrite Nat.sub_0_r. reflexivity.
  - intros c m HM Hs Hd. assert (Hm : (0 < m)%nat /\ (m <= Z.to_nat (st_delay c))%nat).
    { unfold max_delay in HM. destruct (int_of_double _) as [z| | |] eqn:E; cbn [bind] in HM; try discriminate. injection HM as <-.
      destruct (Z.leb_spec z 0); [lia|]. split; [lia|]. unfold int_of_double in E.
      destruct (_ && _)%bool; [|discriminate]. injection E as <-. set (x := IZR (u32 (st_delay c * 2)) / st_step c) in *.
      destruct (trunc_bounds x) as (T1 & _). assert (U : u32 (st_delay c * 2) = (st_delay c * 2)%Z) by (unfold u32; apply Z.mod_small; lia).
      assert (X : 0 <= x /\ x < IZR (st_delay c)).
      { unfold x. rewrite U, mult_IZR. assert (Pd : 1 <= IZR (st_delay c)) by (apply (IZR_le 1); lia). split.
        - apply Rmult_le_pos; [lra|]. left. apply Rinv_0_lt_compat. lra.
        - apply Rmult_lt_reg_r with (st_step c); [lra|]. unfold Rdiv. rewrite Rmult_assoc, Rinv_l by lra.
          apply Rlt_le_trans with (IZR (st_delay c) * 2 + IZR (st_delay c) * (st_step c - 2)); [|lra].
          assert (0 < IZR (st_delay c) * (st_step c - 2)) by (apply Rmult_lt_0_compat; lra). lra. }
      assert (IZR (trunc x) <= IZR (st_delay c)).
      { eapply Rle_trans; [apply Rle_abs|]. eapply Rle_trans; [exact T1|]. rewrite Rabs_pos_eq by lra. lra. }
      apply le_IZR in H0. lia. }
    split; [apply Hm|]. intros k Hk. destruct Hm as [Hm Hmd]. intros E.
    destruct (C92_delay_kept_iff (Z.to_nat (st_delay c)) m k Hm Hk) as [[F _] _].
    specialize (F E). pose proof (Nat.mod_upper_bound (S k) m ltac:(lia)). lia.
Qed.
Print Assumptions C92_undelayed_outputs.

(** The claim that after d measurements every output is delayed by d measurements is false, whatever
    the delay d >= 1 and the buffer. *)
Theorem C92_constant_delay_refuted :
  forall d m : nat, (1 <= d)%nat -> (0 < m)%nat -> ~ (forall k, (d <= k)%nat -> delivered d m k = Some (k - d)%nat).
Proof.
  intros d m Hd Hm H. specialize (H (m * S d - 1)%nat ltac:(rewrite Nat.mul_succ_r; nia)).
  rewrite (proj1 C92_undelayed_outputs) in H.
  - injection H as H. nia.
  - exact Hm.
  - replace (S (m * S d - 1)) with (0 + S d * m)%nat by nia. rewrite Nat.mod_add by lia. apply Nat.mod_0_l. lia.
Qed.
Print Assumptions C92_constant_delay_refuted.

(** Delays and intervals given in seconds are cut to whole steps, but never below one step. *)
Theorem C92_seconds :
  forall (seconds step : R), 0 < step -> 0 <= seconds -> seconds / step < 2 ^ 31 ->
    exists n, steps_of_seconds seconds step = Ok n /\ (1 <= n)%Z /\
      (seconds < step -> n = 1%Z) /\ (step <= seconds -> IZR n * step <= seconds < (IZR n + 1) * step).
Proof.
  intros seconds step Hs H0 Hb. unfold steps_of_seconds. set (x := seconds / step) in *.
  assert (X0 : 0 <= x) by (unfold x; apply Rmult_le_pos; [lra|left; apply Rinv_0_lt_compat; lra]).
  rewrite (proj1 (int_of_double_ok x)) by lra. cbn [bind]. exists (Z.max (trunc x) 1). split; [reflexivity|]. split; [lia|].
  assert (T : IZR (trunc x) <= x < IZR (trunc x) + 1).
  { unfold trunc. rewrite rle_true by exact X0. destruct (base_Int_part x). lra. }
  assert (E : seconds = x * step) by (unfold x; field; lra). split.
  - intros L. assert (x < 1) by (apply Rmult_lt_reg_r with step; lra). assert (IZR (trunc x) < IZR 1) by lra. apply lt_IZR in H1. lia.
  - intros L. assert (1 <= x) by (apply Rmult_le_reg_r with step; lra). assert (IZR 0 < IZR (trunc x)) by lra. apply lt_IZR in H1.
    rewrite Z.max_l by lia. rewrite E. split; [apply Rmult_le_compat_r; lra|apply Rmult_lt_compat_r; lra].
Qed.
Print Assumptions C92_seconds.

(** ** C93 *)
(** The recorded quaternion is a unit quaternion whose boresight (x axis) is off the true one by the
    orthogonal noise angle, whatever the rotation noise and its direction; the whole rotation error
    (half its angle has this cosine) combines both noises; without noise it is the true attitude of
    the component. *)
Theorem C93_noise :
  forall (c : star_config) (i : star_input),
    unit 4 (in_q_i2b i) -> unit 4 (st_q_b2c c) ->
    let q_true := qmul (in_q_i2b i) (st_q_b2c c) in
    let q := star_value c i in
    unit 4 q /\
    dot 3 (inverse_frame_conversion q (v3 1 0 0)) (inverse_frame_conversion q_true (v3 1 0 0)) = cos (in_ortho_noise i) /\
    dot 4 q_true q = cos (in_sight_noise i / 2) * cos (in_ortho_noise i / 2) /\
    (in_sight_noise i = 0 -> in_ortho_noise i = 0 -> veq 4 q q_true).
Proof.
  intros c i U1 U2. cbv zeta. split; [|split; [apply boresight_error; assumption|split; [apply rotation_error; assumption|]]].
  - unfold unit, star_value. rewrite !qmul_norm. rewrite U1, U2.
    rewrite (axis_angle_unit (v3 1 0 0) (in_sight_noise i) sight_unit), (axis_angle_unit (noise_axis (in_rotation i)) (in_ortho_noise i) (noise_axis_unit _)). ring.
  - intros S1 O1. unfold star_value. rewrite S1, O1. set (q := qmul (in_q_i2b i) (st_q_b2c c)).
    intros j Hj. unfold q_axis_angle. rewrite Rmult_0_l, sin_0, cos_0. destruct j as [|[|[|[|j]]]]; try lia; unfold qmul, q4; cbn; ring.
Qed.
Print Assumptions C93_noise.

(** ** C94 *)
(** The error flag after a measurement is false exactly if, at that measurement, the boresight is at
    least the exclusion angles away from Sun and Moon (positions not zero), at least the exclusion
    angle plus atan(radius / distance) away from the centre of the Earth, and the rate is within its limit. *)
Theorem C94_error_flag :
  forall (c : star_config) (i : star_input),
    unit 4 (st_q_b2c c) -> norm 3 (in_sun_b i) <> 0 -> norm 3 (in_earth_b i) <> 0 -> norm 3 (in_moon_b i) <> 0 ->
    let sight := inverse_frame_conversion (st_q_b2c c) (v3 1 0 0) in
    star_judgement c i = false <->
      st_sun_angle c <= angle_two_vectors 3 (in_sun_b i) sight /\
      st_earth_angle c + atan (6378136.6 / norm 3 (in_earth_b i)) <= angle_two_vectors 3 (in_earth_b i) sight /\
      st_moon_angle c <= angle_two_vectors 3 (in_moon_b i) sight /\
      norm 3 (in_rate_b i) <= st_rate_limit c.
Proof.
  intros c i U Hs He Hm. cbv zeta. set (sight := inverse_frame_conversion _ _).
  assert (SE : veq 3 (sight_b c) sight) by (apply conj_frame).
  assert (NS : norm 3 (sight_b c) = 1).
  { rewrite (WheelJitterProofs.norm3_ext _ _ SE). unfold sight. rewrite WheelJitterProofs.inverse_frame_norm by exact U. apply unit_norm, sight_unit. }
  assert (A : forall p, norm 3 p <> 0 -> star_angle p (sight_b c) = angle_two_vectors 3 p sight).
  { intros p Hp. rewrite star_angle_angle by lra. unfold angle_two_vectors. rewrite (WheelJitterProofs.norm3_ext _ _ SE).
    rewrite (dot3_ext p p (sight_b c) sight) by (try exact SE; intros ? ?; reflexivity). reflexivity. }
  assert (T : atan2 earth_radius (norm 3 (in_earth_b i)) = atan (6378136.6 / norm 3 (in_earth_b i))).
  { unfold atan2, earth_radius. pose proof (norm_nonneg 3 (in_earth_b i)). rewrite rlt_true by lra. reflexivity. }
  unfold star_judgement. rewrite !orb_false_iff. unfold near_body, near_earth. rewrite !A by assumption. rewrite T.
  assert (L : forall a b, rlt a b = false <-> b <= a) by (intros a b; destruct (rlt_spec a b); split; intros; try lra; try discriminate; reflexivity).
  rewrite !L. split; [intros [[[H1 H2] H3] H4]|intros (H1 & H2 & H3 & H4)]; repeat split; lra.
Qed.
Print Assumptions C94_error_flag.

(** If the Earth exclusion angle makes up the difference between asin and atan of radius / distance,
    a measurement without error has a line of sight that does not enter the Earth. *)
Theorem C94_earth_clear :
  forall (c : star_config) (i : star_input),
    unit 4 (st_q_b2c c) -> norm 3 (in_sun_b i) <> 0 -> norm 3 (in_moon_b i) <> 0 -> 6378136.6 < norm 3 (in_earth_b i) ->
    asin (6378136.6 / norm 3 (in_earth_b i)) - atan (6378136.6 / norm 3 (in_earth_b i)) <= st_earth_angle c ->
    star_judgement c i = false ->
    forall t, 0 <= t -> 6378136.6 <= norm 3 (vsub (vscal t (inverse_frame_conversion (st_q_b2c c) (v3 1 0 0))) (in_earth_b i)).
Proof.
  intros c i U Hs Hm He Ha Hf. apply (C94_error_flag c i U Hs ltac:(lra) Hm) in Hf. destruct Hf as (_ & H & _).
  apply limb_clear; try lra. unfold unit. rewrite WheelJitterProofs.inverse_frame_dot by exact U. apply sight_unit.
Qed.
Print Assumptions C94_earth_clear.

(** Without such a margin it is not: a sensor with exclusion angle 0 reports no error while it looks
    at the Earth. *)
Definition limb_config : star_config := mkStarConfig (q4 0 0 0 1) (1 / 10) 1 1 0 0 0 1.
Definition limb_input : star_input :=
  mkStarInput (q4 0 0 0 1) (vconst 0) (v3 0 1 0) (v3 (12 / 10 * 6378136.6) (9 / 10 * 6378136.6) 0) (v3 0 1 0) 0 0 0.
Theorem C94_no_error_clear_of_earth_refuted :
  ~ (forall (c : star_config) (i : star_input),
       unit 4 (st_q_b2c c) -> norm 3 (in_sun_b i) <> 0 -> norm 3 (in_moon_b i) <> 0 -> 6378136.6 < norm 3 (in_earth_b i) ->
       0 <= st_earth_angle c -> star_judgement c i = false ->
       forall r, r < 6378136.6 -> ~ ray_hits_ball (inverse_frame_conversion (st_q_b2c c) (v3 1 0 0)) (in_earth_b i) r).
Proof.
  intros H. pose proof (H limb_config limb_input) as K. clear H. set (E := 6378136.6) in *. assert (HE : 0 < E) by (unfold E; lra).
  assert (NE : norm 3 (in_earth_b limb_input) = 15 / 10 * E).
  { unfold norm. rewrite sumn3. unfold limb_input. cbn [in_earth_b v3]. fold E.
    replace (12 / 10 * E * (12 / 10 * E) + 9 / 10 * E * (9 / 10 * E) + 0 * 0) with ((15 / 10 * E) * (15 / 10 * E)) by field. apply sqrt_square. lra. }
  assert (U : unit 4 (st_q_b2c limb_config)) by (unfold unit, dot, limb_config, q4; cbn; ring).
  assert (N1 : norm 3 (v3 0 1 0) = 1) by (apply unit_norm; unfold unit, dot; rewrite sumn3; unfold v3; ring).
  assert (SI : veq 3 (inverse_frame_conversion (st_q_b2c limb_config) (v3 1 0 0)) (v3 1 0 0)).
  { intros j Hj. rewrite inverse_frame_dcm by exact Hj. destruct j as [|[|[|j]]]; try lia; unfold mvec; rewrite sumn3; unfold limb_config, mtrans, to_dcm, q4, m3, v3; cbn; ring. }
  assert (NS : norm 3 (in_sun_b limb_input) = 1) by exact N1. assert (NM : norm 3 (in_moon_b limb_input) = 1) by exact N1.
  assert (J : star_judgement limb_config limb_input = false).
  { apply C94_error_flag; [exact U|lra|rewrite NE; lra|lra|].
    assert (AA : forall p, 0 <= angle_two_vectors 3 p (inverse_frame_conversion (st_q_b2c limb_config) (v3 1 0 0))) by (intros p; unfold angle_two_vectors; apply acos_bound).
    split; [apply AA|]. split; [|split; [apply AA|]].
    - fold E. rewrite NE. unfold angle_two_vectors. rewrite NE.
      assert (NV : norm 3 (inverse_frame_conversion (st_q_b2c limb_config) (v3 1 0 0)) = 1).
      { rewrite WheelJitterProofs.inverse_frame_norm by exact U. apply unit_norm, sight_unit. }
      rewrite NV. rewrite (dot3_ext (in_earth_b limb_input) (in_earth_b limb_input) _ (v3 1 0 0)) by (try exact SI; intros ? ?; reflexivity).
      replace (dot 3 (in_earth_b limb_input) (v3 1 0 0)) with (12 / 10 * E) by (unfold dot; rewrite sumn3; unfold limb_input, v3; cbn [in_earth_b]; fold E; ring).
      replace (12 / 10 * E / (15 / 10 * E * 1)) with (8 / 10) by (field; lra).
      replace (E / (15 / 10 * E)) with (2 / 3) by (field; lra).
      rewrite acos_atan by lra.
      replace (sqrt (1 - (8 / 10)²) / (8 / 10)) with (3 / 4).
      + cbn [limb_config st_earth_angle]. rewrite Rplus_0_l. left. apply atan_increasing. lra.
      + replace (1 - (8 / 10)²) with (6 / 10 * (6 / 10)) by (unfold Rsqr; field). rewrite sqrt_square by lra. field.
    - cbn [limb_input limb_config in_rate_b st_rate_limit]. rewrite norm_zero_vec by reflexivity. lra. }
  apply (K U ltac:(lra) ltac:(lra) ltac:(rewrite NE; lra) ltac:(cbn; lra) J (9 / 10 * E) ltac:(lra)).
  exists (12 / 10 * E). split; [lra|]. right.
  unfold norm. rewrite sumn3. unfold vsub, vscal. rewrite !SI by lia. unfold limb_input, v3. cbn [in_earth_b]. fold E.
  match goal with |- sqrt ?x = _ => replace x with ((9 / 10 * E) * (9 / 10 * E)) by field end. apply sqrt_square. lra.
Qed.
Print Assumptions C94_no_error_clear_of_earth_refuted.

(** ** Examples *)
(** A sensor with a delay of one step of 1 s has a buffer of two entries: every second output is undelayed. *)
Example star_example :
  let c := mkStarConfig (q4 0 0 0 1) 1 1 1 0 0 0 1 in
  max_delay c = Ok 2%nat /\ delivered 1 2 0 = None /\ delivered 1 2 1 = Some 1%nat /\ delivered 1 2 2 = Some 1%nat /\ delivered 1 2 3 = Some 3%nat.
Proof.
  cbv zeta. split; [|repeat split]. unfold max_delay. cbn [st_delay st_step].
  replace (IZR (u32 (1 * 2)) / 1) with 2 by (unfold u32; cbn; field).
  assert (T : trunc 2 = 2%Z).
  { unfold trunc. rewrite rle_true by lra. change 2 with (IZR 2) at 1. pose proof (base_Int_part 2) as [B1 B2]. assert (IZR 1 < IZR (Int_part 2)) by lra. apply lt_IZR in H. apply (le_IZR _ 2) in B1. lia. }
  unfold int_of_double. rewrite T. reflexivity.
Qed.
