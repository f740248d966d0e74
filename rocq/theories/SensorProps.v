(** C20, C42, C49: sensor range handling, random walk, quantization. *)
From Coq Require Import Reals Lra Lia List Bool ZArith.
From Verif Require Import Base RBase VecModel OdeModel SensorModel SensorProofs RngModel RngSpec RngProofs RngProps.
Import ListNotations.
Open Scope R_scope.

(** C20: whatever the settings, no output of any measurement ever exceeds the configured constant
    range in magnitude, in any axis. *)
Theorem C20_output_within_range : forall cfg n k x i,
  Rabs (measure n (sensor_new cfg) k x i) <= Rabs (r_const cfg i).
Proof.
  intros cfg n k x i. unfold measure. cbn [sensor_new r_const r_zero].
  rewrite <- (proj1 (range_check_char (r_const cfg i) (r_zero cfg i))).
  apply clip_bound, range_check_ok.
Qed.
Print Assumptions C20_output_within_range.

(** C20: the three regimes, with the effective zero range: |zero| if it is at least |const|, else
    2|const|.  [v] is the value before range handling. *)
Theorem C20_regimes : forall cfg n k x i,
  let v := noisy n (sensor_new cfg) k x i in
  let c := Rabs (r_const cfg i) in
  let z := if Rle_dec c (Rabs (r_zero cfg i)) then Rabs (r_zero cfg i) else 2 * c in
  let out := measure n (sensor_new cfg) k x i in
  (Rabs v < c -> out = v) /\
  (c <= Rabs v < z -> out = if Rle_dec 0 v then c else - c) /\
  (z <= Rabs v -> out = 0).
Proof.
  intros cfg n k x i v c z out.
  pose proof (range_check_char (r_const cfg i) (r_zero cfg i)) as [E1 E2].
  pose proof (range_check_ok (r_const cfg i) (r_zero cfg i)) as OK.
  fold c in E1. fold c in E2. fold z in E2. rewrite E1, E2 in OK.
  assert (O : out = clip c z v).
  { unfold out, measure. cbn [sensor_new r_const r_zero]. now rewrite E1, E2. }
  destruct (clip_char c z v OK) as (A & B & C & D). rewrite O.
  split; [exact A|]. split; [|exact D]. intros H. destruct (Rle_dec 0 v); [apply B; lra|apply C; lra].
Qed.
Print Assumptions C20_regimes.

(** C20: the value before range handling is scale * true + bias up to the noise, which is bounded:
    with draws bounded by W (walk) and M (normal), for every number of measurements. *)
Theorem C20_noise_bounded : forall cfg n k x i W M,
  0 <= walk_limit cfg i -> 0 <= walk_h cfg ->
  (forall j, Rabs (walk_draws cfg i j) <= W) -> (forall j, Rabs (normal_draws cfg i j) <= M) ->
  Rabs (noisy n (sensor_new cfg) k x i - (mvec n (scale cfg) x i + bias cfg i))
  <= walk_limit cfg i + walk_h cfg * W + M.
Proof.
  intros cfg n k x i W M H1 H2 HW HM. unfold noisy.
  cbn [sensor_new scale bias walk_limit walk_h walk_draws normal_draws].
  pose proof (walk_bound (walk_limit cfg) (walk_draws cfg) (walk_h cfg) i W k H1 H2 HW).
  match goal with |- Rabs ?e <= _ => replace e with
    (walk_after (walk_limit cfg) (walk_draws cfg) (walk_h cfg) k i + normal_draws cfg i k) by ring end.
  eapply Rle_trans; [apply Rabs_triang|]. specialize (HM k). lra.
Qed.
Print Assumptions C20_noise_bounded.

(** C49: a random walk never leaves its limit by more than one step: for every number of
    updates, every axis, every sequence of random numbers bounded by M. *)
Theorem C49_random_walk_bounded : forall limit draws h i M n,
  0 <= limit i -> 0 <= h -> (forall k, Rabs (draws i k) <= M) ->
  Rabs (walk_after limit draws h n i) <= limit i + h * M.
Proof. exact walk_bound. Qed.
Print Assumptions C49_random_walk_bounded.

(** C49: with the generator the code uses (NormalRand with average 0 and any acceptable seed), the
    draws needed for n updates are delivered and the walk stays within limit + 8.5 sigma h. *)
Theorem C49_random_walk_with_generator : forall seed sd limit h n,
  in_long seed -> ~ (2 ^ 31 - 1 | seed)%Z -> 0 <= sd -> 0 <= limit -> 0 <= h ->
  exists nr values nr' fuel0, normal_new 0 sd seed = Ok nr /\ (forall fuel, (fuel0 <= fuel)%nat -> normal_run (4 * n) fuel nr = Ok (values, nr')) /\ length values = (4 * n)%nat /\ forall m, (m <= n)%nat ->
      Rabs (walk_after (fun _ => limit) (fun _ k => nth k values 0%R) h m 0%nat) <= limit + h * (sqrt (104 * ln 2) * sd).
Proof.
  intros seed sd limit h n Hs ND Hsd HL Hh.
  destruct (C47_normal_always_delivers 0 sd seed (4 * n) Hs ND Hsd) as (nr & vs & nr' & f0 & E1 & E2 & E3 & E4).
  exists nr, vs, nr', f0. repeat split; auto. intros m _.
  apply (walk_bound (fun _ => limit) (fun _ k => nth k vs 0) h 0%nat); auto. intros k.
  destruct (Nat.lt_ge_cases k (length vs)) as [L|L].
  - rewrite Forall_forall in E4. specialize (E4 (nth k vs 0) (nth_In _ _ L)). now rewrite Rminus_0_r in E4.
  - rewrite nth_overflow by assumption. rewrite Rabs_R0. apply Rmult_le_pos; [apply sqrt_pos|assumption].
Qed.
Print Assumptions C49_random_walk_with_generator.

(** C42: for a positive resolution, quantization is defined exactly when the bin number fits an
    int, and then gives a multiple of the resolution, not larger in magnitude than the input, of
    the same sign, and less than one resolution away. *)
Theorem C42_quantization : forall x r, 0 < r ->
  (- 2 ^ 31 - 1 < x / r < 2 ^ 31 ->
     exists q (m : Z), quantization x r = Ok q /\ q = IZR m * r /\ Rabs q <= Rabs x /\
       Rabs (x - q) < r /\ 0 <= q * x) /\
  (~ (- 2 ^ 31 - 1 < x / r < 2 ^ 31) -> quantization x r = UB).
Proof.
  intros x r Hr. unfold quantization. split.
  - intros H. apply int_of_double_ok in H. rewrite H. cbn [bind].
    exists (IZR (trunc (x / r)) * r), (trunc (x / r)).
    destruct (trunc_bounds (x / r)) as (A & B & C & D).
    assert (X : x = x / r * r) by (field; lra).
    assert (AX : Rabs x = Rabs (x / r) * r) by (rewrite X at 1; rewrite Rabs_mult, (Rabs_right r) by lra; reflexivity).
    repeat split.
    + rewrite Rabs_mult, (Rabs_right r), AX by lra. apply Rmult_le_compat_r; lra.
    + replace (x - IZR (trunc (x / r)) * r) with ((x / r - IZR (trunc (x / r))) * r) by (field; lra).
      rewrite Rabs_mult, (Rabs_right r) by lra. apply Rlt_le_trans with (1 * r); [apply Rmult_lt_compat_r|]; lra.
    + replace (IZR (trunc (x / r)) * r * x) with ((IZR (trunc (x / r)) * (x / r)) * (r * r)) by (field; lra).
      apply Rmult_le_pos; [|apply Rlt_le, Rmult_lt_0_compat; lra].
      destruct (Rle_dec 0 (x / r)) as [P|P].
      * apply Rmult_le_pos; [apply (IZR_le 0); auto|assumption].
      * rewrite <- Rmult_opp_opp. apply Rmult_le_pos; [|lra]. assert (T : (trunc (x / r) <= 0)%Z) by (apply D; lra).
        apply IZR_le in T. lra.
  - intros H. destruct (int_of_double (x / r)) eqn:E; try reflexivity; exfalso.
    all: unfold int_of_double in E; destruct (_ && _)%bool eqn:E2; try discriminate.
    apply H. apply int_of_double_ok. unfold int_of_double. now rewrite E2.
Qed.
Print Assumptions C42_quantization.

(** C42: rounding is toward zero, so the zero bin is twice as wide as the others. *)
Theorem C42_dead_band : forall x r, 0 < r -> (quantization x r = Ok 0 <-> Rabs x < r).
Proof.
  intros x r Hr.
  assert (AX : Rabs x = Rabs (x / r) * r).
  { replace x with (x / r * r) at 1 by (field; lra). rewrite Rabs_mult, (Rabs_right r) by lra. reflexivity. }
  split.
  - intros H. destruct (proj1 (C42_quantization x r Hr)) as (q & m & E & _ & _ & D & _).
    + unfold quantization in H. destruct (int_of_double (x / r)) eqn:E; try discriminate.
      apply int_of_double_ok. unfold int_of_double in *. destruct (_ && _)%bool; [|discriminate]. reflexivity.
    + rewrite H in E. injection E as <-. now rewrite Rminus_0_r in D.
  - intros H.
    assert (Q : Rabs (x / r) < 1) by (rewrite AX in H; nra).
    apply Rabs_def2 in Q as Q'. unfold quantization.
    assert (R1 : - 2 ^ 31 - 1 < x / r < 2 ^ 31) by lra.
    apply int_of_double_ok in R1. rewrite R1. cbn [bind]. f_equal.
    destruct (trunc_bounds (x / r)) as (A & _).
    assert (T : trunc (x / r) = 0%Z).
    { assert (-1 < trunc (x / r) < 1)%Z; [|lia].
      assert (LL : Rabs (IZR (trunc (x / r))) < 1) by lra. apply Rabs_def2 in LL.
      split; apply lt_IZR; lra. }
    rewrite T. lra.
Qed.
Print Assumptions C42_dead_band.

(** Non-vacuity *)
Definition ex_sensor : sensor :=
  mkSensor mident (fun _ => -2) (fun _ => 1) (fun _ => 1) (fun _ => 1) (1/10) (fun _ _ => 1) (fun _ _ => 1/2).
Example ex_clip : Rabs (r_const ex_sensor 0%nat) = 2 /\ clip 2 4 3 = 2 /\ clip 2 4 (-3) = -2 /\ clip 2 4 5 = 0.
Proof.
  split; [cbn; unfold Rabs; destruct (Rcase_abs (-2)); lra|].
  pose proof (clip_char 2 4) as C. repeat split.
  - apply (C 3 ltac:(lra)); unfold Rabs; destruct (Rcase_abs 3); lra.
  - replace (-2) with (- (2)) by lra. apply (C (-3) ltac:(lra)); unfold Rabs; destruct (Rcase_abs (-3)); lra.
  - apply (C 5 ltac:(lra)); unfold Rabs; destruct (Rcase_abs 5); lra.
Qed.
Example ex_walk : 0 <= walk_limit ex_sensor 0%nat /\ 0 <= walk_h ex_sensor /\
  forall k, Rabs (walk_draws ex_sensor 0%nat k) <= 1.
Proof. cbn. repeat split; try lra. intros _. rewrite Rabs_R1. lra. Qed.
Example ex_quant : quantization (-7/2) 1 = Ok (-3).
Proof.
  destruct (proj1 (C42_quantization (-7/2) 1 ltac:(lra)) ltac:(lra)) as (q & m & E & Em & A & B & C).
  rewrite E. f_equal. rewrite Em in *. assert (M : (m = -3)%Z); [|rewrite M; lra].
  unfold Rabs in *. repeat destruct (Rcase_abs _); try lra.
  all: assert (-4 < m < -2)%Z by (split; apply lt_IZR; lra); lia.
Qed.
