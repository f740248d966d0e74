(** C88: jitter of reaction wheels. *)
From Coq Require Import Reals Lra Lia List Bool ZArith.
From Verif Require Import RBase VecModel VecProofs QuatModel QuatSpec QuatProofs WheelJitterModel WheelJitterSpec WheelJitterProofs.
Import ListNotations.
Open Scope R_scope.

(** Without structural resonance the jitter after any speed history is the sum of the harmonics of
    the rotor angle with the square of the present speed, expressed in the body frame. *)
Theorem C88_harmonics :
  forall (c : jitter_config) (pf pt ws : list R) (w : R),
    length pf = length (jt_force c) -> length pt = length (jt_torque c) -> jt_resonance c = false ->
    let j := jitter_run (jitter_new c pf pt) (ws ++ [w]) in
    let theta := rotor_angle (jt_interval c) (ws ++ [w]) in
    veq 3 (jt_force_b j) (inverse_frame_conversion (jt_q_b2c c) (radial (jt_force c) pf theta w)) /\
    veq 3 (jt_torque_b j) (inverse_frame_conversion (jt_q_b2c c) (radial (jt_torque c) pt theta w)).
Proof.
  intros c pf pt ws w Lf Lt Rs. cbv zeta. destruct (unfiltered_spec c pf pt ws w Lf Lt) as [U1 U2].
  rewrite jitter_run_app in *. cbn [jitter_run] in *. set (j := jitter_run (jitter_new c pf pt) ws) in *.
  assert (C : jt_config j = c) by (unfold j; apply run_config).
  destruct (body_spec j w) as [B1 B2]; [rewrite C; exact Rs|]. rewrite B1, B2, C.
  split; apply inverse_frame_ext; assumption.
Qed.
Print Assumptions C88_harmonics.

(** It is perpendicular to the rotation axis, no larger than the speed squared times the amplitudes,
    and nothing at standstill. *)
Theorem C88_radial_and_bounded :
  forall (c : jitter_config) (pf pt ws : list R) (w : R),
    length pf = length (jt_force c) -> length pt = length (jt_torque c) -> jt_resonance c = false -> unit 4 (jt_q_b2c c) ->
    let j := jitter_run (jitter_new c pf pt) (ws ++ [w]) in
    let axis_b := inverse_frame_conversion (jt_q_b2c c) (v3 0 0 1) in
    dot 3 (jt_force_b j) axis_b = 0 /\ dot 3 (jt_torque_b j) axis_b = 0 /\
    norm 3 (jt_force_b j) <= w ^ 2 * sum_over (fun x => Rabs (snd x)) (jt_force c) /\
    norm 3 (jt_torque_b j) <= w ^ 2 * sum_over (fun x => Rabs (snd x)) (jt_torque c) /\
    (w = 0 -> veq 3 (jt_force_b j) (vconst 0) /\ veq 3 (jt_torque_b j) (vconst 0)).
Proof.
  intros c pf pt ws w Lf Lt Rs U. cbv zeta. destruct (C88_harmonics c pf pt ws w Lf Lt Rs) as [H1 H2].
  set (j := jitter_run (jitter_new c pf pt) (ws ++ [w])) in *. cbv zeta in H1, H2.
  assert (D : forall h p t, dot 3 (inverse_frame_conversion (jt_q_b2c c) (radial h p t w)) (inverse_frame_conversion (jt_q_b2c c) (v3 0 0 1)) = 0).
  { intros h p t. rewrite inverse_frame_dot by exact U. unfold dot. rewrite sumn3. unfold radial. cbn [v3]. ring. }
  assert (DE : forall u v a, veq 3 u v -> dot 3 u a = dot 3 v a) by (intros u v a H; unfold dot; rewrite !sumn3, !H by lia; reflexivity).
  assert (N1 : norm 3 (jt_force_b j) <= w ^ 2 * sum_over (fun x => Rabs (snd x)) (jt_force c)).
  { rewrite (norm3_ext _ _ H1), inverse_frame_norm by exact U. apply radial_bound, Lf. }
  assert (N2 : norm 3 (jt_torque_b j) <= w ^ 2 * sum_over (fun x => Rabs (snd x)) (jt_torque c)).
  { rewrite (norm3_ext _ _ H2), inverse_frame_norm by exact U. apply radial_bound, Lt. }
  split; [rewrite (DE _ _ _ H1); apply D|]. split; [rewrite (DE _ _ _ H2); apply D|]. split; [exact N1|]. split; [exact N2|].
  intros ->. rewrite pow_ne_zero, Rmult_0_l in N1, N2 by lia.
  split; intros i Hi; unfold vconst; apply (norm_0 3); try exact Hi; apply Rle_antisym; try assumption; apply norm_nonneg.
Qed.
Print Assumptions C88_radial_and_bounded.

(** With structural resonance the body-frame jitter is the filtered one: each component answers the
    harmonics through the difference equation, starting from rest. *)
Theorem C88_filtered :
  forall (c : jitter_config) (pf pt : list R) (ws : nat -> R) (i n : nat),
    jt_resonance c = true -> coefficient c 0 <> 0 ->
    let j := jitter_new c pf pt in
    answers c (unfiltered_at j ws i) (filtered_at j ws i) /\
    coefficient c 0 * filtered_at j ws i 1 = coefficient c 3 * unfiltered_at j ws i 1 /\
    filtered_at j ws i 0 = 0 /\ unfiltered_at j ws i 0 = 0 /\
    jt_force_b (jitter_run j (map ws (seq 0 (S n)))) = inverse_frame_conversion (jt_q_b2c c) (fun k => filtered_at j ws k (S n)).
Proof.
  intros c pf pt ws i n Rs Hc. cbv zeta. destruct (filter_answers c pf pt ws i Rs Hc) as (A & B & C & D).
  split; [exact A|]. split; [exact B|]. split; [exact C|]. split; [exact D|]. unfold filtered_at. rewrite run_snoc.
  destruct (body_spec_filtered (jitter_run (jitter_new c pf pt) (map ws (seq 0 n))) (ws n)) as [E _]; [rewrite run_config; exact Rs|].
  rewrite E, run_config. reflexivity.
Qed.
Print Assumptions C88_filtered.

(** The filter forgets its past geometrically: two answers to the same harmonics converge. *)
Theorem C88_filter_stable :
  forall (c : jitter_config) (u y y' : nat -> R),
    0 < jt_interval c -> 0 < jt_frequency c -> jt_frequency c * jt_interval c < 1 / 2 -> 0 < jt_damping c -> 0 < jt_bandwidth c ->
    answers c u y -> answers c u y' ->
    coefficient c 0 <> 0 /\
    exists K r, 0 <= r < 1 /\
      forall n, (y (2 * n)%nat - y' (2 * n)%nat) ^ 2 <= K * r ^ n /\ (y (S (2 * n)) - y' (S (2 * n))) ^ 2 <= K * r ^ n.
Proof.
  intros c u y y' HT Hf Hn Hz Hb A1 A2. split; [|exact (answers_converge c u y y' HT Hf Hn Hz Hb A1 A2)].
  destruct (coefficients_stable c HT Hf Hn Hz Hb) as (C0 & _). lra.
Qed.
Print Assumptions C88_filter_stable.

(** Constant and alternating input pass unchanged. *)
Theorem C88_filter_unit_gain :
  forall (c : jitter_config) (a : R),
    answers c (fun _ => a) (fun _ => a) /\ answers c (fun n => a * (-1) ^ n) (fun n => a * (-1) ^ n).
Proof.
  intros c a. split; intros n; [unfold coefficient; ring|]. cbn [pow]. unfold coefficient. ring.
Qed.
Print Assumptions C88_filter_unit_gain.

(** Input at the structural resonance frequency, in any phase, ends up amplified by one over the bandwidth. *)
Theorem C88_resonance_gain :
  forall (c : jitter_config) (pf pt : list R) (ws : nat -> R) (i : nat) (A phi : R),
    jt_resonance c = true ->
    0 < jt_interval c -> 0 < jt_frequency c -> jt_frequency c * jt_interval c < 1 / 2 -> 0 < jt_damping c -> 0 < jt_bandwidth c ->
    let j := jitter_new c pf pt in
    let theta := 2 * PI * jt_frequency c * jt_interval c in
    (forall n, unfiltered_at j ws i (S n) = A * sin (INR n * theta + phi)) ->
    exists K r, 0 <= r < 1 /\
      forall n, (filtered_at j ws i (S (2 * n)) - A / jt_bandwidth c * sin (INR (2 * n) * theta + phi)) ^ 2 <= K * r ^ n /\
                (filtered_at j ws i (S (S (2 * n))) - A / jt_bandwidth c * sin (INR (S (2 * n)) * theta + phi)) ^ 2 <= K * r ^ n.
Proof.
  intros c pf pt ws i A phi Rs HT Hf Hn Hz Hb. cbv zeta. set (theta := 2 * PI * jt_frequency c * jt_interval c). intros Hu.
  destruct (coefficients_stable c HT Hf Hn Hz Hb) as (C0 & _).
  destruct (filter_answers c pf pt ws i Rs ltac:(lra)) as (An & _).
  assert (Hcos : cos (theta / 2) <> 0).
  { apply Rgt_not_eq, cos_gt_0; unfold theta; pose proof PI_RGT_0 as PIP;
      assert (FT : 0 < jt_frequency c * jt_interval c) by (apply Rmult_lt_0_compat; assumption);
      assert (P1 : 0 < PI * (jt_frequency c * jt_interval c)) by (apply Rmult_lt_0_compat; assumption);
      assert (P2 : PI * (jt_frequency c * jt_interval c) < PI * (1 / 2)) by (apply Rmult_lt_compat_l; assumption); lra. }
  apply (answers_converge c (fun n => A * sin (INR n * theta + phi)) (fun n => filtered_at (jitter_new c pf pt) ws i (S n))
           (fun n => A / jt_bandwidth c * sin (INR n * theta + phi))); try assumption.
  - intros n. specialize (An (S n)). rewrite !Hu in An. exact An.
  - apply resonance_answers; try lra. exact Hcos.
Qed.
Print Assumptions C88_resonance_gain.

(** The couple the jitter adds to the wheel torque is that of the opposite of the reported force and
    torque. *)
Theorem C88_output_torque :
  forall (torque_b position_b : vec) (j : jitter) (i : nat), (i < 3)%nat ->
    output_torque torque_b position_b j i
      = torque_b i + cross position_b (vscal (-1) (jt_force_b j)) i + vscal (-1) (jt_torque_b j) i.
Proof.
  intros t p j i Hi. unfold output_torque, vsub, vscal, cross. destruct i as [|[|i]]; ring.
Qed.
Print Assumptions C88_output_torque.

(** * Wheels built by InitReactionWheel share one jitter object *)
(** Whatever was built before, every wheel reports the jitter of the wheel initialised last, driven
    by the speeds of all wheels in turn. *)
Theorem C88_wheels_share_the_last_jitter :
  forall (f : factory) (before : list factory_op) (c : jitter_config) (pf pt : list R) (ups : list factory_op) (k : nat),
    let built_now := S (built (factory_run f before)) in
    List.Forall (fun e => exists i w, e = FastUpdate i w /\ (i < built_now)%nat) ups ->
    wheel_jitter_force (factory_run f (before ++ Init c pf pt :: ups)) k
      = jt_force_b (jitter_run (jitter_new c pf pt) (map (fun e => match e with FastUpdate _ w => w | _ => 0 end) ups)).
Proof.
  intros f before c pf pt ups k. cbv zeta. intros H. unfold wheel_jitter_force. rewrite factory_app. cbn [factory_run factory_do].
  set (g := factory_run f before) in *.
  destruct (factory_updates (mkFactory (jitter_new c pf pt) (S (built g))) ups) as [E _].
  - eapply List.Forall_impl; [|exact H]. intros e (i & w & -> & L). split; [reflexivity|exact L].
  - rewrite E. reflexivity.
Qed.
Print Assumptions C88_wheels_share_the_last_jitter.

(** With one wheel that is its own jitter. *)
Theorem C88_single_wheel :
  forall (j0 : jitter) (c : jitter_config) (pf pt ws : list R) (j : jitter),
    let ops := Init c pf pt :: map (FastUpdate 0) ws in
    own 0 0 None ops = Some j -> wheel_jitter_force (factory_run (mkFactory j0 0) ops) 0 = jt_force_b j.
Proof.
  intros j0 c pf pt ws j. cbv zeta. cbn [own Nat.eqb].
  assert (G : forall ws x n, own 0 n (Some x) (map (FastUpdate 0) ws) = Some (jitter_run x ws)).
  { induction ws0 as [|w r IH]; intros x n; [reflexivity|]. cbn [map own Nat.eqb option_map jitter_run]. apply IH. }
  rewrite G. intros E. injection E as <-.
  pose proof (C88_wheels_share_the_last_jitter (mkFactory j0 0) [] c pf pt (map (FastUpdate 0) ws) 0) as H. cbv zeta in H.
  cbn [app] in H. rewrite H; [rewrite map_map, map_id; reflexivity|].
  apply List.Forall_forall. intros e He. apply in_map_iff in He. destruct He as (w & <- & _). exists 0%nat, w. split; [reflexivity|cbn; lia].
Qed.
Print Assumptions C88_single_wheel.

Definition one_harmonic (a : R) : jitter_config := mkJitterConfig [(1, a)] [] 1 (q4 0 0 0 1) 1 1 1 false.

(** With two wheels it is not: here the second wheel, at rest and never updated, reports the jitter of the first one. *)
Theorem C88_own_jitter_per_wheel_refuted :
  exists (ops : list factory_op) (j0 j : jitter),
    own 1 0 None ops = Some j /\ wheel_jitter_force (factory_run (mkFactory j0 0) ops) 1 0%nat <> jt_force_b j 0%nat.
Proof.
  exists [Init (one_harmonic 1) [0] []; Init (one_harmonic 2) [PI / 2 - 1] []; FastUpdate 0 1].
  exists (jitter_new (one_harmonic 0) [] []), (jitter_new (one_harmonic 2) [PI / 2 - 1] []). split; [reflexivity|].
  pose proof (C88_wheels_share_the_last_jitter (mkFactory (jitter_new (one_harmonic 0) [] []) 0) [Init (one_harmonic 1) [0] []]
                (one_harmonic 2) [PI / 2 - 1] [] [FastUpdate 0 1] 1) as H. cbv zeta in H. cbn [app] in H.
  rewrite H; [|repeat constructor; exists 0%nat, 1; split; [reflexivity|cbn; lia]].
  change (jt_force_b (jitter_new (one_harmonic 2) [PI / 2 - 1] []) 0%nat) with 0. cbn [map].
  destruct (C88_harmonics (one_harmonic 2) [PI / 2 - 1] [] [] 1) as [E _]; try reflexivity. cbv zeta in E. cbn [app] in E.
  rewrite (E 0%nat) by lia. rewrite inverse_frame_dcm by lia.
  unfold mvec, mtrans. rewrite sumn3. unfold radial, rotor_angle. cbn. rewrite !Rmult_1_l, !Rplus_0_r.
  replace (PI / 2 - 1 + 1) with (PI / 2) by ring. rewrite sin_PI2. lra.
Qed.
Print Assumptions C88_own_jitter_per_wheel_refuted.

(** * The hypotheses are met: one harmonic at constant speed on the resonance *)
Definition resonant : jitter_config := mkJitterConfig [(2, 3)] [] (1 / 1000) (q4 0 0 0 1) 100 (1 / 10) (1 / 100) true.
Example C88_example_resonance :
  exists K r, 0 <= r < 1 /\
    forall n, (filtered_at (jitter_new resonant [0] []) (fun _ => 100 * PI) 0 (S (2 * n))
                - 3 * (100 * PI) ^ 2 / (1 / 100) * sin (INR (2 * n) * (2 * PI * 100 * (1 / 1000)) + 2 * PI * 100 * (1 / 1000))) ^ 2 <= K * r ^ n.
Proof.
  destruct (C88_resonance_gain resonant [0] [] (fun _ => 100 * PI) 0 (3 * (100 * PI) ^ 2) (2 * PI * 100 * (1 / 1000))) as (K & r & Hr & H);
    try reflexivity; try (cbn; lra).
  - intros n. unfold unfiltered_at. rewrite seq_S, map_app. cbn [map].
    destruct (unfiltered_spec resonant [0] [] (map (fun _ => 100 * PI) (seq 0 n)) (100 * PI) eq_refl eq_refl) as [E _]. cbv zeta in E.
    rewrite (E 0%nat) by lia. unfold radial. cbn [jt_force resonant combine sum_over v3 fst snd jt_interval jt_frequency].
    assert (A : rotor_angle (1 / 1000) (map (fun _ : nat => 100 * PI) (seq 0 n) ++ [100 * PI]) = (INR n + 1) * (PI / 10)).
    { unfold rotor_angle. rewrite sum_over_app. cbn [sum_over].
      assert (S1 : forall m s, sum_over (fun w => w) (map (fun _ : nat => 100 * PI) (seq s m)) = INR m * (100 * PI)).
      { induction m as [|m IH]; intros s; [cbn; ring|]. cbn [seq map sum_over]. rewrite IH, S_INR. ring. }
      rewrite S1. field. }
    rewrite A, Rplus_0_r. f_equal. f_equal. field.
  - exists K, r. split; [exact Hr|]. intros n. apply (H n).
Qed.
