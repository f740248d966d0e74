(** C13, C14, C46: simulation time. *)
From Coq Require Import List ZArith Bool Reals Lra Lia SpecFloat.
From Verif Require Import Base SimTimeModel SimTimeSpec SimTimeProofs.
Import ListNotations.
Open Scope R_scope.

(** C13 (exact arithmetic): with k steps per interval, after n >= 1 updates - whatever the wall
    clock did - each propagation flag is up iff k divides n+1, the log flag iff k divides n. *)
Theorem C13_flags_fire_every_k_steps : forall (p : params real_arith) ka ko kt kc kl calls,
  0 < step_sec _ p ->
  steps_per_interval (step_sec _ p) (attitude_interval _ p) ka ->
  steps_per_interval (step_sec _ p) (orbit_interval _ p) ko ->
  steps_per_interval (step_sec _ p) (thermal_interval _ p) kt ->
  steps_per_interval (step_sec _ p) (component_interval _ p) kc ->
  steps_per_interval (step_sec _ p) (log_interval _ p) kl ->
  calls <> [] ->
  let n := Z.of_nat (length calls) in let s := after p calls in
  (att_flag _ s = true <-> (ka | n + 1)%Z) /\
  (orb_flag _ s = true <-> (ko | n + 1)%Z) /\
  (thm_flag _ s = true <-> (kt | n + 1)%Z) /\
  (cmp_flag _ s = true <-> (kc | n + 1)%Z) /\
  (log_output _ s = true <-> (kl | n)%Z).
Proof.
  intros p ka ko kt kc kl calls Hs Ha Ho Ht Hc Hl Hne. cbv zeta.
  destruct (after_flags p ka ko kt kc kl Hs Ha Ho Ht Hc Hl calls) as (_ & _ & _ & _ & _ & E1 & E2 & E3 & E4 & E5).
  rewrite E1, E2, E3, E4, E5. destruct calls as [|c calls]; [congruence|].
  cbn [length]. repeat split; intros H;
  try (apply phase_divide in H; [assumption|first [apply Ha|apply Ho|apply Ht|apply Hc]]);
  try (apply phase_divide; [first [apply Ha|apply Ho|apply Ht|apply Hc]|assumption]).
  - apply phase_divide in H; [|apply Hl]. now rewrite Z.add_0_r in H.
  - apply phase_divide; [apply Hl|]. now rewrite Z.add_0_r.
Qed.
Print Assumptions C13_flags_fire_every_k_steps.

(** C13: initially only the log flag is up. *)
Theorem C13_initial_flags : forall (p : params real_arith),
  let s := after p [] in
  att_flag _ s = false /\ orb_flag _ s = false /\ thm_flag _ s = false /\ cmp_flag _ s = false /\
  log_output _ s = true.
Proof. intros; repeat split. Qed.

(** C13: the counters (ints in the code) stay between 0 and max k 1. *)
Theorem C13_counters_bounded : forall (p : params real_arith) ka ko kt kc kl calls,
  0 < step_sec _ p ->
  steps_per_interval (step_sec _ p) (attitude_interval _ p) ka ->
  steps_per_interval (step_sec _ p) (orbit_interval _ p) ko ->
  steps_per_interval (step_sec _ p) (thermal_interval _ p) kt ->
  steps_per_interval (step_sec _ p) (component_interval _ p) kc ->
  steps_per_interval (step_sec _ p) (log_interval _ p) kl ->
  let s := after p calls in
  (0 <= att_counter _ s <= ka /\ 0 <= orb_counter _ s <= ko /\ 0 <= thm_counter _ s <= kt /\
   0 <= cmp_counter _ s <= kc /\ 0 <= log_counter _ s <= kl)%Z.
Proof.
  intros p ka ko kt kc kl calls Hs Ha Ho Ht Hc Hl. cbv zeta.
  destruct (after_flags p ka ko kt kc kl Hs Ha Ho Ht Hc Hl calls) as (E1 & E2 & E3 & E4 & E5 & _).
  rewrite E1, E2, E3, E4, E5.
  assert (B : forall k, (1 <= k)%Z -> (0 <= cnt k (length calls) <= k)%Z).
  { intros k Hk. unfold cnt. destruct (length calls); [lia|]. unfold phase.
    match goal with |- context[(?a mod k)%Z] => pose proof (Z.mod_pos_bound a k ltac:(lia)) end. lia. }
  unfold phase. pose proof (Z.mod_pos_bound (Z.of_nat (length calls) + 0) kl ltac:(destruct Hl; lia)).
  repeat split; try (apply B; first [apply Ha|apply Ho|apply Ht|apply Hc]); lia.
Qed.
Print Assumptions C13_counters_bounded.

(** C13 fails for the arithmetic the code really uses: step 0.3 s, interval 0.9 s in binary64.
    The flag should be up after updates 2, 5, 8, ... (k = 3); it is up after 3, 7, 11: every
    fourth step. *)
Definition d_0_1 := S754_finite false 7205759403792794 (-56).  (* 0.1 *)
Definition d_0_3 := S754_finite false 5404319552844595 (-54).  (* 0.3 *)
Definition d_0_9 := S754_finite false 8106479329266893 (-53).  (* 0.9 *)
Definition p_double : params double_arith :=
  @mkParams double_arith d_0_3 d_0_3 d_0_9 d_0_9 d_0_9 d_0_9 d_0_9 d_0_9.
Theorem C13_double_rounding_refuted :
  map (fun n => att_flag _ (after p_double (repeat None n))) (seq 0 12)
  = [false; false; false; true; false; false; false; true; false; false; false; true] /\
  map (fun n => log_output _ (after p_double (repeat None n))) (seq 0 12)
  = [true; false; false; false; true; false; false; false; true; false; false; false].
Proof. vm_compute. split; reflexivity. Qed.
Print Assumptions C13_double_rounding_refuted.

(** C14 (exact arithmetic): the main loop terminates; it performs exactly the updates 1..N where
    N is the first update whose elapsed time exceeds the end time, and writes a log row at the
    start and before update n+1 whenever the log interval divides n. *)
Theorem C14_main_loop_runs_until_end : forall (p : params real_arith) ka ko kt kc kl N,
  0 < step_sec _ p -> 0 <= end_sec _ p ->
  steps_per_interval (step_sec _ p) (attitude_interval _ p) ka ->
  steps_per_interval (step_sec _ p) (orbit_interval _ p) ko ->
  steps_per_interval (step_sec _ p) (thermal_interval _ p) kt ->
  steps_per_interval (step_sec _ p) (component_interval _ p) kc ->
  steps_per_interval (step_sec _ p) (log_interval _ p) kl ->
  first_beyond (step_sec _ p) (end_sec _ p) N ->
  main_loop p (S N) 0 st_init =
  Ok (flat_map (fun n => (if (Z.of_nat n mod kl =? 0)%Z then [Log n] else []) ++ [Update (S n)]) (seq 0 N)).
Proof.
  intros p ka ko kt kc kl N Hs He Ha Ho Ht Hc Hl HN.
  change st_init with (after p (repeat (@None R) 0)) at 1.
  rewrite (main_loop_from p N HN N 0) by (try lia; intros _; exact (first_beyond_pos _ _ _ He HN)).
  f_equal. apply flat_map_ext_in. intros n _. f_equal.
  destruct (after_flags p ka ko kt kc kl Hs Ha Ho Ht Hc Hl (repeat None n)) as (_ & _ & _ & _ & _ & _ & _ & _ & _ & E5).
  rewrite E5. unfold phase. rewrite repeat_length, Z.add_0_r. reflexivity.
Qed.
Print Assumptions C14_main_loop_runs_until_end.

(** C14: such an N exists, and for end = m*step it is m+1. *)
Theorem C14_number_of_updates : forall step end_, 0 < step -> 0 <= end_ ->
  (exists N, first_beyond step end_ N) /\
  (forall N m, first_beyond step end_ N -> end_ = INR m * step -> N = S m).
Proof.
  intros s e Hs He. split; [destruct (first_beyond_exists s e Hs He) as (N & H & _); eauto|].
  intros N m [H1 H2] E. subst e.
  assert (A : (N <= S m)%nat).
  { destruct (Nat.le_gt_cases N (S m)) as [|L]; [assumption|]. specialize (H2 (S m) L). rewrite S_INR in H2.
    assert ((INR m + 1) * s = INR m * s + s) by ring. lra. }
  assert (B : (m < N)%nat).
  { apply INR_lt. apply Rmult_lt_reg_r with s; [assumption|lra]. }
  lia.
Qed.
Print Assumptions C14_number_of_updates.

(** C14: the elapsed time after n updates is n*step, and the end flag is up after update n iff
    n*step > end (so it is also withdrawn when end time is not exceeded). *)
Theorem C14_elapsed_and_finish : forall (p : params real_arith) n,
  elapsed _ (after p (repeat None n)) = INR n * step_sec _ p /\
  (finish _ (after p (repeat None (S n))) = true <-> INR (S n) * step_sec _ p > end_sec _ p).
Proof. intros p n. split; [apply after_elapsed|apply after_finish]. Qed.
Print Assumptions C14_elapsed_and_finish.

(** C14 with binary64: step 0.1, end 0.3 stops after 3 updates (with a log row at 0.0, 0.1 and
    0.2 s and none at 0.3 s), not after 4. *)
Definition p_double2 : params double_arith :=
  @mkParams double_arith d_0_3 d_0_1 d_0_1 d_0_1 d_0_1 d_0_1 d_0_1 d_0_1.
Theorem C14_double_rounding_refuted :
  main_loop p_double2 10 0 st_init = Ok [Log 0; Update 1; Log 1; Update 2; Log 2; Update 3].
Proof. vm_compute. reflexivity. Qed.
Print Assumptions C14_double_rounding_refuted.

(** C46: progress output. For a display period P = end/step/100 >= 1, with f = floor P and
    c = ceil P, progress is shown at step c and then every f steps; for P <= 1 at every step. *)
Theorem C46_progress_cadence : forall (p : params real_arith) f c calls,
  (1 <= f)%Z -> (f <= c <= f + 1)%Z -> IZR f <= display_period _ p < IZR f + 1 ->
  IZR (c - 1) < display_period _ p <= IZR c -> calls <> [] ->
  let n := Z.of_nat (length calls) in
  (disp_output _ (after p calls) = true <-> (c <= n)%Z /\ (f | n - c)%Z).
Proof.
  intros p f c calls Hf Hc HP HQ Hne. cbv zeta.
  assert (HT : R_trunc (display_period real_arith p) = f).
  { unfold R_trunc. assert (0 <= display_period real_arith p).
    { apply Rle_trans with (IZR f); [apply IZR_le; lia|lra]. }
    destruct (Rle_dec 0 (display_period real_arith p)); [|contradiction].
    destruct (base_Int_part (display_period real_arith p)) as [B1 B2].
    assert (Int_part (display_period real_arith p) < f + 1)%Z by (apply lt_IZR; rewrite plus_IZR; lra).
    assert (f < Int_part (display_period real_arith p) + 1)%Z by (apply lt_IZR; rewrite plus_IZR; lra).
    lia. }
  destruct (disp_closed p f c calls Hf Hc HQ HT) as [_ E]. rewrite (E Hne), andb_true_iff, Z.leb_le, Z.eqb_eq.
  rewrite Z.mod_divide by lia. reflexivity.
Qed.
Print Assumptions C46_progress_cadence.

Theorem C46_progress_every_step : forall (p : params real_arith) x calls,
  0 <= display_period _ p <= 1 -> disp_output _ (after p (x :: calls)) = true.
Proof. intros p x calls [H0 H]. now apply disp_below_one. Qed.
Print Assumptions C46_progress_every_step.

(** Hypotheses are met: step 0.1, interval 0.25 -> k = 3; end 1 -> N = 11. *)
Example ex_k : steps_per_interval (1/10) (25/100) 3.
Proof. unfold steps_per_interval. split; [lia|]. change (IZR (3-1)) with 2. lra. Qed.
Example ex_N : first_beyond (1/10) 1 11.
Proof. split; [cbn; lra|]. intros m H. do 11 (destruct m as [|m]; [cbn; lra|]). lia. Qed.
