(** The solution of Kepler's equation inside sgp4. *)
From Coq Require Import Reals Lra Lia List Bool ZArith.
From Verif Require Import RBase VecModel VecProofs Trig SensorModel JulianModel OrbitSpec KeplerProofs Sgp4Model Sgp4Spec Sgp4Proofs.
Import ListNotations.
Open Scope R_scope.

Lemma limited_code d : (if rle 0.95 (Rabs d) then (if rlt 0 d then 0.95 else - 0.95) else d) = limited d.
Proof.
  unfold limited. destruct (rle_spec 0.95 (Rabs d)) as [A|A].
  - destruct (rlt_spec 0 d) as [P|P].
    + rewrite Rabs_right in A by lra. rewrite Rmin_left, Rmax_right by lra. reflexivity.
    + rewrite Rabs_left1 in A by lra. rewrite Rmin_right, Rmax_left by lra. lra.
  - apply Rnot_le_lt in A. apply Rabs_def2 in A. rewrite Rmin_right, Rmax_right by lra. reflexivity.
Qed.
Lemma limited_bound d : Rabs (limited d) <= 0.95.
Proof. unfold limited. apply Rabs_le. unfold Rmax, Rmin. repeat destruct (Rle_dec _ _); lra. Qed.
Lemma limited_id d : Rabs d < 0.95 -> limited d = d.
Proof. intros A. apply Rabs_def2 in A. unfold limited. rewrite Rmin_right, Rmax_right by lra. reflexivity. Qed.
Lemma estimate_near u ax ay n : Rabs (estimate u ax ay n - u) <= INR n * 0.95.
Proof.
  induction n as [|n IH]; [cbn [estimate INR]; replace (u - u) with 0 by ring; rewrite Rabs_R0; lra|].
  rewrite S_INR. cbn [estimate]. pose proof (limited_bound (correction u ax ay (estimate u ax ay n))) as L.
  replace (estimate u ax ay n + limited (correction u ax ay (estimate u ax ay n)) - u) with
    ((estimate u ax ay n - u) + limited (correction u ax ay (estimate u ax ay n))) by ring.
  eapply Rle_trans; [apply Rabs_triang|]. lra.
Qed.
Definition den (ax ay x : R) : R := 1 - ax * cos x - ay * sin x.
Definition corr (u ax ay : R) (n : nat) : R := limited (correction u ax ay (estimate u ax ay n)).

(** the loop from its (k+1)-th turn on *)
Lemma loop_turns u ax ay m : forall k sE cE,
  kepler_loop m u ax ay (estimate u ax ay (S k)) (corr u ax ay k) (sin (estimate u ax ay k)) (cos (estimate u ax ay k)) = Val (sE, cE) ->
  exists j, (k <= j <= k + m)%nat /\ sE = sin (estimate u ax ay j) /\ cE = cos (estimate u ax ay j) /\
    (forall i, (k <= i < j)%nat -> 1e-12 <= Rabs (corr u ax ay i)) /\ ((j < k + m)%nat -> Rabs (corr u ax ay j) < 1e-12).
Proof.
  induction m as [|m IH]; intros k sE cE H; cbn [kepler_loop] in H.
  - injection H as <- <-. exists k. split; [lia|]. split; [reflexivity|]. split; [reflexivity|]. split; [intros i I; lia|intros L; lia].
  - destruct (rle_spec 1e-12 (Rabs (corr u ax ay k))) as [A|A].
    + apply rbind_val in H. destruct H as (tem & D & H). apply fdiv_val in D. destruct D as (_ & ->). rewrite limited_code in H.
      assert (E : limited ((u - ay * cos (estimate u ax ay (S k)) + ax * sin (estimate u ax ay (S k)) - estimate u ax ay (S k)) /
                     (1 - cos (estimate u ax ay (S k)) * ax - sin (estimate u ax ay (S k)) * ay)) = corr u ax ay (S k)).
      { unfold corr, correction, kepler_residual. f_equal. f_equal; ring. }
      rewrite E in H. change (estimate u ax ay (S k) + corr u ax ay (S k)) with (estimate u ax ay (S (S k))) in H.
      destruct (IH (S k) sE cE H) as (j & J & S1 & C1 & A1 & B1). exists j. split; [lia|]. split; [exact S1|]. split; [exact C1|]. split.
      * intros i I. destruct (Nat.eq_dec i k) as [->|]; [exact A|]. apply A1. lia.
      * intros L. apply B1. lia.
    + injection H as <- <-. exists k. split; [lia|]. split; [reflexivity|]. split; [reflexivity|]. split; [intros i I; lia|intros _; lra].
Qed.
Lemma kepler_turns u ax ay sE cE : kepler u ax ay = Val (sE, cE) ->
  exists j, (j <= 9)%nat /\ sE = sin (estimate u ax ay j) /\ cE = cos (estimate u ax ay j) /\
    (forall i, (i < j)%nat -> 1e-12 <= Rabs (corr u ax ay i)) /\ ((j < 9)%nat -> Rabs (corr u ax ay j) < 1e-12).
Proof.
  unfold kepler. cbn [kepler_loop]. intros H. rewrite rle_true in H by (rewrite Rabs_right; lra).
  apply rbind_val in H. destruct H as (tem & D & H). apply fdiv_val in D. destruct D as (_ & ->). rewrite limited_code in H.
  assert (E : limited ((u - ay * cos u + ax * sin u - u) / (1 - cos u * ax - sin u * ay)) = corr u ax ay 0).
  { unfold corr, correction, kepler_residual. cbn [estimate]. f_equal. f_equal; ring. }
  rewrite E in H. change (u + corr u ax ay 0) with (estimate u ax ay 1) in H.
  pose proof (loop_turns u ax ay 9 0 sE cE) as L. destruct (L H) as (j & J & S1 & C1 & A1 & B1). exists j.
  split; [lia|]. split; [exact S1|]. split; [exact C1|]. split; [intros i I; apply A1; lia|intros L1; apply B1; lia].
Qed.
(** polar form of the eccentricity vector *)
Lemma polar ax ay : exists e w, 0 <= e /\ ax = e * cos w /\ ay = e * sin w /\ e * e = ax * ax + ay * ay.
Proof.
  destruct (Req_dec ax 0) as [X|X], (Req_dec ay 0) as [Y|Y].
  - exists 0, 0. subst. repeat split; lra.
  - destruct (atan2_spec ax ay (or_intror Y)) as [C D]. exists (sqrt (ax * ax + ay * ay)), (atan2 ay ax). repeat split; auto using sqrt_pos; try lra.
    apply sqrt_sqrt. nra.
  - destruct (atan2_spec ax ay (or_introl X)) as [C D]. exists (sqrt (ax * ax + ay * ay)), (atan2 ay ax). repeat split; auto using sqrt_pos; try lra.
    apply sqrt_sqrt. nra.
  - destruct (atan2_spec ax ay (or_intror Y)) as [C D]. exists (sqrt (ax * ax + ay * ay)), (atan2 ay ax). repeat split; auto using sqrt_pos; try lra.
    apply sqrt_sqrt. nra.
Qed.
Lemma residual_polar u e w x : kepler_residual u (e * cos w) (e * sin w) x = residual e (u - w) (x - w).
Proof. unfold kepler_residual, residual. rewrite sin_minus. ring. Qed.
Lemma den_polar e w x : den (e * cos w) (e * sin w) x = 1 - e * cos (x - w).
Proof. unfold den. rewrite cos_minus. ring. Qed.
Lemma den_bounds ax ay x e : 0 <= e -> ax * ax + ay * ay <= e * e -> 1 - e <= den ax ay x <= 1 + e.
Proof.
  intros E H. destruct (polar ax ay) as (f & w & F & -> & -> & Q). rewrite den_polar. pose proof (COS_bound (x - w)) as C.
  assert (f <= e) by nra. nra.
Qed.
Lemma den_pos ax ay x : ax * ax + ay * ay < 1 -> 0 < den ax ay x.
Proof.
  intros H. destruct (polar ax ay) as (f & w & F & -> & -> & Q). rewrite den_polar. pose proof (COS_bound (x - w)) as C.
  assert (f < 1) by nra. nra.
Qed.
(** an elliptic orbit never divides by zero *)
Lemma loop_finite u ax ay : ax * ax + ay * ay < 1 -> forall m x d s c, exists sE cE, kepler_loop m u ax ay x d s c = Val (sE, cE).
Proof.
  intros H. induction m as [|m IH]; intros x d s c; cbn [kepler_loop]; [now exists s, c|].
  destruct (rle 1e-12 (Rabs d)); [|now exists s, c].
  rewrite fdiv_ok; [cbn [rbind]; apply IH|]. pose proof (den_pos ax ay x H) as P. unfold den in P. lra.
Qed.
Lemma kepler_finite u ax ay : ax * ax + ay * ay < 1 -> exists sE cE, kepler u ax ay = Val (sE, cE).
Proof. intros H. now apply loop_finite. Qed.

(** convergence up to eccentricity 0.4 *)
Lemma newton_step e m x b b' : 0 <= e <= 0.4 -> Rabs (residual e m x) <= b -> 5 / 9 * (b * b) <= b' ->
  Rabs (next e m x - x) <= b / 0.6 /\ Rabs (residual e m (next e m x)) <= b'.
Proof.
  intros He B B'. pose proof (slope_pos e ltac:(lra) x) as SP.
  pose proof (Rabs_pos (residual e m x)) as RP.
  assert (D : Rabs (next e m x - x) * (1 - e * cos x) = Rabs (residual e m x)).
  { unfold next. replace (x - residual e m x / (1 - e * cos x) - x) with (- (residual e m x / (1 - e * cos x))) by ring.
    rewrite Rabs_Ropp. unfold Rdiv. rewrite Rabs_mult, Rabs_inv, (Rabs_right (1 - e * cos x)) by lra. field. lra. }
  assert (S1 : Rabs (next e m x - x) <= b / 0.6).
  { pose proof (Rabs_pos (next e m x - x)). nra. }
  split; [exact S1|]. eapply Rle_trans; [apply next_residual; lra|].
  pose proof (Rabs_pos (next e m x - x)) as NP.
  assert (Q : (next e m x - x) * (next e m x - x) <= (b / 0.6) * (b / 0.6)).
  { rewrite <- (Rabs_right ((next e m x - x) * (next e m x - x))) by (apply Rle_ge, Rle_0_sqr). rewrite Rabs_mult. nra. }
  assert (0 <= (next e m x - x) * (next e m x - x)) by apply Rle_0_sqr.
  nra.
Qed.

(** one unlimited turn is Newton's step for the polar form *)
Lemma estimate_step u e w k b b' : 0 <= e <= 0.4 -> b / 0.6 < 0.95 -> 5 / 9 * (b * b) <= b' ->
  Rabs (kepler_residual u (e * cos w) (e * sin w) (estimate u (e * cos w) (e * sin w) k)) <= b ->
  Rabs (corr u (e * cos w) (e * sin w) k) <= b / 0.6 /\
  Rabs (kepler_residual u (e * cos w) (e * sin w) (estimate u (e * cos w) (e * sin w) (S k))) <= b'.
Proof.
  intros He B1 B2 B. cbn [estimate]. unfold corr. set (x := estimate u (e * cos w) (e * sin w) k) in *.
  rewrite residual_polar in B. destruct (newton_step e (u - w) (x - w) b b' He B B2) as (N1 & N2).
  assert (E : correction u (e * cos w) (e * sin w) x = next e (u - w) (x - w) - (x - w)).
  { unfold correction, next. rewrite residual_polar. fold (den (e * cos w) (e * sin w) x). rewrite den_polar. unfold Rdiv. ring. }
  rewrite E. rewrite limited_id by lra. split; [exact N1|]. rewrite residual_polar.
  replace (x + (next e (u - w) (x - w) - (x - w)) - w) with (next e (u - w) (x - w)) by ring. exact N2.
Qed.
Lemma estimates_converge u e w : 0 <= e <= 0.4 -> Rabs (corr u (e * cos w) (e * sin w) 5) < 1e-12.
Proof.
  intros He.
  assert (R0 : Rabs (kepler_residual u (e * cos w) (e * sin w) (estimate u (e * cos w) (e * sin w) 0)) <= 0.4).
  { cbn [estimate]. rewrite residual_polar. unfold residual. replace (u - w - e * sin (u - w) - (u - w)) with (- (e * sin (u - w))) by ring.
    rewrite Rabs_Ropp, Rabs_mult, Rabs_right by lra. pose proof (SIN_bound (u - w)) as SB.
    assert (Rabs (sin (u - w)) <= 1) by (apply Rabs_le; lra). pose proof (Rabs_pos (sin (u - w))). nra. }
  destruct (estimate_step u e w 0 0.4 0.09 He ltac:(lra) ltac:(lra) R0) as (_ & R1).
  destruct (estimate_step u e w 1 0.09 0.0046 He ltac:(lra) ltac:(lra) R1) as (_ & R2).
  destruct (estimate_step u e w 2 0.0046 0.000012 He ltac:(lra) ltac:(lra) R2) as (_ & R3).
  destruct (estimate_step u e w 3 0.000012 1e-10 He ltac:(lra) ltac:(lra) R3) as (_ & R4).
  destruct (estimate_step u e w 4 1e-10 1e-19 He ltac:(lra) ltac:(lra) R4) as (_ & R5).
  destruct (estimate_step u e w 5 1e-19 1 He ltac:(lra) ltac:(lra) R5) as (C5 & _). lra.
Qed.
Lemma kepler_accurate u ax ay : ax * ax + ay * ay <= 0.16 ->
  exists x, kepler u ax ay = Val (sin x, cos x) /\ Rabs (kepler_residual u ax ay x) <= 1.4e-12 /\
    exists x0, kepler_residual u ax ay x0 = 0 /\ Rabs (x - x0) <= 2.4e-12 /\ forall x1, kepler_residual u ax ay x1 = 0 -> x1 = x0.
Proof.
  intros H. destruct (kepler_finite u ax ay ltac:(lra)) as (sE & cE & K).
  destruct (kepler_turns u ax ay sE cE K) as (j & J & S1 & C1 & A1 & B1).
  destruct (polar ax ay) as (e & w & E0 & EX & EY & Q). assert (He : 0 <= e <= 0.4) by nra.
  assert (J5 : (j <= 5)%nat).
  { destruct (le_lt_dec j 5) as [L|L]; [exact L|]. specialize (A1 5%nat L). subst ax ay. pose proof (estimates_converge u e w He). lra. }
  specialize (B1 ltac:(lia)). exists (estimate u ax ay j). split; [now rewrite K, S1, C1|].
  set (x := estimate u ax ay j) in *. unfold corr in B1. fold x in B1.
  pose proof (den_bounds ax ay x 0.4 ltac:(lra) ltac:(lra)) as DB. 
  assert (L : limited (correction u ax ay x) = correction u ax ay x).
  { apply limited_id. destruct (Rlt_dec (Rabs (correction u ax ay x)) 0.95) as [|N]; [assumption|]. exfalso.
    rewrite <- limited_code in B1. rewrite rle_true in B1 by lra. destruct (rlt 0 _); [rewrite Rabs_right in B1 by lra|rewrite Rabs_left in B1 by lra]; lra. }
  rewrite L in B1.
  assert (RB : Rabs (kepler_residual u ax ay x) <= 1.4e-12).
  { assert (EQ : Rabs (kepler_residual u ax ay x) = Rabs (correction u ax ay x) * den ax ay x).
    { unfold correction. fold (den ax ay x). unfold Rdiv. rewrite Rabs_mult, Rabs_Ropp, Rabs_inv, (Rabs_right (den ax ay x)) by lra. field. lra. }
    rewrite EQ. pose proof (Rabs_pos (correction u ax ay x)). nra. }
  split; [exact RB|].
  destruct (root_exists e (u - w) ltac:(lra)) as (r & Z & _). exists (r + w). subst ax ay.
  split; [rewrite residual_polar; replace (r + w - w) with r by ring; exact Z|]. split.
  - rewrite residual_polar in RB. pose proof (residual_lower e (u - w) ltac:(lra) r (x - w)) as RL. rewrite Z, Rminus_0_r in RL.
    replace (x - (r + w)) with (x - w - r) by ring. pose proof (Rabs_pos (x - w - r)). nra.
  - intros x1 X1. rewrite residual_polar in X1. pose proof (root_unique e (u - w) ltac:(lra) r (x1 - w) Z X1). lra.
Qed.
