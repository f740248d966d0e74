(** Kepler's equation, its solvers, and the Kepler orbit as two-body motion. *)
From Coq Require Import Reals Lra Lia List Bool Arith.
From Verif Require Import Base RBase VecModel VecProofs Trig QuatModel QuatSpec QuatProofs OrbitModel OrbitSpec.
Open Scope R_scope.

Lemma mvt_abs (f f' : R -> R) (k : R) : (forall c, derivable_pt_lim f c (f' c)) -> (forall c, Rabs (f' c) <= k) ->
  forall a b, Rabs (f b - f a) <= k * Rabs (b - a).
Proof.
  intros D B. assert (G : forall a b, a < b -> Rabs (f b - f a) <= k * Rabs (b - a)).
  { intros a b L. destruct (MVT_cor2 f f' a b L) as (c & E & _); [intros; apply D|]. rewrite E, Rabs_mult.
    apply Rmult_le_compat_r; [apply Rabs_pos|apply B]. }
  intros a b. destruct (Rtotal_order a b) as [L|[->|L]].
  - now apply G.
  - rewrite !Rminus_diag_eq by reflexivity. rewrite Rabs_R0. lra.
  - rewrite (Rabs_minus_sym (f b)), (Rabs_minus_sym b). now apply G.
Qed.
Lemma sin_lipschitz a b : Rabs (sin b - sin a) <= Rabs (b - a).
Proof.
  rewrite <- (Rmult_1_l (Rabs (b - a))). apply (mvt_abs sin cos 1).
  - apply derivable_pt_lim_sin.
  - intro c. apply Rabs_le. pose proof (COS_bound c). lra.
Qed.
Lemma cos_lipschitz a b : Rabs (cos b - cos a) <= Rabs (b - a).
Proof.
  rewrite <- (Rmult_1_l (Rabs (b - a))). apply (mvt_abs cos (fun c => - sin c) 1).
  - apply derivable_pt_lim_cos.
  - intro c. apply Rabs_le. pose proof (SIN_bound c). lra.
Qed.
(** sin (a + d) = sin a + d cos a up to d^2 / 2 *)
Lemma sin_taylor2 a d : Rabs (sin (a + d) - sin a - d * cos a) <= d * d / 2.
Proof.
  assert (K : forall s, s = 1 \/ s = -1 -> 0 <= d * d / 2 - s * (sin (a + d) - sin a - d * cos a)).
  { intros s Hs. set (g := fun x => x * x / 2 - s * (sin (a + x) - sin a - x * cos a)).
    assert (D : forall c, derivable_pt_lim g c (c - s * (cos (a + c) - cos a))).
    { intro c. unfold g.
      replace (c - s * (cos (a + c) - cos a)) with ((1 * c + c * 1) * / 2 + (c * c) * 0 - s * (cos (a + c) * (0 + 1) - 0 - (1 * cos a + c * 0))) by field.
      apply derivable_pt_lim_minus.
      - unfold Rdiv. apply (derivable_pt_lim_mult (fun x => x * x) (fun _ => / 2)); [|apply derivable_pt_lim_const].
        apply (derivable_pt_lim_mult (fun x => x) (fun x => x)); apply derivable_pt_lim_id.
      - apply (derivable_pt_lim_scal (fun x => sin (a + x) - sin a - x * cos a)).
        apply derivable_pt_lim_minus; [apply derivable_pt_lim_minus|].
        + apply (derivable_pt_lim_comp (fun x => a + x) sin); [|apply derivable_pt_lim_sin].
          apply derivable_pt_lim_plus; [apply derivable_pt_lim_const|apply derivable_pt_lim_id].
        + apply derivable_pt_lim_const.
        + apply (derivable_pt_lim_mult (fun x => x) (fun _ => cos a)); [apply derivable_pt_lim_id|apply derivable_pt_lim_const]. }
    assert (L : forall c, s * (cos (a + c) - cos a) <= Rabs c /\ - Rabs c <= s * (cos (a + c) - cos a)).
    { intro c. pose proof (cos_lipschitz a (a + c)) as H. replace (a + c - a) with c in H by ring. apply Rabs_le_both in H. destruct Hs as [->| ->]; lra. }
    assert (G0 : g 0 = 0) by (unfold g; rewrite Rplus_0_r; lra).
    change (0 <= g d). destruct (Rtotal_order d 0) as [N|[->|P]]; [|lra|].
    - destruct (MVT_cor2 g _ d 0 N ltac:(intros; apply D)) as (c & E & C). destruct (L c) as (L1 & L2). rewrite Rabs_left in L1, L2 by lra.
      assert (g d = (c - s * (cos (a + c) - cos a)) * d) by lra. nra.
    - destruct (MVT_cor2 g _ 0 d P ltac:(intros; apply D)) as (c & E & C). destruct (L c) as (L1 & L2). rewrite Rabs_right in L1, L2 by lra. nra. }
  apply Rabs_le. pose proof (K 1 (or_introl eq_refl)). pose proof (K (-1) (or_intror eq_refl)). lra.
Qed.

Section kepler.
Variables (e m : R).
Hypothesis He : 0 <= e < 1.
Lemma slope_pos u : 1 - e <= 1 - e * cos u <= 1 + e.
Proof. pose proof (COS_bound u). nra. Qed.
Lemma residual_diff u w : residual e m w - residual e m u = (w - u) * (1 - e * cos u) - e * (sin (u + (w - u)) - sin u - (w - u) * cos u).
Proof. unfold residual. replace (u + (w - u)) with w by ring. ring. Qed.
(** the residual grows at least like (1 - e) |u - w| *)
Lemma residual_lower u w : (1 - e) * Rabs (w - u) <= Rabs (residual e m w - residual e m u).
Proof.
  unfold residual. replace (w - e * sin w - m - (u - e * sin u - m)) with ((w - u) - e * (sin w - sin u)) by ring.
  pose proof (sin_lipschitz u w) as H. pose proof (Rabs_triang_inv (w - u) (e * (sin w - sin u))) as T.
  rewrite Rabs_mult, (Rabs_right e) in T by lra. nra.
Qed.
Lemma root_unique u w : residual e m u = 0 -> residual e m w = 0 -> u = w.
Proof.
  intros A B. pose proof (residual_lower u w) as H. rewrite A, B, Rminus_0_r, Rabs_R0 in H.
  destruct (Req_dec u w) as [|N]; [assumption|]. exfalso. assert (0 < Rabs (w - u)) by (apply Rabs_pos_lt; lra). nra.
Qed.
Lemma root_exists : exists u, residual e m u = 0 /\ Rabs (u - m) <= e.
Proof.
  assert (C : continuity (residual e m)).
  { unfold residual. apply continuity_minus; [|apply continuity_const; intros ? ?; reflexivity].
    apply continuity_minus; [intro; apply derivable_continuous_pt; apply derivable_pt_id|].
    apply continuity_scal. apply continuity_sin. }
  destruct (IVT (residual e m) (m - 2) (m + 2) C) as (u & B & Z).
  - lra.
  - unfold residual. pose proof (SIN_bound (m - 2)). nra.
  - unfold residual. pose proof (SIN_bound (m + 2)). nra.
  - exists u. split; [exact Z|]. unfold residual in Z. replace (u - m) with (e * sin u) by lra. rewrite Rabs_mult, (Rabs_right e) by lra.
    pose proof (SIN_bound u). assert (Rabs (sin u) <= 1) by (apply Rabs_le; lra). nra.
Qed.
(** one Newton step *)
Definition next (u : R) : R := u - residual e m u / (1 - e * cos u).
Lemma next_residual u : Rabs (residual e m (next u)) <= e * ((next u - u) * (next u - u)) / 2.
Proof.
  pose proof (slope_pos u) as S. pose proof (residual_diff u (next u)) as D.
  assert (E : (next u - u) * (1 - e * cos u) = - residual e m u) by (unfold next; field; lra).
  rewrite E in D. replace (residual e m (next u)) with (- (e * (sin (u + (next u - u)) - sin u - (next u - u) * cos u))) by lra.
  rewrite Rabs_Ropp, Rabs_mult, (Rabs_right e) by lra. pose proof (sin_taylor2 u (next u - u)). nra.
Qed.
Lemma next_error u r : residual e m r = 0 -> Rabs (next u - r) <= e / (2 * (1 - e)) * (Rabs (u - r) * Rabs (u - r)).
Proof.
  intro Z. pose proof (slope_pos u) as S. pose proof (residual_diff u r) as D. rewrite Z in D.
  assert (E : next u - r = - (e * (sin (u + (r - u)) - sin u - (r - u) * cos u)) / (1 - e * cos u)).
  { unfold next. replace (residual e m u) with (- ((r - u) * (1 - e * cos u)) + e * (sin (u + (r - u)) - sin u - (r - u) * cos u)) by lra. field. lra. }
  rewrite E. unfold Rdiv at 1. rewrite Rabs_mult, Rabs_Ropp, Rabs_mult, (Rabs_right e) by lra. rewrite Rabs_inv, (Rabs_right (1 - e * cos u)) by lra.
  pose proof (sin_taylor2 u (r - u)) as T. replace (Rabs (u - r) * Rabs (u - r)) with ((r - u) * (r - u)) by (rewrite <- Rabs_mult, Rabs_right; [ring|apply Rle_ge, Rle_0_sqr]).
  set (A := Rabs (sin (u + (r - u)) - sin u - (r - u) * cos u)) in *. set (d2 := (r - u) * (r - u)) in *.
  assert (0 <= A) by apply Rabs_pos. assert (0 <= d2) by apply Rle_0_sqr.
  assert (I : / (1 - e * cos u) <= / (1 - e)) by (apply Rinv_le_contravar; lra).
  assert (0 < / (1 - e)) by (apply Rinv_0_lt_compat; lra). assert (0 < / (1 - e * cos u)) by (apply Rinv_0_lt_compat; lra).
  replace (e / (2 * (1 - e)) * d2) with (e * (d2 / 2) * / (1 - e)) by (field; lra).
  apply Rmult_le_compat; [nra|lra| |exact I]. apply Rmult_le_compat_l; lra.
Qed.
End kepler.

(** the loop after its first pass *)
Lemma newton_same n e m limit u : newton (S n) e m limit u u =
  if rlt (Rabs (next e m u - u)) limit then next e m u else newton n e m limit (next e m u) (next e m u).
Proof. reflexivity. Qed.
Lemma solve_first n e m limit : solve_kepler_newton e m limit (S n) =
  if rlt (Rabs (iterate e m 0 - m)) limit then iterate e m 0 else newton n e m limit (iterate e m 0) (iterate e m 0).
Proof.
  unfold solve_kepler_newton. cbn [newton iterate].
  replace (0 - (m - e * sin m - m) / (1 - e * cos m)) with (e * sin m / (1 - e * cos m)); [reflexivity|].
  unfold Rdiv. ring.
Qed.
Lemma newton_stops e m limit : forall n j, (exists k, (j <= k < j + n)%nat /\ Rabs (iterate e m (S k) - iterate e m k) < limit) ->
  exists k, (j <= k < j + n)%nat /\ newton n e m limit (iterate e m j) (iterate e m j) = iterate e m (S k) /\ Rabs (iterate e m (S k) - iterate e m k) < limit.
Proof.
  induction n as [|n IH]; intros j (k & K & L); [lia|]. rewrite newton_same. change (next e m (iterate e m j)) with (iterate e m (S j)).
  destruct (rlt_spec (Rabs (iterate e m (S j) - iterate e m j)) limit) as [C|C].
  - exists j. split; [lia|]. split; [reflexivity|exact C].
  - destruct (Nat.eq_dec k j) as [->|NE]; [contradiction|]. destruct (IH (S j)) as (k' & K' & E & L'); [exists k; split; [lia|exact L]|].
    exists k'. split; [lia|]. split; assumption.
Qed.
Lemma newton_residual e m limit n : 0 <= e < 1 -> ~ Rabs (iterate e m 0 - m) < limit ->
  (exists k, (S k < n)%nat /\ Rabs (iterate e m (S k) - iterate e m k) < limit) ->
  Rabs (residual e m (solve_kepler_newton e m limit n)) <= e * (limit * limit) / 2.
Proof.
  intros He NB (k & K & L). destruct n as [|n]; [lia|]. rewrite solve_first. destruct (rlt_spec (Rabs (iterate e m 0 - m)) limit) as [C|_]; [contradiction|].
  destruct (newton_stops e m limit n 0) as (k' & K' & E & L'); [exists k; split; [lia|exact L]|]. rewrite E.
  pose proof (next_residual e m He (iterate e m k')) as R. change (next e m (iterate e m k')) with (iterate e m (S k')) in R.
  eapply Rle_trans; [exact R|]. set (d := iterate e m (S k') - iterate e m k') in *.
  assert (d * d <= limit * limit). { rewrite <- (Rabs_right (d * d)) by (apply Rle_ge, Rle_0_sqr). rewrite Rabs_mult. pose proof (Rabs_pos d). nra. }
  nra.
Qed.

Lemma pi_upper : PI < 32 / 10.
Proof.
  destruct (Rlt_dec PI (32 / 10)) as [|N]; [assumption|]. exfalso.
  assert (C : 0 <= cos (16 / 10)) by (apply cos_ge_0; lra).
  destruct (pre_cos_bound (16 / 10) 0) as (_ & U); [lra|lra|].
  unfold cos_approx, cos_term in U. cbn [Nat.mul Nat.add sum_f_R0 pow Factorial.fact] in U.
  rewrite !INR_IZR_INZ in U. cbn [Z.of_nat Pos.of_succ_nat Pos.succ Nat.add Nat.mul] in U.
  lra.
Qed.
Lemma iterate0_bound e m : 0 <= e <= 1 / 5 -> 0 <= m -> Rabs (iterate e m 0) <= 1 / 4 /\ Rabs (iterate e m 0) <= m / 4.
Proof.
  intros He Hm. cbn [iterate]. pose proof (COS_bound m) as C. pose proof (SIN_bound m) as S0.
  assert (D : 4 / 5 <= 1 - e * cos m) by nra. unfold Rdiv. rewrite Rabs_mult, Rabs_inv, Rabs_mult, (Rabs_right e), (Rabs_right (1 - _)) by lra.
  assert (I : / (1 - e * cos m) <= 5 / 4). { replace (5 / 4) with (/ (4 / 5)) by field. apply Rinv_le_contravar; lra. }
  assert (0 < / (1 - e * cos m)) by (apply Rinv_0_lt_compat; lra).
  assert (S1 : Rabs (sin m) <= 1) by (apply Rabs_le; lra).
  assert (S2 : Rabs (sin m) <= m). { pose proof (sin_lipschitz 0 m) as L. rewrite sin_0, !Rminus_0_r, (Rabs_right m) in L by lra. exact L. }
  pose proof (Rabs_pos (sin m)). set (i := / (1 - e * cos m)) in *. set (s := Rabs (sin m)) in *. clearbody i s. clear - H H0 I S1 S2 He Hm.
  assert (A : e * s <= s / 5) by nra. assert (0 <= e * s) by nra.
  split; nra.
Qed.
Lemma small_e_converges e m : 0 <= e <= 1 / 5 -> 0 <= m <= 2 * PI -> Rabs (iterate e m 8 - iterate e m 7) < 1 / 10 ^ 5.
Proof.
  intros He Hm. destruct (root_exists e m ltac:(lra)) as (r & Z & B).
  assert (P := pi_upper). destruct (iterate0_bound e m He ltac:(lra)) as (B0 & _).
  assert (K : e / (2 * (1 - e)) <= 1 / 8). { apply (Rmult_le_reg_r (2 * (1 - e))); [lra|]. replace (e / (2 * (1 - e)) * (2 * (1 - e))) with e by (field; lra). lra. }
  assert (K0 : 0 <= e / (2 * (1 - e))). { apply Rmult_le_pos; [lra|]. left. apply Rinv_0_lt_compat. lra. }
  assert (N : forall k x, Rabs (iterate e m k - r) <= x -> Rabs (iterate e m (S k) - r) <= x * x / 8).
  { intros k x X. pose proof (next_error e m ltac:(lra) (iterate e m k) r Z) as E. change (next e m (iterate e m k)) with (iterate e m (S k)) in E.
    pose proof (Rabs_pos (iterate e m k - r)) as P1. set (a := Rabs (iterate e m k - r)) in *. clearbody a.
    eapply Rle_trans; [exact E|]. assert (a * a <= x * x) by nra. nra. }
  assert (W : forall k x y, x * x / 8 <= y -> Rabs (iterate e m k - r) <= x -> Rabs (iterate e m (S k) - r) <= y) by (intros k x y H X; specialize (N k x X); lra).
  assert (E0 : Rabs (iterate e m 0 - r) <= 685 / 100).
  { apply Rabs_le_both in B. apply Rabs_le_both in B0. apply Rabs_le. lra. }
  assert (E1 : Rabs (iterate e m 1 - r) <= 587 / 100) by (apply (W 0%nat (685 / 100)); [lra|exact E0]).
  assert (E2 : Rabs (iterate e m 2 - r) <= 431 / 100) by (apply (W 1%nat (587 / 100)); [lra|exact E1]).
  assert (E3 : Rabs (iterate e m 3 - r) <= 233 / 100) by (apply (W 2%nat (431 / 100)); [lra|exact E2]).
  assert (E4 : Rabs (iterate e m 4 - r) <= 68 / 100) by (apply (W 3%nat (233 / 100)); [lra|exact E3]).
  assert (E5 : Rabs (iterate e m 5 - r) <= 6 / 100) by (apply (W 4%nat (68 / 100)); [lra|exact E4]).
  assert (E6 : Rabs (iterate e m 6 - r) <= 5 / 10000) by (apply (W 5%nat (6 / 100)); [lra|exact E5]).
  assert (E7 : Rabs (iterate e m 7 - r) <= 1 / 10 ^ 7) by (apply (W 6%nat (5 / 10000)); [lra|exact E6]).
  assert (E8 : Rabs (iterate e m 8 - r) <= 1 / 10 ^ 7) by (apply (W 7%nat (1 / 10 ^ 7)); [lra|exact E7]).
  clear - E7 E8. apply Rabs_le_both in E7. apply Rabs_le_both in E8. apply Rabs_def1; lra.
Qed.
Lemma small_e_residual e m : 0 <= e <= 1 / 5 -> 0 <= m <= 2 * PI ->
  Rabs (residual e m (solve_kepler_newton e m (1 / 10 ^ 5) 10)) <= 2 / 10 ^ 5.
Proof.
  intros He Hm. destruct (Rlt_dec (Rabs (iterate e m 0 - m)) (1 / 10 ^ 5)) as [C|C].
  - rewrite solve_first. rewrite rlt_true by exact C. destruct (iterate0_bound e m He ltac:(lra)) as (_ & B).
    set (u := iterate e m 0) in *. clearbody u. unfold residual. apply Rabs_def2 in C. apply Rabs_le_both in B.
    pose proof (sin_lipschitz 0 u) as L. rewrite sin_0, !Rminus_0_r in L. assert (Rabs u <= m / 4) by (apply Rabs_le; lra).
    assert (S1 : Rabs (sin u) <= m / 4) by lra. apply Rabs_le_both in S1. apply Rabs_le. assert (m < 2 / 10 ^ 5) by lra. nra.
  - eapply Rle_trans; [apply newton_residual; [lra|exact C|]|].
    + exists 7%nat. split; [lia|]. now apply small_e_converges.
    + replace (2 / 10 ^ 5) with (2 / 100000) by lra. replace (1 / 10 ^ 5) with (1 / 100000) by lra. nra.
Qed.
(** the distance to the exact solution *)
Lemma residual_distance e m u r : 0 <= e < 1 -> residual e m r = 0 -> Rabs (u - r) <= Rabs (residual e m u) / (1 - e).
Proof.
  intros He Z. pose proof (residual_lower e m He r u) as L. rewrite Z, Rminus_0_r in L.
  apply (Rmult_le_reg_l (1 - e)); [lra|]. replace ((1 - e) * (Rabs (residual e m u) / (1 - e))) with (Rabs (residual e m u)) by (field; lra). exact L.
Qed.
(** the fixed point iteration *)
Lemma first_order_residual e m limit : 0 <= e < 1 -> forall n k p u, u = m + e * sin p -> Rabs (u - p) <= e ^ k ->
  let r := first_order n e m limit u u in Rabs (residual e m r) <= e * limit \/ Rabs (residual e m r) <= e ^ (k + n + 1).
Proof.
  intros He. induction n as [|n IH]; intros k p u Hu B; cbv zeta.
  - right. cbn [first_order]. unfold residual. replace (u - e * sin u - m) with (e * (sin p - sin u)) by (clear - Hu; lra).
    rewrite Rabs_mult, (Rabs_right e) by lra. pose proof (sin_lipschitz u p) as L. rewrite (Rabs_minus_sym p u) in L.
    replace (k + 0 + 1)%nat with (S k) by lia. cbn [pow]. apply Rmult_le_compat_l; lra.
  - cbn [first_order]. set (u' := m + e * sin u).
    assert (D : Rabs (u' - u) <= e ^ S k).
    { unfold u'. replace (m + e * sin u - u) with (e * (sin u - sin p)) by (clear - Hu; lra). rewrite Rabs_mult, (Rabs_right e) by lra.
      pose proof (sin_lipschitz p u). cbn [pow]. apply Rmult_le_compat_l; lra. }
    destruct (rlt_spec (Rabs (u' - u)) limit) as [C|C].
    + left. unfold residual. replace (u' - e * sin u' - m) with (e * (sin u - sin u')) by (assert (Hw : u' = m + e * sin u) by reflexivity; clear - Hw; lra).
      rewrite Rabs_mult, (Rabs_right e) by lra. pose proof (sin_lipschitz u' u) as L. rewrite (Rabs_minus_sym u u') in L. apply Rmult_le_compat_l; lra.
    + replace (k + S n + 1)%nat with (S k + n + 1)%nat by lia. apply (IH (S k) u u'); [reflexivity|exact D].
Qed.

(** ** The eccentric anomaly as a function of time *)
Lemma anomaly_derivative e n u : 0 <= e < 1 -> eccentric_anomaly e n u -> forall s, derivable_pt_lim u s (n / (1 - e * cos (u s))).
Proof.
  intros He H s.
  pose proof (slope_pos e He (u s)) as SP. set (c := 1 - e * cos (u s)) in *.
  assert (Q : forall h, h <> 0 -> Rabs ((u (s + h) - u s) / h - n / c) <= e * (n * n) / (2 * (1 - e) * (1 - e) * (1 - e)) * Rabs h).
  { intros h Hh. set (k := u (s + h) - u s).
    pose proof (H s) as H0. pose proof (H (s + h)) as H1. unfold residual in H0, H1.
    assert (LK : (1 - e) * Rabs k <= Rabs (n * h)).
    { pose proof (residual_lower e 0 He (u s) (u (s + h))) as L. fold k in L. unfold residual in L.
      replace (u (s + h) - e * sin (u (s + h)) - 0 - (u s - e * sin (u s) - 0)) with (n * h) in L by lra. exact L. }
    pose proof (sin_taylor2 (u s) k) as T. set (rho := sin (u s + k) - sin (u s) - k * cos (u s)) in *.
    assert (E : k * c - e * rho = n * h). { unfold rho, c. replace (u s + k) with (u (s + h)) by (unfold k; ring). unfold k. lra. }
    replace (k / h - n / c) with (e * rho * / (c * h)) by (replace (e * rho) with (k * c - n * h) by lra; field; lra).
    rewrite !Rabs_mult, Rabs_inv, Rabs_mult, (Rabs_right e), (Rabs_right c) by lra.
    assert (AH : 0 < Rabs h) by (apply Rabs_pos_lt; exact Hh).
    assert (K2 : k * k <= (n * n) * (Rabs h * Rabs h) / ((1 - e) * (1 - e))).
    { apply (Rmult_le_reg_r ((1 - e) * (1 - e))); [nra|]. replace (n * n * (Rabs h * Rabs h) / ((1 - e) * (1 - e)) * ((1 - e) * (1 - e))) with (n * n * (Rabs h * Rabs h)) by (field; lra).
      rewrite Rabs_mult in LK. replace (k * k) with (Rabs k * Rabs k) by (rewrite <- Rabs_mult; apply Rabs_right, Rle_ge, Rle_0_sqr).
      replace (n * n) with (Rabs n * Rabs n) by (rewrite <- Rabs_mult; apply Rabs_right, Rle_ge, Rle_0_sqr).
      pose proof (Rabs_pos k). set (x := (1 - e) * Rabs k) in *. set (y := Rabs n * Rabs h) in *.
      replace (Rabs k * Rabs k * ((1 - e) * (1 - e))) with (x * x) by (unfold x; ring). replace (Rabs n * Rabs n * (Rabs h * Rabs h)) with (y * y) by (unfold y; ring).
      assert (0 <= x) by (unfold x; nra). nra. }
    set (M := n * n * (Rabs h * Rabs h) / ((1 - e) * (1 - e))) in *.
    assert (I : / (c * Rabs h) <= / ((1 - e) * Rabs h)) by (apply Rinv_le_contravar; nra).
    assert (0 < / (c * Rabs h)) by (apply Rinv_0_lt_compat; nra).
    replace (e * (n * n) / (2 * (1 - e) * (1 - e) * (1 - e)) * Rabs h) with (e * (M / 2) * / ((1 - e) * Rabs h)) by (unfold M; field; lra).
    pose proof (Rabs_pos rho). apply Rmult_le_compat; [nra|lra| |exact I]. apply Rmult_le_compat_l; lra. }
  set (C := e * (n * n) / (2 * (1 - e) * (1 - e) * (1 - e))) in *.
  assert (C0 : 0 <= C). { unfold C. apply Rmult_le_pos; [nra|]. left. apply Rinv_0_lt_compat. repeat apply Rmult_lt_0_compat; lra. }
  intros eps He2. assert (DP : 0 < eps / (C + 1)) by (apply Rdiv_lt_0_compat; lra). exists (mkposreal _ DP). intros h Hh L. cbn [pos] in L.
  eapply Rle_lt_trans; [apply Q; exact Hh|]. pose proof (Rabs_pos h).
  apply (Rmult_lt_compat_r (C + 1)) in L; [|lra]. replace (eps / (C + 1) * (C + 1)) with eps in L by (field; lra). nra.
Qed.
