(** The Kepler orbit as two-body motion, and orbital elements from position and velocity. *)
From Coq Require Import Reals Lra Lia List Bool Arith.
From Verif Require Import Base RBase VecModel VecProofs Trig QuatModel QuatSpec QuatProofs OrbitModel OrbitSpec Calc KeplerProofs.
Open Scope R_scope.

Lemma inplane_rotation oe : rotation (inplane_to_i oe).
Proof. apply rotation_mul; [apply rot_z_rotation|apply rotation_mul; [apply rot_x_rotation|apply rot_z_rotation]]. Qed.
Lemma norm_dot n v : norm n v = sqrt (dot n v v). Proof. reflexivity. Qed.
Lemma rotation_norm m v : rotation m -> norm 3 (mvec 3 m v) = norm 3 v.
Proof. intro H. rewrite !norm_dot. now rewrite rotation_dot. Qed.
Lemma rotation_cross m u v : rotation m -> veq 3 (cross (mvec 3 m u) (mvec 3 m v)) (mvec 3 m (cross u v)).
Proof.
  intro H. destruct (rotation_rot9 m H) as [? ? ? ? ? ? ? ? ? ? ? ? A B C D E F G I J].
  set (a := m 0%nat 0%nat) in *. set (b := m 0%nat 1%nat) in *. set (c := m 0%nat 2%nat) in *.
  set (d := m 1%nat 0%nat) in *. set (e := m 1%nat 1%nat) in *. set (f := m 1%nat 2%nat) in *.
  set (g := m 2%nat 0%nat) in *. set (h := m 2%nat 1%nat) in *. set (k := m 2%nat 2%nat) in *.
  intros i Hi. i3 i Hi; cbv [mvec cross sumn]; fold a b c d e f g h k.
  - rewrite A, B, C. ring.
  - rewrite D, E, F. ring.
  - rewrite G, I, J. ring.
Qed.
Lemma mean_motion_pos mu a : 0 < mu -> 0 < a -> 0 < mean_motion mu a.
Proof. intros. unfold mean_motion. apply sqrt_lt_R0. apply Rdiv_lt_0_compat; [assumption|]. repeat apply Rmult_lt_0_compat; assumption. Qed.
Lemma mean_motion_sq mu a : 0 < mu -> 0 < a -> mean_motion mu a * mean_motion mu a = mu / (a * a * a).
Proof. intros. unfold mean_motion. apply sqrt_sqrt. left. apply Rdiv_lt_0_compat; [assumption|]. repeat apply Rmult_lt_0_compat; assumption. Qed.
Lemma semi_minor e : 0 <= e < 1 -> 0 < sqrt (1 - e * e) /\ sqrt (1 - e * e) * sqrt (1 - e * e) = 1 - e * e.
Proof. intro H. split; [apply sqrt_lt_R0; nra|apply sqrt_sqrt; nra]. Qed.
Lemma sq_eq x y : 0 <= x -> 0 <= y -> x * x = y * y -> x = y.
Proof. intros. nra. Qed.

Section orbit.
Context (mu : R) (oe : elements).
Hypothesis Mu : 0 < mu.
Hypothesis Ha : 0 < sma oe.
Hypothesis He : 0 <= ecc oe < 1.
Let a := sma oe. Let e := ecc oe. Let n := mean_motion mu a. Let b := sqrt (1 - e * e).
Lemma slope u : 0 < 1 - e * cos u.
Proof. pose proof (slope_pos e He u). unfold e in *. lra. Qed.
Lemma inplane_norm u : norm 3 (inplane_position a e u) = a * (1 - e * cos u).
Proof.
  apply sq_eq; [apply norm_nonneg|left; apply Rmult_lt_0_compat; [exact Ha|apply slope]|].
  rewrite norm_sq. unfold sq. rewrite sumn3. unfold inplane_position. cbn [v3]. destruct (semi_minor e He) as (_ & B).
  pose proof (sc u) as T. assert (S2 : sin u * sin u = 1 - cos u * cos u) by lra.
  replace (a * sqrt (1 - e * e) * sin u * (a * sqrt (1 - e * e) * sin u)) with (a * a * (sqrt (1 - e * e) * sqrt (1 - e * e)) * (sin u * sin u)) by ring.
  rewrite B, S2. ring.
Qed.
Lemma position_norm u : norm 3 (fst (state_at mu oe u)) = a * (1 - e * cos u).
Proof. cbn [state_at fst]. rewrite rotation_norm by apply inplane_rotation. apply inplane_norm. Qed.
Lemma velocity_sq u : dot 3 (snd (state_at mu oe u)) (snd (state_at mu oe u)) = mu * (2 / norm 3 (fst (state_at mu oe u)) - 1 / a).
Proof.
  rewrite position_norm. cbn [state_at snd]. rewrite rotation_dot by apply inplane_rotation. unfold dot. rewrite sumn3. unfold inplane_velocity. cbn [v3].
  pose proof (slope u) as P. destruct (semi_minor e He) as (_ & B). pose proof (mean_motion_sq mu a Mu Ha) as N.
  pose proof (sc u) as T. assert (S2 : sin u * sin u = 1 - cos u * cos u) by lra.
  fold a e. fold n. fold b. fold b in B. fold n in N.
  transitivity (a * a * (n * n) * (sin u * sin u + b * b * (cos u * cos u)) / ((1 - e * cos u) * (1 - e * cos u))); [field; lra|].
  rewrite N, S2, B. field. unfold a in *. lra.
Qed.
Lemma angular_momentum u : veq 3 (cross (fst (state_at mu oe u)) (snd (state_at mu oe u)))
  (vscal (sqrt (mu * a * (1 - e * e))) (fun i => inplane_to_i oe i 2%nat)).
Proof.
  intros i Hi. cbn [state_at fst snd]. rewrite rotation_cross by (apply inplane_rotation || exact Hi).
  unfold mvec. rewrite sumn3. unfold vscal.
  pose proof (slope u) as P. destruct (semi_minor e He) as (B0 & B). pose proof (sc u) as T.
  assert (K : n * (a * a) * b = sqrt (mu * a * (1 - e * e))).
  { apply sq_eq.
    - pose proof (mean_motion_pos mu a Mu Ha) as NP. assert (HA : 0 < a) by exact Ha. left. unfold n, b. repeat apply Rmult_lt_0_compat; assumption.
    - apply sqrt_pos.
    - rewrite sqrt_sqrt; [|assert (HA : 0 < a) by exact Ha; assert (0 < mu * a) by nra; assert (0 < 1 - e * e) by (unfold e; nra); nra].
      transitivity ((n * n) * (a * a * a * a) * (b * b)); [ring|]. unfold n, b. rewrite (mean_motion_sq mu a Mu Ha), B. field. unfold a. lra. }
  fold a e. fold n.
  assert (C : cross (inplane_position a e u) (inplane_velocity a e n u) 2%nat = sqrt (mu * a * (1 - e * e))).
  { rewrite <- K. cbn [cross inplane_position inplane_velocity v3]. fold b.
    transitivity (n * (a * a) * b * (cos u * cos u - e * cos u + sin u * sin u) / (1 - e * cos u)); [field; lra|].
    replace (cos u * cos u - e * cos u + sin u * sin u) with (1 - e * cos u) by lra. field. lra. }
  rewrite C. cbn [cross inplane_position inplane_velocity v3]. ring.
Qed.
Lemma kepler_two_body u : eccentric_anomaly e n u ->
  two_body mu (fun s => fst (state_at mu oe (u s))) (fun s => snd (state_at mu oe (u s))).
Proof.
  intros H s i Hi. pose proof (anomaly_derivative e n u He H s) as D. pose proof (slope (u s)) as P.
  pose proof (d_x a e n u s D P) as DX. pose proof (d_y a e n b u s D P) as DY.
  pose proof (d_vx a e n u s D P) as DVX. pose proof (d_vy a e n b u s D P) as DVY.
  rewrite position_norm. cbn [state_at fst snd]. fold a e. fold n.
  assert (G : forall (x y : R -> R) x' y', derivable_pt_lim x s x' -> derivable_pt_lim y s y' ->
    derivable_pt_lim (fun q => mvec 3 (inplane_to_i oe) (v3 (x q) (y q) 0) i) s (mvec 3 (inplane_to_i oe) (v3 x' y' 0) i)).
  { intros x y x' y' Dx Dy. unfold mvec, sumn, v3.
    repeat apply derivable_pt_lim_plus.
    - apply derivable_pt_lim_const.
    - apply (derivable_pt_lim_scal x). exact Dx.
    - apply (derivable_pt_lim_scal y). exact Dy.
    - apply (derivable_pt_lim_scal (fun _ => 0)). apply derivable_pt_lim_const. }
  split.
  - apply (G (fun q => a * (cos (u q) - e)) (fun q => a * b * sin (u q))); assumption.
  - pose proof (G (fun q => -1 * a * n * sin (u q) / (1 - e * cos (u q))) (fun q => n * (a * b) * cos (u q) / (1 - e * cos (u q))) _ _ DVX DVY) as R.
    match type of R with derivable_pt_lim _ _ ?x => match goal with |- derivable_pt_lim _ _ ?y => replace y with x; [exact R|] end end.
    pose proof (mean_motion_sq mu a Mu Ha) as N. fold n in N. unfold mvec. rewrite !sumn3. unfold inplane_position. cbn [v3]. fold b. rewrite N. field. unfold a in *. lra.
Qed.
Lemma anomaly_exists : exists u, eccentric_anomaly e n u.
Proof.
  exists (fun s => (let (u, _) := IVT (residual e (n * s)) (n * s - 2) (n * s + 2)
     ltac:(unfold residual; apply continuity_minus; [apply continuity_minus; [intro; apply derivable_continuous_pt; apply derivable_pt_id|apply continuity_scal; apply continuity_sin]|apply continuity_const; intros ? ?; reflexivity])
     ltac:(lra) ltac:(unfold residual; pose proof (SIN_bound (n * s - 2)); unfold e; nra) ltac:(unfold residual; pose proof (SIN_bound (n * s + 2)); unfold e; nra) in u)).
  intro s. cbv beta. match goal with |- context [IVT ?f ?x ?y ?p ?q ?r ?z] => destruct (IVT f x y p q r z) as (u & _ & Z) end. exact Z.
Qed.
(** the position moves at most sma per unit of eccentric anomaly *)
Lemma position_lipschitz u w : norm 3 (vsub (fst (state_at mu oe u)) (fst (state_at mu oe w))) <= a * Rabs (u - w).
Proof.
  cbn [state_at fst]. fold a e.
  assert (V : veq 3 (vsub (mvec 3 (inplane_to_i oe) (inplane_position a e u)) (mvec 3 (inplane_to_i oe) (inplane_position a e w)))
                (mvec 3 (inplane_to_i oe) (vsub (inplane_position a e u) (inplane_position a e w)))).
  { intros i Hi. unfold vsub, mvec. rewrite !sumn3. ring. }
  replace (norm 3 (vsub (mvec 3 (inplane_to_i oe) (inplane_position a e u)) (mvec 3 (inplane_to_i oe) (inplane_position a e w))))
    with (norm 3 (mvec 3 (inplane_to_i oe) (vsub (inplane_position a e u) (inplane_position a e w)))).
  2:{ unfold norm. f_equal. apply sumn_ext. intros i Hi. now rewrite V. }
  rewrite rotation_norm by apply inplane_rotation.
  apply Rsqr_incr_0_var; [|apply Rmult_le_pos; [left; exact Ha|apply Rabs_pos]]. unfold Rsqr. rewrite norm_sq. unfold sq. rewrite sumn3.
  unfold vsub, inplane_position. cbn [v3]. destruct (semi_minor e He) as (_ & B). fold b. fold b in B.
  pose proof (cos_minus u w) as CM. pose proof (sc u) as T1. pose proof (sc w) as T2.
  assert (Q : 2 - 2 * cos (u - w) <= (u - w) * (u - w)).
  { pose proof (sin_lipschitz 0 ((u - w) / 2)) as L. rewrite sin_0, !Rminus_0_r in L.
    replace (u - w) with (2 * ((u - w) / 2)) at 1 by field. rewrite cos_2a_sin.
    assert (sin ((u - w) / 2) * sin ((u - w) / 2) <= (u - w) / 2 * ((u - w) / 2)).
    { rewrite <- (Rabs_right (sin _ * sin _)) by (apply Rle_ge, Rle_0_sqr). rewrite <- (Rabs_right ((u - w) / 2 * ((u - w) / 2))) by (apply Rle_ge, Rle_0_sqr). rewrite !Rabs_mult.
      pose proof (Rabs_pos (sin ((u - w) / 2))). nra. }
    lra. }
  replace (a * Rabs (u - w) * (a * Rabs (u - w))) with (a * a * ((u - w) * (u - w))).
  2:{ replace ((u - w) * (u - w)) with (Rabs (u - w) * Rabs (u - w)) by (rewrite <- Rabs_mult; apply Rabs_right, Rle_ge, Rle_0_sqr). ring. }
  set (dc := cos u - cos w). set (ds := sin u - sin w).
  assert (D : dc * dc + ds * ds = 2 - 2 * cos (u - w)) by (unfold dc, ds; rewrite CM; lra).
  replace ((a * (cos u - e) - a * (cos w - e)) * (a * (cos u - e) - a * (cos w - e)) + (a * b * sin u - a * b * sin w) * (a * b * sin u - a * b * sin w) + (0 - 0) * (0 - 0))
    with (a * a * (dc * dc + (b * b) * (ds * ds))) by (unfold dc, ds; ring).
  rewrite B. assert (0 <= ds * ds) by apply Rle_0_sqr. assert (0 <= a * a) by apply Rle_0_sqr. assert (0 <= e * e) by apply Rle_0_sqr.
  apply Rmult_le_compat_l; [assumption|]. nra.
Qed.
End orbit.
