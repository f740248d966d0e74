(** Proofs about the convergence of the RK4 orbit. *)
From Coq Require Import Reals Lra Lia List Bool Arith FunctionalExtensionality.
From Verif Require Import Base RBase VecModel VecProofs QuatModel QuatSpec OdeModel OrbitModel OrbitSpec HillProofs OrbitRunSpec PropagateProofs RkOrbitSpec ConvSpec ConvProofs ConvProps OrbConvSpec.
From Verif Require AttitudeProofs.
Ltac i3 i H := destruct i as [|[|[|i]]]; [| | |lia]; try clear H.
Import ListNotations.
Open Scope R_scope.

Lemma norm_small d v : (forall i, (i < 3)%nat -> Rabs (v i) <= d) -> norm 3 v <= 2 * d.
Proof.
  intros H. assert (D : 0 <= d) by (eapply Rle_trans; [apply Rabs_pos|apply (H 0%nat); lia]).
  assert (SQ : forall i, (i < 3)%nat -> v i * v i <= d * d).
  { intros i Hi. specialize (H i Hi). rewrite <- (Rabs_pos_eq (v i * v i)) by apply Rle_0_sqr. rewrite Rabs_mult. apply Rmult_le_compat; try apply Rabs_pos; exact H. }
  apply Rsqr_incr_0_var; [|lra]. unfold Rsqr. rewrite norm3. pose proof (SQ 0%nat ltac:(lia)). pose proof (SQ 1%nat ltac:(lia)). pose proof (SQ 2%nat ltac:(lia)). pose proof (Rle_0_sqr d). unfold Rsqr in *. lra.
Qed.
Lemma norm_near d a b : near 3 d a b -> norm 3 a <= norm 3 b + 2 * d.
Proof.
  intros N. pose proof (AttitudeProofs.norm_below 3 (vsub b a) a) as X. rewrite (AttitudeProofs.norm_ext 3 (vadd (vsub b a) a) b) in X by (intros i _; unfold vadd, vsub; ring).
  assert (norm 3 (vsub b a) <= 2 * d) by (apply norm_small; intros i Hi; unfold vsub; rewrite Rabs_minus_sym; now apply N). lra.
Qed.
Lemma component_norm a i : (i < 3)%nat -> Rabs (a i) <= norm 3 a.
Proof.
  intros Hi. apply Rsqr_incr_0_var; [|apply norm_nonneg]. rewrite <- Rsqr_abs. unfold Rsqr. rewrite norm3. pose proof (Rle_0_sqr (a 0%nat)). pose proof (Rle_0_sqr (a 1%nat)). pose proof (Rle_0_sqr (a 2%nat)). unfold Rsqr in *. i3 i Hi; lra.
Qed.
(** the pull of a point mass, away from it, varies at most 7 |mu| / m^3 times as much as the position *)
Lemma gravity_lipschitz mu m d a b : 0 < m -> m <= norm 3 a -> m <= norm 3 b -> near 3 d a b -> near 3 (7 * Rabs mu / m ^ 3 * d) (gravity mu a) (gravity mu b).
Proof.
  intros M A B N i Hi. pose proof (norm_near d a b N) as AB. pose proof (norm_near d b a (near_sym _ _ _ _ N)) as BA. pose proof (component_norm b i Hi) as CB. specialize (N i Hi).
  assert (D : 0 <= d) by (eapply Rle_trans; [apply Rabs_pos|exact N]). unfold gravity. set (P := norm 3 a) in *. set (Q := norm 3 b) in *.
  assert (IA : / P <= / m) by (apply Rinv_le_contravar; lra). assert (IB : / Q <= / m) by (apply Rinv_le_contravar; lra). assert (PA : 0 < / P) by (apply Rinv_0_lt_compat; lra). assert (PB : 0 < / Q) by (apply Rinv_0_lt_compat; lra).
  set (im := / m) in *. set (ip := / P) in *. set (iq := / Q) in *.
  replace (- mu / (P * P * P) * a i - - mu / (Q * Q * Q) * b i) with (- mu * ((a i - b i) * (ip * ip * ip) + b i * iq * ((Q - P) * (ip * ip * ip + ip * ip * iq + ip * iq * iq)))) by (unfold ip, iq; field; lra).
  rewrite Rabs_mult, Rabs_Ropp. replace (7 * Rabs mu / m ^ 3 * d) with (Rabs mu * (7 * d * (im * im * im))) by (unfold im; field; lra). apply Rmult_le_compat_l; [apply Rabs_pos|].
  assert (C2 : forall x y, 0 < x <= im -> 0 < y <= im -> 0 < x * y <= im * im). { intros x y [X1 X2] [Y1 Y2]. split; [apply Rmult_lt_0_compat; lra|apply Rmult_le_compat; lra]. }
  assert (C3 : forall x y z, 0 < x <= im -> 0 < y <= im -> 0 < z <= im -> 0 < x * y * z <= im * im * im). { intros x y z X Y [Z1 Z2]. destruct (C2 x y X Y). split; [apply Rmult_lt_0_compat; lra|apply Rmult_le_compat; lra]. }
  pose proof (C3 ip ip ip ltac:(lra) ltac:(lra) ltac:(lra)) as E1. pose proof (C3 ip ip iq ltac:(lra) ltac:(lra) ltac:(lra)) as E2. pose proof (C3 ip iq iq ltac:(lra) ltac:(lra) ltac:(lra)) as E3. set (im3 := im * im * im) in *.
  eapply Rle_trans; [apply Rabs_triang|]. rewrite !Rabs_mult.
  rewrite (Rabs_pos_eq (ip * ip * ip + ip * ip * iq + ip * iq * iq)) by lra.
  assert (F1 : Rabs (a i - b i) * (Rabs ip * Rabs ip * Rabs ip) <= d * im3). { rewrite (Rabs_pos_eq ip) by lra. apply Rmult_le_compat; try lra. apply Rabs_pos. }
  assert (F2 : Rabs (b i) * Rabs iq <= 1). { rewrite (Rabs_pos_eq iq) by lra. replace 1 with (Q * iq) by (unfold iq; field; lra). apply Rmult_le_compat_r; lra. }
  assert (F3 : Rabs (Q - P) * (ip * ip * ip + ip * ip * iq + ip * iq * iq) <= 2 * d * (3 * im3)). { apply Rmult_le_compat; try lra; [apply Rabs_pos|]. apply Rabs_le. lra. }
  assert (F4 : Rabs (b i) * Rabs iq * (Rabs (Q - P) * (ip * ip * ip + ip * ip * iq + ip * iq * iq)) <= 1 * (2 * d * (3 * im3))).
  { apply Rmult_le_compat; try assumption; [apply Rmult_le_pos; apply Rabs_pos|]. apply Rmult_le_pos; [apply Rabs_pos|lra]. }
  lra.
Qed.
Lemma near6 d s z : near 6 d s z <-> near 3 d (pos6 s) (pos6 z) /\ near 3 d (vel6 s) (vel6 z).
Proof.
  split.
  - intros N. split; intros i Hi; i3 i Hi; cbn [pos6 vel6 v3]; apply N; lia.
  - intros (P & V) i Hi. pose proof (P 0%nat ltac:(lia)). pose proof (P 1%nat ltac:(lia)). pose proof (P 2%nat ltac:(lia)). pose proof (V 0%nat ltac:(lia)). pose proof (V 1%nat ltac:(lia)). pose proof (V 2%nat ltac:(lia)). cbn [pos6 vel6 v3] in *.
    destruct i as [|[|[|[|[|[|i]]]]]]; [assumption..|lia].
Qed.
Section orbit.
Context (mu : R) (a : vec) (T : R) (p v : R -> vec) (m : R) (EX : moves_under_gravity mu a T p v) (M0 : 0 < m) (MIN : forall t, 0 <= t <= T -> 2 * m <= norm 3 (p t)).
Notation f := (rk4_deriv mu a).
Notation y := (fun t => v6 (p t) (v t)).
Lemma orbit_exact : exact 6 f y 0 T.
Proof.
  intros t Ht i Hi. pose proof (rk4_deriv_spec mu a t (v6 (p t) (v t))) as (P & V).
  assert (E : forall k, (k < 3)%nat -> f t (v6 (p t) (v t)) (k + 3)%nat = gravity mu (p t) k + a k).
  { intros k Hk. specialize (V k Hk). unfold vadd in V. assert (X : gravity mu (pos6 (v6 (p t) (v t))) k = gravity mu (p t) k).
    { unfold gravity. rewrite (AttitudeProofs.norm_ext 3 (pos6 (v6 (p t) (v t))) (p t)) by (intros j Hj; i3 j Hj; reflexivity). f_equal. i3 k Hk; reflexivity. }
    rewrite X in V. rewrite <- V. i3 k Hk; reflexivity. }
  destruct i as [|[|[|[|[|[|i]]]]]]; [| | | | | |lia].
  - apply (EX t 0%nat Ht ltac:(lia)). - apply (EX t 1%nat Ht ltac:(lia)). - apply (EX t 2%nat Ht ltac:(lia)).
  - change 3%nat with (0 + 3)%nat at 2. rewrite E by lia. apply (EX t 0%nat Ht ltac:(lia)).
  - change 4%nat with (1 + 3)%nat at 2. rewrite E by lia. apply (EX t 1%nat Ht ltac:(lia)).
  - change 5%nat with (2 + 3)%nat at 2. rewrite E by lia. apply (EX t 2%nat Ht ltac:(lia)).
Qed.
Lemma orbit_lipschitz : lipschitz_near 6 f y 0 T (m / 2) (1 + 7 * Rabs mu / m ^ 3).
Proof.
  assert (G0 : 0 <= 7 * Rabs mu / m ^ 3) by (apply Rmult_le_pos; [pose proof (Rabs_pos mu); lra|left; apply Rinv_0_lt_compat, pow_lt; exact M0]).
  intros t s x z d Ht Hs X Z N. apply near6 in N as (NP & NV). apply near6 in X as (XP & _). apply near6 in Z as (ZP & _).
  assert (AWAY : forall t x, 0 <= t <= T -> near 3 (m / 2) (pos6 x) (pos6 (v6 (p t) (v t))) -> m <= norm 3 (pos6 x)).
  { clear - MIN M0. intros t x Ht N. specialize (MIN t Ht). rewrite (AttitudeProofs.norm_ext 3 (p t) (pos6 (v6 (p t) (v t)))) in MIN by (intros j Hj; i3 j Hj; reflexivity).
    pose proof (norm_near _ _ _ (near_sym _ _ _ _ N)). lra. }
  destruct (rk4_deriv_spec mu a t x) as (P1 & V1). destruct (rk4_deriv_spec mu a s z) as (P2 & V2).
  pose proof (Rabs_pos (t - s)) as TS. assert (D : 0 <= d) by (eapply Rle_trans; [apply Rabs_pos|apply (NP 0%nat); lia]).
  assert (D1 : d <= (1 + 7 * Rabs mu / m ^ 3) * (d + Rabs (t - s))). { rewrite <- (Rmult_1_l d) at 1. apply Rmult_le_compat; lra. }
  assert (D2 : 7 * Rabs mu / m ^ 3 * d <= (1 + 7 * Rabs mu / m ^ 3) * (d + Rabs (t - s))). { apply Rmult_le_compat; lra. }
  apply near6. split; intros i Hi.
  - rewrite P1, P2 by exact Hi. eapply Rle_trans; [now apply NV|exact D1].
  - rewrite V1, V2 by exact Hi. unfold vadd. replace (gravity mu (pos6 x) i + a i - (gravity mu (pos6 z) i + a i)) with (gravity mu (pos6 x) i - gravity mu (pos6 z) i) by ring.
    eapply Rle_trans; [|exact D2]. apply (gravity_lipschitz mu m d); try assumption; [now apply (AWAY t)|now apply (AWAY s)].
Qed.
End orbit.
(** the time of the ODE object plays no role *)
Lemma state_any_time mu a ws : forall o q, state (integrate (rk4_deriv mu a) ws (mkOde q (state o) (derivative o) (step_width o))) = state (integrate (rk4_deriv mu a) ws o).
Proof.
  unfold integrate. induction ws as [|w ws IH]; intros o q; [reflexivity|]. cbn [fold_left].
  set (o1 := step_of (rk4_deriv mu a) (set_step o w)). rewrite <- (IH o1 (q + w)). f_equal.
Qed.
(** the widths of the steps of a run *)
Lemma total_app l1 l2 : total (l1 ++ l2) = total l1 + total l2.
Proof. unfold total. induction l1 as [|x l IH]; cbn [app fold_right]; [ring|]. rewrite IH. ring. Qed.
Lemma run_widths a fuel step eta : 0 < step -> forall ends o o', rk_step o = step -> in_order (rk_time o) ends -> (step + 1 / 10 ^ 6 <= eta \/ advances eta (rk_time o) ends) -> 0 <= eta ->
  rk_run fuel o (map (fun t => (a, t)) ends) = Ok o' -> pos6 (state (rk_ode o)) = rk_pos o -> vel6 (state (rk_ode o)) = rk_vel o ->
  exists ws, List.Forall (fun w => 0 <= w <= eta) ws /\ total ws = last ends (rk_time o) - rk_time o /\ rk_time o' = last ends (rk_time o) /\
    rk_ode o' = integrate (rk4_deriv (rk_mu o) a) ws (rk_ode o) /\ rk_pos o' = pos6 (state (rk_ode o')) /\ rk_vel o' = vel6 (state (rk_ode o')).
Proof.
  intros S0. induction ends as [|tend l IH]; intros o o' SO O A E0 R P V; cbn [map rk_run] in R.
  - injection R as <-. exists []. cbn [last total fold_right integrate fold_left]. repeat split; try congruence; try constructor; ring.
  - destruct O as (O1 & O2). unfold rk4_propagate in R. cbn [negb rk_set_acc rk_mu rk_acc rk_step rk_ode rk_time] in R.
    destruct (prop (rk4_deriv (rk_mu o) a) fuel (rk_step o) tend (rk_ode o) (rk_time o)) as [[x q]| | |] eqn:Q; cbn [bind] in R; try discriminate.
    apply prop_spec in Q as (k & w & -> & X & W & W1 & W2). rewrite SO in *.
    set (o1 := mkRk4 (rk_mu o) step tend x a (pos6 (state x)) (vel6 (state x))) in *.
    destruct (IH o1 o' eq_refl O2 (or_ind (fun h => or_introl h) (fun h => or_intror (proj2 h)) A) E0 R eq_refl eq_refl) as (ws & F & TW & TT & I & PV). cbn [rk_time rk_mu rk_ode o1] in *.
    assert (KS : 0 <= INR k * step) by (apply Rmult_le_pos; [apply pos_INR|lra]).
    assert (W0 : 0 <= w). { destruct W2 as [->|W2]; [cbn in W; lra|]. assert (0 < 1 / 10 ^ 6) by (apply Rdiv_lt_0_compat; [lra|apply pow_lt; lra]). lra. }
    assert (P6 : 0 < 1 / 10 ^ 6) by (apply Rdiv_lt_0_compat; [lra|apply pow_lt; lra]).
    assert (L : last (tend :: l) (rk_time o) = last l tend). { destruct l as [|z l]; [reflexivity|]. cbn [last]. clear. revert z. induction l as [|u l IHl]; intros z; [reflexivity|]. exact (IHl u). }
    exists ((repeat step k ++ [w]) ++ ws). split; [|split; [|split; [|split]]].
    + apply Forall_app. split; [|exact F]. apply Forall_app. split.
      * apply Forall_forall. intros z Z. apply repeat_spec in Z as Z'. subst z. split; [lra|]. destruct A as [A|(A & _)]; [lra|].
        assert (K1 : 1 <= INR k). { destruct k as [|k]; [destruct Z|]. rewrite S_INR. pose proof (pos_INR k). lra. }
        assert (1 * step <= INR k * step) by (apply Rmult_le_compat_r; lra). lra.
      * constructor; [|constructor]. split; [exact W0|]. destruct A as [A|(A & _)]; lra.
    + rewrite !total_app, TW, L. replace (total (repeat step k)) with (INR k * step) by (symmetry; apply sum_repeat). cbn [total fold_right]. lra.
    + rewrite L. exact TT.
    + rewrite I, X. now rewrite <- integrate_app.
    + exact PV.
Qed.
