(** The propagation loop, the RK4 orbit, Encke's method, and the accuracy of the Kepler propagation. *)
From Coq Require Import Reals Lra Lia List Bool Arith ZArith.
From Verif Require Import Base RBase VecModel VecProofs Trig QuatModel QuatSpec QuatProofs OdeModel OrbitModel OrbitSpec OrbitRunSpec Calc KeplerProofs OrbitProofs OeProofs HillProofs.
Import ListNotations.
Open Scope R_scope.

(** ** Accuracy of the Kepler propagation *)
Lemma wrap_spec fuel a x : wrap fuel a = Ok x -> exists k, x = a + IZR k * (2 * PI) /\ 0 <= x <= 2 * PI.
Proof.
  intro H. unfold wrap in H. destruct (wrap_to_2pi Rplus Rminus (2 * PI) fuel a) as [y|] eqn:E; [|discriminate]. injection H as ->.
  assert (P := PI_RGT_0). unfold wrap_to_2pi in E.
  destruct (rlt_spec a 0) as [L|L].
  - apply wrap_up_spec in E; [|lra]. destruct E as ((k & C) & B). exists k. split; [exact C|lra].
  - destruct (rlt_spec (2 * PI) a) as [G|G].
    + apply wrap_down_spec in E; [|lra]. destruct E as ((k & C) & B). exists k. split; [exact C|lra].
    + injection E as ->. exists 0%Z. lra.
Qed.
Lemma state_at_period mu oe u k : state_at mu oe (u + IZR k * (2 * PI)) = state_at mu oe u.
Proof. unfold state_at, inplane_position, inplane_velocity. rewrite !cos_period_Z, !sin_period_Z. reflexivity. Qed.
Lemma residual_period e m u k : residual e (m + IZR k * (2 * PI)) (u + IZR k * (2 * PI)) = residual e m u.
Proof. unfold residual. rewrite sin_period_Z. ring. Qed.
Lemma kepler_accuracy fuel mu oe t pv : 0 < sma oe -> 0 <= ecc oe <= 1 / 5 -> calc_orbit fuel mu oe t = Ok pv ->
  exists u w, pv = state_at mu oe u /\ residual (ecc oe) (mean_anomaly mu oe t) w = 0 /\ Rabs (u - w) <= 25 / 10 ^ 6.
Proof.
  intros Ha He H. unfold calc_orbit in H. destruct (wrap fuel (mean_anomaly mu oe t)) as [l| | |] eqn:E1; cbn [bind] in H; try discriminate.
  destruct (wrap fuel (solve_kepler_newton (ecc oe) l (1 / 10 ^ 5) 10)) as [u1| | |] eqn:E2; cbn [bind] in H; try discriminate. injection H as <-.
  apply wrap_spec in E1. destruct E1 as (k & Lk & Lb). apply wrap_spec in E2. destruct E2 as (j & Uj & _).
  set (u0 := solve_kepler_newton (ecc oe) l (1 / 10 ^ 5) 10) in *.
  pose proof (small_e_residual (ecc oe) l He Lb) as R0. fold u0 in R0.
  destruct (root_exists (ecc oe) (mean_anomaly mu oe t) ltac:(lra)) as (w & Z & _).
  set (u := u0 + IZR (- k) * (2 * PI)). exists u, w. split; [|split; [exact Z|]].
  - rewrite Uj. rewrite state_at_period. unfold u. symmetry. apply state_at_period.
  - assert (RU : residual (ecc oe) (mean_anomaly mu oe t) u = residual (ecc oe) l u0).
    { replace (mean_anomaly mu oe t) with (l + IZR (- k) * (2 * PI)) by (rewrite Lk, opp_IZR; ring). apply residual_period. }
    pose proof (residual_distance (ecc oe) (mean_anomaly mu oe t) u w ltac:(lra) Z) as D. rewrite RU in D.
    eapply Rle_trans; [exact D|]. apply (Rmult_le_reg_r (1 - ecc oe)); [lra|]. unfold Rdiv at 1. rewrite Rmult_assoc, Rinv_l, Rmult_1_r by lra. lra.
Qed.
Lemma wrap_mono n a r m : wrap n a = Ok r -> (n <= m)%nat -> wrap m a = Ok r.
Proof.
  assert (MU : forall n a r, wrap_up Rplus (2 * PI) n a = Some r -> forall m, (n <= m)%nat -> wrap_up Rplus (2 * PI) m a = Some r).
  { clear. induction n as [|n IH]; intros b r E m L; destruct m as [|m]; try lia; cbn [wrap_up] in *; destruct (rlt b 0); try discriminate; try exact E. apply IH; [exact E|lia]. }
  assert (MD : forall n a r, wrap_down Rminus (2 * PI) n a = Some r -> forall m, (n <= m)%nat -> wrap_down Rminus (2 * PI) m a = Some r).
  { clear. induction n as [|n IH]; intros b r E m L; destruct m as [|m]; try lia; cbn [wrap_down] in *; destruct (rlt (2 * PI) b); try discriminate; try exact E. apply IH; [exact E|lia]. }
  unfold wrap, wrap_to_2pi. intros H L. destruct (rlt a 0); [|destruct (rlt (2 * PI) a); [|exact H]].
  - destruct (wrap_up Rplus (2 * PI) n a) as [x|] eqn:E; [|discriminate]. now rewrite (MU _ _ _ E m L).
  - destruct (wrap_down Rminus (2 * PI) n a) as [x|] eqn:E; [|discriminate]. now rewrite (MD _ _ _ E m L).
Qed.
Lemma wrap_total a : exists fuel x, wrap fuel a = Ok x.
Proof.
  unfold wrap, wrap_to_2pi. destruct (wrap_up_total a) as (n1 & r1 & E1). destruct (wrap_down_total a) as (n2 & r2 & E2).
  destruct (rlt a 0); [exists n1; rewrite E1; eauto|]. destruct (rlt (2 * PI) a); [exists n2; rewrite E2; eauto|exists 0%nat; eauto].
Qed.
Lemma calc_orbit_total mu oe t : exists fuel0 pv, forall fuel, (fuel0 <= fuel)%nat -> calc_orbit fuel mu oe t = Ok pv.
Proof.
  destruct (wrap_total (mean_anomaly mu oe t)) as (f1 & l & E1).
  destruct (wrap_total (solve_kepler_newton (ecc oe) l (1 / 10 ^ 5) 10)) as (f2 & u & E2). exists (f1 + f2)%nat, (state_at mu oe u). intros fuel F.
  unfold calc_orbit. rewrite (wrap_mono _ _ _ fuel E1) by lia. cbn [bind]. rewrite (wrap_mono _ _ _ fuel E2) by lia. reflexivity.
Qed.

(** ** The propagation loop *)
Section loop.
Context (deriv : R -> vec -> vec).
Lemma step_width_step o : step_width (step_of deriv o) = step_width o.
Proof. reflexivity. Qed.
Lemma set_step_same o : set_step o (step_width o) = o. Proof. destruct o; reflexivity. Qed.
Lemma set_step_set o a b : set_step (set_step o a) b = set_step o b. Proof. reflexivity. Qed.
Lemma indep_step o : indep (step_of deriv o) = indep o + step_width o. Proof. reflexivity. Qed.
Lemma integrate_indep ws : forall o, indep (integrate deriv ws o) = indep o + fold_right Rplus 0 ws.
Proof. induction ws as [|w ws IH]; intro o; cbn [integrate fold_left fold_right]; [lra|]. fold (integrate deriv ws (step_of deriv (set_step o w))). rewrite IH, indep_step. cbn [set_step indep step_width]. lra. Qed.
Lemma sum_repeat k x : fold_right Rplus 0 (repeat x k) = INR k * x.
Proof. induction k as [|k IH]; [cbn [repeat fold_right INR]; lra|]. cbn [repeat fold_right]. rewrite IH, S_INR. lra. Qed.
Lemma loop_spec step tend : forall fuel o t o1 t1, step_width o = step -> prop_loop deriv fuel step tend o t = Ok (o1, t1) ->
  exists k, t1 = t + INR k * step /\ o1 = integrate deriv (repeat step k) o /\
    tend - t1 - step <= 1 / 10 ^ 6 /\ (k = 0%nat \/ 1 / 10 ^ 6 < tend - t1).
Proof.
  induction fuel as [|f IH]; intros o t o1 t1 W H; [discriminate|]. cbn [prop_loop] in H.
  destruct (rlt_spec (1 / 10 ^ 6) (tend - t - step)) as [L|L].
  - destruct (IH _ _ _ _ (eq_trans (step_width_step o) W) H) as (k & T & O & B1 & B2). exists (S k).
    split; [rewrite T, S_INR; lra|]. split; [|split; [exact B1|]].
    + cbn [repeat integrate fold_left]. rewrite O. rewrite <- W, set_step_same, W. reflexivity.
    + right. destruct B2 as [->|B2]; [|exact B2]. cbn [INR] in T. lra.
  - injection H as <- <-. exists 0%nat. cbn [INR repeat integrate fold_left]. split; [lra|]. split; [reflexivity|]. split; [lra|]. now left.
Qed.
Lemma loop_total step tend : forall f o t, tend - t <= INR (S f) * step -> exists x, prop_loop deriv (S f) step tend o t = Ok x.
Proof.
  induction f as [|f IH]; intros o t L; cbn [prop_loop]; destruct (rlt_spec (1 / 10 ^ 6) (tend - t - step)) as [G|G]; try (eexists; reflexivity).
  - cbn [INR] in L. lra.
  - apply IH. rewrite !S_INR in *. lra.
Qed.
Lemma integrate_app a b o : integrate deriv (a ++ b) o = integrate deriv b (integrate deriv a o).
Proof. unfold integrate. apply fold_left_app. Qed.
Lemma integrate_set ws w o : ws <> [] -> integrate deriv ws (set_step o w) = integrate deriv ws o.
Proof. destruct ws; [contradiction|]. intros _. reflexivity. Qed.
Lemma prop_spec fuel step tend o t o' t' : prop deriv fuel step tend o t = Ok (o', t') ->
  exists k w, t' = tend /\ o' = integrate deriv (repeat step k ++ [w]) o /\ w = tend - t - INR k * step /\ w <= step + 1 / 10 ^ 6 /\ (k = 0%nat \/ 1 / 10 ^ 6 < w).
Proof.
  unfold prop. intro H. destruct (prop_loop deriv fuel step tend (set_step o step) t) as [(o1 & t1)| | |] eqn:E; cbn [bind] in H; try discriminate.
  injection H as <- <-. apply loop_spec in E; [|reflexivity]. destruct E as (k & T & O & B1 & B2). exists k, (tend - t1).
  split; [reflexivity|]. split; [|split; [lra|split; [lra|exact B2]]].
  rewrite integrate_app. cbn [integrate fold_left]. rewrite O. destruct k as [|k]; [reflexivity|]. rewrite integrate_set by discriminate. reflexivity.
Qed.
Lemma prop_total step tend f o t : tend - t <= INR (S f) * step -> exists x, prop deriv (S f) step tend o t = Ok x.
Proof. intro L. unfold prop. destruct (loop_total step tend f (set_step o step) t L) as ((o1 & t1) & E). rewrite E. cbn [bind]. eauto. Qed.
Lemma prop_widths_sum k step w o t tend : w = tend - t - INR k * step -> indep (integrate deriv (repeat step k ++ [w]) o) = indep o + (tend - t).
Proof.
  intro W. rewrite integrate_indep. assert (S : forall l x, fold_right Rplus 0 (l ++ [x]) = fold_right Rplus 0 l + x).
  { induction l as [|a l IH]; intro x; cbn [app fold_right]; [lra|]. rewrite IH. lra. }
  rewrite S, sum_repeat. lra.
Qed.
End loop.

(** ** The RK4 orbit *)
Lemma pow15_norm r : pow15 (r 0%nat * r 0%nat + r 1%nat * r 1%nat + r 2%nat * r 2%nat) = norm 3 r * norm 3 r * norm 3 r.
Proof. rewrite norm3. unfold pow15, norm. rewrite sumn3. reflexivity. Qed.
Lemma rk4_deriv_spec mu acc t s :
  veq 3 (pos6 (rk4_deriv mu acc t s)) (vel6 s) /\ veq 3 (vel6 (rk4_deriv mu acc t s)) (vadd (gravity mu (pos6 s)) acc).
Proof.
  split; intros i Hi; unfold vadd, gravity.
  - i3 i Hi; reflexivity.
  - rewrite <- (pow15_norm (pos6 s)). i3 i Hi; cbn [vel6 pos6 v3 rk4_deriv]; unfold Rdiv; ring.
Qed.

(** ** Encke's method *)
Lemma q_function_spec sat ref d : 0 < norm 3 sat -> 0 < norm 3 ref -> veq 3 sat (vadd ref d) ->
  let r := norm 3 sat in let p := norm 3 ref in q_function sat d = (p * p * p) / (r * r * r) - 1.
Proof.
  intros Rp Pp E r p. unfold q_function.
  assert (R2 : dot 3 sat sat = r * r) by (unfold r; rewrite norm_sq; reflexivity).
  assert (P2 : p * p = r * r + dot 3 d (vsub d (vscal 2 sat))).
  { unfold p, r. rewrite !norm3. unfold dot. rewrite sumn3. unfold vsub, vscal. rewrite !(E 0%nat), !(E 1%nat), !(E 2%nat) by lia. unfold vadd. ring. }
  rewrite R2. set (q := dot 3 d (vsub d (vscal 2 sat)) / (r * r)).
  assert (Rr : 0 < r) by exact Rp. assert (Pr : 0 < p) by exact Pp.
  assert (Q1 : 1 + q = (p / r) * (p / r)). { unfold q. replace (dot 3 d (vsub d (vscal 2 sat))) with (p * p - r * r) by lra. field. lra. }
  assert (PW : pow15 (1 + q) = (p / r) * (p / r) * (p / r)).
  { unfold pow15. rewrite Q1. rewrite sqrt_square; [reflexivity|]. left. apply Rdiv_lt_0_compat; assumption. }
  set (k := p / r) in *. assert (K0 : 0 < k) by (apply Rdiv_lt_0_compat; assumption).
  rewrite PW. replace (q * (q * q + 3 * q + 3)) with ((1 + q) * (1 + q) * (1 + q) - 1) by ring. rewrite Q1.
  assert (K3 : 0 < k * k * k) by (apply Rmult_lt_0_compat; [apply Rmult_lt_0_compat|]; exact K0).
  transitivity (k * k * k - 1); [|unfold k; field; lra]. field. lra.
Qed.
Lemma encke_deriv_spec mu sat ref acc t s : 0 < norm 3 sat -> 0 < norm 3 ref -> veq 3 sat (vadd ref (pos6 s)) ->
  veq 3 (pos6 (encke_deriv mu sat ref acc t s)) (vel6 s) /\
  veq 3 (vel6 (encke_deriv mu sat ref acc t s)) (vadd (vsub (gravity mu sat) (gravity mu ref)) acc).
Proof.
  intros Rp Pp E. split; intros i Hi.
  - i3 i Hi; reflexivity.
  - unfold encke_deriv. rewrite (q_function_spec sat ref (pos6 s) Rp Pp E). cbv zeta.
    set (r := norm 3 sat) in *. set (p := norm 3 ref) in *.
    assert (X : vel6 (v6 (vel6 s) (vadd (vscal (- (mu / (p * p * p))) (vadd (vscal (p * p * p / (r * r * r) - 1) sat) (pos6 s))) acc)) i
             = - (mu / (p * p * p)) * ((p * p * p / (r * r * r) - 1) * sat i + pos6 s i) + acc i) by (i3 i Hi; reflexivity).
    rewrite X. unfold vadd, vsub, gravity. fold r p.
    replace (pos6 s i) with (sat i - ref i) by (rewrite (E i Hi); unfold vadd; ring). field. lra.
Qed.
Lemma encke_deriv_zero mu sat ref t s : 0 < norm 3 sat -> (forall i, (i < 6)%nat -> s i = 0) ->
  forall i, (i < 6)%nat -> encke_deriv mu sat ref (vconst 0) t s i = 0.
Proof.
  intros Rp Z i Hi. assert (PZ : forall j, pos6 s j = 0) by (intro j; destruct j as [|[|j]]; cbn [pos6 v3]; apply Z; lia).
  assert (QF : q_function sat (pos6 s) = 0).
  { unfold q_function. replace (dot 3 (pos6 s) (vsub (pos6 s) (vscal 2 sat))) with 0.
    2:{ unfold dot. rewrite sumn3. rewrite !PZ. ring. }
    unfold Rdiv. rewrite !Rmult_0_l. reflexivity. }
  unfold encke_deriv. rewrite QF.
  assert (A : forall j, vadd (vscal (- (mu / (norm 3 ref * norm 3 ref * norm 3 ref))) (vadd (vscal 0 sat) (pos6 s))) (vconst 0) j = 0).
  { intro j. unfold vadd, vscal, vconst. rewrite PZ. ring. }
  i6 i Hi; cbn [v6]; try (apply A); cbn [vel6 v3]; apply Z; lia.
Qed.
Definition zero6 (s : vec) : Prop := forall i, (i < 6)%nat -> s i = 0.
Lemma step_zero deriv o : (forall t s, zero6 s -> zero6 (deriv t s)) -> zero6 (state o) -> zero6 (state (step_of deriv o)).
Proof.
  intros D Z. unfold step_of. cbn [ode_update fst state]. set (h := step_width o).
  assert (S : forall c u, zero6 u -> zero6 (vscal c u)) by (intros c u U i Hi; unfold vscal; rewrite U by exact Hi; ring).
  assert (A : forall u w, zero6 u -> zero6 w -> zero6 (vadd u w)) by (intros u w U W i Hi; unfold vadd; rewrite U, W by exact Hi; ring).
  repeat (apply A || apply S || apply D || exact Z).
Qed.
Lemma integrate_zero deriv ws : (forall t s, zero6 s -> zero6 (deriv t s)) -> forall o, zero6 (state o) -> zero6 (state (integrate deriv ws o)).
Proof. intros D. induction ws as [|w ws IH]; intros o Z; [exact Z|]. cbn [integrate fold_left]. apply IH. apply step_zero; [exact D|exact Z]. Qed.
(** no perturbation: the difference stays zero *)
Lemma encke_unperturbed fuel x tend t_jd x' : 0 < norm 3 (en_pos x) -> 0 <= en_tol x ->
  zero6 (state (en_ode x)) -> (forall i, en_acc x i = 0) -> (forall i, (i < 3)%nat -> dif_pos x i = 0) ->
  encke_propagate fuel true x tend t_jd = Ok x' ->
  exists p v, calc_orbit fuel (en_mu x) (ref_oe x) t_jd = Ok (p, v) /\ veq 3 (en_pos x') p /\ veq 3 (en_vel x') v /\
    zero6 (state (en_ode x')) /\ (forall i, (i < 3)%nat -> dif_pos x' i = 0) /\
    ref_oe x' = ref_oe x /\ en_mu x' = en_mu x /\ en_tol x' = en_tol x /\ en_step x' = en_step x /\ en_acc x' = en_acc x /\ en_time x' = tend.
Proof.
  intros Rp Tol Z Acc DP H. unfold encke_propagate in H. cbn [negb] in H.
  assert (N0 : norm 3 (dif_pos x) = 0) by (apply norm_zero_vec; exact DP).
  rewrite N0 in H. replace (0 / norm 3 (en_pos x)) with 0 in H by (unfold Rdiv; ring). rewrite rlt_false in H by exact Tol. cbn [bind] in H.
  destruct (calc_orbit fuel (en_mu x) (ref_oe x) t_jd) as [(p & v)| | |]; cbn [bind] in H; try discriminate.
  match type of H with context [prop ?d ?f ?s ?te ?o ?t] => destruct (prop d f s te o t) as [(d' & t')| | |] eqn:EP end; cbn [bind] in H; try discriminate.
  injection H as <-. apply prop_spec in EP. destruct EP as (k & w & -> & -> & _).
  assert (D : forall t s, zero6 s -> zero6 (encke_deriv (en_mu x) (en_pos x) p (en_acc x) t s)).
  { intros t s S i Hi. pose proof (encke_deriv_zero (en_mu x) (en_pos x) p t s Rp S i Hi) as E. rewrite <- E. unfold encke_deriv.
    i6 i Hi; cbn [v6]; unfold vadd, vconst; rewrite ?Acc; reflexivity. }
  pose proof (integrate_zero _ (repeat (en_step x) k ++ [w]) D (en_ode x) Z) as ZZ.
  exists p, v. cbn [en_pos en_vel en_ode dif_pos ref_oe en_mu en_tol en_step en_acc en_time].
  assert (P0 : forall i, (i < 3)%nat -> pos6 (state (integrate (encke_deriv (en_mu x) (en_pos x) p (en_acc x)) (repeat (en_step x) k ++ [w]) (en_ode x))) i = 0) by (intros i Hi; i3 i Hi; cbn [pos6 v3]; apply ZZ; lia).
  assert (V0 : forall i, (i < 3)%nat -> vel6 (state (integrate (encke_deriv (en_mu x) (en_pos x) p (en_acc x)) (repeat (en_step x) k ++ [w]) (en_ode x))) i = 0) by (intros i Hi; i3 i Hi; cbn [vel6 v3]; apply ZZ; lia).
  repeat split; try reflexivity; try assumption.
  - intros i Hi. unfold vadd. rewrite P0 by exact Hi. ring.
  - intros i Hi. unfold vadd. rewrite V0 by exact Hi. ring.
Qed.

Lemma encke_run_unperturbed fuel : forall calls x x' tend jd, 0 < en_mu x -> 0 < sma (ref_oe x) -> 0 <= ecc (ref_oe x) < 1 -> 0 < norm 3 (en_pos x) -> 0 <= en_tol x ->
  zero6 (state (en_ode x)) -> (forall i, en_acc x i = 0) -> (forall i, (i < 3)%nat -> dif_pos x i = 0) ->
  encke_run fuel x (calls ++ [(tend, jd)]) = Ok x' ->
  exists p v, calc_orbit fuel (en_mu x) (ref_oe x) jd = Ok (p, v) /\ veq 3 (en_pos x') p /\ veq 3 (en_vel x') v /\ en_time x' = tend.
Proof.
  induction calls as [|(te & tj) l IH]; intros x x' tend jd Mu Ha He Rp Tol Z A D H; cbn [app encke_run] in H.
  - destruct (encke_propagate fuel true x tend jd) as [y| | |] eqn:E; cbn [bind] in H; try discriminate. injection H as <-.
    apply encke_unperturbed in E; try assumption. destruct E as (p & v & C & P & V & _ & _ & _ & _ & _ & _ & _ & T). exists p, v. auto.
  - destruct (encke_propagate fuel true x te tj) as [y| | |] eqn:E; cbn [bind] in H; try discriminate.
    apply encke_unperturbed in E; try assumption. destruct E as (p & v & C & P & V & Zy & Dy & Oy & My & Ty & Sy & Ay & _).
    assert (NP : 0 < norm 3 (en_pos y)).
    { replace (norm 3 (en_pos y)) with (norm 3 p) by (unfold norm; f_equal; apply sumn_ext; intros i Hi; rewrite P by exact Hi; reflexivity).
      unfold calc_orbit in C. repeat match type of C with bind ?m _ = _ => destruct m as [?| | |]; cbn [bind] in C; try discriminate end. injection C as C _.
      rewrite <- C. match goal with |- 0 < norm 3 (mvec _ _ (inplane_position _ _ ?u)) => pose proof (position_norm (en_mu x) (ref_oe x) Ha He u) as N; pose proof (slope (ref_oe x) He u) as SL end.
      cbn [state_at fst] in N. rewrite N. apply Rmult_lt_0_compat; assumption. }
    rewrite <- My, <- Oy. apply (IH y x' tend jd); try assumption.
    + now rewrite My. + now rewrite Oy. + now rewrite Oy. + now rewrite Ty. + intro i. now rewrite Ay.
Qed.
Lemma encke_new_run fuel mu step t0 r v tol x0 calls tend jd x : (1 <= fuel)%nat -> elliptic mu r v -> node_ok (cross r v) -> 0 <= tol ->
  encke_new fuel mu step t0 r v tol = Ok x0 -> encke_run fuel x0 (calls ++ [(tend, jd)]) = Ok x ->
  exists oe p q, calc_oe fuel mu t0 r v = Ok oe /\ calc_orbit fuel mu oe jd = Ok (p, q) /\ veq 3 (en_pos x) p /\ veq 3 (en_vel x) q /\ en_time x = tend.
Proof.
  intros F El C Tol E H. destruct (round_trip fuel mu t0 r v F El C) as (oe & u & Eo & Ha & He & _).
  unfold encke_new, encke_initialize in E. cbn [en_mu en_tol en_step en_time en_ode] in E. rewrite Eo in E. cbn [bind] in E. injection E as <-.
  destruct El as (Mu & Rp & _).
  apply encke_run_unperturbed in H; cbn [en_mu ref_oe en_pos en_tol en_ode en_acc dif_pos state ode_setup]; try assumption; try (intros; reflexivity).
  - cbn [en_mu ref_oe] in H. destruct H as (p & q & H). exists oe, p, q. split; [exact Eo|exact H].
  - replace (norm 3 (vadd r (vconst 0))) with (norm 3 r); [exact Rp|]. unfold norm. f_equal. apply sumn_ext. intros i _. unfold vadd, vconst. ring.
  - intros i Hi. reflexivity.
Qed.
(** rectification: the new reference orbit passes through the old position at the new time *)
Lemma rectification_stands_still fuel x tend jd x' : (1 <= fuel)%nat -> elliptic (en_mu x) (en_pos x) (en_vel x) -> node_ok (cross (en_pos x) (en_vel x)) ->
  en_tol x < norm 3 (dif_pos x) / norm 3 (en_pos x) -> encke_propagate fuel true x tend jd = Ok x' ->
  exists oe, calc_oe fuel (en_mu x) jd (en_pos x) (en_vel x) = Ok oe /\ (forall i, en_acc x' i = 0) /\
    (ecc oe <= 1 / 5 -> norm 3 (vsub (en_pos x') (en_pos x)) <= 25 / 10 ^ 6 * sma oe).
Proof.
  intros F El C Trig H. destruct (round_trip fuel (en_mu x) jd (en_pos x) (en_vel x) F El C) as (oe & u & Eo & Ha & He & _ & M & P & V).
  exists oe. split; [exact Eo|]. unfold encke_propagate in H. cbn [negb] in H. rewrite rlt_true in H by exact Trig. unfold encke_initialize in H. rewrite Eo in H. cbn [bind] in H.
  cbn [en_mu en_tol en_step en_time en_ode ref_oe en_pos en_acc] in H.
  destruct (calc_orbit fuel (en_mu x) oe jd) as [(p & v)| | |] eqn:CO; cbn [bind] in H; try discriminate.
  match type of H with context [prop ?d ?f ?s ?te ?o ?t] => destruct (prop d f s te o t) as [(d' & t')| | |] eqn:EP end; cbn [bind] in H; try discriminate.
  injection H as <-. cbn [en_acc en_pos]. split; [intro; reflexivity|]. intro E5.
  destruct El as (Mu & Rp & _).
  apply prop_spec in EP. destruct EP as (k & w & -> & -> & _).
  set (sat := vadd (en_pos x) (vconst 0)) in *.
  assert (SN : 0 < norm 3 sat). { replace (norm 3 sat) with (norm 3 (en_pos x)); [exact Rp|]. unfold norm. f_equal. apply sumn_ext. intros i _. unfold sat, vadd, vconst. ring. }
  assert (D : forall t s, zero6 s -> zero6 (encke_deriv (en_mu x) sat p (vconst 0) t s)) by (intros t s Zs i Hi; now apply encke_deriv_zero).
  pose proof (integrate_zero _ (repeat (en_step x) k ++ [w]) D (ode_setup (en_ode x) 0 (vconst 0))) as ZZ. specialize (ZZ ltac:(intros i Hi; reflexivity)).
  set (fin := state (integrate (encke_deriv (en_mu x) sat p (vconst 0)) (repeat (en_step x) k ++ [w]) (ode_setup (en_ode x) 0 (vconst 0)))) in *.
  destruct (kepler_accuracy fuel (en_mu x) oe jd (p, v) Ha ltac:(lra) CO) as (u1 & w1 & EQ & RES & DIST).
  assert (w1 = u) as ->. { apply (root_unique (ecc oe) (mean_anomaly (en_mu x) oe jd) He); [exact RES|]. unfold residual. rewrite M. ring. }
  replace (norm 3 (vsub (vadd p (pos6 fin)) (en_pos x))) with (norm 3 (vsub (fst (state_at (en_mu x) oe u1)) (fst (state_at (en_mu x) oe u)))).
  - eapply Rle_trans; [apply position_lipschitz; assumption|]. rewrite (Rmult_comm (25 / 10 ^ 6)). apply Rmult_le_compat_l; [lra|exact DIST].
  - unfold norm. f_equal. apply sumn_ext. intros i Hi. unfold vsub, vadd. rewrite (P i Hi). rewrite <- EQ. cbn [fst].
    assert (pos6 fin i = 0) as -> by (i3 i Hi; cbn [pos6 v3]; apply ZZ; lia). ring.
Qed.

(** ** Relative orbit *)
Lemma rel_propagate_frame fuel o tend r v o' : 0 < norm 3 r -> 0 < norm 3 (cross r v) -> rel_propagate fuel true o tend r v = Ok o' ->
  veq 3 (mvec 3 (lvlh_dcm r v) (vsub (ro_pos o') r)) (ro_rel_pos o') /\ veq 3 (mvec 3 (lvlh_dcm r v) (vsub (ro_vel o') v)) (ro_rel_vel o').
Proof.
  intros P Q H. unfold rel_propagate in H. cbn [negb] in H.
  match type of H with bind ?m _ = _ => destruct m as [((d & t) & s)| | |] end; cbn [bind] in H; try discriminate. injection H as <-. cbn [ro_pos ro_rel_pos ro_vel ro_rel_vel].
  assert (G : forall p q i, (i < 3)%nat -> mvec 3 (lvlh_dcm r v) (vsub (vadd (lvlh_to_i r v p) q) q) i = p i).
  { intros p q i Hi. rewrite (mvec_ext3 _ (lvlh_dcm r v) _ (lvlh_to_i r v p) (meq3_refl _)) by (exact Hi || (intros j Hj; unfold vsub, vadd; ring)). now apply lvlh_there_and_back. }
  split; intros i Hi; now apply G.
Qed.
Lemma rel_stm_state fuel o tend r v o' : ro_method o = UStm -> rel_propagate fuel true o tend r v = Ok o' ->
  ro_rel_pos o' = pos6 (mvec 6 (calc_hcw_stm (norm 3 r) (ro_mu o) tend) (ro_initial o)) /\
  ro_rel_vel o' = vel6 (mvec 6 (calc_hcw_stm (norm 3 r) (ro_mu o) tend) (ro_initial o)) /\ ro_initial o' = ro_initial o /\ ro_method o' = UStm /\ ro_mu o' = ro_mu o.
Proof. intros M H. unfold rel_propagate in H. cbn [negb] in H. rewrite M in H. cbn [bind] in H. injection H as <-. cbn. auto. Qed.

(** ** Acceleration *)
Lemma acc_sum l : only_adds l -> forall a0, veq 3 (fold_left acc_step l a0) (fun i => a0 i + fold_right (fun c s => contribution c i + s) 0 l).
Proof.
  induction l as [|c l IH]; intros O a0 i Hi; cbn [fold_left fold_right]; [ring|].
  assert (O' : only_adds l) by (destruct c; [contradiction|exact O..]).
  rewrite (IH O' _ i Hi). destruct c; [contradiction|..]; cbn [acc_step contribution].
  - unfold vadd, vdiv, vscal, Rdiv. ring.
  - unfold vadd. ring.
  - unfold vadd, vdiv, vscal. rewrite inverse_frame_dcm by exact Hi. unfold Rdiv. ring.
Qed.
