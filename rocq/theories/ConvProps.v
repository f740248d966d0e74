(** C172: the Runge-Kutta integrators converge to the exact solution. *)
From Coq Require Import Reals Lra Lia List Bool Arith QArith Qreals FunctionalExtensionality.
From Verif Require Import Base RBase VecModel OdeModel RkModel RkSpec RkProofs RkProps OrbitModel ConvSpec ConvProofs.
From Verif Require OrbitRunSpec.
Import ListNotations.
Open Scope R_scope.

Lemma weights_sum : sumn (stages rk4) (bw rk4) = 1 /\ sumn (stages rkf) (bh rkf) = 1 /\ sumn (stages dp5) (bh dp5) = 1.
Proof. cbn [stages rk4 rkf dp5 sumn]. unfold bw, bh. cbn [weights higher rk4 rkf dp5 nth]. unfold Q2R. cbn. repeat split; lra. Qed.
Lemma nodes_unit : (forall i, (i < stages rk4)%nat -> 0 <= cn rk4 i <= 1) /\ (forall i, (i < stages rkf)%nat -> 0 <= cn rkf i <= 1) /\ (forall i, (i < stages dp5)%nat -> 0 <= cn dp5 i <= 1).
Proof. split; [|split]; intros i Hi; do 7 (destruct i as [|i]; [unfold cn, Q2R; cbn; lra|]); cbn in Hi; lia. Qed.
Lemma steps_of_widths tb dim f (one : integrator -> integrator) b : (forall s, t_cur (one s) = t_cur s + h s /\ rk_step_to dim f (stages tb) (am tb) b (cn tb) (t_cur s) (h s) (x_cur s) (x_cur (one s))) ->
  forall ws s, steps_to dim f (stages tb) (am tb) b (cn tb) (t_cur s) (x_cur s) ws (x_cur (integrate_widths one ws s)).
Proof.
  intros H. induction ws as [|w ws IH]; intros s; [constructor|]. cbn [integrate_widths fold_left]. destruct (H (with_width s w)) as (T & P).
  econstructor; [exact P|]. specialize (IH (one (with_width s w))). rewrite T in IH. exact IH.
Qed.
Lemma step_integrate tb dim f s : t_cur (integrate tb f s) = t_cur s + h s /\ rk_step_to dim f (stages tb) (am tb) (bw tb) (cn tb) (t_cur s) (h s) (x_cur s) (x_cur (integrate tb f s)).
Proof. destruct (C30_step tb dim f s) as (k & KS & X & _ & _ & _ & _ & T & _). split; [exact T|]. exists k. split; [exact KS|]. intros m _. apply X. Qed.
Lemma step_embedded tb dim f s : t_cur (integrate_embedded tb dim f s) = t_cur s + h s /\ rk_step_to dim f (stages tb) (am tb) (bh tb) (cn tb) (t_cur s) (h s) (x_cur s) (x_cur (integrate_embedded tb dim f s)).
Proof. destruct (C30_step tb dim f s) as (k & KS & _ & X & _ & _ & _ & _ & T & _). split; [exact T|]. exists k. split; [exact KS|]. intros m _. apply X. Qed.

(** C172: let y solve y' = f(t, y) from t0 to t1, with f Lipschitz near the solution.  There are h0 and K such
    that each of the three integrators, started at t0 within d0 of y(t0) and run with any steps no wider than
    eta, stays within K (d0 + eta) of y, for all d0 and eta up to h0. *)
Theorem C172_integrators_converge : forall dim f y t0 t1 rho L, t0 <= t1 -> 0 < rho -> 0 <= L -> exact dim f y t0 t1 -> lipschitz_near dim f y t0 t1 rho L ->
  exists h0 K, 0 < h0 /\ 0 <= K /\ forall eta d0 widths x0 (step e0 : R), 0 <= d0 <= h0 -> 0 <= eta <= h0 -> List.Forall (fun w => 0 <= w <= eta) widths ->
    t0 + total widths <= t1 -> near dim d0 x0 (y t0) ->
    let start tb := set_state (construct tb f step e0) t0 x0 in
    let close s := near dim (K * (d0 + eta)) (x_cur s) (y (t0 + total widths)) /\ t_cur s = t0 + total widths in
    close (integrate_widths (integrate rk4 f) widths (start rk4)) /\
    close (integrate_widths (integrate_embedded rkf dim f) widths (start rkf)) /\
    close (integrate_widths (integrate_embedded dp5 dim f) widths (start dp5)).
Proof.
  intros dim f y t0 t1 rho L T RH L0 EX LN. destruct weights_sum as (W1 & W2 & W3). destruct nodes_unit as (N1 & N2 & N3).
  destruct (converges dim f y t0 t1 rho L _ (am rk4) (bw rk4) (cn rk4) T RH L0 EX LN W1 N1) as (h1 & K1 & H1 & P1 & C1).
  destruct (converges dim f y t0 t1 rho L _ (am rkf) (bh rkf) (cn rkf) T RH L0 EX LN W2 N2) as (h2 & K2 & H2 & P2 & C2).
  destruct (converges dim f y t0 t1 rho L _ (am dp5) (bh dp5) (cn dp5) T RH L0 EX LN W3 N3) as (h3 & K3 & H3 & P3 & C3).
  exists (Rmin h1 (Rmin h2 h3)), (Rmax K1 (Rmax K2 K3)).
  split; [repeat apply Rmin_glb_lt; assumption|]. split; [eapply Rle_trans; [exact P1|apply Rmax_l]|].
  intros eta d0 ws x0 step e0 D E F TE N start close.
  pose proof (Rmin_l h1 (Rmin h2 h3)). pose proof (Rmin_r h1 (Rmin h2 h3)). pose proof (Rmin_l h2 h3). pose proof (Rmin_r h2 h3).
  pose proof (Rmax_l K1 (Rmax K2 K3)). pose proof (Rmax_r K1 (Rmax K2 K3)). pose proof (Rmax_l K2 K3). pose proof (Rmax_r K2 K3).
  assert (TC : forall one, (forall s, t_cur (one s) = t_cur s + h s) -> forall ws s, t_cur (integrate_widths one ws s) = t_cur s + total ws).
  { clear. intros one H. induction ws as [|w ws IH]; intros s; cbn [integrate_widths fold_left total fold_right]; [ring|]. unfold integrate_widths in IH. rewrite IH, H. cbn [t_cur h with_width]. unfold total. ring. }
  split; [|split]; (split; [|apply (TC _ (fun s => proj1 (step_integrate _ dim f s))) || apply (TC _ (fun s => proj1 (step_embedded _ dim f s)))]).
  - eapply near_le; [|apply (C1 eta d0 ws x0); try lra; [exact F|exact TE|exact N|apply (steps_of_widths rk4 dim f (integrate rk4 f) (bw rk4) (step_integrate rk4 dim f) ws (start rk4))]]. apply Rmult_le_compat_r; lra.
  - eapply near_le; [|apply (C2 eta d0 ws x0); try lra; [exact F|exact TE|exact N|apply (steps_of_widths rkf dim f _ (bh rkf) (step_embedded rkf dim f) ws (start rkf))]]. apply Rmult_le_compat_r; lra.
  - eapply near_le; [|apply (C3 eta d0 ws x0); try lra; [exact F|exact TE|exact N|apply (steps_of_widths dp5 dim f _ (bh dp5) (step_embedded dp5 dim f) ws (start dp5))]]. apply Rmult_le_compat_r; lra.
Qed.
Print Assumptions C172_integrators_converge.
(** steps of one width are the usual run; ControlStepWidth changes nothing but the width *)
Theorem C172_fixed_width : forall tb dim f step e0 t0 x0 n, let s := set_state (construct tb f step e0) t0 x0 in
  Nat.iter n (integrate tb f) s = integrate_widths (integrate tb f) (repeat step n) s /\
  Nat.iter n (integrate_embedded tb dim f) s = integrate_widths (integrate_embedded tb dim f) (repeat step n) s /\ total (repeat step n) = INR n * step.
Proof.
  intros tb dim f step e0 t0 x0 n s.
  assert (G : forall one : integrator -> integrator, (forall s, h (one s) = h s) -> forall n s, Nat.iter n one s = integrate_widths one (repeat (h s) n) s).
  { clear. intros one H. induction n as [|n IH]; intros s; [reflexivity|]. assert (X : forall k s, Nat.iter k one (one s) = one (Nat.iter k one s)).
    { clear. induction k as [|k IHk]; intros s; [reflexivity|]. change (one (Nat.iter k one (one s)) = one (one (Nat.iter k one s))). now rewrite IHk. }
    change (one (Nat.iter n one s) = integrate_widths one (repeat (h s) (S n)) s). rewrite <- X, IH, H. cbn [repeat integrate_widths fold_left]. f_equal. f_equal. destruct s; reflexivity. }
  split; [apply (G (integrate tb f)); reflexivity|]. split; [apply (G (integrate_embedded tb dim f)); reflexivity|].
  induction n as [|n IH]; [cbn; ring|]. rewrite S_INR. cbn [repeat total fold_right]. unfold total in IH. rewrite IH. ring.
Qed.
Print Assumptions C172_fixed_width.
Theorem C172_control_changes_the_width_only : forall tb s tol s', control_step_width tb s tol = Some s' -> s' = with_width s (h s').
Proof.
  intros tb s tol s' E. unfold control_step_width in E. destruct (req _ _); [discriminate|]. destruct (rlt _ _); [discriminate|].
  destruct (rle _ _) in E; injection E as <-; [destruct s; reflexivity|reflexivity].
Qed.
Print Assumptions C172_control_changes_the_width_only.

(** C172: the same for the steps of the class OrdinaryDifferentialEquation *)
Lemma ode_step dim f o : rk_step_to dim f 4 (am rk4) (bw rk4) (cn rk4) (indep o) (step_width o) (state o) (state (step_of f o)).
Proof.
  remember (f (indep o) (state o)) as d1 eqn:E1. remember (f (indep o + 5 / 10 * step_width o) (vadd (state o) (vscal (5 / 10) (vscal (step_width o) d1)))) as d2 eqn:E2.
  remember (f (indep o + 5 / 10 * step_width o) (vadd (state o) (vscal (5 / 10) (vscal (step_width o) d2)))) as d3 eqn:E3. remember (f (indep o + step_width o) (vadd (state o) (vscal (step_width o) d3))) as d4 eqn:E4.
  exists (fun i => match i with 0%nat => d1 | 1%nat => d2 | 2%nat => d3 | _ => d4 end). split.
  - intros [|[|[|[|i]]]] Hi; [rewrite E1|rewrite E2|rewrite E3|rewrite E4|lia]; cbn [sumn]; unfold cn, am, Q2R; cbn [nodes matrix rk4 nth Qnum Qden];
      (f_equal; [field|apply functional_extensionality; intros m; unfold vadd, vscal; field]).
  - intros m _. unfold step_of, ode_update. cbn [fst state]. rewrite <- E1, <- E2, <- E3, <- E4. unfold vadd, vscal. cbn [stages rk4 sumn]. unfold bw, Q2R. cbn [nth weights rk4 Qnum Qden]. field.
Qed.
Theorem C172_ode_class_converges : forall dim f y t0 t1 rho L, t0 <= t1 -> 0 < rho -> 0 <= L -> exact dim f y t0 t1 -> lipschitz_near dim f y t0 t1 rho L ->
  exists h0 K, 0 < h0 /\ 0 <= K /\ forall eta d0 widths o, 0 <= d0 <= h0 -> 0 <= eta <= h0 -> List.Forall (fun w => 0 <= w <= eta) widths ->
    t0 + total widths <= t1 -> indep o = t0 -> near dim d0 (state o) (y t0) ->
    near dim (K * (d0 + eta)) (state (OrbitRunSpec.integrate f widths o)) (y (t0 + total widths)) /\ indep (OrbitRunSpec.integrate f widths o) = t0 + total widths.
Proof.
  intros dim f y t0 t1 rho L T RH L0 EX LN. destruct weights_sum as (W1 & _). destruct nodes_unit as (N1 & _).
  destruct (converges dim f y t0 t1 rho L _ (am rk4) (bw rk4) (cn rk4) T RH L0 EX LN W1 N1) as (h0 & K & H & P & C). exists h0, K. split; [exact H|]. split; [exact P|].
  intros eta d0 ws o D E F TE <- N. split.
  - apply (C eta d0 ws (state o)); try assumption. clear. revert o. induction ws as [|w ws IH]; intros o; [constructor|]. unfold OrbitRunSpec.integrate in *. cbn [fold_left].
    econstructor; [exact (ode_step dim f (set_step o w))|]. exact (IH (step_of f (set_step o w))).
  - clear. revert o. induction ws as [|w ws IH]; intros o; unfold OrbitRunSpec.integrate in *; cbn [fold_left total fold_right]; [ring|]. rewrite IH. cbn [step_of fst indep ode_update set_step step_width]. unfold total. ring.
Qed.
Print Assumptions C172_ode_class_converges.

(** the hypotheses are met: the oscillator x'' = - x with an exact solution *)
Definition oscillator (t : R) (s : vec) : vec := fun i => match i with 0%nat => s 1%nat | _ => - s 0%nat end.
Definition swing (t : R) : vec := fun i => match i with 0%nat => cos t | _ => - sin t end.
Example ex_conv : exact 2 oscillator swing 0 10 /\ lipschitz_near 2 oscillator swing 0 10 1 1.
Proof.
  split.
  - intros t _ [|[|i]] Hi; [| |lia]; cbn.
    + apply derivable_pt_lim_cos.
    + apply (derivable_pt_lim_opp sin). apply derivable_pt_lim_sin.
  - intros t s x z d _ _ _ _ N i Hi. pose proof (Rabs_pos (t - s)). destruct i as [|[|i]]; [| |lia]; cbn.
    + pose proof (N 1%nat ltac:(lia)). lra.
    + pose proof (N 0%nat ltac:(lia)). replace (- x 0%nat - - z 0%nat) with (- (x 0%nat - z 0%nat)) by ring. rewrite Rabs_Ropp. lra.
Qed.
