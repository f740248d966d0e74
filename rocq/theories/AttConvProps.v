(** C174: the attitude integrated by Runge-Kutta converges to the exact motion. *)
From Coq Require Import Reals Lra Lia List Bool Arith.
From Verif Require Import Base RBase VecModel VecProofs LuSpec QuatModel QuatSpec AttitudeModel AttitudeSpec AttitudeProofs ConvSpec ConvProofs SpinSpec AttConvSpec AttConvProofs.
Import ListNotations.
Open Scope R_scope.

(** C174: let w, q be the motion of a rigid body (any inertia tensor that has an inverse) under a constant torque,
    with wheels of constant momentum.  There are h0 and K such that AttitudeRk4, started within d0 of it with a
    unit quaternion and propagated by any sequence of calls whose steps are no wider than eta, has a unit
    quaternion and is within K (d0 + eta) of the motion at the end of the last call, for all d0 and eta up to h0. *)
Theorem C174_rk4_attitude_converges : forall inertia inv torque h T w q, is_inverse 3 inertia inv -> 0 <= T -> rigid_motion inertia torque h T w q ->
  exists h0 K, 0 < h0 /\ 0 <= K /\ forall coef0 index0 inverse0 fuel a tends a' d0 eta, 0 <= d0 <= h0 -> 0 <= eta <= h0 ->
    at_prev a = inertia -> at_torque a = torque -> at_h a = h -> 0 <= at_step a ->
    unit 4 (at_q a) -> near 3 d0 (at_omega a) (w 0) -> near 4 d0 (at_q a) (q 0) ->
    in_order (at_time a) tends -> at_step a + 1 / 10 ^ 6 <= eta \/ advances eta (at_time a) tends -> last tends (at_time a) - at_time a <= T ->
    att_run coef0 index0 inverse0 fuel inertia a tends = Ok a' ->
    let t := last tends (at_time a) - at_time a in
    at_time a' = last tends (at_time a) /\ unit 4 (at_q a') /\
    near 3 (K * (d0 + eta)) (at_omega a') (w t) /\ near 4 (K * (d0 + eta)) (at_q a') (q t).
Proof.
  intros inertia inv torque h T w q INV T0 RM. destruct (attitude_converges inertia inv torque h INV T w q T0 RM) as (h0 & K & H & KP & C).
  exists h0, K. split; [exact H|]. split; [exact KP|]. intros c0 i0 n0 fuel a tends a' d0 eta D E P TQ HH S0 U NW NQ IO A LT RUN t.
  destruct (run_reach c0 i0 n0 fuel inertia torque h (at_omega a, at_q a) eta tends a a' [] P TQ HH RUN (reach_nil _ _ _ _) S0 IO A) as (ws & R & TW & TT & F). cbn [app] in R.
  assert (N7 : near 7 d0 (v7 (at_omega a) (at_q a)) (v7 (w 0) (q 0))).
  { apply near7. split; intros i Hi; [rewrite !v7_omega by exact Hi; now apply NW|unfold quat7; rewrite !v7_quat; now apply NQ]. }
  destruct (C d0 eta ws (at_omega a, at_q a) (at_omega a', at_q a') D E F ltac:(rewrite TW; exact LT) U N7 R) as (U' & N).
  cbn [fst snd] in *. rewrite TW in N. fold t in N. apply near7 in N as (N1 & N2). split; [exact TT|]. split; [exact U'|]. split; intros i Hi.
  - specialize (N1 i Hi). rewrite !v7_omega in N1 by exact Hi. exact N1.
  - specialize (N2 i Hi). unfold quat7 in N2. rewrite !v7_quat in N2. exact N2.
Qed.
Print Assumptions C174_rk4_attitude_converges.

(** C174: in the limit: started on the motion, any accuracy eps is reached by all step widths below some bound *)
Theorem C174_any_accuracy : forall inertia inv torque h T w q eps, is_inverse 3 inertia inv -> 0 <= T -> rigid_motion inertia torque h T w q -> 0 < eps ->
  exists eta, 0 < eta /\ forall coef0 index0 inverse0 fuel a tends a',
    at_prev a = inertia -> at_torque a = torque -> at_h a = h -> 0 <= at_step a ->
    unit 4 (at_q a) -> veq 3 (at_omega a) (w 0) -> veq 4 (at_q a) (q 0) ->
    in_order (at_time a) tends -> at_step a + 1 / 10 ^ 6 <= eta \/ advances eta (at_time a) tends -> last tends (at_time a) - at_time a <= T ->
    att_run coef0 index0 inverse0 fuel inertia a tends = Ok a' ->
    let t := last tends (at_time a) - at_time a in near 3 eps (at_omega a') (w t) /\ near 4 eps (at_q a') (q t).
Proof.
  intros inertia inv torque h T w q eps INV T0 RM EP. destruct (C174_rk4_attitude_converges inertia inv torque h T w q INV T0 RM) as (h0 & K & H & KP & C).
  exists (Rmin h0 (eps / (K + 1))). assert (Q : 0 < eps / (K + 1)) by (apply Rdiv_lt_0_compat; lra). split; [apply Rmin_glb_lt; assumption|].
  pose proof (Rmin_l h0 (eps / (K + 1))) as M1. pose proof (Rmin_r h0 (eps / (K + 1))) as M2. assert (M0 : 0 < Rmin h0 (eps / (K + 1))) by (now apply Rmin_glb_lt). set (eta := Rmin h0 (eps / (K + 1))) in *.
  intros c0 i0 n0 fuel a tends a' P TQ HH S0 U NW NQ IO A LT RUN t.
  destruct (C c0 i0 n0 fuel a tends a' 0 eta ltac:(lra) ltac:(lra) P TQ HH S0 U) with (6 := RUN) as (_ & _ & N1 & N2); try assumption.
  - intros i Hi. rewrite NW by exact Hi. rewrite Rminus_eq_0, Rabs_R0. lra.
  - intros i Hi. rewrite NQ by exact Hi. rewrite Rminus_eq_0, Rabs_R0. lra.
  - assert (B : K * (0 + eta) <= eps).
    { assert (K * eta <= (K + 1) * (eps / (K + 1))) by (apply Rmult_le_compat; lra). replace ((K + 1) * (eps / (K + 1))) with eps in * by (field; lra). lra. }
    split; eapply near_le; [exact B|exact N1|exact B|exact N2].
Qed.
Print Assumptions C174_any_accuracy.

(** the hypotheses are met: a body turning about one of its axes, driven by a torque: inertia 1, 2, 3; w = t about the third axis *)
Definition diag3 (a b c : R) : mat := fun i j => match i, j with 0%nat, 0%nat => a | 1%nat, 1%nat => b | 2%nat, 2%nat => c | _, _ => 0 end.
Example ex_att : let w t := v3 0 0 t in let q t := q4 0 0 (sin (t * t / 4)) (cos (t * t / 4)) in
  is_inverse 3 (diag3 1 2 3) (diag3 1 (/ 2) (/ 3)) /\ rigid_motion (diag3 1 2 3) (v3 0 0 3) (v3 0 0 1) 10 w q /\ unit 4 (q 0) /\ w 1 2%nat = 1.
Proof.
  cbv zeta. split; [|split; [|split; [|reflexivity]]].
  - intros i j Hi Hj. destruct i as [|[|[|i]]]; [| | |lia]; destruct j as [|[|[|j]]]; try lia; cbn [sumn diag3 Nat.eqb]; split; field.
  - intros t _. split.
    + intros i Hi. destruct i as [|[|[|i]]]; [| | |lia]; unfold mvec; cbn [sumn diag3 v3].
      * eapply dpl_eq; [apply (dpl_plus (fun u => 0 + 1 * 0 + 0 * 0) (fun u => 0 * u)); [apply dpl_const|apply (dpl_mult (fun _ => 0) (fun u => u)); [apply dpl_const|apply derivable_pt_lim_id]]|]. cbn [cross vadd mvec sumn diag3 v3]. unfold vadd, mvec. cbn [sumn diag3 v3]. ring.
      * eapply dpl_eq; [apply (dpl_plus (fun u => 0 + 0 * 0 + 2 * 0) (fun u => 0 * u)); [apply dpl_const|apply (dpl_mult (fun _ => 0) (fun u => u)); [apply dpl_const|apply derivable_pt_lim_id]]|]. cbn [cross vadd mvec sumn diag3 v3]. unfold vadd, mvec. cbn [sumn diag3 v3]. ring.
      * eapply dpl_eq; [apply (dpl_plus (fun u => 0 + 0 * 0 + 0 * 0) (fun u => 3 * u)); [apply dpl_const|apply (dpl_mult (fun _ => 3) (fun u => u)); [apply dpl_const|apply derivable_pt_lim_id]]|]. cbn [cross vadd mvec sumn diag3 v3]. unfold vadd, mvec. cbn [sumn diag3 v3]. ring.
    + assert (HT : derivable_pt_lim (fun u => u * u / 4) t (t / 2)).
      { unfold Rdiv. eapply dpl_eq; [apply (dpl_mult (fun u => u * u) (fun _ => / 4)); [apply (dpl_mult (fun u => u) (fun u => u)); apply derivable_pt_lim_id|apply dpl_const]|]. field. }
      intros i Hi. destruct i as [|[|[|[|i]]]]; [| | | |lia]; cbn [q4 v3 qmul].
      * eapply dpl_eq; [apply dpl_const|]. ring.
      * eapply dpl_eq; [apply dpl_const|]. ring.
      * eapply dpl_eq; [apply (derivable_pt_lim_comp (fun u => u * u / 4) sin); [exact HT|apply derivable_pt_lim_sin]|]. field.
      * eapply dpl_eq; [apply (derivable_pt_lim_comp (fun u => u * u / 4) cos); [exact HT|apply derivable_pt_lim_cos]|]. field.
  - unfold unit, dot. cbn [sumn q4]. replace (0 * 0 / 4) with 0 by field. rewrite sin_0, cos_0. ring.
Qed.
