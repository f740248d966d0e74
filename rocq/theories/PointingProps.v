(** C73: attitude with a vibrating cantilever; C74: controlled attitude. *)
From Coq Require Import Reals ZArith Lra Lia List Bool Arith FunctionalExtensionality.
From Verif Require Import Base RBase VecModel VecProofs LuModel LuSpec LuProps Trig QuatModel QuatSpec QuatProofs OrbitProofs HillProofs AttitudeModel AttitudeSpec AttitudeProofs AttitudeRunProofs PointingProofs.
From Verif Require RkModel.
Import ListNotations.
Open Scope R_scope.

(** C73: the equations that are integrated.  With o's matrices being the inverses of the inertia of the body
    and of body and cantilever together, the accelerations of the body (acc) and of the cantilever against the
    body (acc_c) satisfy
      (I + Ic) acc + Ic acc_c = torque - w x (Iprev w + h) - dtorque      (total angular momentum)
      acc + acc_c = - (damping wc + stiffness e)                          (cantilever)
    the quaternion turns with w and the angles of the cantilever with wc. *)
Theorem C73_coupled_equations : forall o inertia s,
  is_inverse 3 inertia (c_inv o) -> is_inverse 3 (madd inertia (c_inertia o)) (c_inv_total o) ->
  meq3 (c_inv_equiv o) (mmul 3 (c_inv o) (madd inertia (c_inertia o))) ->
  let d := cant_deriv o s in let acc := from13 0 d in let acc_c := from13 3 d in
  let w := from13 0 s in let wc := from13 3 s in let q := from13 6 s in let e := from13 10 s in
  (forall i, (i < 3)%nat ->
    mvec 3 (madd inertia (c_inertia o)) acc i + mvec 3 (c_inertia o) acc_c i =
      c_torque o i - cross w (vadd (mvec 3 (c_prev o) w) (c_h o)) i - c_dtorque o i /\
    acc i + acc_c i = - (c_att o * wc i + c_spring o * e i)) /\
  veq 4 (from13 6 d) (quaternion_rate w q) /\ veq 3 (from13 10 d) wc.
Proof. intros o inertia s I1 I2 E. exact (cantilever_equations o inertia s I1 I2 E). Qed.
Print Assumptions C73_coupled_equations.

(** C73: the constructor sets the matrices so, damping = 2 zeta w0 and stiffness = w0^2. *)
Theorem C73_constructor : forall coef0 index0 inverse0 e0 w q inertia inertia_c damping intrinsic torque step a,
  cant_new coef0 index0 inverse0 e0 w q inertia inertia_c damping intrinsic torque step = Ok a ->
  let o := cv_ode a in
  is_inverse 3 inertia (c_inv o) /\ is_inverse 3 (madd inertia (c_inertia o)) (c_inv_total o) /\
  meq3 (c_inv_equiv o) (mmul 3 (c_inv o) (madd inertia (c_inertia o))) /\ c_inertia o = inertia_c /\
  c_att o = 2 * damping * intrinsic /\ c_spring o = intrinsic * intrinsic /\ c_prev o = inertia /\
  RkModel.h (cv_integrator a) = step /\ cv_step a = step /\ cv_time a = 0.
Proof.
  intros coef0 index0 inverse0 e0 w q inertia inertia_c damping intrinsic torque step a H. unfold cant_new in H.
  destruct (inverse3 coef0 index0 inverse0 inertia) as [inv| | |] eqn:E1; cbn [bind] in H; try discriminate.
  destruct (inverse3 coef0 index0 inverse0 (madd inertia inertia_c)) as [inv2| | |] eqn:E2; cbn [bind] in H; try discriminate.
  apply C24_inverse_correct in E1. apply C24_inverse_correct in E2. injection H as <-.
  cbn [cv_ode c_inv c_inertia c_inv_total c_inv_equiv c_att c_spring c_prev cv_integrator cv_step cv_time].
  split; [exact E1|]. split; [exact E2|]. split; [intros i j Hi Hj; reflexivity|]. repeat split; reflexivity.
Qed.
Print Assumptions C73_constructor.

(** C73: what a propagation does: some k >= 0 steps and one more, ALL of the width that the integrator was
    constructed with; the time is then the requested one. *)
Section propagate.
Context (coef0 : vec) (index0 : nat -> nat) (inverse0 : mat).
Notation propagate := (cant_propagate coef0 index0 inverse0).
Definition cant_setup (inertia inv : mat) (a : cantilever) (tend : R) : cant_ode :=
  let p := cv_ode a in
  mkCant (c_att p) (c_spring p) (cv_torque a) (mvec 3 (mscal (1 / (tend - cv_time a)) (msub inertia (c_prev p))) (cv_omega a)) (cv_h a) inv
    (c_prev p) (c_inertia p) (c_inv_equiv p) (c_inv_total p).
Definition cant_state (a : cantilever) : vec := v13 (cv_omega a) (cv_omega_c a) (cv_q a) (cv_euler a).
Lemma cant_propagate_spec fuel inertia a tend a' : propagate fuel true inertia a tend = Ok a' ->
  1 / 10 ^ 6 < tend - cv_time a /\ exists inv k, inverse3 coef0 index0 inverse0 inertia = Ok inv /\ cv_time a' = tend /\
    (let w := tend - cv_time a - INR k * cv_step a in w <= cv_step a + 1 / 10 ^ 6 /\ (k = 0%nat \/ 1 / 10 ^ 6 < w)) /\
    let s := RkModel.x_cur (int_steps (cant_setup inertia inv a tend) (S k) (RkModel.set_state (cv_integrator a) 0 (cant_state a))) in
    cv_omega a' = from13 0 s /\ cv_omega_c a' = from13 3 s /\ cv_q a' = qnormalize (from13 6 s) /\ cv_euler a' = from13 10 s /\
    cv_step a' = cv_step a /\ RkModel.h (cv_integrator a') = RkModel.h (cv_integrator a) /\ c_prev (cv_ode a') = inertia /\
    c_inv_total (cv_ode a') = c_inv_total (cv_ode a) /\ c_inv_equiv (cv_ode a') = c_inv_equiv (cv_ode a).
Proof.
  unfold cant_propagate. cbn [negb]. destruct (rlt_spec (1 / 10 ^ 6) (tend - cv_time a)) as [L|L]; cbn [negb]; [|discriminate]. intro H. split; [exact L|].
  destruct (inverse3 coef0 index0 inverse0 inertia) as [inv| | |] eqn:E; cbn [bind] in H; try discriminate.
  fold (cant_setup inertia inv a tend) in H. set (o := cant_setup inertia inv a tend) in *. fold (cant_state a) in H.
  destruct (cant_loop o fuel (cv_step a) tend _ (cv_time a)) as [(i & t)| | |] eqn:CL; cbn [bind] in H; try discriminate.
  apply cant_loop_spec in CL. destruct CL as (k & T & I & B1 & B2).
  exists inv, k. split; [reflexivity|].
  assert (X : RkModel.x_cur (int_step o (RkModel.set_state i (tend - t) (RkModel.x_cur i))) =
              RkModel.x_cur (int_steps o (S k) (RkModel.set_state (cv_integrator a) 0 (cant_state a)))).
  { rewrite int_steps_snoc. apply int_step_state.
    - cbn [RkModel.set_state RkModel.h]. rewrite I, !int_steps_h. reflexivity.
    - cbn [RkModel.set_state RkModel.x_cur]. rewrite I. apply int_steps_state; reflexivity. }
  assert (HH : RkModel.h (int_step o (RkModel.set_state i (tend - t) (RkModel.x_cur i))) = RkModel.h (cv_integrator a)).
  { change (RkModel.h (int_step o (RkModel.set_state i (tend - t) (RkModel.x_cur i)))) with (RkModel.h i). rewrite I, int_steps_h. reflexivity. }
  change (RkModel.integrate RkModel.rk4 (cant_f o) (RkModel.set_state i (tend - t) (RkModel.x_cur i))) with (int_step o (RkModel.set_state i (tend - t) (RkModel.x_cur i))) in H.
  set (i2 := int_step o (RkModel.set_state i (tend - t) (RkModel.x_cur i))) in *. clearbody i2.
  injection H as H. rewrite <- H. cbn [cv_time cv_omega cv_omega_c cv_q cv_euler cv_step cv_integrator cv_ode c_prev c_inv_total c_inv_equiv]. rewrite X.
  split; [reflexivity|]. split; [split; [lra|destruct B2 as [->|B2]; [now left|right; lra]]|].
  cbv zeta. repeat split; try reflexivity. exact HH.
Qed.
End propagate.
Theorem C73_propagate : forall coef0 index0 inverse0 fuel inertia a tend a',
  cant_propagate coef0 index0 inverse0 fuel true inertia a tend = Ok a' ->
  1 / 10 ^ 6 < tend - cv_time a /\ exists inv k, is_inverse 3 inertia inv /\ cv_time a' = tend /\
    (let w := tend - cv_time a - INR k * cv_step a in w <= cv_step a + 1 / 10 ^ 6 /\ (k = 0%nat \/ 1 / 10 ^ 6 < w)) /\
    let s := RkModel.x_cur (int_steps (cant_setup inertia inv a tend) (S k) (RkModel.set_state (cv_integrator a) 0 (cant_state a))) in
    cv_omega a' = from13 0 s /\ cv_omega_c a' = from13 3 s /\ cv_q a' = qnormalize (from13 6 s) /\ cv_euler a' = from13 10 s /\
    cv_step a' = cv_step a /\ RkModel.h (cv_integrator a') = RkModel.h (cv_integrator a) /\ c_prev (cv_ode a') = inertia /\
    c_inv_total (cv_ode a') = c_inv_total (cv_ode a) /\ c_inv_equiv (cv_ode a') = c_inv_equiv (cv_ode a).
Proof.
  intros coef0 index0 inverse0 fuel inertia a tend a' H. apply cant_propagate_spec in H. destruct H as (L & inv & k & E & R0). split; [exact L|].
  exists inv, k. split; [exact (C24_inverse_correct _ _ _ _ _ _ E)|exact R0].
Qed.
Print Assumptions C73_propagate.

(** C73: it ends for a positive step; an end time not more than a microsecond ahead is rejected. *)
Theorem C73_outcome : forall coef0 index0 inverse0 inertia a tend,
  let prop := cant_propagate coef0 index0 inverse0 in
  (forall fuel, prop fuel false inertia a tend = Ok a) /\
  (tend - cv_time a <= 1 / 10 ^ 6 -> forall fuel, prop fuel true inertia a tend = Throw) /\
  (1 / 10 ^ 6 < tend - cv_time a -> (~ exists inv, is_inverse 3 inertia inv) -> forall fuel, prop fuel true inertia a tend = Throw) /\
  (1 / 10 ^ 6 < tend - cv_time a -> (exists inv, is_inverse 3 inertia inv) -> 0 < cv_step a -> exists n, forall fuel, (n <= fuel)%nat -> exists a', prop fuel true inertia a tend = Ok a').
Proof.
  intros coef0 index0 inverse0 inertia a tend prop. unfold prop. split; [reflexivity|]. split; [|split].
  - intros L fuel. unfold cant_propagate. cbn [negb]. now rewrite rlt_false by lra.
  - intros L S0 fuel. unfold cant_propagate. cbn [negb]. rewrite rlt_true by lra. cbn [negb]. unfold inverse3.
    destruct (C24_throws_iff_singular 3 coef0 index0 inertia inverse0) as [(B & _ & I)|(E & _)]; [now elim S0; exists B|]. now rewrite E.
  - intros L V P. destruct (nat_above ((tend - cv_time a) / cv_step a)) as (n & Hn).
    apply Rmult_lt_compat_r with (r := cv_step a) in Hn; [|exact P]. unfold Rdiv in Hn. rewrite Rmult_assoc, Rinv_l, Rmult_1_r in Hn by lra.
    exists (S n). intros fuel G. unfold cant_propagate. cbn [negb]. rewrite rlt_true by lra. cbn [negb]. unfold inverse3.
    destruct (C24_throws_iff_singular 3 coef0 index0 inertia inverse0) as [(B & E & _)|(_ & E)]; [|contradiction]. rewrite E. cbn [bind].
    set (o := mkCant _ _ _ _ _ _ _ _ _ _). set (i0 := RkModel.set_state _ _ _). clearbody i0 o.
    assert (LT : forall m i t, tend - t <= INR (S m) * cv_step a -> exists x, cant_loop o (S m) (cv_step a) tend i t = Ok x).
    { induction m as [|m IH]; intros i t G2; cbn [cant_loop]; destruct (rlt_spec (1 / 10 ^ 6) (tend - t - cv_step a)) as [G3|G3]; try (eexists; reflexivity).
      - cbn [INR] in G2. lra.
      - apply IH. rewrite !S_INR in *. lra. }
    destruct fuel as [|m]; [lia|]. destruct (LT m i0 (cv_time a)) as ((i1 & t1) & EL).
    + assert (INR n <= INR (S m)) by (apply le_INR; lia). assert (INR n * cv_step a <= INR (S m) * cv_step a) by (apply Rmult_le_compat_r; lra). lra.
    + rewrite EL. cbn [bind]. eexists. reflexivity.
Qed.
Print Assumptions C73_outcome.

(** C73 (defect): SetState sets the time of the integrator, not its step width, so the last step has the full
    width whatever remains.  With unchanged inertia, two propagations to any two times less than a step ahead
    end in the same attitude and rates. *)
Theorem C73_last_step_is_full : forall coef0 index0 inverse0 n1 n2 inertia a t1 t2 a1 a2,
  c_prev (cv_ode a) = inertia ->
  cant_propagate coef0 index0 inverse0 n1 true inertia a t1 = Ok a1 -> t1 - cv_time a <= cv_step a ->
  cant_propagate coef0 index0 inverse0 n2 true inertia a t2 = Ok a2 -> t2 - cv_time a <= cv_step a ->
  cv_omega a1 = cv_omega a2 /\ cv_omega_c a1 = cv_omega_c a2 /\ cv_q a1 = cv_q a2 /\ cv_euler a1 = cv_euler a2 /\ cv_time a1 = t1 /\ cv_time a2 = t2.
Proof.
  intros coef0 index0 inverse0 n1 n2 inertia a t1 t2 a1 a2 PI0 H1 L1 H2 L2.
  apply cant_propagate_spec in H1. apply cant_propagate_spec in H2.
  destruct H1 as (G1 & inv & k1 & E1 & T1 & (W1 & K1) & R1). destruct H2 as (G2 & inv' & k2 & E2 & T2 & (W2 & K2) & R2).
  rewrite E1 in E2. injection E2 as <-.
  assert (Z1 : k1 = 0%nat). { destruct K1 as [K1|K1]; [exact K1|]. destruct k1 as [|k]; [reflexivity|]. rewrite S_INR in K1. pose proof (pos_INR k) as Q. assert (0 <= INR k * cv_step a) by (apply Rmult_le_pos; lra). lra. }
  assert (Z2 : k2 = 0%nat). { destruct K2 as [K2|K2]; [exact K2|]. destruct k2 as [|k]; [reflexivity|]. rewrite S_INR in K2. pose proof (pos_INR k) as Q. assert (0 <= INR k * cv_step a) by (apply Rmult_le_pos; lra). lra. }
  subst k1 k2.
  assert (O : cant_setup inertia inv a t1 = cant_setup inertia inv a t2).
  { unfold cant_setup. f_equal. rewrite PI0. apply functional_extensionality. intro i. unfold mvec, mscal, msub. apply sumn_ext. intros j _. ring. }
  rewrite O in R1. cbv zeta in R1, R2. destruct R1 as (A1 & B1 & C1 & D1 & _). destruct R2 as (A2 & B2 & C2 & D2 & _).
  rewrite A1, B1, C1, D1, A2, B2, C2, D2. repeat split; assumption.
Qed.
Print Assumptions C73_last_step_is_full.

Lemma ident_inverse : is_inverse 3 mident mident.
Proof. intros i j Hi Hj. rewrite !sumn3. i3 i Hi; i3 j Hj; cbn [mident Nat.eqb]; split; ring. Qed.
Lemma ident2_inverse : is_inverse 3 (madd mident mident) (mscal (1 / 2) mident).
Proof. intros i j Hi Hj. rewrite !sumn3. i3 i Hi; i3 j Hj; cbv [mident madd mscal Nat.eqb]; split; field. Qed.
(** C73 (defect), concretely: a body that turns freely at 120 deg/s, step 1 s.  No tolerance of a tenth is met by
    the attitude after propagations of 1/2 and of 1 second. *)
Theorem C73_end_time_refuted : ~ (forall a, cant_new (vconst 0) (fun _ => O) (fun _ _ => 0) 0 (v3 0 0 (2 * PI / 3)) (q4 0 0 0 1) mident mident 0 0 (vconst 0) 1 = Ok a ->
  forall d fuel a', 0 < d <= 1 -> cant_propagate (vconst 0) (fun _ => O) (fun _ _ => 0) fuel true mident a d = Ok a' -> Rabs (cv_q a' 3%nat - cos (2 * PI / 3 * d / 2)) <= 1 / 10).
Proof.
  intro C.
  assert (EX : exists a, cant_new (vconst 0) (fun _ => O) (fun _ _ => 0) 0 (v3 0 0 (2 * PI / 3)) (q4 0 0 0 1) mident mident 0 0 (vconst 0) 1 = Ok a).
  { unfold cant_new, inverse3. destruct (C24_throws_iff_singular 3 (vconst 0) (fun _ => O) mident (fun _ _ => 0)) as [(B & E & _)|(_ & E)]; [|elim E; exists mident; apply ident_inverse].
    rewrite E. cbn [bind]. destruct (C24_throws_iff_singular 3 (vconst 0) (fun _ => O) (madd mident mident) (fun _ _ => 0)) as [(B2 & E2 & _)|(_ & E2)]; [|elim E2; eexists; apply ident2_inverse].
    rewrite E2. cbn [bind]. eexists. reflexivity. }
  destruct EX as (a & EA). specialize (C a EA). pose proof (C73_constructor _ _ _ _ _ _ _ _ _ _ _ _ _ EA) as (_ & _ & _ & _ & _ & _ & PV & _ & ST & TM).
  assert (OK : forall d, 0 < d -> 1 / 10 ^ 6 < d -> exists fuel a', cant_propagate (vconst 0) (fun _ => O) (fun _ _ => 0) fuel true mident a d = Ok a').
  { intros d P P2. destruct (C73_outcome (vconst 0) (fun _ => O) (fun _ _ => 0) mident a d) as (_ & _ & _ & O).
    destruct O as (n & O); [lra|exists mident; apply ident_inverse|lra|]. destruct (O n (le_n n)) as (a' & E). now exists n, a'. }
  destruct (OK (1 / 2)) as (f1 & a1 & E1); [lra|lra|]. destruct (OK 1) as (f2 & a2 & E2); [lra|lra|].
  assert (L1 : 1 / 2 - cv_time a <= cv_step a) by lra. assert (L2 : 1 - cv_time a <= cv_step a) by lra.
  destruct (C73_last_step_is_full _ _ _ _ _ _ _ _ _ _ _ PV E1 L1 E2 L2) as (_ & _ & Q & _).
  assert (D1 : 0 < 1 / 2 <= 1) by lra. assert (D2 : 0 < 1 <= 1) by lra. pose proof (C _ _ _ D1 E1) as C1. pose proof (C _ _ _ D2 E2) as C2. rewrite Q in C1.
  replace (2 * PI / 3 * (1 / 2) / 2) with (PI / 6) in C1 by field. replace (2 * PI / 3 * 1 / 2) with (PI / 3) in C2 by field.
  rewrite cos_PI6 in C1. rewrite cos_PI3 in C2.
  assert (S3 : 3 / 2 < sqrt 3). { replace (3 / 2) with (sqrt (3 / 2 * (3 / 2))) by (apply sqrt_square; lra). apply sqrt_lt_1; lra. }
  apply Rabs_le_both in C1. apply Rabs_le_both in C2. lra.
Qed.
Print Assumptions C73_end_time_refuted.

(** ** C74: controlled attitude *)
(** a history of calls of Propagate: the inertia tensor, the surroundings and the time of each *)
Fixpoint ctl_run (coef0 : vec) (index0 : nat -> nat) (inverse0 : mat) (c : controlled) (calls : list (mat * surroundings * R)) : outcome controlled :=
  match calls with
  | [] => Ok c
  | (inertia, s, t) :: r => let! c1 := ctl_propagate coef0 index0 inverse0 inertia s c t in ctl_run coef0 index0 inverse0 c1 r
  end.
(** the unit vector along a vector *)
Definition along (v : vec) : vec := vscal (1 / norm 3 v) v.

Lemma target_direction_spec s m u : target_direction s m = Ok u -> exists d, asked_direction s m d /\ u = normalize 3 d.
Proof.
  unfold target_direction. intro H. destruct m; cbn [bind] in H; try discriminate; injection H as <-; eexists; (split; [|reflexivity]); cbn [asked_direction]; try reflexivity.
  - destruct (req_spec (norm 3 (sun_from_sc s)) 0) as [E|E]; [right|left]; split; try exact E; reflexivity.
  - destruct (req_spec (norm 3 (earth_from_sc s)) 0) as [E|E]; [right|left]; split; try exact E; reflexivity.
Qed.
Lemma asked_unique s m d d' : asked_direction s m d -> asked_direction s m d' -> d = d'.
Proof.
  destruct m; cbn [asked_direction]; intros A B; try contradiction; try congruence.
  - destruct A as [(A1 & A2)|(A1 & A2)]; destruct B as [(B1 & B2)|(B1 & B2)]; try contradiction; congruence.
  - destruct A as [(A1 & A2)|(A1 & A2)]; destruct B as [(B1 & B2)|(B1 & B2)]; try contradiction; congruence.
Qed.
Lemma target_direction_ok s m d : asked_direction s m d -> target_direction s m = Ok (normalize 3 d).
Proof.
  destruct m; cbn [asked_direction]; intro A; try contradiction; try (now rewrite A); unfold target_direction; cbn [bind].
  - destruct A as [(A1 & A2)|(A1 & A2)]; [rewrite req_false by exact A1|rewrite req_true by exact A1]; now rewrite A2.
  - destruct A as [(A1 & A2)|(A1 & A2)]; [rewrite req_false by exact A1|rewrite req_true by exact A1]; now rewrite A2.
Qed.
Lemma normalize_along v : 0 < norm 3 v -> veq 3 (normalize 3 v) (along v).
Proof. intros P i Hi. rewrite normalize_scal by exact P. unfold along, vscal. field. lra. Qed.
Lemma normalize_not_parallel u v : 0 < norm 3 u -> 0 < norm 3 v -> not_parallel u v -> 0 < norm 3 (cross (normalize 3 u) (normalize 3 v)).
Proof.
  intros U V N. rewrite (norm_ext 3 _ (vscal (1 / (norm 3 u * norm 3 v)) (cross u v))).
  - rewrite norm_scal. apply Rmult_lt_0_compat; [|exact N]. apply Rabs_pos_lt. apply Rgt_not_eq. apply Rdiv_lt_0_compat; [lra|]. now apply Rmult_lt_0_compat.
  - intros i Hi. rewrite (cross_ext _ _ _ _ (normalize_along u U) (normalize_along v V) i Hi). unfold along, vscal. i3 i Hi; cbn [cross]; field; split; lra.
Qed.
Lemma mode_eqb_true a b : mode_eqb a b = true -> a = b. Proof. destruct a, b; cbn; intro H; try discriminate; reflexivity. Qed.
Lemma mode_eqb_refl a : mode_eqb a a = true. Proof. now destruct a. Qed.
Section ctl.
Context (coef0 : vec) (index0 : nat -> nat) (inverse0 : mat).
Notation propagate := (ctl_propagate coef0 index0 inverse0).
Lemma ctl_velocity_fields inertia c q t c' : ctl_velocity coef0 index0 inverse0 inertia c q t = Ok c' ->
  cm_main c' = cm_main c /\ cm_sub c' = cm_sub c /\ cm_main_b c' = cm_main_b c /\ cm_sub_b c' = cm_sub_b c /\ cm_enabled c' = cm_enabled c /\
  cm_q c' = q /\ cm_prev_time c' = t /\ cm_prev_q c' = q /\ cm_prev_omega c' = cm_omega c'.
Proof.
  unfold ctl_velocity. intro H. destruct (rlt 0 (cm_prev_time c)).
  - destruct (req (t - cm_prev_time c) 0); [discriminate|]. destruct (inverse3 coef0 index0 inverse0 inertia) as [inv| | |]; cbn [bind] in H; try discriminate. injection H as <-. repeat split; reflexivity.
  - cbn [bind] in H. injection H as <-. repeat split; reflexivity.
Qed.
Lemma propagate_fields inertia s c t c' : propagate inertia s c t = Ok c' ->
  cm_main c' = cm_main c /\ cm_sub c' = cm_sub c /\ cm_main_b c' = cm_main_b c /\ cm_sub_b c' = cm_sub_b c /\ cm_enabled c' = cm_enabled c.
Proof.
  unfold ctl_propagate. intro H. destruct (cm_enabled c) eqn:EN; cbn [negb] in H; [|injection H as <-; auto].
  destruct (mode_eqb (cm_main c) MInertial); [injection H as <-; auto|].
  destruct (target_direction s (cm_main c)) as [m| | |]; cbn [bind] in H; try discriminate. destruct (target_direction s (cm_sub c)) as [d| | |]; cbn [bind] in H; try discriminate.
  apply ctl_velocity_fields in H. rewrite EN in H. tauto.
Qed.
Lemma run_fields calls : forall c c', ctl_run coef0 index0 inverse0 c calls = Ok c' ->
  cm_main c' = cm_main c /\ cm_sub c' = cm_sub c /\ cm_main_b c' = cm_main_b c /\ cm_sub_b c' = cm_sub_b c /\ cm_enabled c' = cm_enabled c.
Proof.
  induction calls as [|((inertia & s) & t) calls IH]; intros c c' H; cbn [ctl_run] in H; [injection H as <-; auto|].
  destruct (propagate inertia s c t) as [c1| | |] eqn:E; cbn [bind] in H; try discriminate. apply IH in H. apply propagate_fields in E.
  destruct H as (A & B & C & D & F). destruct E as (A1 & B1 & C1 & D1 & F1). rewrite A, B, C, D, F. auto.
Qed.
Lemma propagate_active inertia s c t c' : propagate inertia s c t = Ok c' -> cm_enabled c = true -> cm_main c <> MInertial ->
  exists dm ds, asked_direction s (cm_main c) dm /\ asked_direction s (cm_sub c) ds /\
    ctl_velocity coef0 index0 inverse0 inertia c (pointing (cm_main_b c) (cm_sub_b c) (normalize 3 dm) (normalize 3 ds)) t = Ok c'.
Proof.
  unfold ctl_propagate. intros H EN NM. rewrite EN in H. cbn [negb] in H.
  destruct (mode_eqb (cm_main c) MInertial) eqn:E1; [now apply mode_eqb_true in E1|].
  destruct (target_direction s (cm_main c)) as [m| | |] eqn:E2; cbn [bind] in H; try discriminate. destruct (target_direction s (cm_sub c)) as [d| | |] eqn:E3; cbn [bind] in H; try discriminate.
  apply target_direction_spec in E2. apply target_direction_spec in E3. destruct E2 as (dm & A & ->). destruct E3 as (ds & B & ->). exists dm, ds. auto.
Qed.
End ctl.

(** C74: after every history of calls, every Propagate of an accepted configuration (non-zero body directions)
    that finds the two asked directions non-zero and not parallel leaves a unit quaternion with which the main
    body direction points exactly along the main asked direction, and no attitude that does so has the sub body
    direction closer to the sub asked direction. *)
Theorem C74_pointing : forall coef0 index0 inverse0 main sub q mb sb q0 w0 calls c inertia s t c' dm ds,
  let c0 := ctl_new main sub q mb sb q0 w0 in
  cm_enabled c0 = true -> main <> MInertial -> 0 < norm 3 mb -> 0 < norm 3 sb ->
  ctl_run coef0 index0 inverse0 c0 calls = Ok c -> ctl_propagate coef0 index0 inverse0 inertia s c t = Ok c' ->
  asked_direction s main dm -> asked_direction s sub ds -> 0 < norm 3 dm -> 0 < norm 3 ds -> not_parallel dm ds ->
  unit 4 (cm_q c') /\ veq 3 (seen_from_body (cm_q c') (along dm)) (along mb) /\
  forall rot, rotation rot -> veq 3 (mvec 3 rot (along dm)) (along mb) ->
    dot 3 (mvec 3 rot (along ds)) (along sb) <= dot 3 (seen_from_body (cm_q c') (along ds)) (along sb).
Proof.
  intros coef0 index0 inverse0 main sub q mb sb q0 w0 calls c inertia s t c' dm ds c0 EN NM PB PS RUN PR AM AS PM PD NP.
  destruct (ctl_new_enabled main sub q mb sb q0 w0 EN NM PB PS) as (F1 & F2 & _ & _ & _ & _ & F3 & F4 & F5 & F6 & _ & F7). fold c0 in F1, F2, F3, F4, F5, F6, F7.
  apply run_fields in RUN. destruct RUN as (R1 & R2 & R3 & R4 & R5). rewrite F1 in R1. rewrite F2 in R2. rewrite EN in R5.
  destruct (propagate_active _ _ _ _ _ _ _ _ PR R5 ltac:(congruence)) as (dm' & ds' & A1 & A2 & V). rewrite R1 in A1. rewrite R2 in A2.
  rewrite (asked_unique _ _ _ _ A1 AM), (asked_unique _ _ _ _ A2 AS) in V. apply ctl_velocity_fields in V. destruct V as (_ & _ & _ & _ & _ & Q & _). rewrite R3, R4 in Q.
  assert (UM : unit 3 (normalize 3 dm)) by (apply norm_unit, normalize_norm; lra).
  pose proof (normalize_not_parallel dm ds PM PD NP) as NI.
  pose proof (pointing_dcm _ _ _ _ F5 F7 UM NI) as (UQ & _). pose proof (pointing_main _ _ _ _ F5 F7 UM NI) as PMN.
  pose proof (pointing_best _ _ _ _ F5 F7 UM NI) as BEST. rewrite <- Q in UQ, PMN, BEST.
  assert (F3' : veq 3 (cm_main_b c0) (along mb)) by exact F3. assert (F4' : veq 3 (cm_sub_b c0) (along sb)) by exact F4.
  split; [exact UQ|]. split.
  - intros i Hi. rewrite <- (F3' i Hi), <- (PMN i Hi). apply mvec_congr; [|exact Hi]. apply veq_sym, normalize_along, PM.
  - intros rot RO E. specialize (BEST rot RO). 
    assert (E2 : veq 3 (mvec 3 rot (normalize 3 dm)) (cm_main_b c0)).
    { intros i Hi. rewrite (F3' i Hi), <- (E i Hi). apply mvec_congr; [now apply normalize_along|exact Hi]. }
    specialize (BEST E2).
    rewrite (dot_ext 3 (mvec 3 rot (normalize 3 ds)) (cm_sub_b c0) (mvec 3 rot (along ds)) (along sb)) in BEST; [|apply mvec_congr; now apply normalize_along|exact F4'].
    rewrite (dot_ext 3 (seen_from_body (cm_q c') (normalize 3 ds)) (cm_sub_b c0) (seen_from_body (cm_q c') (along ds)) (along sb)) in BEST; [exact BEST|unfold seen_from_body; apply mvec_congr; now apply normalize_along|exact F4'].
Qed.
Print Assumptions C74_pointing.

(** C74: the state before the first propagation: the given quaternion, no angular velocity and no torque. *)
Theorem C74_new : forall main sub q mb sb q0 w0, let c := ctl_new main sub q mb sb q0 w0 in
  cm_main c = main /\ cm_sub c = sub /\ cm_q c = q /\ (forall i, cm_omega c i = 0 /\ cm_torque c i = 0).
Proof.
  intros main sub q mb sb q0 w0 c. unfold c, ctl_new, ctl_initialize. cbn [cm_main cm_sub cm_main_b cm_sub_b].
  destruct (mode_eqb main MInertial); [repeat split|]. destruct (mode_eqb main sub); [repeat split|]. cbv zeta. destruct (rlt _ _); repeat split.
Qed.
Print Assumptions C74_new.

(** C74: which configurations the constructor accepts: both modes are control modes, they differ (or the main
    one is inertial stabilisation), and the body directions are at least 30 degrees apart (and from opposite). *)
Theorem C74_accepted : forall main sub q mb sb q0 w0,
  let c := ctl_new main sub q mb sb q0 w0 in
  (cm_enabled c = true <-> main <> MNone /\ sub <> MNone /\ (main = MInertial \/ (main <> sub /\ Rabs (dot 3 (normalize 3 mb) (normalize 3 sb)) <= cos (PI / 6)))).
Proof.
  intros main sub q mb sb q0 w0 c. unfold c, ctl_new, ctl_initialize. cbn [cm_main cm_sub cm_main_b cm_sub_b cm_enabled andb].
  assert (EN : forall a b, negb (mode_eqb a MNone) && negb (mode_eqb b MNone) = true <-> a <> MNone /\ b <> MNone).
  { intros a b. destruct a, b; cbn [mode_eqb negb andb]; split; intro H; try discriminate; try reflexivity; try (split; discriminate); destruct H as (H1 & H2); try (now elim H1); now elim H2. }
  assert (CC : cos min_direction_angle = cos (PI / 6)) by (unfold min_direction_angle; f_equal; field).
  destruct (mode_eqb main MInertial) eqn:E1; cbn [cm_enabled].
  - apply mode_eqb_true in E1. rewrite EN. split; [intros (A & B); split; [exact A|split; [exact B|now left]]|tauto].
  - assert (NI : main <> MInertial) by (intros ->; discriminate).
    destruct (mode_eqb main sub) eqn:E2; cbn [cm_enabled].
    + apply mode_eqb_true in E2. split; [discriminate|]. intros (_ & _ & [A|(A & _)]); contradiction.
    + assert (NS : main <> sub) by (intros ->; rewrite mode_eqb_refl in E2; discriminate).
      destruct (rlt_spec (cos min_direction_angle) (Rabs (dot 3 (normalize 3 mb) (normalize 3 sb)))) as [L|L]; cbn [cm_enabled].
      * split; [discriminate|]. intros (_ & _ & [A|(_ & A)]); [contradiction|]. rewrite <- CC in A. lra.
      * rewrite EN. rewrite CC in L. split; [intros (A & B); split; [exact A|split; [exact B|right; split; [exact NS|lra]]]|tauto].
Qed.
Print Assumptions C74_accepted.
(** C74 (defect): body directions of length zero are accepted. *)
Theorem C74_zero_directions_accepted : forall q q0 w0, cm_enabled (ctl_new MSun MEarth q (vconst 0) (vconst 0) q0 w0) = true.
Proof.
  intros q q0 w0. apply C74_accepted. split; [discriminate|]. split; [discriminate|]. right. split; [discriminate|].
  replace (dot 3 (normalize 3 (vconst 0)) (normalize 3 (vconst 0))) with 0.
  - rewrite Rabs_R0. rewrite cos_PI6. pose proof (sqrt_pos 3). lra.
  - assert (Z : norm 3 (vconst 0) = 0) by (unfold norm; rewrite sumn3; unfold vconst; replace (0 * 0 + 0 * 0 + 0 * 0) with 0 by ring; apply sqrt_0).
    unfold normalize. rewrite req_true by exact Z. unfold dot. rewrite sumn3. unfold vconst. ring.
Qed.
Print Assumptions C74_zero_directions_accepted.
(** C74 (defect): the sub mode inertial stabilisation is accepted, and every Propagate then reads a vector that
    was never assigned. *)
Theorem C74_inertial_sub_mode_reads_unassigned : forall coef0 index0 inverse0 inertia s c t dm,
  cm_enabled c = true -> cm_main c <> MInertial -> cm_sub c = MInertial -> asked_direction s (cm_main c) dm ->
  ctl_propagate coef0 index0 inverse0 inertia s c t = UB.
Proof.
  intros coef0 index0 inverse0 inertia s c t dm EN NM SB AM. unfold ctl_propagate. rewrite EN. cbn [negb].
  destruct (mode_eqb (cm_main c) MInertial) eqn:E1; [now apply mode_eqb_true in E1|]. rewrite (target_direction_ok _ _ _ AM), SB. reflexivity.
Qed.
Print Assumptions C74_inertial_sub_mode_reads_unassigned.
(** C74: switched off, or with main mode inertial stabilisation, nothing changes. *)
Theorem C74_idle : forall coef0 index0 inverse0 inertia s c t, cm_enabled c = false \/ cm_main c = MInertial ->
  ctl_propagate coef0 index0 inverse0 inertia s c t = Ok c.
Proof.
  intros coef0 index0 inverse0 inertia s c t [E|E]; unfold ctl_propagate; [rewrite E; reflexivity|]. destruct (cm_enabled c); [|reflexivity]. cbn [negb]. now rewrite E.
Qed.
Print Assumptions C74_idle.

(** C74: the reported angular velocity is zero until a call made after a call at a positive time; from then on
    it is (2 / dt) sin(phi / 2) along the axis, when the quaternion has turned by the rotation (axis, phi) since. *)
Theorem C74_rate : forall coef0 index0 inverse0 inertia s c t c', cm_enabled c = true -> cm_main c <> MInertial ->
  ctl_propagate coef0 index0 inverse0 inertia s c t = Ok c' ->
  cm_prev_time c' = t /\ cm_prev_q c' = cm_q c' /\ cm_prev_omega c' = cm_omega c' /\
  (cm_prev_time c <= 0 -> veq 3 (cm_omega c') (vconst 0) /\ veq 3 (cm_torque c') (cm_torque c)) /\
  (0 < cm_prev_time c -> t <> cm_prev_time c /\ forall axis phi, unit 4 (cm_prev_q c) ->
     veq 4 (cm_q c') (qmul (cm_prev_q c) (q4 (axis 0%nat * sin (phi / 2)) (axis 1%nat * sin (phi / 2)) (axis 2%nat * sin (phi / 2)) (cos (phi / 2)))) ->
     veq 3 (cm_omega c') (vscal (2 * sin (phi / 2) / (t - cm_prev_time c)) axis)).
Proof.
  intros coef0 index0 inverse0 inertia s c t c' EN NM H. destruct (propagate_active _ _ _ _ _ _ _ _ H EN NM) as (dm & ds & _ & _ & V). clear H.
  pose proof (ctl_velocity_fields _ _ _ _ _ _ _ _ V) as (_ & _ & _ & _ & _ & FQ & F1 & F2 & F3). split; [exact F1|]. split; [congruence|]. split; [exact F3|].
  set (q := pointing _ _ _ _) in *. clearbody q. clear F1 F2 F3. unfold ctl_velocity in V.
  destruct (rlt_spec 0 (cm_prev_time c)) as [L|L].
  - split; [lra|]. intros _. destruct (req_spec (t - cm_prev_time c) 0) as [Z|Z]; [discriminate|]. split; [lra|]. intros axis phi U EQ.
    destruct (inverse3 coef0 index0 inverse0 inertia) as [inv| | |]; cbn [bind] in V; try discriminate. injection V as V. rewrite FQ in EQ. rewrite <- V. cbn [cm_omega].
    pose proof (unit4 _ U) as U4. pose proof (qmul_ext (qconj (cm_prev_q c)) q (qconj (cm_prev_q c)) _ (veq_refl 4 _) EQ) as EM.
    assert (G : forall i, (i < 3)%nat -> qscal (2 / (t - cm_prev_time c)) (qmul (qconj (cm_prev_q c)) q) i = 2 * sin (phi / 2) / (t - cm_prev_time c) * axis i).
    { intros i Hi. unfold qscal. rewrite (EM i) by lia. clear EM EQ FQ V. set (p := cm_prev_q c) in *. clearbody p. set (dt := t - cm_prev_time c) in *. clearbody dt.
      transitivity (2 * sin (phi / 2) / dt * axis i * (p 0%nat * p 0%nat + p 1%nat * p 1%nat + p 2%nat * p 2%nat + p 3%nat * p 3%nat)); [|rewrite U4; ring].
      i3 i Hi; cbv [qmul qconj q4 Nat.ltb Nat.leb]; field; exact Z. }
    intros i Hi. unfold vscal. i3 i Hi; cbn [v3]; apply G; lia.
  - split; [|lra]. intros _. cbn [bind] in V. injection V as V. rewrite <- V. cbn [cm_omega cm_torque]. split; intros i Hi; [reflexivity|]. unfold vadd, vconst. ring.
Qed.
Print Assumptions C74_rate.

(** C74 (defect): the reported torque.  The code multiplies by the inverse of the inertia tensor, and with the
    previous velocity minus the new one: the inertia tensor times the added torque is minus the acceleration. *)
Theorem C74_torque : forall coef0 index0 inverse0 inertia s c t c', cm_enabled c = true -> cm_main c <> MInertial -> 0 < cm_prev_time c ->
  ctl_propagate coef0 index0 inverse0 inertia s c t = Ok c' ->
  veq 3 (mvec 3 inertia (vsub (cm_torque c') (cm_torque c))) (fun i => - ((cm_omega c' i - cm_prev_omega c i) / (t - cm_prev_time c))).
Proof.
  intros coef0 index0 inverse0 inertia s c t c' EN NM P H. destruct (propagate_active _ _ _ _ _ _ _ _ H EN NM) as (dm & ds & _ & _ & V). clear H.
  unfold ctl_velocity in V. rewrite rlt_true in V by exact P. destruct (req_spec (t - cm_prev_time c) 0) as [Z|Z]; [discriminate|].
  destruct (inverse3 coef0 index0 inverse0 inertia) as [inv| | |] eqn:E; cbn [bind] in V; try discriminate. apply C24_inverse_correct in E. injection V as V. rewrite <- V. cbn [cm_torque cm_omega].
  set (w := v3 _ _ _). set (acc := fun i => (cm_prev_omega c i - w i) / (t - cm_prev_time c)).
  intros i Hi. rewrite (mvec_congr inertia _ (mvec 3 inv acc)); [|intros j Hj; unfold vsub, vadd; ring|exact Hi].
  rewrite (inverse_cancel inertia inv acc E i Hi). unfold acc. field. lra.
Qed.
Print Assumptions C74_torque.

(** C74 (defect): the quaternion of a continuously turning attitude changes its sign, and the reported angular
    velocity is then reversed: the Sun and the Earth turn by 60 degrees about the third axis in one second. *)
Definition turned (th : R) : surroundings :=
  mkSur (v3 (cos th) (sin th) 0) (vconst 0) (v3 (- sin th) (cos th) 0) (vconst 0) (vconst 0) (vconst 0) (vconst 0) mident (vconst 0).
Lemma turned_norm th : norm 3 (v3 (cos th) (sin th) 0) = 1 /\ norm 3 (v3 (- sin th) (cos th) 0) = 1.
Proof. pose proof (sin2_cos2 th) as T. unfold Rsqr in T. split; apply norm_unit; unfold unit, dot; rewrite sumn3; cbn [v3]; lra. Qed.
Lemma normalize_unit v : norm 3 v = 1 -> normalize 3 v = v.
Proof. intro E. unfold normalize. rewrite req_false by lra. apply functional_extensionality. intro i. unfold vdiv, vscal. rewrite E. field. Qed.
Lemma turned_frame th : meq3 (mmul 3 (target_dcm (v3 1 0 0) (v3 0 1 0)) (mtrans (target_dcm (v3 (cos th) (sin th) 0) (v3 (- sin th) (cos th) 0)))) (rot_z th).
Proof.
  pose proof (sin2_cos2 th) as T. unfold Rsqr in T.
  assert (CR : forall m s, m = v3 (cos th) (sin th) 0 -> s = v3 (- sin th) (cos th) 0 -> norm 3 (cross m s) = 1).
  { intros m s -> ->. apply norm_unit. unfold unit, dot. rewrite sumn3. cbn [cross v3]. replace (cos th * cos th - sin th * - sin th) with 1 by lra. ring. }
  specialize (CR _ _ eq_refl eq_refl).
  assert (CR0 : norm 3 (cross (v3 1 0 0) (v3 0 1 0)) = 1) by (apply norm_unit; unfold unit, dot; rewrite sumn3; cbn [cross v3]; ring).
  destruct (turned_norm th) as (UM & _). apply norm_unit in UM. assert (U0 : unit 3 (v3 1 0 0)) by (unfold unit, dot; rewrite sumn3; cbn [v3]; ring).
  assert (D : dot 3 (v3 (cos th) (sin th) 0) (v3 (- sin th) (cos th) 0) = 0) by (unfold dot; rewrite sumn3; cbn [v3]; ring).
  assert (D0 : dot 3 (v3 1 0 0) (v3 0 1 0) = 0) by (unfold dot; rewrite sumn3; cbn [v3]; ring).
  assert (P1 : 0 < norm 3 (cross (v3 (cos th) (sin th) 0) (v3 (- sin th) (cos th) 0))) by lra. assert (P0 : 0 < norm 3 (cross (v3 1 0 0) (v3 0 1 0))) by lra.
  pose proof (frame_ey _ _ UM P1) as Y1. pose proof (frame_ez _ _ UM P1) as Z1. pose proof (frame_ey _ _ U0 P0) as Y0. pose proof (frame_ez _ _ U0 P0) as Z0.
  rewrite CR in Y1, Z1. rewrite CR0 in Y0, Z0. rewrite D in Y1. rewrite D0 in Y0.
  set (A := target_dcm (v3 1 0 0) (v3 0 1 0)) in *. set (B := target_dcm (v3 (cos th) (sin th) 0) (v3 (- sin th) (cos th) 0)) in *.
  assert (XA : forall i, A i 0%nat = v3 1 0 0 i) by reflexivity. assert (XB : forall i, B i 0%nat = v3 (cos th) (sin th) 0 i) by reflexivity. clearbody A B.
  assert (ZB : forall i, (i < 3)%nat -> B i 2%nat = v3 0 0 1 i).
  { intros i Hi. rewrite (Z1 i Hi). unfold vscal. i3 i Hi; cbn [cross v3]; [ring|ring|]. replace (cos th * cos th - sin th * - sin th) with 1 by lra. field. }
  assert (ZA : forall i, (i < 3)%nat -> A i 2%nat = v3 0 0 1 i) by (intros i Hi; rewrite (Z0 i Hi); unfold vscal; i3 i Hi; cbn [cross v3]; field).
  intros i j Hi Hj. unfold mmul, mtrans. rewrite sumn3. rewrite XA, XB, ZA, ZB, Y1, Y0 by assumption.
  i3 i Hi; i3 j Hj; cbn [rot_z m3 v3]; field.
Qed.
Lemma from_dcm_ext m m' : meq3 m m' -> from_dcm m = from_dcm m'.
Proof. intro E. unfold from_dcm. rewrite !E by lia. reflexivity. Qed.
Lemma sqrt3_sq : sqrt 3 * sqrt 3 = 3. Proof. apply sqrt_sqrt. lra. Qed.
Lemma sqrt3_gt1 : 1 < sqrt 3. Proof. rewrite <- sqrt_1 at 1. apply sqrt_lt_1; lra. Qed.
Lemma from_240 : veq 4 (from_dcm (rot_z (PI + PI / 3))) (q4 0 0 (sqrt 3 / 2) (- (1 / 2))).
Proof.
  pose proof sqrt3_sq as S3. pose proof sqrt3_gt1 as G3. unfold from_dcm. cbn [rot_z m3 v3].
  rewrite cos_plus, sin_plus, cos_PI, sin_PI, cos_PI3, sin_PI3.
  replace (1 + (-1 * (1 / 2) - 0 * (sqrt 3 / 2)) - (-1 * (1 / 2) - 0 * (sqrt 3 / 2)) - 1) with 0 by ring. replace (1 - (-1 * (1 / 2) - 0 * (sqrt 3 / 2)) + (-1 * (1 / 2) - 0 * (sqrt 3 / 2)) - 1) with 0 by ring.
  replace (1 - (-1 * (1 / 2) - 0 * (sqrt 3 / 2)) - (-1 * (1 / 2) - 0 * (sqrt 3 / 2)) + 1) with 3 by field. replace (1 + (-1 * (1 / 2) - 0 * (sqrt 3 / 2)) + (-1 * (1 / 2) - 0 * (sqrt 3 / 2)) + 1) with 1 by field.
  rewrite sqrt_0, sqrt_1.
  assert (SM : scan_max (q4 (0 / 2) (0 / 2) (sqrt 3 / 2) (1 / 2)) = 2%nat).
  { unfold scan_max. cbv [q4]. replace (0 / 2) with 0 by field. rewrite Rabs_R0, (Rabs_pos_eq (sqrt 3 / 2)), (Rabs_pos_eq (1 / 2)) by lra.
    rewrite !(rlt_false 0 0) by lra. rewrite (rlt_true 0 (sqrt 3 / 2)) by lra. rewrite (rlt_false (sqrt 3 / 2) (1 / 2)) by lra. reflexivity. }
  rewrite SM. intros i Hi. i4 i Hi; cbn [q4]; field; lra.
Qed.
Lemma from_300 : veq 4 (from_dcm (rot_z (PI + 2 * (PI / 3)))) (q4 0 0 (- (1 / 2)) (sqrt 3 / 2)).
Proof.
  pose proof sqrt3_sq as S3. pose proof sqrt3_gt1 as G3. unfold from_dcm. cbn [rot_z m3 v3].
  assert (C : cos (PI + 2 * (PI / 3)) = 1 / 2) by (rewrite cos_plus, cos_PI, sin_PI, cos_2a, cos_PI3, sin_PI3; lra).
  assert (SN : sin (PI + 2 * (PI / 3)) = - (sqrt 3 / 2)) by (rewrite sin_plus, cos_PI, sin_PI, sin_2a, cos_PI3, sin_PI3; lra).
  rewrite C, SN.
  replace (1 + 1 / 2 - 1 / 2 - 1) with 0 by ring. replace (1 - 1 / 2 + 1 / 2 - 1) with 0 by ring. replace (1 - 1 / 2 - 1 / 2 + 1) with 1 by field. replace (1 + 1 / 2 + 1 / 2 + 1) with 3 by field.
  rewrite sqrt_0, sqrt_1.
  assert (SM : scan_max (q4 (0 / 2) (0 / 2) (1 / 2) (sqrt 3 / 2)) = 3%nat).
  { unfold scan_max. cbv [q4]. replace (0 / 2) with 0 by field. rewrite Rabs_R0, (Rabs_pos_eq (sqrt 3 / 2)), (Rabs_pos_eq (1 / 2)) by lra.
    rewrite !(rlt_false 0 0) by lra. rewrite (rlt_true 0 (1 / 2)) by lra. rewrite (rlt_true (1 / 2) (sqrt 3 / 2)) by lra. reflexivity. }
  rewrite SM. intros i Hi. i4 i Hi; cbn [q4]; field; lra.
Qed.
Definition ex_ctl : controlled := ctl_new MSun MEarth (q4 0 0 0 1) (v3 1 0 0) (v3 0 1 0) (q4 0 0 0 1) (vconst 0).
Lemma ex_ctl_fields : cm_enabled ex_ctl = true /\ cm_main ex_ctl = MSun /\ cm_sub ex_ctl = MEarth /\ cm_main_b ex_ctl = v3 1 0 0 /\ cm_sub_b ex_ctl = v3 0 1 0 /\ cm_prev_time ex_ctl = -1.
Proof.
  assert (N1 : normalize 3 (v3 1 0 0) = v3 1 0 0) by (apply normalize_unit, norm_unit; unfold unit, dot; rewrite sumn3; cbn [v3]; ring).
  assert (N2 : normalize 3 (v3 0 1 0) = v3 0 1 0) by (apply normalize_unit, norm_unit; unfold unit, dot; rewrite sumn3; cbn [v3]; ring).
  unfold ex_ctl, ctl_new, ctl_initialize. cbn [cm_main cm_sub cm_main_b cm_sub_b mode_eqb]. rewrite N1, N2.
  replace (dot 3 (v3 1 0 0) (v3 0 1 0)) with 0 by (unfold dot; rewrite sumn3; cbn [v3]; ring). rewrite Rabs_R0. rewrite rlt_false; [repeat split; reflexivity|].
  unfold min_direction_angle. replace (30 * (PI / 180)) with (PI / 6) by field. rewrite cos_PI6. pose proof (sqrt_pos 3). lra.
Qed.
Lemma turned_step coef0 index0 inverse0 inertia th c t : cm_enabled c = true -> cm_main c = MSun -> cm_sub c = MEarth -> cm_main_b c = v3 1 0 0 -> cm_sub_b c = v3 0 1 0 ->
  ctl_propagate coef0 index0 inverse0 inertia (turned th) c t = ctl_velocity coef0 index0 inverse0 inertia c (from_dcm (rot_z th)) t.
Proof.
  intros EN M SB MB SBB. unfold ctl_propagate. rewrite EN, M, SB, MB, SBB. cbn [negb mode_eqb target_direction turned sun_from_sc earth_from_sc bind].
  destruct (turned_norm th) as (N1 & N2). rewrite N1, N2. rewrite req_false by lra. cbn [bind]. rewrite !normalize_unit by assumption.
  unfold pointing. rewrite (from_dcm_ext _ _ (turned_frame th)). reflexivity.
Qed.
Theorem C74_rate_sign_refuted : ~ (forall th1 th2 c1 c2, 0 < th2 - th1 < PI ->
  ctl_propagate (vconst 0) (fun _ => O) (fun _ _ => 0) mident (turned th1) ex_ctl 1 = Ok c1 ->
  ctl_propagate (vconst 0) (fun _ => O) (fun _ _ => 0) mident (turned th2) c1 2 = Ok c2 -> 0 <= cm_omega c2 2%nat).
Proof.
  intro C. destruct ex_ctl_fields as (F1 & F2 & F3 & F4 & F5 & F6).
  specialize (C (PI + PI / 3) (PI + 2 * (PI / 3))). pose proof PI_RGT_0 as PP.
  rewrite (turned_step _ _ _ _ _ _ _ F1 F2 F3 F4 F5) in C.
  unfold ctl_velocity at 1 in C. rewrite F6, F1, F2, F3, F4, F5 in C. rewrite rlt_false in C by lra. cbn [bind] in C.
  set (c1 := mkCtl MSun MEarth (v3 1 0 0) (v3 0 1 0) true _ _ _ 1 _ _) in C. 
  specialize (C c1). 
  assert (EX : exists c2, ctl_propagate (vconst 0) (fun _ => O) (fun _ _ => 0) mident (turned (PI + 2 * (PI / 3))) c1 2 = Ok c2 /\ cm_omega c2 2%nat = -1).
  { rewrite (turned_step _ _ _ _ _ c1) by reflexivity. unfold ctl_velocity. replace (cm_prev_time c1) with 1 by reflexivity. rewrite rlt_true by lra. rewrite req_false by lra.
    unfold inverse3. destruct (C24_throws_iff_singular 3 (vconst 0) (fun _ => O) mident (fun _ _ => 0)) as [(B & E & _)|(_ & E)]; [|elim E; exists mident; apply ident_inverse].
    rewrite E. cbn [bind]. eexists. split; [reflexivity|]. cbn [cm_omega v3].
    replace (cm_prev_q c1) with (from_dcm (rot_z (PI + PI / 3))) by reflexivity.
    pose proof from_240 as Q1. pose proof from_300 as Q2. pose proof sqrt3_sq as S3.
    set (a := from_dcm (rot_z (PI + PI / 3))) in *. set (b := from_dcm (rot_z (PI + 2 * (PI / 3)))) in *. clearbody a b.
    unfold qscal. cbv [qmul qconj q4 Nat.ltb Nat.leb]. rewrite (Q1 0%nat), (Q1 1%nat), (Q1 2%nat), (Q1 3%nat), (Q2 0%nat), (Q2 1%nat), (Q2 2%nat), (Q2 3%nat) by lia. cbn [q4].
    replace (2 - 1) with 1 by ring. field_simplify. lra. }
  destruct EX as (c2 & E & W). specialize (C c2 ltac:(lra) eq_refl E). lra.
Qed.
Print Assumptions C74_rate_sign_refuted.

(** A case that meets the hypotheses of C74_pointing. *)
Example ex_pointing : exists c', ctl_propagate (vconst 0) (fun _ => O) (fun _ _ => 0) mident (turned 1) ex_ctl 1 = Ok c' /\ unit 4 (cm_q c') /\
  veq 3 (seen_from_body (cm_q c') (along (v3 (cos 1) (sin 1) 0))) (along (v3 1 0 0)).
Proof.
  destruct ex_ctl_fields as (F1 & F2 & F3 & F4 & F5 & F6). destruct (turned_norm 1) as (N1 & N2).
  assert (EX : exists c', ctl_propagate (vconst 0) (fun _ => O) (fun _ _ => 0) mident (turned 1) ex_ctl 1 = Ok c').
  { rewrite (turned_step _ _ _ _ _ _ _ F1 F2 F3 F4 F5). unfold ctl_velocity. rewrite F6, rlt_false by lra. cbn [bind]. eexists. reflexivity. }
  destruct EX as (c' & E). exists c'. split; [exact E|].
  destruct (C74_pointing (vconst 0) (fun _ => O) (fun _ _ => 0) MSun MEarth (q4 0 0 0 1) (v3 1 0 0) (v3 0 1 0) (q4 0 0 0 1) (vconst 0) [] ex_ctl mident (turned 1) 1 c' (v3 (cos 1) (sin 1) 0) (v3 (- sin 1) (cos 1) 0)) as (U & P & _).
  - exact F1.
  - discriminate.
  - enough (norm 3 (v3 1 0 0) = 1) by lra. apply norm_unit. unfold unit, dot. rewrite sumn3. cbn [v3]. ring.
  - enough (norm 3 (v3 0 1 0) = 1) by lra. apply norm_unit. unfold unit, dot. rewrite sumn3. cbn [v3]. ring.
  - reflexivity.
  - exact E.
  - left. split; [cbn [turned sun_from_sc]; lra|reflexivity].
  - left. split; [cbn [turned earth_from_sc]; lra|reflexivity].
  - lra.
  - lra.
  - unfold not_parallel. enough (norm 3 (cross (v3 (cos 1) (sin 1) 0) (v3 (- sin 1) (cos 1) 0)) = 1) by lra. apply norm_unit. unfold unit, dot. rewrite sumn3. cbn [cross v3].
    pose proof (sin2_cos2 1) as T. unfold Rsqr in T. replace (cos 1 * cos 1 - sin 1 * - sin 1) with 1 by lra. ring.
  - split; [exact U|exact P].
Qed.
