(** Cantilever equations and pointing control. *)
From Coq Require Import Reals Lra Lia List Bool Arith FunctionalExtensionality.
From Verif Require Import Base RBase VecModel VecProofs LuModel LuSpec LuProps Trig QuatModel QuatSpec QuatProofs OrbitProofs HillProofs AttitudeModel AttitudeSpec AttitudeProofs AttitudeRunProofs.
From Verif Require RkModel.
Import ListNotations.
Open Scope R_scope.

(** ** Cantilever *)
Lemma mvec_add m u v : veq 3 (mvec 3 m (vadd u v)) (vadd (mvec 3 m u) (mvec 3 m v)).
Proof. intros i Hi. unfold mvec, vadd. rewrite !sumn3. ring. Qed.
Lemma mvec_madd a b u : veq 3 (mvec 3 (madd a b) u) (vadd (mvec 3 a u) (mvec 3 b u)).
Proof. intros i Hi. unfold mvec, madd, vadd. rewrite !sumn3. ring. Qed.
Lemma mvec_mmul a b u : veq 3 (mvec 3 (mmul 3 a b) u) (mvec 3 a (mvec 3 b u)).
Proof. intros i Hi. unfold mvec, mmul. rewrite !sumn3. ring. Qed.
Lemma mvec_congr m u v : veq 3 u v -> veq 3 (mvec 3 m u) (mvec 3 m v).
Proof. intro E. apply mvec_ext3; [intros ? ? ? ?; reflexivity|exact E]. Qed.
Lemma v13_0 w wc q e i : (i < 3)%nat -> from13 0 (v13 w wc q e) i = w i.
Proof. intro H. unfold from13, v13. rewrite Nat.add_0_r. destruct (Nat.ltb_spec i 3); [reflexivity|lia]. Qed.
Lemma v13_3 w wc q e i : (i < 3)%nat -> from13 3 (v13 w wc q e) i = wc i.
Proof. intro H. unfold from13, v13. destruct (Nat.ltb_spec (i + 3)%nat 3%nat); [lia|]. destruct (Nat.ltb_spec (i + 3)%nat 6%nat); [f_equal; lia|lia]. Qed.
Lemma v13_6 w wc q e i : (i < 4)%nat -> from13 6 (v13 w wc q e) i = q i.
Proof. intro H. unfold from13, v13. destruct (Nat.ltb_spec (i + 6)%nat 3%nat); [lia|]. destruct (Nat.ltb_spec (i + 6)%nat 6%nat); [lia|]. destruct (Nat.ltb_spec (i + 6)%nat 10%nat); [f_equal; lia|lia]. Qed.
Lemma v13_10 w wc q e i : from13 10 (v13 w wc q e) i = e i.
Proof. unfold from13, v13. destruct (Nat.ltb_spec (i + 10)%nat 3%nat); [lia|]. destruct (Nat.ltb_spec (i + 10)%nat 6%nat); [lia|]. destruct (Nat.ltb_spec (i + 10)%nat 10%nat); [lia|]. f_equal. lia. Qed.

Lemma cantilever_equations o inertia s : is_inverse 3 inertia (c_inv o) -> is_inverse 3 (madd inertia (c_inertia o)) (c_inv_total o) ->
  meq3 (c_inv_equiv o) (mmul 3 (c_inv o) (madd inertia (c_inertia o))) ->
  let d := cant_deriv o s in let acc := from13 0 d in let acc_c := from13 3 d in
  let w := from13 0 s in let wc := from13 3 s in let q := from13 6 s in let e := from13 10 s in
  (forall i, (i < 3)%nat ->
    mvec 3 (madd inertia (c_inertia o)) acc i + mvec 3 (c_inertia o) acc_c i = net_torque (c_prev o) (c_torque o) (c_h o) (c_dtorque o) w i /\
    acc i + acc_c i = - restoring (c_att o) (c_spring o) wc e i) /\
  veq 4 (from13 6 d) (quaternion_rate w q) /\ veq 3 (from13 10 d) wc.
Proof.
  intros I1 I2 EQ d acc acc_c w wc q e.
  set (net := net_torque (c_prev o) (c_torque o) (c_h o) (c_dtorque o) w). set (r := restoring (c_att o) (c_spring o) wc e).
  set (tot := madd inertia (c_inertia o)) in *.
  assert (AC : veq 3 acc_c (vsub (vneg (mvec 3 (c_inv o) (mvec 3 tot r))) (mvec 3 (c_inv o) net))).
  { intros i Hi. unfold acc_c, d, cant_deriv. rewrite v13_3 by exact Hi. fold w wc e net. unfold vsub, vneg. f_equal. f_equal.
    rewrite <- mvec_mmul by exact Hi. apply mvec_ext3; [exact EQ| |exact Hi]. intros j Hj. reflexivity. }
  assert (A : veq 3 acc (mvec 3 (c_inv_total o) (vsub net (mvec 3 (c_inertia o) acc_c)))).
  { intros i Hi. unfold acc, d, cant_deriv. rewrite v13_0 by exact Hi. fold w wc e net. apply mvec_congr; [|exact Hi]. intros j Hj.
    set (a3 := vsub (vneg _) _) at 1. assert (EA : veq 3 a3 acc_c) by (intros k Hk; unfold acc_c, d, cant_deriv; rewrite v13_3 by exact Hk; reflexivity).
    clearbody a3. unfold vsub. f_equal. now apply mvec_congr. }
  assert (E1 : veq 3 (vadd (mvec 3 tot acc) (mvec 3 (c_inertia o) acc_c)) net).
  { intros i Hi. unfold vadd. rewrite (mvec_congr tot acc _ A i Hi). rewrite (inverse_cancel tot (c_inv_total o) _ I2 i Hi). unfold vsub. ring. }
  (* I acc_c = - tot r - net *)
  assert (E2 : veq 3 (mvec 3 inertia acc_c) (vsub (vneg (mvec 3 tot r)) net)).
  { intros i Hi. rewrite (mvec_congr inertia acc_c _ AC i Hi).
    rewrite (mvec_congr inertia _ (vadd (mvec 3 (c_inv o) (vneg (mvec 3 tot r))) (mvec 3 (c_inv o) (vneg net)))).
    - rewrite mvec_add by exact Hi. unfold vadd. rewrite !(inverse_cancel inertia (c_inv o) _ I1 i Hi). unfold vsub, vneg. ring.
    - intros j Hj. unfold vadd, vsub, vneg, mvec. rewrite !sumn3. ring.
    - exact Hi. }
  assert (E3 : veq 3 (mvec 3 tot (vadd acc acc_c)) (mvec 3 tot (vneg r))).
  { intros i Hi. rewrite mvec_add by exact Hi. unfold vadd. pose proof (E1 i Hi) as F1. pose proof (E2 i Hi) as F2. unfold vadd, vsub, vneg in F1, F2.
    assert (F3 : mvec 3 tot acc_c i = mvec 3 inertia acc_c i + mvec 3 (c_inertia o) acc_c i) by (unfold tot; now rewrite mvec_madd).
    assert (F4 : mvec 3 tot (vneg r) i = - mvec 3 tot r i) by (unfold mvec, vneg; rewrite !sumn3; ring). lra. }
  split; [|split].
  - intros i Hi. split; [exact (E1 i Hi)|].
    transitivity (mvec 3 (c_inv_total o) (mvec 3 tot (vadd acc acc_c)) i); [symmetry; exact (inverse_cancel2 tot (c_inv_total o) (vadd acc acc_c) I2 i Hi)|].
    rewrite (mvec_congr (c_inv_total o) _ _ E3 i Hi). rewrite (inverse_cancel2 tot (c_inv_total o) (vneg r) I2 i Hi). unfold vneg. ring.
  - intros i Hi. unfold d, cant_deriv. rewrite v13_6 by exact Hi. reflexivity.
  - intros i Hi. unfold d, cant_deriv. rewrite v13_10. reflexivity.
Qed.

Definition int_step (o : cant_ode) := RkModel.integrate RkModel.rk4 (cant_f o).
Fixpoint int_steps (o : cant_ode) (n : nat) (i : RkModel.integrator) : RkModel.integrator :=
  match n with O => i | S m => int_steps o m (int_step o i) end.
Lemma int_steps_snoc o n : forall i, int_steps o (S n) i = int_step o (int_steps o n i).
Proof. induction n as [|n IH]; intro i; [reflexivity|]. exact (IH (int_step o i)). Qed.
Lemma cant_loop_spec o step tend : forall fuel i t i1 t1, cant_loop o fuel step tend i t = Ok (i1, t1) ->
  exists k, t1 = t + INR k * step /\ i1 = int_steps o k i /\ tend - t1 - step <= 1 / 10 ^ 6 /\ (k = 0%nat \/ 1 / 10 ^ 6 < tend - t1).
Proof.
  induction fuel as [|n IH]; intros i t i1 t1 H; [discriminate|]. cbn [cant_loop] in H.
  destruct (rlt_spec (1 / 10 ^ 6) (tend - t - step)) as [L|L].
  - destruct (IH _ _ _ _ H) as (k & T & O & B1 & B2). exists (S k).
    split; [rewrite T, S_INR; lra|]. split; [exact O|]. split; [exact B1|]. right. destruct B2 as [->|B2]; [|exact B2]. cbn [INR] in T. lra.
  - injection H as <- <-. exists 0%nat. cbn [INR int_steps]. split; [lra|]. split; [reflexivity|]. split; [lra|]. now left.
Qed.
(** the derivative does not read the time: the state after a step does not depend on it *)
Lemma int_step_state o i j : RkModel.h i = RkModel.h j -> RkModel.x_cur i = RkModel.x_cur j -> RkModel.x_cur (int_step o i) = RkModel.x_cur (int_step o j).
Proof. intros H X. unfold int_step, RkModel.integrate. cbn [RkModel.x_cur]. rewrite H, X. reflexivity. Qed.
Lemma int_steps_state o n : forall i j, RkModel.h i = RkModel.h j -> RkModel.x_cur i = RkModel.x_cur j -> RkModel.x_cur (int_steps o n i) = RkModel.x_cur (int_steps o n j).
Proof. induction n as [|n IH]; intros i j H X; [exact X|]. cbn [int_steps]. apply IH; [exact H|now apply int_step_state]. Qed.
Lemma int_steps_h o n : forall i, RkModel.h (int_steps o n i) = RkModel.h i.
Proof. induction n as [|n IH]; intro i; [reflexivity|]. cbn [int_steps]. now rewrite IH. Qed.

(** ** Pointing *)
Lemma dot_norm n v : dot n v v = norm n v * norm n v.
Proof. rewrite norm_sq. reflexivity. Qed.
Lemma dot_cross_cross m u v : dot 3 (cross m u) (cross m v) = dot 3 m m * dot 3 u v - dot 3 m u * dot 3 m v.
Proof. unfold dot. rewrite !sumn3. cbn [cross]. ring. Qed.
Section frame.
Context (m s : vec).
Hypothesis M : unit 3 m.
Hypothesis N : 0 < norm 3 (cross m s).
Let n := norm 3 (cross m s).
Lemma frame_ey_norm : norm 3 (cross (cross m s) m) = n.
Proof. rewrite cross_cross_norm. apply norm_unit in M. rewrite M. unfold n. ring. Qed.
Lemma frame_ey i : (i < 3)%nat -> target_dcm m s i 1%nat = (s i - dot 3 m s * m i) / n.
Proof.
  intro Hi. cbn [target_dcm]. rewrite normalize_scal by (rewrite frame_ey_norm; exact N). rewrite frame_ey_norm. f_equal.
  pose proof (unit3 m M) as U. unfold dot. rewrite sumn3. i3 i Hi; cbn [cross].
  - transitivity ((m 0%nat * m 0%nat + m 1%nat * m 1%nat + m 2%nat * m 2%nat) * s 0%nat - (m 0%nat * s 0%nat + m 1%nat * s 1%nat + m 2%nat * s 2%nat) * m 0%nat); [ring|rewrite U; ring].
  - transitivity ((m 0%nat * m 0%nat + m 1%nat * m 1%nat + m 2%nat * m 2%nat) * s 1%nat - (m 0%nat * s 0%nat + m 1%nat * s 1%nat + m 2%nat * s 2%nat) * m 1%nat); [ring|rewrite U; ring].
  - transitivity ((m 0%nat * m 0%nat + m 1%nat * m 1%nat + m 2%nat * m 2%nat) * s 2%nat - (m 0%nat * s 0%nat + m 1%nat * s 1%nat + m 2%nat * s 2%nat) * m 2%nat); [ring|rewrite U; ring].
Qed.
Lemma frame_cross_ey : veq 3 (cross m (fun i => target_dcm m s i 1%nat)) (vscal (1 / n) (cross m s)).
Proof. intros i Hi. unfold vscal. i3 i Hi; cbn [cross]; rewrite !frame_ey by lia; field; unfold n; lra. Qed.
Lemma frame_ez : veq 3 (fun i => target_dcm m s i 2%nat) (vscal (1 / n) (cross m s)).
Proof.
  assert (U : unit 3 (vscal (1 / n) (cross m s))) by (unfold n; now apply normalized_unit).
  apply norm_unit in U.
  intros i Hi. cbn [target_dcm]. change (normalize 3 (cross m (fun k => target_dcm m s k 1%nat)) i = vscal (1 / n) (cross m s) i).
  rewrite normalize_scal; rewrite (norm_ext 3 _ _ frame_cross_ey), U; [|lra]. rewrite frame_cross_ey by exact Hi. field.
Qed.
Lemma frame_rotation : rotation (target_dcm m s).
Proof.
  change (rotation (mtrans (mtrans (target_dcm m s)))). apply rotation_trans.
  apply (triple_rotation _ m (vscal (1 / n) (cross m s))).
  - exact M.
  - now apply normalized_unit.
  - unfold dot, vscal. rewrite sumn3. cbn [cross]. field. unfold n. lra.
  - intros i Hi. reflexivity.
  - intros i Hi. unfold mtrans. rewrite frame_ey by exact Hi. pose proof (unit3 m M) as U. unfold dot. rewrite sumn3.
    i3 i Hi; unfold vscal; cbn [cross]; apply (Rmult_eq_reg_l n); try (unfold n; lra); field_simplify; try (unfold n; lra).
    + transitivity ((m 0%nat * m 0%nat + m 1%nat * m 1%nat + m 2%nat * m 2%nat) * s 0%nat - (m 0%nat * s 0%nat + m 1%nat * s 1%nat + m 2%nat * s 2%nat) * m 0%nat); [rewrite U; ring|ring].
    + transitivity ((m 0%nat * m 0%nat + m 1%nat * m 1%nat + m 2%nat * m 2%nat) * s 1%nat - (m 0%nat * s 0%nat + m 1%nat * s 1%nat + m 2%nat * s 2%nat) * m 1%nat); [rewrite U; ring|ring].
    + transitivity ((m 0%nat * m 0%nat + m 1%nat * m 1%nat + m 2%nat * m 2%nat) * s 2%nat - (m 0%nat * s 0%nat + m 1%nat * s 1%nat + m 2%nat * s 2%nat) * m 2%nat); [rewrite U; ring|ring].
  - intros i Hi. exact (frame_ez i Hi).
Qed.
(** the two directions in their own frame *)
Lemma frame_main : veq 3 (mvec 3 (mtrans (target_dcm m s)) m) (v3 1 0 0).
Proof.
  intros i Hi. unfold mvec, mtrans. pose proof (unit3 m M) as U. assert (NN : n <> 0) by (unfold n; lra). i3 i Hi; cbn [v3].
  - rewrite sumn3. cbn [target_dcm]. lra.
  - rewrite sumn3. rewrite !frame_ey by lia. unfold dot. rewrite sumn3.
    transitivity ((m 0%nat * s 0%nat + m 1%nat * s 1%nat + m 2%nat * s 2%nat) * (1 - (m 0%nat * m 0%nat + m 1%nat * m 1%nat + m 2%nat * m 2%nat)) / n); [field; exact NN|rewrite U; field; exact NN].
  - rewrite (sumn_ext 3 _ (fun j => vscal (1 / n) (cross m s) j * m j)) by (intros j Hj; f_equal; exact (frame_ez j Hj)). rewrite sumn3. unfold vscal. cbn [cross]. field. exact NN.
Qed.
Lemma frame_sub : veq 3 (mvec 3 (mtrans (target_dcm m s)) s) (v3 (dot 3 m s) n 0).
Proof.
  intros i Hi. unfold mvec, mtrans. pose proof (unit3 m M) as U. assert (NN : n <> 0) by (unfold n; lra). i3 i Hi; cbn [v3].
  - unfold dot. rewrite !sumn3. cbn [target_dcm]. ring.
  - rewrite sumn3. rewrite !frame_ey by lia. assert (LG : n * n = dot 3 s s - dot 3 m s * dot 3 m s).
    { unfold n. rewrite norm_sq. change (sq 3 (cross m s)) with (dot 3 (cross m s) (cross m s)). rewrite lagrange. unfold unit in M. rewrite M. ring. }
    apply (Rmult_eq_reg_l n); [|exact NN]. rewrite LG. unfold dot. rewrite !sumn3. field. exact NN.
  - rewrite (sumn_ext 3 _ (fun j => vscal (1 / n) (cross m s) j * s j)) by (intros j Hj; f_equal; exact (frame_ez j Hj)). rewrite sumn3. unfold vscal. cbn [cross]. field. exact NN.
Qed.
End frame.

Section pointing.
Context (mb sb mi si : vec).
Hypothesis MB : unit 3 mb.
Hypothesis NB : 0 < norm 3 (cross mb sb).
Hypothesis MI : unit 3 mi.
Hypothesis NI : 0 < norm 3 (cross mi si).
Let q := pointing mb sb mi si.
Lemma pointing_dcm : unit 4 q /\ meq3 (to_dcm q) (mmul 3 (target_dcm mb sb) (mtrans (target_dcm mi si))).
Proof. apply from_dcm_spec. apply rotation_mul; [now apply frame_rotation|apply rotation_trans; now apply frame_rotation]. Qed.
Lemma pointing_seen v : veq 3 (seen_from_body q v) (mvec 3 (target_dcm mb sb) (mvec 3 (mtrans (target_dcm mi si)) v)).
Proof. intros i Hi. rewrite <- mvec_mmul by exact Hi. apply mvec_ext3; [apply pointing_dcm|apply veq_refl|exact Hi]. Qed.
Lemma pointing_main : veq 3 (seen_from_body q mi) mb.
Proof.
  intros i Hi. rewrite pointing_seen by exact Hi. rewrite (mvec_congr _ _ _ (frame_main mi si MI NI) i Hi). unfold mvec. rewrite sumn3. cbn [v3 target_dcm]. ring.
Qed.
Lemma pointing_sub : veq 3 (seen_from_body q si)
  (vadd (vscal (dot 3 mi si - norm 3 (cross mi si) / norm 3 (cross mb sb) * dot 3 mb sb) mb) (vscal (norm 3 (cross mi si) / norm 3 (cross mb sb)) sb)).
Proof.
  intros i Hi. rewrite pointing_seen by exact Hi. rewrite (mvec_congr _ _ _ (frame_sub mi si MI NI) i Hi). unfold mvec. rewrite sumn3. rewrite (frame_ey mb sb MB NB i Hi). cbn [v3]. cbn [target_dcm]. unfold vadd, vscal. field. lra.
Qed.
Lemma dot_ext n u v u' v' : veq n u u' -> veq n v v' -> dot n u v = dot n u' v'.
Proof. intros U V. unfold dot. apply sumn_ext. intros i Hi. now rewrite U, V. Qed.
Lemma pointing_sub_dot : dot 3 (seen_from_body q si) sb = dot 3 mi si * dot 3 mb sb + norm 3 (cross mi si) * norm 3 (cross mb sb).
Proof.
  rewrite (dot_ext 3 _ sb _ sb pointing_sub (veq_refl 3 sb)).
  assert (LG : norm 3 (cross mb sb) * norm 3 (cross mb sb) = dot 3 sb sb - dot 3 mb sb * dot 3 mb sb).
  { rewrite norm_sq. change (sq 3 (cross mb sb)) with (dot 3 (cross mb sb) (cross mb sb)). rewrite lagrange. unfold unit in MB. rewrite MB. ring. }
  set (a := norm 3 (cross mi si)) in *. set (b := norm 3 (cross mb sb)) in *.
  transitivity (dot 3 mi si * dot 3 mb sb + a / b * (dot 3 sb sb - dot 3 mb sb * dot 3 mb sb)).
  - unfold dot, vadd, vscal. rewrite !sumn3. field. lra.
  - rewrite <- LG. field. lra.
Qed.
Lemma pointing_best (rot : mat) : rotation rot -> veq 3 (mvec 3 rot mi) mb -> dot 3 (mvec 3 rot si) sb <= dot 3 (seen_from_body q si) sb.
Proof.
  intros RO E. rewrite pointing_sub_dot. set (u := mvec 3 rot si).
  assert (D1 : dot 3 mb u = dot 3 mi si).
  { rewrite (dot_ext 3 mb u (mvec 3 rot mi) u (veq_sym 3 _ _ E) (veq_refl 3 u)). now apply rotation_dot. }
  assert (D2 : norm 3 (cross mb u) = norm 3 (cross mi si)).
  { rewrite (norm_ext 3 (cross mb u) (cross (mvec 3 rot mi) u)) by (apply cross_ext; [now apply veq_sym|apply veq_refl]).
    unfold u. rewrite (norm_ext 3 _ _ (rotation_cross rot mi si RO)). now apply rotation_norm. }
  assert (D3 : dot 3 u sb = dot 3 mb u * dot 3 mb sb + dot 3 (cross mb u) (cross mb sb)).
  { rewrite dot_cross_cross. unfold unit in MB. rewrite MB. ring. }
  rewrite D3, D1. pose proof (dot_le_norms 3 (cross mb u) (cross mb sb)) as L. apply Rabs_le_both in L. rewrite D2 in L. lra.
Qed.
End pointing.

(** what the constructor accepts *)
Lemma cos30 : cos min_direction_angle < 1.
Proof.
  unfold min_direction_angle. replace (30 * (PI / 180)) with (PI / 6) by field. rewrite cos_PI6.
  assert (sqrt 3 < 2); [|lra]. replace 2 with (sqrt 4) by (replace 4 with (2 * 2) by ring; apply sqrt_square; lra). apply sqrt_lt_1; lra.
Qed.
Lemma ctl_new_enabled main sub q mb sb q0 w0 : let c := ctl_new main sub q mb sb q0 w0 in
  cm_enabled c = true -> main <> MInertial -> 0 < norm 3 mb -> 0 < norm 3 sb ->
  cm_main c = main /\ cm_sub c = sub /\ main <> sub /\ main <> MNone /\ sub <> MNone /\ cm_prev_time c = -1 /\
  veq 3 (cm_main_b c) (vscal (1 / norm 3 mb) mb) /\ veq 3 (cm_sub_b c) (vscal (1 / norm 3 sb) sb) /\
  unit 3 (cm_main_b c) /\ unit 3 (cm_sub_b c) /\ Rabs (dot 3 (cm_main_b c) (cm_sub_b c)) <= cos min_direction_angle /\ 0 < norm 3 (cross (cm_main_b c) (cm_sub_b c)).
Proof.
  intro c. unfold c, ctl_new, ctl_initialize. cbn [cm_main cm_sub cm_main_b cm_sub_b cm_enabled cm_q cm_omega cm_torque cm_prev_time cm_prev_q cm_prev_omega andb].
  intros EN NM PB PS.
  destruct (mode_eqb main MInertial) eqn:E1; [destruct main; try discriminate; contradiction|].
  destruct (mode_eqb main sub) eqn:E2; [cbn [cm_enabled] in EN; discriminate|].
  destruct (rlt_spec (cos min_direction_angle) (Rabs (dot 3 (normalize 3 mb) (normalize 3 sb)))) as [L|L]; cbn [cm_enabled] in EN; [discriminate|].
  apply andb_prop in EN. destruct EN as (EN1 & EN2). cbn [cm_main cm_sub cm_main_b cm_sub_b cm_prev_time].
  assert (UB0 : unit 3 (normalize 3 mb)) by (apply norm_unit, normalize_norm; lra). assert (US : unit 3 (normalize 3 sb)) by (apply norm_unit, normalize_norm; lra).
  split; [reflexivity|]. split; [reflexivity|]. split; [intros ->; destruct sub; discriminate|]. split; [intros ->; discriminate|]. split; [intros ->; discriminate|]. split; [reflexivity|].
  split; [intros i Hi; rewrite normalize_scal by exact PB; unfold vscal; field; lra|]. split; [intros i Hi; rewrite normalize_scal by exact PS; unfold vscal; field; lra|].
  split; [exact UB0|]. split; [exact US|]. split; [lra|].
  assert (P : 0 < dot 3 (cross (normalize 3 mb) (normalize 3 sb)) (cross (normalize 3 mb) (normalize 3 sb))).
  { rewrite lagrange. unfold unit in UB0, US. rewrite UB0, US. pose proof cos30 as C. set (d := dot 3 (normalize 3 mb) (normalize 3 sb)) in *.
    assert (D : Rabs d < 1) by lra. apply Rabs_def2 in D. clearbody d. clear - D. nra. }
  unfold norm. apply sqrt_lt_R0. exact P.
Qed.
