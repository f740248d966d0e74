From Coq Require Import Reals Lra Lia List Bool Arith Nsatz.
From Verif Require Import Base RBase VecModel VecProofs LuModel LuSpec LuProps Trig QuatModel QuatSpec QuatProofs OrbitProofs HillProofs AttitudeModel AttitudeSpec.
Import ListNotations.
Open Scope R_scope.

(** ** Derivatives *)
Lemma dpl_plus f g x a b : derivable_pt_lim f x a -> derivable_pt_lim g x b -> derivable_pt_lim (fun s => f s + g s) x (a + b).
Proof. apply derivable_pt_lim_plus. Qed.
Lemma dpl_minus f g x a b : derivable_pt_lim f x a -> derivable_pt_lim g x b -> derivable_pt_lim (fun s => f s - g s) x (a - b).
Proof. apply derivable_pt_lim_minus. Qed.
Lemma dpl_mult f g x a b : derivable_pt_lim f x a -> derivable_pt_lim g x b -> derivable_pt_lim (fun s => f s * g s) x (a * g x + f x * b).
Proof. apply derivable_pt_lim_mult. Qed.
Lemma dpl_const c x : derivable_pt_lim (fun _ => c) x 0.
Proof. apply derivable_pt_lim_const. Qed.
Lemma dpl_eq f x a b : derivable_pt_lim f x a -> a = b -> derivable_pt_lim f x b.
Proof. now intros ? <-. Qed.
Ltac dpl := repeat first [eassumption | apply dpl_const | apply dpl_minus | apply dpl_plus | apply dpl_mult].
Lemma dpl_constant f : (forall t, derivable_pt_lim f t 0) -> forall s t, f s = f t.
Proof.
  intros H s t.
  assert (P : forall a b, a < b -> f a = f b).
  { intros a b L. pose (pr := fun c (_ : a <= c <= b) => exist (fun l => derivable_pt_abs f c l) 0 (H c)).
    destruct (MVT_cor2 f (fun _ => 0) a b L) as (c & E & _); [intros c _; apply H|]. lra. }
  destruct (Rtotal_order s t) as [L|[->|L]]; [now apply P|reflexivity|symmetry; now apply P].
Qed.
Lemma dpl_sumn n (f : R -> nat -> R) t d : (forall i, (i < n)%nat -> derivable_pt_lim (fun s => f s i) t (d i)) ->
  derivable_pt_lim (fun s => sumn n (f s)) t (sumn n d).
Proof.
  induction n as [|n IH]; intro H; cbn [sumn]; [apply dpl_const|]. apply dpl_plus; [|apply H; lia]. apply IH. intros i Hi. apply H. lia.
Qed.
Lemma dpl_mvec_const n (A : mat) (b : R -> vec) b' t i : (forall j, (j < n)%nat -> derivable_pt_lim (fun s => b s j) t (b' j)) ->
  derivable_pt_lim (fun s => mvec n A (b s) i) t (mvec n A b' i).
Proof.
  intro H. apply (dpl_sumn n (fun s j => A i j * b s j) t (fun j => A i j * b' j)). intros j Hj.
  eapply dpl_eq; [apply dpl_mult; [apply dpl_const|apply H; exact Hj]|cbv beta; ring].
Qed.

(** ** Kinematics *)
Lemma rate_product w q : veq 4 (quaternion_rate w q) (qscal (1 / 2) (qmulv q w)).
Proof. intros i Hi. i4 i Hi; cbv [quaternion_rate mvec mscal omega_matrix q4 sumn qscal qmulv]; field. Qed.
Lemma rate_orthogonal w q : dot 4 q (quaternion_rate w q) = 0.
Proof. cbv [dot quaternion_rate mvec mscal omega_matrix q4 sumn]. field. Qed.

Section kinematics.
Context (w q : R -> vec).
Hypothesis Q : forall t i, (i < 4)%nat -> derivable_pt_lim (fun s => q s i) t (quaternion_rate (w t) (q t) i).
Lemma dcm_rate t i j : (i < 3)%nat -> (j < 3)%nat ->
  derivable_pt_lim (fun s => to_dcm (q s) i j) t (- cross (w t) (fun k => to_dcm (q t) k j) i).
Proof.
  intros Hi Hj. pose proof (Q t 0%nat ltac:(lia)) as Q0. pose proof (Q t 1%nat ltac:(lia)) as Q1.
  pose proof (Q t 2%nat ltac:(lia)) as Q2. pose proof (Q t 3%nat ltac:(lia)) as Q3. clear Q.
  revert Q0 Q1 Q2 Q3. cbv [quaternion_rate mvec mscal omega_matrix q4 sumn]. intros.
  i3 i Hi; i3 j Hj; cbv [to_dcm m3 v3]; (eapply dpl_eq; [dpl|cbv [cross to_dcm m3 v3]; field]).
Qed.
Lemma kinematics_turn : turns_with w q.
Proof.
  intros v t i Hi. unfold seen_from_body, mvec.
  eapply dpl_eq; [apply (dpl_sumn 3 (fun s j => to_dcm (q s) i j * v j) t (fun j => - cross (w t) (fun k => to_dcm (q t) k j) i * v j))|].
  - intros j Hj. eapply dpl_eq; [apply dpl_mult; [now apply dcm_rate|apply dpl_const]|cbv beta; ring].
  - rewrite !sumn3. i3 i Hi; cbn [cross]; rewrite !sumn3; ring.
Qed.
Lemma kinematics_norm s t : dot 4 (q s) (q s) = dot 4 (q t) (q t).
Proof.
  revert s t. apply dpl_constant. intro t. eapply dpl_eq; [apply (dpl_sumn 4 (fun s i => q s i * q s i) t (fun i => 2 * (q t i * quaternion_rate (w t) (q t) i)))|].
  - intros i Hi. eapply dpl_eq; [apply dpl_mult; now apply Q|cbv beta; ring].
  - rewrite sumn_scal. fold (dot 4 (q t) (quaternion_rate (w t) (q t))). rewrite rate_orthogonal. ring.
Qed.
(** transport: the inertial components of a body vector that changes at b' in the body frame *)
Lemma transport (b : R -> vec) b' t i : (forall j, (j < 3)%nat -> derivable_pt_lim (fun s => b s j) t (b' j)) -> (i < 3)%nat ->
  derivable_pt_lim (fun s => to_inertial (q s) (b s) i) t (to_inertial (q t) (vadd b' (cross (w t) (b t))) i).
Proof.
  intros B Hi. unfold to_inertial, mvec, mtrans.
  eapply dpl_eq; [apply (dpl_sumn 3 (fun s j => to_dcm (q s) j i * b s j) t (fun j => - cross (w t) (fun k => to_dcm (q t) k i) j * b t j + to_dcm (q t) j i * b' j))|].
  - intros j Hj. apply dpl_mult; [now apply dcm_rate|now apply B].
  - rewrite !sumn3. unfold vadd. cbn [cross]. ring.
Qed.
End kinematics.

(** ** Dynamics *)
Lemma inverse_cancel A B v : is_inverse 3 A B -> veq 3 (mvec 3 A (mvec 3 B v)) v.
Proof.
  intros H i Hi. unfold mvec.
  rewrite (sumn_ext 3 _ (fun j => sumn 3 (fun k => A i j * B j k * v k))) by (intros j Hj; rewrite <- sumn_scal; apply sumn_ext; intros; ring).
  rewrite sumn_swap. rewrite (sumn_ext 3 _ (fun k => (if Nat.eqb i k then 1 else 0) * v k)).
  2:{ intros k Hk. rewrite (sumn_scal_r 3 (v k) (fun j => A i j * B j k)). destruct (H i k Hi Hk) as (E & _). now rewrite E. }
  rewrite (sumn_single 3 i); [|exact Hi|]; [rewrite Nat.eqb_refl; ring|]. intros k Hk N. destruct (Nat.eqb_spec i k); [congruence|ring].
Qed.
Lemma inverse_cancel2 A B v : is_inverse 3 A B -> veq 3 (mvec 3 B (mvec 3 A v)) v.
Proof. intro H. apply inverse_cancel. intros i j Hi Hj. destruct (H i j Hi Hj) as (E1 & E2). split; assumption. Qed.

Lemma v7_omega w q i : (i < 3)%nat -> v7 w q i = w i.
Proof. intro H. unfold v7. destruct (Nat.ltb_spec i 3); [reflexivity|lia]. Qed.
Lemma v7_quat w q i : v7 w q (i + 3)%nat = q i.
Proof. unfold v7. destruct (Nat.ltb_spec (i + 3)%nat 3%nat); [lia|]. f_equal. lia. Qed.
Lemma vadd_comm_cross w a b : veq 3 (cross w (vadd a b)) (vadd (cross w a) (cross w b)).
Proof. intros i Hi. i3 i Hi; cbv [cross vadd]; ring. Qed.
Lemma cross_ext u v u' v' : veq 3 u u' -> veq 3 v v' -> veq 3 (cross u v) (cross u' v').
Proof. intros U V i Hi. i3 i Hi; cbn [cross]; rewrite !U, !V by lia; reflexivity. Qed.

Lemma euler_equation inertia prev inv torque h dtorque x : is_inverse 3 inertia inv ->
  veq 3 (mvec 3 inertia (att_deriv prev inv torque h dtorque x)) (net_torque prev torque h dtorque x).
Proof.
  intros I i Hi. rewrite <- (inverse_cancel inertia inv (net_torque prev torque h dtorque x) I i Hi).
  apply mvec_ext3; [intros ? ? ? ?; reflexivity| |exact Hi]. intros j Hj. unfold att_deriv. rewrite v7_omega by exact Hj. reflexivity.
Qed.

Section dynamics.
Context (inertia inv : mat) (torque h : vec) (x : R -> vec).
Hypothesis I : is_inverse 3 inertia inv.
Hypothesis T : trajectory 7 (att_deriv inertia inv torque h (vconst 0)) x.
Let w s := omega7 (x s).
Let q s := quat7 (x s).
Lemma traj_quat t i : (i < 4)%nat -> derivable_pt_lim (fun s => q s i) t (quaternion_rate (w t) (q t) i).
Proof. intro Hi. eapply dpl_eq; [apply (T t (i + 3)%nat); lia|]. unfold att_deriv. rewrite v7_quat. reflexivity. Qed.
Lemma traj_momentum t i : (i < 3)%nat ->
  derivable_pt_lim (fun s => momentum_b inertia h (w s) i) t (torque i - cross (w t) (momentum_b inertia h (w t)) i).
Proof.
  intro Hi. unfold momentum_b, vadd.
  eapply dpl_eq; [apply dpl_plus; [apply dpl_const|apply (dpl_mvec_const 3 inertia w (att_deriv inertia inv torque h (vconst 0) (x t)) t i)]|].
  - intros j Hj. apply T. lia.
  - rewrite Rplus_0_l. rewrite (euler_equation inertia inertia inv torque h (vconst 0) (x t) I i Hi). unfold net_torque, vsub, vconst.
    rewrite (cross_ext (x t) (vadd (mvec 3 inertia (x t)) h) (w t) (fun i0 => h i0 + mvec 3 inertia (w t) i0)); [unfold w, omega7; lra|intros ? ?; reflexivity| |exact Hi].
    intros j Hj. unfold vadd, w, omega7. lra.
Qed.
Lemma traj_newton_euler : newton_euler (fun s => momentum_b inertia h (w s)) q (fun _ => torque).
Proof.
  intros t i Hi. eapply dpl_eq; [apply (transport w q traj_quat _ (fun j => torque j - cross (w t) (momentum_b inertia h (w t)) j)); [|exact Hi]|].
  - intros j Hj. now apply traj_momentum.
  - unfold to_inertial. apply mvec_ext3; [intros ? ? ? ?; reflexivity| |exact Hi]. intros j Hj. unfold vadd. lra.
Qed.
Lemma traj_energy t : symmetric3 inertia -> derivable_pt_lim (fun s => kinetic_energy inertia (w s)) t (dot 3 (w t) torque).
Proof.
  intro SY.
  assert (W : forall j, (j < 3)%nat -> derivable_pt_lim (fun s => w s j) t (att_deriv inertia inv torque h (vconst 0) (x t) j)) by (intros j Hj; apply T; lia).
  set (a := att_deriv inertia inv torque h (vconst 0) (x t)) in *.
  assert (EU : veq 3 (mvec 3 inertia a) (net_torque inertia torque h (vconst 0) (x t))) by now apply euler_equation.
  unfold kinetic_energy.
  eapply dpl_eq; [apply dpl_mult; [apply dpl_const|apply (dpl_sumn 3 (fun s i => mvec 3 inertia (w s) i * w s i) t (fun i => mvec 3 inertia a i * w t i + mvec 3 inertia (w t) i * a i))]|].
  - intros i Hi. apply dpl_mult; [now apply dpl_mvec_const|now apply W].
  - rewrite Rmult_0_l, Rplus_0_l. rewrite sumn_plus.
    assert (E : sumn 3 (fun i => mvec 3 inertia (w t) i * a i) = sumn 3 (fun i => mvec 3 inertia a i * w t i)).
    { unfold mvec. rewrite !sumn3. rewrite (SY 1 0)%nat, (SY 2 0)%nat, (SY 2 1)%nat by lia. ring. }
    rewrite E. rewrite (sumn_ext 3 (fun i => mvec 3 inertia a i * w t i) (fun i => net_torque inertia torque h (vconst 0) (x t) i * w t i)) by (intros i Hi; now rewrite EU).
    unfold dot, net_torque, vsub, vconst. rewrite !sumn3. cbn [cross]. unfold w, omega7. lra.
Qed.
End dynamics.
Lemma momentum_i_inertial inertia h w q : veq 3 (momentum_i inertia h w q) (to_inertial q (momentum_b inertia h w)).
Proof. intros i Hi. unfold momentum_i. rewrite frame_dcm by exact Hi. apply mvec_ext3; [apply conj_dcm_trans|intros ? ?; reflexivity|exact Hi]. Qed.
Lemma norm_ext n u v : veq n u v -> norm n u = norm n v.
Proof. intro E. unfold norm. f_equal. apply sumn_ext. intros i Hi. now rewrite E. Qed.
Lemma rotation_trans m : rotation m -> rotation (mtrans m).
Proof.
  intros (A & B & D). split; [|split].
  - exact B.
  - exact A.
  - rewrite <- D. unfold det3, mtrans. ring.
Qed.
Lemma inertial_norm q b : unit 4 q -> norm 3 (to_inertial q b) = norm 3 b.
Proof. intro U. apply rotation_norm, rotation_trans, dcm_rotation, U. Qed.
Lemma momentum_norm_body inertia h w q : unit 4 q -> momentum_norm inertia h w q = norm 3 (momentum_b inertia h w).
Proof. intro U. unfold momentum_norm. rewrite (norm_ext 3 _ _ (momentum_i_inertial inertia h w q)). now apply inertial_norm. Qed.

(** ** The integration step *)
Lemma triangle n u v : norm n (vadd u v) <= norm n u + norm n v.
Proof.
  pose proof (norm_nonneg n u) as U. pose proof (norm_nonneg n v) as V. pose proof (norm_nonneg n (vadd u v)) as W.
  apply Rsqr_incr_0; [|exact W|lra]. unfold Rsqr. rewrite norm_sq.
  replace ((norm n u + norm n v) * (norm n u + norm n v)) with (norm n u * norm n u + norm n v * norm n v + 2 * (norm n u * norm n v)) by ring.
  rewrite !norm_sq. pose proof (dot_le_norms n u v) as D. apply Rabs_le_both in D.
  assert (E : sq n (vadd u v) = sq n u + sq n v + 2 * dot n u v); [|lra].
  unfold sq, dot, vadd. rewrite <- sumn_scal, <- !sumn_plus. apply sumn_ext. intros. ring.
Qed.
Lemma norm_scal n c v : norm n (vscal c v) = Rabs c * norm n v.
Proof.
  apply sq_eq; [apply norm_nonneg|apply Rmult_le_pos; [apply Rabs_pos|apply norm_nonneg]|]. rewrite norm_sq.
  replace (Rabs c * norm n v * (Rabs c * norm n v)) with ((Rabs c * Rabs c) * (norm n v * norm n v)) by ring. rewrite norm_sq.
  rewrite <- Rabs_mult, Rabs_right by (apply Rle_ge, Rle_0_sqr). unfold sq, vscal. rewrite <- sumn_scal. apply sumn_ext. intros. ring.
Qed.
Lemma qmul_norm4 a b : norm 4 (qmul a b) = norm 4 a * norm 4 b.
Proof.
  apply sq_eq; [apply norm_nonneg|apply Rmult_le_pos; apply norm_nonneg|]. rewrite norm_sq.
  replace (norm 4 a * norm 4 b * (norm 4 a * norm 4 b)) with ((norm 4 a * norm 4 a) * (norm 4 b * norm 4 b)) by ring. rewrite !norm_sq. exact (qmul_norm a b).
Qed.
Lemma norm_unit n v : unit n v <-> norm n v = 1.
Proof.
  unfold unit. split; intro H.
  - change (dot n v v) with (sq n v) in H. apply sq_eq; [apply norm_nonneg|lra|]. rewrite norm_sq, H. ring.
  - change (dot n v v) with (sq n v). rewrite <- norm_sq, H. ring.
Qed.

Lemma qnormalize_cases q : unit 4 (qnormalize q) \/ (norm 4 q = 0 /\ qnormalize q = q).
Proof.
  unfold qnormalize. set (n := 0 + q 0%nat * q 0%nat + q 1%nat * q 1%nat + q 2%nat * q 2%nat + q 3%nat * q 3%nat).
  assert (S2 : sq 4 q = n) by reflexivity. destruct (req_spec n 0) as [Z|Z].
  - right. split; [|reflexivity]. unfold norm. change (sumn 4 (fun i => q i * q i)) with (sq 4 q). rewrite S2, Z. apply sqrt_0.
  - left. assert (P : 0 < n) by (pose proof (sq_nonneg 4 q); lra). pose proof (sqrt_lt_R0 n P) as Q. pose proof (sqrt_sqrt n (Rlt_le _ _ P)) as R0.
    unfold unit, dot. cbn [sumn]. set (r := sqrt n) in *. clearbody r.
    transitivity (n / (r * r)); [unfold n; field; lra|]. rewrite R0. field. lra.
Qed.
Lemma qnormalize_nonzero q : norm 4 q <> 0 -> unit 4 (qnormalize q) /\ exists c, 0 < c /\ veq 4 (qnormalize q) (qscal c q).
Proof.
  intro N. destruct (qnormalize_cases q) as [U|(Z & _)]; [|contradiction]. split; [exact U|].
  assert (S2 : sq 4 q = 0 + q 0%nat * q 0%nat + q 1%nat * q 1%nat + q 2%nat * q 2%nat + q 3%nat * q 3%nat) by reflexivity.
  exists (1 / sqrt (sq 4 q)). assert (P : 0 < norm 4 q) by (pose proof (norm_nonneg 4 q); lra). split.
  - apply Rdiv_lt_0_compat; [lra|exact P].
  - intros i Hi. unfold qnormalize. rewrite <- S2. rewrite req_false; [unfold qscal; ring|]. intro E. apply N. rewrite <- (norm_sq 4 q) in E. nra.
Qed.

(** the quaternion part of a step is a product from the right *)
Definition half (w : vec) : quat := q4 (w 0%nat / 2) (w 1%nat / 2) (w 2%nat / 2) 0.
Definition one4 : quat := q4 0 0 0 1.
Definition stage2 (dt : R) (w1 : vec) : quat := vadd one4 (vscal (dt / 2) (half w1)).
Definition stage3 (dt : R) (w1 w2 : vec) : quat := vadd one4 (vscal (dt / 2) (qmul (stage2 dt w1) (half w2))).
Definition stage4 (dt : R) (w1 w2 w3 : vec) : quat := vadd one4 (vscal dt (qmul (stage3 dt w1 w2) (half w3))).
Definition increment (dt : R) (w1 w2 w3 w4 : vec) : quat :=
  vadd one4 (vscal (dt / 6) (vadd (vadd (vadd (half w1) (vscal 2 (qmul (stage2 dt w1) (half w2)))) (vscal 2 (qmul (stage3 dt w1 w2) (half w3)))) (qmul (stage4 dt w1 w2 w3) (half w4)))).
Lemma rate_half w q : veq 4 (quaternion_rate w q) (qmul q (half w)).
Proof. intros i Hi. i4 i Hi; cbv [quaternion_rate mvec mscal omega_matrix q4 sumn qmul half]; field. Qed.
Lemma rate_ext w q q' : veq 4 q q' -> veq 4 (quaternion_rate w q) (quaternion_rate w q').
Proof. intros E i Hi. unfold quaternion_rate, mvec. apply sumn_ext. intros j Hj. now rewrite E. Qed.
Lemma qmul_ext a b a' b' : veq 4 a a' -> veq 4 b b' -> veq 4 (qmul a b) (qmul a' b').
Proof. intros A B i Hi. i4 i Hi; cbn [qmul q4]; rewrite !A, !B by lia; reflexivity. Qed.
Lemma qmul_stage q c r : veq 4 (vadd q (vscal c (qmul q r))) (qmul q (vadd one4 (vscal c r))).
Proof. intros i Hi. i4 i Hi; cbv [vadd vscal qmul one4 q4]; ring. Qed.
Lemma veq_trans n a b c : veq n a b -> veq n b c -> veq n a c. Proof. intros A B i Hi. rewrite A, B by exact Hi. reflexivity. Qed.
Lemma veq_sym n a b : veq n a b -> veq n b a. Proof. intros A i Hi. now rewrite A. Qed.
Lemma veq_refl n a : veq n a a. Proof. intros i Hi. reflexivity. Qed.
Lemma stage_ext q c a b : veq 4 a b -> veq 4 (vadd q (vscal c a)) (vadd q (vscal c b)).
Proof. intros E i Hi. unfold vadd, vscal. now rewrite E. Qed.

Lemma step_product f dt w q : (forall x, veq 4 (quat7 (f x)) (quaternion_rate (omega7 x) (quat7 x))) ->
  let x := v7 w q in
  exists w1 w2 w3 w4, stage_rates f dt x = [w1; w2; w3; w4] /\
  veq 4 (quat7 (rk_increment f dt x)) (qmul q (increment dt w1 w2 w3 w4)).
Proof.
  intros F x. unfold stage_rates, rk_increment. set (k1 := f x). set (x2 := vadd x (vscal (dt / 2) k1)). set (k2 := f x2).
  set (x3 := vadd x (vscal (dt / 2) k2)). set (k3 := f x3). set (x4 := vadd x (vscal dt k3)). set (k4 := f x4).
  exists (omega7 x), (omega7 x2), (omega7 x3), (omega7 x4). split; [reflexivity|].
  set (w1 := omega7 x). set (w2 := omega7 x2). set (w3 := omega7 x3). set (w4 := omega7 x4).
  assert (QX : veq 4 (quat7 x) q) by (intros i Hi; unfold quat7, x; apply v7_quat).
  assert (K1 : veq 4 (quat7 k1) (qmul q (half w1))).
  { eapply veq_trans; [apply F|]. eapply veq_trans; [apply rate_half|]. apply qmul_ext; [exact QX|apply veq_refl]. }
  assert (S2 : veq 4 (quat7 x2) (qmul q (stage2 dt w1))).
  { eapply veq_trans; [|apply qmul_stage]. intros i Hi. unfold x2, quat7, vadd, vscal. fold (quat7 k1 i). fold (quat7 x i). rewrite QX, K1 by exact Hi. reflexivity. }
  assert (K2 : veq 4 (quat7 k2) (qmul q (qmul (stage2 dt w1) (half w2)))).
  { eapply veq_trans; [apply F|]. eapply veq_trans; [apply rate_half|]. eapply veq_trans; [|apply qmul_assoc]. apply qmul_ext; [exact S2|apply veq_refl]. }
  assert (S3 : veq 4 (quat7 x3) (qmul q (stage3 dt w1 w2))).
  { eapply veq_trans; [|apply qmul_stage]. intros i Hi. unfold x3, quat7, vadd, vscal. fold (quat7 k2 i). fold (quat7 x i). rewrite QX, K2 by exact Hi. reflexivity. }
  assert (K3 : veq 4 (quat7 k3) (qmul q (qmul (stage3 dt w1 w2) (half w3)))).
  { eapply veq_trans; [apply F|]. eapply veq_trans; [apply rate_half|]. eapply veq_trans; [|apply qmul_assoc]. apply qmul_ext; [exact S3|apply veq_refl]. }
  assert (S4 : veq 4 (quat7 x4) (qmul q (stage4 dt w1 w2 w3))).
  { eapply veq_trans; [|apply qmul_stage]. intros i Hi. unfold x4, quat7, vadd, vscal. fold (quat7 k3 i). fold (quat7 x i). rewrite QX, K3 by exact Hi. reflexivity. }
  assert (K4 : veq 4 (quat7 k4) (qmul q (qmul (stage4 dt w1 w2 w3) (half w4)))).
  { eapply veq_trans; [apply F|]. eapply veq_trans; [apply rate_half|]. eapply veq_trans; [|apply qmul_assoc]. apply qmul_ext; [exact S4|apply veq_refl]. }
  clearbody k1 k2 k3 k4 w1 w2 w3 w4 x. intros i Hi. unfold quat7, vadd at 1, vscal at 1. unfold vadd at 1 2 3, vscal at 1 2.
  fold (quat7 x i) (quat7 k1 i) (quat7 k2 i) (quat7 k3 i) (quat7 k4 i). rewrite QX, K1, K2, K3, K4 by exact Hi.
  unfold increment. generalize (half w1) (qmul (stage2 dt w1) (half w2)) (qmul (stage3 dt w1 w2) (half w3)) (qmul (stage4 dt w1 w2 w3) (half w4)). intros a b c d.
  i4 i Hi; cbv [vadd vscal qmul one4 q4]; ring.
Qed.

Lemma norm_half w : norm 4 (half w) = norm 3 w / 2.
Proof.
  apply sq_eq; [apply norm_nonneg|pose proof (norm_nonneg 3 w); lra|]. rewrite norm_sq. unfold sq. cbn [sumn half q4].
  replace (norm 3 w / 2 * (norm 3 w / 2)) with (norm 3 w * norm 3 w / 4) by field. rewrite norm3. field.
Qed.
Lemma norm_one4 : norm 4 one4 = 1.
Proof. apply norm_unit. unfold unit, dot. cbn [sumn one4 q4]. ring. Qed.
Lemma norm_below n u v : norm n v <= norm n (vadd u v) + norm n u.
Proof.
  pose proof (triangle n (vadd u v) (vscal (-1) u)) as T. rewrite norm_scal in T. replace (Rabs (-1)) with 1 in T by (rewrite Rabs_left; lra).
  rewrite (norm_ext n (vadd (vadd u v) (vscal (-1) u)) v) in T; [lra|]. intros i Hi. unfold vadd, vscal. ring.
Qed.
Lemma increment_nonzero dt W w1 w2 w3 w4 : norm 3 w1 <= W -> norm 3 w2 <= W -> norm 3 w3 <= W -> norm 3 w4 <= W -> Rabs dt * W <= 1 ->
  0 < norm 4 (increment dt w1 w2 w3 w4).
Proof.
  intros B1 B2 B3 B4 S0. set (d := Rabs dt) in *. assert (D : 0 <= d) by apply Rabs_pos.
  pose proof (norm_nonneg 3 w1) as N1. pose proof (norm_nonneg 3 w2) as N2. pose proof (norm_nonneg 3 w3) as N3. pose proof (norm_nonneg 3 w4) as N4.
  assert (D2 : Rabs (dt / 2) = d / 2). { unfold Rdiv. rewrite Rabs_mult, (Rabs_right (/ 2)) by lra. reflexivity. }
  assert (D6 : Rabs (dt / 6) = d / 6). { unfold Rdiv. rewrite Rabs_mult, (Rabs_right (/ 6)) by lra. reflexivity. }
  assert (M : forall a w, 0 <= a -> norm 3 w <= W -> 0 <= norm 3 w -> d * (a * (norm 3 w / 2)) <= a / 2).
  { intros a w A B N. assert (d * norm 3 w <= d * W) by (apply Rmult_le_compat_l; assumption).
    replace (d * (a * (norm 3 w / 2))) with (a / 2 * (d * norm 3 w)) by field. rewrite <- (Rmult_1_r (a / 2)) at 2. apply Rmult_le_compat_l; lra. }
  assert (P2 : norm 4 (stage2 dt w1) <= 5 / 4).
  { unfold stage2. eapply Rle_trans; [apply triangle|]. rewrite norm_one4, norm_scal, D2, norm_half. pose proof (M 1 w1 ltac:(lra) B1 N1). lra. }
  assert (P3 : norm 4 (stage3 dt w1 w2) <= 21 / 16).
  { unfold stage3. eapply Rle_trans; [apply triangle|]. rewrite norm_one4, norm_scal, D2, qmul_norm4, norm_half.
    pose proof (M (norm 4 (stage2 dt w1)) w2 (norm_nonneg _ _) B2 N2). lra. }
  assert (P4 : norm 4 (stage4 dt w1 w2 w3) <= 53 / 32).
  { unfold stage4. eapply Rle_trans; [apply triangle|]. rewrite norm_one4, norm_scal, qmul_norm4, norm_half. fold d.
    pose proof (M (norm 4 (stage3 dt w1 w2)) w3 (norm_nonneg _ _) B3 N3). lra. }
  unfold increment.
  match goal with |- 0 < norm 4 (vadd one4 ?v) => assert (V : norm 4 v < 1) end.
  { rewrite norm_scal, D6.
    set (n2 := norm 4 (stage2 dt w1)) in *. set (n3 := norm 4 (stage3 dt w1 w2)) in *. set (n4 := norm 4 (stage4 dt w1 w2 w3)) in *.
    eapply Rle_lt_trans; [apply Rmult_le_compat_l; [lra|]; eapply Rle_trans; [apply triangle|]; apply Rplus_le_compat_r; eapply Rle_trans; [apply triangle|]; apply Rplus_le_compat_r; apply triangle|].
    rewrite !norm_scal, !qmul_norm4, !norm_half. fold n2 n3 n4. rewrite (Rabs_right 2) by lra.
    pose proof (M 1 w1 ltac:(lra) B1 N1). pose proof (M n2 w2 (norm_nonneg _ _) B2 N2). pose proof (M n3 w3 (norm_nonneg _ _) B3 N3). pose proof (M n4 w4 (norm_nonneg _ _) B4 N4). lra. }
  match goal with |- 0 < norm 4 (vadd one4 ?v) => pose proof (norm_below 4 v one4) as L;
    assert (E : norm 4 (vadd v one4) = norm 4 (vadd one4 v)) by (apply norm_ext; intros i Hi; unfold vadd; ring) end.
  rewrite E, norm_one4 in L. lra.
Qed.
