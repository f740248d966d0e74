From Coq Require Import Reals Lra Lia List Bool Arith FunctionalExtensionality.
From Verif Require Import Base RBase VecModel VecProofs LuModel LuSpec LuProps Trig QuatModel QuatSpec QuatProofs OrbitProofs HillProofs AttitudeModel AttitudeSpec AttitudeProofs.
From Verif Require RkModel.
Import ListNotations.
Open Scope R_scope.

(** ** The propagation loop *)
Lemma run_app f a b st : run_steps f (a ++ b) st = run_steps f b (run_steps f a st).
Proof. unfold run_steps. apply fold_left_app. Qed.
Lemma att_loop_spec f step tend : forall fuel st t st1 t1, att_loop f fuel step tend st t = Ok (st1, t1) ->
  exists k, t1 = t + INR k * step /\ st1 = run_steps f (repeat step k) st /\ tend - t1 - step <= 1 / 10 ^ 6 /\ (k = 0%nat \/ 1 / 10 ^ 6 < tend - t1).
Proof.
  induction fuel as [|n IH]; intros st t st1 t1 H; [discriminate|]. cbn [att_loop] in H.
  destruct (rlt_spec (1 / 10 ^ 6) (tend - t - step)) as [L|L].
  - destruct (IH _ _ _ _ H) as (k & T & O & B1 & B2). exists (S k).
    split; [rewrite T, S_INR; lra|]. split; [|split; [exact B1|]].
    + cbn [repeat run_steps fold_left]. exact O.
    + right. destruct B2 as [->|B2]; [|exact B2]. cbn [INR] in T. lra.
  - injection H as <- <-. exists 0%nat. cbn [INR repeat run_steps fold_left]. split; [lra|]. split; [reflexivity|]. split; [lra|]. now left.
Qed.
Lemma att_loop_total f step tend : forall n st t, tend - t <= INR (S n) * step -> exists x, att_loop f (S n) step tend st t = Ok x.
Proof.
  induction n as [|n IH]; intros st t L; cbn [att_loop]; destruct (rlt_spec (1 / 10 ^ 6) (tend - t - step)) as [G|G]; try (eexists; reflexivity).
  - cbn [INR] in L. lra.
  - apply IH. rewrite !S_INR in *. lra.
Qed.

Section lu.
Context (coef0 : vec) (index0 : nat -> nat) (inverse0 : mat).
Notation propagate := (att_propagate coef0 index0 inverse0).
Lemma propagate_spec fuel inertia a tend a' : propagate fuel true inertia a tend = Ok a' ->
  exists inv k, is_inverse 3 inertia inv /\
    let w := tend - at_time a - INR k * at_step a in
    let f := att_deriv (at_prev a) inv (at_torque a) (at_h a) (mvec 3 (mscal (1 / (tend - at_time a)) (msub inertia (at_prev a))) (at_omega a)) in
    w <= at_step a + 1 / 10 ^ 6 /\ (k = 0%nat \/ 1 / 10 ^ 6 < w) /\ tend <> at_time a /\
    (at_omega a', at_q a') = run_steps f (widths k (at_step a) (at_time a) tend) (at_omega a, at_q a) /\
    at_torque a' = at_torque a /\ at_step a' = at_step a /\ at_time a' = tend /\ at_h a' = at_h a /\ at_prev a' = inertia /\
    at_norm a' = momentum_norm inertia (at_h a) (at_omega a') (at_q a') /\ at_energy a' = kinetic_energy inertia (at_omega a').
Proof.
  unfold att_propagate. cbn [negb]. destruct (req_spec (tend - at_time a) 0) as [Z|Z]; [discriminate|]. intro H.
  destruct (inverse3 coef0 index0 inverse0 inertia) as [inv| | |] eqn:E; cbn [bind] in H; try discriminate.
  apply C24_inverse_correct in E. set (f := att_deriv _ _ _ _ _) in H.
  destruct (att_loop f fuel (at_step a) tend (at_omega a, at_q a) (at_time a)) as [(st & t)| | |] eqn:L; cbn [bind] in H; try discriminate.
  apply att_loop_spec in L. destruct L as (k & T & S0 & B1 & B2).
  assert (RUN : att_step f (tend - t) st = run_steps f (widths k (at_step a) (at_time a) tend) (at_omega a, at_q a)).
  { unfold widths. rewrite run_app, <- S0. cbn [run_steps fold_left]. f_equal. lra. }
  destruct (att_step f (tend - t) st) as (w & q) eqn:ST. injection H as <-. cbn [at_omega at_q at_torque at_step at_time at_h at_prev at_norm at_energy].
  exists inv, k. cbv zeta. fold f. split; [exact E|]. split; [lra|]. split; [destruct B2; [now left|right; lra]|]. split; [lra|]. split; [exact RUN|]. repeat split; reflexivity.
Qed.
Lemma propagate_ok n inertia a tend : (exists inv, is_inverse 3 inertia inv) -> tend <> at_time a -> tend - at_time a <= INR (S n) * at_step a ->
  exists a', propagate (S n) true inertia a tend = Ok a'.
Proof.
  intros V N L. unfold att_propagate. cbn [negb]. rewrite req_false by lra.
  unfold inverse3. destruct (C24_throws_iff_singular 3 coef0 index0 inertia inverse0) as [(B & E & _)|(_ & E)]; [|contradiction]. rewrite E. cbn [bind].
  set (f := att_deriv _ _ _ _ _). destruct (att_loop_total f (at_step a) tend n (at_omega a, at_q a) (at_time a) L) as ((st & t) & EL).
  rewrite EL. cbn [bind]. destruct (att_step f (tend - t) st) as (w & q). eexists. reflexivity.
Qed.
End lu.

Lemma run_invariant (P : vec * quat -> Prop) f ws : (forall dt st, P st -> P (att_step f dt st)) -> forall st, P st -> P (run_steps f ws st).
Proof. intro H. induction ws as [|w ws IH]; intros st I; [exact I|]. cbn [run_steps fold_left]. apply IH, H, I. Qed.
Lemma run_last_or (P : vec * quat -> Prop) f ws st : ws <> [] -> (forall dt st, P (att_step f dt st)) -> P (run_steps f ws st).
Proof.
  intros N H. destruct (exists_last N) as (l & x & ->). rewrite run_app. cbn [run_steps fold_left]. apply H.
Qed.
Lemma widths_nonempty k s t0 te : widths k s t0 te <> [].
Proof. unfold widths. intro E. apply app_eq_nil in E. destruct E as (_ & E). discriminate. Qed.

(** ** Unit quaternions *)
Definition att_kin (f : vec -> vec) : Prop := forall x, veq 4 (quat7 (f x)) (quaternion_rate (omega7 x) (quat7 x)).
Lemma att_deriv_kin prev inv torque h d : att_kin (att_deriv prev inv torque h d).
Proof. intros x i Hi. unfold quat7, att_deriv. rewrite v7_quat. reflexivity. Qed.
Lemma step_unit_or_zero f dt st : unit 4 (snd (att_step f dt st)) \/ norm 4 (snd (att_step f dt st)) = 0.
Proof.
  unfold att_step. cbn [snd]. destruct (qnormalize_cases (quat7 (rk_increment f dt (v7 (fst st) (snd st))))) as [U|(Z & E)]; [now left|right]. now rewrite E.
Qed.
Lemma step_unit f dt st W : att_kin f -> norm 4 (snd st) <> 0 ->
  Forall (fun w => norm 3 w <= W) (stage_rates f dt (v7 (fst st) (snd st))) -> Rabs dt * W <= 1 -> unit 4 (snd (att_step f dt st)).
Proof.
  intros K U B L. unfold att_step. cbn [snd]. refine (proj1 (qnormalize_nonzero _ _)). destruct (step_product f dt (fst st) (snd st) K) as (w1 & w2 & w3 & w4 & E & P).
  rewrite E in B. pose proof (Forall_inv B) as B1. apply Forall_inv_tail in B. pose proof (Forall_inv B) as B2. apply Forall_inv_tail in B.
  pose proof (Forall_inv B) as B3. apply Forall_inv_tail in B. pose proof (Forall_inv B) as B4.
  intro Z. pose proof (eq_trans (eq_sym (norm_ext 4 _ _ P)) Z) as Z2. rewrite qmul_norm4 in Z2. pose proof (increment_nonzero dt W w1 w2 w3 w4 B1 B2 B3 B4 L).
  apply Rmult_integral in Z2. destruct Z2 as [Z2|Z2]; [contradiction|lra].
Qed.

(** ** Spin about a principal axis *)
Definition steady (f : vec -> vec) (w : vec) : Prop := forall x, veq 3 x w -> veq 3 (f x) (vconst 0).
Lemma stage_steady (f : vec -> vec) w x c k : veq 3 x w -> veq 3 k (vconst 0) -> veq 3 (vadd x (vscal c k)) w.
Proof. intros X K i Hi. unfold vadd, vscal. rewrite X, K by exact Hi. unfold vconst. ring. Qed.
Lemma half_ext a b : veq 3 a b -> half a = half b.
Proof. intro E. unfold half. rewrite !E by lia. reflexivity. Qed.
Lemma steady_rates f dt w x : steady f w -> veq 3 x w ->
  Forall (fun v => veq 3 v w) (stage_rates f dt x) /\ veq 3 (rk_increment f dt x) w.
Proof.
  intros S0 X. unfold stage_rates, rk_increment, omega7.
  pose proof (S0 x X) as K1. pose proof (stage_steady f w x (dt / 2) _ X K1) as X2. pose proof (S0 _ X2) as K2.
  pose proof (stage_steady f w x (dt / 2) _ X K2) as X3. pose proof (S0 _ X3) as K3. pose proof (stage_steady f w x dt _ X K3) as X4. pose proof (S0 _ X4) as K4.
  split; [repeat constructor; assumption|]. apply (stage_steady f w); [exact X|]. intros i Hi. unfold vadd, vscal. rewrite K1, K2, K3, K4 by exact Hi. unfold vconst. ring.
Qed.
Definition spin_increment (dt : R) (w : vec) : quat :=
  let y := dot 3 w w * (dt * dt) / 4 in let c := dt / 2 * (1 - y / 6) in
  q4 (c * w 0%nat) (c * w 1%nat) (c * w 2%nat) (1 - y / 2 + y * y / 24).
Lemma increment_spin dt w : veq 4 (increment dt w w w w) (spin_increment dt w).
Proof. intros i Hi. i4 i Hi; cbv [increment stage4 stage3 stage2 half one4 spin_increment vadd vscal qmul q4 dot sumn]; field. Qed.
Lemma spin_increment_norm dt w : 0 < dot 4 (spin_increment dt w) (spin_increment dt w).
Proof.
  set (y := dot 3 w w * (dt * dt) / 4).
  assert (Y : 0 <= y). { unfold y. pose proof (sq_nonneg 3 w) as Q. unfold sq in Q. fold (dot 3 w w) in Q. pose proof (Rle_0_sqr dt) as D. unfold Rsqr in D. pose proof (Rmult_le_pos _ _ Q D). lra. }
  assert (E : dot 4 (spin_increment dt w) (spin_increment dt w) = y * ((1 - y / 6) * (1 - y / 6)) + (1 - y / 2 + y * y / 24) * (1 - y / 2 + y * y / 24)).
  { unfold spin_increment. fold y. unfold dot at 1. cbn [sumn q4].
    transitivity (dot 3 w w * (dt * dt) / 4 * ((1 - y / 6) * (1 - y / 6)) + (1 - y / 2 + y * y / 24) * (1 - y / 2 + y * y / 24)); [|unfold y; reflexivity].
    unfold dot. rewrite sumn3. field. }
  rewrite E. replace (_ + _) with (((y * y - 4 * y - 12) * (y * y - 4 * y - 12) + 8 * (y - 6) * (y - 6) + 144) / 576) by field.
  pose proof (Rle_0_sqr (y * y - 4 * y - 12)) as A. pose proof (Rle_0_sqr (y - 6)) as B. unfold Rsqr in *. lra.
Qed.
Lemma to_inertial_ext q q' b b' : veq 4 q q' -> veq 3 b b' -> veq 3 (to_inertial q b) (to_inertial q' b').
Proof. intros Q B. unfold to_inertial. rewrite (to_dcm_ext q q' Q). apply mvec_ext3; [intros ? ? ? ?; reflexivity|exact B]. Qed.
Lemma spin_axis c q p dt w : p = spin_increment dt w -> veq 3 (to_inertial (qscal c (qmul q p)) w) (vscal (c * c * dot 4 p p) (to_inertial q w)).
Proof.
  intros ->. intros i Hi. unfold spin_increment. set (y := dot 3 w w * (dt * dt) / 4). set (k := dt / 2 * (1 - y / 6)). set (r := 1 - y / 2 + y * y / 24).
  clearbody y k r. i3 i Hi; cbv [to_inertial mvec mtrans to_dcm qscal qmul q4 m3 v3 sumn vscal dot]; ring.
Qed.

Lemma spin_step f dt w q w0 : att_kin f -> steady f w0 -> veq 3 w w0 -> unit 4 q ->
  let st := att_step f dt (w, q) in veq 3 (fst st) w0 /\ unit 4 (snd st) /\ veq 3 (to_inertial (snd st) w0) (to_inertial q w0) /\
  (veq 3 w0 (vconst 0) -> veq 4 (snd st) q).
Proof.
  intros K S0 X U. unfold att_step. cbn [fst snd]. cbv zeta.
  assert (X7 : veq 3 (v7 w q) w0) by (intros i Hi; rewrite v7_omega by exact Hi; now apply X).
  destruct (steady_rates f dt w0 (v7 w q) S0 X7) as (B & OM). split; [exact OM|].
  destruct (step_product f dt w q K) as (w1 & w2 & w3 & w4 & E & P). rewrite E in B.
  pose proof (Forall_inv B) as B1. apply Forall_inv_tail in B. pose proof (Forall_inv B) as B2. apply Forall_inv_tail in B.
  pose proof (Forall_inv B) as B3. apply Forall_inv_tail in B. pose proof (Forall_inv B) as B4. clear B E.
  assert (EQ : veq 4 (quat7 (rk_increment f dt (v7 w q))) (qmul q (spin_increment dt w0))).
  { eapply veq_trans; [exact P|]. apply qmul_ext; [apply veq_refl|]. eapply veq_trans; [|apply increment_spin].
    unfold increment, stage4, stage3, stage2. rewrite (half_ext w1 w0 B1), (half_ext w2 w0 B2), (half_ext w3 w0 B3), (half_ext w4 w0 B4). apply veq_refl. }
  set (nq := quat7 (rk_increment f dt (v7 w q))) in *. set (p := spin_increment dt w0) in *.
  pose proof (spin_increment_norm dt w0) as PN. fold p in PN.
  assert (NZ : norm 4 nq <> 0).
  { rewrite (norm_ext 4 _ _ EQ), qmul_norm4. apply norm_unit in U. rewrite U, Rmult_1_l. unfold norm. apply Rgt_not_eq. apply sqrt_lt_R0. exact PN. }
  destruct (qnormalize_nonzero nq NZ) as (UN & c & C0 & CE). split; [exact UN|].
  assert (CE2 : veq 4 (qnormalize nq) (qscal c (qmul q p))) by (intros i Hi; rewrite CE by exact Hi; unfold qscal; now rewrite EQ).
  assert (CU : c * c * dot 4 p p = 1).
  { apply (unit4_ext _ _ (veq_sym 4 _ _ CE2)) in UN. unfold unit in UN, U. rewrite <- UN. transitivity (c * c * (dot 4 q q * dot 4 p p)); [rewrite U; ring|]. rewrite <- qmul_norm.
    unfold dot, qscal. rewrite <- sumn_scal. apply sumn_ext. intros. ring. }
  split.
  - eapply veq_trans; [apply to_inertial_ext; [exact CE2|apply veq_refl]|]. eapply veq_trans; [apply (spin_axis c q p dt w0 eq_refl)|]. intros i Hi. unfold vscal. rewrite CU. ring.
  - intros Z. assert (PO : veq 4 p one4).
    { intros i Hi. unfold p, spin_increment, dot. rewrite sumn3. rewrite !Z by lia. unfold vconst. i4 i Hi; cbn [q4 one4]; field. }
    assert (D1 : dot 4 p p = 1) by (unfold dot; cbn [sumn]; rewrite !PO by lia; cbn [one4 q4]; ring). rewrite D1 in CU. assert (C1 : c = 1) by nra.
    eapply veq_trans; [exact CE2|]. subst c. intros i Hi. unfold qscal. rewrite (qmul_ext q p q one4 (veq_refl 4 q) PO i Hi). i4 i Hi; cbv [qmul one4 q4]; ring.
Qed.
Lemma net_torque_ext prev torque h d x y : veq 3 x y -> veq 3 (net_torque prev torque h d x) (net_torque prev torque h d y).
Proof.
  intros E i Hi. unfold net_torque, vsub. rewrite (cross_ext x (vadd (mvec 3 prev x) h) y (vadd (mvec 3 prev y) h)); [reflexivity|exact E| |exact Hi].
  intros j Hj. unfold vadd. f_equal. apply mvec_ext3; [intros ? ? ? ?; reflexivity|exact E|exact Hj].
Qed.
Lemma deriv_steady prev inv torque h d w : veq 3 (net_torque prev torque h d w) (vconst 0) -> steady (att_deriv prev inv torque h d) w.
Proof.
  intros N x X i Hi. unfold att_deriv. rewrite v7_omega by exact Hi. unfold mvec. apply sumn_0. intros j Hj. rewrite (net_torque_ext prev torque h d (omega7 x) w X j Hj), N by exact Hj. unfold vconst. ring.
Qed.
Lemma spin_run f ws w0 q0 : att_kin f -> steady f w0 -> unit 4 q0 ->
  let st := run_steps f ws (w0, q0) in veq 3 (fst st) w0 /\ unit 4 (snd st) /\ veq 3 (to_inertial (snd st) w0) (to_inertial q0 w0) /\ (veq 3 w0 (vconst 0) -> veq 4 (snd st) q0).
Proof.
  intros K S0 U. apply (run_invariant (fun st => veq 3 (fst st) w0 /\ unit 4 (snd st) /\ veq 3 (to_inertial (snd st) w0) (to_inertial q0 w0) /\ (veq 3 w0 (vconst 0) -> veq 4 (snd st) q0))).
  - intros dt (w, q) (A & B & C & D). cbn [fst snd] in *. destruct (spin_step f dt w q w0 K S0 A B) as (A' & B' & C' & D'). split; [exact A'|]. split; [exact B'|]. split; [eapply veq_trans; eassumption|].
    intro Z. eapply veq_trans; [now apply D'|now apply D].
  - cbn [fst snd]. split; [apply veq_refl|]. split; [exact U|]. split; [apply veq_refl|]. intros _. apply veq_refl.
Qed.
