(** C161: changing the spacecraft's structure during a run. *)
From Coq Require Import Reals Lra Lia List Bool Arith ZArith FunctionalExtensionality.
From Verif Require Import Base RBase VecModel VecProofs LuModel LuSpec LuProps Trig QuatModel QuatSpec QuatProofs OrbitProofs HillProofs AttitudeModel AttitudeSpec AttitudeProofs AttitudeRunProofs AttitudeProps ChangeModel.
Import ListNotations.
Open Scope R_scope.

(** ** Rates along one axis that grow linearly *)
Section axis.
Context (f : vec -> vec) (e : vec) (alpha : R).
Hypothesis K : att_kin f.
Hypothesis A : forall x c, veq 3 x (vscal c e) -> veq 3 (f x) (vscal alpha e).
Lemma along x c d : veq 3 x (vscal c e) -> forall k, veq 3 k (vscal alpha e) -> veq 3 (vadd x (vscal d k)) (vscal (c + d * alpha) e).
Proof. intros X k Hk i Hi. unfold vadd, vscal. rewrite X, Hk by exact Hi. unfold vscal. ring. Qed.
Lemma axis_rates dt x c : veq 3 x (vscal c e) ->
  Forall (fun v => exists b, veq 3 v (vscal b e)) (stage_rates f dt x) /\ veq 3 (rk_increment f dt x) (vscal (c + dt * alpha) e).
Proof.
  intros X. unfold stage_rates, rk_increment, omega7.
  pose proof (A _ _ X) as K1. pose proof (along _ _ (dt / 2) X _ K1) as X2. pose proof (A _ _ X2) as K2.
  pose proof (along _ _ (dt / 2) X _ K2) as X3. pose proof (A _ _ X3) as K3. pose proof (along _ _ dt X _ K3) as X4. pose proof (A _ _ X4) as K4.
  split; [repeat constructor; eexists; eassumption|]. intros i Hi. unfold vadd, vscal. rewrite X, K1, K2, K3, K4 by exact Hi. unfold vscal. field.
Qed.
Lemma increment_axis dt w1 w2 w3 w4 : Forall (fun v => exists b, veq 3 v (vscal b e)) [w1; w2; w3; w4] ->
  exists k r, veq 4 (increment dt w1 w2 w3 w4) (q4 (k * e 0%nat) (k * e 1%nat) (k * e 2%nat) r).
Proof.
  intros B. pose proof (Forall_inv B) as [b1 B1]. apply Forall_inv_tail in B. pose proof (Forall_inv B) as [b2 B2]. apply Forall_inv_tail in B.
  pose proof (Forall_inv B) as [b3 B3]. apply Forall_inv_tail in B. pose proof (Forall_inv B) as [b4 B4]. clear B.
  unfold increment, stage4, stage3, stage2. rewrite (half_ext w1 _ B1), (half_ext w2 _ B2), (half_ext w3 _ B3), (half_ext w4 _ B4).
  set (d := e 0%nat * e 0%nat + e 1%nat * e 1%nat + e 2%nat * e 2%nat).
  exists (dt / 6 * (b1 / 2 + b2 + b3 + b4 / 2 - dt * dt / 16 * d * (b1 * b2 * b3 + b2 * b3 * b4))).
  exists (1 + dt / 6 * (dt * dt * dt / 64 * (b1 * b2 * b3 * b4) * (d * d) - dt / 4 * d * (b1 * b2 + b2 * b3 + b3 * b4))).
  unfold d. intros i Hi. i4 i Hi; cbv [half one4 vadd vscal qmul q4]; field.
Qed.
Lemma axis_kept c q k r : let p := q4 (k * e 0%nat) (k * e 1%nat) (k * e 2%nat) r in
  veq 3 (to_inertial (qscal c (qmul q p)) e) (vscal (c * c * dot 4 p p) (to_inertial q e)).
Proof. intros p i Hi. unfold p. i3 i Hi; cbv [to_inertial mvec mtrans to_dcm qscal qmul q4 m3 v3 sumn vscal dot]; ring. Qed.
(** one step: the rate grows by alpha dt; the quaternion is lost, or of length 1 with the axis where it was *)
Lemma axis_step dt w q c : veq 3 w (vscal c e) -> unit 4 q \/ norm 4 q = 0 ->
  let st := att_step f dt (w, q) in veq 3 (fst st) (vscal (c + dt * alpha) e) /\ (unit 4 (snd st) \/ norm 4 (snd st) = 0) /\
  (unit 4 (snd st) -> unit 4 q /\ veq 3 (to_inertial (snd st) e) (to_inertial q e)).
Proof.
  intros X U. pose proof (step_unit_or_zero f dt (w, q)) as UZ. revert UZ. unfold att_step. cbn [fst snd]. cbv zeta. intros UZ.
  assert (X7 : veq 3 (v7 w q) (vscal c e)) by (intros i Hi; rewrite v7_omega by exact Hi; now apply X).
  destruct (axis_rates dt (v7 w q) c X7) as (B & OM). split; [exact OM|]. split; [exact UZ|]. intros UN.
  destruct (step_product f dt w q K) as (w1 & w2 & w3 & w4 & E & P). rewrite E in B. destruct (increment_axis dt w1 w2 w3 w4 B) as (k & r & I).
  set (nq := quat7 (rk_increment f dt (v7 w q))) in *. set (p := q4 (k * e 0%nat) (k * e 1%nat) (k * e 2%nat) r) in *.
  assert (EQ : veq 4 nq (qmul q p)) by (eapply veq_trans; [exact P|]; apply qmul_ext; [apply veq_refl|exact I]).
  assert (NZ : norm 4 nq <> 0).
  { intro Z. assert (S2 : sq 4 nq = 0 + nq 0%nat * nq 0%nat + nq 1%nat * nq 1%nat + nq 2%nat * nq 2%nat + nq 3%nat * nq 3%nat) by reflexivity.
    apply norm_unit in UN. unfold qnormalize in UN. rewrite <- S2, <- (norm_sq 4 nq), Z, req_true in UN by ring. lra. }
  assert (UQ : unit 4 q).
  { destruct U as [U|U]; [exact U|]. exfalso. apply NZ. rewrite (norm_ext 4 _ _ EQ), qmul_norm4, U. ring. }
  split; [exact UQ|]. destruct (qnormalize_nonzero nq NZ) as (_ & b & _ & CE).
  assert (CE2 : veq 4 (qnormalize nq) (qscal b (qmul q p))) by (intros i Hi; rewrite CE by exact Hi; unfold qscal; now rewrite EQ).
  assert (CU : b * b * dot 4 p p = 1).
  { apply (unit4_ext _ _ (veq_sym 4 _ _ CE2)) in UN. unfold unit in UN, UQ. rewrite <- UN. transitivity (b * b * (dot 4 q q * dot 4 p p)); [rewrite UQ; ring|]. rewrite <- qmul_norm.
    unfold dot, qscal. rewrite <- sumn_scal. apply sumn_ext. intros. ring. }
  eapply veq_trans; [apply to_inertial_ext; [exact CE2|apply veq_refl]|]. eapply veq_trans; [apply (axis_kept b q k r)|]. intros i Hi. unfold vscal. fold p. rewrite CU. ring.
Qed.
Lemma axis_run ws : forall w q c, veq 3 w (vscal c e) -> unit 4 q \/ norm 4 q = 0 ->
  let st := run_steps f ws (w, q) in veq 3 (fst st) (vscal (c + fold_right Rplus 0 ws * alpha) e) /\ (unit 4 (snd st) \/ norm 4 (snd st) = 0) /\
  (unit 4 (snd st) -> unit 4 q /\ veq 3 (to_inertial (snd st) e) (to_inertial q e)).
Proof.
  induction ws as [|dt ws IH]; intros w q c X U; cbn [run_steps fold_left fold_right].
  - cbn [fst snd]. split; [intros i Hi; rewrite X by exact Hi; unfold vscal; ring|]. split; [exact U|]. intros U'. split; [exact U'|apply veq_refl].
  - destruct (axis_step dt w q c X U) as (A1 & A2 & A3). destruct (att_step f dt (w, q)) as [w' q']. cbn [fst snd] in *.
    destruct (IH w' q' _ A1 A2) as (B1 & B2 & B3). unfold run_steps in *. split; [intros i Hi; rewrite B1 by exact Hi; unfold vscal; ring|]. split; [exact B2|].
    intros U'. destruct (B3 U') as (U1 & E1). destruct (A3 U1) as (U2 & E2). split; [exact U2|]. eapply veq_trans; eassumption.
Qed.
End axis.

Lemma widths_sum k s t0 te : fold_right Rplus 0 (widths k s t0 te) = te - t0.
Proof.
  unfold widths. rewrite fold_right_app. cbn [fold_right]. rewrite Rplus_0_r.
  assert (G : forall x, fold_right Rplus x (repeat s k) = INR k * s + x); [|rewrite G; ring].
  intros x. induction k as [|k IH]; [cbn [repeat fold_right INR]; ring|]. cbn [repeat fold_right]. rewrite S_INR, IH. ring.
Qed.

(** The inertia tensor is changed (from [at_prev a] to [inertia]) before a propagation; the body turns about an axis that is a principal
    axis of both tensors, wheels and torque along it.  Then the propagation adds to the angular momentum along the axis exactly the
    impulse of the torque: a smaller moment of inertia makes the body spin faster.  If the quaternion is still of length 1, the axis stays
    where it was in inertial space, so the whole inertial angular momentum is conserved when there is no torque. *)
Theorem C161_inertia_change : forall coef0 index0 inverse0 fuel inertia a tend a' e c h j0 j1 t,
  att_propagate coef0 index0 inverse0 fuel true inertia a tend = Ok a' -> dot 3 e e = 1 -> unit 4 (at_q a) ->
  veq 3 (mvec 3 (at_prev a) e) (vscal j0 e) -> veq 3 (mvec 3 inertia e) (vscal j1 e) ->
  veq 3 (at_omega a) (vscal c e) -> veq 3 (at_h a) (vscal h e) -> veq 3 (at_torque a) (vscal t e) ->
  exists c', veq 3 (at_omega a') (vscal c' e) /\ j1 * c' + h = j0 * c + h + t * (tend - at_time a) /\ j1 <> 0 /\
    (unit 4 (at_q a') \/ norm 4 (at_q a') = 0) /\
    (unit 4 (at_q a') -> veq 3 (to_inertial (at_q a') e) (to_inertial (at_q a) e) /\
      (t = 0 -> veq 3 (momentum_i inertia (at_h a') (at_omega a') (at_q a')) (momentum_i (at_prev a) (at_h a) (at_omega a) (at_q a)))).
Proof.
  intros coef0 index0 inverse0 fuel inertia a tend a' e c h j0 j1 t H E1 U P0 P1 W HH T.
  apply propagate_spec in H. destruct H as (inv & k & INV & _ & _ & NE & RUN & _ & _ & _ & AH & _).
  set (d := mvec 3 (mscal _ _) _) in RUN. set (T0 := tend - at_time a) in *. assert (T0N : T0 <> 0) by (unfold T0; lra).
  assert (J1 : j1 <> 0).
  { intro Z. assert (EZ : veq 3 e (vconst 0)).
    { intros i Hi. rewrite <- (inverse_cancel2 inertia inv e INV i Hi). unfold mvec at 1. rewrite (sumn_0 3); [reflexivity|]. intros j Hj. rewrite (P1 j Hj). unfold vscal. rewrite Z. ring. }
    unfold dot in E1. rewrite sumn3 in E1. rewrite !EZ in E1 by lia. unfold vconst in E1. lra. }
  assert (MV : forall m b x, veq 3 x (vscal b e) -> forall l, veq 3 (mvec 3 m e) (vscal l e) -> veq 3 (mvec 3 m x) (vscal (b * l) e)).
  { intros m b x X l L i Hi. transitivity (b * mvec 3 m e i); [|rewrite (L i Hi); unfold vscal; ring].
    unfold mvec. rewrite <- sumn_scal. apply sumn_ext. intros j Hj. rewrite (X j Hj). unfold vscal. ring. }
  assert (IE : veq 3 (mvec 3 inv e) (vscal (1 / j1) e)).
  { intros i Hi. pose proof (inverse_cancel2 inertia inv e INV i Hi) as Q.
    assert (Q2 : mvec 3 inv (mvec 3 inertia e) i = j1 * mvec 3 inv e i).
    { unfold mvec at 1 3. rewrite <- sumn_scal. apply sumn_ext. intros j Hj. rewrite (P1 j Hj). unfold vscal. ring. }
    unfold vscal. rewrite <- Q, Q2. field. exact J1. }
  assert (D : veq 3 d (vscal (c * ((j1 - j0) / T0)) e)).
  { unfold d. apply MV; [exact W|]. intros i Hi. unfold vscal. transitivity (1 / T0 * (mvec 3 inertia e i - mvec 3 (at_prev a) e i)).
    - unfold mvec, mscal, msub. rewrite !sumn3. ring.
    - rewrite (P0 i Hi), (P1 i Hi). unfold vscal. field. exact T0N. }
  set (alpha := (t - c * ((j1 - j0) / T0)) / j1).
  assert (AX : forall x b, veq 3 x (vscal b e) -> veq 3 (att_deriv (at_prev a) inv (at_torque a) (at_h a) d x) (vscal alpha e)).
  { intros x b X i Hi. unfold att_deriv. rewrite v7_omega by exact Hi. unfold omega7.
    assert (NT : veq 3 (net_torque (at_prev a) (at_torque a) (at_h a) d x) (vscal (t - c * ((j1 - j0) / T0)) e)).
    { intros l Hl. unfold net_torque, vsub. rewrite (T l Hl), (D l Hl).
      rewrite (cross_ext x (vadd (mvec 3 (at_prev a) x) (at_h a)) (vscal b e) (vscal (b * j0 + h) e)); [|exact X| |exact Hl].
      - i3 l Hl; unfold vscal; cbn [cross]; ring.
      - intros m Hm. unfold vadd. rewrite (MV _ _ _ X _ P0 m Hm), (HH m Hm). unfold vscal. ring. }
    rewrite (MV inv _ _ NT _ IE i Hi). unfold vscal, alpha. field. auto. }
  destruct (axis_run _ e alpha (att_deriv_kin (at_prev a) inv (at_torque a) (at_h a) d) AX (widths k (at_step a) (at_time a) tend) (at_omega a) (at_q a) c W (or_introl U)) as (R1 & R2 & R3).
  pose proof (f_equal fst RUN) as F1. pose proof (f_equal snd RUN) as F2. cbn [fst snd] in F1, F2. rewrite widths_sum in R1. fold T0 in R1.
  assert (R1' : veq 3 (at_omega a') (vscal (c + T0 * alpha) e)) by (rewrite F1; exact R1).
  assert (R2' : unit 4 (at_q a') \/ norm 4 (at_q a') = 0) by (rewrite F2; exact R2).
  assert (R3' : unit 4 (at_q a') -> unit 4 (at_q a) /\ veq 3 (to_inertial (at_q a') e) (to_inertial (at_q a) e)) by (rewrite F2; exact R3).
  clear R1 R2 R3 F1 F2. rename R1' into R1, R2' into R2, R3' into R3.
  exists (c + T0 * alpha). split; [exact R1|]. split; [unfold alpha; field; auto|]. split; [exact J1|]. split; [exact R2|].
  intros UN. destruct (R3 UN) as (_ & R4). split; [exact R4|]. intros T00.
  assert (MB : forall m x b l, veq 3 x (vscal b e) -> veq 3 (mvec 3 m e) (vscal l e) -> veq 3 (momentum_b m (at_h a) x) (vscal (h + b * l) e)).
  { intros m x b l X L i Hi. unfold momentum_b, vadd. rewrite (MV _ _ _ X _ L i Hi), (HH i Hi). unfold vscal. ring. }
  assert (TS : forall q b, veq 3 (to_inertial q (vscal b e)) (vscal b (to_inertial q e))).
  { intros q b i Hi. unfold to_inertial, mvec, vscal. rewrite !sumn3. ring. }
  rewrite AH. intros i Hi. rewrite (momentum_i_inertial _ _ _ _ i Hi), (momentum_i_inertial _ _ _ _ i Hi).
  rewrite (to_inertial_ext _ _ _ _ (veq_refl 4 _) (MB _ _ _ _ R1 P1) i Hi), (to_inertial_ext _ _ _ _ (veq_refl 4 _) (MB _ _ _ _ W P0) i Hi).
  rewrite (TS _ _ i Hi), (TS _ _ i Hi). unfold vscal. rewrite (R4 i Hi). f_equal. unfold alpha. rewrite T00. field. auto.
Qed.
Print Assumptions C161_inertia_change.

(** The example component: through the activations with counts 0 to 1000 the structure is the configured one; from count 1001 on it is
    the new one - up to half the count range. *)
Lemma count_small k : (0 <= k < 2 ^ 31)%Z -> int_of_count k = k.
Proof. intros H. unfold int_of_count. rewrite Z.mod_small by lia. destruct (Z.ltb_spec k (2 ^ 31)); [reflexivity|lia]. Qed.
Definition changed (s : structure) (rest : list R) : structure :=
  mkStructure 100 (v3 (1 / 100) (- (1 / 100)) (2 / 100)) (v3 (1 / 10) (- (1 / 10)) (2 / 10)) (1 / 2 :: rest) (fun i j => if Nat.eqb i j then 2 / 10 else 0).
Theorem C161_example_structure : forall n s,
  ((n <= 1001)%nat -> change_run n 0 s = Ok s) /\
  (forall first rest, areas s = first :: rest -> (1001 < n)%nat -> change_run n 0 s = Ok (changed s rest)) /\
  (areas s = [] -> (1001 < n)%nat -> change_run n 0 s = UB).
Proof.
  assert (G0 : forall n k s, (0 <= k)%Z -> (k + Z.of_nat n <= 1001)%Z -> change_run n k s = Ok s).
  { induction n as [|n IH]; intros k s K B; [reflexivity|]. cbn [change_run]. unfold change_routine. rewrite count_small by lia.
    destruct (Z.ltb_spec 1000 k); [lia|]. cbn [bind]. apply IH; lia. }
  assert (SPL : forall m n k s, (0 <= k)%Z -> (k + Z.of_nat m <= 1001)%Z -> change_run (m + n) k s = change_run n (k + Z.of_nat m)%Z s).
  { induction m as [|m IH]; intros n k s K B; [cbn [Nat.add]; f_equal; lia|]. cbn [Nat.add change_run]. unfold change_routine. rewrite count_small by lia.
    destruct (Z.ltb_spec 1000 k); [lia|]. cbn [bind]. rewrite IH by lia. f_equal. lia. }
  intros n s. split; [intros; apply G0; lia|]. split.
  - intros first rest EA B. replace n with (1001 + (n - 1001))%nat by lia. rewrite SPL by lia. change (0 + Z.of_nat 1001)%Z with 1001%Z.
    destruct (n - 1001)%nat as [|m] eqn:EM; [lia|]. cbn [change_run]. unfold change_routine at 1. rewrite count_small by lia. cbn [Z.ltb Z.compare Pos.compare Pos.compare_cont]. rewrite EA. cbn [set_first_area bind].
    assert (LATER : forall m k, change_run m k (changed s rest) = Ok (changed s rest)); [|apply LATER].
    induction m0 as [|m0 IH]; intros k; [reflexivity|]. cbn [change_run]. unfold change_routine. destruct (1000 <? int_of_count k)%Z; cbn [changed areas set_first_area bind]; apply IH.
  - intros EA B. replace n with (1001 + (n - 1001))%nat by lia. rewrite SPL by lia. change (0 + Z.of_nat 1001)%Z with 1001%Z.
    destruct (n - 1001)%nat as [|m] eqn:EM; [lia|]. cbn [change_run]. unfold change_routine at 1. rewrite count_small by lia. cbn [Z.ltb Z.compare Pos.compare Pos.compare_cont]. rewrite EA. reflexivity.
Qed.
Print Assumptions C161_example_structure.

(** So a body turning without torque about a principal axis with moment j0 turns, after the example has changed the structure and one
    propagation, at 5 j0 times its rate - about the same axis, whatever the axis. *)
Theorem C161_example_spin : forall coef0 index0 inverse0 fuel n s s' a tend a' e c j0, (1001 < n)%nat -> change_run n 0 s = Ok s' ->
  att_propagate coef0 index0 inverse0 fuel true (ChangeModel.inertia s') a tend = Ok a' -> at_prev a = ChangeModel.inertia s -> dot 3 e e = 1 -> unit 4 (at_q a) ->
  veq 3 (mvec 3 (ChangeModel.inertia s) e) (vscal j0 e) ->
  veq 3 (at_omega a) (vscal c e) -> veq 3 (at_h a) (vconst 0) -> veq 3 (at_torque a) (vconst 0) ->
  veq 3 (at_omega a') (vscal (5 * j0 * c) e).
Proof.
  intros coef0 index0 inverse0 fuel n s s' a tend a' e c j0 N CR H PV E1 U P0 W HH T.
  assert (I1 : ChangeModel.inertia s' = fun i j => if Nat.eqb i j then 2 / 10 else 0).
  { destruct (C161_example_structure n s) as (_ & A & B). destruct (areas s) as [|x rest] eqn:EA.
    - rewrite (B eq_refl N) in CR. discriminate.
    - rewrite (A x rest eq_refl N) in CR. injection CR as <-. reflexivity. }
  destruct (C161_inertia_change _ _ _ _ _ _ _ _ e c 0 j0 (2 / 10) 0 H E1 U) as (c' & W' & Q & _).
  - rewrite PV. exact P0.
  - rewrite I1. intros i Hi. unfold mvec, vscal. rewrite sumn3. i3 i Hi; cbn [Nat.eqb]; ring.
  - exact W.
  - intros i Hi. rewrite (HH i Hi). unfold vscal, vconst. ring.
  - intros i Hi. rewrite (T i Hi). unfold vscal, vconst. ring.
  - intros i Hi. rewrite (W' i Hi). unfold vscal. replace c' with (5 * j0 * c) by lra. reflexivity.
Qed.
Print Assumptions C161_example_spin.

(** A case that meets the hypotheses: moments 1, 2, 3 become 2, 3, 4 while turning about the third axis. *)
Definition ex_inertia2 : mat := fun i j => if Nat.eqb i j then INR (S (S i)) else 0.
Example ex161 : exists fuel a', att_propagate (vconst 0) (fun _ => O) (fun _ _ => 0) fuel true ex_inertia2 ex_att (1 / 4) = Ok a' /\ veq 3 (at_omega a') (v3 0 0 (3 / 4)).
Proof.
  destruct (C72_outcome (vconst 0) (fun _ => O) (fun _ _ => 0) ex_inertia2 ex_att (1 / 4)) as (_ & _ & _ & OK & _).
  destruct OK as (n & OK); [cbn; lra| |cbn; lra|].
  { exists (fun i j => if Nat.eqb i j then / INR (S (S i)) else 0). intros i j Hi Hj. rewrite !sumn3. i3 i Hi; i3 j Hj; cbn [ex_inertia2 Nat.eqb INR]; split; field. }
  destruct (OK n (le_n n)) as (a' & E). exists n, a'. split; [exact E|].
  destruct (C161_inertia_change _ _ _ _ _ _ _ _ (v3 0 0 1) 1 0 3 4 0 E) as (c' & W & Q & _); cbn [ex_att at_prev at_q at_torque at_omega at_h at_time].
  - unfold dot. rewrite sumn3. cbv [v3]. ring.
  - unfold unit, dot. cbn [sumn q4]. ring.
  - intros i Hi. unfold mvec. rewrite sumn3. i3 i Hi; cbv [ex_inertia Nat.eqb INR vscal v3]; ring.
  - intros i Hi. unfold mvec. rewrite sumn3. i3 i Hi; cbv [ex_inertia2 Nat.eqb INR vscal v3]; ring.
  - intros i Hi. i3 i Hi; cbv [vscal v3]; ring.
  - intros i Hi. unfold vscal, vconst. ring.
  - intros i Hi. unfold vscal, vconst. ring.
  - intros i Hi. rewrite (W i Hi). unfold vscal. replace c' with (3 / 4) by lra. i3 i Hi; cbv [v3]; ring.
Qed.
