(** Proofs about the reaction wheel. *)
From Coq Require Import Reals Lra Lia List Bool ZArith.
From Verif Require Import RBase VecModel VecProofs QuatModel QuatSpec QuatProofs OdeModel WheelModel WheelSpec.
Import ListNotations.
Open Scope R_scope.

(** * One integration step *)
Definition gate (l a w : R) : R :=
  if rlt l w then (if rlt 0 a then 0 else a) else if rlt w (-1 * l) then (if rlt a 0 then 0 else a) else a.

Lemma gate_or l a w : gate l a w = a \/ gate l a w = 0.
Proof. unfold gate. destruct (rlt l w), (rlt 0 a), (rlt w (-1 * l)), (rlt a 0); auto. Qed.
Lemma gate_0 l w : gate l 0 w = 0.
Proof. destruct (gate_or l 0 w); assumption. Qed.

Lemma ode_step l a (o : ode) :
  exists a1 a2 a3 a4,
    a1 = gate l a (state o 0%nat) /\ a2 = gate l a1 (state o 0%nat + 5 / 10 * (step_width o * a1)) /\
    a3 = gate l a2 (state o 0%nat + 5 / 10 * (step_width o * a2)) /\ a4 = gate l a3 (state o 0%nat + step_width o * a3) /\
    state (fst (ode_update (wheel_deriv l) a o)) 0%nat
      = state o 0%nat + step_width o * ((a1 + 2 * (a2 + a3) + a4) / 6) /\
    step_width (fst (ode_update (wheel_deriv l) a o)) = step_width o /\
    snd (ode_update (wheel_deriv l) a o) = a4.
Proof.
  do 4 eexists. repeat split; cbn -[gate Rdiv]; try reflexivity.
  fold (gate l a (state o 0%nat)).
  set (a1 := gate l a (state o 0%nat)).
  unfold vadd, vscal, vconst.
  fold (gate l a1 (state o 0%nat + 5 / 10 * (step_width o * a1))).
  set (a2 := gate l a1 (state o 0%nat + 5 / 10 * (step_width o * a1))).
  fold (gate l a2 (state o 0%nat + 5 / 10 * (step_width o * a2))).
  set (a3 := gate l a2 (state o 0%nat + 5 / 10 * (step_width o * a2))).
  fold (gate l a3 (state o 0%nat + step_width o * a3)).
  set (a4 := gate l a3 (state o 0%nat + step_width o * a3)).
  field.
Qed.

(** the mean acceleration of a step lies between 0 and the one asked for *)
Lemma ode_step_between l a (o : ode) :
  exists m, state (fst (ode_update (wheel_deriv l) a o)) 0%nat = state o 0%nat + step_width o * m /\
            (0 <= m <= a \/ a <= m <= 0) /\
            (gate l a (state o 0%nat) = 0 -> m = 0).
Proof.
  destruct (ode_step l a o) as (a1 & a2 & a3 & a4 & H1 & H2 & H3 & H4 & E & _ & _).
  exists ((a1 + 2 * (a2 + a3) + a4) / 6). split; [exact E|].
  destruct (gate_or l a (state o 0%nat)) as [G|G]; rewrite G in H1.
  - destruct (gate_or l a1 (state o 0%nat + 5 / 10 * (step_width o * a1))) as [G2|G2]; rewrite G2 in H2;
    destruct (gate_or l a2 (state o 0%nat + 5 / 10 * (step_width o * a2))) as [G3|G3]; rewrite G3 in H3;
    destruct (gate_or l a3 (state o 0%nat + step_width o * a3)) as [G4|G4]; rewrite G4 in H4;
    (split; [destruct (Rle_dec 0 a); [left|right]; lra | intros Z; rewrite Z in G; lra]).
  - rewrite H1, gate_0 in H2. rewrite H2, gate_0 in H3. rewrite H3, gate_0 in H4. subst.
    split; [destruct (Rle_dec 0 a); [left|right]; lra | intros; lra].
Qed.

Lemma gate_inside l a w : - l <= w <= l -> gate l a w = a.
Proof. intros H. unfold gate. rewrite rlt_false by lra. rewrite rlt_false by lra. reflexivity. Qed.
Lemma gate_up l a w : 0 <= a -> w <= l -> gate l a w = a.
Proof. intros Ha H. unfold gate. rewrite (rlt_false l w) by lra. rewrite (rlt_false a 0) by lra. destruct (rlt w (-1 * l)); reflexivity. Qed.
Lemma gate_down l a w : a <= 0 -> l < w \/ - l <= w -> gate l a w = a.
Proof.
  intros Ha H. unfold gate. rewrite (rlt_false 0 a) by lra.
  destruct (rlt_spec l w); [reflexivity|]. rewrite rlt_false by lra. reflexivity.
Qed.

Lemma ode_step_exact l a (o : ode) :
  let w := state o 0%nat in let h := step_width o in
  gate l a w = a -> gate l a (w + 5 / 10 * (h * a)) = a -> gate l a (w + h * a) = a ->
  state (fst (ode_update (wheel_deriv l) a o)) 0%nat = w + h * a.
Proof.
  cbv zeta. intros G1 G2 G3.
  destruct (ode_step l a o) as (a1 & a2 & a3 & a4 & H1 & H2 & H3 & H4 & E & _ & _).
  rewrite G1 in H1. subst a1. rewrite G2 in H2. subst a2. rewrite G2 in H3. subst a3. rewrite G3 in H4. subst a4.
  rewrite E. field.
Qed.

Lemma ode_step_bound l a (o : ode) : 0 <= step_width o ->
  Rabs (state (fst (ode_update (wheel_deriv l) a o)) 0%nat) <= Rmax (Rabs (state o 0%nat)) (Rabs l + Rabs a * step_width o).
Proof.
  intros Hh. destruct (ode_step_between l a o) as (m & E & B & Z). rewrite E.
  set (w := state o 0%nat) in *. set (h := step_width o) in *.
  assert (Hm : Rabs (h * m) <= Rabs a * h).
  { rewrite Rabs_mult, (Rabs_pos_eq h Hh), Rmult_comm. apply Rmult_le_compat_r; [exact Hh|].
    destruct B; [rewrite !Rabs_pos_eq by lra | rewrite !Rabs_left1 by lra]; lra. }
  assert (Keep : m = 0 -> Rabs (w + h * m) <= Rmax (Rabs w) (Rabs l + Rabs a * h)).
  { intros ->. rewrite Rmult_0_r, Rplus_0_r. apply Rmax_l. }
  apply Rabs_le_both in Hm.
  pose proof (Rle_abs w) as W1. pose proof (Rle_abs (- w)) as W2. rewrite Rabs_Ropp in W2.
  pose proof (Rle_abs l) as L1. pose proof (Rle_abs (- l)) as L2. rewrite Rabs_Ropp in L2.
  pose proof (Rmax_l (Rabs w) (Rabs l + Rabs a * h)) as M1.
  pose proof (Rmax_r (Rabs w) (Rabs l + Rabs a * h)) as M2.
  destruct (Rlt_dec 0 a) as [Ha|Ha].
  - destruct (Rlt_dec l w) as [Hl|Hl].
    + apply Keep, Z. unfold gate. rewrite (rlt_true l w) by assumption. rewrite rlt_true by assumption. reflexivity.
    + assert (0 <= h * m) by (apply Rmult_le_pos; [exact Hh|destruct B; lra]).
      apply Rabs_le. split; lra.
  - destruct (Rlt_dec a 0) as [Ha2|Ha2].
    + assert (h * m <= 0) by (destruct B; [lra|]; rewrite <- (Rmult_0_r h); apply Rmult_le_compat_l; lra).
      destruct (Rlt_dec l w) as [Hl|Hl].
      * apply Rabs_le. split; lra.
      * destruct (Rlt_dec w (-1 * l)) as [Hl2|Hl2].
        -- apply Keep, Z. unfold gate. rewrite (rlt_false l w) by lra. rewrite (rlt_true w) by lra. rewrite rlt_true by lra. reflexivity.
        -- apply Rabs_le. split; lra.
    + apply Keep. destruct B; lra.
Qed.

(** * The invariant of every reachable wheel *)
Definition consistent (c : wheel_config) (w : wheel) : Prop :=
  state (rw_ode w) 0%nat = rw_speed w /\ step_width (rw_ode w) = rw_step c.

Lemma consistent_new c d s : consistent c (wheel_new c d s).
Proof. split; reflexivity. Qed.

Definition next_input (c : wheel_config) (w : wheel) : R * R := lag_update (rw_step c) (rw_tau c) (rw_lag w) (hd 0 (rw_buffer w)).

Lemma calc_driven c w : rw_drive w = true ->
  calc_torque c w =
    let speed := state (fst (ode_update (wheel_deriv (rw_ode_limit w)) (fst (next_input c w)) (rw_ode w))) 0%nat in
    let gen := (speed - rw_speed w) / rw_step c in
    mkWheel true (rw_limit_rpm w)
      (fst (ode_update (wheel_deriv (rw_ode_limit w)) (fst (next_input c w)) (rw_ode w)))
      (snd (ode_update (wheel_deriv (rw_ode_limit w)) (fst (next_input c w)) (rw_ode w)))
      (rw_ode_limit w) (snd (next_input c w)) (tl (rw_buffer w ++ [rw_target w])) (rw_target w) speed gen
      (vscal (-1 * rw_inertia c * gen) (wheel_axis c)) (vscal (rw_inertia c * speed) (wheel_axis c)).
Proof.
  intros D. unfold calc_torque, next_input. rewrite D. cbn [negb].
  destruct (lag_update _ _ _ _) as [a lag]. cbn [fst snd]. destruct (ode_update _ a (rw_ode w)) as [o' acc']. reflexivity.
Qed.

Lemma state_setup o x v : state (ode_setup o x v) = v.
Proof. reflexivity. Qed.
Lemma width_update {S : Type} (d : S -> R -> vec -> vec * S) s o : step_width (fst (ode_update d s o)) = step_width o.
Proof. unfold ode_update. destruct (d s _ _), (d _ _ _), (d _ _ _), (d _ _ _). reflexivity. Qed.

Lemma calc_consistent c w : consistent c w -> consistent c (calc_torque c w).
Proof.
  intros [Hs Hw]. unfold calc_torque, consistent.
  destruct (rw_drive w); cbn [negb].
  - destruct (lag_update _ _ _ _) as [a lag].
    pose proof (width_update (wheel_deriv (rw_ode_limit w)) a (rw_ode w)) as W.
    destruct (ode_update _ a (rw_ode w)) as [o' acc']. cbn in *. split; congruence.
  - destruct (rlt (Rabs (rw_speed w)) (rw_stop c)).
    + match goal with |- context [ode_update ?d ?a ?o] => pose proof (width_update d a o) as W; destruct (ode_update d a o) as [o' acc'] end.
      cbn in *. split; congruence.
    + destruct (rlt 0 (rw_speed w));
      match goal with |- context [ode_update ?d ?a ?o] => pose proof (width_update d a o) as W; destruct (ode_update d a o) as [o' acc'] end;
      cbn in *; split; congruence.
Qed.
Lemma do_consistent c w e : consistent c w -> consistent c (wheel_do c w e).
Proof.
  intros H. destruct e; cbn [wheel_do]; try exact H; [| |apply calc_consistent, H].
  - unfold set_target_torque_rw. destruct (rlt _ _); exact H.
  - unfold set_target_torque_b, set_target_torque_rw. destruct (rlt _ _); exact H.
Qed.
Lemma run_consistent c w ops : consistent c w -> consistent c (wheel_run c w ops).
Proof. revert w. induction ops as [|e r IH]; intros w H; [exact H|]. apply IH, do_consistent, H. Qed.

Lemma run_app c w a b : wheel_run c w (a ++ b) = wheel_run c (wheel_run c w a) b.
Proof. revert w. induction a as [|e r IH]; intros w; [reflexivity|]. apply IH. Qed.

(** * Momentum *)
Lemma calc_outputs c w :
  (forall i, rw_torque_b (calc_torque c w) i = -1 * rw_inertia c * ((rw_speed (calc_torque c w) - rw_speed w) / rw_step c) * wheel_axis c i) /\
  (forall i, rw_momentum_b (calc_torque c w) i = rw_inertia c * rw_speed (calc_torque c w) * wheel_axis c i) /\
  rw_generated (calc_torque c w) = (rw_speed (calc_torque c w) - rw_speed w) / rw_step c.
Proof.
  unfold calc_torque.
  destruct (rw_drive w); cbn [negb].
  - destruct (lag_update _ _ _ _) as [a lag]. destruct (ode_update _ a (rw_ode w)) as [o' acc']. cbn. repeat split; reflexivity.
  - destruct (rlt (Rabs (rw_speed w)) (rw_stop c)); [|destruct (rlt 0 (rw_speed w))];
    match goal with |- context [ode_update ?d ?a ?o] => destruct (ode_update d a o) as [o' acc'] end; cbn; repeat split; reflexivity.
Qed.

Lemma other_ops c w e : e <> StepOn ->
  rw_speed (wheel_do c w e) = rw_speed w /\ rw_momentum_b (wheel_do c w e) = rw_momentum_b w /\ rw_torque_b (wheel_do c w e) = rw_torque_b w.
Proof.
  intros N. destruct e; cbn [wheel_do]; try (split; [|split]; reflexivity); [| |congruence].
  - unfold set_target_torque_rw. destruct (rlt _ _); repeat split; reflexivity.
  - unfold set_target_torque_b, set_target_torque_rw. destruct (rlt _ _); repeat split; reflexivity.
Qed.

Lemma conservation c w ops i : rw_step c <> 0 ->
  impulse c w ops i + rw_inertia c * (rw_speed (wheel_run c w ops) - rw_speed w) * wheel_axis c i = 0.
Proof.
  intros Hs. revert w. induction ops as [|e r IH]; intros w; [cbn; ring|].
  cbn [impulse wheel_run]. specialize (IH (wheel_do c w e)).
  destruct e; try (destruct (other_ops c w _ ltac:(discriminate) : _ /\ _ /\ _) as (E & _ & _); fail);
  match goal with
  | |- context [wheel_do c w StepOn] => destruct (calc_outputs c w) as (T & _ & _); cbn [wheel_do] in *; rewrite T
  | |- context [wheel_do c w ?e] => destruct (other_ops c w e ltac:(discriminate)) as (E & _ & _); rewrite E in IH
  end; try lra.
  replace (-1 * rw_inertia c * ((rw_speed (calc_torque c w) - rw_speed w) / rw_step c) * wheel_axis c i * rw_step c)
    with (-1 * rw_inertia c * (rw_speed (calc_torque c w) - rw_speed w) * wheel_axis c i) by (field; exact Hs).
  lra.
Qed.

Lemma op_dec (e : wheel_op) : {e = StepOn} + {e <> StepOn}.
Proof. destruct e; (left; reflexivity) || (right; discriminate). Qed.

Lemma momentum_reported c w ops :
  (In StepOn ops -> forall i, rw_momentum_b (wheel_run c w ops) i = rw_inertia c * rw_speed (wheel_run c w ops) * wheel_axis c i) /\
  (~ In StepOn ops -> rw_momentum_b (wheel_run c w ops) = rw_momentum_b w /\ rw_speed (wheel_run c w ops) = rw_speed w).
Proof.
  induction ops as [|e r IH] using rev_ind; [split; [intros []|intros _; split; reflexivity]|].
  rewrite run_app. cbn [wheel_run]. destruct IH as [IH1 IH2]. set (x := wheel_run c w r) in *.
  destruct (op_dec e) as [->|N].
  - split; [|intros H; exfalso; apply H, in_or_app; right; left; reflexivity].
    intros _ i. cbn [wheel_do]. apply (calc_outputs c x).
  - destruct (other_ops c x e N) as (E1 & E2 & _). rewrite E1, E2. split.
    + intros H. apply in_app_or in H. destruct H as [H|[H|[]]]; [exact (IH1 H)|congruence].
    + intros H. apply IH2. intros K. apply H, in_or_app. left. exact K.
Qed.

(** * The axis *)
Lemma axis_spec c : unit 4 (rw_q_b2c c) ->
  unit 3 (wheel_axis c) /\ veq 3 (frame_conversion (rw_q_b2c c) (wheel_axis c)) (v3 0 0 1).
Proof.
  intros U. pose proof (dcm_rotation _ U) as Rt. destruct Rt as (R1 & R2 & _).
  assert (A : forall i, (i < 3)%nat -> wheel_axis c i = to_dcm (rw_q_b2c c) 2%nat i).
  { intros i Hi. unfold wheel_axis. rewrite (inverse_frame_dcm _ _ i Hi). unfold mvec, mtrans. rewrite sumn3. cbn [v3]. ring. }
  split.
  - unfold unit, dot. rewrite sumn3, !A by lia.
    specialize (R1 2%nat 2%nat ltac:(lia) ltac:(lia)). unfold mmul, mtrans, mident in R1. rewrite sumn3 in R1. cbn in R1. exact R1.
  - intros i Hi. rewrite (frame_dcm _ _ i Hi). unfold mvec. rewrite sumn3, !A by lia.
    specialize (R1 i 2%nat Hi ltac:(lia)). unfold mmul, mtrans, mident in R1. rewrite sumn3 in R1. rewrite R1.
    destruct i as [|[|[|i]]]; [reflexivity..|lia].
Qed.

(** * Commands *)
Lemma command_saturates c w t : 0 < rw_inertia c -> 0 <= rw_max_torque c ->
  rw_target (set_target_torque_rw c w t) = clamp (rw_max_torque c) t / rw_inertia c.
Proof.
  intros HI HM. unfold set_target_torque_rw, clamp.
  destruct (rlt_spec (Rabs t) (rw_max_torque c)) as [L|G]; cbn [set_target rw_target]; f_equal.
  - apply Rlt_le, Rabs_le_both in L. rewrite Rmin_right by lra. rewrite Rmax_right by lra. reflexivity.
  - destruct (rlt_spec 0 t) as [P|P]; cbn [set_target rw_target].
    + rewrite Rabs_pos_eq in G by lra. rewrite Rmin_left by lra. rewrite Rmax_right by lra. ring.
    + rewrite Rabs_left1 in G by lra. rewrite Rmin_right by lra. rewrite Rmax_left by lra. ring.
Qed.
Lemma clamp_bound m x : 0 <= m -> Rabs (clamp m x) <= m.
Proof. intros H. unfold clamp. apply Rabs_le. unfold Rmax, Rmin. destruct (Rle_dec m x); destruct (Rle_dec _ _); lra. Qed.
Lemma clamp_id m x : Rabs x <= m -> clamp m x = x.
Proof. intros H. apply Rabs_le_both in H. unfold clamp. rewrite Rmin_right by lra. apply Rmax_right. lra. Qed.

(** * Delay and lag *)
Lemma lag_update_eq dt tau out u : 0 < dt -> 0 <= tau -> lag_update dt tau out u = ((tau * out + dt * u) / (dt + tau), (tau * out + dt * u) / (dt + tau)).
Proof. intros Hd Ht. unfold lag_update. rewrite rle_false by lra. f_equal; field; lra. Qed.

Lemma buffer_length_bounds c : 0 < rw_step c -> 0 <= rw_dead c ->
  rw_dead c < INR (wheel_buffer_length c) * rw_step c <= rw_dead c + rw_step c.
Proof.
  intros Hs Hd. unfold wheel_buffer_length. rewrite plus_INR. set (x := rw_dead c / rw_step c).
  assert (Hx : 0 <= x) by (apply Rmult_le_pos; [lra|apply Rlt_le, Rinv_0_lt_compat, Hs]).
  assert (Ex : rw_dead c = x * rw_step c) by (unfold x; field; lra).
  destruct (base_Int_part x) as [B1 B2].
  assert (Hz : (0 <= Int_part x)%Z).
  { apply le_IZR. apply Rnot_lt_le. intros K. assert (Int_part x < 0)%Z as K2 by (apply lt_IZR; exact K).
    assert (IZR (Int_part x) <= -1) by (apply (IZR_le _ (-1)); lia). lra. }
  rewrite INR_IZR_INZ, Z2Nat.id by exact Hz. cbn [INR]. rewrite Ex. split; [apply Rmult_lt_compat_r; lra|].
  replace (x * rw_step c + rw_step c) with ((x + 1) * rw_step c) by ring. apply Rmult_le_compat_r; lra.
Qed.

(** contents of the buffer after n driven steps *)
Definition window (d : nat) (u : nat -> R) (n : nat) : list R := map (delayed d u) (seq n d).

Lemma window_0 d u : window d u 0 = repeat 0 d.
Proof.
  assert (G : forall m s, (s + m <= d)%nat -> map (delayed d u) (seq s m) = repeat 0 m).
  { induction m as [|m IH]; intros s H; [reflexivity|]. cbn [seq map repeat]. rewrite IH by lia. f_equal.
    unfold delayed. destruct (Nat.ltb_spec s d); [reflexivity|lia]. }
  apply G. lia.
Qed.
Lemma window_hd d u n : (0 < d)%nat -> hd 0 (window d u n) = delayed d u n.
Proof. intros H. unfold window. destruct d; [lia|]. reflexivity. Qed.
Lemma window_next d u n : (0 < d)%nat -> tl (window d u n ++ [u n]) = window d u (S n).
Proof.
  intros H. unfold window. destruct d as [|d]; [lia|].
  rewrite (seq_S d (S n)), map_app. cbn [seq map app tl]. f_equal. f_equal.
  unfold delayed. destruct (Nat.ltb_spec (S n + d) (S d)); [lia|]. f_equal. lia.
Qed.

Definition lag_of (c : wheel_config) (u : nat -> R) (n : nat) : R :=
  lag_response (rw_step c) (rw_tau c) (delayed (wheel_buffer_length c) (fun k => clamp (rw_max_torque c) (u k) / rw_inertia c)) n.

Lemma driven_run c u s0 n :
  0 < rw_step c -> 0 <= rw_tau c -> 0 < rw_inertia c -> 0 <= rw_max_torque c ->
  let w := wheel_run c (wheel_new c true s0) (command_steps u n) in
  rw_drive w = true /\ rw_ode_limit w = rw_max_rpm c * rpm_to_rad_s /\ rw_lag w = lag_of c u n /\
  rw_buffer w = window (wheel_buffer_length c) (fun k => clamp (rw_max_torque c) (u k) / rw_inertia c) n /\
  consistent c w.
Proof.
  intros Hs Ht HI HM. cbv zeta.
  induction n as [|n IH].
  - cbn [command_steps wheel_run]. repeat split. rewrite window_0. reflexivity.
  - destruct IH as (D & L & G & B & C). cbn [command_steps]. rewrite run_app. cbn [wheel_run wheel_do].
    set (w := wheel_run c (wheel_new c true s0) (command_steps u n)) in *.
    set (w1 := set_target_torque_rw c w (u n)).
    assert (C1 : consistent c w1) by (apply (do_consistent c w (CommandRw (u n)) C)).
    assert (D1 : rw_drive w1 = true /\ rw_ode_limit w1 = rw_max_rpm c * rpm_to_rad_s /\ rw_lag w1 = lag_of c u n /\
            rw_buffer w1 = window (wheel_buffer_length c) (fun k => clamp (rw_max_torque c) (u k) / rw_inertia c) n).
    { unfold w1, set_target_torque_rw. destruct (rlt _ _); cbn; auto. }
    destruct D1 as (D1 & L1 & G1 & B1).
    assert (T1 : rw_target w1 = clamp (rw_max_torque c) (u n) / rw_inertia c) by (apply command_saturates; assumption).
    assert (P : (0 < wheel_buffer_length c)%nat) by (unfold wheel_buffer_length; lia).
    pose proof (calc_consistent c w1 C1) as C2.
    split; [|split; [|split; [|split; [|exact C2]]]]; rewrite calc_driven by exact D1; cbn [rw_drive rw_ode_limit rw_lag rw_buffer].
    + reflexivity.
    + exact L1.
    + unfold next_input. rewrite lag_update_eq by assumption. cbn [snd]. rewrite B1, window_hd, G1 by exact P. reflexivity.
    + rewrite B1, T1. rewrite (window_next _ (fun k => clamp (rw_max_torque c) (u k) / rw_inertia c)) by exact P. reflexivity.
Qed.

Lemma driven_response c u s0 n :
  0 < rw_step c -> 0 <= rw_tau c -> 0 < rw_inertia c -> 0 <= rw_max_torque c ->
  (forall k, (k <= n)%nat -> Rabs (s0 + rw_step c * sumn k (fun j => lag_of c u (S j))) <= rw_max_rpm c * rpm_to_rad_s) ->
  rw_speed (wheel_run c (wheel_new c true s0) (command_steps u n)) = s0 + rw_step c * sumn n (fun j => lag_of c u (S j)).
Proof.
  intros Hs Ht HI HM. induction n as [|n IH]; intros Hb.
  - cbn [command_steps wheel_run sumn]. change (rw_speed (wheel_new c true s0)) with s0. ring.
  - specialize (IH ltac:(intros k Hk; apply Hb; lia)).
    cbn [command_steps]. rewrite run_app. cbn [wheel_run wheel_do].
    destruct (driven_run c u s0 n Hs Ht HI HM) as (D & L & G & B & C).
    set (w := wheel_run c (wheel_new c true s0) (command_steps u n)) in *.
    set (w1 := set_target_torque_rw c w (u n)).
    assert (C1 : consistent c w1) by (apply (do_consistent c w (CommandRw (u n)) C)).
    assert (D1 : rw_drive w1 = true /\ rw_ode_limit w1 = rw_max_rpm c * rpm_to_rad_s /\ rw_lag w1 = lag_of c u n /\ rw_speed w1 = rw_speed w /\
            rw_buffer w1 = window (wheel_buffer_length c) (fun k => clamp (rw_max_torque c) (u k) / rw_inertia c) n).
    { unfold w1, set_target_torque_rw. destruct (rlt _ _); cbn; auto. }
    destruct D1 as (D1 & L1 & G1 & S1 & B1).
    assert (P : (0 < wheel_buffer_length c)%nat) by (unfold wheel_buffer_length; lia).
    destruct C1 as [CS CW].
    assert (N : fst (next_input c w1) = lag_of c u (S n)).
    { unfold next_input. rewrite lag_update_eq by assumption. cbn [fst]. rewrite B1, window_hd, G1 by exact P. reflexivity. }
    rewrite calc_driven by exact D1. cbn [rw_speed]. rewrite N, L1.
    pose proof (Hb n ltac:(lia)) as H0. pose proof (Hb (S n) ltac:(lia)) as H1. cbn [sumn] in H1.
    cbn [sumn]. set (sm := sumn n (fun j => lag_of c u (S j))) in *. set (y := lag_of c u (S n)) in *. set (l := rw_max_rpm c * rpm_to_rad_s) in *.
    rewrite Rmult_plus_distr_l in H1. apply Rabs_le_both in H0. apply Rabs_le_both in H1.
    rewrite ode_step_exact; rewrite ?CS, ?CW, ?S1, ?IH.
    + ring.
    + apply gate_inside. exact H0.
    + apply gate_inside. lra.
    + apply gate_inside. lra.
Qed.

Lemma lag_constant dt tau a d n : 0 < dt -> 0 <= tau ->
  lag_response dt tau (delayed d (fun _ => a)) (d + n) = a * (1 - (tau / (dt + tau)) ^ n).
Proof.
  intros Hd Ht.
  assert (Z : forall k, (k <= d)%nat -> lag_response dt tau (delayed d (fun _ => a)) k = 0).
  { induction k as [|k IH]; intros Hk; [reflexivity|]. cbn [lag_response]. rewrite IH by lia.
    unfold delayed. destruct (Nat.ltb_spec k d); [|lia]. field. lra. }
  induction n as [|n IH].
  - rewrite Nat.add_0_r, Z by lia. cbn. ring.
  - rewrite Nat.add_succ_r. cbn [lag_response]. rewrite IH. unfold delayed.
    destruct (Nat.ltb_spec (d + n) d); [lia|]. cbn [pow]. field. lra.
Qed.

Lemma lag_bounded dt tau u m n : 0 < dt -> 0 <= tau -> 0 <= m -> (forall k, Rabs (u k) <= m) -> Rabs (lag_response dt tau u n) <= m.
Proof.
  intros Hd Ht Hm Hu. induction n as [|n IH]; cbn [lag_response]; [rewrite Rabs_R0; exact Hm|].
  specialize (Hu n). apply Rabs_le_both in Hu. apply Rabs_le_both in IH. apply Rabs_le.
  assert (P : 0 < / (dt + tau)) by (apply Rinv_0_lt_compat; lra).
  set (y := lag_response dt tau u n) in *.
  assert (T1 : tau * - m <= tau * y) by (apply Rmult_le_compat_l; lra).
  assert (T2 : tau * y <= tau * m) by (apply Rmult_le_compat_l; lra).
  assert (T3 : dt * - m <= dt * u n) by (apply Rmult_le_compat_l; lra).
  assert (T4 : dt * u n <= dt * m) by (apply Rmult_le_compat_l; lra).
  split.
  - replace (- m) with ((tau * - m + dt * - m) / (dt + tau)) by (field; lra). apply Rmult_le_compat_r; lra.
  - replace m with ((tau * m + dt * m) / (dt + tau)) at 1 by (field; lra). apply Rmult_le_compat_r; lra.
Qed.

(** * Friction *)
Lemma friction_poly coef v : forall k acc, friction_sum coef k v acc = acc + v ^ k * poly coef v.
Proof.
  induction coef as [|f r IH]; intros k acc; cbn [friction_sum poly]; [ring|]. rewrite IH. cbn [pow]. ring.
Qed.

Lemma coast_speed c w : rw_drive w = false -> consistent c w ->
  rw_speed (calc_torque c w) =
    state (fst (ode_update (wheel_deriv (rw_ode_limit w))
      (poly (rw_friction c) (Rabs (rw_speed w)) * (if rlt (Rabs (rw_speed w)) (rw_stop c) then 0 else if rlt 0 (rw_speed w) then -1 else 1))
      (if rlt (Rabs (rw_speed w)) (rw_stop c) then ode_setup (rw_ode w) 0 (vconst 0) else rw_ode w))) 0%nat.
Proof.
  intros D C. unfold calc_torque. rewrite D. cbn [negb]. rewrite friction_poly.
  replace (0 + Rabs (rw_speed w) ^ 0 * poly (rw_friction c) (Rabs (rw_speed w))) with (poly (rw_friction c) (Rabs (rw_speed w))) by (cbn [pow]; ring).
  destruct (rlt (Rabs (rw_speed w)) (rw_stop c)); [|destruct (rlt 0 (rw_speed w))];
    match goal with |- context [ode_update ?d ?a ?o] => destruct (ode_update d a o) as [o' acc'] end; reflexivity.
Qed.

Lemma coast_stop c w : rw_drive w = false -> consistent c w -> Rabs (rw_speed w) < rw_stop c -> rw_speed (calc_torque c w) = 0.
Proof.
  intros D C H. rewrite coast_speed by assumption. rewrite !rlt_true by exact H.
  destruct (ode_step_between (rw_ode_limit w) (poly (rw_friction c) (Rabs (rw_speed w)) * 0) (ode_setup (rw_ode w) 0 (vconst 0))) as (m & E & B & _).
  rewrite E, state_setup. rewrite Rmult_0_r in B. assert (m = 0) as -> by (destruct B; lra). unfold vconst. ring.
Qed.

(** a coasting step without overshoot: the friction law, exactly *)
Lemma coast_exact c w : rw_drive w = false -> consistent c w -> 0 <= rw_ode_limit w -> rw_stop c <= Rabs (rw_speed w) ->
  0 <= poly (rw_friction c) (Rabs (rw_speed w)) -> 0 <= rw_step c -> poly (rw_friction c) (Rabs (rw_speed w)) * rw_step c <= Rabs (rw_speed w) ->
  rw_speed (calc_torque c w) = rw_speed w - (if rlt 0 (rw_speed w) then 1 else -1) * (rw_step c * poly (rw_friction c) (Rabs (rw_speed w))).
Proof.
  intros D C Hl Hs Hf Hh Ho. rewrite coast_speed by assumption. rewrite !(rlt_false (Rabs (rw_speed w))) by exact Hs.
  set (f := poly (rw_friction c) (Rabs (rw_speed w))) in *. destruct C as [CS CW].
  assert (Hfh : 0 <= f * rw_step c) by (apply Rmult_le_pos; assumption).
  destruct (rlt_spec 0 (rw_speed w)) as [P|P].
  - rewrite Rabs_pos_eq in Ho by lra. rewrite ode_step_exact; rewrite ?CS, ?CW; [ring|apply gate_down; lra..].
  - rewrite Rabs_left1 in Ho by lra. rewrite ode_step_exact; rewrite ?CS, ?CW; [ring|apply gate_up; lra..].
Qed.

Lemma coast_abs c w : rw_drive w = false -> consistent c w -> 0 <= rw_ode_limit w -> rw_stop c <= Rabs (rw_speed w) ->
  0 <= poly (rw_friction c) (Rabs (rw_speed w)) -> 0 <= rw_step c -> poly (rw_friction c) (Rabs (rw_speed w)) * rw_step c <= Rabs (rw_speed w) ->
  Rabs (rw_speed (calc_torque c w)) = Rabs (rw_speed w) - rw_step c * poly (rw_friction c) (Rabs (rw_speed w)).
Proof.
  intros D C Hl Hs Hf Hh Ho. rewrite coast_exact by assumption.
  set (f := poly (rw_friction c) (Rabs (rw_speed w))) in *.
  assert (Hfh : 0 <= f * rw_step c) by (apply Rmult_le_pos; assumption).
  destruct (rlt_spec 0 (rw_speed w)) as [P|P].
  - rewrite (Rabs_pos_eq (rw_speed w)) in * by lra. rewrite Rabs_pos_eq by lra. ring.
  - rewrite (Rabs_left1 (rw_speed w)) in * by lra. rewrite Rabs_left1 by lra. ring.
Qed.

Lemma coast_members c w : rw_drive w = false ->
  rw_drive (calc_torque c w) = false /\ rw_ode_limit (calc_torque c w) = rw_ode_limit w /\ rw_limit_rpm (calc_torque c w) = rw_limit_rpm w /\
  rw_lag (calc_torque c w) = rw_lag w /\ rw_buffer (calc_torque c w) = repeat 0 (length (rw_buffer w)) /\ rw_target (calc_torque c w) = rw_target w.
Proof.
  intros D. unfold calc_torque. rewrite D. cbn [negb].
  destruct (rlt (Rabs (rw_speed w)) (rw_stop c)); [|destruct (rlt 0 (rw_speed w))];
    match goal with |- context [ode_update ?d ?a ?o] => destruct (ode_update d a o) as [o' acc'] end; repeat split; reflexivity.
Qed.

Lemma coast_down c w f0 :
  rw_drive w = false -> consistent c w -> 0 <= rw_ode_limit w -> 0 < rw_step c -> 0 < rw_stop c -> 0 < f0 ->
  (forall v, rw_stop c <= v -> f0 <= poly (rw_friction c) v /\ poly (rw_friction c) v * rw_step c <= v) ->
  exists N, forall n, (N <= n)%nat -> rw_speed (wheel_run c w (repeat StepOn n)) = 0.
Proof.
  intros D C Hl Hs Hst Hf Hp.
  assert (Rest : forall n x, rw_drive x = false -> consistent c x -> rw_speed x = 0 -> rw_speed (wheel_run c x (repeat StepOn n)) = 0).
  { induction n as [|n IH]; intros x Dx Cx Ex; [exact Ex|]. cbn [repeat wheel_run wheel_do].
    apply IH; [apply (coast_members c x Dx)|apply calc_consistent, Cx|].
    apply coast_stop; try assumption. rewrite Ex, Rabs_R0. exact Hst. }
  assert (Go : forall N x, rw_drive x = false -> consistent c x -> 0 <= rw_ode_limit x -> Rabs (rw_speed x) < rw_stop c + INR N * (rw_step c * f0) ->
     forall n, (S N <= n)%nat -> rw_speed (wheel_run c x (repeat StepOn n)) = 0).
  { induction N as [|N IH]; intros x Dx Cx Lx Hx n Hn; (destruct n as [|n]; [lia|]); cbn [repeat wheel_run wheel_do].
    - cbn [INR] in Hx. apply Rest; [apply (coast_members c x Dx)|apply calc_consistent, Cx|]. apply coast_stop; try assumption. lra.
    - destruct (coast_members c x Dx) as (D1 & L1 & _). destruct (Rlt_dec (Rabs (rw_speed x)) (rw_stop c)) as [H|H].
      + apply Rest; [exact D1|apply calc_consistent, Cx|]. apply coast_stop; assumption.
      + apply Rnot_lt_le in H. destruct (Hp _ H) as [P1 P2].
        apply (IH (calc_torque c x)); [exact D1|apply calc_consistent, Cx|rewrite L1; exact Lx| |lia].
        rewrite coast_abs by (assumption || lra). rewrite S_INR in Hx.
        assert (rw_step c * f0 <= rw_step c * poly (rw_friction c) (Rabs (rw_speed x))) by (apply Rmult_le_compat_l; lra). lra. }
  assert (Hsf : 0 < rw_step c * f0) by (apply Rmult_lt_0_compat; assumption).
  destruct (archimedean (rw_step c * f0) (Rabs (rw_speed w)) Hsf) as [N HN].
  exists (S N). intros n Hn. apply (Go N w); try assumption. lra.
Qed.

(** * Speed limit over any history *)
Definition accel_max (c : wheel_config) : R := rw_max_torque c / rw_inertia c.

Lemma Forall_tl {A} (P : A -> Prop) l : List.Forall P l -> List.Forall P (tl l).
Proof. intros H. destruct H; [constructor|assumption]. Qed.
Lemma Forall_hd (P : R -> Prop) l : P 0 -> List.Forall P l -> P (hd 0 l).
Proof. intros H0 H. destruct H; assumption. Qed.
Lemma Forall_repeat (P : R -> Prop) n : P 0 -> List.Forall P (repeat 0 n).
Proof. intros H. induction n; constructor; assumption. Qed.

Definition speed_inv (c : wheel_config) (s0 : R) (w : wheel) : Prop :=
  consistent c w /\ Rabs (rw_ode_limit w) <= rw_max_rpm c * rpm_to_rad_s /\
  Rabs (rw_target w) <= accel_max c /\ List.Forall (fun a => Rabs a <= accel_max c) (rw_buffer w) /\ Rabs (rw_lag w) <= accel_max c /\
  Rabs (rw_speed w) <= Rmax (Rabs s0) (rw_max_rpm c * rpm_to_rad_s + accel_max c * rw_step c).

Lemma rpm_pos : 0 < rpm_to_rad_s.
Proof. unfold rpm_to_rad_s. pose proof PI_RGT_0. lra. Qed.

Lemma coast_no_growth c w : rw_drive w = false -> consistent c w -> 0 <= rw_step c ->
  (forall v, 0 <= v -> rw_stop c <= v -> 0 <= poly (rw_friction c) v /\ poly (rw_friction c) v * rw_step c <= v) ->
  Rabs (rw_speed (calc_torque c w)) <= Rabs (rw_speed w).
Proof.
  intros D C Hh Hp. destruct (Rlt_dec (Rabs (rw_speed w)) (rw_stop c)) as [H|H].
  - rewrite coast_stop by assumption. rewrite Rabs_R0. apply Rabs_pos.
  - apply Rnot_lt_le in H. destruct (Hp _ (Rabs_pos _) H) as [P1 P2]. rewrite coast_speed by assumption. rewrite !(rlt_false (Rabs (rw_speed w))) by exact H.
    set (f := poly (rw_friction c) (Rabs (rw_speed w))) in *. destruct C as [CS CW].
    match goal with |- context [ode_update (wheel_deriv ?l) ?a ?o] => destruct (ode_step_between l a o) as (m & E & B & _) end.
    rewrite E, CS, CW.
    destruct (rlt_spec 0 (rw_speed w)) as [P|P].
    + rewrite (Rabs_pos_eq (rw_speed w)) in * by lra.
      assert (- f <= m <= 0) as [M1 M2] by (destruct B; lra).
      assert (rw_step c * - f <= rw_step c * m) by (apply Rmult_le_compat_l; lra).
      assert (rw_step c * m <= rw_step c * 0) by (apply Rmult_le_compat_l; lra).
      apply Rabs_le. lra.
    + rewrite (Rabs_left1 (rw_speed w)) in * by lra.
      assert (0 <= m <= f) as [M1 M2] by (destruct B; lra).
      assert (rw_step c * m <= rw_step c * f) by (apply Rmult_le_compat_l; lra).
      assert (rw_step c * 0 <= rw_step c * m) by (apply Rmult_le_compat_l; lra).
      apply Rabs_le. lra.
Qed.

Lemma speed_inv_do c s0 w e : 0 < rw_step c -> 0 <= rw_tau c -> 0 < rw_inertia c -> 0 <= rw_max_torque c -> 0 <= rw_max_rpm c ->
  (forall v, 0 <= v -> rw_stop c <= v -> 0 <= poly (rw_friction c) v /\ poly (rw_friction c) v * rw_step c <= v) ->
  speed_inv c s0 w -> speed_inv c s0 (wheel_do c w e).
Proof.
  intros Hs Ht HI HM HR Hp (C & L & T & B & G & S0).
  assert (A0 : 0 <= accel_max c) by (apply Rmult_le_pos; [lra|apply Rlt_le, Rinv_0_lt_compat, HI]).
  pose proof rpm_pos as RP.
  assert (Cmd : forall t, speed_inv c s0 (set_target_torque_rw c w t)).
  { intros t. pose proof (command_saturates c w t HI HM) as E. pose proof (clamp_bound (rw_max_torque c) t HM) as K.
    assert (TB : Rabs (rw_target (set_target_torque_rw c w t)) <= accel_max c).
    { rewrite E. unfold accel_max, Rdiv. rewrite Rabs_mult, (Rabs_pos_eq (/ rw_inertia c)) by (apply Rlt_le, Rinv_0_lt_compat, HI).
      apply Rmult_le_compat_r; [apply Rlt_le, Rinv_0_lt_compat, HI|exact K]. }
    pose proof (do_consistent c w (CommandRw t) C) as C1. cbn [wheel_do] in C1.
    split; [exact C1|]. unfold set_target_torque_rw in *. destruct (rlt _ _); cbn in *; auto. }
  destruct e; cbn [wheel_do].
  - apply Cmd.
  - apply Cmd.
  - unfold set_velocity_limit, speed_inv. cbn [rw_ode_limit rw_target rw_buffer rw_lag rw_speed]. split; [exact C|]. split; [|auto].
    rewrite Rabs_mult, (Rabs_pos_eq rpm_to_rad_s) by lra. apply Rmult_le_compat_r; [lra|].
    destruct (rlt_spec (rw_max_rpm c) rpm); [rewrite Rabs_pos_eq; lra|].
    destruct (rlt_spec rpm (-1 * rw_max_rpm c)); [rewrite Rabs_left1; lra|]. apply Rabs_le. lra.
  - split; [exact C|]. cbn. auto.
  - pose proof (calc_consistent c w C) as C1. destruct (rw_drive w) eqn:D.
    + assert (NI : Rabs (fst (next_input c w)) <= accel_max c /\ snd (next_input c w) = fst (next_input c w)).
      { unfold next_input. rewrite lag_update_eq by assumption. cbn [fst snd]. split; [|reflexivity].
        pose proof (Forall_hd (fun a => Rabs a <= accel_max c) (rw_buffer w) ltac:(cbn beta; rewrite Rabs_R0; exact A0) B) as HB. cbn beta in HB.
        set (b := hd 0 (rw_buffer w)) in *. apply Rabs_le_both in HB. apply Rabs_le_both in G.
        assert (P : 0 < / (rw_step c + rw_tau c)) by (apply Rinv_0_lt_compat; lra).
        assert (rw_tau c * - accel_max c <= rw_tau c * rw_lag w) by (apply Rmult_le_compat_l; lra).
        assert (rw_tau c * rw_lag w <= rw_tau c * accel_max c) by (apply Rmult_le_compat_l; lra).
        assert (rw_step c * - accel_max c <= rw_step c * b) by (apply Rmult_le_compat_l; lra).
        assert (rw_step c * b <= rw_step c * accel_max c) by (apply Rmult_le_compat_l; lra).
        apply Rabs_le. split.
        - replace (- accel_max c) with ((rw_tau c * - accel_max c + rw_step c * - accel_max c) / (rw_step c + rw_tau c)) by (field; lra).
          apply Rmult_le_compat_r; lra.
        - replace (accel_max c) with ((rw_tau c * accel_max c + rw_step c * accel_max c) / (rw_step c + rw_tau c)) at 1 by (field; lra).
          apply Rmult_le_compat_r; lra. }
      destruct NI as [N1 N2]. split; [exact C1|]. rewrite calc_driven by exact D. cbn [rw_ode_limit rw_target rw_buffer rw_lag rw_speed].
      split; [exact L|]. split; [exact T|]. split.
      { apply Forall_tl. apply Forall_app. split; [exact B|]. constructor; [exact T|constructor]. }
      split; [rewrite N2; exact N1|]. destruct C as [CS CW].
      eapply Rle_trans; [apply ode_step_bound; rewrite CW; lra|]. rewrite CS, CW. apply Rmax_lub; [exact S0|].
      eapply Rle_trans; [|apply Rmax_r]. apply Rplus_le_compat; [exact L|]. apply Rmult_le_compat_r; lra.
    + destruct (coast_members c w D) as (_ & L1 & _ & G1 & B1 & T1).
      split; [exact C1|]. rewrite L1, T1, B1, G1. split; [exact L|]. split; [exact T|]. split; [|split; [exact G|]].
      * apply Forall_repeat. rewrite Rabs_R0. exact A0.
      * eapply Rle_trans; [apply coast_no_growth; try assumption; lra|exact S0].
  - split; [exact C|]. cbn. auto.
Qed.

Lemma speed_bound c d s0 ops : 0 < rw_step c -> 0 <= rw_tau c -> 0 < rw_inertia c -> 0 <= rw_max_torque c -> 0 <= rw_max_rpm c ->
  (forall v, 0 <= v -> rw_stop c <= v -> 0 <= poly (rw_friction c) v /\ poly (rw_friction c) v * rw_step c <= v) ->
  Rabs (rw_speed (wheel_run c (wheel_new c d s0) ops)) <= Rmax (Rabs s0) (rw_max_rpm c * rpm_to_rad_s + rw_max_torque c / rw_inertia c * rw_step c).
Proof.
  intros Hs Ht HI HM HR Hp.
  assert (A0 : 0 <= accel_max c) by (apply Rmult_le_pos; [lra|apply Rlt_le, Rinv_0_lt_compat, HI]).
  pose proof rpm_pos as RP.
  assert (Base : speed_inv c s0 (wheel_new c d s0)).
  { split; [apply consistent_new|]. unfold wheel_new. cbn [rw_ode_limit rw_target rw_buffer rw_lag rw_speed].
    assert (A1 : Rabs 0 <= accel_max c) by (rewrite Rabs_R0; exact A0).
    split; [|split; [exact A1|split; [|split; [exact A1|]]]].
    - rewrite Rabs_pos_eq; [lra|]. apply Rmult_le_pos; lra.
    - apply (Forall_repeat (fun a => Rabs a <= accel_max c)). exact A1.
    - apply Rmax_l. }
  revert Base. generalize (wheel_new c d s0). induction ops as [|e r IH]; intros w Hw; [apply Hw|].
  cbn [wheel_run]. apply IH. apply speed_inv_do; assumption.
Qed.
