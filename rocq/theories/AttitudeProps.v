(** C69-C72: attitude propagation with the rigid-body equations of motion (AttitudeRk4). *)
From Coq Require Import Reals ZArith Lra Lia List Bool Arith FunctionalExtensionality.
From Verif Require Import Base RBase VecModel VecProofs LuModel LuSpec LuProps QuatModel QuatSpec QuatProofs OrbitProofs HillProofs AttitudeModel AttitudeSpec AttitudeProofs AttitudeRunProofs.
Import ListNotations.
Open Scope R_scope.

(** C69: whatever the torques, the inertia and the step widths, the quaternion after a propagation is a unit
    quaternion or has length zero. *)
Theorem C69_unit_or_zero : forall coef0 index0 inverse0 fuel inertia a tend a',
  att_propagate coef0 index0 inverse0 fuel true inertia a tend = Ok a' -> unit 4 (at_q a') \/ norm 4 (at_q a') = 0.
Proof.
  intros coef0 index0 inverse0 fuel inertia a tend a' H. apply propagate_spec in H. destruct H as (inv & k & _ & _ & _ & _ & RUN & _).
  set (f := att_deriv _ _ _ _ _) in RUN.
  pose proof (run_last_or (fun st => unit 4 (snd st) \/ norm 4 (snd st) = 0) f _ (at_omega a, at_q a) (widths_nonempty k (at_step a) (at_time a) tend) (step_unit_or_zero f)) as P.
  rewrite <- RUN in P. exact P.
Qed.
Print Assumptions C69_unit_or_zero.

(** C69: no step of width dt loses the attitude while the body turns by at most one radian in it (at the four
    places where the equations of motion are evaluated): the result is a unit quaternion. *)
Theorem C69_unit_when_resolved : forall prev inv torque h dtorque dt w q W,
  let f := att_deriv prev inv torque h dtorque in
  norm 4 q <> 0 -> Forall (fun v => norm 3 v <= W) (stage_rates f dt (v7 w q)) -> Rabs dt * W <= 1 -> unit 4 (snd (att_step f dt (w, q))).
Proof. intros prev inv torque h dtorque dt w q W f N B L. exact (step_unit f dt (w, q) W (att_deriv_kin _ _ _ _ _) N B L). Qed.
Print Assumptions C69_unit_when_resolved.

(** C69: and so for a whole propagation all of whose steps are so resolved. *)
Lemma run_unit f ws st W : att_kin f -> norm 4 (snd st) <> 0 ->
  (forall us w vs, ws = us ++ w :: vs -> let st1 := run_steps f us st in
     Forall (fun v => norm 3 v <= W) (stage_rates f w (v7 (fst st1) (snd st1))) /\ Rabs w * W <= 1) ->
  norm 4 (snd (run_steps f ws st)) <> 0 /\ (ws <> [] -> unit 4 (snd (run_steps f ws st))).
Proof.
  intros K N H. induction ws as [|w ws IH] using rev_ind.
  - split; [exact N|intro X; now elim X].
  - destruct IH as (N1 & _); [intros us w1 vs E; apply (H us w1 (vs ++ [w])); rewrite E, <- app_assoc; reflexivity|].
    rewrite run_app. destruct (H ws w [] eq_refl) as (B & L).
    assert (U : unit 4 (snd (run_steps f [w] (run_steps f ws st)))) by exact (step_unit f w (run_steps f ws st) W K N1 B L).
    split; [|intros _; exact U]. apply norm_unit in U. rewrite U. lra.
Qed.
Theorem C69_propagate_unit : forall coef0 index0 inverse0 fuel inertia a tend a' W,
  att_propagate coef0 index0 inverse0 fuel true inertia a tend = Ok a' -> norm 4 (at_q a) <> 0 ->
  (forall inv k us w vs, is_inverse 3 inertia inv -> widths k (at_step a) (at_time a) tend = us ++ w :: vs ->
     let f := att_deriv (at_prev a) inv (at_torque a) (at_h a) (mvec 3 (mscal (1 / (tend - at_time a)) (msub inertia (at_prev a))) (at_omega a)) in
     let st := run_steps f us (at_omega a, at_q a) in
     Forall (fun v => norm 3 v <= W) (stage_rates f w (v7 (fst st) (snd st))) /\ Rabs w * W <= 1) ->
  unit 4 (at_q a').
Proof.
  intros coef0 index0 inverse0 fuel inertia a tend a' W H N B. apply propagate_spec in H. destruct H as (inv & k & IV & _ & _ & _ & RUN & _).
  set (f := att_deriv _ _ _ _ _) in RUN.
  destruct (run_unit f (widths k (at_step a) (at_time a) tend) (at_omega a, at_q a) W (att_deriv_kin _ _ _ _ _) N) as (_ & U).
  - intros us w vs E. exact (B inv k us w vs IV E).
  - rewrite <- RUN in U. apply U. apply widths_nonempty.
Qed.
Print Assumptions C69_propagate_unit.

(** C70: kinematics.  Along every exact solution of the equations that the code integrates, every vector fixed
    in inertial space turns, seen from the body, at the rate - w x v (so q is the attitude of a body that
    turns with w), and the length of the quaternion does not change. *)
Theorem C70_kinematics : forall prev inv torque h dtorque x, trajectory 7 (att_deriv prev inv torque h dtorque) x ->
  turns_with (fun t => omega7 (x t)) (fun t => quat7 (x t)) /\
  forall s t, dot 4 (quat7 (x s)) (quat7 (x s)) = dot 4 (quat7 (x t)) (quat7 (x t)).
Proof.
  intros prev inv torque h dtorque x T.
  assert (Q : forall t i, (i < 4)%nat -> derivable_pt_lim (fun s => quat7 (x s) i) t (quaternion_rate (omega7 (x t)) (quat7 (x t)) i)).
  { intros t i Hi. eapply dpl_eq; [apply (T t (i + 3)%nat); lia|]. unfold att_deriv. rewrite v7_quat. reflexivity. }
  split; [exact (kinematics_turn _ _ Q)|]. intros s t. exact (kinematics_norm _ _ Q s t).
Qed.
Print Assumptions C70_kinematics.

(** C71: Euler's equation.  The angular acceleration that the code computes satisfies
    I w' = torque - w x (Iprev w + h) - dtorque, dtorque being the term for the change of the inertia tensor. *)
Theorem C71_euler_equation : forall inertia prev inv torque h dtorque x, is_inverse 3 inertia inv ->
  let w := omega7 x in let acc := att_deriv prev inv torque h dtorque x in
  veq 3 (mvec 3 inertia acc) (fun i => torque i - cross w (vadd (mvec 3 prev w) h) i - dtorque i).
Proof.
  intros inertia prev inv torque h dtorque x IV w acc i Hi. unfold acc. rewrite (euler_equation inertia prev inv torque h dtorque x IV i Hi). reflexivity.
Qed.
Print Assumptions C71_euler_equation.

(** C71: with a constant inertia tensor the angular momentum in inertial space (that of the body and of the
    wheels, the vector that the code reports) changes at the rate of the torque; without torque it is constant
    for ever, and so is its reported length. *)
Theorem C71_momentum : forall inertia inv torque h x, is_inverse 3 inertia inv ->
  trajectory 7 (att_deriv inertia inv torque h (vconst 0)) x ->
  newton_euler (fun s => vadd h (mvec 3 inertia (omega7 (x s)))) (fun s => quat7 (x s)) (fun _ => torque) /\
  (veq 3 torque (vconst 0) -> forall s t,
     veq 3 (momentum_i inertia h (omega7 (x s)) (quat7 (x s))) (momentum_i inertia h (omega7 (x t)) (quat7 (x t))) /\
     momentum_norm inertia h (omega7 (x s)) (quat7 (x s)) = momentum_norm inertia h (omega7 (x t)) (quat7 (x t))).
Proof.
  intros inertia inv torque h x IV T. pose proof (traj_newton_euler inertia inv torque h x IV T) as NE. split; [exact NE|].
  intros Z. 
  assert (C : forall s t, veq 3 (momentum_i inertia h (omega7 (x s)) (quat7 (x s))) (momentum_i inertia h (omega7 (x t)) (quat7 (x t)))).
  { intros s t i Hi. rewrite !(momentum_i_inertial inertia h _ _ i Hi). revert s t. apply (dpl_constant (fun s => to_inertial (quat7 (x s)) (momentum_b inertia h (omega7 (x s))) i)).
    intro t. eapply dpl_eq; [exact (NE t i Hi)|]. unfold to_inertial, mvec. apply sumn_0. intros j Hj. rewrite Z by exact Hj. unfold vconst. ring. }
  intros s t. split; [apply C|]. unfold momentum_norm. apply norm_ext, C.
Qed.
Print Assumptions C71_momentum.

(** C71: the reported kinetic energy changes at the power of the torque; without torque it is constant. *)
Theorem C71_energy : forall inertia inv torque h x, is_inverse 3 inertia inv -> symmetric3 inertia ->
  trajectory 7 (att_deriv inertia inv torque h (vconst 0)) x ->
  (forall t, derivable_pt_lim (fun s => kinetic_energy inertia (omega7 (x s))) t (dot 3 (omega7 (x t)) torque)) /\
  (veq 3 torque (vconst 0) -> forall s t, kinetic_energy inertia (omega7 (x s)) = kinetic_energy inertia (omega7 (x t))).
Proof.
  intros inertia inv torque h x IV SY T. pose proof (fun t => traj_energy inertia inv torque h x IV T t SY) as E. split; [exact E|].
  intros Z. apply (dpl_constant (fun s => kinetic_energy inertia (omega7 (x s)))). intro t. eapply dpl_eq; [exact (E t)|].
  unfold dot. apply sumn_0. intros j Hj. rewrite Z by exact Hj. unfold vconst. ring.
Qed.
Print Assumptions C71_energy.

(** C71: with a unit quaternion the reported length is that of I w + h. *)
Theorem C71_reported_norm : forall inertia h w q, unit 4 q -> momentum_norm inertia h w q = norm 3 (fun i => h i + mvec 3 inertia w i).
Proof. intros inertia h w q U. exact (momentum_norm_body inertia h w q U). Qed.
Print Assumptions C71_reported_norm.

(** C72: what a propagation does: k steps of the given width and a last one that ends exactly at the requested
    time and is at most a step (plus a microsecond) wide; the inertia of this call is remembered for the next. *)
Theorem C72_propagate : forall coef0 index0 inverse0 fuel inertia a tend a',
  att_propagate coef0 index0 inverse0 fuel true inertia a tend = Ok a' ->
  exists inv k, is_inverse 3 inertia inv /\
    let w := tend - at_time a - INR k * at_step a in
    let f := att_deriv (at_prev a) inv (at_torque a) (at_h a) (mvec 3 (mscal (1 / (tend - at_time a)) (msub inertia (at_prev a))) (at_omega a)) in
    w <= at_step a + 1 / 10 ^ 6 /\ (k = 0%nat \/ 1 / 10 ^ 6 < w) /\ tend <> at_time a /\
    (at_omega a', at_q a') = run_steps f (widths k (at_step a) (at_time a) tend) (at_omega a, at_q a) /\
    at_torque a' = at_torque a /\ at_step a' = at_step a /\ at_time a' = tend /\ at_h a' = at_h a /\ at_prev a' = inertia /\
    at_norm a' = momentum_norm inertia (at_h a) (at_omega a') (at_q a') /\ at_energy a' = kinetic_energy inertia (at_omega a').
Proof. exact propagate_spec. Qed.
Print Assumptions C72_propagate.

(** C72: what the constructor makes: the given state at time zero without wheels' momentum; a singular inertia tensor throws.
    The first propagation finds the inertia tensor unchanged. *)
Theorem C72_new : forall coef0 index0 inverse0 w q inertia torque step,
  ((exists inv, is_inverse 3 inertia inv) -> exists a, att_new coef0 index0 inverse0 w q inertia torque step = Ok a /\
    at_omega a = w /\ at_q a = q /\ at_torque a = torque /\ at_step a = step /\ at_time a = 0 /\ at_h a = vconst 0 /\ at_prev a = inertia /\
    (unit 4 q -> at_norm a = norm 3 (mvec 3 inertia w)) /\ at_energy a = 1 / 2 * dot 3 w (mvec 3 inertia w)) /\
  ((~ exists inv, is_inverse 3 inertia inv) -> att_new coef0 index0 inverse0 w q inertia torque step = Throw).
Proof.
  intros coef0 index0 inverse0 w q inertia torque step. unfold att_new, inverse3.
  destruct (C24_throws_iff_singular 3 coef0 index0 inertia inverse0) as [(B & E & I)|(E & N)]; rewrite E; cbn [bind].
  - split; [intros _|intro X; elim X; now exists B]. eexists. split; [reflexivity|]. cbn [at_omega at_q at_torque at_step at_time at_h at_prev at_norm at_energy].
    repeat (split; [reflexivity|]). split.
    + intro U. rewrite (C71_reported_norm inertia (vconst 0) w q U). apply norm_ext. intros i Hi. unfold vadd, vconst. ring.
    + unfold kinetic_energy. f_equal. unfold dot. apply sumn_ext. intros; ring.
  - split; [intro X; contradiction|reflexivity].
Qed.
Print Assumptions C72_new.
(** C72: torques are added up or replaced, the wheels' momentum is replaced; nothing else changes. *)
Theorem C72_inputs : forall a t h,
  veq 3 (at_torque (set_torque a t)) t /\ (forall i, at_torque (add_torque a t) i = at_torque a i + t i) /\ at_h (set_rw a h) = h /\
  at_torque (set_rw a h) = at_torque a /\
  (forall b, b = set_torque a t \/ b = add_torque a t -> at_h b = at_h a) /\
  (forall b, b = set_torque a t \/ b = add_torque a t \/ b = set_rw a h ->
     at_omega b = at_omega a /\ at_q b = at_q a /\ at_step b = at_step a /\ at_time b = at_time a /\ at_prev b = at_prev a /\ at_norm b = at_norm a /\ at_energy b = at_energy a).
Proof.
  intros a t h. split; [intros i _; reflexivity|]. split; [reflexivity|]. split; [reflexivity|]. split; [reflexivity|]. split.
  - intros b [->| ->]; reflexivity.
  - intros b [->|[->| ->]]; repeat split.
Qed.
Print Assumptions C72_inputs.

(** C72: with a positive step and an invertible inertia tensor it always ends; a singular one throws; switched
    off it does nothing; a propagation to the current time gives not-a-number; a step of zero or less never ends. *)
Theorem C72_outcome : forall coef0 index0 inverse0 inertia a tend,
  let prop := att_propagate coef0 index0 inverse0 in
  (forall fuel, prop fuel false inertia a tend = Ok a) /\
  (forall fuel, tend = at_time a -> prop fuel true inertia a tend = UB) /\
  (tend <> at_time a -> (~ exists inv, is_inverse 3 inertia inv) -> forall fuel, prop fuel true inertia a tend = Throw) /\
  (tend <> at_time a -> (exists inv, is_inverse 3 inertia inv) -> 0 < at_step a -> exists n, forall fuel, (n <= fuel)%nat -> exists a', prop fuel true inertia a tend = Ok a') /\
  ((exists inv, is_inverse 3 inertia inv) -> at_step a <= 0 -> 1 / 10 ^ 6 < tend - at_time a - at_step a -> tend <> at_time a -> forall fuel, prop fuel true inertia a tend = Hang).
Proof.
  intros coef0 index0 inverse0 inertia a tend prop. unfold prop. split; [reflexivity|]. split; [|split; [|split]].
  - intros fuel ->. unfold att_propagate. cbn [negb]. now rewrite req_true by lra.
  - intros N S0 fuel. unfold att_propagate. cbn [negb]. rewrite req_false by lra. unfold inverse3.
    destruct (C24_throws_iff_singular 3 coef0 index0 inertia inverse0) as [(B & _ & I)|(E & _)]; [now elim S0; exists B|]. now rewrite E.
  - intros N V P. destruct (nat_above ((tend - at_time a) / at_step a)) as (n & Hn).
    exists (S n). intros fuel L. destruct fuel as [|m]; [lia|]. apply propagate_ok; [exact V|exact N|].
    apply Rmult_lt_compat_r with (r := at_step a) in Hn; [|exact P]. unfold Rdiv in Hn. rewrite Rmult_assoc, Rinv_l, Rmult_1_r in Hn by lra.
    assert (INR n <= INR (S m)) by (apply le_INR; lia). assert (INR n * at_step a <= INR (S m) * at_step a) by (apply Rmult_le_compat_r; lra). lra.
  - intros V S0 L N fuel. unfold att_propagate. cbn [negb]. rewrite req_false by lra. unfold inverse3.
    destruct (C24_throws_iff_singular 3 coef0 index0 inertia inverse0) as [(B & E & _)|(_ & E)]; [|contradiction]. rewrite E. cbn [bind].
    set (f := att_deriv _ _ _ _ _). enough (HL : forall st t, 1 / 10 ^ 6 < tend - t - at_step a -> att_loop f fuel (at_step a) tend st t = Hang) by (rewrite HL; [reflexivity|exact L]).
    induction fuel as [|m IH]; intros st t G; [reflexivity|]. cbn [att_loop]. rewrite rlt_true by exact G. apply IH. lra.
Qed.
Print Assumptions C72_outcome.

(** C72: a steady state of rotation is kept exactly, for any propagation.  Without torque, with constant inertia
    and turning about a principal axis (the wheels' momentum along it), the angular velocity and the direction
    of the axis in inertial space do not change; a body at rest keeps its quaternion. *)
Theorem C72_steady_spin : forall coef0 index0 inverse0 fuel inertia a tend a' lambda c,
  att_propagate coef0 index0 inverse0 fuel true inertia a tend = Ok a' -> at_prev a = inertia -> unit 4 (at_q a) ->
  veq 3 (at_torque a) (vconst 0) -> veq 3 (mvec 3 inertia (at_omega a)) (vscal lambda (at_omega a)) -> veq 3 (at_h a) (vscal c (at_omega a)) ->
  veq 3 (at_omega a') (at_omega a) /\ unit 4 (at_q a') /\ veq 3 (to_inertial (at_q a') (at_omega a)) (to_inertial (at_q a) (at_omega a)) /\
  (veq 3 (at_omega a) (vconst 0) -> veq 4 (at_q a') (at_q a)).
Proof.
  intros coef0 index0 inverse0 fuel inertia a tend a' lambda c H PI0 U T PR HH. apply propagate_spec in H. destruct H as (inv & k & _ & _ & _ & NE & RUN & _).
  set (d := mvec 3 (mscal _ _) _) in RUN.
  assert (NT : veq 3 (net_torque (at_prev a) (at_torque a) (at_h a) d (at_omega a)) (vconst 0)).
  { intros i Hi. unfold net_torque, vsub. rewrite T by exact Hi. rewrite (cross_ext (at_omega a) (vadd (mvec 3 (at_prev a) (at_omega a)) (at_h a)) (at_omega a) (vscal (lambda + c) (at_omega a))).
    - unfold d, mvec, mscal, msub. rewrite PI0. rewrite (sumn_0 3 (fun j => 1 / (tend - at_time a) * (inertia i j - inertia i j) * at_omega a j)) by (intros; ring).
      i3 i Hi; unfold vscal, vconst; cbn [cross]; ring.
    - apply veq_refl.
    - intros j Hj. unfold vadd. rewrite PI0, PR, HH by exact Hj. unfold vscal. ring.
    - exact Hi. }
  pose proof (spin_run _ (widths k (at_step a) (at_time a) tend) (at_omega a) (at_q a) (att_deriv_kin (at_prev a) inv (at_torque a) (at_h a) d) (deriv_steady _ inv _ _ _ _ NT) U) as P.
  exact (eq_ind_r (fun st : vec * quat => veq 3 (fst st) (at_omega a) /\ unit 4 (snd st) /\ veq 3 (to_inertial (snd st) (at_omega a)) (to_inertial (at_q a) (at_omega a)) /\ (veq 3 (at_omega a) (vconst 0) -> veq 4 (snd st) (at_q a))) P RUN).
Qed.
Print Assumptions C72_steady_spin.

(** Cases that meet the hypotheses. *)
Definition ex_inertia : mat := fun i j => if Nat.eqb i j then INR (S i) else 0.
Lemma ex_inverse : is_inverse 3 ex_inertia (fun i j => if Nat.eqb i j then / INR (S i) else 0).
Proof. intros i j Hi Hj. rewrite !sumn3. i3 i Hi; i3 j Hj; cbn [ex_inertia Nat.eqb INR]; split; field. Qed.
(** a body that turns about its third axis at 1 rad/s: the exact solution *)
Definition ex_x (t : R) : vec := v7 (v3 0 0 1) (q4 0 0 (sin (t / 2)) (cos (t / 2))).
Example ex_trajectory : trajectory 7 (att_deriv ex_inertia (fun i j => if Nat.eqb i j then / INR (S i) else 0) (vconst 0) (v3 0 0 5) (vconst 0)) ex_x.
Proof.
  assert (H2 : forall t, derivable_pt_lim (fun s => s / 2) t (1 / 2)).
  { intro t. eapply dpl_eq; [apply (dpl_mult (fun s => s) (fun _ => / 2) t 1 0); [apply derivable_pt_lim_id|apply dpl_const]|cbv beta; field]. }
  intros t i Hi. unfold ex_x, att_deriv, v7. destruct i as [|[|[|[|[|[|[|i]]]]]]]; try lia; cbn [Nat.ltb Nat.leb Nat.sub q4].
  1-3: (eapply dpl_eq; [apply dpl_const|cbv [mvec net_torque vsub cross vadd vconst ex_inertia omega7 v7 Nat.ltb Nat.leb sumn Nat.eqb v3 INR]; ring]).
  - eapply dpl_eq; [apply dpl_const|cbv [quaternion_rate mvec mscal omega_matrix q4 omega7 quat7 v7 Nat.ltb Nat.leb Nat.add Nat.sub sumn v3]; ring].
  - eapply dpl_eq; [apply dpl_const|cbv [quaternion_rate mvec mscal omega_matrix q4 omega7 quat7 v7 Nat.ltb Nat.leb Nat.add Nat.sub sumn v3]; ring].
  - eapply dpl_eq; [apply (derivable_pt_lim_comp (fun s => s / 2) sin t); [apply H2|apply derivable_pt_lim_sin]|cbv [quaternion_rate mvec mscal omega_matrix q4 omega7 quat7 v7 Nat.ltb Nat.leb Nat.add Nat.sub sumn v3]; ring].
  - eapply dpl_eq; [apply (derivable_pt_lim_comp (fun s => s / 2) cos t); [apply H2|apply derivable_pt_lim_cos]|cbv [quaternion_rate mvec mscal omega_matrix q4 omega7 quat7 v7 Nat.ltb Nat.leb Nat.add Nat.sub sumn v3]; ring].
Qed.
Definition ex_att : att_rk4 := mkAtt (v3 0 0 1) (q4 0 0 0 1) (vconst 0) (1 / 10) 0 (vconst 0) ex_inertia 0 0.
Example ex_spin : exists fuel a', att_propagate (vconst 0) (fun _ => O) (fun _ _ => 0) fuel true ex_inertia ex_att (1 / 4) = Ok a' /\ veq 3 (at_omega a') (v3 0 0 1) /\ unit 4 (at_q a').
Proof.
  destruct (C72_outcome (vconst 0) (fun _ => O) (fun _ _ => 0) ex_inertia ex_att (1 / 4)) as (_ & _ & _ & OK & _).
  destruct OK as (n & OK); [cbn; lra|exists (fun i j => if Nat.eqb i j then / INR (S i) else 0); apply ex_inverse|cbn; lra|].
  destruct (OK n (le_n n)) as (a' & E). exists n, a'. split; [exact E|].
  destruct (C72_steady_spin _ _ _ _ _ _ _ _ 3 0 E) as (W & U & _); cbn [ex_att at_prev at_q at_torque at_omega at_h].
  - reflexivity.
  - unfold unit, dot. cbn [sumn q4]. ring.
  - intros i Hi. reflexivity.
  - intros i Hi. unfold mvec. rewrite sumn3. i3 i Hi; cbv [ex_inertia Nat.eqb INR vscal v3]; ring.
  - intros i Hi. unfold vscal, vconst. ring.
  - split; [exact W|exact U].
Qed.
Example ex_resolved : let f := att_deriv ex_inertia (fun i j => if Nat.eqb i j then / INR (S i) else 0) (vconst 0) (vconst 0) (vconst 0) in
  unit 4 (snd (att_step f (1 / 10) (vconst 0, q4 0 0 0 1))).
Proof.
  intro f. apply (C69_unit_when_resolved _ _ _ _ _ _ _ _ 0).
  - enough (norm 4 (q4 0 0 0 1) = 1) by lra. apply norm_unit. unfold unit, dot. cbn [sumn q4]. ring.
  - destruct (steady_rates f (1 / 10) (vconst 0) (v7 (vconst 0) (q4 0 0 0 1))) as (B & _).
    + apply deriv_steady. intros i Hi. i3 i Hi; cbv [net_torque vsub cross vadd mvec vconst sumn]; ring.
    + intros i Hi. now rewrite v7_omega.
    + eapply Forall_impl; [|exact B]. intros v V. rewrite (norm_ext 3 v (vconst 0) V). replace (norm 3 (vconst 0)) with 0; [lra|].
      unfold norm. rewrite sumn3. unfold vconst. replace (0 * 0 + 0 * 0 + 0 * 0) with 0 by ring. now rewrite sqrt_0.
  - lra.
Qed.
