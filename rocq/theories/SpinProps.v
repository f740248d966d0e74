(** C169, C170: accuracy of the attitude propagated by Runge-Kutta (AttitudeRk4::Propagate) for a free rigid body. *)
From Coq Require Import Reals Lra Lia List Bool Arith.
From Coquelicot Require Import Coquelicot.
From Verif Require Import Base RBase VecModel VecProofs LuModel LuSpec LuProps QuatModel QuatSpec QuatProofs AttitudeModel AttitudeSpec AttitudeProofs AttitudeRunProofs AttitudeProps
  RelRkProofs SpinSpec SpinProofs.
Import ListNotations.
Open Scope R_scope.

(** C169: a body turning steadily about a principal axis (wheels' momentum along it, no torque): after any calls of Propagate the angular
    velocity is unchanged and each component of the quaternion is within (|w|/2 (step + 1e-6 s))^4 / 40 times half the angle turned of
    the exact solution of the kinematic equation. *)
Theorem C169_steady_spin_accuracy coef0 index0 inverse0 fuel inertia a tends a' lambda c f :
  att_run coef0 index0 inverse0 fuel inertia a tends = Ok a' -> at_prev a = inertia -> unit 4 (at_q a) ->
  veq 3 (at_torque a) (vconst 0) -> veq 3 (mvec 3 inertia (at_omega a)) (vscal lambda (at_omega a)) -> veq 3 (at_h a) (vscal c (at_omega a)) ->
  0 <= at_step a -> in_order (at_time a) tends ->
  trajectory 4 (quaternion_rate (at_omega a)) f -> veq 4 (f 0) (at_q a) ->
  let W := norm 3 (at_omega a) in let T := last_time (at_time a) tends - at_time a in let x := W / 2 * (at_step a + 1 / 10 ^ 6) in
  x ^ 2 <= 8 ->
  veq 3 (at_omega a') (at_omega a) /\ unit 4 (at_q a') /\ at_time a' = last_time (at_time a) tends /\
  forall i, (i < 4)%nat -> Rabs (at_q a' i - f T i) <= x ^ 4 / 40 * (W * T / 2).
Proof.
  intros RUN PV U T0 PR HH S0 IO D F0 W T x B. destruct (axis_of (at_omega a)) as (e & s & SP & E & WE & SN).
  assert (H := att_run_collect coef0 index0 inverse0 fuel inertia (at_torque a) (at_h a) (spinning e s (at_q a))).
  assert (STEP : forall inv d, is_inverse 3 inertia inv -> veq 3 d (vconst 0) -> forall ws w st, spinning e s (at_q a) ws st -> spinning e s (at_q a) (ws ++ [w]) (att_step (att_deriv inertia inv (at_torque a) (at_h a) d) w st)).
  { intros inv d _ D0 ws w st I. apply spinning_step; [exact E|apply att_deriv_kin| |exact I]. apply deriv_steady.
    intros i Hi. rewrite <- (net_torque_ext inertia (at_torque a) (at_h a) d (at_omega a) _ WE i Hi). unfold net_torque, vsub. rewrite T0, D0 by exact Hi.
    rewrite (cross_ext (at_omega a) (vadd (mvec 3 inertia (at_omega a)) (at_h a)) (at_omega a) (vscal (lambda + c) (at_omega a)) (veq_refl 3 _)).
    - i3 i Hi; unfold vscal, vconst; cbn [cross]; ring.
    - intros j Hj. unfold vadd. rewrite PR, HH by exact Hj. unfold vscal. ring.
    - exact Hi. }
  destruct (H STEP tends a a' [] PV eq_refl eq_refl RUN) as (ws & I & TW & TT & F).
  { split; [exact WE|]. split; [exact U|]. exists 1. split; [lra|]. intros i Hi. cbn [map factors]. i4 i Hi; cbv [qscal qmul cq q4 RtoC fst snd]; ring. }
  cbn [app] in I. specialize (F S0 IO). destruct I as (IW & IU & IQ). cbn [fst snd] in *.
  split; [eapply veq_trans; [exact IW|apply veq_sym; exact WE]|]. split; [exact IU|]. split; [exact TT|].
  intros i Hi. assert (FT : f T i = qmul (at_q a) (cq e (turn (s * T))) i).
  { apply (turn_unique e s (at_q a) f E); [|exact F0|exact Hi]. intros t j Hj. eapply dpl_eq; [apply D; exact Hj|].
    unfold quaternion_rate, mvec, mscal. cbn [sumn]. assert (OM : forall m n, omega_matrix (at_omega a) m n = omega_matrix (vscal (2 * s) e) m n).
    { intros m n. unfold omega_matrix. rewrite !WE by lia. reflexivity. } rewrite !OM. reflexivity. }
  rewrite FT. unfold T. rewrite <- TW. replace (W * total ws / 2) with (s * total ws) by (rewrite SN; unfold W; field).
  replace x with (s * (at_step a + 1 / 10 ^ 6)) in * by (unfold x, W; rewrite SN; reflexivity).
  apply (spin_error e s (at_q a) ws (at_omega a', at_q a') (at_step a + 1 / 10 ^ 6) E U SP ltac:(lra) B F (conj IW (conj IU IQ)) i Hi).
Qed.
Print Assumptions C169_steady_spin_accuracy.
(** the solution it is compared with is the motion with that angular velocity: inertial vectors seen from the body turn at - w x v *)
Theorem C169_exact_is_the_motion w f : trajectory 4 (quaternion_rate w) f -> turns_with (fun _ => w) f.
Proof. intros D. apply kinematics_turn. exact D. Qed.
Print Assumptions C169_exact_is_the_motion.

(** ** C170: free nutation of a body of revolution *)
(** turning the axis round makes the nutation rate positive *)
Lemma flip e s L : dot 3 e e = 1 -> exists e' s', dot 3 e' e' = 1 /\ (forall v, dot 3 v e' = s' <-> dot 3 v e = s) /\
  (forall v, veq 3 (transverse e' v) (transverse e v)) /\ (forall y i, (i < 3)%nat -> Rabs L * cross e' y i = L * cross e y i) /\ (forall v, dot 3 v e = 0 <-> dot 3 v e' = 0).
Proof.
  intros E. destruct (Rle_dec 0 L) as [P|P].
  - exists e, s. rewrite Rabs_pos_eq by exact P. repeat split; auto.
  - assert (DN : forall v, dot 3 v (vscal (-1) e) = - dot 3 v e) by (intro v; unfold dot, vscal; rewrite !sumn3; ring).
    exists (vscal (-1) e), (- s). rewrite Rabs_left by lra. split; [unfold dot, vscal in *; rewrite sumn3 in *; lra|]. split; [intro v; rewrite DN; lra|]. split.
    + intros v i Hi. unfold transverse. rewrite DN. unfold vsub, vscal. ring.
    + split; [intros y i Hi; i3 i Hi; unfold vscal; cbn [cross]; ring|]. intro v. rewrite DN. lra.
Qed.
Lemma transverse_axis e w : dot 3 e e = 1 -> dot 3 (transverse e w) e = 0.
Proof. intros E. unfold transverse, vsub, vscal. transitivity (dot 3 w e * (1 - dot 3 e e)); [unfold dot; rewrite !sumn3; ring|rewrite E; ring]. Qed.
Section nutation.
Context (inertia : mat) (e : vec) (along across hw : R) (RV : of_revolution inertia e along across).
(** the rate at which the transverse angular velocity turns in the body *)
Definition nutation_rate (spin : R) : R := ((along - across) * spin + hw) / across.
(** what a run of calls does *)
Lemma nut_run coef0 index0 inverse0 fuel a tends a' :
  att_run coef0 index0 inverse0 fuel inertia a tends = Ok a' -> at_prev a = inertia -> veq 3 (at_torque a) (vconst 0) -> veq 3 (at_h a) (vscal hw e) ->
  let s := dot 3 (at_omega a) e in let L := nutation_rate s in let p := transverse e (at_omega a) in
  exists e' s' ws, dot 3 e' e' = 1 /\ dot 3 p e' = 0 /\ (forall v, dot 3 v e' = s' <-> dot 3 v e = s) /\ (forall v, veq 3 (transverse e' v) (transverse e v)) /\
    (forall y i, (i < 3)%nat -> Rabs L * cross e' y i = L * cross e y i) /\ veq 3 (at_omega a) (mix e' p s' 1 0) /\
    nutating e' p s' (Rabs L) ws (at_omega a', at_q a') /\ total ws = last_time (at_time a) tends - at_time a /\ at_time a' = last_time (at_time a) tends /\
    (0 <= at_step a -> in_order (at_time a) tends -> List.Forall (fun w => 0 <= w <= at_step a + 1 / 10 ^ 6) ws).
Proof.
  intros RUN PV T HH s L p. assert (E : dot 3 e e = 1) by apply RV. destruct (flip e s L E) as (e' & s' & E' & A & TR & CR & ZZ).
  assert (P : dot 3 p e' = 0) by (apply ZZ; now apply transverse_axis).
  assert (M0 : veq 3 (at_omega a) (mix e' p s' 1 0)).
  { intros i Hi. unfold mix. rewrite Rmult_0_l. assert (S' : dot 3 (at_omega a) e' = s') by (apply A; reflexivity). pose proof (TR (at_omega a) i Hi) as Q. fold p in Q. rewrite <- Q. unfold transverse, vsub, vscal. rewrite S'. ring. }
  assert (H := att_run_collect coef0 index0 inverse0 fuel inertia (at_torque a) (at_h a) (nutating e' p s' (Rabs L))).
  destruct (H) with (tends := tends) (a := a) (a' := a') (ws0 := @nil R) as (ws & I & TW & TT & F); try assumption; try reflexivity.
  - intros inv d IV D0 ws w st I. apply nutating_step; [exact E'|exact P| |exact I]. intros y Y i Hi. apply A in Y.
    rewrite (field_nutates inertia inv e along across _ _ _ s hw RV IV T D0 HH y Y i Hi). unfold vscal. symmetry. exact (CR y i Hi).
  - unfold nutating. cbn [map factors fst snd RtoC]. intros i Hi. rewrite M0 by exact Hi. unfold mix. ring.
  - exists e', s', ws. cbn [app] in I. repeat (split; [assumption|]). exact F.
Qed.
(** the spin is exact, and each step of width w multiplies the square of the transverse rate by 1 - (L w)^6 / 72 + (L w)^8 / 576 *)
Theorem C170_spin_and_damping coef0 index0 inverse0 fuel a tends a' :
  att_run coef0 index0 inverse0 fuel inertia a tends = Ok a' -> at_prev a = inertia -> veq 3 (at_torque a) (vconst 0) -> veq 3 (at_h a) (vscal hw e) ->
  let L := nutation_rate (dot 3 (at_omega a) e) in
  dot 3 (at_omega a') e = dot 3 (at_omega a) e /\
  exists ws, fold_right Rplus 0 ws = last_time (at_time a) tends - at_time a /\
    (0 <= at_step a -> in_order (at_time a) tends -> List.Forall (fun w => 0 <= w <= at_step a + 1 / 10 ^ 6) ws) /\
    norm 3 (transverse e (at_omega a')) ^ 2 = fold_right (fun w x => (1 - (L * w) ^ 6 / 72 + (L * w) ^ 8 / 576) * x) 1 ws * norm 3 (transverse e (at_omega a)) ^ 2.
Proof.
  intros RUN PV T HH L. destruct (nut_run _ _ _ _ _ _ _ RUN PV T HH) as (e' & s' & ws & E' & P & A & TR & CR & M0 & I & TW & TT & F).
  destruct (mix_transverse e' _ s' E' P _ _ _ I) as (D & N). cbn [fst] in D, N. split; [now apply A|]. exists ws. split; [exact TW|]. split; [exact F|].
  rewrite (AttitudeProofs.norm_ext 3 _ _ (TR (at_omega a'))) in N. rewrite N, Rpow_mult_distr. f_equal.
  set (z := factors _) . replace ((- snd z) ^ 2) with (snd z ^ 2) by ring. change (Cmod z ^ 2 = fold_right (fun w x => (1 - (L * w) ^ 6 / 72 + (L * w) ^ 8 / 576) * x) 1 ws). subst z.
  fold L. clear. assert (G : forall w, Cmod (rk_factor (Rabs L * w)) ^ 2 = 1 - (L * w) ^ 6 / 72 + (L * w) ^ 8 / 576).
  { intro w. rewrite factor_mod2. replace ((Rabs L * w) ^ 6) with ((Rabs L ^ 2) ^ 3 * w ^ 6) by ring. replace ((Rabs L * w) ^ 8) with ((Rabs L ^ 2) ^ 4 * w ^ 8) by ring. rewrite pow2_abs. field. }
  induction ws as [|w l IH]; cbn [map factors fold_right]; [rewrite Cmod_1; ring|]. rewrite Cmod_mult, Rpow_mult_distr, IH, G. ring.
Qed.
(** with |L| (step + 1e-6 s) at most 2 sqrt 2 the nutation never grows, and the angular velocity stays within (L (step + 1e-6))^4 / 80
    times the angle L T, relative to the transverse rate, of the solution of Euler's equations *)
Theorem C170_accuracy coef0 index0 inverse0 fuel a tends a' f :
  att_run coef0 index0 inverse0 fuel inertia a tends = Ok a' -> at_prev a = inertia -> veq 3 (at_torque a) (vconst 0) -> veq 3 (at_h a) (vscal hw e) ->
  0 <= at_step a -> in_order (at_time a) tends -> euler_motion inertia (at_h a) f -> veq 3 (f 0) (at_omega a) ->
  let L := Rabs (nutation_rate (dot 3 (at_omega a) e)) in let T := last_time (at_time a) tends - at_time a in let x := L * (at_step a + 1 / 10 ^ 6) in
  x ^ 2 <= 8 ->
  norm 3 (transverse e (at_omega a')) <= norm 3 (transverse e (at_omega a)) /\
  norm 3 (vsub (at_omega a') (f T)) <= x ^ 4 / 80 * (L * T) * norm 3 (transverse e (at_omega a)).
Proof.
  intros RUN PV TQ HH S0 IO EM F0 L T x B. destruct (nut_run _ _ _ _ _ _ _ RUN PV TQ HH) as (e' & s' & ws & E' & P & A & TR & CR & M0 & I & TW & TT & F).
  specialize (F S0 IO). set (s := dot 3 (at_omega a) e) in *. fold L in I. assert (LP : 0 <= L) by apply Rabs_pos.
  destruct (error_sum0 L (at_step a + 1 / 10 ^ 6) ws LP ltac:(lra) B F) as (SM & ER). set (p := transverse e (at_omega a)) in *. set (z := factors (map (Rmult L) ws)) in *.
  assert (NP : 0 <= norm 3 p) by (unfold norm; apply sqrt_pos).
  split.
  - destruct (mix_transverse e' p s' E' P _ _ _ I) as (_ & N). cbn [fst] in N. rewrite (AttitudeProofs.norm_ext 3 _ _ (TR (at_omega a'))) in N. fold z in N. rewrite N.
    replace ((- snd z) ^ 2) with (snd z ^ 2) by ring. change (Cmod z * norm 3 p <= norm 3 p). pose proof (factors_mod _ SM). fold z in H. nra.
  - destruct (euler_nutates inertia e along across (at_h a) hw f RV HH EM) as (AX & DV). cbv zeta in *.
    assert (SE : dot 3 (f 0) e = s) by (unfold s; now apply dot_ext3). rewrite SE in *.
    assert (FT : veq 3 (f T) (mix e' p s' (cos (L * T)) (sin (L * T)))).
    { apply (nutation_unique e' p s' L E' P).
      - intros t i Hi. unfold L. rewrite CR by exact Hi. exact (DV t i Hi).
      - intros i Hi. rewrite F0, M0 by exact Hi. reflexivity. }
    pose proof (mix_diff e' p s' E' P _ _ _ _ _ _ I FT) as MD. cbn [fst] in MD. rewrite MD. apply Rmult_le_compat_r; [exact NP|]. fold z. unfold T. rewrite <- TW.
    replace ((- snd z - sin (L * total ws)) ^ 2) with ((snd z + - - sin (L * total ws)) ^ 2) by ring.
    replace ((fst z - cos (L * total ws)) ^ 2) with ((fst z + - cos (L * total ws)) ^ 2) by ring. exact ER.
Qed.
(** beyond that limit a step makes the nutation grow: refuted for every step width *)
Theorem C170_any_step_width_refuted coef0 index0 inverse0 fuel a a' :
  att_propagate coef0 index0 inverse0 fuel true inertia a (at_time a + at_step a) = Ok a' -> at_prev a = inertia -> veq 3 (at_torque a) (vconst 0) -> veq 3 (at_h a) (vscal hw e) ->
  0 < at_step a -> 8 < (nutation_rate (dot 3 (at_omega a) e) * at_step a) ^ 2 -> 0 < norm 3 (transverse e (at_omega a)) ->
  norm 3 (transverse e (at_omega a)) < norm 3 (transverse e (at_omega a')).
Proof.
  intros RUN PV TQ HH S0 B NP. assert (E : dot 3 e e = 1) by apply RV. set (L := nutation_rate (dot 3 (at_omega a) e)) in *.
  apply propagate_spec in RUN. destruct RUN as (inv & k & IV & W & K & NE & RUN & _). rewrite PV in RUN. set (d := mvec 3 (mscal _ _) _) in RUN.
  assert (D0 : veq 3 d (vconst 0)). { intros i Hi. unfold d, mvec, mscal, msub, vconst. apply sumn_0. intros; ring. }
  assert (K0 : k = 0%nat). { destruct K as [K|K]; [exact K|]. destruct k as [|k]; [reflexivity|]. exfalso. rewrite S_INR in K. pose proof (pos_INR k). assert (0 <= INR k * at_step a) by (apply Rmult_le_pos; lra). lra. }
  subst k. unfold widths in RUN. cbn [repeat app run_steps fold_left INR] in RUN. replace (at_time a + at_step a - at_time a - 0 * at_step a) with (at_step a) in RUN by ring.
  set (p := transverse e (at_omega a)) in *. set (s := dot 3 (at_omega a) e) in *. assert (P : dot 3 p e = 0) by now apply transverse_axis.
  assert (I0 : nutating e p s L [] (at_omega a, at_q a)).
  { unfold nutating. cbn [map factors fst snd RtoC]. intros i Hi. unfold mix, p, transverse, vsub, vscal. fold s. ring. }
  pose proof (nutating_step e p s L E P (att_deriv inertia inv (at_torque a) (at_h a) d) [] (at_step a) _ (field_nutates inertia inv e along across _ _ _ s hw RV IV TQ D0 HH) I0) as I.
  assert (I1 : nutating e p s L ([] ++ [at_step a]) (at_omega a', at_q a')) by (eapply eq_ind_r; [exact I|exact RUN]).
  destruct (mix_transverse e p s E P _ _ _ I1) as (_ & N). cbn [fst app map factors] in N. rewrite N. set (z := Cmult _ _). replace ((- snd z) ^ 2) with (snd z ^ 2) by ring. change (norm 3 p < Cmod z * norm 3 p).
  assert (G : 1 < Cmod z).
  { subst z. rewrite Cmod_mult, Cmod_1, Rmult_1_l. pose proof (Cmod_ge_0 (rk_factor (L * at_step a))) as Q. pose proof (factor_mod2 (L * at_step a)) as FM. set (y := (L * at_step a) ^ 2) in *.
    replace ((L * at_step a) ^ 6) with (y ^ 3) in FM by (subst y; ring). replace ((L * at_step a) ^ 8) with (y ^ 4) in FM by (subst y; ring).
    assert (0 < y ^ 3 * (y - 8)) by (apply Rmult_lt_0_compat; [apply pow_lt; lra|lra]). nra. }
  nra.
Qed.
End nutation.
Print Assumptions C170_spin_and_damping.
Print Assumptions C170_accuracy.
Print Assumptions C170_any_step_width_refuted.

(** Cases that meet the hypotheses. *)
Lemma run_two inertia a t1 t2 : (exists inv, is_inverse 3 inertia inv) -> at_step a = 1 / 10 -> at_time a < t1 <= at_time a + 1 / 2 -> t1 < t2 <= t1 + 1 / 2 ->
  exists a', att_run (vconst 0) (fun _ => O) (fun _ _ => 0) 6 inertia a [t1; t2] = Ok a'.
Proof.
  intros V P I1 I2. destruct (propagate_ok (vconst 0) (fun _ => O) (fun _ _ => 0) 5 inertia a t1 V) as (b & EB); [lra|rewrite P; cbn [INR]; lra|].
  cbn [att_run]. rewrite EB. cbn [bind]. destruct (C72_propagate _ _ _ _ _ _ _ _ EB) as (? & ? & _ & Q). cbv zeta in Q. destruct Q as (_ & _ & _ & _ & _ & ST & TI & _).
  destruct (propagate_ok (vconst 0) (fun _ => O) (fun _ _ => 0) 5 inertia b t2 V) as (c & EC); [lra|rewrite ST, P; cbn [INR]; lra|]. rewrite EC. cbn [bind]. exists c. reflexivity.
Qed.
Example ex_steady : let a := ex_att in (exists a', att_run (vconst 0) (fun _ => O) (fun _ _ => 0) 6 ex_inertia a [1 / 4; 1 / 2] = Ok a') /\
  at_prev a = ex_inertia /\ unit 4 (at_q a) /\ veq 3 (mvec 3 ex_inertia (at_omega a)) (vscal 3 (at_omega a)) /\ veq 3 (at_h a) (vscal 0 (at_omega a)) /\
  in_order (at_time a) [1 / 4; 1 / 2] /\ trajectory 4 (quaternion_rate (at_omega a)) (fun t => q4 0 0 (sin (t / 2)) (cos (t / 2))) /\
  (norm 3 (at_omega a) / 2 * (at_step a + 1 / 10 ^ 6)) ^ 2 <= 8.
Proof.
  intro a. split; [|split; [reflexivity|split; [|split; [|split; [|split; [|split]]]]]].
  - apply run_two; [exists (fun i j => if Nat.eqb i j then / INR (S i) else 0); apply ex_inverse|reflexivity|cbn [a ex_att at_time]; lra|lra].
  - unfold unit, dot. cbn [a ex_att at_q sumn q4]. ring.
  - intros i Hi. unfold mvec. rewrite sumn3. i3 i Hi; cbv [a ex_att at_omega ex_inertia Nat.eqb INR vscal v3]; ring.
  - intros i Hi. cbn [a ex_att at_h]. unfold vscal, vconst. ring.
  - cbn [a ex_att at_time in_order]. lra.
  - intros t i Hi. apply is_derive_Reals. i4 i Hi; cbv [quaternion_rate mvec mscal omega_matrix q4 sumn a ex_att at_omega v3]; (auto_derive; [trivial|unfold Rdiv; field]).
  - replace (norm 3 (at_omega a)) with 1; [cbn [a ex_att at_step]; lra|]. unfold norm. rewrite sumn3. cbn [a ex_att at_omega v3]. replace (0 * 0 + 0 * 0 + 1 * 1) with 1 by ring. now rewrite sqrt_1.
Qed.
(** a disc with momentum of inertia 1 across and 2 along its axis, spinning at 1 rad/s: it nutates at 1 rad/s *)
Definition disc : mat := fun i j => if Nat.eqb i j then (if Nat.eqb i 2 then 2 else 1) else 0.
Lemma disc_inverse : is_inverse 3 disc (fun i j => if Nat.eqb i j then (if Nat.eqb i 2 then 1 / 2 else 1) else 0).
Proof. intros i j Hi Hj. rewrite !sumn3. i3 i Hi; i3 j Hj; cbv [disc Nat.eqb]; split; field. Qed.
Definition ex_nut (step : R) : att_rk4 := mkAtt (v3 1 0 1) (q4 0 0 0 1) (vconst 0) step 0 (vconst 0) disc 0 0.
Lemma ex_rate step : nutation_rate 2 1 0 (dot 3 (at_omega (ex_nut step)) (v3 0 0 1)) = 1.
Proof. unfold nutation_rate, dot. rewrite sumn3. cbn [ex_nut at_omega v3]. field. Qed.
Lemma ex_revolution : of_revolution disc (v3 0 0 1) 2 1.
Proof.
  split; [unfold dot; rewrite sumn3; cbn [v3]; ring|]. split; [lra|]. split; [lra|]. split.
  - intros i Hi. unfold mvec, vscal. rewrite sumn3. i3 i Hi; cbv [disc Nat.eqb v3]; ring.
  - intros v Z. unfold dot in Z. rewrite sumn3 in Z. cbn [v3] in Z. intros i Hi. unfold mvec, vscal. rewrite sumn3. i3 i Hi; cbv [disc Nat.eqb]; lra.
Qed.
Example ex_nutation : let a := ex_nut (1 / 10) in (exists a', att_run (vconst 0) (fun _ => O) (fun _ _ => 0) 6 disc a [1 / 4; 1 / 2] = Ok a') /\
  of_revolution disc (v3 0 0 1) 2 1 /\ veq 3 (at_h a) (vscal 0 (v3 0 0 1)) /\ euler_motion disc (at_h a) (fun t => v3 (cos t) (sin t) 1) /\
  (Rabs (nutation_rate 2 1 0 (dot 3 (at_omega a) (v3 0 0 1))) * (at_step a + 1 / 10 ^ 6)) ^ 2 <= 8.
Proof.
  intro a. split; [|split; [exact ex_revolution|split; [|split]]].
  - apply run_two; [eexists; apply disc_inverse|reflexivity|cbn [a ex_nut at_time]; lra|lra].
  - intros i Hi. cbn [a ex_nut at_h]. unfold vscal, vconst. ring.
  - intros t i Hi. apply is_derive_Reals. i3 i Hi; cbv [mvec sumn disc Nat.eqb cross vadd a ex_nut at_h vconst v3]; (auto_derive; [trivial|ring]).
  - unfold a. rewrite ex_rate, Rabs_R1. cbn [ex_nut at_step]. lra.
Qed.
Example ex_nutation_grows : exists a', att_propagate (vconst 0) (fun _ => O) (fun _ _ => 0) 6 true disc (ex_nut 3) (0 + 3) = Ok a' /\
  norm 3 (transverse (v3 0 0 1) (v3 1 0 1)) < norm 3 (transverse (v3 0 0 1) (at_omega a')).
Proof.
  destruct (propagate_ok (vconst 0) (fun _ => O) (fun _ _ => 0) 5 disc (ex_nut 3) (0 + 3)) as (b & EB); [eexists; apply disc_inverse|cbn [ex_nut at_time]; lra|cbn [ex_nut at_time at_step INR]; lra|].
  exists b. split; [exact EB|].
  refine (C170_any_step_width_refuted disc (v3 0 0 1) 2 1 0 ex_revolution _ _ _ _ (ex_nut 3) b EB eq_refl _ _ _ _ _).
  - intros i Hi. reflexivity.
  - intros i Hi. cbn [ex_nut at_h]. unfold vscal, vconst. ring.
  - cbn [ex_nut at_step]. lra.
  - rewrite ex_rate. cbn [ex_nut at_step]. lra.
  - apply sqrt_lt_R0. rewrite sumn3. unfold transverse, vsub, vscal, dot. rewrite sumn3. cbn [ex_nut at_omega v3]. lra.
Qed.
