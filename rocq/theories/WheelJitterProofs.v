(** Proofs about wheel jitter. *)
From Coq Require Import Reals Lra Lia List Bool ZArith.
From Verif Require Import RBase VecModel VecProofs QuatModel QuatSpec QuatProofs WheelJitterModel WheelJitterSpec.
Import ListNotations.
Open Scope R_scope.

(** * Harmonics *)
Lemma harmonics_spec h : forall p w T v, length p = length h ->
  fst (harmonics h p w T v) = map (fun x => snd x + fst (fst x) * (T * w)) (combine h p) /\
  snd (harmonics h p w T v) 0%nat = v 0%nat + sum_over (fun x => snd (fst x) * w ^ 2 * sin (snd x + fst (fst x) * (T * w))) (combine h p) /\
  snd (harmonics h p w T v) 1%nat = v 1%nat + sum_over (fun x => snd (fst x) * w ^ 2 * cos (snd x + fst (fst x) * (T * w))) (combine h p) /\
  snd (harmonics h p w T v) 2%nat = v 2%nat.
Proof.
  induction h as [|[n a] h IH]; intros p w T v L; destruct p as [|q p]; try discriminate.
  - cbn. repeat split; ring.
  - injection L as L. cbn [harmonics combine map sum_over fst snd].
    set (p' := q + n * w * T). set (v' := v3 _ _ _).
    destruct (IH p w T v' L) as (I1 & I2 & I3 & I4).
    destruct (harmonics h p w T v') as [ps r]. cbn [fst snd] in *.
    assert (E : p' = q + n * (T * w)) by (unfold p'; ring).
    rewrite I1, I2, I3, I4, <- E. cbn [v' v3]. repeat split; ring.
Qed.
Lemma harmonics_len h p w T v : length p = length h -> length (fst (harmonics h p w T v)) = length h.
Proof. intros L. destruct (harmonics_spec h p w T v L) as (E & _). rewrite E, map_length, combine_length. lia. Qed.

Lemma combine_map_snd {A} (h : list A) (p : list R) (g : A * R -> R) : length p = length h ->
  combine h (map g (combine h p)) = map (fun x => (fst x, g x)) (combine h p).
Proof.
  revert p. induction h as [|x h IH]; intros p L; destruct p as [|q p]; try discriminate; [reflexivity|].
  cbn. f_equal. apply IH. now injection L.
Qed.
Lemma sum_over_map {A B} (f : B -> R) (g : A -> B) l : sum_over f (map g l) = sum_over (fun x => f (g x)) l.
Proof. induction l; cbn; congruence. Qed.
Lemma sum_over_ext {A} (f g : A -> R) l : (forall x, f x = g x) -> sum_over f l = sum_over g l.
Proof. intros H. induction l; cbn; [reflexivity|]. rewrite H. congruence. Qed.
Lemma sum_over_app {A} (f : A -> R) l1 l2 : sum_over f (l1 ++ l2) = sum_over f l1 + sum_over f l2.
Proof. induction l1; cbn; [ring|]. rewrite IHl1. ring. Qed.

Lemma jitter_run_app j a b : jitter_run j (a ++ b) = jitter_run (jitter_run j a) b.
Proof. revert j. induction a; intros j; [reflexivity|]. apply IHa. Qed.

Lemma calc_config j w : jt_config (calc_jitter j w) = jt_config j.
Proof. unfold calc_jitter. destruct (harmonics _ _ _ _ _), (harmonics _ _ _ _ _). destruct (jt_resonance _); reflexivity. Qed.
Lemma run_config j ws : jt_config (jitter_run j ws) = jt_config j.
Proof. revert j. induction ws; intros j; [reflexivity|]. cbn. rewrite IHws. apply calc_config. Qed.

Lemma calc_phase j w :
  jt_force_phase (calc_jitter j w) = fst (harmonics (jt_force (jt_config j)) (jt_force_phase j) w (jt_interval (jt_config j)) (vconst 0)) /\
  jt_torque_phase (calc_jitter j w) = fst (harmonics (jt_torque (jt_config j)) (jt_torque_phase j) w (jt_interval (jt_config j)) (vconst 0)).
Proof. unfold calc_jitter. destruct (harmonics _ _ _ _ _), (harmonics _ _ _ _ _). destruct (jt_resonance _); split; reflexivity. Qed.

Definition phases_after (h : list (R * R)) (p : list R) (theta : R) : list R := map (fun x => snd x + fst (fst x) * theta) (combine h p).
Lemma phases_len h p t : length p = length h -> length (phases_after h p t) = length h.
Proof. intros L. unfold phases_after. rewrite map_length, combine_length. lia. Qed.
Lemma phases_0 h : forall p, length p = length h -> phases_after h p 0 = p.
Proof.
  unfold phases_after. induction h as [|x h IH]; intros p L; destruct p as [|q p]; try discriminate; [reflexivity|].
  cbn. rewrite IH by now injection L. f_equal. ring.
Qed.
Lemma phases_step h p t t' : length p = length h ->
  map (fun x => snd x + fst (fst x) * t') (combine h (phases_after h p t)) = phases_after h p (t + t').
Proof.
  intros L. unfold phases_after. rewrite combine_map_snd by exact L. rewrite map_map. apply map_ext. intros x. cbn. ring.
Qed.

Lemma run_phases c pf pt ws : length pf = length (jt_force c) -> length pt = length (jt_torque c) ->
  jt_force_phase (jitter_run (jitter_new c pf pt) ws) = phases_after (jt_force c) pf (rotor_angle (jt_interval c) ws) /\
  jt_torque_phase (jitter_run (jitter_new c pf pt) ws) = phases_after (jt_torque c) pt (rotor_angle (jt_interval c) ws).
Proof.
  intros Lf Lt. induction ws as [|w ws IH] using rev_ind.
  - unfold rotor_angle. cbn [sum_over jitter_run]. rewrite Rmult_0_r, !phases_0 by assumption. split; reflexivity.
  - rewrite jitter_run_app. cbn [jitter_run]. destruct IH as [I1 I2].
    destruct (calc_phase (jitter_run (jitter_new c pf pt) ws) w) as [E1 E2]. rewrite E1, E2, run_config.
    cbn [jt_config jitter_new]. rewrite I1, I2.
    rewrite (proj1 (harmonics_spec _ _ _ _ _ (phases_len _ _ (rotor_angle (jt_interval c) ws) Lf))).
    rewrite (proj1 (harmonics_spec _ _ _ _ _ (phases_len _ _ (rotor_angle (jt_interval c) ws) Lt))).
    rewrite !phases_step by assumption. unfold rotor_angle. rewrite sum_over_app. cbn [sum_over].
    split; f_equal; ring.
Qed.

Lemma calc_u0 j w :
  u0 (jt_f (calc_jitter j w)) = snd (harmonics (jt_force (jt_config j)) (jt_force_phase j) w (jt_interval (jt_config j)) (vconst 0)) /\
  u0 (jt_t (calc_jitter j w)) = snd (harmonics (jt_torque (jt_config j)) (jt_torque_phase j) w (jt_interval (jt_config j)) (vconst 0)).
Proof. unfold calc_jitter. destruct (harmonics _ _ _ _ _), (harmonics _ _ _ _ _). destruct (jt_resonance _); split; reflexivity. Qed.

Lemma harmonics_radial h p T ws w : length p = length h ->
  veq 3 (snd (harmonics h (phases_after h p (rotor_angle T ws)) w T (vconst 0))) (radial h p (rotor_angle T (ws ++ [w])) w).
Proof.
  intros L. destruct (harmonics_spec h (phases_after h p (rotor_angle T ws)) w T (vconst 0) (phases_len _ _ _ L)) as (_ & E0 & E1 & E2).
  assert (A : rotor_angle T (ws ++ [w]) = rotor_angle T ws + T * w) by (unfold rotor_angle; rewrite sum_over_app; cbn [sum_over]; ring).
  assert (G : forall F : R -> R, sum_over (fun x : R * R * R => snd (fst x) * w ^ 2 * F (snd x + fst (fst x) * (T * w))) (combine h (phases_after h p (rotor_angle T ws)))
     = sum_over (fun x => snd (fst x) * w ^ 2 * F (snd x + fst (fst x) * rotor_angle T (ws ++ [w]))) (combine h p)).
  { intros F. unfold phases_after. rewrite combine_map_snd by exact L. rewrite sum_over_map. apply sum_over_ext. intros x. cbn [fst snd]. rewrite A. do 2 f_equal. ring. }
  intros i Hi. unfold radial. destruct i as [|[|[|i]]]; [| | |lia]; cbn [v3].
  - rewrite E0, (G sin). unfold vconst. ring.
  - rewrite E1, (G cos). unfold vconst. ring.
  - rewrite E2. reflexivity.
Qed.

Lemma unfiltered_spec c pf pt ws w : length pf = length (jt_force c) -> length pt = length (jt_torque c) ->
  let j := jitter_run (jitter_new c pf pt) (ws ++ [w]) in
  veq 3 (u0 (jt_f j)) (radial (jt_force c) pf (rotor_angle (jt_interval c) (ws ++ [w])) w) /\
  veq 3 (u0 (jt_t j)) (radial (jt_torque c) pt (rotor_angle (jt_interval c) (ws ++ [w])) w).
Proof.
  intros Lf Lt. cbv zeta. rewrite jitter_run_app. cbn [jitter_run].
  destruct (calc_u0 (jitter_run (jitter_new c pf pt) ws) w) as [E1 E2]. rewrite E1, E2, run_config. cbn [jt_config jitter_new].
  destruct (run_phases c pf pt ws Lf Lt) as [P1 P2]. rewrite P1, P2. split; apply harmonics_radial; assumption.
Qed.

Lemma inverse_frame_ext q u v : veq 3 u v -> veq 3 (inverse_frame_conversion q u) (inverse_frame_conversion q v).
Proof.
  intros H i Hi. rewrite !(inverse_frame_dcm q _ i Hi). unfold mvec. rewrite !sumn3, !H by lia. reflexivity.
Qed.

Lemma body_spec j w : jt_resonance (jt_config j) = false ->
  jt_force_b (calc_jitter j w) = inverse_frame_conversion (jt_q_b2c (jt_config j)) (u0 (jt_f (calc_jitter j w))) /\
  jt_torque_b (calc_jitter j w) = inverse_frame_conversion (jt_q_b2c (jt_config j)) (u0 (jt_t (calc_jitter j w))).
Proof. intros E. unfold calc_jitter. destruct (harmonics _ _ _ _ _), (harmonics _ _ _ _ _). rewrite E. split; reflexivity. Qed.
Lemma body_spec_filtered j w : jt_resonance (jt_config j) = true ->
  jt_force_b (calc_jitter j w) = inverse_frame_conversion (jt_q_b2c (jt_config j)) (f0 (jt_f (calc_jitter j w))) /\
  jt_torque_b (calc_jitter j w) = inverse_frame_conversion (jt_q_b2c (jt_config j)) (f0 (jt_t (calc_jitter j w))).
Proof. intros E. unfold calc_jitter. destruct (harmonics _ _ _ _ _), (harmonics _ _ _ _ _). rewrite E. split; reflexivity. Qed.

(** * Size and direction *)
Lemma planar_bound (l : list (R * R * R)) w (g : R * R * R -> R) :
  (sum_over (fun x => snd (fst x) * w ^ 2 * sin (g x)) l) ^ 2 + (sum_over (fun x => snd (fst x) * w ^ 2 * cos (g x)) l) ^ 2
  <= (w ^ 2 * sum_over (fun x => Rabs (snd (fst x))) l) ^ 2.
Proof.
  assert (P : forall l : list (R * R * R), 0 <= sum_over (fun x => Rabs (snd (fst x))) l).
  { clear. intros l. induction l as [|y l IH]; cbn [sum_over]; [lra|]. pose proof (Rabs_pos (snd (fst y))). lra. }
  induction l as [|x l IH]; [cbn [sum_over]; lra|].
  cbn [sum_over]. specialize (P l).
  set (X := sum_over (fun x => snd (fst x) * w ^ 2 * sin (g x)) l) in *. set (Y := sum_over (fun x => snd (fst x) * w ^ 2 * cos (g x)) l) in *.
  set (A := sum_over (fun x => Rabs (snd (fst x))) l) in *. set (a := snd (fst x)).
  pose proof (sc (g x)) as SC. set (s := sin (g x)) in *. set (cc := cos (g x)) in *.
  (* (a w² s + X)² + ... = a² w⁴ + 2 a w² (s X + c Y) + X²+Y² *)
  assert (CS : (s * X + cc * Y) ^ 2 <= (w ^ 2 * A) ^ 2).
  { assert ((s * X + cc * Y) ^ 2 = (s * s + cc * cc) * (X ^ 2 + Y ^ 2) - (s * Y - cc * X) ^ 2) by ring.
    pose proof (pow2_ge_0 (s * Y - cc * X)). rewrite H, SC. lra. }
  assert (W : 0 <= w ^ 2) by apply pow2_ge_0.
  assert (WA : 0 <= w ^ 2 * A) by (apply Rmult_le_pos; assumption).
  assert (CA : Rabs (s * X + cc * Y) <= w ^ 2 * A).
  { rewrite <- (Rabs_pos_eq (w ^ 2 * A)) by exact WA. apply Rsqr_le_abs_0. unfold Rsqr. lra. }
  assert (AB : a * w ^ 2 * (s * X + cc * Y) <= Rabs a * w ^ 2 * (w ^ 2 * A)).
  { eapply Rle_trans; [apply Rle_abs|]. rewrite !Rabs_mult, (Rabs_pos_eq (w ^ 2)) by exact W.
    apply Rmult_le_compat_l; [apply Rmult_le_pos; [apply Rabs_pos|exact W]|exact CA]. }
  assert (AA : Rabs a * Rabs a = a * a) by (rewrite <- Rabs_mult; apply Rabs_pos_eq, Rle_0_sqr).
  replace ((a * w ^ 2 * s + X) ^ 2 + (a * w ^ 2 * cc + Y) ^ 2)
    with (a * a * (w ^ 2) ^ 2 * (s * s + cc * cc) + 2 * (a * w ^ 2 * (s * X + cc * Y)) + (X ^ 2 + Y ^ 2)) by ring.
  rewrite SC.
  replace ((w ^ 2 * (Rabs a + A)) ^ 2) with (Rabs a * Rabs a * (w ^ 2) ^ 2 + 2 * (Rabs a * w ^ 2 * (w ^ 2 * A)) + (w ^ 2 * A) ^ 2) by ring.
  rewrite AA. lra.
Qed.

Lemma sum_amp h : forall p, length p = length h -> sum_over (fun x : R * R * R => Rabs (snd (fst x))) (combine h p) = sum_over (fun x => Rabs (snd x)) h.
Proof.
  induction h as [|x h IH]; intros p L; destruct p as [|q p]; try discriminate; [reflexivity|].
  cbn. f_equal. apply IH. now injection L.
Qed.

Lemma radial_bound h p t w : length p = length h -> norm 3 (radial h p t w) <= w ^ 2 * sum_over (fun x => Rabs (snd x)) h.
Proof.
  intros L. pose proof (planar_bound (combine h p) w (fun x => snd x + fst (fst x) * t)) as B. rewrite sum_amp in B by exact L.
  unfold norm. rewrite sumn3. unfold radial. cbn [v3].
  assert (P : 0 <= w ^ 2 * sum_over (fun x : R * R => Rabs (snd x)) h).
  { apply Rmult_le_pos; [apply pow2_ge_0|]. clear. induction h as [|y l IH]; cbn [sum_over]; [lra|]. pose proof (Rabs_pos (snd y)). lra. }
  apply Rsqr_incr_0_var; [|exact P]. rewrite Rsqr_sqrt.
  - unfold Rsqr. lra.
  - match goal with |- 0 <= ?a * ?a + ?b * ?b + 0 * 0 => pose proof (Rle_0_sqr a); pose proof (Rle_0_sqr b) end. unfold Rsqr in *. lra.
Qed.

Lemma trans_rotation m : rotation m -> rotation (mtrans m).
Proof.
  intros (A & B & D). split; [exact B|]. split; [exact A|]. rewrite <- D. unfold det3, mtrans. ring.
Qed.
Lemma inverse_frame_dot q u v : unit 4 q -> dot 3 (inverse_frame_conversion q u) (inverse_frame_conversion q v) = dot 3 u v.
Proof.
  intros U. rewrite <- (rotation_dot (mtrans (to_dcm q)) u v (trans_rotation _ (dcm_rotation _ U))).
  unfold dot. rewrite !sumn3, !(inverse_frame_dcm q) by lia. reflexivity.
Qed.
Lemma inverse_frame_norm q u : unit 4 q -> norm 3 (inverse_frame_conversion q u) = norm 3 u.
Proof. intros U. pose proof (inverse_frame_dot q u u U) as H. unfold norm. unfold dot in H. rewrite H. reflexivity. Qed.
Lemma norm3_ext u v : veq 3 u v -> norm 3 u = norm 3 v.
Proof. intros H. unfold norm. rewrite !sumn3, !H by lia. reflexivity. Qed.

(** * The filter *)
Lemma run_snoc j ws n : jitter_run j (map ws (seq 0 (S n))) = calc_jitter (jitter_run j (map ws (seq 0 n))) (ws n).
Proof. rewrite seq_S, map_app, jitter_run_app. reflexivity. Qed.

Lemma calc_filter j w : jt_resonance (jt_config j) = true ->
  let ch := jt_f j in let ch' := jt_f (calc_jitter j w) in
  u1 ch' = u0 ch' /\ u2 ch' = u1 ch /\ f1 ch' = f0 ch' /\ f2 ch' = f1 ch /\
  f0 ch' = filter_out (jt_config j) (set_u0 ch (u0 ch')).
Proof.
  intros E. cbv zeta. unfold calc_jitter. destruct (harmonics _ _ _ _ _), (harmonics _ _ _ _ _). rewrite E.
  cbn [jt_f filter_step u0 u1 u2 f0 f1 f2 set_u0]. repeat split; reflexivity.
Qed.

Lemma filter_history c pf pt ws n : jt_resonance c = true ->
  let j := jitter_new c pf pt in
  let at_ k := jt_f (jitter_run j (map ws (seq 0 k))) in
  u1 (at_ n) = u0 (at_ n) /\ f1 (at_ n) = f0 (at_ n) /\ u2 (at_ (S n)) = u0 (at_ n) /\ f2 (at_ (S n)) = f0 (at_ n) /\
  f0 (at_ (S n)) = filter_out c (mkChannel (u0 (at_ (S n))) (u0 (at_ n)) (u2 (at_ n)) (f0 (at_ n)) (f0 (at_ n)) (f2 (at_ n))).
Proof.
  intros E. cbv zeta.
  assert (A : forall m, u1 (jt_f (jitter_run (jitter_new c pf pt) (map ws (seq 0 m)))) = u0 (jt_f (jitter_run (jitter_new c pf pt) (map ws (seq 0 m))))
           /\ f1 (jt_f (jitter_run (jitter_new c pf pt) (map ws (seq 0 m)))) = f0 (jt_f (jitter_run (jitter_new c pf pt) (map ws (seq 0 m))))).
  { intros [|m]; [split; reflexivity|]. rewrite run_snoc.
    destruct (calc_filter (jitter_run (jitter_new c pf pt) (map ws (seq 0 m))) (ws m)) as (A1 & A2 & A3 & A4 & A5); [rewrite run_config; exact E|].
    split; assumption. }
  destruct (A n) as [A1 A2]. split; [exact A1|]. split; [exact A2|].
  rewrite run_snoc. set (j := jitter_run (jitter_new c pf pt) (map ws (seq 0 n))) in *.
  destruct (calc_filter j (ws n)) as (B1 & B2 & B3 & B4 & B5); [unfold j; rewrite run_config; exact E|].
  split; [rewrite B2; exact A1|]. split; [rewrite B4; exact A2|]. rewrite B5 at 1. unfold j at 1. rewrite run_config. cbn [jt_config jitter_new].
  unfold set_u0. rewrite A1, A2. reflexivity.
Qed.

Lemma filter_answers c pf pt ws i : jt_resonance c = true -> coefficient c 0 <> 0 ->
  answers c (unfiltered_at (jitter_new c pf pt) ws i) (filtered_at (jitter_new c pf pt) ws i) /\
  coefficient c 0 * filtered_at (jitter_new c pf pt) ws i 1 = coefficient c 3 * unfiltered_at (jitter_new c pf pt) ws i 1 /\
  filtered_at (jitter_new c pf pt) ws i 0 = 0 /\ unfiltered_at (jitter_new c pf pt) ws i 0 = 0.
Proof.
  intros E Hc. repeat split.
  - intros n. unfold unfiltered_at, filtered_at.
    destruct (filter_history c pf pt ws (S n) E) as (_ & _ & _ & _ & H). destruct (filter_history c pf pt ws n E) as (_ & _ & U & F & _).
    rewrite H. rewrite U, F. unfold filter_out. cbn [u0 u1 u2 f0 f1 f2]. field. exact Hc.
  - unfold unfiltered_at, filtered_at. destruct (filter_history c pf pt ws 0 E) as (_ & _ & _ & _ & H). rewrite H.
    unfold filter_out. cbn [u0 u1 u2 f0 f1 f2 seq map jitter_run jitter_new jt_f channel0]. unfold vconst. field. exact Hc.
Qed.

(** * Gain of the filter *)
Lemma half_angle_cos t : cos (t / 2) <> 0 -> (1 + tan (t / 2) ^ 2) * cos t = 1 - tan (t / 2) ^ 2.
Proof.
  intros H. replace t with (2 * (t / 2)) at 2 by field. rewrite cos_2a. unfold tan. pose proof (sc (t / 2)) as P.
  set (s := sin (t / 2)) in *. set (c := cos (t / 2)) in *.
  replace ((1 + (s / c) ^ 2) * (c * c - s * s)) with ((s * s + c * c) * (c * c - s * s) / (c * c)) by (field; exact H). rewrite P. field. exact H.
Qed.

Lemma resonance_answers c A phi : jt_interval c <> 0 -> jt_bandwidth c <> 0 ->
  let theta := 2 * PI * jt_frequency c * jt_interval c in
  cos (theta / 2) <> 0 ->
  answers c (fun n => A * sin (INR n * theta + phi)) (fun n => A / jt_bandwidth c * sin (INR n * theta + phi)).
Proof.
  intros HT Hb. cbv zeta. set (theta := 2 * PI * jt_frequency c * jt_interval c). intros Hc n.
  set (al := INR (S n) * theta + phi).
  assert (E2 : INR (S (S n)) * theta + phi = al + theta) by (unfold al; rewrite (S_INR (S n)); ring).
  assert (E0 : INR n * theta + phi = al - theta) by (unfold al; rewrite (S_INR n); ring).
  rewrite E2, E0. rewrite sin_plus, sin_minus.
  assert (X : jt_interval c * prewarped c = 2 * tan (theta / 2)).
  { unfold prewarped. fold theta. unfold theta. field. exact HT. }
  pose proof (half_angle_cos theta Hc) as K. set (t := tan (theta / 2)) in *.
  unfold coefficient.
  set (T := jt_interval c) in *. set (W := prewarped c) in *. set (z := jt_damping c). set (b := jt_bandwidth c) in *.
  replace (4 * b * z * T * W) with (4 * b * z * (T * W)) by ring. replace (4 * z * T * W) with (4 * z * (T * W)) by ring.
  replace (2 * T ^ 2 * W ^ 2) with (2 * (T * W) ^ 2) by ring. replace (T ^ 2 * W ^ 2) with ((T * W) ^ 2) by ring. rewrite X.
  set (s := sin al). set (co := cos al). set (st := sin theta). set (ct := cos theta) in *.
  assert (D : (4 + (2 * t) ^ 2) * (2 * (s * ct)) + (-8 + 2 * (2 * t) ^ 2) * s = 8 * s * ((1 + t ^ 2) * ct - 1 + t ^ 2)) by ring.
  rewrite K in D.
  assert (D0 : (4 + (2 * t) ^ 2) * (2 * (s * ct)) + (-8 + 2 * (2 * t) ^ 2) * s = 0) by (rewrite D; ring).
  replace ((4 + 4 * b * z * (2 * t) + (2 * t) ^ 2) * (A / b * (s * ct + co * st)) + (-8 + 2 * (2 * t) ^ 2) * (A / b * s) +
           (4 - 4 * b * z * (2 * t) + (2 * t) ^ 2) * (A / b * (s * ct - co * st)))
    with (A / b * ((4 + (2 * t) ^ 2) * (2 * (s * ct)) + (-8 + 2 * (2 * t) ^ 2) * s) + A * (4 * z * (2 * t)) * (2 * (co * st))) by (field; exact Hb).
  replace ((4 + 4 * z * (2 * t) + (2 * t) ^ 2) * (A * (s * ct + co * st)) + (-8 + 2 * (2 * t) ^ 2) * (A * s) +
           (4 - 4 * z * (2 * t) + (2 * t) ^ 2) * (A * (s * ct - co * st)))
    with (A * ((4 + (2 * t) ^ 2) * (2 * (s * ct)) + (-8 + 2 * (2 * t) ^ 2) * s) + A * (4 * z * (2 * t)) * (2 * (co * st))) by ring.
  rewrite D0. ring.
Qed.

(** * Stability *)
Section stable.
Context (p q : R) (Hq : -1 < q < 1) (Hp : Rabs p < 1 + q).
Definition lyap (a b : R) : R := (1 + q) * (a ^ 2 + b ^ 2) + 2 * p * a * b.
Lemma lyap_step a b : lyap (- p * a - q * b) a = lyap a b - (1 - q) * (p * a + (1 + q) * b) ^ 2.
Proof. unfold lyap. ring. Qed.
Lemma ab_bound a b : Rabs (2 * (a * b)) <= a ^ 2 + b ^ 2.
Proof. apply Rabs_le. pose proof (pow2_ge_0 (a + b)). pose proof (pow2_ge_0 (a - b)). lra. Qed.
Lemma pab a b k : Rabs k * - (a ^ 2 + b ^ 2) <= k * (2 * (a * b)) <= Rabs k * (a ^ 2 + b ^ 2).
Proof.
  pose proof (ab_bound a b) as B. assert (G : Rabs (k * (2 * (a * b))) <= Rabs k * (a ^ 2 + b ^ 2)).
  { rewrite Rabs_mult. apply Rmult_le_compat_l; [apply Rabs_pos|exact B]. }
  apply Rabs_le_both in G. lra.
Qed.
Lemma lyap_low a b : (1 + q - Rabs p) * (a ^ 2 + b ^ 2) <= lyap a b.
Proof. unfold lyap. pose proof (pab a b p). lra. Qed.
Lemma lyap_high a b : lyap a b <= (1 + q + Rabs p) * (a ^ 2 + b ^ 2).
Proof. unfold lyap. pose proof (pab a b p). lra. Qed.

Definition rate : R := (1 - q) * (1 + q - Rabs p) ^ 2 / ((2 + 2 * p ^ 2) * (1 + q + Rabs p)).
Lemma rate_pos : 0 < rate.
Proof.
  unfold rate. pose proof (Rabs_pos p). apply Rdiv_lt_0_compat.
  - apply Rmult_lt_0_compat; [lra|]. apply pow_lt. lra.
  - apply Rmult_lt_0_compat; [pose proof (pow2_ge_0 p)|]; lra.
Qed.
Lemma two_steps a b : let a' := - p * a - q * b in let a'' := - p * a' - q * a in
  lyap a'' a' <= (1 - rate) * lyap a b.
Proof.
  cbv zeta. set (a' := - p * a - q * b). set (a'' := - p * a' - q * a).
  pose proof (lyap_step a' a) as S2. pose proof (lyap_step a b) as S1. fold a' in S1. fold a'' in S2.
  set (d1 := p * a + (1 + q) * b) in *. set (d2 := p * a' + (1 + q) * a) in *.
  pose proof (Rabs_pos p) as PP. set (m := Rabs p) in *.
  assert (MM : m * m = p * p) by (unfold m; rewrite <- Rabs_mult; apply Rabs_pos_eq, Rle_0_sqr).
  set (N := a ^ 2 + b ^ 2). assert (HN : 0 <= N) by (unfold N; pose proof (pow2_ge_0 a); pose proof (pow2_ge_0 b); lra).
  (* X = pa + sb = d1, Y = pb + sa = d2 + p d1 *)
  assert (Y : p * b + (1 + q) * a = d2 + p * d1) by (unfold d1, d2, a'; ring).
  assert (L : (1 + q - m) ^ 2 * N <= d1 ^ 2 + (d2 + p * d1) ^ 2).
  { rewrite <- Y. unfold d1. pose proof (pab a b (2 * p * (1 + q))) as Q.
    assert (AQ : Rabs (2 * p * (1 + q)) = 2 * m * (1 + q)).
    { rewrite !Rabs_mult. rewrite (Rabs_pos_eq 2) by lra. rewrite (Rabs_pos_eq (1 + q)) by lra. reflexivity. }
    rewrite AQ in Q. fold N in Q.
    replace ((p * a + (1 + q) * b) ^ 2 + (p * b + (1 + q) * a) ^ 2) with ((p * p + (1 + q) ^ 2) * N + 2 * p * (1 + q) * (2 * (a * b))) by (unfold N; ring).
    replace ((1 + q - m) ^ 2 * N) with ((m * m + (1 + q) ^ 2) * N - 2 * m * (1 + q) * N) by ring. rewrite MM. lra. }
  assert (U : d1 ^ 2 + (d2 + p * d1) ^ 2 <= (2 + 2 * p ^ 2) * (d1 ^ 2 + d2 ^ 2)).
  { pose proof (pow2_ge_0 (d2 - p * d1)). pose proof (pow2_ge_0 d1). assert (0 <= p ^ 2 * d2 ^ 2) by (apply Rmult_le_pos; apply pow2_ge_0).
    replace ((2 + 2 * p ^ 2) * (d1 ^ 2 + d2 ^ 2)) with (d1 ^ 2 + (d2 + p * d1) ^ 2 + (d2 - p * d1) ^ 2 + d1 ^ 2 + 2 * (p ^ 2 * d2 ^ 2)) by ring. lra. }
  assert (V : lyap a b <= (1 + q + m) * N) by apply lyap_high.
  assert (P2 : 0 < 2 + 2 * p ^ 2) by (pose proof (pow2_ge_0 p); lra).
  assert (P3 : 0 < 1 + q + m) by lra.
  assert (F : rate * lyap a b <= (1 - q) * (d1 ^ 2 + d2 ^ 2)).
  { eapply Rle_trans; [apply Rmult_le_compat_l; [apply Rlt_le, rate_pos|exact V]|].
    unfold rate. fold m. replace ((1 - q) * (1 + q - m) ^ 2 / ((2 + 2 * p ^ 2) * (1 + q + m)) * ((1 + q + m) * N))
      with ((1 - q) * ((1 + q - m) ^ 2 * N / (2 + 2 * p ^ 2))) by (field; lra).
    apply Rmult_le_compat_l; [lra|]. apply (Rmult_le_reg_r (2 + 2 * p ^ 2)); [exact P2|].
    replace ((1 + q - m) ^ 2 * N / (2 + 2 * p ^ 2) * (2 + 2 * p ^ 2)) with ((1 + q - m) ^ 2 * N) by (field; lra). lra. }
  rewrite S2, S1. lra.
Qed.

Lemma free_decay (e : nat -> R) : (forall n, e (S (S n)) = - p * e (S n) - q * e n) ->
  exists K r, 0 <= r < 1 /\ forall n, (e (2 * n)%nat) ^ 2 <= K * r ^ n /\ (e (S (2 * n))) ^ 2 <= K * r ^ n.
Proof.
  intros He. pose proof rate_pos as RP. set (r := Rmax 0 (1 - rate)).
  assert (Hr : 0 <= r < 1) by (split; [apply Rmax_l|apply Rmax_lub_lt; lra]).
  pose proof (Rabs_pos p) as PP. assert (HM : 0 < 1 + q - Rabs p) by lra.
  assert (Pos : forall a b, 0 <= lyap a b).
  { intros a b. eapply Rle_trans; [|apply lyap_low]. apply Rmult_le_pos; [lra|]. pose proof (pow2_ge_0 a). pose proof (pow2_ge_0 b). lra. }
  assert (D : forall n, lyap (e (S (2 * n))) (e (2 * n)%nat) <= lyap (e 1%nat) (e 0%nat) * r ^ n).
  { induction n as [|n IH]; [rewrite Nat.mul_0_r; cbn [pow]; lra|].
    replace (2 * S n)%nat with (S (S (2 * n))) by lia.
    rewrite (He (S (2 * n))), (He (2 * n)%nat).
    eapply Rle_trans; [apply (two_steps (e (S (2 * n))) (e (2 * n)%nat))|].
    eapply Rle_trans; [apply Rmult_le_compat_r; [apply Pos|apply (Rmax_r 0)]|]. fold r. cbn [pow].
    rewrite (Rmult_comm r (r ^ n)), <- Rmult_assoc, Rmult_comm. apply Rmult_le_compat_r; lra. }
  exists (lyap (e 1%nat) (e 0%nat) / (1 + q - Rabs p)), r. split; [exact Hr|]. intros n.
  assert (G : (e (S (2 * n))) ^ 2 + (e (2 * n)%nat) ^ 2 <= lyap (e 1%nat) (e 0%nat) / (1 + q - Rabs p) * r ^ n).
  { apply (Rmult_le_reg_l (1 + q - Rabs p)); [exact HM|].
    replace ((1 + q - Rabs p) * (lyap (e 1%nat) (e 0%nat) / (1 + q - Rabs p) * r ^ n)) with (lyap (e 1%nat) (e 0%nat) * r ^ n) by (field; lra).
    eapply Rle_trans; [apply lyap_low|apply D]. }
  pose proof (pow2_ge_0 (e (S (2 * n)))). pose proof (pow2_ge_0 (e (2 * n)%nat)). lra.
Qed.
End stable.

Lemma coefficients_stable c :
  0 < jt_interval c -> 0 < jt_frequency c -> jt_frequency c * jt_interval c < 1 / 2 -> 0 < jt_damping c -> 0 < jt_bandwidth c ->
  let c0 := coefficient c 0 in
  0 < c0 /\ -1 < coefficient c 2 / c0 < 1 /\ Rabs (coefficient c 1 / c0) < 1 + coefficient c 2 / c0.
Proof.
  intros HT Hf Hn Hz Hb. cbv zeta. unfold coefficient.
  assert (X : 0 < jt_interval c * prewarped c).
  { unfold prewarped. set (th := 2 * PI * jt_frequency c * jt_interval c / 2).
    assert (0 < tan th).
    { pose proof PI_RGT_0 as PIP. assert (FT : 0 < jt_frequency c * jt_interval c) by (apply Rmult_lt_0_compat; assumption).
      assert (E : th = PI * (jt_frequency c * jt_interval c)) by (unfold th; field).
      apply tan_gt_0; rewrite E; [apply Rmult_lt_0_compat; assumption|].
      replace (PI / 2) with (PI * (1 / 2)) by field. apply Rmult_lt_compat_l; assumption. }
    replace (jt_interval c * (2 / jt_interval c * tan th)) with (2 * tan th) by (field; lra). lra. }
  set (T := jt_interval c) in *. set (W := prewarped c) in *. set (z := jt_damping c) in *. set (b := jt_bandwidth c) in *.
  replace (4 * b * z * T * W) with (4 * (b * z * (T * W))) by ring.
  replace (2 * T ^ 2 * W ^ 2) with (2 * (T * W) ^ 2) by ring. replace (T ^ 2 * W ^ 2) with ((T * W) ^ 2) by ring.
  set (x := T * W) in *. assert (K : 0 < b * z * x) by (apply Rmult_lt_0_compat; [apply Rmult_lt_0_compat|]; assumption).
  set (k := b * z * x) in *. assert (X2 : 0 < x ^ 2) by (apply pow_lt; exact X).
  assert (C0 : 0 < 4 + 4 * k + x ^ 2) by lra. split; [exact C0|].
  assert (I0 : 0 < / (4 + 4 * k + x ^ 2)) by (apply Rinv_0_lt_compat; exact C0).
  assert (D : forall y, y / (4 + 4 * k + x ^ 2) * (4 + 4 * k + x ^ 2) = y) by (intros; field; lra).
  split; [split|].
  - apply (Rmult_lt_reg_r (4 + 4 * k + x ^ 2)); [exact C0|]. rewrite D. lra.
  - apply (Rmult_lt_reg_r (4 + 4 * k + x ^ 2)); [exact C0|]. rewrite D. lra.
  - apply (Rmult_lt_reg_r (4 + 4 * k + x ^ 2)); [exact C0|].
    unfold Rdiv at 1. rewrite Rabs_mult, (Rabs_pos_eq (/ (4 + 4 * k + x ^ 2))) by lra. rewrite Rmult_assoc, Rinv_l, Rmult_1_r by lra.
    rewrite Rmult_plus_distr_r, D, Rmult_1_l. apply Rabs_def1; lra.
Qed.

Lemma answers_converge c u y y' :
  0 < jt_interval c -> 0 < jt_frequency c -> jt_frequency c * jt_interval c < 1 / 2 -> 0 < jt_damping c -> 0 < jt_bandwidth c ->
  answers c u y -> answers c u y' ->
  exists K r, 0 <= r < 1 /\ forall n, (y (2 * n)%nat - y' (2 * n)%nat) ^ 2 <= K * r ^ n /\ (y (S (2 * n)) - y' (S (2 * n))) ^ 2 <= K * r ^ n.
Proof.
  intros HT Hf Hn Hz Hb A1 A2. destruct (coefficients_stable c HT Hf Hn Hz Hb) as (C0 & Q & P).
  apply (free_decay _ _ Q P (fun n => y n - y' n)). intros n. specialize (A1 n). specialize (A2 n).
  apply (Rmult_eq_reg_l (coefficient c 0)); [|lra].
  replace (coefficient c 0 * (- (coefficient c 1 / coefficient c 0) * (y (S n) - y' (S n)) - coefficient c 2 / coefficient c 0 * (y n - y' n)))
    with (- coefficient c 1 * (y (S n) - y' (S n)) - coefficient c 2 * (y n - y' n)) by (field; lra). lra.
Qed.

(** * The shared object *)
Definition is_update (e : factory_op) : bool := match e with FastUpdate _ _ => true | _ => false end.
Definition speed_of (e : factory_op) : R := match e with FastUpdate _ w => w | _ => 0 end.
Definition wheel_of (e : factory_op) : nat := match e with FastUpdate k _ => k | _ => 0%nat end.

Lemma factory_updates f ups : List.Forall (fun e => is_update e = true /\ (wheel_of e < built f)%nat) ups ->
  shared (factory_run f ups) = jitter_run (shared f) (map speed_of ups) /\ built (factory_run f ups) = built f.
Proof.
  revert f. induction ups as [|e r IH]; intros f H; [split; reflexivity|]. inversion H as [|? ? [U W] H2]; subst.
  destruct e as [c pf pt|k w]; [discriminate|]. cbn [factory_run factory_do wheel_of] in *.
  destruct (Nat.ltb_spec k (built f)); [|lia]. destruct (IH (mkFactory (calc_jitter (shared f) w) (built f)) H2) as [E1 E2].
  rewrite E1, E2. split; reflexivity.
Qed.
Lemma factory_app f a b : factory_run f (a ++ b) = factory_run (factory_run f a) b.
Proof. revert f. induction a; intros f; [reflexivity|]. apply IHa. Qed.
