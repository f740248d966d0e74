(** C168: accuracy of the relative orbit integrated by Runge-Kutta. *)
From Coq Require Import Reals Lra Lia List Bool Arith.
From Coquelicot Require Import Complex.
From Verif Require Import Base RBase VecModel VecProofs QuatModel QuatSpec QuatProofs OdeModel OrbitModel OrbitSpec OrbitRunSpec
  HillProofs PropagateProofs RkOrbitProofs RelRkSpec RelRkProofs.
Import ListNotations.
Open Scope R_scope.

Lemma new_widths fuel mu step p v r0 v0 calls o : let n := mean_motion mu (norm 3 r0) in
  rel_run fuel (rel_new mu step URk4 p v r0 v0) calls = Ok o ->
  exists ws, state (ro_ode o) = state (integrate (hderiv n) ws (ode_setup (ode_new step) 0 (v6 p v))) /\ total ws = last_time 0 calls /\
    veq 3 (ro_rel_pos o) (pos6 (state (ro_ode o))) /\ veq 3 (ro_rel_vel o) (vel6 (state (ro_ode o))) /\ ro_time o = last_time 0 calls /\
    (0 <= step -> in_order 0 calls -> List.Forall (fun w => 0 <= w <= step + 1 / 10 ^ 6) ws).
Proof.
  intros n E. apply (rel_run_widths n) in E; try reflexivity; try (intros i Hi; i3 i Hi; reflexivity).
  destruct E as (ws & A & B & D). exists ws. split; [exact A|]. split; [|exact D]. cbn [rel_new ro_time] in B. lra.
Qed.
Lemma obs_ext n p v p' v' : veq 3 p p' -> veq 3 v v' -> centre_x n p v = centre_x n p' v' /\ centre_y n p v = centre_y n p' v' /\
  ellipse n p v = ellipse n p' v' /\ across n p v = across n p' v'.
Proof. intros P V. unfold ellipse, across, centre_x, centre_y. rewrite !P, !V by lia. repeat split. Qed.
Lemma start6 p v : veq 3 (pos6 (v6 p v)) p /\ veq 3 (vel6 (v6 p v)) v.
Proof. split; intros i Hi; i3 i Hi; reflexivity. Qed.

(** the centre moves exactly as it should, whatever the step width and the number of calls: its radial offset stays, along the
    track it drifts by 3/2 of mean motion, offset and time *)
Theorem C168_centre_exact fuel mu step p v r0 v0 calls o : let n := mean_motion mu (norm 3 r0) in 0 < n ->
  rel_run fuel (rel_new mu step URk4 p v r0 v0) calls = Ok o ->
  centre_x n (ro_rel_pos o) (ro_rel_vel o) = centre_x n p v /\
  centre_y n (ro_rel_pos o) (ro_rel_vel o) = centre_y n p v - 3 / 2 * n * last_time 0 calls * centre_x n p v.
Proof.
  intros n N E. destruct (new_widths _ _ _ _ _ _ _ _ _ E) as (ws & A & T & P & V & _). fold n in A.
  destruct (obs_ext n _ _ _ _ P V) as (X & Y & _). destruct (start6 p v) as (P0 & V0). destruct (obs_ext n _ _ _ _ P0 V0) as (X0 & Y0 & _).
  destruct (integrate_hill n ltac:(lra) ws (ode_setup (ode_new step) 0 (v6 p v))) as (HX & HY & _). cbn [ode_setup state] in HX, HY.
  rewrite X, Y, A, HX, HY, X0, Y0, T. split; reflexivity.
Qed.
Print Assumptions C168_centre_exact.
(** each step of width w multiplies the squared size of the ellipse and of the cross-track oscillation by
    1 - (n w)^6 / 72 + (n w)^8 / 576; the steps of a run add up to its time *)
Theorem C168_damping fuel mu step p v r0 v0 calls o : let n := mean_motion mu (norm 3 r0) in 0 < n ->
  rel_run fuel (rel_new mu step URk4 p v r0 v0) calls = Ok o ->
  exists ws, fold_right Rplus 0 ws = last_time 0 calls /\
    (0 <= step -> in_order 0 calls -> List.Forall (fun w => 0 <= w <= step + 1 / 10 ^ 6) ws) /\
    let d := fold_right (fun w x => (1 - (n * w) ^ 6 / 72 + (n * w) ^ 8 / 576) * x) 1 ws in
    ellipse n (ro_rel_pos o) (ro_rel_vel o) ^ 2 = d * ellipse n p v ^ 2 /\ across n (ro_rel_pos o) (ro_rel_vel o) ^ 2 = d * across n p v ^ 2.
Proof.
  intros n N E. destruct (new_widths _ _ _ _ _ _ _ _ _ E) as (ws & A & T & P & V & _ & F). fold n in A. exists ws. split; [exact T|]. split; [exact F|]. intro d.
  destruct (obs_ext n _ _ _ _ P V) as (_ & _ & L & Z). destruct (start6 p v) as (P0 & V0). destruct (obs_ext n _ _ _ _ P0 V0) as (_ & _ & L0 & Z0).
  destruct (integrate_hill n ltac:(lra) ws (ode_setup (ode_new step) 0 (v6 p v))) as (_ & _ & HO & HW). cbn [ode_setup state] in HO, HW.
  assert (D : Cmod (factors (map (Rmult n) ws)) ^ 2 = d).
  { subst d. clear. induction ws as [|w l IH]; cbn [map factors fold_right]; [rewrite Cmod_1; ring|]. rewrite Cmod_mult, Rpow_mult_distr, IH, factor_mod2. ring. }
  rewrite L, Z, <- L0, <- Z0, A, <- !osc_mod, <- !wave_mod, HO, HW, !Cmod_mult, !Rpow_mult_distr, D. split; reflexivity.
Qed.
Print Assumptions C168_damping.
(** up to the stability limit neither ever grows ... *)
Theorem C168_never_grows fuel mu step p v r0 v0 calls o : let n := mean_motion mu (norm 3 r0) in 0 < n -> 0 <= step -> (n * (step + 1 / 10 ^ 6)) ^ 2 <= 8 -> in_order 0 calls ->
  rel_run fuel (rel_new mu step URk4 p v r0 v0) calls = Ok o ->
  ellipse n (ro_rel_pos o) (ro_rel_vel o) <= ellipse n p v /\ across n (ro_rel_pos o) (ro_rel_vel o) <= across n p v.
Proof.
  intros n N S0 B I E. destruct (new_widths _ _ _ _ _ _ _ _ _ E) as (ws & A & T & P & V & _ & F). fold n in A. specialize (F S0 I).
  destruct (obs_ext n _ _ _ _ P V) as (_ & _ & L & Z). destruct (start6 p v) as (P0 & V0). destruct (obs_ext n _ _ _ _ P0 V0) as (_ & _ & L0 & Z0).
  destruct (integrate_hill n ltac:(lra) ws (ode_setup (ode_new step) 0 (v6 p v))) as (_ & _ & HO & HW). cbn [ode_setup state] in HO, HW.
  rewrite L, Z, <- L0, <- Z0, A, <- !osc_mod, <- !wave_mod, HO, HW. split; refine (proj2 (run_error n (step + 1 / 10 ^ 6) ws _ N _ B F (RtoC 0))); lra.
Qed.
Print Assumptions C168_never_grows.
(** ... and the error against the exact solution of Hill's equations is at most the fourth power of the step angle times the angle
    travelled over 80, relative to the size of the ellipse and the oscillation *)
Theorem C168_accuracy fuel mu step p v r0 v0 calls o f : let n := mean_motion mu (norm 3 r0) in 0 < n -> 0 <= step -> (n * (step + 1 / 10 ^ 6)) ^ 2 <= 8 -> in_order 0 calls ->
  rel_run fuel (rel_new mu step URk4 p v r0 v0) calls = Ok o -> hill_motion n f -> veq 6 (f 0) (v6 p v) ->
  let t := last_time 0 calls in let e := (n * (step + 1 / 10 ^ 6)) ^ 4 / 80 * (n * t) in
  Rabs (ro_rel_pos o 0%nat - f t 0%nat) <= e * ellipse n p v /\ Rabs (ro_rel_pos o 1%nat - f t 1%nat) <= 2 * e * ellipse n p v /\
  Rabs (ro_rel_pos o 2%nat - f t 2%nat) <= e * across n p v /\ Rabs (ro_rel_vel o 0%nat - f t 3%nat) <= n * e * ellipse n p v /\
  Rabs (ro_rel_vel o 1%nat - f t 4%nat) <= 2 * n * e * ellipse n p v /\ Rabs (ro_rel_vel o 2%nat - f t 5%nat) <= n * e * across n p v.
Proof.
  intros n N S0 B I E H F0 t e. destruct (new_widths _ _ _ _ _ _ _ _ _ E) as (ws & A & T & P & V & _ & F). fold n in A. specialize (F S0 I).
  destruct (start6 p v) as (P0 & V0). destruct (obs_ext n _ _ _ _ P0 V0) as (_ & _ & L0 & Z0).
  destruct (integrate_hill n ltac:(lra) ws (ode_setup (ode_new step) 0 (v6 p v))) as (HX & HY & HO & HW). cbn [ode_setup state] in HX, HY, HO, HW. rewrite <- A in HX, HY, HO, HW.
  destruct (exact_hill n ltac:(lra) f t H) as (GX & GY & GO & GW).
  assert (PF : veq 3 (pos6 (f 0)) (pos6 (v6 p v))) by (intros i Hi; i3 i Hi; cbn [pos6 v3]; apply F0; lia).
  assert (VF : veq 3 (vel6 (f 0)) (vel6 (v6 p v))) by (intros i Hi; i3 i Hi; cbn [vel6 v3]; apply F0; lia).
  assert (OF : osc n (f 0) = osc n (v6 p v)) by (unfold osc, centre_x; cbn [pos6 vel6 v3]; rewrite !F0 by lia; reflexivity).
  assert (WF : wave n (f 0) = wave n (v6 p v)) by (unfold wave; rewrite !F0 by lia; reflexivity).
  destruct (obs_ext n _ _ _ _ PF VF) as (XF & YF & _). rewrite XF in GX, GY. rewrite YF in GY. rewrite OF in GO. rewrite WF in GW.
  destruct (run_error n (step + 1 / 10 ^ 6) ws (RtoC 0) N ltac:(lra) B F (osc n (v6 p v))) as (EO & _).
  destruct (run_error n (step + 1 / 10 ^ 6) ws (RtoC 0) N ltac:(lra) B F (wave n (v6 p v))) as (EW & _).
  rewrite T in EO, EW, HY. fold t in EO, EW, HY. fold e in EO, EW. rewrite <- HO, <- GO, osc_mod, L0 in EO. rewrite <- HW, <- GW, wave_mod, Z0 in EW.
  pose proof (Rle_trans _ _ _ (fst_le _) EO) as O1. pose proof (Rle_trans _ _ _ (snd_le _) EO) as O2.
  pose proof (Rle_trans _ _ _ (fst_le _) EW) as W1. pose proof (Rle_trans _ _ _ (snd_le _) EW) as W2.
  set (s := state (ro_ode o)) in *.
  unfold osc, wave, Cminus, Cplus, Copp in O1, O2, W1, W2. cbn [fst snd] in O1, O2, W1, W2. rewrite HX, GX in O1.
  rewrite !P, !V by lia. cbn [pos6 vel6 v3].
  unfold centre_x in HX, GX. unfold centre_y in HY, GY. cbn [pos6 vel6 v3] in HX, GX, HY, GY.
  assert (K : forall x y z, Rabs (x / n + - (y / n)) <= z -> Rabs (x - y) <= n * z).
  { intros x y z Q. replace (x - y) with (n * (x / n + - (y / n))) by (field; lra). rewrite Rabs_mult, (Rabs_right n) by lra. apply Rmult_le_compat_l; lra. }
  assert (D0 : Rabs (s 0%nat - f t 0%nat) <= e * ellipse n p v) by (replace (s 0%nat - f t 0%nat) with (s 0%nat - centre_x n (pos6 (v6 p v)) (vel6 (v6 p v)) + - (f t 0%nat - centre_x n (pos6 (v6 p v)) (vel6 (v6 p v)))) by ring; exact O1).
  split; [exact D0|]. split; [|split; [|split; [|split]]].
  - replace (s 1%nat - f t 1%nat) with (2 * (s 3%nat / n + - (f t 3%nat / n))) by (apply (Rmult_eq_reg_l n); [|lra]; assert (Q : s 1%nat - 2 * s 3%nat / n = f t 1%nat - 2 * f t 3%nat / n) by (rewrite HY, GY; reflexivity);
      replace (s 1%nat) with (f t 1%nat - 2 * f t 3%nat / n + 2 * s 3%nat / n) by lra; field; lra).
    rewrite Rabs_mult, (Rabs_right 2) by lra. lra.
  - exact W1.
  - rewrite Rmult_assoc. now apply K.
  - assert (Q : 4 * s 0%nat + 2 * s 4%nat / n = 4 * f t 0%nat + 2 * f t 4%nat / n) by (rewrite HX, GX; reflexivity).
    assert (Q' : s 4%nat - f t 4%nat = - (2 * n) * (s 0%nat - f t 0%nat)).
    { assert (Q2 : 2 * s 4%nat / n = 4 * f t 0%nat + 2 * f t 4%nat / n - 4 * s 0%nat) by lra.
      replace (s 4%nat) with (n / 2 * (2 * s 4%nat / n)) by (field; lra). rewrite Q2. field. lra. }
    rewrite Q', Rabs_mult, Rabs_Ropp, (Rabs_right (2 * n)) by lra. rewrite (Rmult_assoc (2 * n)). apply Rmult_le_compat_l; lra.
  - rewrite Rmult_assoc. now apply K.
Qed.
Print Assumptions C168_accuracy.
(** beyond the limit every step enlarges the oscillation, after any history: the run diverges while the exact motion does not *)
Theorem C168_any_step_width_refuted n fuel o r v o' : 0 < n -> 0 < ro_step o -> 8 < (n * ro_step o) ^ 2 -> ro_method o = URk4 -> ro_matrix o = hill_matrix n ->
  rel_propagate fuel true o (ro_time o + ro_step o) r v = Ok o' -> let s := state (ro_ode o) in
  (0 < across n (pos6 s) (vel6 s) -> across n (pos6 s) (vel6 s) < across n (ro_rel_pos o') (ro_rel_vel o')) /\
  (0 < ellipse n (pos6 s) (vel6 s) -> ellipse n (pos6 s) (vel6 s) < ellipse n (ro_rel_pos o') (ro_rel_vel o')).
Proof.
  intros N S0 B Me Ma E s. unfold rel_propagate in E. cbn [negb] in E. rewrite Me, Ma in E.
  destruct (prop (fun (_ : R) (s : vec) => mvec 6 (hill_matrix n) s) fuel (ro_step o) (ro_time o + ro_step o) (ro_ode o) (ro_time o)) as [[d t]| | |] eqn:Q; cbn [bind] in E; try discriminate.
  injection E as <-. apply prop_spec in Q. destruct Q as (k & w & -> & X & W & _ & K). cbn [ro_rel_pos ro_rel_vel].
  assert (Z : k = 0%nat). { destruct K as [K|K]; [exact K|]. destruct k as [|k]; [reflexivity|]. exfalso. rewrite S_INR in W. pose proof (pos_INR k). assert (0 <= INR k * ro_step o) by (apply Rmult_le_pos; lra). lra. }
  subst k. cbn [INR] in W. assert (W' : w = ro_step o) by lra. subst w. rewrite W' in X. cbn [repeat app] in X.
  change (fun (_ : R) (s : vec) => mvec 6 (hill_matrix n) s) with (hderiv n) in X. destruct (integrate_hill n ltac:(lra) [ro_step o] (ro_ode o)) as (_ & _ & HO & HW). rewrite <- X in HO, HW.
  rewrite <- !wave_mod, <- !osc_mod, HO, HW, !Cmod_mult. cbn [map factors]. rewrite Cmod_mult, Cmod_1, Rmult_1_l. fold s.
  assert (G : 1 < Cmod (rk_factor (n * ro_step o))).
  { pose proof (Cmod_ge_0 (rk_factor (n * ro_step o))) as P. pose proof (factor_mod2 (n * ro_step o)) as F. set (x := (n * ro_step o) ^ 2) in *.
    replace ((n * ro_step o) ^ 6) with (x ^ 3) in F by (subst x; ring). replace ((n * ro_step o) ^ 8) with (x ^ 4) in F by (subst x; ring).
    assert (0 < x ^ 3 * (x - 8)) by (apply Rmult_lt_0_compat; [apply pow_lt; lra|lra]). assert (1 < Cmod (rk_factor (n * ro_step o)) ^ 2) by (rewrite F; lra). nra. }
  split; intro P0; nra.
Qed.
Print Assumptions C168_any_step_width_refuted.

(** ** Examples: the hypotheses are met *)
(** an ellipse of size 1 about the reference, mean motion 1, steps of 1/10, through two calls *)
Definition ex_ref : vec := v3 1 0 0.
Definition ex_rel : rel_orbit := rel_new 1 (1 / 10) URk4 (v3 1 0 0) (v3 0 (-2) 0) ex_ref (v3 0 1 0).
Lemma ex_n : mean_motion 1 (norm 3 ex_ref) = 1.
Proof.
  assert (M : norm 3 ex_ref = 1) by (unfold norm; rewrite sumn3; cbn [ex_ref v3]; replace (1 * 1 + 0 * 0 + 0 * 0) with 1 by ring; apply sqrt_1).
  rewrite M. unfold mean_motion. replace (1 / (1 * 1 * 1)) with 1 by field. apply sqrt_1.
Qed.
Example ex_hypotheses : let calls := [(1 / 2, (ex_ref, v3 0 1 0)); (1, (ex_ref, v3 0 1 0))] in
  (exists o, rel_run 6 ex_rel calls = Ok o) /\ in_order 0 calls /\ (mean_motion 1 (norm 3 ex_ref) * (1 / 10 + 1 / 10 ^ 6)) ^ 2 <= 8 /\ ellipse (mean_motion 1 (norm 3 ex_ref)) (v3 1 0 0) (v3 0 (-2) 0) = 1.
Proof.
  intro calls. split.
  - assert (A : forall o tend, ro_method o = URk4 -> tend - ro_time o <= INR 6 * ro_step o -> exists o', rel_propagate 6 true o tend ex_ref (v3 0 1 0) = Ok o' /\ ro_time o' = tend /\ ro_step o' = ro_step o /\ ro_method o' = URk4).
    { intros o tend Me L. unfold rel_propagate. cbn [negb]. rewrite Me.
      destruct (prop_total (fun (_ : R) (s : vec) => mvec 6 (ro_matrix o) s) (ro_step o) tend 5 (ro_ode o) (ro_time o) L) as ((d & t) & Q). rewrite Q. cbn [bind].
      apply prop_spec in Q. destruct Q as (k & w & -> & _). eexists. split; [reflexivity|]. cbn [ro_time ro_step ro_method]. repeat split. }
    destruct (A ex_rel (1 / 2)) as (o1 & E1 & T1 & S1 & M1); [reflexivity|cbn [ex_rel rel_new ro_time ro_step INR]; lra|].
    destruct (A o1 1) as (o2 & E2 & _); [exact M1|rewrite T1, S1; cbn [ex_rel rel_new ro_step INR]; lra|].
    exists o2. unfold calls. cbn [rel_run]. rewrite E1. cbn [bind]. rewrite E2. reflexivity.
  - split; [cbn [calls in_order]; lra|]. rewrite ex_n. split; [lra|]. unfold ellipse, centre_x. cbn [v3].
    replace ((1 - (4 * 1 + 2 * -2 / 1)) ^ 2 + (0 / 1) ^ 2) with 1 by field. apply sqrt_1.
Qed.
