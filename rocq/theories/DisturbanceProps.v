(** C75-C79, C81: the disturbances. *)
From Coq Require Import Reals Lra Lia List Bool Arith String FunctionalExtensionality.
From Verif Require Import Base RBase VecModel VecProofs QuatModel QuatSpec QuatProofs OrbitSpec OrbitProofs HillProofs AttitudeProofs PointingProofs OdeModel SensorProps ErfProofs DisturbanceModel DisturbanceSpec DisturbanceProofs DragProofs.
Import ListNotations.
Open Scope R_scope.

(** C75: for every list of new disturbances and every history of steps, the totals are the sums of the values every
    disturbance has held since its own last refresh, and the objects themselves hold these values. *)
Theorem C75_totals_sum_held_values : forall E X (l : list (disturbance E X)) h s, Forall fresh l ->
  let run := run_updates l (h ++ [s]) in
  map (fun d => (extra d, vals d)) (fst run) = map (fun d => held d (h ++ [s])) l /\
  tot_torque (snd run) = vsum (map (fun d => torque_b (snd (held d (h ++ [s])))) l) /\
  tot_force (snd run) = vsum (map (fun d => force_b (snd (held d (h ++ [s])))) l) /\
  tot_acc (snd run) = vsum (map (fun d => acc_i (snd (held d (h ++ [s])))) l).
Proof.
  intros E X l h s F run. unfold run. rewrite run_state, run_totals by exact F. repeat split. rewrite map_map. apply map_ext. intro d. unfold at_history. cbn [extra vals]. now rewrite <- surjective_pairing.
Qed.
(** ... in a step with a refresh the value is computed from the inputs of this step, in a step without one it stays
    as it is, and a disabled disturbance contributes nothing, ever. *)
Theorem C75_refresh_or_hold : forall E X (d : disturbance E X) h s,
  (enabled d = true -> orbit_flag s = true -> held d (h ++ [s]) = update d (inputs s) (held d h)) /\
  (enabled d = true -> attitude_flag s = true -> attitude_dependent d = true -> held d (h ++ [s]) = update d (inputs s) (held d h)) /\
  (orbit_flag s = false -> attitude_flag s = false -> held d (h ++ [s]) = held d h) /\
  (orbit_flag s = false -> attitude_dependent d = false -> held d (h ++ [s]) = held d h) /\
  (enabled d = false -> snd (held d h) = zero_values).
Proof.
  intros E X d h s. assert (R : enabled d = true -> refreshed (attitude_dependent d) s = true -> held d (h ++ [s]) = update d (inputs s) (held d h)).
  { intros EN RF. unfold held. rewrite EN, filter_app. cbn [filter]. rewrite RF, fold_left_app. reflexivity. }
  assert (N : refreshed (attitude_dependent d) s = false -> held d (h ++ [s]) = held d h).
  { intro NR. apply held_no_refresh. intros s' [<-|[]]. exact NR. }
  unfold refreshed in *. repeat split; intros.
  - apply R; [assumption|]. rewrite H0. reflexivity.
  - apply R; [assumption|]. rewrite H0, H1. apply orb_true_r.
  - apply N. now rewrite H, H0.
  - apply N. rewrite H, H0. apply andb_false_r.
  - unfold held. now rewrite H.
Qed.
(** ... which disturbances there are: gravity gradient, solar pressure and third bodies always, the lunar field about
    the Moon, air drag, the magnetic torque and the geopotential about the Earth; those that act through the shape or
    the moments of the body follow the attitude. *)
Theorem C75_attitude_dependent : forall k, depends_on_attitude k = true <-> k = GravityGradient \/ k = SolarPressure \/ k = AirDrag \/ k = Magnetic.
Proof. intro k. destruct k; cbn; split; intro H; try discriminate; try tauto; destruct H as [H|[H|[H|H]]]; discriminate. Qed.
Print Assumptions C75_attitude_dependent.
Theorem C75_installed : forall center k, In k (installed center) <->
  match k with
  | GravityGradient | SolarPressure | ThirdBody => True
  | LunarGravity => center = "MOON"%string
  | AirDrag | Magnetic | Geopotential => center = "EARTH"%string
  end.
Proof.
  intros center k. unfold installed. rewrite !in_app_iff. destruct (String.eqb_spec center "MOON") as [M|M]; destruct (String.eqb_spec center "EARTH") as [E|E];
    try (subst; discriminate); destruct k; cbn; split; intros H; try tauto; try assumption; try contradiction; intuition (try discriminate).
Qed.
Print Assumptions C75_totals_sum_held_values.
Print Assumptions C75_refresh_or_hold.
Print Assumptions C75_installed.

(** C76: the gravity gradient torque is the torque that the differences of the attraction (to first order) exert on
    any body of point masses whose inertia tensor is given; r: the position of the center from the spacecraft. *)
Theorem C76_is_the_differential_torque : forall mu r (b : body) (g : vec -> vec), 0 < norm 3 r ->
  (forall rho, gravity_gradient mu (vscal (-1) r) rho (g rho)) ->
  veq 3 (gravity_gradient_torque mu r (inertia_of_masses b)) (differential_torque g b).
Proof.
  intros mu r b g P G i Hi. set (x := vscal (-1) r) in *.
  assert (NX : norm 3 x = norm 3 r). { unfold norm. f_equal. rewrite !sumn3. unfold x, vscal. ring. }
  assert (PX : 0 < norm 3 x) by (rewrite NX; exact P).
  rewrite (differential_torque_spec mu x g b PX); [| |exact Hi].
  - rewrite gg_closed by assumption. rewrite NX. unfold vscal. f_equal. unfold x, cross, mvec, vscal. rewrite !sumn3. i3 i Hi; ring.
  - intros rho j Hj. apply (uniqueness_limite _ _ _ _ (G rho j Hj)). exact (gradient_formula mu x rho PX j Hj).
Qed.
Theorem C76_gradient_exists : forall mu x rho, 0 < norm 3 x -> exists g, gravity_gradient mu x rho g.
Proof. intros mu x rho P. eexists. now apply gradient_formula. Qed.
(** it does no work on a rotation about the line to the center, does not depend on the sense of that line, turns with
    the body, and vanishes when the line is a principal axis *)
Theorem C76_torque_properties : forall mu r inertia, 0 < norm 3 r ->
  let t := gravity_gradient_torque mu r inertia in
  dot 3 t r = 0 /\
  veq 3 (gravity_gradient_torque mu (vscal (-1) r) inertia) t /\
  (forall lam, veq 3 (mvec 3 inertia r) (vscal lam r) -> veq 3 t (vconst 0)) /\
  (forall rot, rotation rot -> veq 3 (gravity_gradient_torque mu (mvec 3 rot r) (mmul 3 (mmul 3 rot inertia) (mtrans rot))) (mvec 3 rot t)).
Proof.
  intros mu r inertia P t. pose proof (gg_closed mu r inertia P) as CF. fold t in CF. repeat split.
  - rewrite (dot_ext 3 t r _ r CF) by (intros ? ?; reflexivity). unfold dot, vscal, cross. rewrite sumn3. ring.
  - intros i Hi. assert (NX : norm 3 (vscal (-1) r) = norm 3 r). { unfold norm. f_equal. rewrite !sumn3. unfold vscal. ring. }
    rewrite gg_closed; [|rewrite NX; exact P|exact Hi]. rewrite NX. rewrite CF by exact Hi. unfold vscal. f_equal. unfold cross, mvec, vscal. rewrite !sumn3. i3 i Hi; ring.
  - intros lam EV i Hi. rewrite CF by exact Hi. unfold vscal, vconst. assert (Z : cross r (mvec 3 inertia r) i = 0); [|rewrite Z; ring]. unfold cross. rewrite !EV by lia. unfold vscal. i3 i Hi; ring.
  - intros rot RO i Hi. assert (NR : norm 3 (mvec 3 rot r) = norm 3 r) by (now apply rotation_norm).
    rewrite gg_closed; [|rewrite NR; exact P|exact Hi]. rewrite NR.
    assert (IR : veq 3 (mvec 3 (mmul 3 (mmul 3 rot inertia) (mtrans rot)) (mvec 3 rot r)) (mvec 3 rot (mvec 3 inertia r))).
    { intros j Hj. rewrite mvec_mmul by exact Hj. rewrite (mvec_congr (mmul 3 rot inertia) _ r) by (try exact Hj; intros k Hk; refine (rotation_back (mtrans rot) r (rotation_trans _ RO) k Hk)). now apply mvec_mmul. }
    transitivity (3 * mu / norm 3 r ^ 5 * cross (mvec 3 rot r) (mvec 3 rot (mvec 3 inertia r)) i).
    { unfold vscal. f_equal. apply cross_ext; [intros ? ?; reflexivity|exact IR|exact Hi]. }
    rewrite rotation_cross by assumption. rewrite (mvec_congr rot t _ CF) by exact Hi. unfold mvec, vscal. rewrite !sumn3. ring.
Qed.
Print Assumptions C76_is_the_differential_torque.
Print Assumptions C76_gradient_exists.
Print Assumptions C76_torque_properties.

(** C77: the radiation force and torque of any list of surfaces with unit normals: the sum over the surfaces that face
    the Sun of the textbook force of light absorbed, reflected specularly and reflected diffusely, and its moment about
    the center of gravity *)
Theorem C77_radiation_force : forall l cg sun pressure, 0 < norm 3 sun -> (forall s, In s l -> unit 3 (s_normal s)) ->
  let (force, torque) := srp l cg sun pressure in
  veq 3 force (vsum (map (pressure_on pressure (direction sun)) (lit sun l))) /\
  veq 3 torque (moment cg (map (fun s => (s_pos s, pressure_on pressure (direction sun) s)) (lit sun l))).
Proof.
  intros l cg sun p V N. unfold srp. rewrite torque_force_sum. split.
  - apply vsum_ext. intros s Hs. apply lit_in in Hs. apply srp_surface; [exact V|apply N, Hs].
  - unfold moment. rewrite map_map. apply vsum_ext. intros s Hs. apply lit_in in Hs. cbn [fst snd]. apply cross_ext; [intros ? ?; reflexivity|].
    apply srp_surface; [exact V|apply N, Hs].
Qed.
(** it pushes away from the Sun, by at most the light that the surfaces catch, doubled when all of it is reflected *)
Theorem C77_pushes_away : forall l cg sun pressure, 0 < norm 3 sun -> 0 <= pressure -> (forall s, In s l -> proper s) ->
  - fold_right (fun s r => pressure * s_area s * dot 3 (s_normal s) (direction sun) * (1 + s_reflectivity s) + r) 0 (lit sun l)
  <= dot 3 (fst (srp l cg sun pressure)) (direction sun) <= 0.
Proof.
  intros l cg sun p V P PR. pose proof (C77_radiation_force l cg sun p V (fun s Hs => proj1 (PR s Hs))) as F. destruct (srp l cg sun p) as [force torque]. destruct F as [F _]. cbn [fst].
  rewrite (dot_ext 3 force (direction sun) _ (direction sun) F) by (intros ? ?; reflexivity). rewrite vsum_dot.
  assert (G : forall m, (forall s, In s m -> proper s /\ facing sun s) ->
    - fold_right (fun s r => p * s_area s * dot 3 (s_normal s) (direction sun) * (1 + s_reflectivity s) + r) 0 m <= fold_right (fun s r => dot 3 (pressure_on p (direction sun) s) (direction sun) + r) 0 m <= 0).
  { induction m as [|s m IH]; intro H; cbn [fold_right]; [lra|]. assert (IH' := IH (fun s' Hs' => H s' (or_intror Hs'))). destruct (H s (or_introl eq_refl)) as [(U & A & RF & SP & _) FC].
    rewrite pressure_along by assumption. pose proof (facing_cos sun s V FC) as C0. pose proof (dir_cos_range sun s V U) as C1. set (c := dot 3 (s_normal s) (direction sun)) in *. clearbody c.
    assert (C2 : c <= 1) by nra. set (rho := s_reflectivity s) in *. set (sp := s_specularity s) in *. set (k := p * s_area s * c). assert (K : 0 <= k). { unfold k. apply Rmult_le_pos; [now apply Rmult_le_pos|lra]. }
    assert (RS : 0 <= rho * sp <= rho) by (split; [apply Rmult_le_pos; lra|nra]).
    assert (Q1 : 0 <= 2 * (rho * sp * c + rho * (1 - sp) / 3) * c). { apply Rmult_le_pos; [|lra]. assert (0 <= rho * sp * c) by (apply Rmult_le_pos; lra). nra. }
    assert (Q2 : 2 * (rho * sp * c + rho * (1 - sp) / 3) * c <= 2 * (rho * sp) + 2 / 3 * (rho - rho * sp)).
    { assert (0 <= rho * sp * c <= rho * sp) by (split; [apply Rmult_le_pos; lra|nra]). assert (0 <= rho * (1 - sp) / 3) by nra. nra. }
    set (x := (1 - rho * sp) + 2 * (rho * sp * c + rho * (1 - sp) / 3) * c) in *. assert (X0 : 0 <= x) by (unfold x; lra). assert (X1 : x <= 1 + rho) by (unfold x; lra).
    assert (0 <= k * x) by (now apply Rmult_le_pos). assert (k * x <= k * (1 + rho)) by (now apply Rmult_le_compat_l).
    replace (- k * x) with (- (k * x)) by ring. split; lra. }
  apply G. intros s Hs. apply lit_in in Hs. destruct Hs. split; [now apply PR|assumption].
Qed.
(** nothing acts where no surface faces the Sun, and no torque acts when every lit surface is at the center of gravity *)
Theorem C77_in_the_dark : forall l cg sun pressure, (forall s, In s l -> ~ facing sun s) ->
  veq 3 (fst (srp l cg sun pressure)) (vconst 0) /\ veq 3 (snd (srp l cg sun pressure)) (vconst 0).
Proof.
  intros l cg sun p D. unfold srp. rewrite torque_force_sum. assert (L : lit sun l = []).
  { destruct (lit sun l) as [|s m] eqn:LE; [reflexivity|]. exfalso. assert (I : In s (lit sun l)) by (rewrite LE; now left). apply lit_in in I. now apply (D s). }
  rewrite L. cbn. split; intros i Hi; reflexivity.
Qed.
Print Assumptions C77_radiation_force.
Print Assumptions C77_pushes_away.
Print Assumptions C77_in_the_dark.

(** C78: the drag of any list of surfaces: the sum over the surfaces that face the flow of Schaaf and Chambre's force *)
Theorem C78_drag_force : forall a l cg density v, gas a -> 0 < norm 3 v -> (forall s, In s l -> unit 3 (s_normal s)) ->
  let flow s := flow_force (1 / 2 * density * (norm 3 v * norm 3 v)) (1 - s_air_specularity s) (wall_K a / molecular_K a) (speed_ratio a v) (direction v) (s_normal s) (s_area s) in
  veq 3 (fst (drag a l cg density v)) (vsum (map flow (lit v l))) /\
  veq 3 (snd (drag a l cg density v)) (moment cg (map (fun s => (s_pos s, flow s)) (lit v l))).
Proof.
  intros a l cg density v G V N flow. unfold drag. rewrite torque_force_sum. cbn [fst snd]. split.
  - apply vsum_ext. intros s Hs. apply lit_in in Hs. apply drag_surface; [exact G|exact V|apply N, Hs].
  - unfold moment. rewrite map_map. apply vsum_ext. intros s Hs. apply lit_in in Hs. cbn [fst snd]. apply cross_ext; [intros ? ?; reflexivity|].
    apply drag_surface; [exact G|exact V|apply N, Hs].
Qed.
(** the square of the speed ratio, and the error function *)
Theorem C78_speed_ratio : forall a v, gas a ->
  speed_ratio a v * speed_ratio a v = molecular_weight a * (norm 3 v * norm 3 v) / (2 * boltzmann * wall_K a).
Proof.
  intros a v (W & M & MW). unfold speed_ratio. rewrite sqrt_sqrt. { f_equal. ring. } pose proof boltzmann_pos. pose proof (norm_nonneg 3 v). unfold Rdiv. apply Rmult_le_pos.
  - apply Rmult_le_pos; [apply Rmult_le_pos|]; lra. - apply Rlt_le, Rinv_0_lt_compat. apply Rmult_lt_0_compat; [apply Rmult_lt_0_compat|]; lra.
Qed.
(** the molecular weight is given in grams per mole: the speed ratio used is sqrt (1000 N_A), about 2.5 * 10^13, times that
    of molecules of this weight (at the temperature of the wall) *)
Theorem C78_speed_ratio_units : forall a v avogadro, gas a -> 0 < avogadro ->
  let weight_kg := molecular_weight a / 1000 / avogadro in
  speed_ratio a v = sqrt (1000 * avogadro) * sqrt (weight_kg * (norm 3 v * norm 3 v) / (2 * boltzmann * wall_K a)).
Proof.
  intros a v na G N w. pose proof boltzmann_pos as B. destruct G as (W & M & MW). rewrite <- sqrt_mult_alt by lra. unfold speed_ratio. f_equal. unfold w. field. repeat split; lra.
Qed.
Theorem C78_error_function : erf 0 = 0 /\ forall x, derivable_pt_lim erf x (2 / sqrt PI * exp (- (x * x))).
Proof. split; [exact erf_0|exact erf_derivative]. Qed.
(** drag never speeds the spacecraft up relative to the air, and slows it down whenever some surface faces the flow *)
Theorem C78_drag_resists : forall a l cg density v, gas a -> 0 <= density -> (forall s, In s l -> proper s) ->
  dot 3 (fst (drag a l cg density v)) v <= 0 /\
  (0 < density -> (exists s, In s l /\ facing v s /\ 0 < s_area s) -> dot 3 (fst (drag a l cg density v)) v < 0).
Proof.
  intros a l cg density v G D PR. destruct (Req_dec (norm 3 v) 0) as [Z|NZ].
  - unfold drag. rewrite torque_force_sum. rewrite lit_zero by exact Z. cbn [map fst]. split.
    + unfold dot, vsum. rewrite sumn3. cbn. lra.
    + intros _ [s [_ [F _]]]. exfalso. unfold facing in F. unfold dot in F. rewrite sumn3 in F. pose proof (norm_0 3 v Z) as N0. rewrite !N0 in F by lia. lra.
  - pose proof (norm_nonneg 3 v) as NN. assert (V : 0 < norm 3 v) by lra. destruct (C78_drag_force a l cg density v G V (fun s Hs => proj1 (PR s Hs))) as [F _].
    set (flow := fun s => flow_force (1 / 2 * density * (norm 3 v * norm 3 v)) (1 - s_air_specularity s) (wall_K a / molecular_K a) (speed_ratio a v) (direction v) (s_normal s) (s_area s)) in *.
    assert (VD : dot 3 (fst (drag a l cg density v)) v = norm 3 v * dot 3 (fst (drag a l cg density v)) (direction v)). { unfold dot, direction. rewrite !sumn3. field. lra. }
    rewrite VD. rewrite (dot_ext 3 _ (direction v) _ (direction v) F) by (intros ? ?; reflexivity). rewrite vsum_dot.
    assert (ONE : forall s, In s (lit v l) -> dot 3 (flow s) (direction v) <= 0 /\ (0 < density -> 0 < s_area s -> dot 3 (flow s) (direction v) < 0)).
    { intros s Hs. apply lit_in in Hs. destruct Hs as [I FC]. destruct (PR s I) as (U & A & _ & _ & AS). apply flow_resists; assumption. }
    split.
    + assert (fold_right (fun s r => dot 3 (flow s) (direction v) + r) 0 (lit v l) <= 0). { apply (fold_nonpos (fun s => dot 3 (flow s) (direction v))). intros s Hs. now apply ONE. } nra.
    + intros D1 [s [I [FC A]]]. assert (fold_right (fun s r => dot 3 (flow s) (direction v) + r) 0 (lit v l) < 0); [|nra].
      apply (fold_neg (fun s => dot 3 (flow s) (direction v))); [intros s' Hs; now apply ONE|]. exists s. assert (IN : In s (lit v l)) by (apply lit_in; now split). split; [exact IN|]. now apply (ONE s IN).
Qed.
(** at rest relative to the air there is no force and no torque, whatever the coefficients *)
Theorem C78_no_wind : forall a l cg density v, norm 3 v = 0 ->
  veq 3 (fst (drag a l cg density v)) (vconst 0) /\ veq 3 (snd (drag a l cg density v)) (vconst 0).
Proof. intros a l cg density v Z. unfold drag. rewrite torque_force_sum, lit_zero by exact Z. cbn. split; intros i Hi; reflexivity. Qed.
(** the flow in the body frame has the speed of the spacecraft over ground *)
Theorem C78_flow_speed : forall dcm q v_ecef, rotation dcm -> unit 4 q -> norm 3 (air_velocity_b dcm q v_ecef) = norm 3 v_ecef.
Proof.
  intros dcm q v RD U. unfold air_velocity_b. rewrite (norm3_ext _ (mvec 3 (to_dcm q) (mvec 3 (mtrans dcm) v))); [|intros i Hi; now apply frame_dcm].
  rewrite rotation_norm by (now apply dcm_rotation). now apply rotation_norm, rotation_trans.
Qed.
Print Assumptions C78_drag_force.
Print Assumptions C78_speed_ratio.
Print Assumptions C78_speed_ratio_units.
Print Assumptions C78_error_function.
Print Assumptions C78_drag_resists.
Print Assumptions C78_no_wind.
Print Assumptions C78_flow_speed.

(** C79: the third-body acceleration is the sum over the bodies of the attraction at the spacecraft minus the
    attraction at the center body (the origin) *)
Theorem C79_third_bodies : forall bodies from_sc gm sc,
  (forall b, In b bodies -> 0 < norm 3 (from_sc b) /\ 0 < norm 3 (vadd sc (from_sc b))) ->
  veq 3 (third_body_update bodies from_sc gm sc)
    (vsum (map (fun b => let p := vadd sc (from_sc b) in vsub (attraction (gm b) p sc) (attraction (gm b) p (vconst 0))) bodies)).
Proof.
  intros bodies from_sc gm sc H i Hi. rewrite third_body_sum by exact Hi. apply vsum_ext; [|exact Hi]. intros b Hb. destruct (H b Hb). now apply third_body_tidal.
Qed.
(** the settings are accepted only if every body named is one of the selected bodies and not the center; the set then
    contains every named body once *)
Theorem C79_third_body_settings : forall center selected names,
  init_third_bodies center selected false names = Ok [] /\
  ((forall b, In b names -> b <> center /\ In b selected) ->
   exists r, init_third_bodies center selected true names = Ok r /\ NoDup r /\ forall b, In b r <-> In b names) /\
  ((exists b, In b names /\ (b = center \/ ~ In b selected)) -> init_third_bodies center selected true names = Throw).
Proof.
  intros center selected names. split; [reflexivity|].
  change (init_third_bodies center selected true names) with (fold_left (names_step center selected) names (Ok [])).
  destruct (names_run center selected names [] (NoDup_nil _)) as [[H [r [R1 [R2 R3]]]]|[[b [I B]] T]]; split.
  - intros _. exists r. split; [exact R1|]. split; [exact R2|]. intro b. rewrite R3. cbn. tauto.
  - intros [b [I B]]. exfalso. destruct (H b I) as [H1 H2]. destruct B; contradiction.
  - intro H. exfalso. destruct (H b I) as [H1 H2]. destruct B; contradiction.
  - intros _. exact T.
Qed.
(** the magnetic torque is the moment times the field (in tesla), perpendicular to both; the k-th call of the whole
    process (whatever the object) sees the constant moment of its own object, and the random walk and noise with the
    parameters of the object that made the first call *)
Lemma rmm_run_from wz nz s : forall calls k, nth_error (rmm_run wz nz (Some s) calls) k =
  match nth_error calls k with
  | Some (p, b) =>
      let m i := rmm_const p i + (walk_after (vconst (st_limit s)) (fun i k => st_walk_sd s * wz i k) (1 / 10) (st_calls s + k) i + st_noise_sd s * nz (3 * (st_calls s + k) + i)%nat) in
      Some (vscal (1 / 10 ^ 9) (cross m b), m)
  | None => None
  end.
Proof.
  intros calls. revert s. induction calls as [|[p b] l IH]; intros s k; [destruct k; reflexivity|]. destruct k as [|k]; cbn [rmm_run nth_error].
  - unfold magnetic_torque, calc_rmm. cbn [nth_error]. rewrite Nat.add_0_r. reflexivity.
  - unfold magnetic_torque, calc_rmm. cbn [nth_error]. rewrite IH. cbn [st_limit st_walk_sd st_noise_sd st_calls]. rewrite Nat.add_succ_r. reflexivity.
Qed.
Theorem C79_magnetic_torque : forall wz nz p0 b0 calls k p b, nth_error ((p0, b0) :: calls) k = Some (p, b) ->
  exists t m, nth_error (rmm_run wz nz None ((p0, b0) :: calls)) k = Some (t, m) /\
  (forall i, m i = rmm_const p i + walk_after (vconst (rmm_walk_limit p0)) (fun i k => rmm_walk_sd p0 * wz i k) (1 / 10) k i + rmm_noise_sd p0 * nz (3 * k + i)%nat) /\
  veq 3 t (vscal (1 / 10 ^ 9) (cross m b)) /\ dot 3 t m = 0 /\ dot 3 t b = 0.
Proof.
  intros wz nz p0 b0 calls k p b H.
  assert (E : nth_error (rmm_run wz nz None ((p0, b0) :: calls)) k = nth_error (rmm_run wz nz (Some (mkStatics (rmm_walk_sd p0) (rmm_walk_limit p0) (rmm_noise_sd p0) 0)) ((p0, b0) :: calls)) k) by reflexivity.
  rewrite E, rmm_run_from, H. cbn [st_limit st_walk_sd st_noise_sd st_calls Nat.add]. do 2 eexists. split; [reflexivity|]. cbv beta. split; [intro i; ring|]. split; [intros i Hi; reflexivity|].
  match goal with |- context [cross ?x b] => set (m := x) end. split; unfold dot, vscal, cross; rewrite sumn3; ring.
Qed.
(** ... so the moment stays within the walk limit (plus one step) and the noise around the constant *)
Theorem C79_moment_bounded : forall wz nz p0 b0 calls k p b t m i M, nth_error ((p0, b0) :: calls) k = Some (p, b) ->
  nth_error (rmm_run wz nz None ((p0, b0) :: calls)) k = Some (t, m) ->
  0 <= rmm_walk_limit p0 -> (forall j, Rabs (rmm_walk_sd p0 * wz i j) <= M) ->
  Rabs (m i - rmm_const p i - rmm_noise_sd p0 * nz (3 * k + i)%nat) <= rmm_walk_limit p0 + 1 / 10 * M.
Proof.
  intros wz nz p0 b0 calls k p b t m i M H R L B. destruct (C79_magnetic_torque wz nz p0 b0 calls k p b H) as (t' & m' & R' & MM & _). rewrite R in R'. injection R' as <- <-.
  rewrite MM. set (w := walk_after _ _ _ _ _). replace (_ - _ - _) with w by ring. apply (C49_random_walk_bounded (vconst (rmm_walk_limit p0)) (fun i k => rmm_walk_sd p0 * wz i k) (1 / 10) i M k); [exact L|lra|exact B].
Qed.
(** a second spacecraft does not get its own random walk and noise: with both set to zero its moment still moves *)
Theorem C79_own_parameters_refuted :
  ~ (forall wz nz p0 b0 calls k p b t m, nth_error ((p0, b0) :: calls) k = Some (p, b) ->
       nth_error (rmm_run wz nz None ((p0, b0) :: calls)) k = Some (t, m) ->
       rmm_walk_sd p = 0 -> rmm_noise_sd p = 0 -> m 0%nat = rmm_const p 0%nat).
Proof.
  intro H. set (p0 := mkRmm (vconst 0) 0 0 1). set (p := mkRmm (vconst 0) 0 0 0). set (wz := fun _ _ : nat => 0). set (nz := fun _ : nat => 1).
  destruct (C79_magnetic_torque wz nz p0 (vconst 0) [(p, vconst 0)] 1 p (vconst 0) eq_refl) as (t & m & R & MM & _).
  specialize (H wz nz p0 (vconst 0) [(p, vconst 0)] 1%nat p (vconst 0) t m eq_refl R eq_refl eq_refl). rewrite MM in H.
  assert (W : walk_after (vconst (rmm_walk_limit p0)) (fun i k => rmm_walk_sd p0 * wz i k) (1 / 10) 1 0%nat = 0).
  { unfold walk_after. cbn. unfold vadd, vscal, vconst, rmm_walk_sd, wz. cbn. repeat (match goal with |- context [rlt ?a ?b] => destruct (rlt a b) end); rewrite ?Rmult_0_l, ?Rabs_R0; field. }
  rewrite W in H. cbn in H. unfold vconst, nz in H. lra.
Qed.
Print Assumptions C79_third_bodies.
Print Assumptions C79_third_body_settings.
Print Assumptions C79_magnetic_torque.
Print Assumptions C79_moment_bounded.
Print Assumptions C79_own_parameters_refuted.

(** C81: the surfaces of the structure file: everything up to the first entry out of range, with normals longer than 1
    normalised; [in_range] in words: not below - 10^-6, not above 1 + 10^-6 *)
Definition in_range (s : surface) : Prop :=
  - (1 / 10 ^ 6) <= s_area s /\ - (1 / 10 ^ 6) <= s_reflectivity s <= 1 + 1 / 10 ^ 6 /\
  - (1 / 10 ^ 6) <= s_specularity s <= 1 + 1 / 10 ^ 6 /\ - (1 / 10 ^ 6) <= s_air_specularity s <= 1 + 1 / 10 ^ 6.
Lemma accepted_range s : accepted s = true <-> in_range s.
Proof.
  unfold accepted, in_unit_range, in_range, min_val. rewrite !andb_true_iff, !negb_true_iff.
  repeat match goal with |- context [rlt ?a ?b] => destruct (rlt_spec a b) end; intuition (try discriminate); lra.
Qed.
Theorem C81_surfaces_up_to_first_error : forall raw, exists k,
  (k <= List.length raw)%nat /\ init_surfaces raw = map fix_normal (firstn k raw) /\ Forall in_range (firstn k raw) /\
  (forall s, nth_error raw k = Some s -> ~ in_range s).
Proof.
  induction raw as [|s l [k (K1 & K2 & K3 & K4)]].
  - exists 0%nat. repeat split; [lia|constructor|intros s H; discriminate].
  - cbn [init_surfaces]. destruct (accepted s) eqn:A.
    + exists (S k). apply accepted_range in A. cbn [firstn map List.length nth_error]. rewrite K2. repeat split; [lia|now constructor|exact K4].
    + exists 0%nat. cbn [firstn map nth_error]. repeat split; [lia|constructor|]. intros s' E. injection E as <-. intro R. apply accepted_range in R. congruence.
Qed.
Theorem C81_normals : forall raw s, In s (init_surfaces raw) ->
  norm 3 (s_normal s) <= 1 + 1 / 10 ^ 6 /\
  exists s0, In s0 raw /\ s_pos s = s_pos s0 /\ s_area s = s_area s0 /\ s_reflectivity s = s_reflectivity s0 /\ s_specularity s = s_specularity s0 /\
    s_air_specularity s = s_air_specularity s0 /\
    ((norm 3 (s_normal s0) <= 1 + 1 / 10 ^ 6 /\ s_normal s = s_normal s0) \/
     (1 + 1 / 10 ^ 6 < norm 3 (s_normal s0) /\ veq 3 (s_normal s) (direction (s_normal s0)))).
Proof.
  induction raw as [|s0 l IH]; intros s H; [contradiction|]. cbn [init_surfaces] in H. destruct (accepted s0); [|contradiction]. destruct H as [<-|H].
  2:{ destruct (IH s H) as [A [s1 [I B]]]. split; [exact A|]. exists s1. split; [now right|exact B]. }
  unfold fix_normal, min_val. destruct (rlt_spec (1 + 1 / 10 ^ 6) (norm 3 (s_normal s0))) as [L|L].
  - assert (0 < norm 3 (s_normal s0)) as P. { assert (0 < 1 / 10 ^ 6) by (apply Rdiv_lt_0_compat; [lra|apply pow_lt; lra]). lra. } split.
    + cbn [s_normal]. rewrite normalize_norm by lra. assert (0 < 1 / 10 ^ 6) by (apply Rdiv_lt_0_compat; [lra|apply pow_lt; lra]). lra.
    + exists s0. cbn. repeat (split; [first [now left|reflexivity]|]). right. split; [exact L|]. intros i Hi. now apply normalize_scal.
  - apply Rnot_lt_le in L. split; [exact L|]. exists s0. repeat (split; [first [now left|reflexivity]|]). left. split; [exact L|reflexivity].
Qed.
(** a surface after the first invalid one is dropped even if it is fine itself *)
Theorem C81_every_valid_surface_refuted :
  ~ (forall raw s, In s raw -> in_range s -> norm 3 (s_normal s) = 1 -> In s (init_surfaces raw)).
Proof.
  intro H. set (good := mkSurface (vconst 0) (v3 1 0 0) 1 0 0 0). set (bad := mkSurface (vconst 0) (v3 1 0 0) (-1) 0 0 0).
  specialize (H [bad; good] good (or_intror (or_introl eq_refl))).
  assert (N : init_surfaces [bad; good] = []).
  { cbn [init_surfaces]. assert (A : accepted bad = false); [|now rewrite A]. unfold accepted, bad, min_val. cbn [s_area]. rewrite rlt_true by lra. reflexivity. }
  rewrite N in H. apply H; [unfold in_range, good; cbn; lra|]. unfold norm. rewrite sumn3. cbn. replace (1 * 1 + 0 * 0 + 0 * 0) with 1 by ring. apply sqrt_1.
Qed.
(** the nine numbers of the inertia tensor are its rows *)
Theorem C81_inertia_rows : forall v i j, (i < 3)%nat -> (j < 3)%nat -> inertia_of v i j = v (3 * i + j)%nat.
Proof. intros v i j _ _. unfold inertia_of. f_equal. lia. Qed.
Print Assumptions C81_surfaces_up_to_first_error.
Print Assumptions C81_normals.
Print Assumptions C81_every_valid_surface_refuted.
Print Assumptions C81_inertia_rows.

(** ** Non-trivial cases *)
(** two disturbances, one that counts its refreshes and holds, one disabled: after an orbit step and an attitude step *)
Example ex75 :
  let up := fun (e : R) (s : Datatypes.unit * values) => (tt, mkValues (vconst e) (vconst 0) (vconst 0) (vconst 0)) in
  let l := [mkDist true false up tt zero_values; mkDist true true up tt zero_values; mkDist false true up tt zero_values] in
  tot_force (snd (run_updates l [mkStep true false 5; mkStep false true 7])) 0%nat = 12.
Proof. cbn. unfold vadd, vconst, vscal. cbn. ring. Qed.
(** a dumbbell across the line to the center at 45 degrees feels a torque *)
Example ex76 : gravity_gradient_torque 1 (v3 1 1 0) (inertia_of_masses [(1, v3 1 0 0); (1, v3 (-1) 0 0)]) 2%nat <> 0.
Proof.
  assert (N2 : norm 3 (v3 1 1 0) * norm 3 (v3 1 1 0) = 2). { rewrite norm3. cbn. ring. } pose proof (norm_nonneg 3 (v3 1 1 0)) as NN.
  assert (P : 0 < norm 3 (v3 1 1 0)) by nra. rewrite gg_closed by (assumption || lia). unfold vscal. apply Rmult_integral_contrapositive_currified.
  - apply Rgt_not_eq. apply Rdiv_lt_0_compat; [lra|now apply pow_lt].
  - unfold cross, mvec. rewrite !sumn3. cbn. lra.
Qed.
Example ex77 : proper (mkSurface (v3 1 0 0) (v3 1 0 0) 2 (1/2) (1/2) 0) /\ facing (v3 3 1 0) (mkSurface (v3 1 0 0) (v3 1 0 0) 2 (1/2) (1/2) 0).
Proof. unfold proper, facing, QuatSpec.unit, dot. rewrite !sumn3. cbn. lra. Qed.
Example ex78 : gas (mkAir 303 273 18). Proof. unfold gas. cbn. lra. Qed.
Example ex79 : init_third_bodies "EARTH" ["SUN"; "MOON"]%string true ["SUN"; "MOON"; "SUN"]%string = Ok ["SUN"; "MOON"]%string /\
  init_third_bodies "EARTH" ["SUN"; "EARTH"]%string true ["SUN"; "EARTH"]%string = Throw.
Proof. split; reflexivity. Qed.
