(** C62-C68: Kepler's equation and orbit, orbital elements, Hill's equations, LVLH frame, relative orbit,
    Encke's method, orbit propagation loop. *)
From Coq Require Import Reals Lra Lia List Bool Arith.
From Verif Require Import Base RBase VecModel VecProofs Trig QuatModel QuatSpec QuatProofs OdeModel OrbitModel OrbitSpec OrbitRunSpec
  Calc KeplerProofs OrbitProofs OeProofs HillProofs PropagateProofs.
Import ListNotations.
Open Scope R_scope.

(** ** C62: Kepler's equation *)
Theorem C62_kepler_equation_solvable e m : 0 <= e < 1 ->
  exists u, residual e m u = 0 /\ Rabs (u - m) <= e /\ forall w, residual e m w = 0 -> w = u.
Proof.
  intros He. destruct (root_exists e m He) as (u & Z & B). exists u. split; [exact Z|]. split; [exact B|]. intros w W. now apply (root_unique e m He).
Qed.
Print Assumptions C62_kepler_equation_solvable.
(** once two consecutive estimates after the first pass agree, the answer solves the equation to second order *)
Theorem C62_newton_residual e m limit n : 0 <= e < 1 -> ~ Rabs (iterate e m 0 - m) < limit ->
  (exists k, (S k < n)%nat /\ Rabs (iterate e m (S k) - iterate e m k) < limit) ->
  Rabs (residual e m (solve_kepler_newton e m limit n)) <= e * (limit * limit) / 2.
Proof. apply newton_residual. Qed.
Print Assumptions C62_newton_residual.
Theorem C62_newton_small_eccentricity e m : 0 <= e <= 1 / 5 -> 0 <= m <= 2 * PI ->
  let u := solve_kepler_newton e m (1 / 10 ^ 5) 10 in
  Rabs (residual e m u) <= 2 / 10 ^ 5 /\ forall w, residual e m w = 0 -> Rabs (u - w) <= 25 / 10 ^ 6.
Proof.
  intros He Hm u. pose proof (small_e_residual e m He Hm) as R0. fold u in R0. split; [exact R0|]. intros w W.
  pose proof (residual_distance e m u w ltac:(lra) W) as D. eapply Rle_trans; [exact D|].
  apply (Rmult_le_reg_r (1 - e)); [lra|]. unfold Rdiv at 1. rewrite Rmult_assoc, Rinv_l, Rmult_1_r by lra. lra.
Qed.
Print Assumptions C62_newton_small_eccentricity.
(** the first pass subtracts the Newton correction from 0, not from m: when that lands on m the loop stops there *)
Theorem C62_newton_early_exit_refuted : exists e m, 0 <= e < 1 /\ 0 <= m <= 2 * PI /\
  forall limit n, 0 < limit -> (1 <= n)%nat ->
    solve_kepler_newton e m limit n = m /\ 4 / 10 <= Rabs (residual e m (solve_kepler_newton e m limit n)).
Proof.
  set (q := PI / 4). set (s := sin (PI / 4)).
  assert (CS : cos (PI / 4) = s) by (unfold s; rewrite sin_PI4, cos_PI4; reflexivity).
  assert (SS : s * s = 1 / 2). { pose proof (sc (PI / 4)) as T. fold s in T. rewrite CS in T. lra. }
  pose proof PI_RGT_0 as P0. assert (PL : 2 < PI). { pose proof PI2_1. lra. }
  assert (PL3 : 3 < PI). { pose proof PI2_3_2. lra. } pose proof pi_upper as PU.
  assert (SP : 0 < s) by (apply sin_gt_0; lra). assert (S1 : 7 / 10 < s) by nra.
  exists (q / (s * (1 + q))), q.
  assert (Q0 : 0 < q) by (unfold q; lra). assert (Q1 : 3 / 4 < q < 8 / 10) by (unfold q; lra).
  assert (D : 0 < s * (1 + q)) by nra.
  assert (E1 : q / (s * (1 + q)) < 1). { apply (Rmult_lt_reg_r (s * (1 + q))); [exact D|]. replace (q / (s * (1 + q)) * (s * (1 + q))) with q by (field; nra). nra. }
  assert (E0 : 0 <= q / (s * (1 + q))) by (apply Rmult_le_pos; [lra|left; apply Rinv_0_lt_compat; lra]).
  assert (SQ : sin q = s) by reflexivity. assert (CQ : cos q = s) by exact CS.
  split; [lra|]. split; [unfold q; lra|]. intros limit n L N. clearbody q s.
  assert (IT : iterate (q / (s * (1 + q))) q 0 = q).
  { cbn [iterate]. rewrite SQ, CQ. field. repeat split; apply Rgt_not_eq; nra. }
  assert (SO : solve_kepler_newton (q / (s * (1 + q))) q limit n = q).
  { destruct n as [|n]; [lia|]. rewrite solve_first. rewrite IT. rewrite rlt_true; [reflexivity|]. replace (q - q) with 0 by ring. rewrite Rabs_R0. exact L. }
  split; [exact SO|]. rewrite SO. unfold residual. rewrite SQ.
  replace (q - q / (s * (1 + q)) * s - q) with (- (q / (1 + q))) by (field; nra). rewrite Rabs_Ropp, Rabs_right.
  - apply (Rmult_le_reg_r (1 + q)); [lra|]. replace (q / (1 + q) * (1 + q)) with q by (field; lra). lra.
  - apply Rle_ge, Rmult_le_pos; [lra|left; apply Rinv_0_lt_compat; lra].
Qed.
Print Assumptions C62_newton_early_exit_refuted.
Theorem C62_first_order_residual e m limit n : 0 <= e < 1 -> (1 <= n)%nat ->
  let u := solve_kepler_first_order e m limit n in
  Rabs (residual e m u) <= e * limit \/ Rabs (residual e m u) <= e ^ S n.
Proof.
  intros He N u. destruct n as [|n]; [lia|]. unfold u, solve_kepler_first_order. cbn [first_order].
  assert (B : Rabs (m + e * sin m - m) <= e ^ 1).
  { replace (m + e * sin m - m) with (e * sin m) by ring. rewrite Rabs_mult, (Rabs_right e) by lra. pose proof (SIN_bound m). assert (Rabs (sin m) <= 1) by (apply Rabs_le; lra). cbn [pow]. nra. }
  destruct (rlt_spec (Rabs (m + e * sin m - m)) limit) as [C|C].
  - left. unfold residual. set (w := m + e * sin m) in *. replace (w - e * sin w - m) with (e * (sin m - sin w)) by (assert (H : w = m + e * sin m) by reflexivity; clear - H; lra).
    rewrite Rabs_mult, (Rabs_right e) by lra. pose proof (sin_lipschitz w m) as L. rewrite (Rabs_minus_sym m w) in L. apply Rmult_le_compat_l; lra.
  - pose proof (first_order_residual e m limit He n 1 m (m + e * sin m) eq_refl B) as F. cbv zeta in F. replace (1 + n + 1)%nat with (S (S n)) in F by lia. exact F.
Qed.
Print Assumptions C62_first_order_residual.

(** ** C63: the Kepler orbit *)
Theorem C63_two_body mu oe u : 0 < mu -> 0 < sma oe -> 0 <= ecc oe < 1 ->
  eccentric_anomaly (ecc oe) (mean_motion mu (sma oe)) u ->
  two_body mu (fun s => fst (state_at mu oe (u s))) (fun s => snd (state_at mu oe (u s))).
Proof. intros. now apply kepler_two_body. Qed.
Print Assumptions C63_two_body.
Theorem C63_anomaly_exists mu oe : 0 < mu -> 0 < sma oe -> 0 <= ecc oe < 1 ->
  exists u, eccentric_anomaly (ecc oe) (mean_motion mu (sma oe)) u.
Proof. intros. now apply anomaly_exists. Qed.
Print Assumptions C63_anomaly_exists.
(** radius, energy and angular momentum at every eccentric anomaly *)
Theorem C63_invariants mu oe u : 0 < mu -> 0 < sma oe -> 0 <= ecc oe < 1 ->
  let r := fst (state_at mu oe u) in let v := snd (state_at mu oe u) in
  norm 3 r = sma oe * (1 - ecc oe * cos u) /\
  dot 3 v v / 2 - mu / norm 3 r = - mu / (2 * sma oe) /\
  veq 3 (cross r v) (vscal (sqrt (mu * sma oe * (1 - ecc oe * ecc oe)))
    (v3 (sin (raan oe) * sin (inc oe)) (- cos (raan oe) * sin (inc oe)) (cos (inc oe)))).
Proof.
  intros Mu Ha He r v. assert (RN : norm 3 r = sma oe * (1 - ecc oe * cos u)) by (apply position_norm; assumption). split; [exact RN|]. split.
  - unfold v, r. rewrite velocity_sq by assumption. fold r. rewrite RN. pose proof (slope oe He u). field. lra.
  - intros i Hi. unfold r, v. rewrite angular_momentum by assumption. unfold vscal. f_equal.
    i3 i Hi; unfold inplane_to_i; cbv [mmul sumn rot_x rot_z m3 v3]; rewrite ?cos_neg1, ?sin_neg1; ring.
Qed.
Print Assumptions C63_invariants.
(** CalcOrbit: its answer is the exact position of that orbit at time t up to 25 millionths of the semi-major axis *)
Theorem C63_position_accuracy fuel mu oe t p v : 0 < sma oe -> 0 <= ecc oe <= 1 / 5 -> calc_orbit fuel mu oe t = Ok (p, v) ->
  exists u w, (p, v) = state_at mu oe u /\ residual (ecc oe) (mean_anomaly mu oe t) w = 0 /\ Rabs (u - w) <= 25 / 10 ^ 6 /\
    norm 3 (vsub p (fst (state_at mu oe w))) <= 25 / 10 ^ 6 * sma oe.
Proof.
  intros Ha He H. destruct (kepler_accuracy fuel mu oe t (p, v) Ha He H) as (u & w & E & Z & D). exists u, w. repeat split; try assumption.
  assert (p = fst (state_at mu oe u)) as -> by (rewrite <- E; reflexivity).
  eapply Rle_trans; [apply position_lipschitz; lra|]. rewrite (Rmult_comm (25 / 10 ^ 6)). apply Rmult_le_compat_l; [lra|exact D].
Qed.
Print Assumptions C63_position_accuracy.
Theorem C63_calc_orbit_terminates mu oe t : exists fuel0 pv, forall fuel, (fuel0 <= fuel)%nat -> calc_orbit fuel mu oe t = Ok pv.
Proof. apply calc_orbit_total. Qed.
Print Assumptions C63_calc_orbit_terminates.

(** ** C64: orbital elements from position and velocity *)
Theorem C64_round_trip fuel mu t r v : (1 <= fuel)%nat -> elliptic mu r v -> node_ok (cross r v) ->
  exists oe u, calc_oe fuel mu t r v = Ok oe /\ 0 < sma oe /\ 0 <= ecc oe < 1 /\ 0 <= u <= 2 * PI /\
    residual (ecc oe) (mean_anomaly mu oe t) u = 0 /\
    veq 3 (fst (state_at mu oe u)) r /\ veq 3 (snd (state_at mu oe u)) v.
Proof.
  intros F E C. destruct (round_trip fuel mu t r v F E C) as (oe & u & A & B & D & U & M & P & V). exists oe, u. repeat split; try assumption; try lra; try apply D; try apply U.
  unfold residual. rewrite M. ring.
Qed.
Print Assumptions C64_round_trip.
(** the angle of the node is an arcsine: for an angular momentum with positive y component no point of the orbit has the given position and velocity *)
Theorem C64_node_wrong_side fuel mu t r v oe : calc_oe fuel mu t r v = Ok oe -> 0 < cross r v 1%nat ->
  0 < norm 3 (cross r v) -> 0 < mu -> 0 < sma oe -> 0 <= ecc oe < 1 ->
  forall u, ~ (veq 3 (fst (state_at mu oe u)) r /\ veq 3 (snd (state_at mu oe u)) v).
Proof. apply node_wrong_side. Qed.
Print Assumptions C64_node_wrong_side.
Theorem C64_node_quadrant_refuted : exists mu r v oe, elliptic mu r v /\ calc_oe 1 mu 0 r v = Ok oe /\ 0 < sma oe /\ 0 <= ecc oe < 1 /\
  forall u, ~ (veq 3 (fst (state_at mu oe u)) r /\ veq 3 (snd (state_at mu oe u)) v).
Proof.
  set (r := v3 1 0 0). set (v := v3 0 1 (- (1 / 2))). exists 1, r, v.
  assert (C0 : cross r v 0%nat = 0) by (cbn [cross r v v3]; ring). assert (C1 : cross r v 1%nat = 1 / 2) by (cbn [cross r v v3]; field). assert (C2 : cross r v 2%nat = 1) by (cbn [cross r v v3]; ring).
  assert (NR : norm 3 r = 1) by (unfold norm; rewrite sumn3; cbn [r v3]; replace (1 * 1 + 0 * 0 + 0 * 0) with 1 by ring; apply sqrt_1).
  pose proof (norm3 (cross r v)) as HH. rewrite C0, C1, C2 in HH. set (H := norm 3 (cross r v)) in *.
  assert (H0 : 0 <= H) by apply norm_nonneg. assert (HP : 0 < H) by nra.
  assert (VV : dot 3 v v = 5 / 4) by (unfold dot; rewrite sumn3; cbn [v v3]; field).
  assert (EL : elliptic 1 r v) by (split; [lra|split; [rewrite NR; lra|split; [exact HP|rewrite NR, VV; lra]]]).
  assert (OM : calc_raan (cross r v) = 0).
  { unfold calc_raan. rewrite C0. destruct (rlt _ _); [reflexivity|]. unfold Rdiv. rewrite Rmult_0_l. apply asin_0. }
  assert (NZ : normalize 3 (cross r v) 2%nat = 1 / H) by (rewrite normalize_scal by exact HP; rewrite C2; reflexivity).
  assert (HB : -1 <= 1 / H <= 1). { assert (1 <= H) by nra. split; [apply Rle_trans with 0; [lra|]; apply Rmult_le_pos; [lra|left; apply Rinv_0_lt_compat; lra]|]. apply (Rmult_le_reg_r H); [lra|]. replace (1 / H * H) with 1 by (field; lra). lra. }
  assert (SI : sin (acos (1 / H)) = 1 / 2 / H).
  { rewrite sin_acos_sqrt by exact HB. apply sq_eq; [apply sqrt_pos|apply Rmult_le_pos; [lra|left; apply Rinv_0_lt_compat; lra]|].
    rewrite sqrt_sqrt; [|assert (1 / H * (1 / H) <= 1) by nra; lra].
    apply (Rmult_eq_reg_r (H * H)); [|nra]. replace ((1 - 1 / H * (1 / H)) * (H * H)) with (H * H - 1) by (field; lra). rewrite HH. replace (1 / 2 / H * (1 / 2 / H) * (0 * 0 + 1 / 2 * (1 / 2) + 1 * 1)) with (1 / 2 / H * (1 / 2 / H) * (H * H)) by (rewrite HH; reflexivity). field. lra. }
  pose proof (cos_acos _ HB) as CI.
  unfold calc_oe. fold H. rewrite OM, NZ, NR, VV, cos_0, sin_0, CI, SI.
  pose proof PI_RGT_0 as PP.
  match goal with |- context [wrap 1 (atan2 ?y ?x - atan2 ?t2 ?t1)] =>
    assert (ET1 : t1 = - (1 / 4)) by (cbn [r v v3]; transitivity (3 / 4 - 1); [field; lra|field]);
    assert (ET2 : t2 = 0) by (cbn [r v v3]; field; lra) end.
  rewrite ET2, ET1.
  match goal with |- context [wrap 1 (atan2 ?y ?x - ?t)] => pose proof (atan2_range y x) as W2; destruct (wrap_fuel 1 (atan2 y x - t) (le_n _)) as (k & f & EF & _ & _) end.
  { pose proof (atan2_range 0 (- (1 / 4))) as W1. lra. }
  rewrite EF. cbn [bind].
  match goal with |- context [wrap 1 (atan2 ?y ?x)] => pose proof (atan2_range y x) as W3; destruct (wrap_fuel 1 (atan2 y x) (le_n _)) as (k2 & u & EU & _ & _); [lra|]; rewrite EU; cbn [bind] end.
  assert (EE : sqrt (- (1 / 4) * - (1 / 4) + 0 * 0) = 1 / 4). { replace (- (1 / 4) * - (1 / 4) + 0 * 0) with (1 / 4 * (1 / 4)) by field. apply sqrt_square. lra. }
  eexists. split; [exact EL|]. split; [reflexivity|]. cbn [sma ecc]. rewrite EE. split; [lra|]. split; [lra|].
  intros w (P & V). 
  match type of P with veq 3 (fst (state_at 1 ?o w)) r => pose proof (angular_momentum 1 o ltac:(lra) ltac:(cbn [sma]; lra) ltac:(cbn [ecc]; lra) w 1%nat ltac:(lia)) as A end.
  assert (C : cross (fst (state_at 1 _ w)) (snd (state_at 1 _ w)) 1%nat = cross r v 1%nat) by (cbn [cross]; rewrite !P, !V by lia; reflexivity).
  rewrite C, C1 in A. unfold vscal in A. clear C P V.
  match type of A with _ = ?k * inplane_to_i ?o _ _ => assert (T : inplane_to_i o 1%nat 2%nat = - cos (raan o) * sin (inc o)) by (unfold inplane_to_i; cbv [mmul sumn rot_x rot_z m3 v3]; rewrite ?cos_neg1, ?sin_neg1; ring) end.
  rewrite T in A. cbn [raan inc sma ecc] in A. rewrite cos_0, SI in A.
  match type of A with _ = ?k * _ => assert (K := sqrt_pos (1 * (1 / (2 * 1 / 1 - 5 / 4)) * (1 - 1 / 4 * (1 / 4)))); set (kk := k) in * end.
  assert (0 < 1 / 2 / H) by (apply Rdiv_lt_0_compat; lra). nra.
Qed.
Print Assumptions C64_node_quadrant_refuted.

(** ** C65: Hill's equations *)
Theorem C65_stm_solves_hill n s0 : n <> 0 ->
  hill_motion n (fun t => mvec 6 (hcw_stm n t) s0) /\ veq 6 (mvec 6 (hcw_stm n 0) s0) s0.
Proof. intro N. split; [now apply stm_hill|now apply stm_zero]. Qed.
Print Assumptions C65_stm_solves_hill.
Theorem C65_stm_only_solution n s : n <> 0 -> hill_motion n s -> forall t, veq 6 (s t) (mvec 6 (hcw_stm n t) (s 0)).
Proof. apply hill_unique. Qed.
Print Assumptions C65_stm_only_solution.
Theorem C65_stm_composition n s t x : n <> 0 -> veq 6 (mvec 6 (hcw_stm n (s + t)) x) (mvec 6 (hcw_stm n s) (mvec 6 (hcw_stm n t) x)).
Proof. apply stm_compose. Qed.
Print Assumptions C65_stm_composition.
(** the system matrix of the RK4 method is the right-hand side of Hill's equations *)
Theorem C65_system_matrix n s : veq 6 (mvec 6 (hill_matrix n) s)
  (fun i => nth i [s 3%nat; s 4%nat; s 5%nat; 3 * n * n * s 0%nat + 2 * n * s 4%nat; -2 * n * s 3%nat; - n * n * s 2%nat] 0).
Proof. intros i Hi. rewrite hill_apply by exact Hi. i6 i Hi; reflexivity. Qed.
Print Assumptions C65_system_matrix.
(** one RK4 step of width h on x' = A x is the Taylor polynomial of degree four of exp(h A) x *)
Theorem C65_rk4_step_taylor m (A : mat) o i :
  let h := step_width o in let x := state o in
  let A1 := mvec m A x in let A2 := mvec m A A1 in let A3 := mvec m A A2 in let A4 := mvec m A A3 in
  state (step_of (fun _ s => mvec m A s) o) i = x i + h * A1 i + h ^ 2 / 2 * A2 i + h ^ 3 / 6 * A3 i + h ^ 4 / 24 * A4 i.
Proof. apply linear_step. Qed.
Print Assumptions C65_rk4_step_taylor.

(** ** C66: the LVLH frame and the relative orbit *)
Theorem C66_lvlh_frame r v : 0 < norm 3 r -> 0 < norm 3 (cross r v) ->
  rotation (lvlh_dcm r v) /\ unit 4 (quaternion_i2lvlh r v) /\ meq3 (to_dcm (quaternion_i2lvlh r v)) (lvlh_dcm r v) /\
  veq 3 (mvec 3 (lvlh_dcm r v) r) (v3 (norm 3 r) 0 0) /\
  mvec 3 (lvlh_dcm r v) v 2%nat = 0 /\ 0 < mvec 3 (lvlh_dcm r v) v 1%nat.
Proof.
  intros P Q. destruct (lvlh_quaternion r v P Q) as (U & E). split; [now apply lvlh_rotation|]. split; [exact U|]. split; [exact E|].
  destruct (lvlh_apply r v r P Q) as (X & Y & Z). destruct (lvlh_apply r v v P Q) as (_ & Y' & Z'). split; [|split].
  - intros i Hi. i3 i Hi; cbn [v3].
    + rewrite X. replace (dot 3 r r) with (norm 3 r * norm 3 r) by (rewrite norm_sq; reflexivity). field. lra.
    + rewrite Y. replace (dot 3 (cross (cross r v) r) r) with 0 by (unfold dot; rewrite sumn3; cbn [cross]; ring). field. lra.
    + rewrite Z. replace (dot 3 (cross r v) r) with 0 by (unfold dot; rewrite sumn3; cbn [cross]; ring). field. lra.
  - rewrite Z'. replace (dot 3 (cross r v) v) with 0 by (unfold dot; rewrite sumn3; cbn [cross]; ring). field. lra.
  - rewrite Y'. replace (dot 3 (cross (cross r v) r) v) with (norm 3 (cross r v) * norm 3 (cross r v)) by (rewrite norm3; unfold dot; rewrite sumn3; cbn [cross]; ring).
    apply Rdiv_lt_0_compat; [|]; apply Rmult_lt_0_compat; assumption.
Qed.
Print Assumptions C66_lvlh_frame.
(** RelativeOrbit: the position reported differs from the reference's by the relative position, turned by the frame *)
Theorem C66_relative_position fuel o tend r v o' : 0 < norm 3 r -> 0 < norm 3 (cross r v) -> rel_propagate fuel true o tend r v = Ok o' ->
  veq 3 (mvec 3 (lvlh_dcm r v) (vsub (ro_pos o') r)) (ro_rel_pos o') /\ veq 3 (mvec 3 (lvlh_dcm r v) (vsub (ro_vel o') v)) (ro_rel_vel o').
Proof. apply rel_propagate_frame. Qed.
Print Assumptions C66_relative_position.
(** In STM mode the relative state after any history of propagations depends only on the initial
    relative state, the present time and the present reference radius: the transition matrix from time
    0 applied to the initial state. *)
Fixpoint rel_history (fuel : nat) (o : rel_orbit) (l : list (R * vec * vec)) : outcome rel_orbit :=
  match l with [] => Ok o | (t, r, v) :: rest => let! o1 := rel_propagate fuel true o t r v in rel_history fuel o1 rest end.
Theorem C66_stm_mode fuel o0 l tend r v o1 o' : ro_method o0 = UStm ->
  rel_history fuel o0 l = Ok o1 -> rel_propagate fuel true o1 tend r v = Ok o' ->
  let s := mvec 6 (calc_hcw_stm (norm 3 r) (ro_mu o0) tend) (ro_initial o0) in
  ro_rel_pos o' = pos6 s /\ ro_rel_vel o' = vel6 s.
Proof.
  intros M. assert (G : forall l o, ro_method o = UStm -> rel_history fuel o l = Ok o1 -> ro_method o1 = UStm /\ ro_initial o1 = ro_initial o /\ ro_mu o1 = ro_mu o).
  { clear. induction l as [|[[t r] v] l IH]; intros o M H; cbn [rel_history] in H; [injection H as <-; auto|].
    destruct (rel_propagate fuel true o t r v) as [o2| | |] eqn:E; cbn [bind] in H; try discriminate.
    destruct (rel_stm_state _ _ _ _ _ _ M E) as (_ & _ & I & M2 & MU). destruct (IH o2 M2 H) as (A & B & C). split; [exact A|]. split; congruence. }
  intros H P. destruct (G l o0 M H) as (M1 & I1 & U1). cbv zeta. destruct (rel_stm_state _ _ _ _ _ _ M1 P) as (A & B & _). rewrite <- I1, <- U1. auto.
Qed.
Print Assumptions C66_stm_mode.

(** the reported velocity leaves out the turning of the LVLH frame: it is not the rate of change of the reported position *)
Theorem C66_relative_velocity_refuted : exists mu (pr vr : R -> vec) o, two_body mu pr vr /\ ro_method o = UStm /\
  hill_motion (mean_motion mu 1) (fun t => mvec 6 (calc_hcw_stm 1 mu t) (ro_initial o)) /\
  exists p v : R -> vec,
    (forall t, norm 3 (pr t) = 1 /\ exists o', rel_propagate 1 true o t (pr t) (vr t) = Ok o' /\ ro_pos o' = p t /\ ro_vel o' = v t) /\
    ~ derivable_pt_lim (fun t => p t 0%nat) 0 (v 0 0%nat).
Proof.
  set (pr := fun t => v3 (cos t) (sin t) 0). set (vr := fun t => v3 (- sin t) (cos t) 0).
  assert (NP : forall t, norm 3 (pr t) = 1).
  { intro t. unfold norm. rewrite sumn3. unfold pr. cbn [v3]. replace (cos t * cos t + sin t * sin t + 0 * 0) with 1 by (pose proof (sc t); lra). apply sqrt_1. }
  set (o := rel_new 1 1 UStm (v3 0 1 0) (v3 0 0 0) (pr 0) (vr 0)).
  assert (N1 : mean_motion 1 1 = 1) by (unfold mean_motion; replace (1 / (1 * 1 * 1)) with 1 by field; apply sqrt_1).
  exists 1, pr, vr, o. split; [|split; [reflexivity|split]].
  - intros s i Hi. rewrite NP. unfold pr, vr. i3 i Hi; cbn [v3]; split.
    + apply derivable_pt_lim_cos.
    + replace (- (1) / (1 * 1 * 1) * cos s) with (- cos s) by field. apply (derivable_pt_lim_opp sin). apply derivable_pt_lim_sin.
    + apply derivable_pt_lim_sin.
    + replace (- (1) / (1 * 1 * 1) * sin s) with (- sin s) by field. apply derivable_pt_lim_cos.
    + apply derivable_pt_lim_const.
    + replace (- (1) / (1 * 1 * 1) * 0) with 0 by field. apply derivable_pt_lim_const.
  - unfold calc_hcw_stm. rewrite N1. apply stm_hill. lra.
  - set (S := fun t => mvec 6 (calc_hcw_stm (norm 3 (pr t)) 1 t) (ro_initial o)).
    exists (fun t => vadd (lvlh_to_i (pr t) (vr t) (pos6 (S t))) (pr t)), (fun t => vadd (lvlh_to_i (pr t) (vr t) (vel6 (S t))) (vr t)).
    split; [intro t; split; [apply NP|]; eexists; split; [reflexivity|split; reflexivity]|].
    assert (SP : forall t, veq 3 (pos6 (S t)) (v3 0 1 0) /\ veq 3 (vel6 (S t)) (v3 0 0 0)).
    { intro t. unfold S. rewrite NP. unfold calc_hcw_stm. rewrite N1. split; intros i Hi; i3 i Hi; cbn [pos6 vel6 v3]; rewrite stm_apply by lia; cbn [v6 v3 ro_initial o rel_new]; field. }
    assert (CR : forall t, veq 3 (cross (pr t) (vr t)) (v3 0 0 1)).
    { intros t i Hi. pose proof (sc t). i3 i Hi; cbn [cross pr vr v3]; lra. }
    assert (NC : forall t, norm 3 (cross (pr t) (vr t)) = 1).
    { intro t. unfold norm. rewrite sumn3. rewrite !CR by lia. cbn [v3]. replace (0 * 0 + 0 * 0 + 1 * 1) with 1 by ring. apply sqrt_1. }
    assert (PT : forall t, vadd (lvlh_to_i (pr t) (vr t) (pos6 (S t))) (pr t) 0%nat = cos t - sin t).
    { intro t. unfold vadd. rewrite lvlh_to_i_spec by (rewrite ?NP, ?NC; lra || lia).
      unfold mvec, mtrans. rewrite sumn3. rewrite !(proj1 (SP t)) by lia. cbn [v3 lvlh_dcm].
      rewrite (normalize_scal (cross (cross (pr t) (vr t)) (pr t))) by (rewrite cross_cross_norm, NP, NC; lra). rewrite cross_cross_norm, NP, NC.
      replace (cross (cross (pr t) (vr t)) (pr t) 0%nat) with (- sin t); [cbn [pr v3]; field|]. cbn [cross]. fold (cross (pr t) (vr t)).
      pose proof (CR t 1%nat ltac:(lia)) as C1. pose proof (CR t 2%nat ltac:(lia)) as C2. cbn [cross v3] in C1, C2. rewrite C1, C2. cbn [pr v3]. ring. }
    assert (VT : vadd (lvlh_to_i (pr 0) (vr 0) (vel6 (S 0))) (vr 0) 0%nat = 0).
    { unfold vadd. rewrite lvlh_to_i_spec by (rewrite ?NP, ?NC; lra || lia). unfold mvec. rewrite sumn3. rewrite !(proj2 (SP 0)) by lia. cbn [v3 vr]. rewrite sin_0. ring. }
    rewrite VT. intro D. assert (D1 : derivable_pt_lim (fun t => cos t - sin t) 0 0) by (eapply dpl_ext; [exact PT|exact D]).
    assert (D2 : derivable_pt_lim (fun t => cos t - sin t) 0 (- sin 0 - cos 0)) by (apply derivable_pt_lim_minus; [apply derivable_pt_lim_cos|apply derivable_pt_lim_sin]).
    pose proof (uniqueness_limite _ _ _ _ D1 D2) as U. rewrite sin_0, cos_0 in U. lra.
Qed.
Print Assumptions C66_relative_velocity_refuted.

(** ** C67: Encke's method *)
(** if the spacecraft position used is reference plus difference, the difference obeys the exact equation of motion *)
Theorem C67_difference_equation mu sat ref acc t s : 0 < norm 3 sat -> 0 < norm 3 ref -> veq 3 sat (vadd ref (pos6 s)) ->
  veq 3 (pos6 (encke_deriv mu sat ref acc t s)) (vel6 s) /\
  veq 3 (vel6 (encke_deriv mu sat ref acc t s)) (vadd (vsub (gravity mu sat) (gravity mu ref)) acc).
Proof. apply encke_deriv_spec. Qed.
Print Assumptions C67_difference_equation.
(** without perturbations every history of propagations stays on the Kepler orbit of the initial state *)
Theorem C67_unperturbed_stays_on_orbit fuel mu step t0 r v tol x0 calls tend jd x : (1 <= fuel)%nat -> elliptic mu r v -> node_ok (cross r v) -> 0 <= tol ->
  encke_new fuel mu step t0 r v tol = Ok x0 -> encke_run fuel x0 (calls ++ [(tend, jd)]) = Ok x ->
  exists oe p q, calc_oe fuel mu t0 r v = Ok oe /\ calc_orbit fuel mu oe jd = Ok (p, q) /\ veq 3 (en_pos x) p /\ veq 3 (en_vel x) q /\ en_time x = tend.
Proof. apply encke_new_run. Qed.
Print Assumptions C67_unperturbed_stays_on_orbit.
(** rectification puts the old position at the new time and drops the acceleration: whatever the time span, the
    spacecraft does not move by more than the accuracy of the Kepler solver *)
Theorem C67_rectification_advances_refuted fuel x tend jd x' : (1 <= fuel)%nat -> elliptic (en_mu x) (en_pos x) (en_vel x) -> node_ok (cross (en_pos x) (en_vel x)) ->
  en_tol x < norm 3 (dif_pos x) / norm 3 (en_pos x) -> encke_propagate fuel true x tend jd = Ok x' ->
  exists oe, calc_oe fuel (en_mu x) jd (en_pos x) (en_vel x) = Ok oe /\ (forall i, en_acc x' i = 0) /\
    (ecc oe <= 1 / 5 -> norm 3 (vsub (en_pos x') (en_pos x)) <= 25 / 10 ^ 6 * sma oe).
Proof. apply rectification_stands_still. Qed.
Print Assumptions C67_rectification_advances_refuted.

(** ** C68: orbit propagation *)
(** the steps of one Propagate: k of the configured width, then one that ends at the requested time *)
Theorem C68_propagation_steps deriv fuel step tend o t o' t' : prop deriv fuel step tend o t = Ok (o', t') ->
  exists k w, t' = tend /\ o' = integrate deriv (repeat step k ++ [w]) o /\ w = tend - t - INR k * step /\ w <= step + 1 / 10 ^ 6 /\
    (k = 0%nat \/ 1 / 10 ^ 6 < w) /\ indep o' = indep o + (tend - t).
Proof.
  intro H. destruct (prop_spec deriv fuel step tend o t o' t' H) as (k & w & T & O & W & B & K). exists k, w. repeat split; try assumption.
  rewrite O. now apply prop_widths_sum.
Qed.
Print Assumptions C68_propagation_steps.
Theorem C68_propagation_terminates deriv step tend f o t : tend - t <= INR (S f) * step -> exists x, prop deriv (S f) step tend o t = Ok x.
Proof. apply prop_total. Qed.
Print Assumptions C68_propagation_terminates.
(** the equation integrated by the RK4 orbit *)
Theorem C68_rk4_equation mu acc t s :
  veq 3 (pos6 (rk4_deriv mu acc t s)) (vel6 s) /\ veq 3 (vel6 (rk4_deriv mu acc t s)) (vadd (gravity mu (pos6 s)) acc).
Proof. apply rk4_deriv_spec. Qed.
Print Assumptions C68_rk4_equation.
(** forces and accelerations add up; setting the acceleration forgets what was added before *)
Theorem C68_acceleration_sum before a0 adds start : only_adds adds ->
  veq 3 (fold_left acc_step (before ++ SetAcc a0 :: adds) start) (fun i => a0 i + fold_right (fun c s => contribution c i + s) 0 adds).
Proof. intros O i Hi. rewrite fold_left_app. cbn [fold_left acc_step]. now apply acc_sum. Qed.
Print Assumptions C68_acceleration_sum.

(** ** Examples: the hypotheses are met *)
Definition ex_r : vec := v3 1 0 0.
Definition ex_v : vec := v3 0 1 (1 / 2).
Example ex_elliptic : elliptic 1 ex_r ex_v /\ node_ok (cross ex_r ex_v).
Proof.
  assert (N1 : norm 3 ex_r = 1) by (unfold norm; rewrite sumn3; cbn [ex_r v3]; replace (1 * 1 + 0 * 0 + 0 * 0) with 1 by ring; apply sqrt_1).
  assert (Q : 0 < norm 3 (cross ex_r ex_v)).
  { unfold norm. rewrite sumn3. apply sqrt_lt_R0. cbn [cross ex_r ex_v v3]. lra. }
  split; [split; [lra|split; [rewrite N1; lra|split; [exact Q|]]]|].
  - rewrite N1. unfold dot. rewrite sumn3. cbn [ex_v v3]. lra.
  - left. cbn [cross ex_r ex_v v3]. split; [|lra].
    replace ((0 * (1 / 2) - 0 * 1) * (0 * (1 / 2) - 0 * 1) + (0 * 0 - 1 * (1 / 2)) * (0 * 0 - 1 * (1 / 2))) with ((1 / 2) * (1 / 2)) by field.
    rewrite sqrt_square by lra. unfold dbl_epsilon. apply (Rmult_le_reg_l (2 ^ 52)); [lra|]. rewrite Rinv_r by lra. lra.
Qed.
Example ex_round_trip : exists oe, calc_oe 1 1 0 ex_r ex_v = Ok oe /\ 0 < sma oe /\ 0 <= ecc oe < 1.
Proof. destruct ex_elliptic as (E & C). destruct (C64_round_trip 1 1 0 ex_r ex_v (le_n _) E C) as (oe & u & A & B & D & _). exists oe. auto. Qed.

(** a rectification that happens *)
Lemma calc_oe_mono fuel mu t r v oe : (1 <= fuel)%nat -> calc_oe 1 mu t r v = Ok oe -> calc_oe fuel mu t r v = Ok oe.
Proof.
  intros F H. unfold calc_oe in *.
  match type of H with bind (wrap 1 ?a) _ = _ => destruct (wrap 1 a) as [f| | |] eqn:E1 end; cbn [bind] in H; try discriminate. rewrite (wrap_mono _ _ _ fuel E1 F). cbn [bind].
  match type of H with bind (wrap 1 ?a) _ = _ => destruct (wrap 1 a) as [u| | |] eqn:E2 end; cbn [bind] in H; try discriminate. rewrite (wrap_mono _ _ _ fuel E2 F). cbn [bind]. exact H.
Qed.
Example ex_rectification : exists fuel x', let x := mkEncke 1 (1 / 2) 1 0 (ode_new 1) ex_r ex_v (mkOe 0 0 0 0 0 0) ex_r ex_v (vconst 0) ex_r ex_v in
  (1 <= fuel)%nat /\ en_tol x < norm 3 (dif_pos x) / norm 3 (en_pos x) /\ encke_propagate fuel true x 1 0 = Ok x'.
Proof.
  destruct ex_elliptic as (E & C). assert (N1 : norm 3 ex_r = 1) by (unfold norm; rewrite sumn3; cbn [ex_r v3]; replace (1 * 1 + 0 * 0 + 0 * 0) with 1 by ring; apply sqrt_1).
  destruct (C64_round_trip 1 1 0 ex_r ex_v (le_n _) E C) as (oe & u & EO & _).
  destruct (calc_orbit_total 1 oe 0) as (f0 & (p & v) & T).
  set (xx := mkEncke 1 (1 / 2) 1 0 (ode_new 1) ex_r ex_v (mkOe 0 0 0 0 0 0) ex_r ex_v (vconst 0) ex_r ex_v).
  assert (TR : en_tol xx < norm 3 (dif_pos xx) / norm 3 (en_pos xx)) by (cbn [xx en_tol dif_pos en_pos]; rewrite N1; lra).
  assert (G : exists y, encke_propagate (S f0) true xx 1 0 = Ok y).
  { unfold encke_propagate. cbn [negb]. rewrite rlt_true by exact TR. unfold encke_initialize, xx. cbn [en_mu en_tol en_step en_time en_ode en_pos en_vel en_acc ref_oe]. rewrite (calc_oe_mono (S f0) _ _ _ _ _ ltac:(lia) EO). cbn [bind en_mu en_tol en_step en_time en_ode en_pos en_vel en_acc ref_oe].
    rewrite (T (S f0)) by lia. cbn [bind].
    match goal with |- context [prop ?d ?f ?s ?te ?o ?t] => destruct (prop_total d s te f0 o t) as ((o1 & t1) & EP) end; [rewrite S_INR; pose proof (pos_INR f0); lra|]. rewrite EP. cbn [bind]. eexists. reflexivity. }
  destruct G as (y & G). exists (S f0), y. cbv zeta. split; [lia|]. split; [exact TR|exact G].
Qed.
