(** Which near-Earth element sets initialise and propagate without an error. *)
From Coq Require Import Reals Lra Lia Psatz List Bool ZArith.
From Verif Require Import RBase VecModel VecProofs Trig SensorModel JulianModel OeProofs Sgp4Model Sgp4Spec Sgp4Proofs Sgp4Kepler Sgp4Geom Sgp4Init Sgp4Near.
Import ListNotations.
Open Scope R_scope.

Lemma near_run w l s t : deep s = false -> coef_facts (getgravconst w) l s -> (lowp (getgravconst w) l = false -> high_facts (getgravconst w) l s) ->
  0 < n_orig (theory_w w) l -> let m := secular_at (theory_w w) l t in 0 < m_a m ->
  exists s1 p, sgp4 w s t = sgp4_periodic (getgravconst w) s1 (m_a m) (xke (getgravconst w) / Rpower (m_a m) 1.5) (sin (xincp p)) (cos (xincp p)) p /\
    same s s1 /\ ep p = e_used (m_e m) /\ xincp p = l_i0 l /\ argpp p = fmod2pi (m_w m) /\ (exists k : Z, mp p = m_M m + IZR k * (2 * PI)).
Proof.
  intros DS CF HF NP m AP. set (g := getgravconst w) in *. set (c := theory_w w) in *. unfold sgp4. fold g. set (s0 := set_error 0 (set tt t s)).
  assert (S0 : same s s0). { eapply same_trans; [apply (same_set tt t); reflexivity|apply same_error]. }
  assert (D0 : deep s0 = false) by exact DS.
  assert (CF0 : coef_facts g l s0) by (now apply (coef_same g l s)).
  assert (HF0 : lowp g l = false -> high_facts g l s0) by (intros L; apply (high_same g l s); auto).
  assert (T0 : num s0 tt = t) by reflexivity. clearbody s0. rewrite T0.
  destruct (drag_spec w l s0 t CF0 HF0) as (dM & ta & tl & DT & EA & EM). rewrite DT. fold c in EA, EM |- *. fold m in EA, EM |- *. rewrite D0. cbn [rbind].
  cbn [nm em argpm inclm mm nodem].
  pose proof (cf_no _ _ _ CF0) as NO. change (theory_of g) with c in NO. pose proof (cf_ecco _ _ _ CF0) as EC. pose proof (cf_inclo _ _ _ CF0) as IC.
  rewrite NO, EC, IC. rewrite (rle_false (n_orig c l) 0) by exact NP.
  pose proof (xke_pos w) as KP. fold g in KP.
  rewrite fdiv_ok by lra. cbn [rbind]. rewrite fpow_ok by (apply Rdiv_lt_0_compat; lra). cbn [rbind].
  change (Rpower (xke g / n_orig c l) (2 / 3)) with (a_orig c l). rewrite EA.
  rewrite fpow_ok by exact AP. cbn [rbind]. rewrite fdiv_ok by (apply Rgt_not_eq, exp_pos). cbn [rbind].
  replace (l_e0 l - (l_e0 l - m_e m)) with (m_e m) by ring.
  set (b := rle 1 (m_e m) || rlt (m_e m) (- 0.001) || rlt (m_a m) 0.95).
  set (s1 := if b then set_error 1 s0 else s0).
  assert (S1 : same s s1). { eapply same_trans; [exact S0|]. apply same_if_error. }
  assert (N1 : num s1 no = n_orig c l) by (destruct S1 as (_ & _ & _ & X); rewrite <- X by (rewrite DS; reflexivity); apply (cf_no _ _ _ CF)).
  assert (D1 : deep s1 = false) by (destruct S1 as (_ & _ & X & _); congruence).
  clearbody s1. rewrite N1, D1. cbn [rbind]. rewrite EM.
  exists s1. match goal with |- exists q, sgp4_periodic _ _ _ _ _ _ ?p = _ /\ _ => exists p end. split; [reflexivity|]. split; [exact S1|]. cbn [ep xincp nodep argpp mp].
  split. { unfold e_used, rlt. destruct (Rlt_dec (m_e m) 0); [lra|reflexivity]. }
  split; [reflexivity|]. split; [reflexivity|apply turns_diff].
Qed.
Lemma periodic_total g s am nm_ si ci p : deep s = false -> 0 < am -> 1 - ep p * ep p <> 0 ->
  (let ax := ep p * cos (argpp p) in let ay := ep p * sin (argpp p) + num s aycof / (am * (1 - ep p * ep p)) in ax * ax + ay * ay < 1) ->
  exists s' out, sgp4_periodic g s am nm_ si ci p = Val (s', out).
Proof.
  intros DS AP EN EL. cbn zeta in EL. unfold sgp4_periodic. rewrite DS. cbn [rbind].
  assert (DN : am * (1 - ep p * ep p) <> 0) by (apply Rmult_integral_contrapositive; split; lra).
  rewrite fdiv_ok by exact DN. cbn [rbind].
  replace (1 / (am * (1 - ep p * ep p)) * num s aycof) with (num s aycof / (am * (1 - ep p * ep p))) by (field; lra).
  set (ax := ep p * cos (argpp p)) in *. set (ay := ep p * sin (argpp p) + num s aycof / (am * (1 - ep p * ep p))) in *.
  match goal with |- context [kepler ?u ax ay] => set (u1 := u) end.
  destruct (kepler_finite u1 ax ay EL) as (sE & cE & K). rewrite K. cbn [rbind].
  destruct (kepler_turns _ _ _ _ _ K) as (j & _ & -> & -> & _). set (x := estimate u1 ax ay j).
  pose proof (den_pos ax ay x EL) as DP. unfold den in DP.
  assert (PL : 0 < am * (1 - (ax * ax + ay * ay))) by (apply Rmult_lt_0_compat; lra).
  rewrite rlt_false by lra.
  assert (RL : 0 < am * (1 - (ax * cos x + ay * sin x))) by (apply Rmult_lt_0_compat; lra).
  rewrite !(fdiv_ok _ (am * (1 - (ax * cos x + ay * sin x)))) by lra. cbn [rbind].
  rewrite fsqrt_ok by lra. cbn [rbind]. pose proof (sqrt_pos (1 - (ax * ax + ay * ay))) as SP.
  rewrite fdiv_ok by lra. cbn [rbind]. rewrite fdiv_ok by lra. cbn [rbind]. do 2 eexists. reflexivity.
Qed.

(** ** Bounds: delta = A30 sin i / (4 k2) is below 0.0012 *)
Lemma delta_bound w i : Rabs (c_A30 (theory_w w) * sin i / (4 * c_k2 (theory_w w))) <= 0.0012.
Proof.
  cbn [theory_w theory_of c_A30 c_k2]. pose proof (j2_bounds w) as J2. pose proof (j3_bounds w) as J3. pose proof (SIN_bound i) as SB.
  set (a := j2 (getgravconst w)) in *. set (b := j3 (getgravconst w)) in *.
  assert (E : - b * sin i / (4 * (a / 2)) * (2 * a) = - b * sin i) by (field; lra). set (q := - b * sin i / (4 * (a / 2))) in *.
  assert (-0.00000254 <= - b * sin i <= 0.00000254) by nra. apply Rabs_le. nra.
Qed.
Lemma ecc_bound a e w d : 0 <= e < 1 -> 1 < a <= 2 -> 1.005 <= a * (1 - e) -> Rabs d <= 0.0012 ->
  let ax := e * cos w in let ay := e * sin w + d / (a * (1 - e ^ 2)) in
  exists f, 0 <= f /\ ax * ax + ay * ay <= f * f /\ a * f <= a * e + 0.0025 /\ f < 1.
Proof.
  intros He Ha Hp Hd ax ay. assert (H1 : 0.5 <= 1 - e) by nra. assert (H2 : 0.5 <= 1 - e ^ 2) by nra.
  set (k := / (a * (1 - e ^ 2))). assert (K : k * (a * (1 - e ^ 2)) = 1) by (unfold k; field; nra).
  assert (KP : 0 < k) by (unfold k; apply Rinv_0_lt_compat; nra).
  assert (AK : a * k <= 2) by nra.
  exists (e + Rabs d * k). pose proof (Rabs_pos d) as DP. split; [nra|]. split.
  - unfold ax, ay. fold k. unfold Rdiv. fold k. pose proof (sin2_cos2 w) as SC. unfold Rsqr in SC.
    assert (D2 : d * d = Rabs d * Rabs d) by (rewrite <- Rabs_mult, Rabs_right; nra).
    assert (DS : e * (sin w * d) <= e * Rabs d).
    { apply Rmult_le_compat_l; [lra|]. pose proof (SIN_bound w). apply Rle_trans with (Rabs (sin w * d)); [apply Rle_abs|]. rewrite Rabs_mult.
      assert (Rabs (sin w) <= 1) by (apply Rabs_le; lra). nra. }
    replace (e * cos w * (e * cos w) + (e * sin w + d * k) * (e * sin w + d * k)) with (e * e * (sin w * sin w + cos w * cos w) + 2 * (e * (sin w * d)) * k + d * d * (k * k)) by ring.
    rewrite SC, D2. nra.
  - assert (A : a * (Rabs d * k) <= 0.0024) by nra. split; nra.
Qed.
(** the radius with the short period terms *)
Lemma radius_bounds q e th k2 ke u w d : 0 < k2 < 0.000546 -> -1 <= th <= 1 -> 0 <= e < 1 -> 1 < e_a q <= 2 -> 1.01 <= e_a q * (1 - e) ->
  Rabs d <= 0.0012 -> e_ax q = e * cos w -> e_ay q = e * sin w + d / (e_a q * (1 - e ^ 2)) ->
  0 < p_of q /\
  let rk := fst (fst (fst (fst (fst (short_period k2 th ke u q))))) in
  1 <= rk /\ e_a q * (1 - e) - 0.01 <= rk <= e_a q * (1 + e) + 0.01.
Proof.
  intros K2 TH He Ha Hp Hd AX AY. destruct (ecc_bound (e_a q) e w d He Ha ltac:(lra) Hd) as (f & F0 & FF & AF & F1).
  rewrite <- AX, <- AY in FF. set (a := e_a q) in *. set (x := e_x q).
  assert (EC : - f <= e_ax q * cos x + e_ay q * sin x <= f).
  { pose proof (den_bounds (e_ax q) (e_ay q) x f F0 FF) as DB. unfold den in DB. lra. }
  assert (R1 : a * (1 - e) - 0.0025 <= r_of q <= a * (1 + e) + 0.0025) by (unfold r_of; fold a x; nra).
  assert (P1 : 1.0074 <= p_of q). { unfold p_of. fold a. apply Rle_trans with (a * (1 - f * f)); [|nra]. replace (a * (1 - f * f)) with ((a - a * f) * (1 + f)) by ring. nra. }
  split; [lra|]. cbn [short_period fst]. set (p := p_of q) in *. set (r := r_of q) in *. set (e2 := e_ax q * e_ax q + e_ay q * e_ay q) in *.
  assert (E2 : 0 <= e2) by (unfold e2; nra).
  assert (SB : 0 <= sqrt (1 - e2) <= 1). { split; [apply sqrt_pos|]. rewrite <- sqrt_1 at 2. apply sqrt_le_1_alt. lra. }
  set (b := sqrt (1 - e2)) in *. set (ip := / p). assert (IP : ip * p = 1) by (unfold ip; field; lra). assert (IP0 : 0 < ip <= 1) by (split; [unfold ip; apply Rinv_0_lt_compat; lra|nra]).
  assert (E3 : 3 / 2 * k2 * b / (p * p) * (3 * th ^ 2 - 1) = 3 / 2 * k2 * (b * (ip * ip)) * (3 * th ^ 2 - 1)) by (unfold ip; field; lra).
  assert (E4 : k2 / (2 * p) * (1 - th ^ 2) * cos (2 * u) = k2 / 2 * (ip * ((1 - th ^ 2) * cos (2 * u)))) by (unfold ip; field; lra).
  rewrite E3, E4. assert (B1 : 0 <= b * (ip * ip) <= 1) by nra. assert (T2 : 0 <= th ^ 2 <= 1) by nra.
  assert (X1 : - 1 <= b * (ip * ip) * (3 * th ^ 2 - 1) <= 2) by nra.
  assert (X2 : - 0.00165 <= 3 / 2 * k2 * (b * (ip * ip)) * (3 * th ^ 2 - 1) <= 0.00165) by nra.
  pose proof (COS_bound (2 * u)) as CB. assert (Y0 : -1 <= (1 - th ^ 2) * cos (2 * u) <= 1) by nra.
  assert (Y1 : -1 <= ip * ((1 - th ^ 2) * cos (2 * u)) <= 1) by nra.
  assert (Y2 : - 0.0003 <= k2 / 2 * (ip * ((1 - th ^ 2) * cos (2 * u))) <= 0.0003) by nra.
  set (X := 3 / 2 * k2 * (b * (ip * ip)) * (3 * th ^ 2 - 1)) in *. set (Y := k2 / 2 * (ip * ((1 - th ^ 2) * cos (2 * u)))) in *.
  assert (A2 : a * (1 + e) <= 4 /\ a * (1 - e) <= 2) by nra. split; nra.
Qed.

(** ** The constants *)
Lemma quot_bounds q : 649636 <= q <= 656100 -> 0.074 < 60 / sqrt q < 0.0745.
Proof.
  intros H. assert (Q : 806 <= sqrt q <= 810).
  { split; [rewrite <- (sqrt_square 806) by lra|rewrite <- (sqrt_square 810) by lra]; apply sqrt_le_1_alt; lra. }
  assert (E : 60 / sqrt q * sqrt q = 60) by (field; lra). split; nra.
Qed.
Lemma div_bounds a b lo hi : 0 < b -> lo * b <= a <= hi * b -> lo <= a / b <= hi.
Proof. intros B H. assert (E : a / b * b = a) by (field; lra). split; nra. Qed.
Lemma xke_bounds w : 0.074 < xke (getgravconst w) < 0.0745.
Proof. destruct w; cbn [getgravconst xke]; [lra|apply quot_bounds, div_bounds; lra|apply quot_bounds, div_bounds; lra]. Qed.
Lemma pow23_one x : 0 < x -> (1 <= x -> 1 <= Rpower x (2 / 3) <= x) /\ (x <= 1 -> x <= Rpower x (2 / 3) <= 1).
Proof.
  intros X. split; intros H.
  - split; [rewrite <- (Rpower_O x) at 1 by lra|rewrite <- (Rpower_1 x) at 2 by lra]; apply Rle_Rpower; lra.
  - assert (L : ln x <= 0) by (rewrite <- ln_1; destruct (Rle_lt_or_eq_dec _ _ H) as [A| ->]; [left; apply ln_increasing; lra|lra]).
    unfold Rpower. split.
    + rewrite <- (exp_ln x X) at 1. destruct (Req_dec (ln x) (2 / 3 * ln x)) as [E|E]; [rewrite <- E; lra|left; apply exp_increasing; lra].
    + rewrite <- exp_0. destruct (Req_dec (2 / 3 * ln x) 0) as [E|E]; [rewrite E; lra|left; apply exp_increasing; lra].
Qed.
Lemma pow23_two x : 0 < x <= 2.8 -> Rpower x (2 / 3) <= 2.
Proof.
  intros X. assert (E : Rpower 2 1.5 = 2 * sqrt 2).
  { replace 1.5 with (1 + / 2) by lra. rewrite Rpower_plus, Rpower_1, Rpower_sqrt by lra. reflexivity. }
  assert (S2 : 1.4 <= sqrt 2) by (rewrite <- (sqrt_square 1.4) by lra; apply sqrt_le_1_alt; lra).
  apply Rle_trans with (Rpower (Rpower 2 1.5) (2 / 3)); [apply Rle_Rpower_l; lra|].
  rewrite Rpower_mult. replace (1.5 * (2 / 3)) with 1 by lra. rewrite Rpower_1 by lra. lra.
Qed.
Lemma temp4_pos : 0 < 1 + cos (PI - 1e-9).
Proof.
  pose proof PI2_1 as P.
  replace (cos (PI - 1e-9)) with (- cos 1e-9) by (rewrite cos_minus, cos_PI, sin_PI; ring).
  assert (C : cos 1e-9 < cos 0) by (apply cos_decreasing_1; lra). rewrite cos_0 in C. lra.
Qed.
