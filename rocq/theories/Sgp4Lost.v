(** A fair element set whose propagation backwards in time ends without a position. *)
From Coq Require Import Reals Lra Lia Psatz List Bool ZArith.
From Verif Require Import RBase VecModel VecProofs Trig SensorModel JulianModel JulianProofs OeProofs Sgp4Model Sgp4Spec Sgp4Proofs Sgp4Loop Sgp4Kepler Sgp4Geom Sgp4Init
  Sgp4Near Sgp4Total Sgp4Fair Sgp4Runs.
Import ListNotations.
Open Scope R_scope.

Lemma rpower_23 x : 0 < x -> Rpower (Rpower x (3 / 2)) (2 / 3) = x.
Proof. intros X. rewrite Rpower_mult. replace (3 / 2 * (2 / 3)) with 1 by lra. now apply Rpower_1. Qed.
Lemma rpower_32 x : 1 <= x <= 1.05 -> 1 <= Rpower x (3 / 2) <= 1.1025.
Proof.
  intros X. replace (3 / 2) with (1 + / 2) by lra. rewrite Rpower_plus, Rpower_1, Rpower_sqrt by lra.
  assert (1 <= sqrt x <= 1.05). { split; [rewrite <- sqrt_1; apply sqrt_le_1_alt; lra|]. rewrite <- (sqrt_square 1.05) by lra. apply sqrt_le_1_alt. nra. } nra.
Qed.
Section lost.
Variable w : gravconst.
Let c := theory_w w.
Let g := getgravconst w.
Definition lost_elems (M0 : R) : tle_elems := mkTleE 1 0 0 0 M0 (c_ke (theory_w w) / Rpower 1.03 (3 / 2)) 0.
Lemma lost_fair M0 : fair_orbit c (lost_elems M0).
Proof.
  pose proof (xke_bounds w) as K. pose proof (rpower_32 1.03 ltac:(lra)) as Q. unfold fair_orbit, two_body_a. cbn [lost_elems l_n0 l_e0].
  change (c_ke c) with (xke g). change (c_ke (theory_w w)) with (xke g). fold g in K. set (q := Rpower 1.03 (3 / 2)) in *.
  assert (P : 0 < xke g / q) by (apply Rdiv_lt_0_compat; lra). split; [exact P|].
  replace (xke g / (xke g / q)) with q by (field; lra). unfold q at 2. rewrite rpower_23 by lra.
  split; [|lra]. replace (2 * PI / (xke g / q)) with (2 * PI * q / xke g) by (field; lra). pose proof PI_4. pose proof PI_RGT_0.
  apply Rmult_le_reg_r with (xke g); [lra|]. replace (2 * PI * q / xke g * xke g) with (2 * PI * q) by (field; lra). nra.
Qed.
Lemma lost_a M0 : 1.028 <= a_orig c (lost_elems M0) <= 1.032.
Proof.
  pose proof (a_orig_near w _ (lost_fair M0)) as N. fold c in N. assert (E : a1 w (lost_elems M0) = 1.03).
  { unfold a1. cbn [lost_elems l_n0]. pose proof (xke_pos w) as K. pose proof (rpower_32 1.03 ltac:(lra)) as Q. change (c_ke (theory_w w)) with (xke g). fold g in K. set (q := Rpower 1.03 (3 / 2)) in *.
    replace (xke g / (xke g / q)) with q by (field; lra). unfold q. apply rpower_23. lra. }
  rewrite E in N. lra.
Qed.
Lemma lost_run M0 : let l := lost_elems M0 in
  0 < C4 c l /\ 0 < C1 c l /\ perigee_km c l < 220.
Proof.
  cbn zeta. set (l := lost_elems M0). pose proof (lost_a M0) as A. fold l in A. destruct (eta_fair w l (lost_fair M0)) as (_ & _ & X & _). fold c in X.
  destruct (n_fair w l (lost_fair M0)) as (N & _). fold c in N.
  assert (E0 : l_e0 l = 0) by reflexivity. assert (ET : eta_ c l = 0) by (unfold eta_; rewrite E0; ring).
  assert (B : beta l = 1) by (unfold beta; rewrite E0; replace (1 - 0 ^ 2) with 1 by ring; apply sqrt_1).
  assert (TH : cos (l_i0 l) = 1) by (cbn [l lost_elems l_i0]; apply cos_0).
  pose proof (re_bounds w) as RE. pose proof (j2_bounds w) as J2.
  assert (K2 : 0 < c_k2 c) by (unfold c, theory_w, theory_of; cbn [c_k2]; lra).
  assert (SK : s_km c l <= 78). { unfold s_km. destruct (Rlt_dec (perigee_km c l) 98); [lra|]. destruct (Rlt_dec (perigee_km c l) 156); lra. }
  assert (Q : 0 < q0s c l). { unfold q0s. cbn [c theory_w theory_of c_re]. apply Rdiv_lt_0_compat; [fold c; lra|lra]. }
  assert (R1 : Rabs (1 - eta_ c l ^ 2) = 1) by (rewrite ET; replace (1 - 0 ^ 2) with 1 by ring; apply Rabs_R1).
  assert (D : 0 < dens c l). { unfold dens. rewrite R1. apply Rdiv_lt_0_compat; [|apply exp_pos]. apply Rmult_lt_0_compat; apply pow_lt; assumption. }
  split; [|split].
  - unfold C4. rewrite E0, R1, ET, B, TH. set (a := a_orig c l) in *.
    replace (2 * n_orig c l * dens c l * a * 1 ^ 2 * (2 * 0 * (1 + 0 * 0) + 1 / 2 * 0 + 1 / 2 * 0 ^ 3 - 2 * c_k2 c * xi c l / (a * 1) *
      (3 * (1 - 3 * 1 ^ 2) * (1 + 3 / 2 * 0 ^ 2 - 2 * 0 * 0 - 1 / 2 * 0 * 0 ^ 3) + 3 / 4 * (1 - 1 ^ 2) * (2 * 0 ^ 2 - 0 * 0 - 0 * 0 ^ 3) * cos (2 * l_w0 l))))
      with (24 * (n_orig c l * dens c l * (c_k2 c * xi c l))) by (field; lra).
    apply Rmult_lt_0_compat; [lra|]. apply Rmult_lt_0_compat; apply Rmult_lt_0_compat; assumption.
  - unfold C1, C2. rewrite R1, ET, TH, E0. change (l_B l) with 1. rewrite Rmult_1_l. apply Rmult_lt_0_compat; [apply Rmult_lt_0_compat; assumption|].
    assert (0 < c_k2 c * xi c l) by (apply Rmult_lt_0_compat; assumption). lra.
  - unfold perigee_km. rewrite E0. cbn [c theory_w theory_of c_re]. fold c. nra.
Qed.
Definition lost_time : R := - (2) / C4 (theory_w w) (lost_elems 0).
Definition lost_set : tle_elems :=
  lost_elems (- (M_rate (theory_w w) (lost_elems 0) * lost_time + n_orig (theory_w w) (lost_elems 0) * (3 / 2 * C1 (theory_w w) (lost_elems 0) * lost_time ^ 2))).
Lemma lost_mean : let m := secular_at c lost_set lost_time in 0 < m_a m /\ m_e m = 2 /\ m_M m = 0.
Proof.
  cbn zeta. destruct (lost_run 0) as (P4 & P1 & _). pose proof (lost_a 0) as A.
  assert (E4 : C4 c lost_set = C4 c (lost_elems 0)) by reflexivity. assert (E1 : C1 c lost_set = C1 c (lost_elems 0)) by reflexivity.
  assert (EA : a_orig c lost_set = a_orig c (lost_elems 0)) by reflexivity. assert (EM : M_rate c lost_set = M_rate c (lost_elems 0)) by reflexivity.
  assert (EN : n_orig c lost_set = n_orig c (lost_elems 0)) by reflexivity.
  unfold secular_at. destruct (Rlt_dec (perigee_km c lost_set) 220) as [L|L].
  2: { exfalso. apply L. apply lost_run. }
  cbn [m_a m_e m_M]. rewrite E4, E1, EA, EM, EN. change (l_B lost_set) with 1. change (l_e0 lost_set) with 0.
  assert (T : lost_time < 0). { unfold lost_time. fold c. assert (0 < 2 / C4 c (lost_elems 0)) by (apply Rdiv_lt_0_compat; lra). unfold Rdiv in *. lra. }
  split; [|split].
  - apply Rmult_lt_0_compat; [lra|]. apply pow_lt. nra.
  - unfold lost_time. fold c. field. lra.
  - cbn [lost_set lost_elems l_M0]. fold c. ring.
Qed.
Lemma lost_report s : deep s = false -> coef_facts g lost_set s -> (lowp g lost_set = false -> high_facts g lost_set s) ->
  exists s', sgp4 w s lost_time = Val (s', None) /\ error s' = 6%Z.
Proof.
  intros DS CF HF. destruct lost_mean as (MA & ME & MM). destruct (n_fair w _ (lost_fair (l_M0 lost_set))) as (NP & _).
  change (lost_elems (l_M0 lost_set)) with lost_set in NP.
  destruct (near_run w lost_set s lost_time DS CF HF NP MA) as (s1 & p & RUN & S1 & EP & IP & AG & (k & MP)). fold c in RUN, EP, AG, MP. rewrite MM in MP. rewrite ME in EP.
  assert (EP' : ep p = 2) by (rewrite EP; unfold e_used; destruct (Rlt_dec 2 0); lra). clear EP AG.
  pose proof (coef_same g lost_set s s1 S1 DS CF) as CF1. assert (D1 : deep s1 = false) by (destruct S1 as (_ & _ & X & _); congruence).
  set (am := m_a (secular_at c lost_set lost_time)) in *. clearbody am. fold g in RUN.
  assert (AY : num s1 aycof = 0). { rewrite (cf_aycof _ _ _ CF1). change (l_i0 lost_set) with 0. rewrite sin_0. ring. }
  assert (XL : num s1 xlcof = 0). { rewrite (cf_xlcof _ _ _ CF1). change (l_i0 lost_set) with 0. rewrite sin_0. unfold Rdiv. ring. }
  rewrite RUN. clear RUN. unfold sgp4_periodic. rewrite D1. cbn [rbind]. rewrite EP', AY, XL. rewrite fdiv_ok by nra. cbn [rbind].
  set (q := 1 / (am * (1 - 2 * 2))).
  replace (2 * sin (argpp p) + q * 0) with (2 * sin (argpp p)) by ring.
  replace (mp p + argpp p + nodep p + q * 0 * (2 * cos (argpp p)) - nodep p) with (argpp p + IZR k * (2 * PI)) by (rewrite MP; ring).
  destruct (fmod_turns (argpp p + IZR k * (2 * PI))) as (k1 & E1). set (u := fmod2pi (argpp p + IZR k * (2 * PI))) in *.
  assert (SU : sin u = sin (argpp p)) by (rewrite E1, !sin_turns; reflexivity). assert (CU : cos u = cos (argpp p)) by (rewrite E1, !cos_turns; reflexivity).
  set (wp := argpp p) in *.
  assert (KE : kepler u (2 * cos wp) (2 * sin wp) = Val (sin wp, cos wp)).
  { unfold kepler. cbn [kepler_loop]. rewrite rle_true by (rewrite Rabs_right; lra). rewrite SU, CU.
    pose proof (sin2_cos2 wp) as SC. unfold Rsqr in SC.
    replace (1 - cos wp * (2 * cos wp) - sin wp * (2 * sin wp)) with (- (1)) by lra.
    replace (u - 2 * sin wp * cos wp + 2 * cos wp * sin wp - u) with 0 by ring.
    rewrite fdiv_ok by lra. cbn [rbind]. replace (0 / - (1)) with 0 by field.
    rewrite (rle_false 0.95 (Rabs 0)) by (rewrite Rabs_R0; lra). rewrite (rle_false 1e-12 (Rabs 0)) by (rewrite Rabs_R0; lra). reflexivity. }
  rewrite KE. cbn [rbind]. pose proof (sin2_cos2 wp) as SC. unfold Rsqr in SC.
  replace (2 * cos wp * (2 * cos wp) + 2 * sin wp * (2 * sin wp)) with 4 by lra.
  rewrite rlt_true by nra. rewrite rlt_true by lra. eexists. split; reflexivity.
Qed.
End lost.
