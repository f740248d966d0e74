(** Element sets well inside the theory initialise, and without drag propagate for ever. *)
From Coq Require Import Reals Lra Lia Psatz List Bool ZArith.
From Verif Require Import RBase VecModel VecProofs Trig SensorModel JulianModel OeProofs Sgp4Model Sgp4Spec Sgp4Proofs Sgp4Kepler Sgp4Geom Sgp4Init Sgp4Near Sgp4Total.
Import ListNotations.
Open Scope R_scope.

Lemma rbind_ok {A B} (m : res A) (k : A -> res B) : (exists a, m = Val a) -> (forall a, m = Val a -> exists b, k a = Val b) -> exists b, rbind m k = Val b.
Proof. intros (a & ->) H. cbn [rbind]. now apply H. Qed.
Lemma div_small x y b : Rabs x <= b -> 1 <= y -> Rabs (x / y) <= b.
Proof.
  intros X Y. pose proof (Rabs_pos x) as XP. assert (P : 0 < / y <= 1).
  { split; [apply Rinv_0_lt_compat; lra|]. rewrite <- Rinv_1. apply Rinv_le_contravar; lra. }
  unfold Rdiv. rewrite Rabs_mult, (Rabs_right (/ y)) by lra. nra.
Qed.
Section fair.
Variables (w : gravconst) (l : tle_elems).
Let c := theory_w w.
Let g := getgravconst w.
Hypothesis F : fair_orbit c l.
Definition a1 : R := Rpower (c_ke (theory_w w) / l_n0 l) (2 / 3).
Definition dk : R := 3 / 2 * c_k2 (theory_w w) * (3 * cos (l_i0 l) ^ 2 - 1).
Definition d1 : R := dk / (a1 ^ 2 * beta l ^ 3).
Definition a0 : R := a1 * (1 - d1 / 3 - d1 ^ 2 - 134 / 81 * d1 ^ 3).
Definition d0 : R := dk / (a0 ^ 2 * beta l ^ 3).
Lemma n_orig_d0 : n_orig c l = l_n0 l / (1 + d0). Proof. reflexivity. Qed.
Lemma dk_small : Rabs dk <= 0.00165.
Proof.
  unfold dk. cbn [theory_w theory_of c_k2]. pose proof (j2_bounds w) as J2. pose proof (COS_bound (l_i0 l)) as CB. set (th := cos (l_i0 l)) in *.
  assert (0 <= th ^ 2 <= 1) by nra. apply Rabs_le. nra.
Qed.
Lemma ecc_small : 0 < a1 <= 2 /\ 1 < a1 /\ l_e0 l <= 0.49 /\ 0 <= l_e0 l.
Proof.
  destruct F as (N & P & E & A). change (two_body_a c l) with a1 in A. assert (A0 : 0 < a1) by apply exp_pos.
  pose proof (xke_bounds w) as KB.
  assert (A2 : a1 <= 2).
  { unfold a1. apply pow23_two. cbn [theory_w theory_of c_ke]. pose proof PI2_1 as P2. pose proof PI_4 as P4. pose proof PI_RGT_0 as PP.
    assert (E1 : 2 * PI / l_n0 l * l_n0 l = 2 * PI) by (field; lra).
    split; [apply Rdiv_lt_0_compat; lra|].
    assert (E2 : xke (getgravconst w) / l_n0 l * l_n0 l = xke (getgravconst w)) by (field; lra).
    assert (3 < PI) by (pose proof PI2_3_2; lra). nra. }
  split; [lra|]. split; [nra|]. split; nra.
Qed.
Lemma beta_facts : 0 < beta l <= 1 /\ beta l ^ 2 = 1 - l_e0 l ^ 2.
Proof.
  destruct ecc_small as (_ & _ & E1 & E0). unfold beta. assert (P : 0 < 1 - l_e0 l ^ 2) by nra.
  split; [split; [apply sqrt_lt_R0; exact P|apply Rle_trans with (sqrt 1); [apply sqrt_le_1_alt; nra|rewrite sqrt_1; lra]]|]. set (y := 1 - l_e0 l ^ 2) in *. replace (sqrt y ^ 2) with (sqrt y * sqrt y) by ring. apply sqrt_sqrt. lra.
Qed.
(** a^2 (1 - e^2)^(3/2) is at least the square of the perigee *)
Lemma shape a : 0 < a -> (a * (1 - l_e0 l)) ^ 2 <= a ^ 2 * beta l ^ 3.
Proof.
  intros A. destruct ecc_small as (_ & _ & E1 & E0). destruct beta_facts as (B & BB).
  assert (B3 : beta l ^ 4 <= beta l ^ 3). { replace (beta l ^ 4) with (beta l ^ 3 * beta l) by ring. assert (0 < beta l ^ 3) by (apply pow_lt; lra). nra. }
  assert (B4 : beta l ^ 4 = (1 - l_e0 l ^ 2) * (1 - l_e0 l ^ 2)) by (rewrite <- BB; ring).
  replace ((a * (1 - l_e0 l)) ^ 2) with (a ^ 2 * ((1 - l_e0 l) * (1 - l_e0 l))) by ring. apply Rmult_le_compat_l; [apply pow_le; lra|].
  assert (X : 1 - l_e0 l <= 1 - l_e0 l ^ 2) by nra. nra.
Qed.
Lemma perigee_fair : 1.02 <= a1 * (1 - l_e0 l). Proof. apply F. Qed.
Lemma d1_small : Rabs d1 <= 0.00165.
Proof.
  destruct ecc_small as (A & _). unfold d1. apply div_small; [apply dk_small|]. eapply Rle_trans; [|apply shape; lra]. pose proof perigee_fair. nra.
Qed.
Lemma a0_near : 0.999 * a1 <= a0 <= 1.001 * a1.
Proof.
  destruct ecc_small as (A & _). pose proof d1_small as D. 
  assert (D' : - 0.00165 <= d1 <= 0.00165) by (revert D; unfold Rabs; destruct (Rcase_abs d1); lra). clear D. unfold a0.
  assert (X : 0 <= d1 ^ 2 <= 0.000003) by nra. assert (Y : - 0.000001 <= d1 ^ 3 <= 0.000001) by (replace (d1 ^ 3) with (d1 * d1 ^ 2) by ring; nra). nra.
Qed.
Lemma d0_small : - 0.00165 <= d0 <= 0.00165.
Proof.
  destruct ecc_small as (A & _ & E). pose proof a0_near as N. assert (D : Rabs d0 <= 0.00165).
  { unfold d0. apply div_small; [apply dk_small|]. eapply Rle_trans; [|apply shape; lra]. pose proof perigee_fair as P.
    assert (1.01 <= a0 * (1 - l_e0 l)) by nra. nra. }
  revert D; unfold Rabs; destruct (Rcase_abs d0); lra.
Qed.
Lemma n_fair : 0 < n_orig c l /\ 2 * PI / n_orig c l < 225.
Proof.
  destruct F as (N & P & _). pose proof d0_small as D. rewrite n_orig_d0. split; [apply Rdiv_lt_0_compat; lra|].
  replace (2 * PI / (l_n0 l / (1 + d0))) with (2 * PI / l_n0 l * (1 + d0)) by (field; lra).
  assert (0 < 2 * PI / l_n0 l) by (apply Rdiv_lt_0_compat; pose proof PI_RGT_0; lra). nra.
Qed.
Lemma a_orig_near : a1 * (1 - 0.00165) <= a_orig c l <= a1 * (1 + 0.00165).
Proof.
  destruct F as (N & _). pose proof d0_small as D. pose proof (xke_pos w) as KP. unfold a_orig. rewrite n_orig_d0.
  replace (c_ke c / (l_n0 l / (1 + d0))) with (c_ke c / l_n0 l * (1 + d0)) by (field; lra).
  assert (K : 0 < c_ke c / l_n0 l) by (apply Rdiv_lt_0_compat; [exact KP|lra]). rewrite <- Rpower_mult_distr by lra.
  change (Rpower (c_ke c / l_n0 l) (2 / 3)) with a1. assert (A0 : 0 < a1) by apply exp_pos.
  destruct (pow23_one (1 + d0) ltac:(lra)) as (H1 & H2). destruct (Rle_dec 1 (1 + d0)) as [L|L]; [specialize (H1 L)|specialize (H2 ltac:(lra))]; nra.
Qed.
Lemma a_fair : 1 < a_orig c l <= 2 /\ 1.01 <= a_orig c l * (1 - l_e0 l).
Proof.
  destruct ecc_small as (A & _ & E & E0). pose proof a_orig_near as N. pose proof perigee_fair as P. destruct n_fair as (N0 & PE).
  assert (Q : 1.01 <= a_orig c l * (1 - l_e0 l)) by nra. split; [|exact Q]. split; [nra|].
  unfold a_orig. apply pow23_two. pose proof (xke_bounds w) as KB. cbn [c theory_w theory_of c_ke].
  assert (E1 : 2 * PI / n_orig c l * n_orig c l = 2 * PI) by (field; lra).
  split; [apply Rdiv_lt_0_compat; [apply xke_pos|exact N0]|].
  assert (E2 : xke (getgravconst w) / n_orig c l * n_orig c l = xke (getgravconst w)) by (field; lra).
  assert (3 < PI) by (pose proof PI2_3_2; lra). nra.
Qed.

Lemma initl_ok : exists r, initl g (l_e0 l) (l_i0 l) (l_n0 l) = Val r.
Proof.
  destruct ecc_small as (A & _ & E1 & E0). destruct beta_facts as (B & BB). pose proof (xke_pos w) as KP. fold g in KP. destruct F as (N & _).
  destruct n_fair as (NP & _). pose proof a0_near as NA. pose proof d0_small as D0.
  unfold initl. apply rbind_ok; [rewrite fsqrt_ok by nra; eauto|]. intros b EB. apply fsqrt_val in EB. destruct EB as (_ & EB).
  assert (EB' : b = beta l) by (rewrite EB; unfold beta; f_equal; ring). clear EB. subst b.
  assert (O : 1 - l_e0 l * l_e0 l = beta l ^ 2) by (rewrite BB; ring). rewrite O.
  assert (BN : beta l * beta l ^ 2 <> 0) by (apply Rgt_not_eq; nra).
  apply rbind_ok; [rewrite fdiv_ok by lra; eauto|]. intros q Q. apply fdiv_val in Q. destruct Q as (_ & ->).
  assert (QP : 0 < xke g / l_n0 l) by (apply Rdiv_lt_0_compat; lra).
  apply rbind_ok; [rewrite fpow_ok by exact QP; eauto|]. intros ak Q. apply fpow_val in Q. destruct Q as (_ & ->). change (Rpower (xke g / l_n0 l) (2 / 3)) with a1.
  apply rbind_ok; [rewrite fdiv_ok by exact BN; eauto|]. intros x Q. apply fdiv_val in Q. destruct Q as (_ & EX).
  assert (EX' : x = dk / beta l ^ 3). { rewrite EX. unfold dk. cbn [theory_w theory_of c_k2]. fold g. dec. field. lra. } clear EX. subst x.
  apply rbind_ok; [rewrite fdiv_ok by nra; eauto|]. intros del Q. apply fdiv_val in Q. destruct Q as (_ & EX).
  assert (EX' : del = d1). { rewrite EX. unfold d1. field. split; lra. } clear EX. subst del.
  assert (E3 : a1 * (1 - d1 * d1 - d1 * (1 / 3 + 134 * d1 * d1 / 81)) = a0) by (unfold a0; field). rewrite E3.
  apply rbind_ok; [rewrite fdiv_ok by nra; eauto|]. intros del Q. apply fdiv_val in Q. destruct Q as (_ & EX).
  assert (EX' : del = d0). { rewrite EX. unfold d0. field. split; lra. } clear EX. subst del.
  apply rbind_ok; [rewrite fdiv_ok by lra; eauto|]. intros no' Q. apply fdiv_val in Q. destruct Q as (_ & EN). rewrite <- n_orig_d0 in EN. subst no'.
  apply rbind_ok; [rewrite fdiv_ok by lra; eauto|]. intros q Q. apply fdiv_val in Q. destruct Q as (_ & ->).
  apply rbind_ok; [rewrite fpow_ok by (apply Rdiv_lt_0_compat; lra); eauto|]. intros ao _. eauto.
Qed.
Lemma s_below : s_er c l < a_orig c l * (1 - l_e0 l).
Proof.
  destruct a_fair as (A & P). pose proof (re_bounds w) as RE. unfold s_er, s_km, perigee_km. cbn [c theory_w theory_of c_re]. fold c.
  set (re := radiusearthkm (getgravconst w)) in *. set (p := a_orig c l * (1 - l_e0 l)) in *.
  assert (X : forall k, k < (p - 1) * re -> k / re + 1 < p).
  { intros k K. assert (E : k / re * re = k) by (field; lra). nra. }
  apply X. destruct (Rlt_dec ((p - 1) * re) 98); [nra|]. destruct (Rlt_dec ((p - 1) * re) 156); lra.
Qed.
Lemma eta_fair : 0 < a_orig c l - s_er c l /\ 0 <= eta_ c l < 1 /\ 0 < xi c l /\ (0 < l_e0 l -> 0 < eta_ c l).
Proof.
  destruct a_fair as (A & P). pose proof s_below as SB. destruct ecc_small as (_ & _ & E1 & E0).
  assert (D : 0 < a_orig c l - s_er c l) by nra. assert (X : 0 < xi c l) by (unfold xi; apply Rinv_0_lt_compat; exact D).
  assert (XD : xi c l * (a_orig c l - s_er c l) = 1) by (unfold xi; field; lra). unfold eta_. split; [exact D|]. split; [|split; [exact X|]].
  - split; nra.
  - intros EP. apply Rmult_lt_0_compat; [apply Rmult_lt_0_compat; lra|exact X].
Qed.
Lemma xlcof_ok si ci : ci = cos (l_i0 l) -> exists x, calc_xlcof g si ci = Val x.
Proof.
  intros ->. unfold calc_xlcof. destruct (rlt_spec 1.5e-12 (Rabs (cos (l_i0 l) + 1))) as [L|L].
  - rewrite fdiv_ok; [eauto|]. intros Z. replace (cos (l_i0 l) + 1) with 0 in L by lra. rewrite Rabs_R0 in L. lra.
  - rewrite fdiv_ok; [eauto|]. unfold temp4. pose proof temp4_pos. lra.
Qed.
Lemma init_terms_ok i s : init_facts g l i -> num s ecco = l_e0 l -> exists r, init_terms g i s = Val r.
Proof.
  intros I FE. unfold init_terms. destruct eta_fair as (D & ET & X & EP). destruct a_fair as (A & _). destruct ecc_small as (_ & _ & E1 & E0).
  pose proof (re_bounds w) as RE. pose proof (if_b _ _ _ I) as BP.
  rewrite (if_rp _ _ _ I), (if_ao _ _ _ I), (if_posq _ _ _ I). change (theory_of g) with c.
  pose proof (drag_params_inv g l ltac:(unfold g; lra)) as DP. change (theory_of g) with c in DP. rewrite DP. clear DP. cbn [set_isimp num]. rewrite FE.
  set (a := a_orig c l) in *. assert (PQ : 0 < a * (beta l * beta l)) by (repeat apply Rmult_lt_0_compat; lra).
  apply rbind_ok; [rewrite fdiv_ok by nra; eauto|]. intros pinvsq _.
  apply rbind_ok; [rewrite fdiv_ok by lra; eauto|]. intros tsi TS. apply fdiv_val in TS. destruct TS as (_ & TS).
  assert (TX : tsi = xi c l) by (rewrite TS; unfold xi; fold a; field; lra). clear TS. subst tsi.
  change (a * l_e0 l * xi c l) with (eta_ c l). set (et := eta_ c l) in *.
  assert (PS : 0 < Rabs (1 - et * et)) by (rewrite Rabs_right; nra). set (ps := Rabs (1 - et * et)) in *.
  apply rbind_ok; [rewrite fpow_ok by exact PS; eauto|]. intros p35 P35. apply fpow_val in P35. destruct P35 as (_ & ->).
  assert (PW : 0 < Rpower ps 3.5) by apply exp_pos.
  apply rbind_ok; [rewrite fdiv_ok by lra; eauto|]. intros coef1 _.
  apply rbind_ok; [rewrite fdiv_ok by lra; eauto|]. intros tp _.
  apply rbind_ok; [destruct (rlt_spec 1e-4 (l_e0 l)) as [L|L]; [rewrite fdiv_ok by lra|]; eauto|]. intros cc3 _.
  apply rbind_ok; [rewrite fdiv_ok by nra; eauto|]. intros tq _.
  apply rbind_ok; [destruct (rlt_spec 1e-4 (l_e0 l)) as [L|L]; [rewrite fdiv_ok by (specialize (EP ltac:(lra)); nra)|]; eauto|]. intros xmc _.
  apply rbind_ok; [apply xlcof_ok; apply (if_cosio _ _ _ I)|]. intros xlc _. eauto.
Qed.
(** the mean elements without drag, or at epoch *)
Lemma mean_free t : l_B l = 0 \/ t = 0 -> let m := secular_at c l t in m_a m = a_orig c l /\ m_e m = l_e0 l.
Proof.
  intros [Z|Z]; unfold secular_at; cbn zeta.
  - assert (C1Z : C1 c l = 0) by (unfold C1; rewrite Z; ring). assert (D2Z : D2 c l = 0) by (unfold D2; rewrite C1Z; ring).
    assert (D3Z : D3 c l = 0) by (unfold D3; rewrite C1Z; ring). assert (D4Z : D4 c l = 0) by (unfold D4; rewrite C1Z; ring).
    rewrite C1Z, D2Z, D3Z, D4Z, Z. destruct (Rlt_dec (perigee_km c l) 220); cbn [m_a m_e]; split; ring.
  - rewrite Z. replace (l_M0 l + M_rate c l * 0) with (l_M0 l) by ring.
    destruct (Rlt_dec (perigee_km c l) 220); cbn [m_a m_e]; [split; ring|]. split; [ring|].
    match goal with |- context [sin (?y)] => assert (EY : y = l_M0 l) end; [destruct (Rlt_dec 0.0001 (l_e0 l)); ring|]. rewrite EY. ring.
Qed.

Lemma vU_unit u node i : vU u node i 0%nat * vU u node i 0%nat + vU u node i 1%nat * vU u node i 1%nat + vU u node i 2%nat * vU u node i 2%nat = 1.
Proof.
  unfold vU, vM, vN, v3. pose proof (sin2_cos2 u) as U. pose proof (sin2_cos2 node) as N. pose proof (sin2_cos2 i) as I. unfold Rsqr in *.
  set (su := sin u) in *. set (cu := cos u) in *. set (sn := sin node) in *. set (cn := cos node) in *. set (si := sin i) in *. set (ci := cos i) in *.
  replace ((- sn * ci * su + cn * cu) * (- sn * ci * su + cn * cu) + (cn * ci * su + sn * cu) * (cn * ci * su + sn * cu) + (si * su + 0 * cu) * (si * su + 0 * cu))
    with ((sn * sn + cn * cn) * (ci * ci * (su * su) + cu * cu) + si * si * (su * su)) by ring.
  rewrite N. replace (1 * (ci * ci * (su * su) + cu * cu) + si * si * (su * su)) with ((si * si + ci * ci) * (su * su) + cu * cu) by ring. rewrite I. lra.
Qed.
Lemma state_norm k2 th ke re u q :
  sqnorm (fst (str3_state k2 th ke re u q)) = (fst (fst (fst (fst (fst (short_period k2 th ke u q))))) * re) ^ 2.
Proof.
  unfold str3_state. destruct (short_period k2 th ke u q) as [[[[[rk uk] nk] ik] rd] rf]. cbn [fst]. unfold sqnorm.
  pose proof (vU_unit uk nk ik) as U. set (x := vU uk nk ik 0%nat) in *. set (y := vU uk nk ik 1%nat) in *. set (z := vU uk nk ik 2%nat) in *.
  replace (rk * x * re * (rk * x * re) + rk * y * re * (rk * y * re) + rk * z * re * (rk * z * re)) with ((rk * re) ^ 2 * (x * x + y * y + z * z)) by ring.
  rewrite U. ring.
Qed.
Lemma fair_report s t : deep s = false -> coef_facts g l s -> (lowp g l = false -> high_facts g l s) -> l_B l = 0 \/ t = 0 ->
  exists s' r v, sgp4 w s t = Val (s', Some (r, v)) /\ error s' = 0%Z /\
    exists rk, sqnorm r = (rk * radiusearthkm g) ^ 2 /\ 1 <= rk /\ a1 * (1 - l_e0 l) - 0.02 <= rk <= a1 * (1 + l_e0 l) + 0.02.
Proof.
  intros DS CF HF FREE. destruct (mean_free t FREE) as (MA & ME). set (m := secular_at c l t) in *.
  destruct a_fair as (A & P). destruct n_fair as (NP & _). destruct ecc_small as (A1B & _ & E1 & E0).
  assert (AP : 0 < m_a m) by lra.
  destruct (near_run w l s t DS CF HF NP AP) as (s1 & p & RUN & S1 & EP & IP & AG & _). fold c in RUN, EP, AG. fold m in RUN, EP, AG. fold g in RUN.
  assert (EU : e_used (m_e m) = l_e0 l). { unfold e_used. rewrite ME. destruct (Rlt_dec (l_e0 l) 0); lra. } rewrite EU in EP.
  assert (D1 : deep s1 = false) by (destruct S1 as (_ & _ & X & _); congruence).
  pose proof (cf_aycof _ _ _ (coef_same g l s s1 S1 DS CF)) as AY. pose proof (j2_bounds w) as J2. fold g in J2.
  pose proof (delta_bound w (l_i0 l)) as DB. fold c in DB. set (dl := c_A30 c * sin (l_i0 l) / (4 * c_k2 c)) in *.
  assert (NZ : 1 - l_e0 l ^ 2 <> 0) by nra.
  assert (AYC : num s1 aycof = dl). { rewrite AY. unfold dl. cbn [c theory_w theory_of c_A30 c_k2]. fold g. unfold j3oj2. field. lra. }
  destruct (periodic_total g s1 (m_a m) (xke g / Rpower (m_a m) 1.5) (sin (xincp p)) (cos (xincp p)) p D1 AP ltac:(rewrite EP; nra)) as (s' & out & PT).
  { cbn zeta. rewrite EP, AYC, MA. destruct (ecc_bound (a_orig c l) (l_e0 l) (argpp p) dl ltac:(lra) A ltac:(lra) DB) as (f & F0 & FF & _ & F1).
    replace (l_e0 l * l_e0 l) with (l_e0 l ^ 2) by ring. nra. }
  rewrite PT in RUN. pose proof (near_report w l s t s' out DS CF HF NP RUN) as REP. fold c in REP. unfold str3_report in REP. fold m in REP.
  destruct REP as (_ & j & _ & REP). rewrite EU in REP. set (x := estimate _ _ _ j) in REP. set (q := long_period c l (l_e0 l) m x) in *.
  assert (Q1 : e_a q = a_orig c l) by exact MA. assert (Q2 : e_ax q = l_e0 l * cos (m_w m)) by reflexivity.
  assert (Q3 : e_ay q = l_e0 l * sin (m_w m) + dl / (e_a q * (1 - l_e0 l ^ 2))).
  { unfold q, long_period, ayN. cbn [e_ay e_a]. f_equal. unfold dl. field. cbn [c theory_w theory_of c_k2]. fold g. repeat split; lra. }
  assert (RB : forall u, 0 < p_of q /\ let rk := fst (fst (fst (fst (fst (short_period (c_k2 c) (cos (l_i0 l)) (c_ke c) u q))))) in
                 1 <= rk /\ e_a q * (1 - l_e0 l) - 0.01 <= rk <= e_a q * (1 + l_e0 l) + 0.01).
  { intros u. apply (radius_bounds q (l_e0 l) (cos (l_i0 l)) (c_k2 c) (c_ke c) u (m_w m) dl); auto; try (rewrite Q1; assumption); try lra.
    - cbn [c theory_w theory_of c_k2]. fold g. lra.
    - apply COS_bound. }
  destruct out as [[r v]|]; [|exfalso; destruct REP as (PN & _); destruct (RB 0) as (PP & _); lra].
  destruct REP as (_ & u & _ & RR & _ & REP). cbn zeta in REP. destruct (RB u) as (_ & R1 & R2). rewrite Q1 in R2.
  pose proof (state_norm (c_k2 c) (cos (l_i0 l)) (c_ke c) (c_re c) u q) as SN.
  set (rk := fst (fst (fst (fst (fst (short_period (c_k2 c) (cos (l_i0 l)) (c_ke c) u q)))))) in *.
  exists s', r, v. split; [exact RUN|]. split.
  { apply REP; [exact R1|]. unfold bad_mean. rewrite MA, ME. lra. }
  exists rk. split; [unfold sqnorm; rewrite !RR; exact SN|]. split; [exact R1|]. pose proof a_orig_near as N. nra.
Qed.
Lemma init_ok deepinit epoch s0 : exists s, init_with deepinit w epoch l s0 = Val s /\ error s = 0%Z /\ deep s = false /\ coef_facts g l s /\ (lowp g l = false -> high_facts g l s).
Proof.
  destruct n_fair as (NP & NE). assert (X : exists s, init_with deepinit w epoch l s0 = Val s /\ error s = 0%Z).
  2: { destruct X as (s & H & E). destruct (init_inv deepinit w epoch l s0 s H NE) as (DS & CF & HF & _). exists s. auto. }
  destruct a_fair as (A & P). destruct ecc_small as (A1B & _ & E1 & E0).
  unfold init_with, sgp4init. fold g.
  match goal with |- context [initl g (num ?s ecco) _ _] => set (s1 := s) end.
  assert (F1 : num s1 ecco = l_e0 l /\ num s1 inclo = l_i0 l /\ num s1 no = l_n0 l /\ num s1 bstar = l_B l /\ num s1 argpo = l_w0 l /\ num s1 mo = l_M0 l /\ num s1 nodeo = l_node0 l).
  { unfold s1. repeat split; repeat first [rewrite set_same | rewrite set_other by discriminate]; reflexivity. }
  clearbody s1. destruct F1 as (F1 & F2 & F3 & F4 & F5 & F6 & F7). rewrite F1, F2, F3.
  destruct initl_ok as (i & I). rewrite I. cbn [rbind]. apply (initl_inv g l (xke_pos w)) in I.
  pose proof (if_rp _ _ _ I) as RP. change (theory_of g) with c in RP. rewrite (rlt_false (i_rp i) 1) by (rewrite RP; lra).
  match goal with |- context [set_error 0 ?s] => set (s2 := set_error 0 s) end.
  assert (F8 : num s2 ecco = l_e0 l /\ num s2 inclo = l_i0 l /\ num s2 no = n_orig (theory_of g) l /\ num s2 bstar = l_B l /\ num s2 argpo = l_w0 l /\
               num s2 mo = l_M0 l /\ num s2 nodeo = l_node0 l /\ num s2 con41 = 3 * cos (l_i0 l) ^ 2 - 1 /\ deep s2 = false /\ error s2 = 0%Z).
  { unfold s2. cbn [set_error num]. repeat split; repeat first [rewrite set_same | rewrite set_other by discriminate]; cbn [set_deep num];
      repeat first [rewrite set_same | rewrite set_other by discriminate]; try assumption; try reflexivity; [apply (if_no _ _ _ I)|apply (if_con41 _ _ _ I)]. }
  clearbody s2. destruct F8 as (G1 & G2 & G3 & G4 & G5 & G6 & G7 & G8 & G9 & G10).
  rewrite (rle_true 0 (i_omeosq i)) by (rewrite (if_omeosq _ _ _ I); nra). cbn [orb].
  pose proof (re_bounds w) as RE. pose proof (j2_bounds w) as J2.
  destruct (init_terms_ok i s2 I G1) as ([[s3 tsi] sf] & HT).
  assert (IC : exists s4, init_coefs deepinit w epoch i s2 = Val s4).
  { destruct (init_terms_inv g l i s2 s3 tsi sf ltac:(unfold g; lra) ltac:(unfold g; lra) I G4 G1 G2 G6 G5 G7 G3 G8 HT) as (CF & _).
    unfold init_coefs. fold g. rewrite HT. cbn [rbind]. pose proof (cf_no _ _ _ CF) as NO. change (theory_of g) with c in NO. rewrite NO.
    rewrite fdiv_ok by lra. cbn [rbind]. rewrite rle_false by exact NE. cbn [rbind]. destruct (negb _); eauto. }
  destruct IC as (s4 & H4). rewrite H4. cbn [rbind].
  destruct (init_coefs_inv g l deepinit w epoch i s2 s4 eq_refl ltac:(unfold g; lra) ltac:(unfold g; lra) I G4 G1 G2 G6 G5 G7 G3 G8 NE H4) as (CF & HF & E4 & D4 & _).
  rewrite G9 in D4. rewrite E4, G10. cbn [Z.eqb].
  destruct (fair_report s4 0 D4 CF HF (or_intror eq_refl)) as (s' & r & v & RUN & ER & _). rewrite RUN. cbn [rbind]. eauto.
Qed.
End fair.
