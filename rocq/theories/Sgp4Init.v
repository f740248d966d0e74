(** The coefficients that sgp4init computes for a near-Earth satellite are those of the report. *)
From Coq Require Import Reals Lra Lia List Bool ZArith.
From Verif Require Import RBase VecModel VecProofs Trig SensorModel JulianModel Sgp4Model Sgp4Spec Sgp4Proofs Sgp4Geom.
Import ListNotations.
Open Scope R_scope.

Definition theory_of (g : grav) : theory := mkTheory (xke g) (j2 g / 2) (- (3 / 8) * j4 g) (- j3 g) (radiusearthkm g).
Lemma sqrt_quot_pos a b : 0 < a -> 0 < b -> 0 < 60 / sqrt (a / b).
Proof. intros A B. assert (0 < a / b) by (apply Rdiv_lt_0_compat; assumption). pose proof (sqrt_lt_R0 _ H). apply Rdiv_lt_0_compat; lra. Qed.
Lemma xke_pos w : 0 < xke (getgravconst w).
Proof. destruct w; cbn [getgravconst xke]; [lra|apply sqrt_quot_pos; lra|apply sqrt_quot_pos; lra]. Qed.
Lemma j2_bounds w : 0.00108 < j2 (getgravconst w) < 0.00109.
Proof. destruct w; cbn [getgravconst j2]; lra. Qed.
Lemma j3_bounds w : - 0.00000254 < j3 (getgravconst w) < - 0.00000253.
Proof. destruct w; cbn [getgravconst j3]; lra. Qed.
Lemma j4_bounds w : - 0.0000017 < j4 (getgravconst w) < - 0.0000016.
Proof. destruct w; cbn [getgravconst j4]; lra. Qed.
Lemma re_bounds w : 6378 < radiusearthkm (getgravconst w) < 6379.
Proof. destruct w; cbn [getgravconst radiusearthkm]; lra. Qed.

Ltac dec := rewrite ?(ltac:(lra) : 1.5 = 3 / 2), ?(ltac:(lra) : 0.5 = 1 / 2), ?(ltac:(lra) : 0.25 = 1 / 4), ?(ltac:(lra) : 0.75 = 3 / 4),
  ?(ltac:(lra) : 0.375 = 3 / 8), ?(ltac:(lra) : 0.0625 = 1 / 16), ?(ltac:(lra) : -0.46875 = - (15 / 32)), ?(ltac:(lra) : -0.5 = - (1 / 2)), ?(ltac:(lra) : -0.25 = - (1 / 4)), ?(ltac:(lra) : 3.5 = 7 / 2),
  ?(ltac:(lra) : 2.75 = 11 / 4), ?(ltac:(lra) : 0.2 = 1 / 5), ?(ltac:(lra) : 1e-4 = 1 / 10000), ?(ltac:(lra) : 0.0001 = 1 / 10000).

Section init.
Variables (g : grav) (l : tle_elems).
Let c := theory_of g.
Hypothesis KE : 0 < xke g.
Record init_facts (r : initlr) : Prop := mkIF {
  if_no : i_no r = n_orig c l; if_ao : i_ao r = a_orig c l; if_n : 0 < n_orig c l; if_a : 0 < a_orig c l; if_b : 0 < beta l; if_bb : beta l * beta l = 1 - l_e0 l * l_e0 l;
  if_con41 : i_con41 r = 3 * cos (l_i0 l) ^ 2 - 1; if_con42 : i_con42 r = 1 - 5 * cos (l_i0 l) ^ 2;
  if_cosio : i_cosio r = cos (l_i0 l); if_cosio2 : i_cosio2 r = cos (l_i0 l) ^ 2; if_omeosq : i_omeosq r = beta l * beta l;
  if_posq : i_posq r = (a_orig c l * (beta l * beta l)) * (a_orig c l * (beta l * beta l)); if_rp : i_rp r = a_orig c l * (1 - l_e0 l);
  if_rteosq : i_rteosq r = beta l; if_sinio : i_sinio r = sin (l_i0 l) }.
Lemma initl_inv r : initl g (l_e0 l) (l_i0 l) (l_n0 l) = Val r -> init_facts r.
Proof.
  unfold initl. intros H.
  apply rbind_val in H. destruct H as (b & B & H). apply fsqrt_val in B. destruct B as (B0 & EB).
  apply rbind_val in H. destruct H as (q & Q & H). apply fdiv_val in Q. destruct Q as (N0 & ->).
  apply rbind_val in H. destruct H as (ak & A & H). apply fpow_val in A. destruct A as (Q0 & ->).
  apply rbind_val in H. destruct H as (d1 & D & H). apply fdiv_val in D. destruct D as (DN & ->).
  apply rbind_val in H. destruct H as (del & D & H). apply fdiv_val in D. destruct D as (_ & ->).
  apply rbind_val in H. destruct H as (del & D & H). apply fdiv_val in D. destruct D as (AN & ->).
  apply rbind_val in H. destruct H as (no' & D & H). apply fdiv_val in D. destruct D as (D1 & EN).
  apply rbind_val in H. destruct H as (q & Q & H). apply fdiv_val in Q. destruct Q as (N1 & ->).
  apply rbind_val in H. destruct H as (ao & A & H). apply fpow_val in A. destruct A as (Q1 & EA).
  apply Val_inj in H. subst r.
  assert (BE : b = beta l). { rewrite EB. unfold beta. f_equal. ring. }
  assert (BB : beta l * beta l = 1 - l_e0 l * l_e0 l). { rewrite <- BE, EB. apply sqrt_sqrt. exact B0. }
  assert (BP : 0 < beta l).
  { assert (0 <= beta l) by apply sqrt_pos. destruct (Req_dec (beta l) 0) as [Z|Z]; [|lra]. exfalso. apply DN. rewrite BE, Z. ring. }
  assert (EN' : no' = n_orig c l).
  { rewrite EN. unfold n_orig. cbn [c theory_of c_ke c_k2]. f_equal. f_equal. dec.
    set (a1 := Rpower (xke g / l_n0 l) (2 / 3)) in *. assert (A1 : 0 < a1) by apply exp_pos.
    assert (E1 : 3 / 4 * j2 g * (3 * (cos (l_i0 l) * cos (l_i0 l)) - 1) / (b * (1 - l_e0 l * l_e0 l)) =
                 3 / 2 * (j2 g / 2) * (3 * cos (l_i0 l) ^ 2 - 1) / beta l ^ 3).
    { rewrite <- BB, BE. field. lra. }
    assert (X75 : 0.75 = 3 / 4) by lra. rewrite X75, E1 in AN. rewrite E1. set (k := 3 / 2 * (j2 g / 2) * (3 * cos (l_i0 l) ^ 2 - 1)) in *.
    assert (E2 : k / beta l ^ 3 / (a1 * a1) = k / (a1 ^ 2 * beta l ^ 3)) by (field; lra). rewrite E2 in AN |- *. set (d1 := k / (a1 ^ 2 * beta l ^ 3)) in *.
    assert (E3 : a1 * (1 - d1 * d1 - d1 * (1 / 3 + 134 * d1 * d1 / 81)) = a1 * (1 - d1 / 3 - d1 ^ 2 - 134 / 81 * d1 ^ 3)) by field.
    rewrite E3 in AN |- *. set (a0 := a1 * _) in *. assert (a0 <> 0) by (intros Z; apply AN; rewrite Z; ring). field. lra. }
  assert (NP : 0 < n_orig c l).
  { rewrite <- EN'. destruct (Rlt_dec 0 no') as [|N]; [assumption|]. exfalso. assert (no' < 0) by lra.
    assert (xke g / no' < 0). { unfold Rdiv. pose proof (Rinv_lt_0_compat no' H). nra. } lra. }
  assert (EA' : ao = a_orig c l). { rewrite EA, EN'. reflexivity. }
  assert (AP : 0 < a_orig c l) by apply exp_pos.
  split; cbn [i_no i_ao i_con41 i_con42 i_cosio i_cosio2 i_omeosq i_posq i_rp i_rteosq i_sinio]; rewrite ?EN', ?EA', ?BE, ?BB; auto; ring.
Qed.

(** what holds of the record after sgp4init *)
Definition lowp : bool := rlt (perigee_km c l) 220.
Definition xm : R := if Rlt_dec 0.0001 (l_e0 l) then - (2 / 3) * (q0s c l ^ 4 * l_B l * xi c l ^ 4 / (l_e0 l * eta_ c l)) else 0.
Record coef_facts (s : satrec) : Prop := mkCF {
  cf_bstar : num s bstar = l_B l; cf_ecco : num s ecco = l_e0 l; cf_inclo : num s inclo = l_i0 l; cf_mo : num s mo = l_M0 l;
  cf_argpo : num s argpo = l_w0 l; cf_nodeo : num s nodeo = l_node0 l; cf_no : num s no = n_orig c l;
  cf_isimp : isimp s = (if lowp then 1 else 0)%Z;
  cf_cc1 : num s cc1 = C1 c l; cf_cc4 : num s cc4 = C4 c l; cf_cc5 : num s cc5 = C5 c l;
  cf_mdot : num s mdot = M_rate c l; cf_argpdot : num s argpdot = w_rate c l; cf_nodedot : num s nodedot = node_rate c l;
  cf_omgcof : num s omgcof = l_B l * C3 c l * cos (l_w0 l); cf_xmcof : num s xmcof = xm; cf_eta : num s eta = eta_ c l;
  cf_delmo : num s delmo = (1 + eta_ c l * cos (l_M0 l)) ^ 3; cf_sinmao : num s sinmao = sin (l_M0 l);
  cf_nodecf : num s nodecf = - (21 / 2) * (n_orig c l * c_k2 c * cos (l_i0 l) / (a_orig c l ^ 2 * beta l ^ 2)) * C1 c l;
  cf_t2cof : num s t2cof = 3 / 2 * C1 c l;
  cf_con41 : num s con41 = 3 * cos (l_i0 l) ^ 2 - 1; cf_x1mth2 : num s x1mth2 = 1 - cos (l_i0 l) ^ 2; cf_x7thm1 : num s x7thm1 = 7 * cos (l_i0 l) ^ 2 - 1;
  cf_aycof : num s aycof = - (1 / 2) * j3oj2 g * sin (l_i0 l);
  cf_xlcof : num s xlcof = - (1 / 4) * j3oj2 g * sin (l_i0 l) * (3 + 5 * cos (l_i0 l)) / th1 l;
  cf_th1 : th1 l <> 0 }.
Record high_facts (s : satrec) : Prop := mkHF {
  hf_d2 : num s d2 = D2 c l; hf_d3 : num s d3 = D3 c l; hf_d4 : num s d4 = D4 c l;
  hf_t3cof : num s t3cof = D2 c l + 2 * C1 c l ^ 2;
  hf_t4cof : num s t4cof = 1 / 4 * (3 * D3 c l + 12 * C1 c l * D2 c l + 10 * C1 c l ^ 3);
  hf_t5cof : num s t5cof = 1 / 5 * (3 * D4 c l + 12 * C1 c l * D3 c l + 6 * D2 c l ^ 2 + 30 * C1 c l ^ 2 * D2 c l + 15 * C1 c l ^ 4) }.

Lemma xlcof_inv si ci x : calc_xlcof g si ci = Val x -> ci = cos (l_i0 l) ->
  th1 l <> 0 /\ x = - (1 / 4) * j3oj2 g * si * (3 + 5 * ci) / th1 l.
Proof.
  unfold calc_xlcof, th1. intros H ->. unfold rlt in H. destruct (Rlt_dec 1.5e-12 (Rabs (cos (l_i0 l) + 1))) as [L|L].
  - apply fdiv_val in H. destruct H as (N & ->). split; [exact N|]. f_equal. lra.
  - apply fdiv_val in H. destruct H as (N & ->). split; [exact N|]. unfold temp4. f_equal. lra.
Qed.
Lemma drag_params_inv : 0 < radiusearthkm g -> drag_params g (a_orig c l * (1 - l_e0 l)) = (s_er c l, q0s c l ^ 4).
Proof.
  intros RE. unfold drag_params, s_er, q0s, s_km, perigee_km. cbn [c theory_of c_re]. fold c. unfold rlt.
  set (p := (a_orig c l * (1 - l_e0 l) - 1) * radiusearthkm g).
  destruct (Rlt_dec p 156) as [A|A], (Rlt_dec p 98) as [B|B]; try lra; reflexivity.
Qed.
Ltac fsimp H := repeat first [rewrite set_same in H | rewrite set_other in H by discriminate].
Ltac gsimp := repeat first [rewrite set_same | rewrite set_other by discriminate].
Lemma init_terms_inv i s s' tsx sfx : 0 < radiusearthkm g -> 0 < j2 g -> init_facts i ->
  num s bstar = l_B l -> num s ecco = l_e0 l -> num s inclo = l_i0 l -> num s mo = l_M0 l -> num s argpo = l_w0 l -> num s nodeo = l_node0 l ->
  num s no = n_orig c l -> num s con41 = 3 * cos (l_i0 l) ^ 2 - 1 ->
  init_terms g i s = Val (s', tsx, sfx) -> coef_facts s' /\ error s' = error s /\ deep s' = deep s /\ tsx = xi c l /\ sfx = s_er c l /\ num s' jdsatepoch = num s jdsatepoch.
Proof.
  intros RE J2 I FB FE FI FM FW FN FO FC H. unfold init_terms in H.
  rewrite (if_rp i I), (if_ao i I), (if_cosio2 i I), (if_posq i I), (if_con42 i I), (if_cosio i I), (if_omeosq i I), (if_sinio i I), (if_rteosq i I) in H.
  pose proof (if_n i I) as NP. pose proof (if_a i I) as AP. pose proof (if_b i I) as BP. pose proof (if_bb i I) as BB. clear I i.
  rewrite (drag_params_inv RE) in H.
  set (s1 := set_isimp _ s) in H.
  assert (IS : isimp s1 = (if lowp then 1 else 0)%Z).
  { unfold s1, lowp, perigee_km. cbn [set_isimp isimp c theory_of c_re]. fold c.
    destruct (rlt_spec (a_orig c l * (1 - l_e0 l)) (220 / radiusearthkm g + 1)) as [L|L], (rlt_spec ((a_orig c l * (1 - l_e0 l) - 1) * radiusearthkm g) 220) as [M|M];
      try reflexivity; exfalso.
    - apply M. assert (E : (220 / radiusearthkm g) * radiusearthkm g = 220) by (field; lra). nra.
    - apply L. assert (E : (220 / radiusearthkm g) * radiusearthkm g = 220) by (field; lra). nra. }
  assert (D1 : num s1 = num s) by reflexivity. assert (JD1 : num s1 jdsatepoch = num s jdsatepoch) by reflexivity. assert (ER1 : error s1 = error s) by reflexivity. assert (DP1 : deep s1 = deep s) by reflexivity.
  rewrite D1 in H. rewrite FB, FE, FM, FW, FO, FC in H. rewrite <- ER1, <- DP1, <- JD1. rewrite <- D1 in FB, FE, FI, FM, FW, FN, FO, FC. clearbody s1. clear D1 ER1 DP1 JD1 s.
  apply rbind_val in H. destruct H as (pinvsq & PI & H). apply fdiv_val in PI. destruct PI as (PN & ->).
  apply rbind_val in H. destruct H as (tsi & TS & H). apply fdiv_val in TS. destruct TS as (TN & ETS).
  assert (TX : tsi = xi c l) by (rewrite ETS; unfold xi; field; exact TN). clear ETS. subst tsi.
  assert (XN : xi c l <> 0) by (unfold xi; apply Rinv_neq_0_compat; exact TN).
  change (a_orig c l * l_e0 l * xi c l) with (eta_ c l) in H.
  set (et := eta_ c l) in *. set (e := l_e0 l) in *. set (a := a_orig c l) in *. set (b := beta l) in *. set (th := cos (l_i0 l)) in *. set (n := n_orig c l) in *.
  assert (AB : Rabs (1 - et * et) = Rabs (1 - et ^ 2)) by (f_equal; ring). rewrite AB in H.
  apply rbind_val in H. destruct H as (p35 & P & H). apply fpow_val in P. destruct P as (PP & ->).
  set (ps := Rabs (1 - et ^ 2)) in *.
  apply rbind_val in H. destruct H as (coef1 & P & H). apply fdiv_val in P. destruct P as (_ & EC).
  assert (DE : coef1 = dens c l). { rewrite EC. unfold dens. fold et ps. f_equal. f_equal. lra. } rewrite DE in H. clear EC DE coef1. set (ds := dens c l) in *.
  apply rbind_val in H. destruct H as (tp & P & H). apply fdiv_val in P. destruct P as (_ & ->).
  apply rbind_val in H. destruct H as (cc3 & P3 & H).
  assert (E3 : cc3 = C3 c l).
  { unfold rlt in P3. unfold C3. fold e. destruct (Rlt_dec 1e-4 e) as [L|L], (Rlt_dec 0.0001 e) as [M|M]; try lra.
    - apply fdiv_val in P3. destruct P3 as (EN & ->). cbn [c theory_of c_A30 c_k2]. fold c n. unfold j3oj2. field. split; lra.
    - injection P3 as <-. reflexivity. }
  subst cc3.
  apply rbind_val in H. destruct H as (tq & P & H). apply fdiv_val in P. destruct P as (_ & ->).
  apply rbind_val in H. destruct H as (xmc & PM & H).
  assert (EX : xmc = xm).
  { unfold rlt in PM. unfold xm. fold e. destruct (Rlt_dec 1e-4 e) as [L|L], (Rlt_dec 0.0001 e) as [M|M]; try lra.
    - apply fdiv_val in PM. destruct PM as (EN & ->). fold et. field. split; [|lra]. intros Z. apply EN. rewrite Z. ring.
    - injection PM as <-. reflexivity. }
  subst xmc.
  apply rbind_val in H. destruct H as (xlc & PX & H). destruct (xlcof_inv _ _ _ PX eq_refl) as (T1 & ->).
  assert (EC1 : l_B l * (ds * n * (a * (1 + 1.5 * (et * et) + e * et * (4 + et * et)) + 0.375 * j2 g * xi c l / ps * (3 * th ^ 2 - 1) * (8 + 3 * (et * et) * (8 + et * et)))) = C1 c l).
  { unfold C1, C2. fold et e th n a ps ds. cbn [c theory_of c_k2]. fold c. dec. field. lra. }
  rewrite EC1 in H.
  apply Val_inj, pair_equal_spec in H. destruct H as (H & <-). apply pair_equal_spec in H. destruct H as (<- & <-).
  split; [|split; [reflexivity|split; [reflexivity|split; [reflexivity|split; [reflexivity|gsimp; reflexivity]]]]].
  split; cbn [set isimp]; gsimp; auto; unfold M_rate, w_rate, node_rate, C4, C5, c; cbn [theory_of c_k2 c_k4]; fold c; fold et e th n a b ps ds; dec.
  all: try reflexivity; try (field; repeat split; lra).
Qed.
Lemma init_coefs_inv deepinit w epoch i s s' : getgravconst w = g -> 0 < radiusearthkm g -> 0 < j2 g -> init_facts i ->
  num s bstar = l_B l -> num s ecco = l_e0 l -> num s inclo = l_i0 l -> num s mo = l_M0 l -> num s argpo = l_w0 l -> num s nodeo = l_node0 l ->
  num s no = n_orig c l -> num s con41 = 3 * cos (l_i0 l) ^ 2 - 1 -> twopi / n_orig c l < 225 ->
  init_coefs deepinit w epoch i s = Val s' -> coef_facts s' /\ (lowp = false -> high_facts s') /\ error s' = error s /\ deep s' = deep s /\ num s' jdsatepoch = num s jdsatepoch.
Proof.
  intros GW RE J2 I FB FE FI FM FW FN FO FC NE H. unfold init_coefs in H. rewrite GW in H.
  apply rbind_val in H. destruct H as ([[s2 tsx] sfx] & HT & H).
  destruct (init_terms_inv i s s2 tsx sfx RE J2 I FB FE FI FM FW FN FO FC HT) as (CF & ES & DS & -> & -> & JD). clear HT. rewrite (if_ao i I) in H.
  apply rbind_val in H. destruct H as (per & PE & H). apply fdiv_val in PE. destruct PE as (_ & ->).
  rewrite (cf_no s2 CF), rle_false in H by lra. cbn [rbind] in H. pose proof (cf_cc1 s2 CF) as C1S. rewrite <- ES, <- DS, <- JD.
  rewrite (cf_isimp s2 CF) in H. destruct lowp eqn:LP.
  - cbn [Z.eqb Pos.eqb negb] in H. apply Val_inj in H. subst s'. split; [exact CF|]. split; [discriminate|split; [reflexivity|split; reflexivity]].
  - cbn [Z.eqb negb] in H. apply Val_inj in H. rewrite C1S in H. subst s'. split; [|split; [intros _|split; [reflexivity|split; [reflexivity|gsimp; reflexivity]]]].
    + destruct CF. split; cbn [set isimp]; gsimp; assumption.
    + split; gsimp; unfold D2, D3, D4; dec; try reflexivity; try field.
Qed.
End init.
