(** Element sets of deep space satellites for the examples beside C162-C165: inclination arctan (sqrt 2), where the mean motion of the set is the
    original one, and a perigee inside the Earth. *)
From Coq Require Import Reals Lra Lia Psatz List Bool ZArith.
From Verif Require Import RBase VecModel VecProofs Trig SensorModel JulianModel OeProofs Sgp4Model Sgp4Spec Sgp4Proofs Sgp4Geom Sgp4Init Sgp4Near Sgp4Loop Sgp4Total Sgp4Fair
  Sgp4DeepModel Sgp4DeepSpec Sgp4Third Sgp4DeepProofs Sgp4DeepInit.
Open Scope R_scope.

Definition i_case : R := atan (sqrt 2).
Lemma i_case_facts : cos i_case ^ 2 = 1 / 3 /\ sin i_case <> 0 /\ 0.5 < i_case < PI / 2.
Proof.
  unfold i_case. pose proof (sqrt_sqrt 2 ltac:(lra)) as Q. pose proof (sqrt_lt_R0 2 ltac:(lra)) as P. pose proof (atan_bound (sqrt 2)) as B.
  pose proof (cos_gt_0 (atan (sqrt 2)) ltac:(lra) ltac:(lra)) as C. pose proof (tan_atan (sqrt 2)) as T. unfold tan in T.
  pose proof (sin2_cos2 (atan (sqrt 2))) as SC. unfold Rsqr in SC.
  assert (SE : sin (atan (sqrt 2)) = sqrt 2 * cos (atan (sqrt 2))) by (rewrite <- T at 2; field; lra).
  set (x := atan (sqrt 2)) in *. rewrite SE in SC. assert (C2 : cos x ^ 2 = 1 / 3) by nra. split; [exact C2|]. split; [rewrite SE; nra|].
  split; [|lra]. assert (PI4 : PI / 4 < x).
  { rewrite <- atan_1. apply atan_increasing. nra. }
  pose proof PI2_3_2. lra.
Qed.
Definition low_case (w : gravconst) (a e : R) : tle_elems := mkTleE 0.0001 e 1 i_case 2 (xke (getgravconst w) * Rpower a (- (3 / 2))) 3.
Section case.
Variables (w : gravconst) (a e : R).
Let l := low_case w a e.
Let g := getgravconst w.
Let c := theory_w w.
Hypothesis A3 : 3 <= a.
Hypothesis E : 0 < e < 1.
Hypothesis PE : a * (1 - e) < 1.
Lemma case_n0 : 0 < l_n0 l /\ xke g / l_n0 l = Rpower a (3 / 2).
Proof.
  pose proof (xke_pos w) as K. cbn [l low_case l_n0]. assert (P : 0 < Rpower a (- (3 / 2))) by apply exp_pos. split; [fold g in K |- *; nra|].
  fold g in K |- *. rewrite Rpower_Ropp in *. field. split; [|lra]. apply Rgt_not_eq, exp_pos.
Qed.
Lemma case_dk : dk w l = 0.
Proof. unfold dk. cbn [l low_case l_i0]. destruct i_case_facts as (-> & _). field. Qed.
Lemma case_a1 : a1 w l = a.
Proof. unfold a1. destruct case_n0 as (_ & Q). change (c_ke (theory_w w)) with (xke g). rewrite Q, Rpower_mult. replace (3 / 2 * (2 / 3)) with 1 by field. apply Rpower_1. lra. Qed.
Lemma case_d1 : d1 w l = 0. Proof. unfold d1. rewrite case_dk. unfold Rdiv. ring. Qed.
Lemma case_d0 : d0 w l = 0. Proof. unfold d0. rewrite case_dk. unfold Rdiv. ring. Qed.
Lemma case_n : n_orig c l = l_n0 l. Proof. unfold c. rewrite n_orig_d0, case_d0. field. Qed.
Lemma case_a : a_orig c l = a. Proof. unfold a_orig. rewrite case_n. exact case_a1. Qed.
Lemma case_beta : 0 < beta l <= 1 /\ beta l ^ 2 = 1 - l_e0 l ^ 2.
Proof.
  unfold beta. cbn [l low_case l_e0]. assert (P : 0 < 1 - e ^ 2) by nra. pose proof (sqrt_lt_R0 _ P) as Q. pose proof (sqrt_sqrt _ (Rlt_le _ _ P)) as S2.
  split; [split; [exact Q|]|nra]. destruct (Rle_dec (sqrt (1 - e ^ 2)) 1); nra.
Qed.
Lemma case_initl : exists r, initl g (l_e0 l) (l_i0 l) (l_n0 l) = Val r.
Proof.
  destruct case_n0 as (N & QN). destruct case_beta as (B & BB). pose proof (xke_pos w) as KP. fold g in KP.
  assert (E0 : 0 < l_e0 l < 1) by exact E. unfold initl. apply rbind_ok; [rewrite fsqrt_ok by nra; eauto|]. intros b EB. apply fsqrt_val in EB. destruct EB as (_ & EB).
  assert (EB' : b = beta l) by (rewrite EB; unfold beta; f_equal; ring). clear EB. subst b.
  assert (OM : 1 - l_e0 l * l_e0 l = beta l ^ 2) by (rewrite BB; ring). rewrite OM.
  assert (BN : beta l * beta l ^ 2 <> 0) by (apply Rgt_not_eq, Rmult_lt_0_compat; [lra|apply pow_lt; lra]).
  apply rbind_ok; [rewrite fdiv_ok by lra; eauto|]. intros q Q. apply fdiv_val in Q. destruct Q as (_ & ->).
  assert (QP : 0 < xke g / l_n0 l) by (apply Rdiv_lt_0_compat; lra).
  apply rbind_ok; [rewrite fpow_ok by exact QP; eauto|]. intros ak Q. apply fpow_val in Q. destruct Q as (_ & ->). change (Rpower (xke g / l_n0 l) (2 / 3)) with (a1 w l). rewrite case_a1.
  apply rbind_ok; [rewrite fdiv_ok by exact BN; eauto|]. intros x Q. apply fdiv_val in Q. destruct Q as (_ & EX).
  assert (EX' : x = 0). { rewrite EX. cbn [l low_case l_i0]. destruct i_case_facts as (C3 & _). replace (cos i_case * cos i_case) with (cos i_case ^ 2) by ring. rewrite C3. replace (3 * (1 / 3) - 1) with 0 by lra. unfold Rdiv. ring. } clear EX. subst x.
  apply rbind_ok; [rewrite fdiv_ok by nra; eauto|]. intros del Q. apply fdiv_val in Q. destruct Q as (_ & EX).
  assert (EX' : del = 0) by (rewrite EX; unfold Rdiv; ring). clear EX. subst del. replace (a * (1 - 0 * 0 - 0 * (1 / 3 + 134 * 0 * 0 / 81))) with a by field.
  apply rbind_ok; [rewrite fdiv_ok by nra; eauto|]. intros del Q. apply fdiv_val in Q. destruct Q as (_ & EX).
  assert (EX' : del = 0) by (rewrite EX; unfold Rdiv; ring). clear EX. subst del.
  apply rbind_ok; [rewrite fdiv_ok by lra; eauto|]. intros no' Q. apply fdiv_val in Q. destruct Q as (_ & EN). replace (l_n0 l / (1 + 0)) with (l_n0 l) in EN by field. subst no'.
  apply rbind_ok; [rewrite fdiv_ok by lra; eauto|]. intros q Q. apply fdiv_val in Q. destruct Q as (_ & ->).
  apply rbind_ok; [rewrite fpow_ok by exact QP; eauto|]. intros ao _. eauto.
Qed.
Lemma case_ser : s_er c l = 20 / c_re c + 1 /\ 1 < s_er c l < 1.01.
Proof.
  pose proof (re_bounds w) as RE. unfold s_er, s_km, perigee_km. rewrite case_a. cbn [l low_case l_e0]. change (c_re c) with (radiusearthkm g) in *. fold g in RE.
  destruct (Rlt_dec _ 98) as [_|X]; [|exfalso; apply X; nra]. split; [reflexivity|]. assert (Q : 20 / radiusearthkm g * radiusearthkm g = 20) by (field; lra). nra.
Qed.
Lemma case_eta : 0 < xi c l /\ 1 < eta_ c l.
Proof.
  destruct case_ser as (_ & SB). unfold eta_, xi. rewrite case_a. cbn [l low_case l_e0]. fold l. set (d := a - s_er c l). assert (D : 0 < d) by (unfold d; lra).
  split; [now apply Rinv_0_lt_compat|]. assert (Q : d * / d = 1) by (field; lra). assert (IP : 0 < / d) by now apply Rinv_0_lt_compat. assert (AD : d < a * e) by (unfold d; lra). nra.
Qed.
Lemma case_terms i s : init_facts g l i -> num s ecco = l_e0 l -> exists r, init_terms g i s = Val r.
Proof.
  intros I FE. unfold init_terms. destruct case_eta as (X & ET). destruct case_ser as (_ & SB).
  pose proof (re_bounds w) as RE. destruct case_beta as (BP & _). assert (E0 : 0 < l_e0 l < 1) by exact E.
  rewrite (if_rp _ _ _ I), (if_ao _ _ _ I), (if_posq _ _ _ I). change (theory_of g) with c.
  pose proof (drag_params_inv g l ltac:(unfold g; lra)) as DP. change (theory_of g) with c in DP. rewrite DP. clear DP. cbn [set_isimp num]. rewrite FE.
  pose proof case_a as EA. assert (XE : xi c l = / (a - s_er c l)) by (unfold xi; rewrite EA; reflexivity). assert (EE : eta_ c l = a * l_e0 l * xi c l) by (unfold eta_; rewrite EA; reflexivity). rewrite EA.
  assert (PQ : 0 < a * (beta l * beta l)) by (repeat apply Rmult_lt_0_compat; lra).
  apply rbind_ok; [rewrite fdiv_ok by nra; eauto|]. intros pinvsq _.
  apply rbind_ok; [rewrite fdiv_ok by lra; eauto|]. intros tsi TS. apply fdiv_val in TS. destruct TS as (_ & TS).
  assert (TX : tsi = xi c l) by (rewrite TS, XE; field; lra). clear TS. subst tsi.
  rewrite <- EE. set (et := eta_ c l) in *.
  assert (PS : 0 < Rabs (1 - et * et)) by (rewrite Rabs_left; nra). set (ps := Rabs (1 - et * et)) in *.
  apply rbind_ok; [rewrite fpow_ok by exact PS; eauto|]. intros p35 P35. apply fpow_val in P35. destruct P35 as (_ & ->).
  assert (PW : 0 < Rpower ps 3.5) by apply exp_pos.
  apply rbind_ok; [rewrite fdiv_ok by lra; eauto|]. intros coef1 _.
  apply rbind_ok; [rewrite fdiv_ok by lra; eauto|]. intros tp _.
  apply rbind_ok; [destruct (rlt_spec 1e-4 (l_e0 l)) as [L|L]; [rewrite fdiv_ok by lra|]; eauto|]. intros cc3 _.
  apply rbind_ok; [rewrite fdiv_ok by nra; eauto|]. intros tq _.
  apply rbind_ok; [destruct (rlt_spec 1e-4 (l_e0 l)) as [L|L]; [rewrite fdiv_ok by nra|]; eauto|]. intros xmc _.
  apply rbind_ok; [apply (xlcof_ok w l); apply (if_cosio _ _ _ I)|]. intros xlc _. eauto.
Qed.
Lemma case_period : 225 <= 2 * PI / n_orig c l.
Proof.
  rewrite case_n. destruct case_n0 as (N & Q). pose proof (xke_bounds w) as KB. fold g in KB. pose proof PI2_3_2 as P3.
  assert (R5 : 5 <= Rpower a (3 / 2)).
  { replace (3 / 2) with (1 + / 2) by field. rewrite Rpower_plus, Rpower_1, Rpower_sqrt by lra. assert (1.7 <= sqrt a) by (rewrite <- (sqrt_square 1.7) by lra; apply sqrt_le_1_alt; lra). nra. }
  rewrite <- Q in R5. assert (X : l_n0 l * (xke g / l_n0 l) = xke g) by (field; lra). assert (L : l_n0 l <= 0.0149) by nra.
  apply (Rmult_le_reg_r (l_n0 l)); [exact N|]. replace (2 * PI / l_n0 l * l_n0 l) with (2 * PI) by (field; lra). nra.
Qed.
Lemma case_init epoch s0 : exists s, init_with deepinit w epoch l s0 = Val s.
Proof.
  unfold init_with, sgp4init. fold g.
  match goal with |- context [initl g (num ?s ecco) _ _] => set (s1 := s) end.
  assert (F1 : num s1 ecco = l_e0 l /\ num s1 inclo = l_i0 l /\ num s1 no = l_n0 l /\ num s1 bstar = l_B l /\ num s1 argpo = l_w0 l /\ num s1 mo = l_M0 l /\ num s1 nodeo = l_node0 l).
  { unfold s1. repeat split; repeat first [rewrite set_same | rewrite set_other by discriminate]; reflexivity. }
  clearbody s1. destruct F1 as (F1 & F2 & F3 & F4 & F5 & F6 & F7). rewrite F1, F2, F3.
  destruct case_initl as (i & I). rewrite I. cbn [rbind]. apply (initl_inv g l (xke_pos w)) in I.
  assert (E0 : 0 < l_e0 l < 1) by exact E.
  pose proof (if_rp _ _ _ I) as RP. change (theory_of g) with c in RP. rewrite case_a in RP. rewrite (rlt_true (i_rp i) 1) by (rewrite RP; exact PE).
  match goal with |- context [set_error 5 ?s] => set (s2 := set_error 5 s) end.
  assert (F8 : num s2 ecco = l_e0 l /\ num s2 inclo = l_i0 l /\ num s2 no = n_orig (theory_of g) l /\ num s2 bstar = l_B l /\ num s2 argpo = l_w0 l /\
               num s2 mo = l_M0 l /\ num s2 nodeo = l_node0 l /\ num s2 con41 = 3 * cos (l_i0 l) ^ 2 - 1 /\ deep s2 = false /\ error s2 = 5%Z).
  { unfold s2. cbn [set_error num]. repeat split; repeat first [rewrite set_same | rewrite set_other by discriminate]; cbn [set_deep num];
      repeat first [rewrite set_same | rewrite set_other by discriminate]; try assumption; try reflexivity; [apply (if_no _ _ _ I)|apply (if_con41 _ _ _ I)]. }
  clearbody s2. destruct F8 as (G1 & G2 & G3 & G4 & G5 & G6 & G7 & G8 & G9 & G10).
  rewrite (rle_true 0 (i_omeosq i)) by (rewrite (if_omeosq _ _ _ I); pose proof (if_b _ _ _ I); nra). cbn [Datatypes.orb].
  pose proof (re_bounds w) as RE. pose proof (j2_bounds w) as J2.
  destruct (case_terms i s2 I G1) as ([[s3 tsi] sf] & HT).
  destruct (init_terms_inv g l i s2 s3 tsi sf ltac:(unfold g; lra) ltac:(unfold g; lra) I G4 G1 G2 G6 G5 G7 G3 G8 HT) as (CF & E3 & _).
  destruct case_n0 as (N & _).
  assert (IC : exists s4, init_coefs deepinit w epoch i s2 = Val s4 /\ error s4 = 5%Z).
  { unfold init_coefs. fold g. rewrite HT. cbn [rbind]. pose proof (cf_no _ _ _ CF) as NO. change (theory_of g) with c in NO. rewrite NO.
    pose proof case_n as CN. rewrite fdiv_ok by lra. cbn [rbind]. rewrite rle_true by exact case_period.
    destruct (deepinit_total w epoch (set_isimp 1 (set_deep true s3))) as (s4 & D4).
    - cbn [set_isimp set_deep num]. rewrite (cf_ecco _ _ _ CF). nra.
    - cbn [set_isimp set_deep num]. rewrite NO. lra.
    - rewrite D4. cbn [rbind]. destruct (deepinit_ok _ _ _ _ D4) as (o & ss & sl & gam & m & DF). destruct (df_flags _ _ _ _ _ _ _ _ _ DF) as (FI & _ & FE).
      rewrite FI. cbn [set_isimp isimp Z.eqb Pos.eqb negb]. exists s4. split; [reflexivity|]. rewrite FE. cbn [set_isimp set_deep error]. congruence. }
  destruct IC as (s4 & H4 & E4). rewrite H4. cbn [rbind]. rewrite E4. cbn [Z.eqb]. eauto.
Qed.
End case.
