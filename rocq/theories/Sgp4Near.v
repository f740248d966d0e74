(** Near-Earth satellites: sgp4init followed by sgp4 computes the equations of the report. *)
From Coq Require Import Reals Lra Lia List Bool ZArith.
From Verif Require Import RBase VecModel VecProofs Trig SensorModel JulianModel OeProofs Sgp4Model Sgp4Spec Sgp4Proofs Sgp4Kepler Sgp4Geom Sgp4Init.
Import ListNotations.
Open Scope R_scope.

Definition theory_w (w : gravconst) : theory := theory_of (getgravconst w).
Definition init_with (deepinit : gravconst -> R -> satrec -> res satrec) (w : gravconst) (epoch : R) (l : tle_elems) (s0 : satrec) : res satrec :=
  sgp4init deepinit w epoch (l_B l) (l_e0 l) (l_w0 l) (l_i0 l) (l_M0 l) (l_n0 l) (l_node0 l) s0.
(** a period below 225 minutes *)
Definition near_earth (w : gravconst) (l : tle_elems) : Prop := 2 * PI / n_orig (theory_w w) l < 225.

Lemma coef_same g l s s' : same s s' -> deep s = false -> coef_facts g l s -> coef_facts g l s'.
Proof.
  intros (A & B & C & D) DS F. rewrite DS in D. destruct F.
  split; try (rewrite <- A; assumption); try (rewrite <- D by reflexivity; assumption); assumption.
Qed.
Lemma high_same g l s s' : same s s' -> deep s = false -> high_facts g l s -> high_facts g l s'.
Proof. intros (A & B & C & D) DS F. rewrite DS in D. destruct F. split; rewrite <- D by reflexivity; assumption. Qed.
Lemma init_inv deepinit w epoch l s0 s : init_with deepinit w epoch l s0 = Val s -> near_earth w l ->
  deep s = false /\ coef_facts (getgravconst w) l s /\ (lowp (getgravconst w) l = false -> high_facts (getgravconst w) l s) /\
  0 < n_orig (theory_w w) l /\ 0 < beta l /\ beta l * beta l = 1 - l_e0 l * l_e0 l /\ num s jdsatepoch = num s0 jdsatepoch /\
  (a_orig (theory_w w) l * (1 - l_e0 l) < 1 -> error s = 5%Z) /\
  (1 <= a_orig (theory_w w) l * (1 - l_e0 l) -> exists s3 o, sgp4 w s3 0 = Val (s, o)).
Proof.
  intros H NE. unfold init_with, sgp4init in H. set (g := getgravconst w) in *.
  match type of H with rbind (initl g (num ?s ecco) _ _) _ = _ => set (s1 := s) in H end.
  assert (F1 : num s1 ecco = l_e0 l /\ num s1 inclo = l_i0 l /\ num s1 no = l_n0 l /\ num s1 bstar = l_B l /\ num s1 argpo = l_w0 l /\ num s1 mo = l_M0 l /\ num s1 nodeo = l_node0 l /\ num s1 jdsatepoch = num s0 jdsatepoch).
  { unfold s1. repeat split; repeat first [rewrite set_same | rewrite set_other by discriminate]; reflexivity. }
  clearbody s1. destruct F1 as (F1 & F2 & F3 & F4 & F5 & F6 & F7 & F7'). rewrite F1, F2, F3 in H.
  apply rbind_val in H. destruct H as (i & I & H). apply (initl_inv g l (xke_pos w)) in I.
  match type of H with context [set_error ?e ?s] => set (s2 := set_error e s) in H end.
  assert (F8 : num s2 ecco = l_e0 l /\ num s2 inclo = l_i0 l /\ num s2 no = n_orig (theory_of g) l /\ num s2 bstar = l_B l /\ num s2 argpo = l_w0 l /\
               num s2 mo = l_M0 l /\ num s2 nodeo = l_node0 l /\ num s2 con41 = 3 * cos (l_i0 l) ^ 2 - 1 /\ deep s2 = false /\ num s2 jdsatepoch = num s0 jdsatepoch /\ (a_orig (theory_w w) l * (1 - l_e0 l) < 1 -> error s2 = 5%Z) /\ (1 <= a_orig (theory_w w) l * (1 - l_e0 l) -> error s2 = 0%Z)).
  { unfold s2. cbn [set_error num]. repeat split; repeat first [rewrite set_same | rewrite set_other by discriminate]; cbn [set_deep num];
      repeat first [rewrite set_same | rewrite set_other by discriminate]; try assumption; try reflexivity; [apply (if_no _ _ _ I)|apply (if_con41 _ _ _ I)| |]; intros RP; change (theory_w w) with (theory_of g) in RP; rewrite <- (if_rp _ _ _ I) in RP; cbn [error]; [rewrite rlt_true by exact RP|rewrite rlt_false by exact RP]; reflexivity. }
  clearbody s2. destruct F8 as (G1 & G2 & G3 & G4 & G5 & G6 & G7 & G8 & G9 & G10 & G11 & G12).
  pose proof (if_n _ _ _ I) as NP. pose proof (if_b _ _ _ I) as BP. pose proof (if_bb _ _ _ I) as BB.
  rewrite rle_true in H by (rewrite (if_omeosq _ _ _ I); nra). cbn [orb] in H.
  apply rbind_val in H. destruct H as (s3 & H3 & H).
  assert (S3 : same s3 s).
  { destruct (error s3 =? 0)%Z; [|injection H as <-; apply same_refl]. apply rbind_val in H. destruct H as ([s4 o] & H4 & H).
    injection H as <-. now apply sgp4_keeps in H4. }
  pose proof (re_bounds w) as RE. pose proof (j2_bounds w) as J2.
  destruct (init_coefs_inv g l deepinit w epoch i s2 s3 eq_refl ltac:(unfold g; lra) ltac:(unfold g; lra) I G4 G1 G2 G6 G5 G7 G3 G8 NE H3) as (CF & HF & ER3 & DS3 & JD3).
  rewrite G9 in DS3.
  assert (DS : deep s = false) by (destruct S3 as (_ & _ & D3 & _); congruence).
  split; [exact DS|].
  split; [now apply (coef_same g l s3)|]. split; [intros L; apply (high_same g l s3 s S3 DS3); now apply HF|]. split; [exact NP|]. split; [exact BP|]. split; [exact BB|]. split.
  - destruct S3 as (_ & _ & _ & X). rewrite <- X by (rewrite DS3; reflexivity). congruence.
  - split; intros RP.
    + specialize (G11 RP). rewrite ER3, G11 in H. cbn [Z.eqb] in H. apply Val_inj in H. congruence.
    + specialize (G12 RP). rewrite ER3, G12 in H. cbn [Z.eqb] in H. apply rbind_val in H. destruct H as ([s4 o] & H4 & H). apply Val_inj in H. subst s4. eauto.
Qed.

Section near.
Variables (w : gravconst) (l : tle_elems).
Let g := getgravconst w.
Let c := theory_w w.
Lemma drag_spec s t : coef_facts g l s -> (lowp g l = false -> high_facts g l s) ->
  exists dM ta tl, drag_terms s t = (dM, m_w (secular_at c l t), m_node (secular_at c l t), ta, l_e0 l - m_e (secular_at c l t), tl) /\
  a_orig c l * ta * ta = m_a (secular_at c l t) /\
  dM + n_orig c l * tl = m_M (secular_at c l t).
Proof.
  intros CF HF. unfold drag_terms, secular_at. destruct CF.
  rewrite cf_isimp. unfold lowp in *. change (theory_of g) with c in *. unfold rlt in *.
  destruct (Rlt_dec (perigee_km c l) 220) as [L|L]; cbn [Z.eqb Pos.eqb negb m_w m_node m_a m_e m_M].
  - do 3 eexists. split; [|split].
    + rewrite cf_mo, cf_mdot, cf_argpo, cf_argpdot, cf_nodeo, cf_nodedot, cf_nodecf, cf_cc1, cf_bstar, cf_cc4, cf_t2cof.
      repeat match goal with |- (_, _) = (_, _) => apply pair_equal_spec; split end; try reflexivity; ring.
    + ring.
    + ring.
  - destruct (HF eq_refl). change (theory_of g) with c in *.
    rewrite cf_mo, cf_mdot, cf_argpo, cf_argpdot, cf_nodeo, cf_nodedot, cf_nodecf, cf_cc1, cf_bstar, cf_cc4, cf_cc5, cf_t2cof, cf_omgcof, cf_xmcof, cf_eta, cf_delmo, cf_sinmao, hf_d2, hf_d3, hf_d4, hf_t3cof, hf_t4cof, hf_t5cof.
    set (dM := (xm g l * ((1 + eta_ c l * cos (l_M0 l + M_rate c l * t)) ^ 3 - (1 + eta_ c l * cos (l_M0 l)) ^ 3))).
    assert (E : dM = if Rlt_dec 0.0001 (l_e0 l) then - (2 / 3) * (q0s c l ^ 4 * l_B l * xi c l ^ 4 / (l_e0 l * eta_ c l)) * ((1 + eta_ c l * cos (l_M0 l + M_rate c l * t)) ^ 3 - (1 + eta_ c l * cos (l_M0 l)) ^ 3) else 0).
    { unfold dM, xm. change (theory_of g) with c. destruct (Rlt_dec 0.0001 (l_e0 l)); ring. }
    rewrite <- E. clearbody dM. clear E.
    rewrite <- !Rplus_assoc.
    do 3 eexists. split; [|split].
    + repeat match goal with |- (_, _) = (_, _) => apply pair_equal_spec; split end; try reflexivity; ring.
    + ring.
    + field.
Qed.

(** sgp4 for a near-Earth satellite, up to the last part *)
Lemma turns_diff a b d : exists k : Z, fmod2pi (fmod2pi (a + b + d) - fmod2pi b - fmod2pi d) = a + IZR k * (2 * PI).
Proof.
  destruct (fmod_turns (a + b + d)) as (k1 & E1). destruct (fmod_turns b) as (k2 & E2). destruct (fmod_turns d) as (k3 & E3).
  destruct (fmod_turns (fmod2pi (a + b + d) - fmod2pi b - fmod2pi d)) as (k4 & E4). exists (k4 + k1 - k2 - k3)%Z.
  rewrite E4, E1, E2, E3, !minus_IZR, plus_IZR. ring.
Qed.
Lemma a_orig_cube : 0 < n_orig c l -> c_ke c / n_orig c l > 0.
Proof. intros N. apply Rdiv_lt_0_compat; [apply xke_pos|exact N]. Qed.
Lemma near_inv s t s' out : deep s = false -> coef_facts g l s -> (lowp g l = false -> high_facts g l s) -> 0 < n_orig c l ->
  sgp4 w s t = Val (s', out) ->
  let m := secular_at c l t in
  0 < m_a m /\
  exists s1 p, sgp4_periodic g s1 (m_a m) (xke g / Rpower (m_a m) 1.5) (sin (xincp p)) (cos (xincp p)) p = Val (s', out) /\
    same s s1 /\ ep p = e_used (m_e m) /\ xincp p = l_i0 l /\
    nodep p = fmod2pi (m_node m) /\ argpp p = fmod2pi (m_w m) /\ (exists k : Z, mp p = m_M m + IZR k * (2 * PI)) /\
    error s1 = (if rle 1 (m_e m) || rlt (m_e m) (- 0.001) || rlt (m_a m) 0.95 then 1%Z else 0%Z).
Proof.
  intros DS CF HF NP H m. unfold sgp4 in H. set (s0 := set_error 0 (set tt t s)) in H.
  assert (S0 : same s s0). { eapply same_trans; [apply (same_set tt t); reflexivity|apply same_error]. }
  assert (D0 : deep s0 = false) by exact DS. assert (E0 : error s0 = 0%Z) by reflexivity.
  assert (CF0 : coef_facts g l s0) by (now apply (coef_same g l s)).
  assert (HF0 : lowp g l = false -> high_facts g l s0) by (intros L; apply (high_same g l s); auto).
  assert (T0 : num s0 tt = t) by reflexivity. clearbody s0. rewrite T0 in H.
  destruct (drag_spec s0 t CF0 HF0) as (dM & ta & tl & DT & EA & EM). rewrite DT in H. fold m in H, EA, EM. rewrite D0 in H. cbn [rbind] in H.
  cbn [nm em argpm inclm mm nodem] in H.
  pose proof (cf_no _ _ _ CF0) as NO. change (theory_of g) with c in NO. pose proof (cf_ecco _ _ _ CF0) as EC. pose proof (cf_inclo _ _ _ CF0) as IC.
  rewrite NO, EC, IC in H. rewrite (rle_false (n_orig c l) 0) in H by exact NP.
  fold g in H.
  apply rbind_val in H. destruct H as (q & Q & H). apply fdiv_val in Q. destruct Q as (_ & ->).
  apply rbind_val in H. destruct H as (p & Q & H). apply fpow_val in Q. destruct Q as (_ & ->).
  change (Rpower (xke g / n_orig c l) (2 / 3)) with (a_orig c l) in H. rewrite EA in H.
  apply rbind_val in H. destruct H as (am15 & Q & H). apply fpow_val in Q. destruct Q as (AP & ->). split; [exact AP|].
  apply rbind_val in H. destruct H as (nm' & Q & H). apply fdiv_val in Q. destruct Q as (_ & ->).
  replace (l_e0 l - (l_e0 l - m_e m)) with (m_e m) in H by ring.
  set (b := rle 1 (m_e m) || rlt (m_e m) (- 0.001) || rlt (m_a m) 0.95) in *.
  set (s1 := if b then set_error 1 s0 else s0) in H.
  assert (S1 : same s s1). { eapply same_trans; [exact S0|]. apply same_if_error. }
  assert (N1 : num s1 no = n_orig c l) by (destruct S1 as (_ & _ & _ & X); rewrite <- X by (rewrite DS; reflexivity); apply (cf_no _ _ _ CF)).
  assert (D1 : deep s1 = false) by (destruct S1 as (_ & _ & X & _); congruence).
  assert (E1 : error s1 = if b then 1%Z else 0%Z) by (unfold s1; destruct b; [reflexivity|exact E0]).
  clearbody s1. rewrite N1, D1 in H. cbn [rbind] in H. rewrite EM in H.
  exists s1. match type of H with sgp4_periodic _ _ _ _ _ _ ?p = _ => exists p end. split; [exact H|]. split; [exact S1|]. cbn [ep xincp nodep argpp mp].
  split. { unfold e_used, rlt. destruct (Rlt_dec (m_e m) 0); [lra|reflexivity]. }
  split; [reflexivity|]. split; [reflexivity|]. split; [reflexivity|]. split; [apply turns_diff|exact E1].
Qed.
End near.

(** turns do not matter *)
Lemma cos_turns x k : cos (x + IZR k * (2 * PI)) = cos x. Proof. apply cos_period_Z. Qed.
Lemma sin_turns x k : sin (x + IZR k * (2 * PI)) = sin x. Proof. apply sin_period_Z. Qed.
Lemma estimate_shift u ax ay (k : Z) n : estimate (u + IZR k * (2 * PI)) ax ay n = estimate u ax ay n + IZR k * (2 * PI).
Proof.
  induction n as [|n IH]; [reflexivity|]. cbn [estimate]. rewrite IH.
  replace (correction (u + IZR k * (2 * PI)) ax ay (estimate u ax ay n + IZR k * (2 * PI))) with (correction u ax ay (estimate u ax ay n)); [ring|].
  unfold correction, kepler_residual. rewrite cos_turns, sin_turns. f_equal. ring.
Qed.
Lemma corr_shift u ax ay (k : Z) n : corr (u + IZR k * (2 * PI)) ax ay n = corr u ax ay n.
Proof.
  unfold corr. rewrite estimate_shift. unfold correction, kepler_residual. rewrite cos_turns, sin_turns. f_equal. f_equal. ring.
Qed.
(** elements that differ by turns only *)
Definition alike (q q' : elems) : Prop :=
  e_a q = e_a q' /\ e_n q = e_n q' /\ e_ax q = e_ax q' /\ e_ay q = e_ay q' /\ e_i q = e_i q' /\ sin (e_x q) = sin (e_x q') /\ cos (e_x q) = cos (e_x q') /\
  exists k : Z, e_node q = e_node q' + IZR k * (2 * PI).
Lemma alike_r q q' : alike q q' -> r_of q = r_of q' /\ p_of q = p_of q' /\ rdot_of q = rdot_of q' /\ rfdot_of q = rfdot_of q'.
Proof.
  intros (A & B & C & D & E & F & G & _). assert (R : r_of q = r_of q') by (unfold r_of; congruence). assert (P : p_of q = p_of q') by (unfold p_of; congruence).
  split; [exact R|]. split; [exact P|]. unfold rdot_of, rfdot_of. split; congruence.
Qed.
Lemma alike_lat q q' u : alike q q' -> is_latitude_argument q u -> is_latitude_argument q' u.
Proof.
  intros H. destruct (alike_r _ _ H) as (R & _). destruct H as (A & B & C & D & E & F & G & _). unfold is_latitude_argument.
  rewrite R, A, C, D, F, G. auto.
Qed.
Lemma alike_state k2 th ke re u q q' : alike q q' ->
  same_vec (fst (str3_state k2 th ke re u q)) (fst (str3_state k2 th ke re u q')) /\
  same_vec (snd (str3_state k2 th ke re u q)) (snd (str3_state k2 th ke re u q')) /\
  fst (fst (fst (fst (fst (short_period k2 th ke u q))))) = fst (fst (fst (fst (fst (short_period k2 th ke u q'))))).
Proof.
  intros H. destruct (alike_r _ _ H) as (R & P & RD & RF). destruct H as (A & B & C & D & E & F & G & k & N).
  unfold str3_state, short_period. rewrite B, C, D, E, R, P, RD, RF, N. cbn [fst snd].
  set (dn := 3 * k2 * th / (2 * (p_of q' * p_of q')) * sin (2 * u)). replace (e_node q' + IZR k * (2 * PI) + dn) with (e_node q' + dn + IZR k * (2 * PI)) by ring.
  split; [|split; [|reflexivity]]; intros i; unfold vU, vV, vM, vN; rewrite sin_turns, cos_turns; reflexivity.
Qed.

Lemma limited_corr u ax ay i : limited (correction u ax ay (estimate u ax ay i)) = corr u ax ay i. Proof. reflexivity. Qed.
Lemma near_report w l s t s' out : deep s = false -> coef_facts (getgravconst w) l s -> (lowp (getgravconst w) l = false -> high_facts (getgravconst w) l s) ->
  0 < n_orig (theory_w w) l -> sgp4 w s t = Val (s', out) -> str3_report (theory_w w) l t out (error s').
Proof.
  intros DS CF HF NP H. destruct (near_inv w l s t s' out DS CF HF NP H) as (AP & s1 & p & HP & S1 & EP & IP & ND & AG & (k & MP) & E1).
  set (c := theory_w w) in *. set (g := getgravconst w) in *. unfold str3_report. set (m := secular_at c l t) in *. set (e := e_used (m_e m)) in *.
  assert (D1 : deep s1 = false) by (destruct S1 as (_ & _ & X & _); congruence).
  pose proof (coef_same g l s s1 S1 DS CF) as CF1.
  assert (CO : consistent s1 (cos (xincp p))).
  { intros _. rewrite IP. repeat split; [apply (cf_con41 _ _ _ CF1)|apply (cf_x1mth2 _ _ _ CF1)|apply (cf_x7thm1 _ _ _ CF1)]. }
  assert (KN : xke g <> 0) by (pose proof (xke_pos w); unfold g; lra).
  destruct (periodic_inv g s1 _ _ p s' out HP AP KN CO) as (xlc & x & ax & ay & XL & EN & AX & AY & K & REST).
  unfold xl_coef, ay_coef in *. rewrite D1 in *. apply Val_inj in XL. rewrite (cf_aycof _ _ _ CF1) in AY. rewrite (cf_xlcof _ _ _ CF1) in XL.
  pose proof (cf_th1 _ _ _ CF1) as T1. pose proof (j2_bounds w) as J2. fold g in J2.
  rewrite EP in *. rewrite IP in *.
  assert (AX' : ax = axN e m). { rewrite AX, AG, cos_fmod. reflexivity. }
  assert (ED : 1 - e ^ 2 <> 0) by (replace (e ^ 2) with (e * e) by ring; exact EN).
  assert (AY' : ay = ayN c l e m).
  { rewrite AY, AG, sin_fmod. unfold ayN. cbn [c theory_w theory_of c_A30 c_k2]. fold g. unfold j3oj2. field. repeat split; try lra. }
  assert (U : exists k : Z, fmod2pi (mp p + argpp p + nodep p + / (m_a m * (1 - e * e)) * xlc * ax - nodep p) = uN c l e m + IZR k * (2 * PI)).
  { destruct (fmod_turns (mp p + argpp p + nodep p + / (m_a m * (1 - e * e)) * xlc * ax - nodep p)) as (k1 & E2). destruct (fmod_turns (m_w m)) as (k2 & E3).
    exists (k1 + k + k2)%Z. rewrite E2, MP, AG, E3, <- XL, AX'. unfold uN, axN. cbn [c theory_w theory_of c_A30 c_k2]. fold g. unfold j3oj2.
    rewrite !plus_IZR. field. repeat split; try lra. }
  destruct U as (ku & U). rewrite U in K. rewrite AX', AY' in *. clear AX AY AX' AY' U.
  destruct (kepler_turns _ _ _ _ _ K) as (j & J9 & SX & CX & A1 & B1). rewrite estimate_shift, sin_turns in SX. rewrite estimate_shift, cos_turns in CX.
  split; [exact AP|]. exists j. split.
  { split; [exact J9|]. split; [intros i I; rewrite limited_corr, <- (corr_shift _ _ _ ku); now apply A1|intros L; rewrite limited_corr, <- (corr_shift _ _ _ ku); now apply B1]. }
  assert (AL : alike (mkElems (m_a m) (xke g / Rpower (m_a m) 1.5) (axN e m) (ayN c l e m) x (l_i0 l) (nodep p))
                     (long_period c l e m (estimate (uN c l e m) (axN e m) (ayN c l e m) j))).
  { unfold long_period, alike. cbn [e_a e_n e_ax e_ay e_x e_i e_node]. repeat split; auto.
    - cbn [c theory_w theory_of c_ke]. fold g. do 2 f_equal. lra.
    - rewrite ND. apply fmod_turns. }
  clear K A1 B1 SX CX. set (q := mkElems _ _ _ _ x _ _) in *. set (q' := long_period _ _ _ _ _) in *.
  destruct (alike_r _ _ AL) as (_ & PQ & _). destruct REST as [(P0 & -> & E6)|(P0 & u & r & v & LA & -> & REST)].
  - split; [lra|exact E6].
  - split; [lra|]. exists u. split; [now apply (alike_lat q)|].
    destruct (alike_state (j2 g / 2) (cos (l_i0 l)) (xke g) (radiusearthkm g) u q q' AL) as (SR & SV & SK).
    change (c_k2 c) with (j2 g / 2). change (c_ke c) with (xke g). change (c_re c) with (radiusearthkm g).
    destruct (str3_state (j2 g / 2) (cos (l_i0 l)) (xke g) (radiusearthkm g) u q) as [r0 v0]. cbn [fst snd] in SR, SV.
    destruct (short_period (j2 g / 2) (cos (l_i0 l)) (xke g) u q) as [[[[[rk a1] a2] a3] a4] a5]. cbn [fst] in SK. rewrite <- SK.
    destruct REST as (R1 & V1 & EE). split; [intros i; rewrite (R1 i); apply SR|]. split; [intros i; rewrite (V1 i); apply SV|].
    rewrite EE, E1. unfold bad_mean. split; [intros L; now rewrite rlt_true|].
    split; intros L B; rewrite rlt_false by lra.
    + destruct (rle_spec 1 (m_e m)), (rlt_spec (m_e m) (-0.001)), (rlt_spec (m_a m) 0.95); cbn [orb]; try reflexivity. exfalso. destruct B as [B|[B|B]]; lra.
    + destruct (rle_spec 1 (m_e m)), (rlt_spec (m_e m) (-0.001)), (rlt_spec (m_a m) 0.95); cbn [orb]; try reflexivity; exfalso; apply B; tauto || (right; left; lra).
Qed.

(** the report is determined *)
Lemma newton_unique u ax ay j j' : newton_stops u ax ay j -> newton_stops u ax ay j' -> j = j'.
Proof.
  intros (A & B & C) (A' & B' & C'). destruct (lt_eq_lt_dec j j') as [[L|E]|L]; [exfalso|exact E|exfalso].
  - specialize (C ltac:(lia)). specialize (B' j L). lra.
  - specialize (C' ltac:(lia)). specialize (B j' L). lra.
Qed.
Lemma lat_unique q u u' : r_of q <> 0 -> is_latitude_argument q u -> is_latitude_argument q u' -> cos u = cos u' /\ sin u = sin u'.
Proof.
  intros R (A & B) (A' & B'). split; apply (Rmult_eq_reg_l (r_of q)); congruence.
Qed.
Lemma r_pos q : 0 < e_a q -> 0 < p_of q -> 0 < r_of q.
Proof.
  intros A P. unfold p_of, r_of in *. assert (e_ax q * e_ax q + e_ay q * e_ay q < 1) by nra. pose proof (den_pos _ _ (e_x q) H) as D. unfold den in D.
  apply Rmult_lt_0_compat; lra.
Qed.
Lemma state_lat k2 th ke re u u' q : cos u = cos u' -> sin u = sin u' ->
  same_vec (fst (str3_state k2 th ke re u q)) (fst (str3_state k2 th ke re u' q)) /\
  same_vec (snd (str3_state k2 th ke re u q)) (snd (str3_state k2 th ke re u' q)) /\
  fst (fst (fst (fst (fst (short_period k2 th ke u q))))) = fst (fst (fst (fst (fst (short_period k2 th ke u' q))))).
Proof.
  intros C D. assert (C2 : cos (2 * u) = cos (2 * u')) by (rewrite !cos_2a; congruence). assert (D2 : sin (2 * u) = sin (2 * u')) by (rewrite !sin_2a; congruence).
  unfold str3_state, short_period. cbn [fst snd]. rewrite C2, D2. split; [|split; [|reflexivity]]; intros i; unfold vU, vV;
  set (d := k2 / (4 * (p_of q * p_of q)) * (7 * th ^ 2 - 1) * sin (2 * u')); rewrite !sin_minus, !cos_minus, C, D; reflexivity.
Qed.
Definition same_out (o o' : option (vec * vec)) : Prop :=
  match o, o' with None, None => True | Some (r, v), Some (r', v') => same_vec r r' /\ same_vec v v' | _, _ => False end.
Lemma bad_mean_dec m : bad_mean m \/ ~ bad_mean m.
Proof. unfold bad_mean. destruct (Rle_dec 1 (m_e m)), (Rlt_dec (m_e m) (- (0.001))), (Rlt_dec (m_a m) 0.95); tauto. Qed.
Lemma report_determined c l t o z o' z' : str3_report c l t o z -> str3_report c l t o' z' -> same_out o o' /\ z = z'.
Proof.
  unfold str3_report. set (m := secular_at c l t). set (e := e_used (m_e m)). intros (AP & j & N & H) (_ & j' & N' & H').
  rewrite <- (newton_unique _ _ _ _ _ N N') in H'. clear N N' j'. set (q := long_period c l e m _) in *.
  assert (EQ : e_a q = m_a m) by reflexivity.
  destruct o as [[r v]|], o' as [[r' v']|]; cbn [same_out].
  - destruct H as (P & u & L & A & B & C). destruct H' as (_ & u' & L' & A' & B' & C').
    assert (RN : r_of q <> 0) by (apply Rgt_not_eq, r_pos; [rewrite EQ; exact AP|exact P]).
    destruct (lat_unique q u u' RN L L') as (CU & SU).
    destruct (state_lat (c_k2 c) (cos (l_i0 l)) (c_ke c) (c_re c) u u' q CU SU) as (E1 & E2 & E3). cbn zeta in C, C'. rewrite <- E3 in C'.
    split; [split; intros i; [rewrite (A i), (A' i); apply E1|rewrite (B i), (B' i); apply E2]|].
    destruct C as (C1 & C2 & C3). destruct C' as (C1' & C2' & C3'). set (rk := fst (fst (fst (fst (fst (short_period (c_k2 c) (cos (l_i0 l)) (c_ke c) u q)))))) in *.
    destruct (Rlt_dec rk 1) as [L1|L1]; [rewrite C1, C1' by exact L1; reflexivity|]. assert (L2 : 1 <= rk) by lra.
    destruct (bad_mean_dec m) as [BM|BM]; [rewrite C2, C2' by assumption|rewrite C3, C3' by assumption]; reflexivity.
  - exfalso. destruct H as (P & _). destruct H' as (P' & _). lra.
  - exfalso. destruct H as (P & _). destruct H' as (P' & _). lra.
  - split; [exact I|]. destruct H as (_ & ->). destruct H' as (_ & ->). reflexivity.
Qed.
