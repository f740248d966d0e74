(** Proofs for C164: the resonance terms of dsinit. *)
From Coq Require Import Reals Lra Lia Psatz List Bool ZArith.
From Verif Require Import RBase VecModel VecProofs Trig SensorModel JulianModel OeProofs Sgp4Model Sgp4Spec Sgp4Proofs Sgp4Geom Sgp4Init Sgp4Near Sgp4Loop Sgp4Runs Sgp4DeepModel Sgp4DeepSpec Sgp4Third Sgp4DeepProofs Sgp4DeepInit.
Import ListNotations.
Open Scope R_scope.

(** ** Inclination functions *)
Ltac kau := cbv -[Rplus Rmult Rdiv Rminus Ropp Rinv IZR sin cos pow]; match goal with |- context [sin ?i] => let C := fresh "C" in pose proof (cs2 i) as C; field [C] end.
Ltac deci := rewrite ?(ltac:(lra) : 0.75 = 3 / 4), ?(ltac:(lra) : 1.5 = 3 / 2), ?(ltac:(lra) : 1.875 = 15 / 8), ?(ltac:(lra) : -1.875 = - (15 / 8)), ?(ltac:(lra) : - 1.875 = - (15 / 8)), ?(ltac:(lra) : 39.375 = 315 / 8),
  ?(ltac:(lra) : 39.3750 = 315 / 8), ?(ltac:(lra) : 29.53125 = 945 / 32), ?(ltac:(lra) : 0.9375 = 15 / 16), ?(ltac:(lra) : 9.84375 = 315 / 32), ?(ltac:(lra) : 0.5 = 1 / 2).
Lemma inc_kaula i : let f := ds_inc (sin i) (cos i) in
  f220 f = kaula 2 2 0 i /\ f221 f = kaula 2 2 1 i /\ f321 f = kaula 3 2 1 i /\ f322 f = kaula 3 2 2 i /\ f441 f = kaula 4 4 1 i /\ f442 f = kaula 4 4 2 i /\
  f542 f = kaula 5 4 2 i /\ f543 f = kaula 5 4 3 i.
Proof.
  unfold ds_inc. cbn zeta. cbn [f220 f221 f321 f322 f441 f442 f542 f543]. deci. repeat split; kau.
Qed.
Lemma inc_near i : let f := ds_inc (sin i) (cos i) in Rabs (f522 f - kaula 5 2 2 i) <= 3e-6 /\ Rabs (f523 f - kaula 5 2 3 i) <= 3e-6.
Proof.
  unfold ds_inc. cbn zeta. cbn [f522 f523].
  assert (K2 : kaula 5 2 2 i = 315 / 32 * sin i * (sin i * sin i * (1 - 2 * cos i - 5 * (cos i * cos i)) + 1 / 3 * (- 2 + 4 * cos i + 6 * (cos i * cos i)))) by kau.
  assert (K3 : kaula 5 2 3 i = sin i * (315 / 64 * (sin i * sin i) * (- 2 - 4 * cos i + 10 * (cos i * cos i)) + 105 / 16 * (1 + 2 * cos i - 3 * (cos i * cos i)))) by kau.
  rewrite K2, K3. clear K2 K3. pose proof (SIN_bound i) as SB. pose proof (COS_bound i) as CB. pose proof (sin2_cos2 i) as SC. unfold Rsqr in SC. set (s := sin i) in *. set (c := cos i) in *.
  assert (C2 : 0 <= c * c <= 1) by nra. assert (S2 : 0 <= s * s <= 1) by nra.
  split.
  - match goal with |- Rabs ?x <= _ => replace x with (s * (9.84375 * (0.33333333 - 1 / 3) * (- 2 + 4 * c + 6 * (c * c)))) by lra end.
    set (u := - 2 + 4 * c + 6 * (c * c)). assert (-3 <= u <= 8) by (unfold u; nra). set (v := 9.84375 * (0.33333333 - 1 / 3) * u).
    assert (V : - 3e-6 <= v <= 3e-6) by (unfold v; lra). apply Rabs_le. nra.
  - match goal with |- Rabs ?x <= _ => replace x with (s * (1.2e-7 * (s * s * (- 2 - 4 * c + 10 * (c * c)) + (1 + 2 * c - 3 * (c * c))))) by lra end.
    set (u := s * s * (- 2 - 4 * c + 10 * (c * c)) + (1 + 2 * c - 3 * (c * c))).
    assert (- 20 <= u <= 20). { assert (-6 <= - 2 - 4 * c + 10 * (c * c) <= 12) by lra. unfold u. nra. }
    apply Rabs_le. nra.
Qed.
Lemma sync_kaula i : 0.75 * (1 + cos i) * (1 + cos i) = kaula 2 2 0 i /\ 0.9375 * sin i * sin i * (1 + 3 * cos i) - 0.75 * (1 + cos i) = kaula 3 1 1 i /\
  1.875 * (1 + cos i) * (1 + cos i) * (1 + cos i) = kaula 3 3 0 i.
Proof. deci. repeat split; kau. Qed.
(** ** Eccentricity functions *)
Lemma rle_if {A} x y (a b : A) : (if rle x y then a else b) = if Rle_dec x y then a else b.
Proof. unfold rle. destruct (Rle_dec x y); reflexivity. Qed.
Lemma rlt_if {A} x y (a b : A) : (if rlt x y then a else b) = if Rlt_dec x y then a else b.
Proof. unfold rlt. destruct (Rlt_dec x y); reflexivity. Qed.
Lemma ecc_ok e : let g := ds_ecc e (e * e) in
  g201 g = ecc_fun 2 0 (-1) e /\ g211 g = ecc_fun 2 1 1 e /\ g310 g = ecc_fun 3 1 0 e /\ g322 g = ecc_fun 3 2 2 e /\ g410 g = ecc_fun 4 1 0 e /\ g422 g = ecc_fun 4 2 2 e /\
  g520 g = ecc_fun 5 2 0 e /\ g532 g = ecc_fun 5 3 2 e /\ g521 g = ecc_fun 5 2 1 e /\ g533 g = ecc_fun 5 3 3 e.
Proof.
  unfold ds_ecc. rewrite !rle_if, !rlt_if. unfold ecc_fun, cubic. cbn zeta.
  destruct (Rle_dec e 0.65) as [A|A], (Rlt_dec e 0.7) as [B|B]; cbn [g201 g211 g310 g322 g410 g422 g520 g533 g521 g532]; try lra; try (destruct (Rlt_dec 0.715 e) as [E|E]); try lra; repeat split; lra.
Qed.
(** ** The record *)
Lemma inv_a c l : 0 < n_orig c l -> 0 < c_ke c -> Rpower (n_orig c l / c_ke c) (2 / 3) = / a_orig c l.
Proof.
  intros N K. unfold a_orig. rewrite <- Rpower_Ropp. unfold Rpower. f_equal. unfold Rdiv. rewrite !ln_mult, !ln_Rinv by (assumption || apply Rinv_0_lt_compat; assumption). ring.
Qed.
Definition half_day_term (n a e i : R) (x : tesseral) (row : (Z * Z * Z * Z) * R * R) : Prop :=
  let '((l, m, p, q), J, G) := row in
  t_l x = l /\ t_m x = m /\ t_p x = p /\ t_G x = G /\
  exists F, t_D x = 3 * IZR m / 2 * n ^ 2 / a ^ Z.to_nat l * J * F * ecc_fun l p q e /\
    Rabs (F - kaula (Z.to_nat l) (Z.to_nat m) (Z.to_nat p) i) <= 3e-6 /\ ((l, m) <> (5, 2)%Z -> F = kaula (Z.to_nat l) (Z.to_nat m) (Z.to_nat p) i).
Definition one_day_term (n a e i : R) (x : R * R * R) (row : (Z * Z * Z) * R * R) : Prop :=
  let '((l, m, p), J, G) := row in let '(d, k, f) := x in
  k = IZR m /\ f = G /\ d = 3 * IZR m * n ^ 2 / a ^ Z.to_nat l * J * kaula (Z.to_nat l) (Z.to_nat m) (Z.to_nat p) i * ecc_fun_day l p e.
Lemma exact_term F K : F = K -> Rabs (F - K) <= 3e-6.
Proof. intros ->. rewrite Rminus_diag_eq, Rabs_R0 by reflexivity. lra. Qed.
Section rec3.
Variables (w : gravconst) (epoch : R) (l : tle_elems) (s sb s2 : satrec) (o : dsorb) (ss sl : dsbody) (gam : R) (m : body).
Hypothesis D : deep_rec w epoch l s sb s2 o ss sl gam m.
Let c := theory_w w.
Let n := n_orig c l.
Let a := a_orig c l.
Lemma rec_stays f : stable true f = true -> by_dscom f = false -> by_dsinit f = false -> num s f = num sb f.
Proof. intros A B C. rewrite (dr_num _ _ _ _ _ _ _ _ _ _ _ _ D) by exact A. apply (df_frame _ _ _ _ _ _ _ _ _ (dr_df _ _ _ _ _ _ _ _ _ _ _ D)); assumption. Qed.
Lemma rec_irez : irez s = irez s2 /\ irez s = ds_irez n (l_e0 l).
Proof.
  destruct (dr_same _ _ _ _ _ _ _ _ _ _ _ D) as (_ & X & _). split; [congruence|]. rewrite <- X.
  destruct (df_start _ _ _ _ _ _ _ _ _ (dr_df _ _ _ _ _ _ _ _ _ _ _ D)) as (-> & _). rewrite (df_frame _ _ _ _ _ _ _ _ _ (dr_df _ _ _ _ _ _ _ _ _ _ _ D)) by reflexivity.
  destruct (rec_elems _ _ _ _ _ _ _ _ _ _ _ D) as (_ & _ & _ & _ & _ & -> & _). destruct (rec_orbit _ _ _ _ _ _ _ _ _ _ _ D) as (_ & -> & _). reflexivity.
Qed.
Lemma rec_frame2 f : by_dscom f = false -> by_dsinit f = false -> num s2 f = num sb f.
Proof. intros A B. apply (df_frame _ _ _ _ _ _ _ _ _ (dr_df _ _ _ _ _ _ _ _ _ _ _ D)); assumption. Qed.
Lemma rec_half : irez s = 2%Z ->
  Forall2 (half_day_term n a (l_e0 l) (l_i0 l)) (half_day_terms s) half_day_table /\
  congruent (num s xlamo) (l_M0 l + 2 * l_node0 l - 2 * init_gsto epoch) /\
  num s no + num s xfact = M_rate c l + num s dmdt + 2 * (node_rate c l + num s dnodt - 4.37526908801129966e-3).
Proof.
  intros I2. destruct rec_irez as (I & _). rewrite I in I2.
  destruct (df_start _ _ _ _ _ _ _ _ _ (dr_df _ _ _ _ _ _ _ _ _ _ _ D)) as (_ & ST). destruct ST as (QP & _ & _ & _ & ST & _); [rewrite I2; discriminate|].
  destruct (ST I2) as (s1 & F1 & FV). clear ST.
  destruct (rec_elems _ _ _ _ _ _ _ _ _ _ _ D) as (EE & EI & EW & EN & EM & ENO & EMD & EWD & END). destruct (rec_orbit _ _ _ _ _ _ _ _ _ _ _ D) as (_ & _ & SI & CI).
  assert (NO : num s2 no = n) by (rewrite rec_frame2 by reflexivity; exact ENO). assert (GS : num s2 gsto = init_gsto epoch) by (rewrite rec_frame2 by reflexivity; apply (dr_gsto _ _ _ _ _ _ _ _ _ _ _ D)).
  rewrite NO, GS in FV.
  assert (AI : Rpower (n / xke (getgravconst w)) (2 / 3) = / a) by (apply (inv_a c l); [apply (dr_n _ _ _ _ _ _ _ _ _ _ _ D)|apply xke_pos]). rewrite AI in FV.
  assert (A0 : 0 < a) by apply exp_pos.
  assert (E1 : num s1 ecco = l_e0 l) by (rewrite F1 by (left; reflexivity); rewrite rec_frame2 by reflexivity; exact EE).
  destruct (inc_kaula (l_i0 l)) as (K1 & K2 & K3 & K4 & K5 & K6 & K7 & K8). destruct (inc_near (l_i0 l)) as (B1 & B2). destruct (ecc_ok (l_e0 l)) as (G1 & G2 & G3 & G4 & G5 & G6 & G7 & G8 & G9 & G10).
  split; [|split].
  - unfold half_day_terms. rewrite !(dr_num _ _ _ _ _ _ _ _ _ _ _ _ D) by reflexivity. rewrite !FV by (cbn [In]; tauto). unfold ds_half. gs. rewrite E1, SI, CI.
    rewrite G1, G2, G3, G4, G5, G6, G7, G8, G9, G10. rewrite K1, K2, K3, K4, K5, K6, K7, K8.
    unfold half_day_table. repeat constructor; cbn [half_day_term t_l t_m t_p t_G t_D]; try reflexivity.
    7: exists (f522 (ds_inc (sin (l_i0 l)) (cos (l_i0 l)))); split; [|split; [exact B1|congruence]].
    8: exists (f523 (ds_inc (sin (l_i0 l)) (cos (l_i0 l)))); split; [|split; [exact B2|congruence]].
    all: try (eexists; split; [|split; [apply exact_term; reflexivity|intros _; reflexivity]]).
    all: cbv [Z.to_nat Pos.to_nat Pos.iter_op Nat.add]; fold root22 root32 root44 root52 root54; generalize root22 root32 root44 root52 root54; generalize (ecc_fun); generalize kaula; intros; try (field; lra).
  - rewrite (dr_num _ _ _ _ _ _ _ _ _ _ _ _ D) by reflexivity. rewrite FV by (cbn [In]; tauto). unfold ds_half. gs.
    rewrite !F1 by (left; reflexivity). rewrite !rec_frame2 by reflexivity. rewrite EM, EN.
    match goal with |- congruent (fmod2pi ?x) _ => destruct (fmod_turns x) as (k & ->) end. destruct (fmod_turns (init_gsto epoch)) as (j & ->).
    exists (k - 2 * j)%Z. rewrite minus_IZR, mult_IZR. ring.
  - rewrite !(dr_num _ _ _ _ _ _ _ _ _ _ _ _ D) by reflexivity. rewrite (FV xfact) by (cbn [In]; tauto). unfold ds_half. gs.
    rewrite !F1 by (first [left; reflexivity | right; cbn [In]; tauto]). rewrite (rec_frame2 no), (rec_frame2 mdot), (rec_frame2 nodedot) by reflexivity. rewrite EMD, END, ENO. fold rptim. generalize rptim. intros. fold c n. ring.
Qed.
Lemma rec_sync : irez s = 1%Z ->
  Forall2 (one_day_term n a (l_e0 l) (l_i0 l)) (one_day_terms s) one_day_table /\
  congruent (num s xlamo) (l_M0 l + l_node0 l + l_w0 l - init_gsto epoch) /\
  num s no + num s xfact = M_rate c l + w_rate c l + node_rate c l + num s dmdt + num s domdt + num s dnodt - 4.37526908801129966e-3.
Proof.
  intros I2. destruct rec_irez as (I & _). rewrite I in I2.
  destruct (df_start _ _ _ _ _ _ _ _ _ (dr_df _ _ _ _ _ _ _ _ _ _ _ D)) as (_ & ST). destruct ST as (QP & _ & _ & _ & _ & ST); [rewrite I2; discriminate|].
  destruct (ST I2) as (s1 & F1 & FV). clear ST.
  destruct (rec_elems _ _ _ _ _ _ _ _ _ _ _ D) as (EE & EI & EW & EN & EM & ENO & EMD & EWD & END). destruct (rec_orbit _ _ _ _ _ _ _ _ _ _ _ D) as (E2 & _ & SI & CI).
  assert (NO : num s2 no = n) by (rewrite rec_frame2 by reflexivity; exact ENO). assert (GS : num s2 gsto = init_gsto epoch) by (rewrite rec_frame2 by reflexivity; apply (dr_gsto _ _ _ _ _ _ _ _ _ _ _ D)).
  rewrite NO, GS in FV.
  assert (AI : Rpower (n / xke (getgravconst w)) (2 / 3) = / a) by (apply (inv_a c l); [apply (dr_n _ _ _ _ _ _ _ _ _ _ _ D)|apply xke_pos]). rewrite AI in FV.
  assert (A0 : 0 < a) by apply exp_pos. destruct (sync_kaula (l_i0 l)) as (K1 & K2 & K3).
  split; [|split].
  - unfold one_day_terms. rewrite !(dr_num _ _ _ _ _ _ _ _ _ _ _ _ D) by reflexivity. rewrite !FV by (cbn [In]; tauto). unfold ds_sync. gs. rewrite SI, CI, E2.
    rewrite K1, K2, K3. unfold one_day_table. repeat constructor; cbn [one_day_term]; cbv [Z.to_nat Pos.to_nat Pos.iter_op Nat.add]; unfold ecc_fun_day.
    all: try reflexivity; fold q31 q22 q33; generalize q31 q22 q33; replace 6.60937 with (660937 / 100000) by lra; generalize kaula; intros; rewrite ?(ltac:(lra) : - 2.5 = - (5 / 2)), ?(ltac:(lra) : -2.5 = - (5 / 2)), ?(ltac:(lra) : 0.8125 = 13 / 16); try (field; lra).
  - rewrite (dr_num _ _ _ _ _ _ _ _ _ _ _ _ D) by reflexivity. rewrite FV by (cbn [In]; tauto). unfold ds_sync. gs.
    rewrite !F1 by (left; reflexivity). rewrite !rec_frame2 by reflexivity. rewrite EM, EN, EW.
    match goal with |- congruent (fmod2pi ?x) _ => destruct (fmod_turns x) as (k & ->) end. destruct (fmod_turns (init_gsto epoch)) as (j & ->).
    exists (k - j)%Z. rewrite minus_IZR. ring.
  - rewrite !(dr_num _ _ _ _ _ _ _ _ _ _ _ _ D) by reflexivity. rewrite (FV xfact) by (cbn [In]; tauto). unfold ds_sync. gs.
    rewrite !F1 by (first [left; reflexivity | right; cbn [In]; tauto]). rewrite (rec_frame2 no), (rec_frame2 mdot), (rec_frame2 nodedot), (rec_frame2 argpdot) by reflexivity. rewrite EMD, EWD, END, ENO. fold rptim. generalize rptim. intros. fold c n. ring.
Qed.
End rec3.
