(** Element lines; the orbit object; drift of the node. *)
From Coq Require Import Reals Lra Lia Psatz List Bool ZArith.
From Verif Require Import RBase VecModel VecProofs Trig SensorModel JulianModel JulianProofs OeProofs Sgp4Model Sgp4Spec Sgp4Proofs Sgp4Loop Sgp4Kepler Sgp4Geom Sgp4Init
  Sgp4Near Sgp4Total Sgp4Fair Sgp4Runs.
Import ListNotations.
Open Scope R_scope.

(** the scanned numbers as an element set of the theory *)
Definition elements (l : tle) : tle_elems :=
  line_elems (l_bstar l) (l_ibexp l) (l_ecc l) (l_argp l) (l_incl l) (l_m l) (l_n l) (l_node l).
Lemma xpd : xpdotp <> 0 /\ 0 < xpdotp.
Proof. unfold xpdotp. pose proof PI_RGT_0. assert (0 < 1440 / (2 * PI)) by (apply Rdiv_lt_0_compat; lra). split; lra. Qed.
Lemma tle_init deepinit w l s0 : 0 < l_n l -> exists s1, num s1 jdsatepoch = tle_epoch l /\
  twoline2rv deepinit w l s0 = init_with deepinit w (tle_epoch l - 2433281.5) (elements l) s1.
Proof.
  intros N. pose proof xpd as (X0 & X1). pose proof (xke_pos w) as KP. unfold twoline2rv, tumin. rewrite fpow_ok.
  2: { apply Rmult_lt_0_compat; apply Rdiv_lt_0_compat; lra. }
  cbn [rbind]. match goal with |- context [sgp4init _ _ _ _ _ _ _ _ _ _ ?s] => exists s end. split.
  - repeat first [rewrite set_same | rewrite set_other by discriminate]. reflexivity.
  - unfold init_with, elements, line_elems, pow10, deg2rad. cbn [l_B l_e0 l_w0 l_i0 l_M0 l_n0 l_node0]. f_equal. unfold xpdotp. field. pose proof PI_RGT_0. lra.
Qed.
Lemma tle_n_pos deepinit w l s0 s : twoline2rv deepinit w l s0 = Val s -> 0 < l_n l.
Proof.
  unfold twoline2rv. intros H. apply rbind_val in H. destruct H as (a & H & _). apply fpow_val in H. destruct H as (H & _). pose proof xpd as (X0 & X1).
  unfold tumin in H. pose proof (xke_pos w) as KP. assert (K : 0 < 1 / xke (getgravconst w)) by (apply Rdiv_lt_0_compat; lra).
  assert (Q : l_n l / xpdotp * xpdotp = l_n l) by (field; lra). set (q := l_n l / xpdotp) in *. set (k := 1 / xke (getgravconst w)) in *. assert (0 < q) by nra. nra.
Qed.
Lemma epoch_jd l : 1 <= l_epochdays l ->
  tle_epoch l = IZR (jdn (full_year (l_epochyr l)) 1 1) - 1 / 2 + (l_epochdays l - 1).
Proof.
  intros D. unfold tle_epoch. pose proof (mdhms_spec (full_year (l_epochyr l)) (l_epochdays l) D) as H. cbv zeta in H.
  destruct H as (_ & _ & _ & _ & _ & _ & H & _). rewrite jday_jdn. lra.
Qed.
Lemma year_window y : (0 <= y <= 99)%Z -> (1957 <= full_year y <= 2056)%Z /\ (full_year y mod 100 = y)%Z.
Proof.
  intros H. unfold full_year. destruct (Z.ltb_spec y 57); (split; [lia|]).
  - replace (y + 2000)%Z with (y + 20 * 100)%Z by lia. rewrite Z_mod_plus_full. apply Z.mod_small. lia.
  - replace (y + 1900)%Z with (y + 19 * 100)%Z by lia. rewrite Z_mod_plus_full. apply Z.mod_small. lia.
Qed.
(** a report of the object: position and velocity are 1000 times those of the theory *)
Lemma propagate_near w l s o o' jd : o_wgs o = w -> o_enabled o = true -> deep s = false -> coef_facts (getgravconst w) l s ->
  (lowp (getgravconst w) l = false -> high_facts (getgravconst w) l s) -> 0 < n_orig (theory_w w) l -> same s (o_sat o) ->
  propagate o jd = Val (Some o') ->
  exists r v, str3_report (theory_w w) l ((jd - num s jdsatepoch) * 1440) (Some (r, v)) (error (o_sat o')) /\
    (forall i, o_pos o' i = r i * 1000) /\ (forall i, o_vel o' i = v i * 1000).
Proof.
  intros W E DS CF HF N SM H. unfold propagate in H. rewrite E in H. apply rbind_val in H. destruct H as ([s' out] & H1 & H).
  apply Val_inj in H. destruct out as [[r v]|]; [|discriminate]. injection H as <-. cbn [o_sat o_pos o_vel]. exists r, v. split; [|now split].
  assert (J : num (o_sat o) jdsatepoch = num s jdsatepoch) by (destruct SM as (_ & _ & _ & X); symmetry; apply X, stable_jd).
  replace ((jd - num s jdsatepoch) * 1440) with ((jd - num (o_sat o) jdsatepoch) * (24 * 60)) by (rewrite J; ring).
  assert (D1 : deep (o_sat o) = false) by (destruct SM as (_ & _ & X & _); congruence). rewrite W in H1.
  eapply near_report; try eassumption; [eapply coef_same; eassumption|intros L; eapply high_same; [eassumption|exact DS|now apply HF]].
Qed.

Section drift.
Variables (w : gravconst) (l : tle_elems).
Let c := theory_w w.
Hypothesis F : fair_orbit c l.
Lemma node_drift : exists K, 0 < K /\ forall t, l_B l = 0 -> m_node (secular_at c l t) = l_node0 l - K * cos (l_i0 l) * t.
Proof.
  destruct (n_fair w l F) as (N & _). destruct (a_fair w l F) as (A & P). destruct (beta_facts w l F) as (B & BB). destruct (ecc_small w l F) as (_ & _ & E1 & E0).
  fold c in N, A, P. set (a := a_orig c l) in *. set (n := n_orig c l) in *. set (b := beta l) in *. set (th := cos (l_i0 l)).
  pose proof (COS_bound (l_i0 l)) as CB. fold th in CB. pose proof (j2_bounds w) as J2. pose proof (j4_bounds w) as J4.
  set (k2 := c_k2 c). set (k4 := c_k4 c).
  assert (K2 : 0.00054 < k2 < 0.000546) by (unfold k2, c, theory_w, theory_of; cbn [c_k2]; lra).
  assert (K4 : 0 < k4 < 0.00000064) by (unfold k4, c, theory_w, theory_of; cbn [c_k4]; lra).
  set (p := a * b ^ 2). assert (PP : 1 < p). { unfold p. rewrite BB. nra. }
  set (x := / p). assert (X : 0 < x < 1). { unfold x. split; [apply Rinv_0_lt_compat; lra|]. rewrite <- Rinv_1. apply Rinv_lt_contravar; lra. }
  exists (n * (3 * k2 * x ^ 2 - (3 / 2 * k2 ^ 2 * (4 - 19 * th ^ 2) + 5 / 2 * k4 * (3 - 7 * th ^ 2)) * x ^ 4)). split.
  - apply Rmult_lt_0_compat; [exact N|].
    assert (T : 0 <= th ^ 2 <= 1) by nra. assert (Q : 3 / 2 * k2 ^ 2 * (4 - 19 * th ^ 2) + 5 / 2 * k4 * (3 - 7 * th ^ 2) <= 0.00001).
    { assert (k2 ^ 2 <= 0.0000003) by nra. assert (0 <= k2 ^ 2) by nra. nra. }
    replace (x ^ 4) with (x ^ 2 * x ^ 2) by ring. assert (0 < x ^ 2 < 1) by nra. set (y := x ^ 2) in *. nra.
  - intros t BZ. assert (C1Z : C1 c l = 0) by (unfold C1; rewrite BZ; ring).
    assert (M : m_node (secular_at c l t) = l_node0 l + node_rate c l * t).
    { unfold secular_at. rewrite C1Z. destruct (Rlt_dec _ 220); cbn [m_node]; ring. }
    rewrite M. unfold node_rate. fold th n a b k2 k4. unfold x, p. field. split; nra.
Qed.
End drift.
