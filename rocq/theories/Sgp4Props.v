(** C125-C131: the SGP4 propagator. *)
From Coq Require Import Reals Lra Lia Psatz List Bool ZArith.
From Verif Require Import RBase VecModel VecProofs Trig SensorModel JulianModel JulianProofs OeProofs TimeSpec JulianProps Sgp4Model Sgp4Spec Sgp4Proofs Sgp4Loop Sgp4Kepler
  Sgp4Geom Sgp4Init Sgp4Near Sgp4Total Sgp4Fair Sgp4Runs Sgp4Tle Sgp4Lost.
Import ListNotations.
Open Scope R_scope.

(** ** C125: the report for a time does not depend on earlier propagations *)
(** [report] keeps the error code and the position and velocity *)
Theorem C125_history : forall w s ts s' t, sgp4_runs w s ts = Val s' -> report (sgp4 w s' t) = report (sgp4 w s t).
Proof. intros w s ts s' t H. symmetry. apply sgp4_same. now apply runs_same in H. Qed.
Print Assumptions C125_history.
(** the orbit object: after any calls, an enabled propagation shows what it would have shown at the start *)
Theorem C125_object_history : forall o ks o' jd, perform_all o ks = Val (Some o') ->
  seen (propagate (set_enabled true o') jd) = seen (propagate (set_enabled true o) jd).
Proof. intros o ks o' jd H. destruct (perform_keeps _ _ _ H) as (A & B & C). now apply seen_same. Qed.
Print Assumptions C125_object_history.
Theorem C125_disabled : forall o jd, propagate (set_enabled false o) jd = Val (Some (set_enabled false o)).
Proof. reflexivity. Qed.
Print Assumptions C125_disabled.

(** ** C126: error codes *)
Theorem C126_codes : forall w s t s' out, sgp4 w s t = Val (s', out) ->
  (error s' = 0 \/ error s' = 1 \/ error s' = 3 \/ error s' = 6)%Z /\
  (error s' = 3%Z -> deep s = true) /\
  (out = None -> error s' = 6%Z) /\
  (forall r v, out = Some (r, v) -> error s' <> 6%Z -> (radiusearthkm (getgravconst w)) ^ 2 <= sqnorm r).
Proof.
  intros w s t s' out H. destruct (sgp4_code _ _ _ _ _ H) as (s1 & E1 & [(-> & E6)|(r & v & mrt & -> & SN & LO & HI)]).
  - rewrite E6. repeat split; auto; discriminate.
  - pose proof (re_bounds w) as RE. destruct (Rlt_dec mrt 1) as [L|L].
    + rewrite (LO L). repeat split; auto; try discriminate. intros r' v' _ N. now elim N.
    + rewrite HI by lra. split; [tauto|]. split; [intros E3; destruct E1 as [E1|[E1|[_ E1]]]; [lia|lia|exact E1]|]. split; [discriminate|]. intros r' v' E _. injection E as <- <-. rewrite SN. set (re := radiusearthkm (getgravconst w)) in *. apply pow_incr. assert (1 <= mrt) by lra. nra.
Qed.
Print Assumptions C126_codes.
(** the initialisation of a near-Earth satellite reports 5 exactly for a perigee inside the Earth; the next propagation replaces it *)
Theorem C126_initial_code : forall deepinit w epoch l s0 s, init_with deepinit w epoch l s0 = Val s -> near_earth w l ->
  (error s = 5%Z <-> a_orig (theory_w w) l * (1 - l_e0 l) < 1) /\
  (forall t s' out, sgp4 w s t = Val (s', out) -> error s' <> 5%Z).
Proof.
  intros deepinit w epoch l s0 s H NE. destruct (init_inv _ _ _ _ _ _ H NE) as (_ & _ & _ & _ & _ & _ & _ & LO & HI).
  assert (X : forall s1 t s' out, sgp4 w s1 t = Val (s', out) -> error s' <> 5%Z).
  { intros s1 t s' out H1. apply C126_codes in H1. destruct H1 as (H1 & _). lia. }
  split; [|intros t s' out; apply X]. split; [|exact LO].
  intros E. destruct (Rlt_dec (a_orig (theory_w w) l * (1 - l_e0 l)) 1) as [L|L]; [exact L|]. exfalso. destruct (HI ltac:(lra)) as (s3 & o & R). now apply X in R.
Qed.
Print Assumptions C126_initial_code.
(** an element set well inside the theory, initialised without error, for which there is a time (in the past) at which the propagator
    writes neither position nor velocity; the orbit object then copies uninitialised variables *)
Theorem C126_position_always_given_refuted :
  ~ (forall w deepinit epoch l s0 s t s' out, fair_orbit (theory_w w) l -> init_with deepinit w epoch l s0 = Val s -> error s = 0%Z ->
      sgp4 w s t = Val (s', out) -> out <> None).
Proof.
  intros X. set (w := Wgs84). pose proof (lost_fair w (l_M0 (lost_set w))) as F. change (lost_elems w (l_M0 (lost_set w))) with (lost_set w) in F.
  destruct (init_ok w (lost_set w) F (fun _ _ s => Val s) 0 (mkSat (fun _ => 0) 0 0 false 0)) as (s & I & E & D & CF & HF).
  destruct (lost_report w s D CF HF) as (s' & R & _). exact (X _ _ _ _ _ _ _ _ _ F I E R eq_refl).
Qed.
Print Assumptions C126_position_always_given_refuted.
Theorem C126_object_without_position : exists w s jd, forall p v a,
  propagate (mkOrb w s true p v a) jd = Val None.
Proof.
  set (w := Wgs84). pose proof (lost_fair w (l_M0 (lost_set w))) as F. change (lost_elems w (l_M0 (lost_set w))) with (lost_set w) in F.
  destruct (init_ok w (lost_set w) F (fun _ _ s => Val s) 0 (mkSat (fun _ => 0) 0 0 false 0)) as (s & I & E & D & CF & HF).
  destruct (lost_report w s D CF HF) as (s' & R & _). exists w, s, (lost_time w / 1440 + num s jdsatepoch). intros p v a.
  unfold propagate. cbn [o_enabled o_sat o_wgs].
  replace ((lost_time w / 1440 + num s jdsatepoch - num s jdsatepoch) * (24 * 60)) with (lost_time w) by field. rewrite R. reflexivity.
Qed.
Print Assumptions C126_object_without_position.

(** ** C127: resonances of deep space satellites *)
(** the rates at resonance angle lambda, mean motion and time; [half_day_terms] and [one_day_terms] list the terms with their phases *)
Definition resonance_rates (s : satrec) (lambda motion t : R) : R * R * R :=
  if (irez s =? 2)%Z then half_day_rates (half_day_terms s) (num s argpo + num s argpdot * t) lambda (motion + num s xfact)
  else one_day_rates (one_day_terms s) lambda (motion + num s xfact).
Lemma rates_eq s : ds_dots s = resonance_rates s.
Proof.
  do 3 (apply FunctionalExtensionality.functional_extensionality; intro). unfold resonance_rates.
  destruct (Z.eqb_spec (irez s) 2) as [E|E]; [now apply half_day|now apply one_day].
Qed.
(** the angle and the mean motion are integrated from the epoch in steps of 720 minutes towards t, as many as fit, and one shorter step *)
Theorem C127_resonance : forall s t tc x, irez s <> 0%Z -> exists n s' x', dspace s t tc x = Val (s', x') /\
  INR n * 720 <= Rabs t < INR (n + 1) * 720 /\
  let h := if Rlt_dec 0 t then 720 else -720 in
  let '(lambda, motion) := march_to (resonance_rates s) h n (t - INR n * h) (num s xlamo) (num s no) in
  let theta := fmod2pi (num s gsto + tc * 4.37526908801129966e-3) in
  nm x' = motion /\
  mm x' = (if (irez s =? 1)%Z then lambda - nodem x' - argpm x' + theta else lambda - 2 * nodem x' + 2 * theta) /\
  em x' = em x + num s dedt * t /\ inclm x' = inclm x + num s didt * t /\ argpm x' = argpm x + num s domdt * t /\ nodem x' = nodem x + num s dnodt * t.
Proof.
  intros s t tc x I. destruct (dspace_result s t tc x I) as (n & s' & x' & E & B & _ & R). exists n, s', x'. split; [exact E|]. split; [exact B|].
  rewrite rates_eq in R. unfold hstep, rlt in R. cbn zeta. destruct (Rlt_dec 0 t); exact R.
Qed.
Print Assumptions C127_resonance.
(** without resonance: linear in time *)
Theorem C127_no_resonance : forall s t tc x, irez s = 0%Z -> exists s', dspace s t tc x =
  Val (s', mkSec (em x + num s dedt * t) (argpm x + num s domdt * t) (inclm x + num s didt * t) (mm x + num s dmdt * t) (nodem x + num s dnodt * t) (nm x)).
Proof. intros s t tc x I. now apply dspace_no_resonance. Qed.
Print Assumptions C127_no_resonance.
(** a propagation ends for every record and every time *)
Theorem C127_ends : forall w s t, sgp4 w s t <> NoEnd.
Proof. apply sgp4_ends. Qed.
Print Assumptions C127_ends.

(** ** C128: near-Earth satellites follow Spacetrack Report No. 3 *)
Theorem C128_spacetrack_report_3 : forall deepinit w epoch l s0 s,
  sgp4init deepinit w epoch (l_B l) (l_e0 l) (l_w0 l) (l_i0 l) (l_M0 l) (l_n0 l) (l_node0 l) s0 = Val s ->
  2 * PI / n_orig (theory_w w) l < 225 ->
  forall ts s1 t s2 out, sgp4_runs w s ts = Val s1 -> sgp4 w s1 t = Val (s2, out) ->
  str3_report (theory_w w) l t out (error s2).
Proof.
  intros deepinit w epoch l s0 s H NE ts s1 t s2 out R H2. destruct (init_inv _ _ _ _ _ _ H NE) as (DS & CF & HF & N & _).
  apply runs_same in R. assert (D1 : deep s1 = false) by (destruct R as (_ & _ & X & _); congruence).
  apply (near_report w l s1 t s2 out D1); [eapply coef_same; eassumption|intros L; eapply high_same; [eassumption|exact DS|now apply HF]|exact N|exact H2].
Qed.
Print Assumptions C128_spacetrack_report_3.
(** the equations leave no freedom *)
Theorem C128_report_determined : forall c l t o z o' z', str3_report c l t o z -> str3_report c l t o' z' ->
  z = z' /\ match o, o' with None, None => True | Some (r, v), Some (r', v') => same_vec r r' /\ same_vec v v' | _, _ => False end.
Proof. intros c l t o z o' z' A B. destruct (report_determined _ _ _ _ _ _ _ A B) as (C & D). split; [exact D|exact C]. Qed.
Print Assumptions C128_report_determined.
(** the constants: gravitational parameter, Earth radius, zonal harmonics J2, J3, J4 of the three models *)
Theorem C128_constants : forall w,
  let '(mu_, re, J2, J3, J4) := match w with
    | Wgs84 => (398600.5, 6378.137, 0.00108262998905, -0.00000253215306, -0.00000161098761)
    | Wgs72 => (398600.8, 6378.135, 0.001082616, -0.00000253881, -0.00000165597)
    | Wgs72old => (398600.79964, 6378.135, 0.001082616, -0.00000253881, -0.00000165597)
    end in
  c_re (theory_w w) = re /\ c_k2 (theory_w w) = J2 / 2 /\ c_k4 (theory_w w) = - 3 * J4 / 8 /\ c_A30 (theory_w w) = - J3 /\
  (w <> Wgs72old -> c_ke (theory_w w) ^ 2 * (re ^ 3 / mu_) = 3600) /\
  (w = Wgs72old -> c_ke (theory_w w) = 0.0743669161).
Proof.
  intros w. assert (K : forall r m, 0 < r -> 0 < m -> (60 / sqrt (r * r * r / m)) ^ 2 * (r ^ 3 / m) = 3600).
  { intros r m R M. assert (P : 0 < r * r * r / m) by (apply Rdiv_lt_0_compat; [repeat apply Rmult_lt_0_compat; exact R|exact M]).
    pose proof (sqrt_sqrt _ (Rlt_le _ _ P)) as Q. pose proof (sqrt_lt_R0 _ P) as S0. replace (r ^ 3 / m) with (r * r * r / m) by (field; lra).
    set (x := r * r * r / m) in *. set (y := sqrt x) in *. rewrite <- Q. field. lra. }
  destruct w; cbn [theory_w theory_of getgravconst c_re c_k2 c_k4 c_A30 c_ke radiusearthkm j2 j3 j4 xke]; repeat split; try lra; try discriminate; try congruence; intros _; apply K; lra.
Qed.
Print Assumptions C128_constants.

(** ** C129: Kepler's equation *)
(** up to eccentricity 0.4 the result is that of a number within 2.4e-12 of the only solution *)
Theorem C129_kepler_accurate : forall u ax ay, ax * ax + ay * ay <= 0.16 ->
  exists x, kepler u ax ay = Val (sin x, cos x) /\ Rabs (kepler_residual u ax ay x) <= 1.4e-12 /\
    exists x0, kepler_residual u ax ay x0 = 0 /\ Rabs (x - x0) <= 2.4e-12 /\ forall x1, kepler_residual u ax ay x1 = 0 -> x1 = x0.
Proof. apply kepler_accurate. Qed.
Print Assumptions C129_kepler_accurate.
(** whenever a result comes, it is the estimate at which Newton's method with limited corrections stops; below eccentricity 1 a result comes *)
Theorem C129_newton : forall u ax ay,
  (forall sE cE, kepler u ax ay = Val (sE, cE) -> exists j, newton_stops u ax ay j /\ sE = sin (estimate u ax ay j) /\ cE = cos (estimate u ax ay j)) /\
  (ax * ax + ay * ay < 1 -> exists sE cE, kepler u ax ay = Val (sE, cE)).
Proof.
  intros u ax ay. split; [|apply kepler_finite]. intros sE cE K. destruct (kepler_turns _ _ _ _ _ K) as (j & J & A & B & C & D). exists j.
  split; [split; [exact J|split; [exact C|exact D]]|split; assumption].
Qed.
Print Assumptions C129_newton.

(** ** C130: element sets well inside the theory *)
Theorem C130_initialises : forall w l deepinit epoch s0, fair_orbit (theory_w w) l ->
  exists s, sgp4init deepinit w epoch (l_B l) (l_e0 l) (l_w0 l) (l_i0 l) (l_M0 l) (l_n0 l) (l_node0 l) s0 = Val s /\ error s = 0%Z.
Proof. intros w l deepinit epoch s0 F. destruct (init_ok w l F deepinit epoch s0) as (s & H & E & _). exists s. now split. Qed.
Print Assumptions C130_initialises.
(** without drag at every time, and with any drag at epoch, whatever was propagated before: no error, and the distance from the Earth's
    centre is that of the two-body ellipse up to 0.02 Earth radii, and not below the surface *)
Theorem C130_drag_free : forall w l deepinit epoch s0 s ts s1 t, fair_orbit (theory_w w) l -> l_B l = 0 \/ t = 0 ->
  sgp4init deepinit w epoch (l_B l) (l_e0 l) (l_w0 l) (l_i0 l) (l_M0 l) (l_n0 l) (l_node0 l) s0 = Val s -> sgp4_runs w s ts = Val s1 ->
  exists s2 r v rk, sgp4 w s1 t = Val (s2, Some (r, v)) /\ error s2 = 0%Z /\ sqnorm r = (rk * c_re (theory_w w)) ^ 2 /\ 1 <= rk /\
    two_body_a (theory_w w) l * (1 - l_e0 l) - 0.02 <= rk <= two_body_a (theory_w w) l * (1 + l_e0 l) + 0.02.
Proof.
  intros w l deepinit epoch s0 s ts s1 t F B H R. destruct (n_fair w l F) as (NP & NE). destruct (init_inv deepinit w epoch l s0 s H NE) as (DS & CF & HF & _).
  apply runs_same in R. assert (D1 : deep s1 = false) by (destruct R as (_ & _ & X & _); congruence).
  destruct (fair_report w l F s1 t D1 (coef_same _ _ _ _ R DS CF) (fun L => high_same _ _ _ _ R DS (HF L)) B) as (s2 & r & v & E & C & rk & Q).
  exists s2, r, v, rk. tauto.
Qed.
Print Assumptions C130_drag_free.
(** the node moves at a constant rate whose sign is opposite to that of the cosine of the inclination *)
Theorem C130_node_drift : forall w l, fair_orbit (theory_w w) l -> l_B l = 0 ->
  exists K, 0 < K /\ forall t, m_node (secular_at (theory_w w) l t) = l_node0 l - K * cos (l_i0 l) * t.
Proof. intros w l F B. destruct (node_drift w l F) as (K & P & H). exists K. split; [exact P|]. intros t. now apply H. Qed.
Print Assumptions C130_node_drift.

(** ** C131: two line elements and the orbit object *)
(** two digit years are those from 1957 to 2056 *)
Theorem C131_year : forall y, (0 <= y <= 99)%Z -> (1957 <= full_year y <= 2056)%Z /\ (full_year y mod 100 = y)%Z.
Proof. apply year_window. Qed.
Print Assumptions C131_year.
(** the epoch is the day of the year, counted from 1, and its fraction *)
Theorem C131_epoch : forall l, 1 <= l_epochdays l ->
  tle_epoch l = jday (full_year (l_epochyr l)) 1 1 0 0 0 + (l_epochdays l - 1) /\
  ((1970 <= full_year (l_epochyr l) <= 2099)%Z -> tle_epoch l = 2440587.5 + IZR (day_number leap_gregorian (full_year (l_epochyr l)) 1 1) + (l_epochdays l - 1)).
Proof.
  intros l D. assert (E : tle_epoch l = jday (full_year (l_epochyr l)) 1 1 0 0 0 + (l_epochdays l - 1)) by (rewrite (epoch_jd l D), jday_jdn; lra).
  split; [exact E|]. intros Y. rewrite E, C108_julian_date_1970; [lra|exact Y|]. unfold is_date, month_length. cbn. lia.
Qed.
Print Assumptions C131_epoch.
(** the object after construction and any calls: for a period below 225 minutes it shows, in metres and metres per second, what the
    theory gives for the minutes since the epoch; it starts disabled and its acceleration is always 0 *)
Theorem C131_orbit_object : forall deepinit setting l s0 jd0 o, orbit_new deepinit setting l s0 jd0 = Val (Some o) ->
  exists w, nth_error [Wgs72old; Wgs72; Wgs84] (Z.to_nat setting) = Some w /\ (0 <= setting <= 2)%Z /\ o_enabled o = false /\
  let e := line_elems (l_bstar l) (l_ibexp l) (l_ecc l) (l_argp l) (l_incl l) (l_m l) (l_n l) (l_node l) in
  let shows o jd := exists r v, str3_report (theory_w w) e ((jd - tle_epoch l) * 1440) (Some (r, v)) (error (o_sat o)) /\
                                (forall i, o_pos o i = r i * 1000) /\ (forall i, o_vel o i = v i * 1000) in
  (2 * PI / n_orig (theory_w w) e < 225 -> shows o jd0) /\
  forall ks o1, perform_all o ks = Val (Some o1) -> (forall i, o_acc o1 i = 0) /\
    (2 * PI / n_orig (theory_w w) e < 225 -> forall jd o2, propagate (set_enabled true o1) jd = Val (Some o2) -> shows o2 jd).
Proof.
  intros deepinit setting l s0 jd0 o H. unfold orbit_new in H. destruct (wgs_of setting) as [w|] eqn:W; [|discriminate].
  exists w. assert (WS : nth_error [Wgs72old; Wgs72; Wgs84] (Z.to_nat setting) = Some w /\ (0 <= setting <= 2)%Z).
  { unfold wgs_of in W. destruct (Z.eqb_spec setting 0) as [->|]; [injection W as <-; split; [reflexivity|lia]|].
    destruct (Z.eqb_spec setting 1) as [->|]; [injection W as <-; split; [reflexivity|lia]|]. destruct (Z.eqb_spec setting 2) as [->|]; [injection W as <-; split; [reflexivity|lia]|discriminate]. }
  split; [tauto|]. split; [tauto|]. clear WS W. apply rbind_val in H. destruct H as (s & HS & H). apply rbind_val in H. destruct H as ([o0|] & HP & H); apply Val_inj in H; [|discriminate].
  injection H as <-. cbn [set_enabled o_enabled o_sat o_pos o_vel]. split; [reflexivity|]. change (line_elems _ _ _ _ _ _ _ _) with (elements l). cbn zeta.
  pose proof (tle_n_pos _ _ _ _ _ HS) as LN. destruct (tle_init deepinit w l s0 LN) as (s1 & J1 & EQ). rewrite EQ in HS. clear EQ.
  destruct (propagate_keeps _ _ _ HP) as (W0 & S0 & A0 & E0). cbn [o_wgs o_sat o_acc o_enabled] in W0, S0, A0, E0.
  assert (NEAR : 2 * PI / n_orig (theory_w w) (elements l) < 225 ->
    forall oa ob jd, o_wgs oa = w -> o_enabled oa = true -> same s (o_sat oa) -> propagate oa jd = Val (Some ob) ->
    exists r v, str3_report (theory_w w) (elements l) ((jd - tle_epoch l) * 1440) (Some (r, v)) (error (o_sat ob)) /\ (forall i, o_pos ob i = r i * 1000) /\ (forall i, o_vel ob i = v i * 1000)).
  { intros NE oa ob jd WA EA SA P. destruct (init_inv _ _ _ _ _ _ HS NE) as (DS & CF & HF & N & _ & _ & JD & _). rewrite J1 in JD. rewrite <- JD.
    apply (propagate_near w (elements l) s oa ob jd); assumption. }
  split.
  - intros NE. eapply NEAR; [exact NE| | | |exact HP]; [reflexivity|reflexivity|apply same_refl].
  - intros ks o1 K. destruct (perform_keeps _ _ _ K) as (W1 & S1 & A1). cbn [set_enabled o_wgs o_sat o_acc] in W1, S1, A1. split.
    + intros i. rewrite A1, A0. reflexivity.
    + intros NE jd o2 P. eapply NEAR; [exact NE| | | |exact P]; cbn [set_enabled o_wgs o_enabled o_sat]; [congruence|reflexivity|eapply same_trans; eassumption].
Qed.
Print Assumptions C131_orbit_object.
(** any other setting leaves the gravity model uninitialised *)
Theorem C131_unknown_setting : forall deepinit setting l s0 jd, ~ (0 <= setting <= 2)%Z -> orbit_new deepinit setting l s0 jd = Val None.
Proof.
  intros deepinit setting l s0 jd H. unfold orbit_new, wgs_of. rewrite !(proj2 (Z.eqb_neq _ _)) by lia. reflexivity.
Qed.
Print Assumptions C131_unknown_setting.
(** an element set well inside the theory always gives an object without error when it is constructed at the epoch or has no drag *)
Theorem C131_construction : forall deepinit setting w l s0 jd,
  nth_error [Wgs72old; Wgs72; Wgs84] (Z.to_nat setting) = Some w -> (0 <= setting)%Z ->
  fair_orbit (theory_w w) (line_elems (l_bstar l) (l_ibexp l) (l_ecc l) (l_argp l) (l_incl l) (l_m l) (l_n l) (l_node l)) ->
  l_bstar l = 0 \/ jd = tle_epoch l ->
  exists o, orbit_new deepinit setting l s0 jd = Val (Some o) /\ error (o_sat o) = 0%Z.
Proof.
  intros deepinit setting w l s0 jd W S0 F B. change (line_elems _ _ _ _ _ _ _ _) with (elements l) in F.
  assert (WS : wgs_of setting = Some w).
  { unfold wgs_of. destruct (Z.eqb_spec setting 0) as [->|]; [exact W|]. destruct (Z.eqb_spec setting 1) as [->|]; [exact W|]. destruct (Z.eqb_spec setting 2) as [->|]; [exact W|].
    assert (X : (3 <= Z.to_nat setting)%nat) by lia. pose proof (proj2 (nth_error_None [Wgs72old; Wgs72; Wgs84] (Z.to_nat setting)) X). congruence. }
  assert (LN : 0 < l_n l). { destruct F as (N & _). unfold elements, line_elems in N. cbn [l_n0] in N. pose proof PI_RGT_0. nra. }
  destruct (tle_init deepinit w l s0 LN) as (s1 & J1 & EQ). destruct (init_ok w (elements l) F deepinit (tle_epoch l - 2433281.5) s1) as (s & I & _ & D & CF & HF).
  destruct (n_fair w (elements l) F) as (NP & NE). destruct (init_inv _ _ _ _ _ _ I NE) as (_ & _ & _ & _ & _ & _ & JD & _).
  unfold orbit_new. rewrite WS, EQ, I. cbn [rbind]. unfold propagate. cbn [o_enabled o_sat o_wgs].
  assert (FREE : l_B (elements l) = 0 \/ (jd - num s jdsatepoch) * (24 * 60) = 0).
  { destruct B as [B|B]; [left; unfold elements, line_elems; cbn [l_B]; rewrite B; ring|right; rewrite JD, J1, B; ring]. }
  destruct (fair_report w (elements l) F s _ D CF HF FREE) as (s2 & r & v & R & C & _). rewrite R. cbn [rbind]. eexists. split; [reflexivity|exact C].
Qed.
Print Assumptions C131_construction.

(** ** Non-vacuity *)
(** 12 revolutions a day, eccentricity 0.01, inclination 51.6 degrees, B* of 0.3e-4, 2023 day 100.5 *)
Definition example_line : tle := mkTle 23 100.5 0 0 0 0.3 (-4) 51.6 30 0.01 40 50 12.
Lemma example_fair w : fair_orbit (theory_w w) (elements example_line).
Proof.
  pose proof (xke_bounds w) as K. pose proof PI_4. pose proof PI_RGT_0. unfold fair_orbit, two_body_a, elements, line_elems. cbn [example_line l_n l_ecc l_n0 l_e0].
  change (c_ke (theory_w w)) with (xke (getgravconst w)). set (k := xke (getgravconst w)) in *.
  assert (N : 0 < 12 * (2 * PI) / 1440) by lra. split; [exact N|]. split.
  { replace (2 * PI / (12 * (2 * PI) / 1440)) with 120 by (field; lra). lra. }
  split; [lra|]. set (n := 12 * (2 * PI) / 1440) in *.
  assert (Q : 1.1 <= k / n). { assert (E : k / n * n = k) by (field; lra). assert (n <= 0.0667) by (unfold n; lra). nra. }
  assert (P : 1.06 <= Rpower (k / n) (2 / 3)).
  { apply Rle_trans with (Rpower (Rpower 1.06 (3 / 2)) (2 / 3)); [rewrite rpower_23; lra|].
    apply Rle_Rpower_l; [lra|]. split; [apply exp_pos|].
    replace (3 / 2) with (1 + / 2) by lra. rewrite Rpower_plus, Rpower_1, Rpower_sqrt by lra.
    assert (sqrt 1.06 <= 1.03). { rewrite <- (sqrt_square 1.03) by lra. apply sqrt_le_1_alt. lra. } pose proof (sqrt_pos 1.06). nra. }
  nra.
Qed.
Definition blank : satrec := mkSat (fun _ => 0) 0 0 false 0.
Example example_object : exists o, orbit_new (fun _ _ s => Val s) 2 example_line blank (tle_epoch example_line) = Val (Some o) /\ error (o_sat o) = 0%Z.
Proof. apply (C131_construction _ _ Wgs84); [reflexivity|lia|apply example_fair|right; reflexivity]. Qed.
Example example_near : 2 * PI / n_orig (theory_w Wgs84) (elements example_line) < 225.
Proof. apply (n_fair Wgs84 _ (example_fair Wgs84)). Qed.
Example example_epoch : tle_epoch example_line = 2460045.
Proof.
  destruct (C131_epoch example_line) as (E & _); [cbn; lra|]. rewrite E, jday_jdn. cbn [example_line l_epochyr l_epochdays]. change (jdn (full_year 23) 1 1) with 2459946%Z. lra.
Qed.
Example example_kepler : exists x, kepler 1 0.1 0.2 = Val (sin x, cos x) /\ Rabs (kepler_residual 1 0.1 0.2 x) <= 1.4e-12.
Proof. destruct (C129_kepler_accurate 1 0.1 0.2) as (x & A & B & _); [lra|]. exists x. now split. Qed.
(** a resonance that moves the mean motion *)
Definition resonant : satrec := mkSat (fun f => match f with d2201 => 1 | xlamo => 5.7686396 + PI / 2 | no => 0.009 | _ => 0 end) 1 2 true 0.
Example example_resonance : snd (march_to (resonance_rates resonant) 720 0 1 (num resonant xlamo) (num resonant no)) = 1.009.
Proof.
  unfold march_to, march, resonance_rates, half_day_rates, half_day_terms, sum_of, t_angle. cbn [resonant irez num Z.eqb Pos.eqb fold_right t_D t_l t_m t_p t_G snd].
  match goal with |- context [1 * sin ?a + _] => replace a with (PI / 2) by (replace (IZR (2 - 2 * 0)) with 2 by (f_equal; lia); lra) end.
  match goal with |- context [1 * (2 / 2) * cos ?a] => replace a with (PI / 2) by (replace (IZR (2 - 2 * 0)) with 2 by (f_equal; lia); lra) end.
  rewrite sin_PI2, cos_PI2. unfold Rdiv. lra.
Qed.
