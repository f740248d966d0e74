(** C162-C165: deep space satellites of the SGP4 propagator (periods of 225 minutes and more): the initialisation for the Sun, the Moon and
    the resonances with the Earth's rotation. *)
From Coq Require Import Reals Lra Lia Psatz List Bool ZArith.
From Verif Require Import RBase VecModel VecProofs Trig SensorModel JulianModel OeProofs Sgp4Model Sgp4Spec Sgp4Proofs Sgp4Geom Sgp4Init Sgp4Near Sgp4Loop Sgp4Runs Sgp4Props
  Sgp4DeepModel Sgp4DeepSpec Sgp4Third Sgp4DeepProofs Sgp4DeepInit Sgp4DeepRes Sgp4Total Sgp4Fair Sgp4DeepCase.
Import ListNotations.
Open Scope R_scope.

(** s1 is a record of the deep space satellite with the elements l at [epoch] (days since 1950): initialised, then propagated any number of times *)
Definition deep_satellite (w : gravconst) (epoch : R) (l : tle_elems) (s1 : satrec) : Prop :=
  exists s0 s ts, sgp4init deepinit w epoch (l_B l) (l_e0 l) (l_w0 l) (l_i0 l) (l_M0 l) (l_n0 l) (l_node0 l) s0 = Val s /\
    225 <= 2 * PI / n_orig (theory_w w) l /\ sgp4_runs w s ts = Val s1.
Lemma satellite_rec w epoch l s1 : deep_satellite w epoch l s1 -> exists sb s2 o ss sl gam m, deep_rec w epoch l s1 sb s2 o ss sl gam m.
Proof. intros (s0 & s & ts & H & P & R). apply runs_same in R. exact (deep_start w epoch l s0 s s1 H P R). Qed.

(** ** C162: secular effects of the Sun and the Moon *)
(** the potential of the theory: the mean of the tide over the satellite's revolution (weight 1 - e cos x for the eccentric anomaly) *)
Theorem C162_single_average : forall k b q, 0 <= q_e q < 1 -> is_mean (fun x => tide k b (orbit_pos q x) * (1 - q_e q * cos x)) (averaged k b q).
Proof. apply single_average. Qed.
Print Assumptions C162_single_average.
(** and over the body's, at constant distance *)
Theorem C162_double_average : forall b q, is_mean (fun f => averaged (b_k b) (toward b f) q) (averaged2 b q).
Proof. apply double_average. Qed.
Print Assumptions C162_double_average.
Theorem C162_means_unique : forall f m m', is_mean f m -> is_mean f m' -> m = m'.
Proof. apply mean_unique. Qed.
Print Assumptions C162_means_unique.
Definition sun_and_moon (moon : body) (q : orb) : R := averaged2 sun q + averaged2 moon q.
(** the elements change at the rates that Lagrange's equations give for that potential; for inclinations within 3 degrees of 0 or 180 the node
    is held and the perigee takes its part *)
Definition secular_rates_applied (i : R) (x : rates) (t : R) (y y' : secular) : Prop :=
  em y' = em y + r_e x * t /\ inclm y' = inclm y + r_i x * t /\
  (0.052359877 <= i <= PI - 0.052359877 -> argpm y' = argpm y + r_w x * t /\ nodem y' = nodem y + r_node x * t) /\
  (i < 0.052359877 \/ PI - 0.052359877 < i -> argpm y' = argpm y + (r_w x + cos i * r_node x) * t /\ nodem y' = nodem y).
Lemma dspace_sec s t tc y s' y' : dspace s t tc y = Val (s', y') ->
  em y' = em y + num s dedt * t /\ inclm y' = inclm y + num s didt * t /\ argpm y' = argpm y + num s domdt * t /\ nodem y' = nodem y + num s dnodt * t /\
  (irez s = 0%Z -> mm y' = mm y + num s dmdt * t /\ nm y' = nm y).
Proof.
  intros H. destruct (Z.eq_dec (irez s) 0) as [I|I].
  - destruct (dspace_no_resonance s t tc y I) as (s'' & E). rewrite E in H. apply Val_inj, pair_equal_spec in H. destruct H as (_ & <-). cbn [em inclm argpm nodem mm nm]. repeat split; reflexivity.
  - destruct (C127_resonance s t tc y I) as (n & s'' & y'' & E & _ & R). rewrite E in H. apply Val_inj, pair_equal_spec in H. destruct H as (_ & <-).
    cbn zeta in R. destruct (march_to _ _ _ _ _ _) as [lam mot]. destruct R as (_ & _ & A & B & C & F). repeat split; try assumption; now elim I.
Qed.
Theorem C162_secular : forall w epoch l s1, deep_satellite w epoch l s1 -> 0 < l_e0 l -> sin (l_i0 l) <> 0 ->
  exists moon x, is_moon (epoch + 18261.5) moon /\ lagrange (sun_and_moon moon) (n_orig (theory_w w) l) (epoch_orbit w l) x /\
  forall t tc y s' y', dspace s1 t tc y = Val (s', y') ->
    secular_rates_applied (l_i0 l) x t y y' /\ (irez s1 = 0%Z -> mm y' = mm y + r_M x * t /\ nm y' = nm y).
Proof.
  intros w epoch l s1 H E I. destruct (satellite_rec _ _ _ _ H) as (sb & s2 & o & ss & sl & gam & m & D).
  destruct (rec_sun _ _ _ _ _ _ _ _ _ _ _ D E I) as (LS & _). destruct (rec_moon _ _ _ _ _ _ _ _ _ _ _ D E I) as (LM & _).
  exists m, (add_rates (terms_secular ss zns (l_e0 l) (l_i0 l)) (terms_secular sl znl (l_e0 l) (l_i0 l))).
  split; [apply (df_is_moon _ _ _ _ _ _ _ _ _ (dr_df _ _ _ _ _ _ _ _ _ _ _ D))|]. split; [exact (lagrange_sum _ _ _ _ _ _ LS LM)|].
  intros t tc y s' y' R. destruct (dspace_sec _ _ _ _ _ _ R) as (A1 & A2 & A3 & A4 & A5).
  pose proof (rec_secular _ _ _ _ _ _ _ _ _ _ _ D I) as (B1 & B2 & B3 & B4 & B5). set (x := add_rates _ _) in *. clearbody x. rewrite B1 in A1. rewrite B2 in A2. rewrite B3 in A5.
  split; [|exact A5]. split; [exact A1|]. split; [exact A2|]. split.
  - intros C. destruct (B4 C) as (B6 & B7). rewrite B6 in A3. rewrite B7 in A4. auto.
  - intros C. destruct (B5 C) as (B6 & B7). rewrite B6 in A3. rewrite B7 in A4. split; [exact A3|]. rewrite A4. ring.
Qed.
Print Assumptions C162_secular.
(** circular orbits: the eccentricity stays, and the plane of the orbit moves as Lagrange's equations say *)
Theorem C162_circular : forall w epoch l s1, deep_satellite w epoch l s1 -> l_e0 l = 0 -> sin (l_i0 l) <> 0 ->
  exists moon idot nodedot, is_moon (epoch + 18261.5) moon /\ plane_rates (sun_and_moon moon) (n_orig (theory_w w) l) (epoch_orbit w l) idot nodedot /\
  forall t tc y s' y', dspace s1 t tc y = Val (s', y') ->
    em y' = em y /\ inclm y' = inclm y + idot * t /\
    (0.052359877 <= l_i0 l <= PI - 0.052359877 -> nodem y' = nodem y + nodedot * t) /\
    (l_i0 l < 0.052359877 \/ PI - 0.052359877 < l_i0 l -> nodem y' = nodem y).
Proof.
  intros w epoch l s1 H E I. destruct (satellite_rec _ _ _ _ H) as (sb & s2 & o & ss & sl & gam & m & D).
  destruct (rec_circular _ _ _ _ _ _ _ _ _ _ _ D E I) as (LS & LM & Z0).
  exists m. do 2 eexists. split; [apply (df_is_moon _ _ _ _ _ _ _ _ _ (dr_df _ _ _ _ _ _ _ _ _ _ _ D))|]. split; [exact (plane_sum _ _ _ _ _ _ _ _ LS LM)|].
  intros t tc y s' y' R. destruct (dspace_sec _ _ _ _ _ _ R) as (A1 & A2 & A3 & A4 & A5).
  pose proof (rec_secular _ _ _ _ _ _ _ _ _ _ _ D I) as (B1 & B2 & B3 & B4 & B5). cbn zeta in *. rewrite E in B2, B4, B5.
  split; [rewrite A1, Z0; ring|]. split; [rewrite A2, B2; reflexivity|]. split.
  - intros C. destruct (B4 C) as (_ & B7). rewrite A4, B7. reflexivity. - intros C. destruct (B5 C) as (_ & B7). rewrite A4, B7. ring.
Qed.
Print Assumptions C162_circular.
(** the rates are determined by the potential *)
Theorem C162_rates_unique : forall V n q x x', lagrange V n q x -> lagrange V n q x' -> x = x'.
Proof. apply lagrange_unique. Qed.
Print Assumptions C162_rates_unique.

(** ** C163: periodic effects of the Sun and the Moon *)
Theorem C163_periodic : forall w epoch l s1, deep_satellite w epoch l s1 -> 0 < l_e0 l -> sin (l_i0 l) <> 0 ->
  let day := epoch + 18261.5 in
  exists moon Ps Pm, is_moon day moon /\ body_periodics sun (n_orig (theory_w w) l) (epoch_orbit w l) Ps /\ body_periodics moon (n_orig (theory_w w) l) (epoch_orbit w l) Pm /\
  forall t p p', dpper s1 t p = Val p' -> periodics_applied p p' (add_rates (Ps (sun_at day t)) (Pm (moon_at day t))).
Proof.
  intros w epoch l s1 H E I day. destruct (satellite_rec _ _ _ _ H) as (sb & s2 & o & ss & sl & gam & m & D).
  destruct (rec_sun _ _ _ _ _ _ _ _ _ _ _ D E I) as (_ & LS). destruct (rec_moon _ _ _ _ _ _ _ _ _ _ _ D E I) as (_ & LM).
  exists m. do 2 eexists. split; [apply (df_is_moon _ _ _ _ _ _ _ _ _ (dr_df _ _ _ _ _ _ _ _ _ _ _ D))|]. split; [exact LS|]. split; [exact LM|].
  intros t p p' R. exact (rec_dpper _ _ _ _ _ _ _ _ _ _ _ D t p p' R).
Qed.
Print Assumptions C163_periodic.

(** ** C164: resonance with the rotation of the Earth *)
Theorem C164_class : forall w epoch l s1, deep_satellite w epoch l s1 ->
  let n := n_orig (theory_w w) l in
  (irez s1 = 1%Z <-> 0.0034906585 < n < 0.0052359877) /\ (irez s1 = 2%Z <-> 8.26e-3 <= n <= 9.24e-3 /\ 0.5 <= l_e0 l) /\ (irez s1 = 0%Z \/ irez s1 = 1%Z \/ irez s1 = 2%Z).
Proof.
  intros w epoch l s1 H n. destruct (satellite_rec _ _ _ _ H) as (sb & s2 & o & ss & sl & gam & m & D).
  destruct (rec_irez _ _ _ _ _ _ _ _ _ _ _ D) as (_ & ->). fold n. unfold ds_irez.
  destruct (rlt_spec n 0.0052359877), (rlt_spec 0.0034906585 n), (rle_spec 8.26e-3 n), (rle_spec n 9.24e-3), (rle_spec 0.5 (l_e0 l)); cbn [andb]; repeat split; try lra; try lia; try discriminate; tauto.
Qed.
Print Assumptions C164_class.
(** half-day orbits: the ten terms of the tables with Kaula's inclination functions, the starting angle and the motion of the angle *)
Theorem C164_half_day : forall w epoch l s1, deep_satellite w epoch l s1 -> irez s1 = 2%Z ->
  let c := theory_w w in
  Forall2 (half_day_term (n_orig c l) (a_orig c l) (l_e0 l) (l_i0 l)) (half_day_terms s1) half_day_table /\
  congruent (num s1 xlamo) (l_M0 l + 2 * l_node0 l - 2 * init_gsto epoch) /\
  num s1 no + num s1 xfact = M_rate c l + num s1 dmdt + 2 * (node_rate c l + num s1 dnodt - 4.37526908801129966e-3).
Proof. intros w epoch l s1 H I c. destruct (satellite_rec _ _ _ _ H) as (sb & s2 & o & ss & sl & gam & m & D). exact (rec_half _ _ _ _ _ _ _ _ _ _ _ D I). Qed.
Print Assumptions C164_half_day.
Theorem C164_one_day : forall w epoch l s1, deep_satellite w epoch l s1 -> irez s1 = 1%Z ->
  let c := theory_w w in
  Forall2 (one_day_term (n_orig c l) (a_orig c l) (l_e0 l) (l_i0 l)) (one_day_terms s1) one_day_table /\
  congruent (num s1 xlamo) (l_M0 l + l_node0 l + l_w0 l - init_gsto epoch) /\
  num s1 no + num s1 xfact = M_rate c l + w_rate c l + node_rate c l + num s1 dmdt + num s1 domdt + num s1 dnodt - 4.37526908801129966e-3.
Proof. intros w epoch l s1 H I c. destruct (satellite_rec _ _ _ _ H) as (sb & s2 & o & ss & sl & gam & m & D). exact (rec_sync _ _ _ _ _ _ _ _ _ _ _ D I). Qed.
Print Assumptions C164_one_day.
(** the terms are those whose argument (l - 2p) w + (l - 2p + q) M + m (node - theta) moves with the resonance angle of two revolutions a day
    (half-day), or of one a day at q = 0 (one-day) *)
Theorem C164_resonant_terms :
  Forall (fun row => let '((l, m, p, q), _, _) := row in 2 * (l - 2 * p + q) = m)%Z half_day_table /\
  Forall (fun row => let '((l, m, p), _, _) := row in l - 2 * p = m)%Z one_day_table.
Proof. split; repeat constructor. Qed.
Print Assumptions C164_resonant_terms.
(** at the epoch the integration returns the elements it started from *)
Theorem C164_epoch : forall w epoch l s1 y, deep_satellite w epoch l s1 ->
  argpm y = l_w0 l -> nodem y = l_node0 l -> mm y = l_M0 l -> nm y = n_orig (theory_w w) l ->
  exists s' y', dspace s1 0 0 y = Val (s', y') /\ nm y' = nm y /\ congruent (mm y') (mm y) /\ em y' = em y /\ inclm y' = inclm y /\ argpm y' = argpm y /\ nodem y' = nodem y.
Proof.
  intros w epoch l s1 y H EW EN EM ENO. destruct (satellite_rec _ _ _ _ H) as (sb & s2 & o & ss & sl & gam & m & D).
  destruct (Z.eq_dec (irez s1) 0) as [I|I].
  - destruct (dspace_no_resonance s1 0 0 y I) as (s' & E). eexists s', _. split; [exact E|]. cbn [nm mm em inclm argpm nodem]. repeat split; try ring. exists 0%Z. ring.
  - destruct (C127_resonance s1 0 0 y I) as (n & s' & y' & E & B & R). exists s', y'. split; [exact E|].
    assert (N0 : n = 0%nat). { destruct n as [|n]; [reflexivity|]. rewrite Rabs_R0, S_INR in B. pose proof (pos_INR n). lra. }
    subst n. cbn zeta in R. destruct (Rlt_dec 0 0) as [X|_]; [lra|]. 
    destruct (satellite_rec _ _ _ _ H) as (sb' & s2' & o' & ss' & sl' & gam' & m' & D').
    assert (NO : num s1 no = n_orig (theory_w w) l).
    { rewrite (rec_stays _ _ _ _ _ _ _ _ _ _ _ D) by reflexivity. destruct (rec_elems _ _ _ _ _ _ _ _ _ _ _ D) as (_ & _ & _ & _ & _ & X & _). exact X. }
    assert (GS : num s1 gsto = init_gsto epoch) by (rewrite (rec_stays _ _ _ _ _ _ _ _ _ _ _ D) by reflexivity; apply (dr_gsto _ _ _ _ _ _ _ _ _ _ _ D)).
    unfold march_to in R. cbn [march] in R. destruct (resonance_rates s1 (num s1 xlamo) (num s1 no) _) as [[r1 r2] r3].
    destruct R as (R1 & R2 & R3 & R4 & R5 & R6). rewrite R5, R6 in R2. rewrite GS in R2. destruct (fmod_turns (init_gsto epoch + 0 * 4.37526908801129966e-3)) as (k & FT). rewrite FT in R2. rewrite (Rmult_0_l 4.37526908801129966e-3) in R2. replace (0 - INR 0 * -720) with 0 in R1, R2 by (cbn [INR]; lra).
    destruct (C164_class _ _ _ _ H) as (_ & _ & IR).
    split; [rewrite R1, ENO, NO; field|].
    assert (MM : congruent (mm y') (mm y)).
    { rewrite R2, EM, EW, EN. destruct IR as [IR|[IR|IR]]; [now elim I| |]; rewrite IR; cbn [Z.eqb Pos.eqb].
      - destruct (rec_sync _ _ _ _ _ _ _ _ _ _ _ D IR) as (_ & (j & ->) & _). exists (j + k)%Z. rewrite plus_IZR. field.
      - destruct (rec_half _ _ _ _ _ _ _ _ _ _ _ D IR) as (_ & (j & ->) & _). exists (j + 2 * k)%Z. rewrite plus_IZR, mult_IZR. field. }
    split; [exact MM|]. repeat split; [rewrite R3|rewrite R4|rewrite R5|rewrite R6]; ring.
Qed.
Print Assumptions C164_epoch.

(** ** C165: the deep space initialisation itself *)
Theorem C165_total : forall w epoch s, (exists s', deepinit w epoch s = Val s') <-> num s ecco ^ 2 < 1 /\ num s no <> 0.
Proof.
  intros w epoch s. split; [intros (s' & H)|intros (A & B); now apply deepinit_total]. destruct (deepinit_ok _ _ _ _ H) as (o & ss & sl & gam & m & D).
  split; [apply (df_e _ _ _ _ _ _ _ _ _ D)|apply (df_n _ _ _ _ _ _ _ _ _ D)].
Qed.
Print Assumptions C165_total.
Theorem C165_ends : forall w epoch s, deepinit w epoch s <> NoEnd.
Proof. apply deepinit_ends. Qed.
Print Assumptions C165_ends.
(** it leaves the elements, the near-Earth coefficients and the error code alone *)
Theorem C165_frame : forall w epoch s s', deepinit w epoch s = Val s' ->
  (forall f, In f [ecco; inclo; nodeo; argpo; mo; no; bstar; mdot; argpdot; nodedot; gsto; jdsatepoch; con41; x1mth2; x7thm1; xlcof; aycof; cc1; cc4; eta; t2cof; nodecf; omgcof; xmcof; delmo; sinmao] -> num s' f = num s f) /\
  isimp s' = isimp s /\ deep s' = deep s /\ error s' = error s.
Proof.
  intros w epoch s s' H. destruct (deepinit_ok _ _ _ _ H) as (o & ss & sl & gam & m & D). split; [|apply (df_flags _ _ _ _ _ _ _ _ _ D)].
  intros f F. cbn [In] in F. assert (X : by_dscom f = false /\ by_dsinit f = false) by (repeat (destruct F as [<-|F]; [split; reflexivity|]); contradiction).
  destruct X. now apply (df_frame _ _ _ _ _ _ _ _ _ D).
Qed.
Print Assumptions C165_frame.
(** the initialisation of a deep space satellite reports 5 exactly for a perigee inside the Earth, and any other time runs the propagator for the epoch *)
Theorem C165_initial_code : forall w epoch l s0 s, sgp4init deepinit w epoch (l_B l) (l_e0 l) (l_w0 l) (l_i0 l) (l_M0 l) (l_n0 l) (l_node0 l) s0 = Val s ->
  225 <= 2 * PI / n_orig (theory_w w) l ->
  (error s = 5%Z <-> a_orig (theory_w w) l * (1 - l_e0 l) < 1) /\ deep s = true /\ isimp s = 1%Z /\ num s jdsatepoch = num s0 jdsatepoch.
Proof.
  intros w epoch l s0 s H P. destruct (deep_inv _ _ _ _ _ H P) as (s1 & s2 & _ & _ & _ & _ & DS & IS & _ & _ & _ & J & LO & HI).
  split; [|auto]. split; [|intros L; apply (LO L)]. intros E. destruct (Rlt_dec (a_orig (theory_w w) l * (1 - l_e0 l)) 1) as [L|L]; [exact L|].
  destruct (HI ltac:(lra)) as (out & R). apply C126_codes in R. destruct R as (R & _). lia.
Qed.
Print Assumptions C165_initial_code.

(** ** The hypotheses can be met *)
Lemma case_satellite w a e epoch : 3 <= a -> 0 < e < 1 -> a * (1 - e) < 1 -> exists s, deep_satellite w epoch (low_case w a e) s /\ error s = 5%Z.
Proof.
  intros A E P. destruct (case_init w a e A E P epoch (mkSat (fun _ => 0) 0 0 false 0)) as (s & H). pose proof (case_period w a e A) as PE. exists s. split.
  - exists (mkSat (fun _ => 0) 0 0 false 0), s, []. auto.
  - apply (C165_initial_code _ _ _ _ _ H PE). rewrite (case_a w a e A). exact P.
Qed.
Lemma case_motion w a e lo hi : 3 <= a -> 0 < lo -> lo * lo <= a <= hi * hi -> 0 < hi ->
  0.074 <= n_orig (theory_w w) (low_case w a e) * (a * hi) /\ n_orig (theory_w w) (low_case w a e) * (a * lo) <= 0.0745.
Proof.
  intros A L B H. rewrite case_n. destruct (case_n0 w a e) as (N & Q). set (n := l_n0 _) in *. pose proof (xke_bounds w) as KB. set (k := xke _) in *.
  assert (X : n * (k / n) = k) by (field; lra). rewrite Q in X. replace (3 / 2) with (1 + / 2) in X by field. rewrite Rpower_plus, Rpower_1, Rpower_sqrt in X by lra.
  assert (lo <= sqrt a <= hi).
  { split; [rewrite <- (sqrt_square lo) by lra|rewrite <- (sqrt_square hi) by lra]; apply sqrt_le_1_alt; lra. }
  assert (NA : 0 < n * a) by nra. rewrite <- Rmult_assoc in X. rewrite <- !Rmult_assoc. nra.
Qed.
(** half-day resonance: semimajor axis of 4.2 Earth radii, eccentricity 0.8; one-day resonance: 6.6 and 0.9; neither: 3 and 0.7 *)
Example C162_half_day_satellite : forall w epoch, exists s, deep_satellite w epoch (low_case w 4.2 0.8) s /\ irez s = 2%Z /\ 0 < l_e0 (low_case w 4.2 0.8) /\ sin (l_i0 (low_case w 4.2 0.8)) <> 0.
Proof.
  intros w epoch. destruct (case_satellite w 4.2 0.8 epoch) as (s & D & _); try lra. exists s. split; [exact D|]. pose proof (case_motion w 4.2 0.8 2.049 2.05 ltac:(lra) ltac:(lra) ltac:(lra) ltac:(lra)) as M.
  split; [|split; [cbn [low_case l_e0]; lra|apply i_case_facts]]. apply (proj2 (proj1 (proj2 (C164_class _ _ _ _ D)))). cbn [low_case l_e0]. change (mkTleE _ _ _ _ _ _ _) with (low_case w 4.2 0.8). lra.
Qed.
Example C162_one_day_satellite : forall w epoch, exists s, deep_satellite w epoch (low_case w 6.6 0.9) s /\ irez s = 1%Z /\ 0 < l_e0 (low_case w 6.6 0.9) /\ sin (l_i0 (low_case w 6.6 0.9)) <> 0.
Proof.
  intros w epoch. destruct (case_satellite w 6.6 0.9 epoch) as (s & D & _); try lra. exists s. split; [exact D|]. pose proof (case_motion w 6.6 0.9 2.569 2.57 ltac:(lra) ltac:(lra) ltac:(lra) ltac:(lra)) as M.
  split; [|split; [cbn [low_case l_e0]; lra|apply i_case_facts]]. apply (proj2 (proj1 (C164_class _ _ _ _ D))). lra.
Qed.
Example C162_no_resonance_satellite : forall w epoch, exists s, deep_satellite w epoch (low_case w 3 0.7) s /\ irez s = 0%Z.
Proof.
  intros w epoch. destruct (case_satellite w 3 0.7 epoch) as (s & D & _); try lra. exists s. split; [exact D|]. pose proof (case_motion w 3 0.7 1.732 1.7321 ltac:(lra) ltac:(lra) ltac:(lra) ltac:(lra)) as M.
  destruct (C164_class _ _ _ _ D) as (A & B & C). set (n := n_orig _ _) in *. destruct C as [C|[C|C]]; [exact C| |]; exfalso; [apply A in C|apply B in C]; lra.
Qed.
(** the periodic changes are applied for some elements at every time *)
Example C163_runs : forall s t, exists p p', dpper s t p = Val p'.
Proof.
  intros s t. eexists (mkPer 0.1 (0.1 - _) 1 1 1), _. rewrite dpper_split. unfold dpper_apply. cbn [xincp]. rewrite rle_false; [reflexivity|].
  match goal with |- 0.1 - _ + ?y < _ => instantiate (1 := y) end. lra.
Qed.
