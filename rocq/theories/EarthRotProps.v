(** C110-C111: orientation of the Earth and the Moon. *)
From Coq Require Import Reals Lra Lia List Bool ZArith String.
From Verif Require Import Base RBase VecModel VecProofs QuatModel QuatSpec QuatProofs HillProofs SensorModel GeoProofs CelestialModel EarthRotModel EarthRotSpec EarthRotProofs.
Import ListNotations.
Open Scope R_scope.

(** ** C110 *)
(** The sidereal time returned for any Julian date is the documented polynomial, brought into [0, 2 pi) by whole turns. *)
Theorem C110_sidereal_time : forall jd : R, 0 <= gstime jd < 2 * PI /\ congruent (gmst jd) (gstime jd).
Proof. exact gstime_spec. Qed.
Print Assumptions C110_sidereal_time.

(** Between any two dates within a century of J2000 the Earth turns by 1.0027379093 turns per day, to 2e-10 turns per day. *)
Theorem C110_sidereal_rate :
  forall d1 d2 : R, Rabs (d1 - 2451545) <= 36525 -> Rabs (d2 - 2451545) <= 36525 ->
    exists w : R, congruent (gstime d1 + 2 * PI * w * (d2 - d1)) (gstime d2) /\ Rabs (w - 10027379093 / 10 ^ 10) <= 2 / 10 ^ 10.
Proof.
  intros d1 d2 H1 H2. destruct (gmst_rate d1 d2 H1 H2) as (w & E & B). exists w. split; [|exact B].
  destruct (gstime_spec d1) as [_ [k1 E1]]. destruct (gstime_spec d2) as [_ [k2 E2]]. exists (k2 - k1)%Z. rewrite minus_IZR. lra.
Qed.
Print Assumptions C110_sidereal_rate.

(** Whatever the mode and however often it was updated, the matrix is a proper rotation that depends on the last date only
    (so that resetting or repeating dates does not matter); when idle it is the identity, and the matrix from TEME is
    the identity in every mode. *)
Theorem C110_rotation_and_history :
  forall (m : earth_mode) (ds : list R) (jd : R),
    let e := fold_left earth_update (ds ++ [jd]) (earth_new m) in
    rotation (er_ecef e) /\ er_ecef e = er_ecef (earth_update (earth_new m) jd) /\ (m = EarthIdle -> er_ecef e = mident) /\ er_teme e = mident.
Proof.
  intros m ds jd. cbv zeta. rewrite earth_run. cbn [er_ecef er_teme]. split; [apply dcm_at_rotation|]. split; [destruct m; reflexivity|].
  split; [intros ->; reflexivity|reflexivity].
Qed.
Print Assumptions C110_rotation_and_history.

(** Simple mode: heights above the equator are kept, and a point at the azimuth (mean sidereal time + l) is seen at the longitude l. *)
Theorem C110_simple_mode :
  forall (ds : list R) (jd l z : R),
    veq 3 (mvec 3 (er_ecef (fold_left earth_update (ds ++ [jd]) (earth_new EarthSimple))) (at_azimuth (gmst jd + l) z)) (at_azimuth l z).
Proof.
  intros ds jd l z. rewrite earth_run. cbn [er_ecef dcm_at]. destruct (gstime_spec jd) as [_ C].
  pose proof (congruent_sin _ _ C) as S1. pose proof (congruent_cos _ _ C) as C1. pose proof (sc (gmst jd)) as Q.
  intros i Hi. i3 i Hi; cbv [mvec sumn rot_z m3 v3 at_azimuth]; rewrite ?S1, ?C1, ?sin_plus, ?cos_plus; set (s := sin (gmst jd)) in *; set (c := cos (gmst jd)) in *.
  - transitivity ((s * s + c * c) * cos l); [ring|rewrite Q; ring].
  - transitivity ((s * s + c * c) * sin l); [ring|rewrite Q; ring].
  - ring.
Qed.
Print Assumptions C110_simple_mode.

(** Full mode: precession, then nutation, then the turn by the apparent sidereal time (mean time plus the equation of the equinoxes);
    nothing else (the polar motion is none). *)
Theorem C110_full_mode_order :
  forall (ds : list R) (jd : R) (v : vec),
    let t := (jd + 32.184 / 86400 - 2451545) / 36525 in
    veq 3 (mvec 3 (er_ecef (fold_left earth_update (ds ++ [jd]) (earth_new EarthFull))) v)
          (mvec 3 (rot_z (gstime jd + d_psi t * cos (eps_angle t + d_eps t))) (mvec 3 (nutation t) (mvec 3 (precession t) v))).
Proof.
  intros ds jd v t. rewrite earth_run. cbn [er_ecef dcm_at]. unfold full_dcm. cbv zeta.
  assert (T : tt_century jd = t) by (unfold tt_century, t, Q2R; cbn [QArith_base.Qnum QArith_base.Qden]; field). rewrite T.
  intros i Hi. rewrite !mvec_mul by exact Hi. set (w := mvec 3 (rot_z _) _). transitivity (mvec 3 mident w i).
  - apply (mvec_ext3 (polar_motion 0 0) mident w w); [apply polar_ident|intros j _; reflexivity|exact Hi].
  - clearbody w. i3 i Hi; cbv [mvec sumn mident Nat.eqb]; ring.
Qed.
Print Assumptions C110_full_mode_order.

(** The angles are the IAU series (textbook form in EarthRotSpec). *)
Lemma series_poly cs : forall acc t p, series acc (map (fun c => c * arcsec) cs) t p = acc + p * poly cs t * arcsec.
Proof. induction cs as [|c r IH]; intros acc t p; cbn [map series poly]; [ring|]. rewrite IH. ring. Qed.
Lemma deg_is : deg = 3600 * arcsec. Proof. unfold arcsec, deg, deg. field. Qed.
Lemma series_arc d cs t : series (d * deg) (map (fun c => c * arcsec) cs) t t = arc d cs t.
Proof. rewrite series_poly. unfold arc. rewrite <- arcsec_is, deg_is. ring. Qed.
Lemma series_arc0 cs t : series 0 (map (fun c => c * arcsec) cs) t t = arc 0 cs t.
Proof. rewrite <- series_arc. f_equal. ring. Qed.
Theorem C110_iau_series : forall t : R,
  eps_angle t = obliquity t /\ d_psi t = nutation_longitude t /\ d_eps t = nutation_obliquity t /\
  nutation t = mmul 3 (mmul 3 (rot_x (- (obliquity t + nutation_obliquity t))) (rot_z (- nutation_longitude t))) (rot_x (obliquity t)) /\
  precession t = mmul 3 (mmul 3 (rot_z (- precession_z t)) (rot_y (precession_theta t))) (rot_z (- precession_zeta t)).
Proof.
  intros t. assert (E : eps_angle t = obliquity t) by apply (series_arc _ [_; _; _]).
  assert (A1 : lm_angle t = anomaly_moon t) by apply (series_arc _ [_; _; _; _]). assert (A2 : ls_angle t = anomaly_sun t) by apply (series_arc _ [_; _; _; _]).
  assert (A3 : f_angle t = latitude_moon t) by apply (series_arc _ [_; _; _; _]). assert (A4 : d_angle t = elongation_moon t) by apply (series_arc _ [_; _; _; _]).
  assert (A5 : o_angle t = node_moon t) by apply (series_arc _ [_; _; _; _]).
  assert (Z1 : zeta_angle t = precession_zeta t) by apply (series_arc0 [_; _; _]). assert (Z2 : theta_angle t = precession_theta t) by apply (series_arc0 [_; _; _]).
  assert (Z3 : z_angle t = precession_z t) by apply (series_arc0 [_; _; _]).
  assert (N : forall f c0 c1 c2 c3 c4 c5 c6 c7 c8, nutation_terms f [c0; c1; c2; c3; c4; c5; c6; c7; c8] t =
    sum_list (fun '(a, b, c, d, e, p) => p * second_of_arc * f (argument a b c d e t))
     [(0, 0, 0, 0, 1, c0); (0, 0, 2, -2, 2, c1); (0, 0, 0, 0, 2, c2); (0, 0, 2, 0, 2, c3); (0, 1, 0, 0, 0, c4); (1, 0, 0, 0, 0, c5); (0, 1, 2, -2, 2, c6); (1, 0, 2, 0, 2, c7); (0, -1, 2, -2, 2, c8)]).
  { intros. unfold nutation_terms, sum_list, argument. cbn [nth fold_right]. rewrite A1, A2, A3, A4, A5, <- arcsec_is.
    set (x1 := anomaly_moon t). set (x2 := anomaly_sun t). set (x3 := latitude_moon t). set (x4 := elongation_moon t). set (x5 := node_moon t).
    replace (0 * x1 + 0 * x2 + 0 * x3 + 0 * x4 + 1 * x5) with x5 by ring. replace (0 * x1 + 0 * x2 + 2 * x3 + -2 * x4 + 2 * x5) with (2 * (x3 + x5 - x4)) by ring.
    replace (0 * x1 + 0 * x2 + 0 * x3 + 0 * x4 + 2 * x5) with (2 * x5) by ring. replace (0 * x1 + 0 * x2 + 2 * x3 + 0 * x4 + 2 * x5) with (2 * (x3 + x5)) by ring.
    replace (0 * x1 + 1 * x2 + 0 * x3 + 0 * x4 + 0 * x5) with x2 by ring. replace (1 * x1 + 0 * x2 + 0 * x3 + 0 * x4 + 0 * x5) with x1 by ring.
    replace (0 * x1 + 1 * x2 + 2 * x3 + -2 * x4 + 2 * x5) with (2 * (x3 + x5 - x4) + x2) by ring. replace (1 * x1 + 0 * x2 + 2 * x3 + 0 * x4 + 2 * x5) with (2 * (x3 + x5) + x1) by ring.
    replace (0 * x1 + -1 * x2 + 2 * x3 + -2 * x4 + 2 * x5) with (2 * (x3 + x5 - x4) - x2) by ring. ring. }
  assert (P : d_psi t = nutation_longitude t) by apply N. assert (Q : d_eps t = nutation_obliquity t) by apply N.
  split; [exact E|]. split; [exact P|]. split; [exact Q|]. unfold nutation, precession. rewrite E, P, Q, Z1, Z2, Z3. split; reflexivity.
Qed.
Print Assumptions C110_iau_series.

(** Within a century of J2000 the full mode differs from the simple one by at most 6620'' per century of distance, plus 50''
    (for any vector, as a fraction of its length), and its pole (the third row: the direction of the spin axis in the inertial
    frame) is within 2005'' per century plus 30'' of the J2000 pole. *)
Theorem C110_full_close_to_simple :
  forall (jd : R) (v : vec),
    let t := (jd + 32.184 / 86400 - 2451545) / 36525 in
    let full := er_ecef (earth_update (earth_new EarthFull) jd) in let simple := er_ecef (earth_update (earth_new EarthSimple) jd) in
    Rabs t <= 1 ->
    norm 3 (vsub (mvec 3 full v) (mvec 3 simple v)) <= (6620 * Rabs t + 50) * second_of_arc * norm 3 v /\
    norm 3 (vsub (fun j => full 2%nat j) (v3 0 0 1)) <= (2005 * Rabs t + 30) * second_of_arc.
Proof.
  intros jd v t full simple H. unfold full, simple. cbn [earth_update er_mode earth_new er_ecef].
  assert (T : tt_century jd = t) by (unfold tt_century, t, Q2R; cbn [QArith_base.Qnum QArith_base.Qden]; field). rewrite <- T in *.
  split; [apply (full_near_simple jd H v)|apply (full_pole jd H)].
Qed.
Print Assumptions C110_full_close_to_simple.

(** Only three words select a mode; everything else (also "Idle") is idle. *)
Theorem C110_mode_words :
  forall s : string, earth_mode_of s = EarthSimple /\ s = "SIMPLE"%string \/ earth_mode_of s = EarthFull /\ s = "FULL"%string \/
    earth_mode_of s = EarthIdle /\ s <> "SIMPLE"%string /\ s <> "FULL"%string.
Proof.
  intros s. unfold earth_mode_of. destruct (String.eqb_spec s "IDLE") as [->|N1]; [right; right; repeat split; discriminate|].
  destruct (String.eqb_spec s "SIMPLE") as [->|N2]; [left; auto|]. destruct (String.eqb_spec s "FULL") as [->|N3]; [right; left; auto|]. auto.
Qed.
Print Assumptions C110_mode_words.

(** ** C111 *)
(** Simple mode: whenever the Moon moves around the Earth, the matrix is a proper rotation; up to 147'' (the difference between mean
    Earth and principal axes) the Earth lies on the +x axis and the Moon's orbit normal on the +z axis. *)
Theorem C111_moon_simple :
  forall naif (g : celestial) (iau : mat) (r v : vec),
    position_between naif g "MOON" "EARTH" = Ok r -> velocity_between naif g "MOON" "EARTH" = Ok v -> 0 < norm 3 (cross r v) ->
    exists d, moon_update naif g iau MoonSimple = Ok d /\ rotation d /\
      norm 3 (vsub (mvec 3 d (vscal (-1) r)) (v3 (norm 3 r) 0 0)) <= 147 * second_of_arc * norm 3 r /\
      norm 3 (vsub (mvec 3 d (cross r v)) (v3 0 0 (norm 3 (cross r v)))) <= 147 * second_of_arc * norm 3 (cross r v).
Proof.
  intros naif g iau r v HR HV H. exists (principal_axis_dcm r v). unfold moon_update. rewrite HR, HV. cbn [bind].
  split; [reflexivity|]. split; [now apply principal_rotation|]. destruct (mean_earth_directions r v H) as [D1 D2]. split.
  - pose proof (principal_near r v (vscal (-1) r) H) as N. rewrite AttitudeProofs.norm_scal in N. replace (Rabs (-1)) with 1 in N by (rewrite Rabs_left; lra). rewrite Rmult_1_l in N.
    rewrite (AttitudeProofs.norm_ext 3 _ (vsub (mvec 3 (principal_axis_dcm r v) (vscal (-1) r)) (mvec 3 (mean_earth_dcm r v) (vscal (-1) r)))); [exact N|].
    intros i Hi. unfold vsub. rewrite D1 by exact Hi. reflexivity.
  - pose proof (principal_near r v (cross r v) H) as N.
    rewrite (AttitudeProofs.norm_ext 3 _ (vsub (mvec 3 (principal_axis_dcm r v) (cross r v)) (mvec 3 (mean_earth_dcm r v) (cross r v)))); [exact N|].
    intros i Hi. unfold vsub. rewrite D2 by exact Hi. reflexivity.
Qed.
Print Assumptions C111_moon_simple.

(** The two axes of the simple mode differ by a fixed rotation only: its matrix is the same at every time. *)
Theorem C111_fixed_axes :
  forall (r v u : vec), 0 < norm 3 (cross r v) ->
    rotation (mean_earth_dcm r v) /\ rotation me_to_pa /\
    veq 3 (mvec 3 (principal_axis_dcm r v) u) (mvec 3 me_to_pa (mvec 3 (mean_earth_dcm r v) u)) /\
    veq 3 (mvec 3 (mean_earth_dcm r v) (vscal (-1) r)) (v3 (norm 3 r) 0 0) /\
    veq 3 (mvec 3 (mean_earth_dcm r v) (cross r v)) (v3 0 0 (norm 3 (cross r v))).
Proof.
  intros r v u H. split; [now apply mean_earth_rotation|]. split; [apply me_to_pa_rotation|]. split; [apply mvec_mul|]. now apply mean_earth_directions.
Qed.
Print Assumptions C111_fixed_axes.

(** The other modes: SPICE's matrix, or the identity. *)
Theorem C111_other_modes :
  forall naif (g : celestial) (iau : mat) (s : string),
    (s = "IAU_MOON"%string -> moon_update naif g iau (moon_mode_of s) = Ok iau) /\
    (s <> "IAU_MOON"%string -> s <> "SIMPLE"%string -> moon_update naif g iau (moon_mode_of s) = Ok mident) /\
    (s = "SIMPLE"%string -> moon_mode_of s = MoonSimple).
Proof.
  intros naif g iau s. split; [intros ->; reflexivity|]. split; [|intros ->; reflexivity]. intros N1 N2. unfold moon_mode_of.
  destruct (String.eqb_spec s "IDLE"); [reflexivity|]. destruct (String.eqb_spec s "SIMPLE"); [contradiction|]. destruct (String.eqb_spec s "IAU_MOON"); [contradiction|]. reflexivity.
Qed.
Print Assumptions C111_other_modes.

(** If the Moon is not selected and the Earth is the first selected body, the Moon takes the Earth's mode; with SIMPLE its matrix is all
    zero, so every position in the Moon-fixed frame comes out as the center of the Moon. *)
Theorem C111_moon_not_selected :
  forall naif (g : celestial) (iau : mat) (modes : list string) (mode : string) (earth moon : Z) (ids : list Z) (x y z x' y' z' : R) (ps vs : list R),
    naif "EARTH"%string = Some earth -> naif "MOON"%string = Some moon -> body_ids g = earth :: ids -> ~ In moon (body_ids g) ->
    body_pos g = x :: y :: z :: ps -> body_vel g = x' :: y' :: z' :: vs ->
    rotation_mode naif g (mode :: modes) "MOON" = Ok mode /\ rotation_mode naif g (mode :: modes) "EARTH" = Ok mode /\
    exists d, moon_update naif g iau MoonSimple = Ok d /\ (forall i j, (i < 3)%nat -> (j < 3)%nat -> d i j = 0) /\ ~ rotation d.
Proof.
  intros naif g iau modes mode earth moon ids x y z x' y' z' ps vs HE HM HI HN HP HV.
  assert (BM : body_index naif g "MOON" = Ok 0%nat) by (unfold body_index; rewrite HM, index_of_absent by exact HN; reflexivity).
  assert (BE : body_index naif g "EARTH" = Ok 0%nat) by (unfold body_index; rewrite HE, HI; cbn [index_of]; rewrite Z.eqb_refl; reflexivity).
  assert (NB : n_bodies g = S (List.length ids)) by (unfold n_bodies; rewrite HI; reflexivity).
  unfold rotation_mode. rewrite BM, BE. cbn [bind]. rewrite NB. split; [reflexivity|]. split; [reflexivity|].
  exists (principal_axis_dcm (vsub (v3 x y z) (v3 x y z)) (vsub (v3 x' y' z') (v3 x' y' z'))).
  assert (Z : forall i, (i < 3)%nat -> vsub (v3 x y z) (v3 x y z) i = 0) by (intros i Hi; i3 i Hi; cbv [vsub v3]; ring).
  split; [|split; [intros i j; now apply principal_degenerate|]].
  - unfold moon_update, position_between, velocity_between, position_of, velocity_of. rewrite BM, BE. cbn [bind]. unfold from_center. rewrite NB, HP, HV.
    cbn -[principal_axis_dcm vsub]. reflexivity.
  - intros (_ & _ & D). unfold det3 in D. rewrite !(principal_degenerate _ _ Z) in D by lia. lra.
Qed.
Print Assumptions C111_moon_not_selected.

(** ** Concrete cases *)
Example C110_noon_J2000 : gstime 2451545 = 67310.54841 * (2 * PI / 86400).
Proof.
  destruct (gstime_spec 2451545) as [R0 [k E]]. unfold gmst, gmst_seconds in E. replace ((2451545 - 2451545) / 36525) with 0 in E by field.
  pose proof PI_RGT_0 as P. assert (K : k = 0%Z).
  { assert (-1 < k < 1)%Z; [|lia]. split; apply lt_IZR; nra. }
  subst k. lra.
Qed.
Example C110_century_hypothesis : Rabs ((2459000.5 + 32.184 / 86400 - 2451545) / 36525) <= 1.
Proof. apply Rabs_le. lra. Qed.
Example C111_moon_moves : 0 < norm 3 (cross (v3 384400000 0 0) (v3 0 1000 100)).
Proof. unfold norm, sq. apply sqrt_lt_R0. rewrite sumn3. cbn [cross v3]. lra. Qed.
Example C111_not_selected_case :
  let naif s := if String.eqb s "EARTH" then Some 399%Z else if String.eqb s "MOON" then Some 301%Z else None in
  let g := mkCelestial [399; 10]%Z [0; 0; 0; 1; 2; 3] [0; 0; 0; 4; 5; 6] [1; 1] "EARTH" in
  rotation_mode naif g ["SIMPLE"; "Idle"]%string "MOON" = Ok "SIMPLE"%string.
Proof. reflexivity. Qed.
