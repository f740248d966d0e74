(** C96: geodetic position. *)
From Coq Require Import Reals Lra Lia List Bool ZArith Psatz.
From Verif Require Import Base RBase VecModel VecProofs QuatModel QuatSpec QuatProofs Trig SensorModel SensorProofs KeplerProofs GeoModel GeoSpec GeoProofs.
Import ListNotations.
Open Scope R_scope.

(** For every position whatever - the centre of the Earth and the polar axis included - the iteration stops,
    and the result has a latitude in [-pi/2, pi/2] and a longitude in [0, 2 pi). *)
Theorem C96_terminates :
  forall p : vec, exists (n : nat) (g : geodetic),
    (forall fuel, (n <= fuel)%nat -> update_from_ecef fuel p = Ok g) /\
    - (PI / 2) <= geo_lat g <= PI / 2 /\ 0 <= geo_lon g < 2 * PI.
Proof.
  intros p. pose proof PI_RGT_0 as P. destruct (Req_dec (p 0%nat) 0) as [X|X]; [destruct (Req_dec (p 1%nat) 0) as [Y|Y]|].
  - destruct (update_axis p 0 X Y) as (lon & L & E). exists 1%nat. eexists. split.
    + intros fuel F. destruct fuel as [|k]; [lia|]. unfold update_from_ecef in *. 
      destruct (fmod2p (actan (p 1%nat) (p 0%nat))) as [th| | |]; try discriminate. cbn [bind] in *.
      destruct (geo_loop 1 (p 2%nat) (sqrt (p 0%nat * p 0%nat + p 1%nat * p 1%nat)) (actan (p 2%nat) (sqrt (p 0%nat * p 0%nat + p 1%nat * p 1%nat)))) as [pl| | |] eqn:G; try discriminate.
      rewrite (geo_more 1 (S k) _ _ _ _ ltac:(lia) G). exact E.
    + cbn [geo_lat geo_lon]. split; [|exact L]. destruct (rlt_spec 0 (p 2%nat)); lra.
  - destruct (update_off_axis p (or_intror Y)) as (a & b & lon & SA & B & _ & _ & _ & L & G & _). cbv zeta in G.
    exists rounds. eexists. split; [exact G|]. cbn [geo_lat geo_lon]. split; [|exact L].
    pose proof (clean_side _ _ _ (rho_pos p (or_intror Y)) SA) as SB. rewrite <- B in SB. destruct SB as [SB _]. lra.
  - destruct (update_off_axis p (or_introl X)) as (a & b & lon & SA & B & _ & _ & _ & L & G & _). cbv zeta in G.
    exists rounds. eexists. split; [exact G|]. cbn [geo_lat geo_lon]. split; [|exact L].
    pose proof (clean_side _ _ _ (rho_pos p (or_introl X)) SA) as SB. rewrite <- B in SB. destruct SB as [SB _]. lra.
Qed.
Print Assumptions C96_terminates.

(** A geodetic position converted to ECEF is the point at the given altitude along the outward normal of the reference
    ellipsoid that has the given latitude and longitude, for all latitudes, longitudes and altitudes. *)
Theorem C96_to_ecef :
  forall lat lon alt : R, Rabs (lon / (2 * PI)) < 2 ^ 31 ->
    exists p, ecef_position (geodetic_new lat lon alt) = Ok p /\ geodetic_of p lat lon alt.
Proof.
  intros lat lon alt H. destruct (fmod2p_spec lon H) as (y & k & E & Y & _). unfold ecef_position, geodetic_new. cbn [geo_lon geo_lat geo_alt].
  rewrite E. cbn [bind]. eexists. split; [reflexivity|]. apply geodetic_of_iff. cbn [v3]. rewrite Y, cos_turns, sin_turns. repeat split; ring.
Qed.
Print Assumptions C96_to_ecef.

Lemma b_relation z r a : 0 < r -> r * sin (clean z r a) = (z + geo_u a) * cos (clean z r a).
Proof. intros R. apply atan_tan_form. exact R. Qed.

(** Converting any position off the polar axis to geodetic coordinates and back gives the position to 0.01 mm. *)
Theorem C96_round_trip :
  forall (p : vec) (fuel : nat) (g : geodetic),
    (p 0%nat <> 0 \/ p 1%nat <> 0) -> update_from_ecef fuel p = Ok g ->
    exists q, ecef_position g = Ok q /\ forall i, (i < 3)%nat -> Rabs (q i - p i) <= 1 / 10 ^ 5.
Proof.
  intros p fuel g N E. pose proof (rho_pos p N) as R.
  destruct (update_off_axis p N) as (a & b & lon & SA & B & D & CX & CY & L & _ & G). apply G in E. subst g.
  pose proof PI_RGT_0 as P.
  destruct (fmod2p_spec lon) as (y & k & EF & Y & _).
  { assert (0 <= lon / (2 * PI) < 1).
    { split; [apply Rmult_le_pos; [lra|left; apply Rinv_0_lt_compat; lra]|]. apply (Rmult_lt_reg_r (2 * PI)); [lra|]. unfold Rdiv. rewrite Rmult_assoc, Rinv_l by lra. lra. }
    rewrite Rabs_right by lra. lra. }
  unfold ecef_position. cbn [geo_lon geo_lat geo_alt]. rewrite EF. cbn [bind]. eexists. split; [reflexivity|].
  pose proof (clean_side _ _ _ R SA) as SB. rewrite <- B in SB. destruct SB as [SB _]. pose proof (cos_pos_open b SB) as CB.
  pose proof (b_relation (p 2%nat) (rho p) a R) as BR. rewrite <- B in BR.
  pose proof (geo_c_lip b a) as CL. pose proof (geo_u_lip a b) as UL. rewrite (Rabs_minus_sym a b) in UL.
  assert (C1 : Rabs (geo_c b - geo_c a) * geo_radius <= 2.4 / 10 ^ 6).
  { unfold geo_radius. set (x := Rabs (geo_c b - geo_c a)) in *. set (d := Rabs (b - a)) in *. clearbody x d. lra. }
  assert (U1 : Rabs (geo_u a - geo_u b) <= 5 / 10 ^ 6).
  { set (x := Rabs (geo_u a - geo_u b)) in *. set (d := Rabs (b - a)) in *. clearbody x d. lra. }
  assert (AB : forall x k, -1 <= k <= 1 -> Rabs (x * k) <= Rabs x).
  { intros x k' Hk. rewrite Rabs_mult. assert (Rabs k' <= 1) by (apply Rabs_le; lra). pose proof (Rabs_pos x). pose proof (Rabs_pos k'). nra. }
  assert (HX : forall t, -1 <= t <= 1 ->
     Rabs ((geo_c b * geo_radius + (rho p / cos b - geo_c a * geo_radius)) * cos b * t - rho p * t) <= 1 / 10 ^ 5).
  { intros t Ht. replace ((geo_c b * geo_radius + (rho p / cos b - geo_c a * geo_radius)) * cos b * t - rho p * t)
      with ((geo_c b - geo_c a) * geo_radius * cos b * t) by (field; lra).
    pose proof (AB ((geo_c b - geo_c a) * geo_radius * cos b) t Ht). pose proof (AB ((geo_c b - geo_c a) * geo_radius) (cos b) (COS_bound b)).
    rewrite (Rabs_mult _ geo_radius), (Rabs_right geo_radius) in H0 by (unfold geo_radius; lra). lra. }
  intros i Hi. rewrite Y, cos_turns, sin_turns. i3 i Hi; cbn [v3].
  - rewrite <- CX. apply HX. apply COS_bound.
  - rewrite <- CY. apply HX. apply SIN_bound.
  - replace ((geo_c b * geo_radius * (1 - geo_e2) + (rho p / cos b - geo_c a * geo_radius)) * sin b - p 2%nat)
      with ((geo_c b - geo_c a) * geo_radius * sin b + (geo_u a - geo_u b)).
    2:{ assert (RS : rho p / cos b * sin b = p 2%nat + geo_u a). { apply (Rmult_eq_reg_r (cos b)); [|lra]. rewrite <- BR. field. lra. }
        replace ((geo_c b * geo_radius * (1 - geo_e2) + (rho p / cos b - geo_c a * geo_radius)) * sin b)
          with (geo_c b * geo_radius * (1 - geo_e2) * sin b - geo_c a * geo_radius * sin b + rho p / cos b * sin b) by ring.
        rewrite RS. unfold geo_u. ring. }
    pose proof (AB ((geo_c b - geo_c a) * geo_radius) (sin b) (SIN_bound b)) as A1.
    rewrite (Rabs_mult _ geo_radius), (Rabs_right geo_radius) in A1 by (unfold geo_radius; lra).
    pose proof (Rabs_triang ((geo_c b - geo_c a) * geo_radius * sin b) (geo_u a - geo_u b)). lra.
Qed.
Print Assumptions C96_round_trip.

(** Accuracy: a point at geodetic latitude strictly between the poles, any longitude, and any altitude above -3000 km gets
    its latitude to 1e-11 rad (0.07 mm on the ground), its longitude exactly and its altitude to 0.02 mm. *)
Theorem C96_accuracy :
  forall (p : vec) (lat lon alt : R) (fuel : nat) (g : geodetic),
    - (PI / 2) < lat < PI / 2 -> - 3000000 <= alt -> geodetic_of p lat lon alt ->
    update_from_ecef fuel p = Ok g ->
    Rabs (geo_lat g - lat) <= 1 / 10 ^ 11 /\
    cos (geo_lon g) = cos lon /\ sin (geo_lon g) = sin lon /\
    Rabs (geo_alt g - alt) <= 2 / 10 ^ 5.
Proof.
  intros p lat lon alt fuel g HL HA HG E. apply geodetic_of_iff in HG. destruct HG as (X & Y & Z).
  pose proof (cos_pos_open lat HL) as CL. pose proof (geo_c_bounds lat) as CB. pose proof e2_bounds as EB.
  set (D := geo_c lat * geo_radius + alt) in *.
  assert (DB : 3378000 <= D) by (unfold D, geo_radius; lra).
  assert (RHO : rho p = D * cos lat).
  { unfold rho. rewrite X, Y. replace (D * cos lat * cos lon * (D * cos lat * cos lon) + D * cos lat * sin lon * (D * cos lat * sin lon)) with ((D * cos lat) * (D * cos lat) * (sin lon * sin lon + cos lon * cos lon)) by ring.
    rewrite sc, Rmult_1_r. apply sqrt_square. apply Rmult_le_pos; lra. }
  assert (RP : 0 < rho p) by (rewrite RHO; apply Rmult_lt_0_compat; lra).
  assert (N : p 0%nat <> 0 \/ p 1%nat <> 0).
  { destruct (Req_dec (p 0%nat) 0) as [X0|X0]; [|left; exact X0]. right. intros Y0. unfold rho in RP. rewrite X0, Y0 in RP.
    replace (0 * 0 + 0 * 0) with 0 in RP by ring. rewrite sqrt_0 in RP. lra. }
  destruct (update_off_axis p N) as (a & b & lo & SA & B & DD & CX & CY & L & _ & G). apply G in E. subst g. cbn [geo_lat geo_lon geo_alt].
  pose proof (clean_side _ _ _ RP SA) as SB. rewrite <- B in SB. pose proof (cos_pos_open b (proj1 SB)) as CBp.
  pose proof (b_relation (p 2%nat) (rho p) a RP) as BR. rewrite <- B in BR.
  (* the vertical component in terms of the true latitude *)
  assert (ZU : p 2%nat + geo_u lat = D * sin lat) by (rewrite Z; unfold geo_u, D; ring).
  (* the error equation *)
  assert (SE : D * sin (b - lat) = cos b * (geo_u a - geo_u lat)).
  { apply (Rmult_eq_reg_r (cos lat)); [|lra]. rewrite sin_minus.
    replace (D * (sin b * cos lat - cos b * sin lat) * cos lat) with (cos lat * (D * cos lat * sin b - D * sin lat * cos b)) by ring.
    rewrite <- RHO, BR, <- ZU. ring. }
  (* same hemisphere *)
  assert (ZD : 0 < geo_c lat * geo_radius * (1 - geo_e2) + alt).
  { assert (6300000 <= geo_c lat * geo_radius * (1 - geo_e2)); [|lra]. unfold geo_radius.
    assert (0.993 <= geo_c lat * (1 - geo_e2)) by nra. lra. }
  assert (HB : - (PI / 2) <= b - lat <= PI / 2).
  { destruct SB as (SB & S1 & S2 & S3). destruct (Rtotal_order (p 2%nat) 0) as [Q|[Q|Q]].
    - specialize (S2 Q). assert (lat < 0); [|lra]. rewrite Z in Q. destruct (Rlt_dec lat 0) as [|NL]; [assumption|exfalso].
      assert (0 <= sin lat) by (apply sin_ge_0; lra). pose proof (Rmult_le_pos _ _ (Rlt_le _ _ ZD) H). lra.
    - rewrite (S3 Q). lra.
    - specialize (S1 Q). assert (0 < lat); [|lra]. rewrite Z in Q. destruct (Rlt_dec 0 lat) as [|NL]; [assumption|exfalso].
      assert (0 <= sin (- lat)) by (apply sin_ge_0; lra). rewrite sin_neg in H. pose proof (Rmult_le_pos _ _ (Rlt_le _ _ ZD) H). lra. }
  pose proof (abs_le_sin _ HB) as AS.
  pose proof (geo_u_lip a lat) as UL.
  assert (TR : Rabs (a - lat) <= Rabs (b - lat) + 1 / 10 ^ 10).
  { replace (a - lat) with ((b - lat) + - (b - a)) by ring. pose proof (Rabs_triang (b - lat) (- (b - a))). rewrite Rabs_Ropp in H. lra. }
  assert (SD : D * Rabs (sin (b - lat)) = cos b * Rabs (geo_u a - geo_u lat)).
  { rewrite <- (Rabs_right D) at 1 by lra. rewrite <- Rabs_mult, SE, Rabs_mult, (Rabs_right (cos b)) by lra. reflexivity. }
  pose proof (COS_bound b) as CO.
  assert (LA : Rabs (b - lat) <= 1 / 10 ^ 11).
  { set (x := Rabs (b - lat)) in *. set (s := Rabs (sin (b - lat))) in *. set (u := Rabs (geo_u a - geo_u lat)) in *. set (y := Rabs (a - lat)) in *.
    assert (0 <= u) by apply Rabs_pos. assert (0 <= x) by apply Rabs_pos. assert (0 <= s) by apply Rabs_pos. clearbody x s u y. clear - SD AS UL TR DB CO CBp H H0 H1.
    assert (3378000 * s <= u) by nra. lra. }
  split; [exact LA|].
  rewrite RHO in CX, CY. rewrite X in CX. rewrite Y in CY.
  split; [apply (Rmult_eq_reg_l (D * cos lat)); [exact CX|nra]|]. split; [apply (Rmult_eq_reg_l (D * cos lat)); [exact CY|nra]|].
  (* altitude *)
  assert (UB : Rabs (geo_u a - geo_u lat) <= 5 / 10 ^ 6).
  { set (u := Rabs (geo_u a - geo_u lat)) in *. set (y := Rabs (a - lat)) in *. set (x := Rabs (b - lat)) in *. clearbody x u y. lra. }
  assert (CD : Rabs (geo_c a - geo_c lat) * geo_radius <= 3 / 10 ^ 6).
  { pose proof (geo_c_lip a lat) as CLp. unfold geo_radius. set (c := Rabs (geo_c a - geo_c lat)) in *. set (y := Rabs (a - lat)) in *. set (x := Rabs (b - lat)) in *. clearbody x c y. lra. }
  rewrite RHO. replace (D * cos lat / cos b - geo_c a * geo_radius - alt) with (D * (cos lat - cos b) / cos b + - ((geo_c a - geo_c lat) * geo_radius)) by (unfold D; field; lra).
  pose proof (Rabs_triang (D * (cos lat - cos b) / cos b) (- ((geo_c a - geo_c lat) * geo_radius))) as T. rewrite Rabs_Ropp in T.
  rewrite (Rabs_mult _ geo_radius), (Rabs_right geo_radius) in T by (unfold geo_radius; lra).
  assert (W : Rabs (D * (cos lat - cos b) / cos b) <= 12 / 10 ^ 6); [|lra].
  unfold Rdiv at 1. rewrite !Rabs_mult, (Rabs_right D), (Rabs_right (/ cos b)) by (try (left; apply Rinv_0_lt_compat); lra).
  assert (CC : Rabs (cos lat - cos b) <= Rabs (b - lat)).
  { pose proof (sin_lipschitz (PI / 2 - b) (PI / 2 - lat)) as SL. rewrite !sin_shift in SL. replace (PI / 2 - lat - (PI / 2 - b)) with (b - lat) in SL by ring. exact SL. }
  assert (K : D * Rabs (cos lat - cos b) <= 12 / 10 ^ 6 * cos b).
  { set (x := Rabs (b - lat)) in *. set (s := Rabs (sin (b - lat))) in *. set (u := Rabs (geo_u a - geo_u lat)) in *. set (c := Rabs (cos lat - cos b)) in *.
    assert (0 <= s) by apply Rabs_pos. assert (0 <= c) by apply Rabs_pos. clearbody x s u c. clear - SD AS UB CC DB CBp H H0.
    assert (c <= 2 * s) by lra. assert (D * c <= D * (2 * s)) by (apply Rmult_le_compat_l; lra).
    assert (cos b * u <= cos b * (5 / 10 ^ 6)) by (apply Rmult_le_compat_l; lra). lra. }
  apply (Rmult_le_reg_r (cos b)); [exact CBp|]. rewrite Rmult_assoc, Rinv_l by lra. lra.
Qed.
Print Assumptions C96_accuracy.

(** The local frame: the quaternion has unit length and takes a vector to its components along east, north and the
    ellipsoid's upward normal at that latitude and longitude. *)
Theorem C96_local_frame :
  forall (lat lon alt : R) (v : vec),
    unit 4 (geo_q (geodetic_new lat lon alt)) /\
    frame_conversion (geo_q (geodetic_new lat lon alt)) v 0%nat = dot 3 (east lon) v /\
    frame_conversion (geo_q (geodetic_new lat lon alt)) v 1%nat = dot 3 (north lat lon) v /\
    frame_conversion (geo_q (geodetic_new lat lon alt)) v 2%nat = dot 3 (GeoSpec.up lat lon) v.
Proof.
  intros lat lon alt v. destruct (from_dcm_spec _ (ltc_rotation lat lon)) as [U M]. cbn [geodetic_new geo_q]. split; [exact U|].
  rewrite !frame_dcm by lia. unfold mvec, dot. rewrite !sumn3. rewrite !M by lia. unfold ltc_dcm, east, north, GeoSpec.up. cbn [m3 v3]. repeat split; ring.
Qed.
Print Assumptions C96_local_frame.
(** The same after an update from an ECEF position: the stored frame is the one of the stored coordinates. *)
Theorem C96_update_frame :
  forall (fuel : nat) (p : vec) (g : geodetic),
    update_from_ecef fuel p = Ok g -> geo_q g = geo_q (geodetic_new (geo_lat g) (geo_lon g) (geo_alt g)).
Proof.
  intros fuel p g E. unfold update_from_ecef in E. destruct (fmod2p _) as [lon| | |]; try discriminate. cbn [bind] in E.
  destruct (geo_loop fuel _ _ _) as [[phi lat]| | |]; try discriminate. cbn [bind] in E. injection E as <-. reflexivity.
Qed.
Print Assumptions C96_update_frame.

(** On the polar axis the altitude is wrong: the same huge negative number for every height. *)
Theorem C96_polar_altitude_refuted :
  ~ (forall (p : vec) (lat lon alt : R) (fuel : nat) (g : geodetic),
       0 <= alt -> - (PI / 2) <= lat <= PI / 2 -> geodetic_of p lat lon alt -> update_from_ecef fuel p = Ok g ->
       Rabs (geo_alt g - alt) <= 1).
Proof.
  intros H. set (p := v3 0 0 (geo_c (PI / 2) * geo_radius * (1 - geo_e2) + 0)).
  destruct (update_axis p 0 eq_refl eq_refl) as (lon & _ & E). pose proof PI_RGT_0.
  assert (G : geodetic_of p (PI / 2) 0 0). { apply geodetic_of_iff. rewrite cos_PI2, sin_PI2. unfold p. cbn [v3]. repeat split; ring. }
  specialize (H p (PI / 2) 0 0 1%nat _ ltac:(lra) ltac:(lra) G E). cbn [geo_alt] in H.
  pose proof (geo_c_bounds (PI / 2)). rewrite Rabs_left in H by (unfold geo_radius; lra). unfold geo_radius in H. lra.
Qed.
Print Assumptions C96_polar_altitude_refuted.
(** On the whole axis: *)
Theorem C96_polar_altitude :
  forall (z : R) (fuel : nat) (g : geodetic), update_from_ecef fuel (v3 0 0 z) = Ok g ->
    geo_alt g = - (6378136.6 / sqrt (1 - geo_e2)).
Proof.
  intros z fuel g E. destruct fuel as [|k].
  - unfold update_from_ecef in E. destruct (fmod2p _); cbn [bind geo_loop] in E; discriminate.
  - destruct (update_axis (v3 0 0 z) k eq_refl eq_refl) as (lon & _ & U). rewrite U in E. injection E as <-. cbn [geo_alt].
    unfold geo_c, geo_radius. rewrite sin_PI2. replace (1 - geo_e2 * 1 * 1) with (1 - geo_e2) by ring. unfold Rdiv. ring.
Qed.
Print Assumptions C96_polar_altitude.

(** * Instances *)
(** A ground station at 35 degrees north, 139 degrees east, 100 m: all hypotheses hold. *)
Example ex_tokyo :
  let lat := 35 / 180 * PI in let lon := 139 / 180 * PI in
  exists p fuel g, ecef_position (geodetic_new lat lon 100) = Ok p /\ geodetic_of p lat lon 100 /\
    update_from_ecef fuel p = Ok g /\ Rabs (geo_alt g - 100) <= 2 / 10 ^ 5.
Proof.
  cbv zeta. pose proof PI_RGT_0 as P. destruct (C96_to_ecef (35 / 180 * PI) (139 / 180 * PI) 100) as (p & E & G).
  { replace (139 / 180 * PI / (2 * PI)) with (139 / 360) by (field; lra). rewrite Rabs_right by lra. lra. }
  destruct (C96_terminates p) as (n & g & U & _). exists p, n, g. split; [exact E|]. split; [exact G|]. split; [apply U; lia|].
  apply (C96_accuracy p (35 / 180 * PI) (139 / 180 * PI) 100 n g); [lra|lra|exact G|apply U; lia].
Qed.
(** A position on the equator has latitude zero. *)
Example ex_equator : forall fuel g, update_from_ecef fuel (v3 7000000 0 0) = Ok g -> geo_lat g = 0.
Proof.
  intros fuel g E. destruct (update_off_axis (v3 7000000 0 0)) as (a & b & lon & SA & B & _ & _ & _ & _ & _ & G); [left; cbn [v3]; lra|].
  apply G in E. subst g. cbn [geo_lat]. assert (R : 0 < rho (v3 7000000 0 0)) by (apply rho_pos; left; cbn [v3]; lra).
  pose proof (clean_side _ _ _ R SA) as (_ & _ & _ & Z). rewrite B. apply Z. reflexivity.
Qed.
