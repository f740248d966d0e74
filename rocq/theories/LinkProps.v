(** C102-C104: ground station visibility, antenna radiation pattern, link budget. *)
From Coq Require Import Reals Lra Lia List Bool ZArith Psatz.
From Verif Require Import Base RBase VecModel VecProofs QuatModel QuatSpec QuatProofs Trig SensorModel SensorProofs ThermalProofs SunSensorProofs
  HillProofs GeoModel GeoSpec GeoProofs GeoProps GnssRxProofs WheelJitterProofs ActuatorProofs LinkModel LinkProofs.
Import ListNotations.
Open Scope R_scope.

(** * C102 *)
(** A spacecraft that is not at the station itself is visible exactly when its elevation above the plane normal to the
    reference ellipsoid at the station is greater than the limit. *)
Theorem C102_elevation :
  forall (lat_deg lon_deg height limit_deg : R) (n : nat) (s : gstation) (sat : vec),
    gs_new lat_deg lon_deg height limit_deg n = Ok s -> -90 <= limit_deg <= 90 ->
    let d := vsub sat (gs_ecef s) in let zenith := GeoSpec.up (lat_deg * (PI / 180)) (lon_deg * (PI / 180)) in
    norm 3 d <> 0 ->
    geodetic_of (gs_ecef s) (lat_deg * (PI / 180)) (lon_deg * (PI / 180)) height /\
    (calc_visible s sat = true <-> limit_deg * (PI / 180) < asin (dot 3 d zenith / norm 3 d)).
Proof.
  intros lat lon h l n s sat E L. cbv zeta. intros N. destruct (gs_new_ok _ _ _ _ _ _ E) as (G & LE & O & _). split; [exact O|].
  rewrite (visible_dot _ _ _ _ _ G N), LE. apply sin_asin_lt.
  - pose proof PI_RGT_0. split; nra.
  - set (d := vsub sat (gs_ecef s)) in *. set (u := GeoSpec.up _ _). pose proof (dot_le_norms 3 d u) as B. rewrite (unit_norm u (up_unit _ _)), Rmult_1_r in B.
    pose proof (norm_nonneg 3 d) as P. assert (BB := Rle_abs (dot 3 d u)); assert (B2 := Rle_abs (- dot 3 d u)); rewrite Rabs_Ropp in B2. split; apply (Rmult_le_reg_r (norm 3 d)); try lra; unfold Rdiv; rewrite Rmult_assoc, Rinv_l by exact N; lra.
Qed.
Print Assumptions C102_elevation.

(** For a station on or above the ellipsoid and a limit of at least the horizon, the line of sight to a visible spacecraft
    stays strictly outside the ellipsoid (beyond the station itself). *)
Theorem C102_line_of_sight :
  forall (lat_deg lon_deg height limit_deg : R) (n : nat) (s : gstation) (sat : vec) (t : R),
    gs_new lat_deg lon_deg height limit_deg n = Ok s -> 0 <= height -> 0 <= limit_deg <= 90 ->
    norm 3 (vsub sat (gs_ecef s)) <> 0 -> calc_visible s sat = true -> 0 < t ->
    let x := fun i => gs_ecef s i + t * (sat i - gs_ecef s i) in
    1 < (x 0%nat / 6378136.6) ^ 2 + (x 1%nat / 6378136.6) ^ 2 + (x 2%nat / (6378136.6 * (1 - 0.003352797))) ^ 2.
Proof.
  intros lat lon h l n s sat t E H L N V T. cbv zeta. destruct (gs_new_ok _ _ _ _ _ _ E) as (G & LE & O & _).
  apply (visible_dot _ _ _ _ _ G N) in V. rewrite LE in V. set (d := vsub sat (gs_ecef s)) in *.
  assert (S0 : 0 <= sin (l * (PI / 180))) by (pose proof PI_RGT_0; apply sin_ge_0; nra).
  assert (ND : 0 < norm 3 d) by (pose proof (norm_nonneg 3 d); lra).
  assert (D : 0 < dot 3 d (GeoSpec.up (lat * (PI / 180)) (lon * (PI / 180)))).
  { set (k := dot 3 d _) in *. replace k with (k / norm 3 d * norm 3 d) by (field; lra). apply Rmult_lt_0_compat; lra. }
  exact (above_tangent _ _ _ _ d t O H D T).
Qed.
Print Assumptions C102_line_of_sight.

(** The visibility flags over a history of updates: the flag of a spacecraft is that of its latest update, false before the
    first, an exception for an identifier neither simulated nor ever updated. *)
Theorem C102_flags :
  forall (lat_deg lon_deg height limit_deg : R) (n : nat) (s0 : gstation) (ups : list (mat * nat * vec)) (id : nat),
    gs_new lat_deg lon_deg height limit_deg n = Ok s0 ->
    let s := fold_left (fun s u => gs_update s (fst (fst u)) (snd (fst u)) (snd u)) ups s0 in
    gs_is_visible s id =
      match find (fun u => Nat.eqb (snd (fst u)) id) (rev ups) with
      | Some u => Ok (calc_visible s0 (snd u))
      | None => if Nat.ltb id n then Ok false else Throw
      end.
Proof.
  intros lat lon h l n s0 ups id E. cbv zeta. destruct (gs_new_ok _ _ _ _ _ _ E) as (_ & _ & _ & V).
  assert (K : forall ups, let s := fold_left (fun s u => gs_update s (fst (fst u)) (snd (fst u)) (snd u)) ups s0 in
     gs_geo s = gs_geo s0 /\ gs_ecef s = gs_ecef s0 /\ gs_limit_deg s = gs_limit_deg s0).
  { intros l0. induction l0 as [|u r IH] using rev_ind; [repeat split|]. rewrite fold_left_app. cbn [fold_left]. exact IH. }
  induction ups as [|u r IH] using rev_ind.
  - cbn [fold_left rev find]. unfold gs_is_visible. rewrite V. destruct (Nat.ltb id n); reflexivity.
  - rewrite fold_left_app, rev_app_distr. cbn [fold_left rev app find]. unfold gs_is_visible in *. cbn [gs_update gs_visible].
    rewrite (Nat.eqb_sym (snd (fst u)) id). destruct (Nat.eqb id (snd (fst u))); [|exact IH].
    destruct (K r) as (A & B & C). unfold calc_visible. rewrite A, B, C. reflexivity.
Qed.
Print Assumptions C102_flags.

(** The inertial position of the station is its Earth-fixed position turned back by the Earth rotation. *)
Theorem C102_inertial_position :
  forall (s : gstation) (dcm : mat) (id : nat) (sat : vec), rotation dcm ->
    let s' := gs_update s dcm id sat in
    gs_ecef s' = gs_ecef s /\ veq 3 (mvec 3 dcm (gs_i s')) (gs_ecef s) /\ norm 3 (gs_i s') = norm 3 (gs_ecef s).
Proof.
  intros s dcm id sat RT. cbv zeta. cbn [gs_update gs_ecef gs_i]. split; [reflexivity|]. split; [apply rotation_back; exact RT|].
  unfold norm. f_equal. exact (rotation_dot _ _ _ (trans_rotation _ RT)).
Qed.
Print Assumptions C102_inertial_position.

(** * C103 *)
Definition full_table (p : pattern) : Prop :=
  List.length (pt_gain p) = pt_ntheta p /\ Forall (fun row => List.length row = pt_nphi p) (pt_gain p).
(** [i] is the grid point nearest to x on the grid of n points at 0, w, 2w, ..., where w is max/n and x is first
    brought into [0, max] *)
Definition nearest (n : nat) (max x : R) (i : nat) : Prop :=
  let c := Rmin max (Rmax 0 x) in
  (i < n)%nat /\ forall j, (j < n)%nat -> Rabs (c - INR i * (max / INR n)) <= Rabs (c - INR j * (max / INR n)).

Lemma nearest_intro n max x i : 0 < max -> (i < n)%nat ->
  (((INR i - 1 / 2) * (max / INR n) <= clip max x /\ clip max x < (INR i + 1 / 2) * (max / INR n)) \/
     (i = (n - 1)%nat /\ (INR n - 1 / 2) * (max / INR n) <= clip max x)) -> nearest n max x i.
Proof.
  intros M I H. assert (C : Rmin max (Rmax 0 x) = clip max x).
  { unfold clip, Rmin, Rmax. destruct (rlt_spec x 0), (Rle_dec 0 x); try lra.
    - rewrite rlt_false by lra. destruct (Rle_dec max 0); lra.
    - destruct (rlt_spec max x), (Rle_dec max x); lra. }
  unfold nearest. rewrite C. clear C. split; [exact I|]. intros j J.
  assert (NP : 0 < INR n) by (apply (lt_INR 0); lia). set (w := max / INR n) in *. assert (W : 0 < w) by (apply Rdiv_lt_0_compat; lra).
  set (c := clip max x) in *. clearbody c w. destruct (Nat.eq_dec i j) as [->|NE]; [lra|].
  assert (IJ : INR i + 1 <= INR j \/ INR j + 1 <= INR i).
  { destruct (lt_dec i j) as [G|G]; [left|right]; rewrite <- S_INR; apply le_INR; lia. }
  destruct H as [[A B]|[EI A]].
  - destruct IJ as [G|G].
    + assert ((INR i + 1) * w <= INR j * w) by (apply Rmult_le_compat_r; lra).
      rewrite (Rabs_left1 (c - INR j * w)) by lra. apply Rabs_le. lra.
    + assert ((INR j + 1) * w <= INR i * w) by (apply Rmult_le_compat_r; lra).
      rewrite (Rabs_right (c - INR j * w)) by lra. apply Rabs_le. lra.
  - assert (INR i = INR n - 1) by (subst i; rewrite minus_INR by lia; reflexivity).
    destruct IJ as [G|G]; [pose proof (le_INR j (n - 1) ltac:(lia)) as X; rewrite minus_INR in X by lia; cbn [INR] in X; lra|].
    assert ((INR j + 1) * w <= INR i * w) by (apply Rmult_le_compat_r; lra).
    rewrite H in *. rewrite (Rabs_right (c - INR j * w)) by lra. apply Rabs_le. lra.
Qed.

(** Every direction gets a gain: the table entry of the nearest grid points of the two angles, brought into range. *)
Theorem C103_gain :
  forall (p : pattern) (theta phi : R),
    full_table p -> (0 < pt_ntheta p)%nat -> (0 < pt_nphi p)%nat -> 0 < pt_theta_max p -> 0 < pt_phi_max p ->
    exists i j, nearest (pt_ntheta p) (pt_theta_max p) theta i /\ nearest (pt_nphi p) (pt_phi_max p) phi j /\
      pattern_gain p theta phi = Ok (nth j (nth i (pt_gain p) []) 0).
Proof.
  intros p th ph [L F] NT NP MT MP.
  destruct (grid_index_spec (pt_ntheta p) (pt_theta_max p) th MT NT) as (i & Ei & Li & Hi).
  destruct (grid_index_spec (pt_nphi p) (pt_phi_max p) ph MP NP) as (j & Ej & Lj & Hj).
  exists i, j. split; [apply nearest_intro; assumption|]. split; [apply nearest_intro; assumption|].
  unfold pattern_gain. rewrite Ei, Ej. cbn [bind]. rewrite (nth_error_nth' (pt_gain p) []) by lia.
  assert (R0 : List.length (nth i (pt_gain p) []) = pt_nphi p) by (rewrite Forall_forall in F; apply F; apply nth_In; lia).
  rewrite (nth_error_nth' _ 0) by (rewrite R0; exact Lj). reflexivity.
Qed.
Print Assumptions C103_gain.

(** A pattern measured at 0, max/(n-1), 2 max/(n-1), ..., max (both ends included, as 181 points over 180 degrees are) is
    read one entry too far from the middle of the range on. *)
Theorem C103_inclusive_grid :
  forall (n k : nat) (max : R), (2 <= n)%nat -> (k < n)%nat -> 0 < max ->
    grid_index n max (INR k * (max / INR (n - 1))) = Ok (if Nat.ltb (2 * k) (n - 1) then k else Nat.min (k + 1) (n - 1)).
Proof.
  intros n k max N K M. set (m := (n - 1)%nat). assert (MP : 0 < INR m) by (apply (lt_INR 0); unfold m; lia).
  assert (NN : INR n = INR m + 1) by (unfold m; rewrite minus_INR by lia; cbn [INR]; lra).
  assert (KM : INR k <= INR m) by (apply le_INR; unfold m; lia). pose proof (pos_INR k) as K0.
  unfold grid_index. rewrite req_false by lra. 
  rewrite clip_id by (split; [apply Rmult_le_pos; [lra|left; apply Rdiv_lt_0_compat; lra]|apply (Rmult_le_reg_r (/ max * INR m)); [apply Rmult_lt_0_compat; [apply Rinv_0_lt_compat|]; lra|field_simplify; lra]]).
  assert (E : INR n * (INR k * (max / INR m)) / max + 0.5 = INR k + INR k / INR m + 0.5) by (rewrite NN; field; split; lra). rewrite E.
  assert (Q0 : 0 <= INR k / INR m) by (apply Rmult_le_pos; [lra|left; apply Rinv_0_lt_compat; lra]).
  assert (Q1 : INR k / INR m <= 1) by (apply (Rmult_le_reg_r (INR m)); [lra|]; unfold Rdiv; rewrite Rmult_assoc, Rinv_l by lra; lra).
  assert (T : trunc (INR k + INR k / INR m + 0.5) = Z.of_nat (if Nat.ltb (2 * k) m then k else k + 1)).
  { pose proof (trunc_nonneg (INR k + INR k / INR m + 0.5) ltac:(lra)) as T. set (z := trunc _) in *.
    destruct (Nat.ltb (2 * k) m) eqn:B.
    - apply Nat.ltb_lt in B. assert (INR k / INR m < 0.5).
      { apply (Rmult_lt_reg_r (INR m)); [lra|]. unfold Rdiv. rewrite Rmult_assoc, Rinv_l by lra. apply lt_INR in B. rewrite mult_INR in B. cbn [INR] in B. lra. }
      rewrite INR_IZR_INZ in *. assert (IZR z < IZR (Z.of_nat k + 1) /\ IZR (Z.of_nat k - 1) < IZR z) as [A C] by (rewrite plus_IZR, minus_IZR; lra). apply lt_IZR in A, C. lia.
    - apply Nat.ltb_ge in B. assert (0.5 <= INR k / INR m).
      { apply (Rmult_le_reg_r (INR m)); [lra|]. unfold Rdiv. rewrite Rmult_assoc, Rinv_l by lra. apply le_INR in B. rewrite mult_INR in B. cbn [INR] in B. lra. }
      rewrite INR_IZR_INZ in *. assert (IZR z < IZR (Z.of_nat k + 2) /\ IZR (Z.of_nat k) < IZR z) as [A C] by (rewrite plus_IZR; lra). apply lt_IZR in A, C. lia. }
  rewrite T, Nat2Z.id. destruct (Nat.ltb (2 * k) m) eqn:B.
  - apply Nat.ltb_lt in B. rewrite (proj2 (Nat.leb_gt _ _)) by (unfold m in B; lia). reflexivity.
  - apply Nat.ltb_ge in B. destruct (Nat.leb n (k + 1)) eqn:C.
    + apply Nat.leb_le in C. destruct n as [|n']; [lia|]. f_equal. unfold m. lia.
    + apply Nat.leb_gt in C. f_equal. unfold m. lia.
Qed.
Print Assumptions C103_inclusive_grid.

(** The default pattern has zero gain everywhere; angles below zero are read as zero. *)
Theorem C103_default_and_negative :
  (forall theta phi : R, pattern_gain pattern_default theta phi = Ok 0) /\
  (forall (p : pattern) (theta phi : R), 0 < pt_phi_max p -> phi <= 0 -> pattern_gain p theta phi = pattern_gain p theta 0).
Proof.
  split.
  - intros th ph. pose proof PI_RGT_0. destruct (C103_gain pattern_default th ph) as (i & j & [Hi _] & [Hj _] & E); cbn [pattern_default pt_ntheta pt_nphi pt_theta_max pt_phi_max]; try lia; try lra.
    + split; [apply repeat_length|]. apply Forall_forall. intros x X. apply repeat_spec in X. subst x. apply repeat_length.
    + rewrite E. f_equal. cbn [pattern_default pt_ntheta pt_nphi pt_gain] in *.
      assert (A : nth i (repeat (repeat 0 181) 360) [] = repeat 0 181) by (eapply repeat_spec; apply nth_In; rewrite repeat_length; exact Hi).
      rewrite A. apply (repeat_spec 181 0). apply nth_In. rewrite repeat_length. exact Hj.
  - intros p th ph M H. unfold pattern_gain, grid_index. rewrite (clip_neg _ ph M H). reflexivity.
Qed.
Print Assumptions C103_default_and_negative.

(** * C104 *)
(** The carrier-to-noise density in linear units is the Friis transmission equation over the noise density k T. *)
Theorem C104_friis :
  forall (c : calculator) (tx : antenna) (g : link_geometry) (s : gstation) (rx : antenna) (cn0 : R),
    an_is_tx tx = true -> an_is_rx rx = true -> 0 < an_power tx -> 0 < an_noise_K rx -> 0 < an_freq_MHz tx ->
    let d := norm 3 (vsub (lg_sc_i g) (gs_i s)) in 0 < d ->
    calc_cn0 c tx g s rx = Ok cn0 ->
    let linear := fun dB => Rpower 10 (dB / 10) in
    let wavelength := 300 / an_freq_MHz tx in
    exists gt gr,
      antenna_gain (an_tx tx) (dir_theta (sc_antenna_direction tx g s)) (dir_phi (sc_antenna_direction tx g s)) = Ok gt /\
      antenna_gain (an_rx rx) (dir_theta (gs_antenna_direction rx g s)) (dir_phi (gs_antenna_direction rx g s)) = Ok gr /\
      linear cn0 = an_power tx * linear (gt + ap_feeder (an_tx tx) + ap_pointing (an_tx tx)) * (wavelength / (4 * PI * d)) ^ 2
                   * linear (ca_polarization c + ca_atmosphere c + ca_rainfall c + ca_others c)
                   * linear (gr + ap_feeder (an_rx rx) + ap_pointing (an_rx rx)) / (1.380649 / 10 ^ 23 * an_noise_K rx).
Proof.
  intros c tx g s rx cn0 TX RX P T F. cbv zeta. intros D E. unfold calc_cn0 in E. rewrite TX, RX in E. cbn [negb orb] in E.
  unfold calc_tx_eirp, calc_rx_gt in E. destruct (antenna_gain (an_tx tx) _ _) as [gt| | |]; try discriminate. cbn [bind] in E.
  destruct (antenna_gain (an_rx rx) _ _) as [gr| | |]; try discriminate. cbn [bind] in E. injection E as <-.
  exists gt, gr. split; [reflexivity|]. split; [reflexivity|]. unfold tx_eirp, rx_gt. rewrite TX, RX. unfold space_loss.
  set (d := norm 3 _) in *. pose proof PI_RGT_0 as PP.
  assert (X : 0 < 4 * PI * (d / 1000) / (300 / an_freq_MHz tx / 1000)). { apply Rdiv_lt_0_compat; [apply Rmult_lt_0_compat; lra|]. apply Rdiv_lt_0_compat; [apply Rdiv_lt_0_compat; lra|lra]. }
  rewrite !db_minus, !db_plus. rewrite !db_minus, !db_plus. rewrite !db_log by (try assumption; unfold boltzmann; lra). rewrite db_log20 by exact X.
  unfold boltzmann.
  repeat match goal with |- context [Rpower ?a ?b] => generalize (Rpower a b); intros end.
  replace (1.380649 / 10 ^ 23) with (1380649 / 10 ^ 29) by lra. assert (KB : 1380649 / 10 ^ 29 <> 0) by lra. set (kb := 1380649 / 10 ^ 29) in *. clearbody kb. field. repeat split; lra.
Qed.
Print Assumptions C104_friis.

(** The reported numbers: the bitrate is the one at which the margin equals the requirement (zero if that is at most one
    bit per second); the transmission bitrate is within it exactly when the reported margin meets the requirement. *)
Theorem C104_bitrate :
  forall (c : calculator) (tx : antenna) (cn0 : R),
    let required := ca_ebn0 c + ca_hardware c + ca_coding c in
    let rate := max_bitrate c cn0 * 10 ^ 6 in
    (rate = 0 <-> cn0 - required <= ca_margin c) /\
    (rate <> 0 -> 1 < rate /\ cn0 - required - 10 * log10 rate = ca_margin c) /\
    (rate <> 0 -> 0 < an_bitrate tx -> (ca_margin c <= receive_margin c tx cn0 <-> an_bitrate tx <= rate)).
Proof.
  intros c tx cn0. cbv zeta. unfold max_bitrate, receive_margin. set (q := ca_ebn0 c + ca_hardware c + ca_coding c).
  set (m := cn0 - q - ca_margin c). assert (RP : 0 < Rpower 10 (m / 10)) by apply exp_pos.
  destruct (rlt_spec 0 m) as [L|L].
  - replace (Rpower 10 (m / 10) / 1000000 * 10 ^ 6) with (Rpower 10 (m / 10)) by field. split; [|split].
    + split; intros H; [lra|unfold m in L; lra].
    + intros _. split.
      * rewrite <- (Rpower_O 10) by lra. apply Rpower_lt; lra.
      * rewrite log10_power. unfold m. field.
    + intros _ B. split; intros H.
      * apply Rnot_lt_le. intros G. apply (log10_lt _ _ RP B) in G. rewrite log10_power in G. unfold m in G. lra.
      * apply Rnot_lt_le. intros G. apply (Rle_not_lt _ _ H). apply (log10_lt _ _ RP B). rewrite log10_power. unfold m. lra.
  - rewrite Rmult_0_l. split; [|split].
    + split; intros; [unfold m in L; lra|reflexivity].
    + intros H. contradiction H. reflexivity.
    + intros H. contradiction H. reflexivity.
Qed.
Print Assumptions C104_bitrate.

(** When the numbers are zero: not visible; and the convention for antennas that cannot talk to each other. *)
Theorem C104_no_link :
  forall (c : calculator) (id : nat) (tx : antenna) (g : link_geometry) (s : gstation) (rx : antenna),
    (gs_visible s id = Some false -> calculator_update c id tx g s rx = Ok (0, -10000)) /\
    (gs_visible s id = None -> calculator_update c id tx g s rx = Throw) /\
    (gs_visible s id = Some true -> (an_is_tx tx = false \/ an_is_rx rx = false) ->
       calculator_update c id tx g s rx = Ok (max_bitrate c 0, receive_margin c tx 0)) /\
    (gs_visible s id = Some true -> forall cn0, calc_cn0 c tx g s rx = Ok cn0 ->
       calculator_update c id tx g s rx = Ok (max_bitrate c cn0, receive_margin c tx cn0)).
Proof.
  intros c id tx g s rx. unfold calculator_update, gs_is_visible. split; [|split; [|split]]; intros V; rewrite V; cbn [bind].
  - reflexivity.
  - reflexivity.
  - intros H. unfold calc_cn0. replace (negb (an_is_tx tx) || negb (an_is_rx rx))%bool with true; [reflexivity|]. destruct H as [-> | ->]; cbn; [reflexivity|]. destruct (an_is_tx tx); reflexivity.
  - intros cn0 ->. reflexivity.
Qed.
Print Assumptions C104_no_link.

(** For an antenna mounted along the body (respectively local) axes the angles given to the radiation pattern are those of the
    direction of the other station from the antenna's z axis, and its x-y azimuth. *)
Theorem C104_pointing :
  forall (tx rx : antenna) (g : link_geometry) (s : gstation),
    unit 4 (lg_q_i2b g) -> unit 4 (geo_q (gs_geo s)) ->
    veq 4 (an_q_b2c tx) (q4 0 0 0 1) -> veq 4 (an_q_b2c rx) (q4 0 0 0 1) ->
    let to_gs := vsub (gs_i s) (lg_sc_i g) in let to_sc := vsub (lg_sc_ecef g) (gs_ecef s) in
    norm 3 to_gs <> 0 -> norm 3 to_sc <> 0 ->
    let antenna_z := mvec 3 (mtrans (to_dcm (lg_q_i2b g))) (v3 0 0 1) in
    let station_z := mvec 3 (mtrans (to_dcm (geo_q (gs_geo s)))) (v3 0 0 1) in
    dir_theta (sc_antenna_direction tx g s) = angle_two_vectors 3 to_gs antenna_z /\
    dir_theta (gs_antenna_direction rx g s) = angle_two_vectors 3 to_sc station_z.
Proof.
  intros tx rx g s U1 U2 I1 I2. cbv zeta. intros N1 N2.
  assert (K : forall (a q : quat) (v : vec), veq 4 a (q4 0 0 0 1) -> unit 4 q -> norm 3 v <> 0 ->
     frame_conversion (qmul a q) (normalize 3 v) 2%nat = dot 3 v (mvec 3 (mtrans (to_dcm q)) (v3 0 0 1)) / (norm 3 v * norm 3 (mvec 3 (mtrans (to_dcm q)) (v3 0 0 1)))).
  { intros a q v A U N. set (z := mvec 3 (mtrans (to_dcm q)) (v3 0 0 1)).
    assert (Z1 : norm 3 z = 1). { apply unit_norm. unfold unit, z. rewrite (rotation_dot _ _ _ (trans_rotation _ (dcm_rotation q U))). unfold dot. rewrite sumn3. cbn [v3]. ring. }
    rewrite Z1, Rmult_1_r. rewrite frame_dcm by lia. unfold mvec at 1. rewrite sumn3. rewrite !dcm_mul by lia. rewrite !normalize_pos by exact N.
    assert (M : forall k, (k < 3)%nat -> mmul 3 (to_dcm q) (to_dcm a) 2%nat k = to_dcm q 2%nat k).
    { intros k Hk. unfold mmul. rewrite sumn3. pose proof (A 0%nat ltac:(lia)) as A0. pose proof (A 1%nat ltac:(lia)) as A1. pose proof (A 2%nat ltac:(lia)) as A2. pose proof (A 3%nat ltac:(lia)) as A3. cbn [q4] in A0, A1, A2, A3.
      i3 k Hk; unfold to_dcm at 2 4 6; cbn [m3 v3]; rewrite A0, A1, A2, A3; ring. }
    rewrite !M by lia. unfold z, dot, mvec, mtrans. rewrite !sumn3. cbn [v3]. field. exact N. }
  unfold dir_theta, angle_two_vectors, sc_antenna_direction, gs_antenna_direction. split; f_equal; apply K; assumption.
Qed.
Print Assumptions C104_pointing.

(** For other mountings the two rotations are applied in the wrong order: the angle from the antenna's z axis is not the
    one given to the pattern. *)
Theorem C104_pointing_refuted :
  ~ (forall (tx : antenna) (g : link_geometry) (s : gstation),
       unit 4 (lg_q_i2b g) -> unit 4 (an_q_b2c tx) -> norm 3 (vsub (gs_i s) (lg_sc_i g)) <> 0 ->
       cos (dir_theta (sc_antenna_direction tx g s)) =
       mvec 3 (to_dcm (an_q_b2c tx)) (mvec 3 (to_dcm (lg_q_i2b g)) (normalize 3 (vsub (gs_i s) (lg_sc_i g)))) 2%nat).
Proof.
  intros H. set (ap := mkAntParams 0 0 0 GainIsotropic pattern_default).
  set (tx := mkAntenna (q4 1 0 0 0) true true 2000 1000 1 ap 100 ap).
  set (g := mkLinkGeometry (v3 0 0 0) (v3 0 0 0) (q4 0 (3 / 5) 0 (4 / 5))).
  set (s := mkGstation (geodetic_new 0 0 0) (v3 1 0 0) (v3 1 0 0) 0 (fun _ => None)).
  specialize (H tx g s). cbn [tx g s an_q_b2c lg_q_i2b gs_i lg_sc_i] in H.
  assert (V : forall k, vsub (v3 1 0 0) (v3 0 0 0) k = v3 1 0 0 k) by (intros [|[|k]]; unfold vsub; cbn [v3]; ring).
  assert (N : norm 3 (vsub (v3 1 0 0) (v3 0 0 0)) = 1) by (apply norm_unit_sq; [lra|unfold dot; rewrite sumn3, !V; cbn [v3]; ring]).
  assert (NV : forall k, normalize 3 (vsub (v3 1 0 0) (v3 0 0 0)) k = v3 1 0 0 k) by (intros k; rewrite normalize_pos by lra; rewrite N, V; field).
  assert (T : sc_antenna_direction tx g s 2%nat = 24 / 25).
  { unfold sc_antenna_direction. rewrite frame_dcm by lia. cbn [tx g s an_q_b2c lg_q_i2b gs_i lg_sc_i]. unfold mvec. rewrite sumn3, !NV. unfold to_dcm, qmul. cbn [m3 v3 q4]. field. }
  assert (C : cos (dir_theta (sc_antenna_direction tx g s)) = 24 / 25) by (unfold dir_theta; rewrite T; apply cos_acos; lra).
  cbn [tx g s] in C. rewrite C in H. 
  assert (X : mvec 3 (to_dcm (q4 1 0 0 0)) (mvec 3 (to_dcm (q4 0 (3 / 5) 0 (4 / 5))) (normalize 3 (vsub (v3 1 0 0) (v3 0 0 0)))) 2%nat = - (24 / 25)).
  { unfold mvec. rewrite !sumn3, !NV. unfold to_dcm. cbn [m3 v3 q4]. field. }
  rewrite X in H. assert (24 / 25 = - (24 / 25)); [|lra]. apply H.
  - unfold unit, dot. cbn [sumn q4]. field.
  - unfold unit, dot. cbn [sumn q4]. field.
  - lra.
Qed.
Print Assumptions C104_pointing_refuted.

(** * Instances *)
Example ex_station : exists s, gs_new 0 0 0 0 1 = Ok s /\ calc_visible s (v3 7000000 0 0) = true /\ calc_visible s (v3 (-7000000) 0 0) = false.
Proof.
  pose proof PI_RGT_0 as PP.
  destruct (C96_to_ecef (0 * (PI / 180)) (0 * (PI / 180)) 0) as (p & E & G). { replace (0 * (PI / 180) / (2 * PI)) with 0 by (field; lra). rewrite Rabs_R0. apply pow_lt. lra. }
  unfold gs_new. rewrite E. cbn [bind]. eexists. split; [reflexivity|]. rewrite !Rmult_0_l in *. apply geodetic_of_iff in G. destruct G as (X & Y & Z). rewrite cos_0, sin_0 in *.
  assert (GC : geo_c 0 = 1). { unfold geo_c. rewrite sin_0. replace (1 - geo_e2 * 0 * 0) with 1 by ring. rewrite sqrt_1. field. }
  rewrite GC in *. unfold geo_radius in *.
  set (s := mkGstation _ _ _ _ _).
  assert (D : forall x, norm 3 (vsub (v3 x 0 0) p) = Rabs (x - p 0%nat) /\ dot 3 (vsub (v3 x 0 0) p) (GeoSpec.up 0 0) = x - p 0%nat).
  { intros x. split.
    - apply norm_unit_sq; [apply Rabs_pos|]. unfold dot. rewrite sumn3. unfold vsub. cbn [v3]. rewrite Y, Z. rewrite <- Rabs_mult. rewrite Rabs_right by (apply Rle_ge; apply Rle_0_sqr). ring.
    - unfold dot. rewrite sumn3. unfold vsub, GeoSpec.up. cbn [v3]. rewrite cos_0, sin_0, Y, Z. ring. }
  split.
  - destruct (D 7000000) as (N & DD). apply (visible_dot s 0 0 0); cbn [s gs_geo gs_ecef gs_limit_deg]; [rewrite ?Rmult_0_l; reflexivity| |].
    + rewrite N. apply Rabs_no_R0. lra.
    + rewrite N, DD, Rmult_0_l, sin_0, Rabs_right by lra. apply Rdiv_lt_0_compat; lra.
  - destruct (D (-7000000)) as (N & DD). destruct (calc_visible s (v3 (-7000000) 0 0)) eqn:V; [|reflexivity].
    apply (visible_dot s 0 0 0) in V; cbn [s gs_geo gs_ecef gs_limit_deg] in *; [|rewrite ?Rmult_0_l; reflexivity|rewrite N; apply Rabs_no_R0; lra].
    rewrite N, DD, Rmult_0_l, sin_0, Rabs_left in V by lra. set (w := -7000000 - p 0%nat) in *. assert (w < 0) by (unfold w; lra). replace (w / - w) with (-1) in V by (field; lra). lra.
Qed.
Example ex_link :
  let ap := mkAntParams 3 (-1) (-1) GainIsotropic pattern_default in
  let tx := mkAntenna (q4 0 0 0 1) true false 8000 (10 ^ 6) 2 ap 0 ap in
  let rx := mkAntenna (q4 0 0 0 1) false true 8000 0 0 ap 100 ap in
  let c := mkCalculator 0 (-1) (-1) 0 4 1 0 3 in
  let g := mkLinkGeometry (v3 7000000 0 0) (v3 7000000 0 0) (q4 0 0 0 1) in
  let s := mkGstation (geodetic_new 0 0 0) (v3 6378136 0 0) (v3 6378136 0 0) 10 (fun _ => Some true) in
  exists cn0, calc_cn0 c tx g s rx = Ok cn0 /\ full_table pattern_default /\ (0 < an_power tx)%R /\ 0 < norm 3 (vsub (lg_sc_i g) (gs_i s)).
Proof.
  cbv zeta. eexists. split; [reflexivity|]. split; [|split].
  - split; [apply repeat_length|]. apply Forall_forall. intros x X. apply repeat_spec in X. subst x. apply repeat_length.
  - cbn [an_power]. lra.
  - cbn [lg_sc_i gs_i]. assert (N : norm 3 (vsub (v3 7000000 0 0) (v3 6378136 0 0)) = 621864) by (apply norm_unit_sq; [lra|unfold dot; rewrite sumn3; unfold vsub; cbn [v3]; ring]). rewrite N. lra.
Qed.
