(** C97, C98: GNSS receiver. *)
From Coq Require Import Reals Lra Lia List Bool ZArith Psatz.
From Verif Require Import Base RBase VecModel VecProofs QuatModel QuatSpec QuatProofs Trig SensorModel SensorProofs SunSensorProofs GeoModel GeoProofs GnssRxModel GnssRxSpec GnssRxProofs.
Import ListNotations.
Open Scope R_scope.

Lemma main_flags fuel c i s s' : gnss_main fuel c i s = Ok s' ->
  (gr_visible s', gr_count s', gr_channels s') = check_antenna c i s.
Proof.
  unfold gnss_main. destruct (check_antenna c i s) as [[vis count] chs].
  destruct vis.
  - destruct (update_from_ecef fuel _); try discriminate. cbn [bind]. destruct (gps_time (gi_jd i)); try discriminate. cbn [bind]. intros [= <-]. reflexivity.
  - cbn [bind]. destruct (gps_time (gi_jd i)); try discriminate. cbn [bind]. intros [= <-]. reflexivity.
Qed.

(** With the simple antenna model the receiver sees GNSS exactly if the boresight points away from the Earth's centre. *)
Theorem C97_simple_antenna :
  forall (fuel : nat) (c : gnss_config) (i : gnss_input) (s s' : gnss_rx),
    gc_model c = AntSimple -> gnss_main fuel c i s = Ok s' ->
    (gr_visible s' = true <-> 0 < dot 3 (gi_pos_i i) (boresight_i c i)) /\
    gr_count s' = gr_count s /\ gr_channels s' = gr_channels s.
Proof.
  intros fuel c i s s' M E. apply main_flags in E. unfold check_antenna in E. rewrite M in E. injection E as -> -> ->.
  split; [|split; reflexivity]. unfold check_simple.
  rewrite (dot_ext _ (gi_pos_i i) _ _ (fun _ _ => eq_refl) (antenna_direction_spec c i)).
  destruct (rle_spec (dot 3 (gi_pos_i i) (boresight_i c i)) 0); cbn [negb]; split; intros; try discriminate; try reflexivity; lra.
Qed.
Print Assumptions C97_simple_antenna.

Lemma cone_angle c i sat : unit 4 (gc_q_b2c c) -> unit 4 (gi_q_i2b i) -> 0 <= gc_half_deg c <= 180 ->
  norm 3 (vsub sat (antenna_i c i)) <> 0 ->
  (cos (gc_half_deg c * (PI / 180)) < dot 3 (boresight_i c i) (normalize 3 (vsub sat (antenna_i c i))) <->
   angle_two_vectors 3 (boresight_i c i) (vsub sat (antenna_i c i)) < gc_half_deg c * (PI / 180)).
Proof.
  intros U V HH N. pose proof (boresight_unit c i U V) as BU. pose proof (unit_norm _ BU) as BN. pose proof PI_RGT_0 as P.
  unfold angle_two_vectors. rewrite BN, Rmult_1_l. set (v := vsub sat (antenna_i c i)) in *.
  replace (dot 3 (boresight_i c i) (normalize 3 v)) with (dot 3 (boresight_i c i) v / norm 3 v).
  2:{ unfold dot. rewrite !sumn3, !normalize_pos by exact N. field. exact N. }
  pose proof (dot_le_norms 3 (boresight_i c i) v) as CS. rewrite BN, Rmult_1_l in CS.
  assert (NP : 0 < norm 3 v) by (pose proof (norm_nonneg 3 v); lra).
  set (k := dot 3 (boresight_i c i) v / norm 3 v) in *.
  assert (K : -1 <= k <= 1).
  { assert (Q : - norm 3 v <= dot 3 (boresight_i c i) v <= norm 3 v) by (revert CS; unfold Rabs; destruct (Rcase_abs (dot 3 (boresight_i c i) v)); intros; lra).
    unfold k. split; (apply (Rmult_le_reg_r (norm 3 v)); [exact NP|]; unfold Rdiv; rewrite Rmult_assoc, Rinv_l by lra; lra). }
  set (h := gc_half_deg c * (PI / 180)). assert (H : 0 <= h <= PI) by (unfold h; split; nra).
  pose proof (acos_bound k) as AB. split; intros L.
  - apply cos_decreasing_0; try lra. rewrite cos_acos by exact K. exact L.
  - rewrite <- (cos_acos k) by exact K. apply cos_decreasing_1; lra.
Qed.

(** With the cone model a satellite is received exactly if it is inside the cone and either on the receiver's side of the
    Earth's centre or connected to it by a straight line clear of the Earth; the channels list these satellites in order,
    their number is reported, and GNSS is visible from four satellites up. *)
Theorem C97_cone_antenna :
  forall (fuel : nat) (c : gnss_config) (i : gnss_input) (s s' : gnss_rx),
    gc_model c = AntCone -> unit 4 (gc_q_b2c c) -> unit 4 (gi_q_i2b i) -> 0 <= gc_half_deg c <= 180 ->
    (forall sat, In sat (gi_sats i) -> norm 3 (vsub sat (antenna_i c i)) <> 0) ->
    gnss_main fuel c i s = Ok s' ->
    (exists received : nat -> bool,
       (forall k sat, nth_error (gi_sats i) k = Some sat ->
          (received k = true <->
             angle_two_vectors 3 (boresight_i c i) (vsub sat (antenna_i c i)) < gc_half_deg c * (PI / 180) /\
             (0 < dot 3 (antenna_i c i) sat \/ clear_line (antenna_i c i) sat))) /\
       map ch_id (gr_channels s') = filter received (seq 0 (List.length (gi_sats i)))) /\
    gr_count s' = List.length (gr_channels s') /\
    (gr_visible s' = true <-> (4 <= gr_count s')%nat).
Proof.
  intros fuel c i s s' M U V HH ND E. apply main_flags in E. unfold check_antenna in E. rewrite M, cone_loop_spec in E.
  cbv zeta in E. injection E as E1 E2 E3. cbn [fst snd app] in *.
  assert (CNT : gr_count s' = List.length (gr_channels s')) by (rewrite E2, E3, map_length; reflexivity).
  split; [|split; [exact CNT|rewrite E1, E2; refine (Nat.leb_le 4 _)]].
  exists (fun k => match nth_error (gi_sats i) k with Some sat => sat_received c i sat | None => false end). split.
  - intros k sat Hk. rewrite Hk. unfold sat_received. rewrite andb_true_iff.
    rewrite (dot_ext _ _ _ _ (antenna_direction_spec c i) (normalize_ext (vsub sat (antenna_position c i)) (vsub sat (antenna_i c i)) ltac:(intros j Hj; unfold vsub; rewrite (antenna_position_spec c i j Hj); reflexivity))).
    rewrite (view_ext _ _ _ (antenna_position_spec c i)).
    pose proof (cone_angle c i sat U V HH (ND sat (nth_error_In _ _ Hk))) as CA.
    destruct (rlt_spec (cos (gc_half_deg c * (PI / 180))) (dot 3 (boresight_i c i) (normalize 3 (vsub sat (antenna_i c i))))) as [Q|Q].
    + assert (SV : sat_in_view (antenna_i c i) sat = true <-> 0 < dot 3 (antenna_i c i) sat \/ clear_line (antenna_i c i) sat).
      { destruct (Rlt_dec 0 (dot 3 (antenna_i c i) sat)) as [W|W].
        - unfold sat_in_view. rewrite rlt_true by exact W. split; auto.
        - rewrite blocked_or_clear by lra. split; [auto|intros [X|X]; [lra|exact X]]. }
      rewrite SV. split; intros [_ X]; (split; [|exact X]); [apply CA; exact Q|reflexivity].
    + split; intros [X _]; [discriminate|]. apply CA in X. contradiction.
  - rewrite E3, map_map. cbn [gnss_info ch_id]. clear E1 E2 E3 CNT M U V HH ND.
    set (L := gi_sats i). change (seq 0 (List.length L)) with (seq 0 (List.length L)).
    assert (G : forall (l : list vec) id (f : nat -> option vec), (forall k, f (id + k)%nat = nth_error l k) ->
       map (fun x : nat * vec => fst x) (filter (fun p => sat_received c i (snd p)) (combine (seq id (List.length l)) l)) =
       filter (fun k => match f k with Some sat => sat_received c i sat | None => false end) (seq id (List.length l))).
    { induction l as [|x l IH]; intros id f F; [reflexivity|]. cbn [List.length seq combine filter snd].
      pose proof (F 0%nat) as F0. rewrite Nat.add_0_r in F0. cbn [nth_error] in F0. rewrite F0.
      assert (F' : forall k, f (S id + k)%nat = nth_error l k).
      { intros k. specialize (F (S k)). cbn [nth_error] in F. rewrite <- F. f_equal. lia. }
      destruct (sat_received c i x); cbn [map fst]; [f_equal|]; apply IH; exact F'. }
    apply G. intros k. reflexivity.
Qed.
Print Assumptions C97_cone_antenna.

(** A satellite on the receiver's side of the Earth has a clear line if 1/a^2 + 1/s^2 < 1/R^2 for the distances a, s from the
    Earth's centre; then the verdict is exactly the geometric one. For a GNSS orbit this holds above about 190 km. *)
Theorem C97_clear_above :
  forall a s : vec, norm 3 a <> 0 -> norm 3 s <> 0 ->
    1 / (norm 3 a * norm 3 a) + 1 / (norm 3 s * norm 3 s) < 1 / (6378136.6 * 6378136.6) ->
    (0 < dot 3 a s \/ clear_line a s <-> clear_line a s).
Proof. intros a s Ha Hs H. split; [|auto]. intros [W|W]; [|exact W]. apply same_side_clear; assumption. Qed.
Print Assumptions C97_clear_above.

(** Without this margin a received satellite may be behind the Earth: an antenna at 22 km altitude, a GNSS satellite well
    below the horizon. *)
Theorem C97_received_clear_refuted :
  ~ (forall a s : vec, 6378136.6 < norm 3 a -> 20000000 < norm 3 s -> sat_in_view a s = true -> clear_line a s).
Proof.
  intros H. set (a := v3 6400000 0 0). set (s := v3 1 26560000 0).
  assert (Na : norm 3 a = 6400000).
  { unfold norm, a. rewrite sumn3. cbn [v3]. replace (6400000 * 6400000 + 0 * 0 + 0 * 0) with (6400000 * 6400000) by ring. apply sqrt_square. lra. }
  assert (Ns : 20000000 < norm 3 s). { apply norm_gt; [lra|]. unfold sq, s. rewrite sumn3. cbn [v3]. lra. }
  assert (V : sat_in_view a s = true).
  { unfold sat_in_view. rewrite rlt_true; [reflexivity|]. unfold dot, a, s. rewrite sumn3. cbn [v3]. lra. }
  specialize (H a s ltac:(lra) Ns V 0.055 ltac:(lra)). apply (proj1 (norm_gt 6378136.6 _ ltac:(lra))) in H.
  unfold sq, a, s in H. rewrite sumn3 in H. cbn [v3] in H. lra.
Qed.
Print Assumptions C97_received_clear_refuted.

(** Each channel describes its satellite: the distance, and angles that are the spherical coordinates of the direction in the
    antenna frame. The latitude angle is in (0, pi/2] above the antenna plane and in [3 pi/2, 2 pi] below it. *)
Theorem C97_channels :
  forall (fuel : nat) (c : gnss_config) (i : gnss_input) (s s' : gnss_rx) (ch : channel),
    gc_model c = AntCone -> unit 4 (gc_q_b2c c) -> unit 4 (gi_q_i2b i) ->
    (forall sat, In sat (gi_sats i) -> norm 3 (vsub sat (antenna_i c i)) <> 0) ->
    gnss_main fuel c i s = Ok s' -> In ch (gr_channels s') ->
    exists sat, nth_error (gi_sats i) (ch_id ch) = Some sat /\
      ch_dist ch = norm 3 (vsub sat (antenna_i c i)) /\
      veq 3 (mvec 3 (mmul 3 (to_dcm (gc_q_b2c c)) (to_dcm (gi_q_i2b i))) (vsub sat (antenna_i c i)))
            (spherical (ch_lat ch) (ch_lon ch) (ch_dist ch)) /\
      (0 < ch_lat ch <= PI / 2 \/ 3 * (PI / 2) <= ch_lat ch <= 2 * PI) /\ 0 < ch_lon ch <= 2 * PI.
Proof.
  intros fuel c i s s' ch M U V ND E I. apply main_flags in E. unfold check_antenna in E. rewrite M, cone_loop_spec in E.
  cbv zeta in E. injection E as _ _ E3. cbn [fst snd app] in E3. rewrite E3 in I. apply in_map_iff in I. destruct I as ([k sat] & EC & I).
  apply filter_In in I. destruct I as [I _]. cbn [fst snd] in EC.
  assert (NT : nth_error (gi_sats i) k = Some sat).
  { clear - I. set (l := gi_sats i) in *. clearbody l.
    assert (G : forall (l : list vec) id k sat, In (k, sat) (combine (seq id (List.length l)) l) -> exists j, k = (id + j)%nat /\ nth_error l j = Some sat).
    { clear. induction l as [|x l IH]; intros id k sat H; [destruct H|]. cbn [List.length seq combine] in H. destruct H as [H|H].
      - injection H as <- <-. exists 0%nat. split; [lia|reflexivity].
      - destruct (IH _ _ _ H) as (j & -> & Hj). exists (S j). split; [lia|exact Hj]. }
    destruct (G l 0%nat k sat I) as (j & -> & Hj). exact Hj. }
  exists sat. rewrite <- EC. cbn [gnss_info ch_id ch_dist ch_lat ch_lon]. split; [exact NT|].
  assert (VE : veq 3 (vsub sat (antenna_position c i)) (vsub sat (antenna_i c i))).
  { intros j Hj. unfold vsub. rewrite (antenna_position_spec c i j Hj). reflexivity. }
  split; [apply norm_ext; exact VE|]. set (v := vsub sat (antenna_position c i)) in *. set (v' := vsub sat (antenna_i c i)) in *.
  set (w := frame_conversion (gc_q_b2c c) (frame_conversion (gi_q_i2b i) v)).
  assert (WE : veq 3 w (mvec 3 (mmul 3 (to_dcm (gc_q_b2c c)) (to_dcm (gi_q_i2b i))) v')).
  { intros j Hj. unfold w. rewrite frame_dcm by exact Hj. unfold mvec at 1. rewrite sumn3. rewrite !frame_dcm by lia.
    unfold mvec, mmul. rewrite !sumn3. rewrite !VE by lia. ring. }
  assert (NW : norm 3 w = norm 3 v).
  { unfold w. assert (F : forall q u, unit 4 q -> norm 3 (frame_conversion q u) = norm 3 u).
    { intros q u Uq. pose proof (dcm_rotation _ Uq) as RT. pose proof (rotation_dot (to_dcm q) u u RT) as RD.
      unfold norm. f_equal. unfold dot in RD. rewrite <- RD. apply sumn_ext. intros j Hj. rewrite frame_dcm by exact Hj. reflexivity. }
    rewrite !F by assumption. reflexivity. }
  assert (N0 : norm 3 w <> 0). { rewrite NW, (norm_ext v v' VE). apply ND. apply (nth_error_In _ _ NT). }
  split.
  - intros j Hj. rewrite <- WE by exact Hj. rewrite (norm_ext v v' VE) in NW. rewrite (norm_ext v v' VE), <- NW. apply spherical_actan; [exact N0|exact Hj].
  - split; [|apply actan_range]. pose proof PI_RGT_0. destruct (sqrt_pos (w 0%nat * w 0%nat + w 1%nat * w 1%nat)) as [HP|HP].
    + rewrite actan_right by exact HP. set (h := sqrt (w 0%nat * w 0%nat + w 1%nat * w 1%nat)) in *. pose proof (atan_open (w 2%nat / h)).
      destruct (rlt_spec 0 (w 2%nat)) as [Z|Z].
      * left. assert (0 < atan (w 2%nat / h)) by (apply atan_pos, Rdiv_lt_0_compat; lra). lra.
      * right. assert (atan (w 2%nat / h) <= 0). { apply atan_nonpos. unfold Rdiv. assert (0 < / h) by (apply Rinv_0_lt_compat; lra). nra. } lra.
    + rewrite <- HP, actan_axis. destruct (rlt 0 (w 2%nat)); [left|right]; lra.
Qed.
Print Assumptions C97_channels.

(** * C98: measured values *)
(** While GNSS is visible the measured position and velocity are the true ones plus the noise, and the geodetic position is
    the conversion of the measured position; while it is not, all three keep their values. *)
Theorem C98_measurement :
  forall (fuel : nat) (c : gnss_config) (i : gnss_input) (s s' : gnss_rx),
    gnss_main fuel c i s = Ok s' ->
    (gr_visible s' = true ->
       (forall k, gr_pos s' k = gi_pos_ecef i k + gi_pos_noise i k) /\ (forall k, gr_vel s' k = gi_vel_ecef i k + gi_vel_noise i k) /\
       update_from_ecef fuel (gr_pos s') = Ok (gr_geo s')) /\
    (gr_visible s' = false -> gr_pos s' = gr_pos s /\ gr_vel s' = gr_vel s /\ gr_geo s' = gr_geo s).
Proof.
  intros fuel c i s s' E. unfold gnss_main in E. destruct (check_antenna c i s) as [[vis count] chs]. destruct vis.
  - destruct (update_from_ecef fuel (vadd (gi_pos_ecef i) (gi_pos_noise i))) as [g| | |] eqn:G; try discriminate. cbn [bind] in E.
    destruct (gps_time (gi_jd i)); try discriminate. cbn [bind] in E. injection E as <-. cbn [gr_visible gr_pos gr_vel gr_geo].
    split; [|discriminate]. intros _. split; [reflexivity|]. split; [reflexivity|exact G].
  - cbn [bind] in E. destruct (gps_time (gi_jd i)); try discriminate. cbn [bind] in E. injection E as <-. cbn [gr_visible gr_pos gr_vel gr_geo].
    split; [discriminate|]. auto.
Qed.
Print Assumptions C98_measurement.

Fixpoint gnss_run (fuel : nat) (c : gnss_config) (l : list gnss_input) (s : gnss_rx) : outcome gnss_rx :=
  match l with [] => Ok s | i :: l' => let! s1 := gnss_main fuel c i s in gnss_run fuel c l' s1 end.
(** Whatever the receiver went through before, a measured position stays the reported one through any sequence of steps at
    which a receiver sees no GNSS. *)
Theorem C98_held :
  forall (fuel : nat) (c : gnss_config) (l : list gnss_input) (s s' : gnss_rx),
    gnss_run fuel c l s = Ok s' ->
    (forall i s1, In i l -> gnss_main fuel c i gnss_rx_new = Ok s1 -> gr_visible s1 = false) ->
    gr_pos s' = gr_pos s /\ gr_vel s' = gr_vel s /\ gr_geo s' = gr_geo s.
Proof.
  intros fuel c l. induction l as [|i l IH]; intros s s' E H; [injection E as <-; auto|]. cbn [gnss_run] in E.
  destruct (gnss_main fuel c i s) as [s1| | |] eqn:M; try discriminate. cbn [bind] in E.
  assert (V : gr_visible s1 = false).
  { destruct (gnss_main fuel c i gnss_rx_new) as [s2| | |] eqn:M2.
    - pose proof (H i s2 (or_introl eq_refl) M2) as V2. pose proof (main_flags _ _ _ _ _ M) as F1. pose proof (main_flags _ _ _ _ _ M2) as F2.
      unfold check_antenna in *. destruct (gc_model c); injection F1 as F1 _ _; injection F2 as F2 _ _; congruence.
    - exfalso. unfold gnss_main in *. unfold check_antenna in *. destruct (gc_model c).
      + destruct (check_simple c i); [destruct (update_from_ecef fuel _); try discriminate|]; cbn [bind] in *; destruct (gps_time (gi_jd i)); discriminate.
      + destruct (Nat.leb 4 _); [destruct (update_from_ecef fuel _); try discriminate|]; cbn [bind] in *; destruct (gps_time (gi_jd i)); discriminate.
    - exfalso. unfold gnss_main in *. unfold check_antenna in *. destruct (gc_model c).
      + destruct (check_simple c i); [destruct (update_from_ecef fuel _); try discriminate|]; cbn [bind] in *; destruct (gps_time (gi_jd i)); discriminate.
      + destruct (Nat.leb 4 _); [destruct (update_from_ecef fuel _); try discriminate|]; cbn [bind] in *; destruct (gps_time (gi_jd i)); discriminate.
    - exfalso. unfold gnss_main in *. unfold check_antenna in *. destruct (gc_model c).
      + destruct (check_simple c i); [destruct (update_from_ecef fuel _); try discriminate|]; cbn [bind] in *; destruct (gps_time (gi_jd i)); discriminate.
      + destruct (Nat.leb 4 _); [destruct (update_from_ecef fuel _); try discriminate|]; cbn [bind] in *; destruct (gps_time (gi_jd i)); discriminate. }
  destruct (proj2 (C98_measurement _ _ _ _ _ M) V) as (P & Q & G).
  destruct (IH s1 s' E (fun j s2 Hj => H j s2 (or_intror Hj))) as (P' & Q' & G'). rewrite P', Q', G'. auto.
Qed.
Print Assumptions C98_held.

(** The GPS time is the exact number of whole weeks and the remaining seconds since JD 2444244.5 (1980-01-06 0 h), without
    leap seconds; before that epoch by a week or more the conversion is undefined. *)
Theorem C98_gps_time :
  forall jd : R,
    (2444244.5 <= jd < 2444244.5 + 7 * 2 ^ 32 ->
       exists week sec, gps_time jd = Ok (week, sec) /\ (0 <= week < 2 ^ 32)%Z /\ 0 <= sec < 604800 /\
         jd = 2444244.5 + 7 * IZR week + sec / 86400) /\
    (jd <= 2444244.5 - 7 -> gps_time jd = UB).
Proof.
  intros jd. unfold gps_time, uint_of_double. destruct (trunc_bounds ((jd - 2444244.5) / 7)) as (A & B & C & D).
  set (x := (jd - 2444244.5) / 7) in *. assert (X : jd = 2444244.5 + 7 * x) by (unfold x; field).
  set (n := trunc x) in *. apply Rabs_def2 in B. split; intros H.
  - assert (X0 : 0 <= x) by lra. specialize (C X0). clear D. rewrite (Rabs_right x) in A by lra.
    assert (N0 : 0 <= IZR n) by (apply (IZR_le 0); exact C). rewrite Rabs_right in A by lra.
    assert (NB : (n < 2 ^ 32)%Z). { apply lt_IZR. change (2 ^ 32)%Z with 4294967296%Z. lra. }
    rewrite (proj2 (Z.leb_le 0 n) C), (proj2 (Z.ltb_lt n (2 ^ 32)) NB). cbn [andb bind]. exists n, ((jd - 2444244.5 - IZR n * 7) * 86400).
    split; [reflexivity|]. split; [lia|]. split; [split; lra|]. field.
  - assert (X0 : x <= -1) by lra. assert (N : (n < 0)%Z). { apply lt_IZR. lra. }
    rewrite (proj2 (Z.leb_gt 0 n) N). reflexivity.
Qed.
Print Assumptions C98_gps_time.

(** An antenna model name that is not known, or the cone model while GNSS satellites are not calculated, gives the simple model. *)
Theorem C98_fallback :
  forall is_simple is_cone enabled : bool,
    antenna_model_of is_simple is_cone enabled = AntCone <-> is_simple = false /\ is_cone = true /\ enabled = true.
Proof. intros [] [] []; cbn; split; intros H; try discriminate; try (destruct H as (? & ? & ?); discriminate); auto. Qed.
Print Assumptions C98_fallback.

(** * Instances *)
(** Four satellites straight above the antenna: visible. *)
Definition ex_input : gnss_input :=
  mkGnssInput (v3 7000000 0 0) (q4 0 0 0 1) (v3 7000000 0 0) (v3 0 7500 0) (v3 1 2 3) (v3 0 0 0)
    [v3 26560000 0 0; v3 26560000 1 0; v3 26560000 0 1; v3 26560000 1 1; v3 (-26560000) 0 0] 2460000.5.
Definition ex_config : gnss_config := mkGnssConfig AntSimple (v3 0 0 0) (q4 0 (sqrt 2 / 2) 0 (sqrt 2 / 2)) 60.
Example ex_simple_units : unit 4 (gc_q_b2c ex_config) /\ unit 4 (gi_q_i2b ex_input).
Proof.
  pose proof (sqrt_sqrt 2 ltac:(lra)) as S2. split; unfold unit, dot; cbn [ex_config ex_input gc_q_b2c gi_q_i2b sumn q4]; [nra|ring].
Qed.
Example ex_simple : exists fuel s', gnss_main fuel ex_config ex_input gnss_rx_new = Ok s' /\ gr_visible s' = true /\ gr_week s' = 2250%Z.
Proof.
  destruct (update_off_axis (vadd (gi_pos_ecef ex_input) (gi_pos_noise ex_input))) as (a & b & lon & _ & _ & _ & _ & _ & _ & G & _).
  { left. cbn [ex_input gi_pos_ecef gi_pos_noise]. unfold vadd. cbn [v3]. lra. }
  cbv zeta in G. specialize (G rounds (le_n _)). exists rounds. unfold gnss_main, check_antenna. cbn [ex_config gc_model].
  assert (CS : check_simple ex_config ex_input = true).
  { unfold check_simple. rewrite (dot_ext _ (gi_pos_i ex_input) _ _ (fun _ _ => eq_refl) (antenna_direction_spec ex_config ex_input)).
    rewrite rle_false; [reflexivity|]. unfold dot, boresight_i, mmul. rewrite !sumn3. cbn [ex_input ex_config gi_pos_i gc_q_b2c gi_q_i2b v3].
    unfold to_dcm. cbn [m3 v3 q4]. pose proof (sqrt_sqrt 2 ltac:(lra)) as S2. nra. }
  fold ex_config. rewrite CS. rewrite G. cbn [bind]. unfold gps_time, uint_of_double. cbn [ex_input gi_jd].
  assert (T : trunc ((2460000.5 - 2444244.5) / 7) = 2250%Z).
  { destruct (trunc_bounds ((2460000.5 - 2444244.5) / 7)) as (A & B & C & _). set (n := trunc ((2460000.5 - 2444244.5) / 7)) in *. clearbody n.
    apply Rabs_def2 in B. specialize (C ltac:(lra)). assert (N0 : 0 <= IZR n) by (apply (IZR_le 0); exact C). rewrite !Rabs_right in A by lra.
    assert (2249 < n)%Z by (apply lt_IZR; lra). assert (n < 2251)%Z by (apply lt_IZR; lra). lia. }
  rewrite T. cbn [Z.leb Z.ltb andb bind]. eexists. split; [reflexivity|]. split; reflexivity.
Qed.
(** The satellite behind the Earth is blocked, the one above is not. *)
Example ex_lines : clear_line (v3 7000000 0 0) (v3 26560000 0 0) /\ ~ clear_line (v3 7000000 0 0) (v3 (-26560000) 0 0).
Proof.
  split.
  - intros t Ht. apply norm_gt; [lra|]. unfold sq. rewrite sumn3. cbn [v3]. nra.
  - intros H. specialize (H 0.2 ltac:(lra)). apply (proj1 (norm_gt 6378136.6 _ ltac:(lra))) in H. unfold sq in H. rewrite sumn3 in H. cbn [v3] in H. lra.
Qed.
