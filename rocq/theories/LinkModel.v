(** Models of src/simulation/ground_station/ground_station.cpp, src/components/real/communication/antenna.cpp,
    antenna_radiation_pattern.cpp and ground_station_calculator.cpp (exact reals; the logarithm of a number that is
    not positive, -infinity or NaN in C++, is not modelled: the theorems require positive arguments).
    Not modelled: the log text and the setting files. *)
From Coq Require Import Reals Lra Lia List Bool ZArith.
From Verif Require Import Base RBase VecModel QuatModel SensorModel GeoModel Trig.
Import ListNotations.
Open Scope R_scope.

(** ** Ground station *)
(** ground_station.hpp:84-93; is_visible_ is a std::map from spacecraft id to flag *)
Record gstation : Type := mkGstation {
  gs_geo : geodetic; gs_ecef : vec; gs_i : vec; gs_limit_deg : R; gs_visible : nat -> option bool }.
(** ground_station.cpp:18-45, for n spacecraft *)
Definition gs_new (lat_deg lon_deg height limit_deg : R) (n : nat) : outcome gstation :=
  let g := geodetic_new (lat_deg * (PI / 180)) (lon_deg * (PI / 180)) height in
  let! e := ecef_position g in
  Ok (mkGstation g e (v3 0 0 0) limit_deg (fun i => if Nat.ltb i n then Some false else None)).
(** 56-73 *)
Definition calc_visible (s : gstation) (sat_ecef : vec) : bool :=
  let ltc := normalize 3 (frame_conversion (geo_q (gs_geo s)) (vsub sat_ecef (gs_ecef s))) in
  rlt (sin (gs_limit_deg s * (PI / 180))) (dot 3 ltc (v3 0 0 1)).
(** 49-54: dcm is the J2000-to-ECEF matrix, id and sat_ecef the spacecraft *)
Definition gs_update (s : gstation) (dcm : mat) (id : nat) (sat_ecef : vec) : gstation :=
  mkGstation (gs_geo s) (gs_ecef s) (mvec 3 (mtrans dcm) (gs_ecef s)) (gs_limit_deg s)
    (fun i => if Nat.eqb i id then Some (calc_visible s sat_ecef) else gs_visible s i).
(** ground_station.hpp:81: map::at throws for an absent id *)
Definition gs_is_visible (s : gstation) (id : nat) : outcome bool :=
  match gs_visible s id with Some b => Ok b | None => Throw end.

(** ** Antenna radiation pattern *)
(** antenna_radiation_pattern.hpp:62-67 *)
Record pattern : Type := mkPattern { pt_ntheta : nat; pt_nphi : nat; pt_theta_max : R; pt_phi_max : R; pt_gain : list (list R) }.
(** antenna_radiation_pattern.cpp:14 *)
Definition pattern_default : pattern := mkPattern 360 181 (2 * PI) PI (repeat (repeat 0 181) 360).
(** 30-33 *)
Definition clip (max x : R) : R :=
  let x := if rlt x 0 then 0 else x in if rlt max x then max else x.
(** 36-39; 0/0 is NaN and its conversion undefined; for n = 0 the index becomes SIZE_MAX, out of every table *)
Definition grid_index (n : nat) (max x : R) : outcome nat :=
  if req max 0 then UB else
  let i := Z.to_nat (trunc (INR n * clip max x / max + 0.5)) in
  if Nat.leb n i then (match n with O => UB | S m => Ok m end) else Ok i.
(** 26-42; operator[] is not checked *)
Definition pattern_gain (p : pattern) (theta phi : R) : outcome R :=
  let! i := grid_index (pt_ntheta p) (pt_theta_max p) theta in
  let! j := grid_index (pt_nphi p) (pt_phi_max p) phi in
  match nth_error (pt_gain p) i with
  | Some row => match nth_error row j with Some g => Ok g | None => UB end
  | None => UB
  end.

(** ** Antenna *)
Definition log10 (x : R) : R := ln x / ln 10.
(** antenna.hpp:20-40 *)
Inductive gain_model : Type := GainIsotropic | GainPattern.
Record ant_params : Type := mkAntParams { ap_gain : R; ap_feeder : R; ap_pointing : R; ap_model : gain_model; ap_pattern : pattern }.
Record antenna : Type := mkAntenna {
  an_q_b2c : quat; an_is_tx : bool; an_is_rx : bool; an_freq_MHz : R; an_bitrate : R; an_power : R; an_tx : ant_params;
  an_noise_K : R; an_rx : ant_params }.
(** antenna.cpp:36-46, 62-72 *)
Definition tx_eirp (a : antenna) : R :=
  if an_is_tx a then 10 * log10 (an_power a) + ap_feeder (an_tx a) + ap_pointing (an_tx a) else 0.
Definition rx_gt (a : antenna) : R :=
  if an_is_rx a then ap_feeder (an_rx a) + ap_pointing (an_rx a) - 10 * log10 (an_noise_K a) else 0.
(** 77-90 *)
Definition antenna_gain (p : ant_params) (theta phi : R) : outcome R :=
  match ap_model p with GainIsotropic => Ok (ap_gain p) | GainPattern => pattern_gain (ap_pattern p) theta phi end.
(** 92-97 *)
Definition calc_tx_eirp (a : antenna) (theta phi : R) : outcome R := let! g := antenna_gain (an_tx a) theta phi in Ok (tx_eirp a + g).
Definition calc_rx_gt (a : antenna) (theta phi : R) : outcome R := let! g := antenna_gain (an_rx a) theta phi in Ok (rx_gt a + g).

(** ** Ground station calculator *)
(** ground_station_calculator.hpp; the field downlink_bitrate_bps_ is never read *)
Record calculator : Type := mkCalculator {
  ca_polarization : R; ca_atmosphere : R; ca_rainfall : R; ca_others : R; ca_ebn0 : R; ca_hardware : R; ca_coding : R; ca_margin : R }.
(** What the calculation reads of the spacecraft *)
Record link_geometry : Type := mkLinkGeometry { lg_sc_i : vec; lg_sc_ecef : vec; lg_q_i2b : quat }.
(** physical_constants.hpp:23 *)
Definition boltzmann : R := 1380649 / 10 ^ 29.
(** ground_station_calculator.cpp:83-84 *)
Definition space_loss (d_m f_MHz : R) : R := -20 * log10 (4 * PI * (d_m / 1000) / (300 / f_MHz / 1000)).
(** 86-92 and 94-100: the direction in the antenna frame, and its angles *)
Definition sc_antenna_direction (tx : antenna) (g : link_geometry) (s : gstation) : vec :=
  frame_conversion (qmul (an_q_b2c tx) (lg_q_i2b g)) (normalize 3 (vsub (gs_i s) (lg_sc_i g))).
Definition gs_antenna_direction (rx : antenna) (g : link_geometry) (s : gstation) : vec :=
  frame_conversion (qmul (an_q_b2c rx) (geo_q (gs_geo s))) (normalize 3 (vsub (lg_sc_ecef g) (gs_ecef s))).
Definition dir_theta (d : vec) : R := acos (d 2%nat).
Definition dir_phi (d : vec) : R := atan2 (d 1%nat) (d 0%nat).
(** 71-107 *)
Definition calc_cn0 (c : calculator) (tx : antenna) (g : link_geometry) (s : gstation) (rx : antenna) : outcome R :=
  if negb (an_is_tx tx) || negb (an_is_rx rx) then Ok 0 else
  let loss := space_loss (norm 3 (vsub (lg_sc_i g) (gs_i s))) (an_freq_MHz tx) in
  let ds := sc_antenna_direction tx g s in
  let dg := gs_antenna_direction rx g s in
  let! eirp := calc_tx_eirp tx (dir_theta ds) (dir_phi ds) in
  let! gt := calc_rx_gt rx (dir_theta dg) (dir_phi dg) in
  Ok (eirp + loss + ca_polarization c + ca_atmosphere c + ca_rainfall c + ca_others c + gt - 10 * log10 boltzmann).
(** 49-61 *)
Definition max_bitrate (c : calculator) (cn0 : R) : R :=
  let m := cn0 - (ca_ebn0 c + ca_hardware c + ca_coding c) - ca_margin c in
  if rlt 0 m then Rpower 10 (m / 10) / 1000000 else 0.
(** 63-69 *)
Definition receive_margin (c : calculator) (tx : antenna) (cn0 : R) : R :=
  cn0 - (ca_ebn0 c + ca_hardware c + ca_coding c + 10 * log10 (an_bitrate tx)).
(** 33-46: the reported maximum bitrate [Mbps] and receive margin [dB] *)
Definition calculator_update (c : calculator) (id : nat) (tx : antenna) (g : link_geometry) (s : gstation) (rx : antenna) : outcome (R * R) :=
  let! v := gs_is_visible s id in
  if (v : bool) then let! cn0 := calc_cn0 c tx g s rx in Ok (max_bitrate c cn0, receive_margin c tx cn0)
  else Ok (0, -10000).
