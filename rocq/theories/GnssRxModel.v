(** Model of src/components/real/aocs/gnss_receiver.cpp (exact reals). Not modelled: the reported UTC (a copy of the
    simulation time), the log text, and the initialisation file. The noise samples are inputs. *)
From Coq Require Import Reals Lra Lia List Bool ZArith.
From Verif Require Import Base RBase VecModel QuatModel SensorModel GeoModel.
Import ListNotations.
Open Scope R_scope.

Inductive antenna_model : Type := AntSimple | AntCone.

Record gnss_config : Type := mkGnssConfig {
  gc_model : antenna_model; gc_antenna_b : vec; gc_q_b2c : quat; gc_half_deg : R }.
(** What the routine reads: true position (inertial and ECEF), attitude, true velocity, the noise drawn, the positions of the
    GNSS satellites and the Julian day. *)
Record gnss_input : Type := mkGnssInput {
  gi_pos_i : vec; gi_q_i2b : quat; gi_pos_ecef : vec; gi_vel_ecef : vec; gi_pos_noise : vec; gi_vel_noise : vec;
  gi_sats : list vec; gi_jd : R }.
(** gnss_receiver.hpp:31-36 *)
Record channel : Type := mkChannel { ch_id : nat; ch_lat : R; ch_lon : R; ch_dist : R }.
(** gnss_receiver.hpp:137-154 *)
Record gnss_rx : Type := mkGnssRx {
  gr_pos : vec; gr_vel : vec; gr_geo : geodetic; gr_week : Z; gr_sec : R; gr_visible : bool; gr_count : nat; gr_channels : list channel }.
Definition gnss_rx_new : gnss_rx :=
  mkGnssRx (v3 0 0 0) (v3 0 0 0) (geodetic_new 0 0 0) 0 0 false 0 [].

(** conversion of a double to unsigned int: undefined unless the truncated value is in range *)
Definition uint_of_double (x : R) : outcome Z :=
  if (Z.leb 0 (trunc x) && Z.ltb (trunc x) (2 ^ 32))%bool then Ok (trunc x) else UB.

(** gnss_receiver.cpp:93-96, 111-114: the antenna's z axis in the inertial frame *)
Definition antenna_direction (c : gnss_config) (i : gnss_input) : vec :=
  inverse_frame_conversion (gi_q_i2b i) (inverse_frame_conversion (gc_q_b2c c) (v3 0 0 1)).
(** 117 *)
Definition antenna_position (c : gnss_config) (i : gnss_input) : vec :=
  vadd (gi_pos_i i) (inverse_frame_conversion (gi_q_i2b i) (gc_antenna_b c)).
(** 88-104 *)
Definition check_simple (c : gnss_config) (i : gnss_input) : bool :=
  negb (rle (dot 3 (gi_pos_i i) (antenna_direction c i)) 0).

(** 131-148. The arcsine of a value above one is NaN, and a comparison with NaN is false. *)
Definition sat_in_view (ant sat : vec) : bool :=
  if rlt 0 (dot 3 ant sat) then true
  else if rlt 1 (geo_radius / norm 3 ant) then false
  else if req (norm 3 ant) 0 then false  (* division by zero: asin of infinity is NaN *)
  else rlt (asin (geo_radius / norm 3 ant)) (acos (dot 3 (vneg (normalize 3 ant)) (normalize 3 (vsub sat ant)))).
(** 150-152 *)
Definition sat_received (c : gnss_config) (i : gnss_input) (sat : vec) : bool :=
  rlt (cos (gc_half_deg c * (PI / 180))) (dot 3 (antenna_direction c i) (normalize 3 (vsub sat (antenna_position c i)))) &&
  sat_in_view (antenna_position c i) sat.
(** 168-181 *)
Definition gnss_info (c : gnss_config) (i : gnss_input) (v : vec) (id : nat) : channel :=
  let w := frame_conversion (gc_q_b2c c) (frame_conversion (gi_q_i2b i) v) in
  mkChannel id (actan (w 2%nat) (sqrt (w 0%nat * w 0%nat + w 1%nat * w 1%nat))) (actan (w 1%nat) (w 0%nat)) (norm 3 v).
(** 124-158: the loop over the satellites *)
Fixpoint cone_loop (c : gnss_config) (i : gnss_input) (sats : list vec) (id count : nat) (chs : list channel) : nat * list channel :=
  match sats with
  | [] => (count, chs)
  | s :: l => if sat_received c i s
              then cone_loop c i l (S id) (S count) (chs ++ [gnss_info c i (vsub s (antenna_position c i)) id])
              else cone_loop c i l (S id) count chs
  end.
(** 78-166: the flag, the number of visible satellites and the channel list; the simple model leaves the latter two alone *)
Definition check_antenna (c : gnss_config) (i : gnss_input) (s : gnss_rx) : bool * nat * list channel :=
  match gc_model c with
  | AntSimple => (check_simple c i, gr_count s, gr_channels s)
  | AntCone => let r := cone_loop c i (gi_sats i) 0 0 [] in (Nat.leb 4 (fst r), fst r, snd r)
  end.
(** 190-201 *)
Definition gps_time (jd : R) : outcome (Z * R) :=
  let elapsed := jd - 2444244.5 in
  let! week := uint_of_double (elapsed / 7) in
  Ok (week, (elapsed - IZR week * 7) * 86400).
(** 56-76; [fuel] bounds the iteration of UpdateFromEcef *)
Definition gnss_main (fuel : nat) (c : gnss_config) (i : gnss_input) (s : gnss_rx) : outcome gnss_rx :=
  let '(vis, count, chs) := check_antenna c i s in
  let! pvg := (if vis : bool
               then let p := vadd (gi_pos_ecef i) (gi_pos_noise i) in
                    let! g := update_from_ecef fuel p in Ok (p, vadd (gi_vel_ecef i) (gi_vel_noise i), g)
               else Ok (gr_pos s, gr_vel s, gr_geo s)) in
  let '(p, v, g) := (pvg : vec * vec * geodetic) in
  let! ws := gps_time (gi_jd i) in
  Ok (mkGnssRx p v g (fst ws) (snd ws) vis count chs).

(** 243-254 and 276-285 *)
Definition antenna_model_of (is_simple is_cone gnss_enabled : bool) : antenna_model :=
  let m := if is_simple then AntSimple else if is_cone then AntCone else AntSimple in
  match m with AntCone => if gnss_enabled then AntCone else AntSimple | AntSimple => AntSimple end.
