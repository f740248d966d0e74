(** What a settings file is supposed to mean for the devices built from it. *)
From Coq Require Import Reals List Bool ZArith Ascii String.
From Verif Require Import Base RBase VecModel QuatModel SensorModel StringModel PowerPortModel CompInitModel.
Import ListNotations.
Open Scope list_scope.
Open Scope R_scope.

(** The kinds of numbered devices *)
Inductive kind : Type :=
| KGyro | KMagnetometer | KMagnetorquer | KInterference | KSun | KStar | KGnss | KBattery | KPanel | KPcu | KThruster | KWheel | KAntenna | KTelescope.

Definition text (a : string) (id : Z) : str := lit a ++ to_string id.
(** The sections of the file that belong to device number [id] of a kind *)
Definition own_sections (k : kind) (id : Z) : list str :=
  match k with
  | KGyro => [text "GYRO_SENSOR_" id; text "SENSOR_BASE_GYRO_SENSOR_" id]
  | KMagnetometer => [text "MAGNETOMETER_" id; text "SENSOR_BASE_MAGNETOMETER_" id]
  | KMagnetorquer => [text "MAGNETORQUER_" id]
  | KInterference => [text "MTQ_MAGNETOMETER_INTERFERENCE_" id]
  | KSun => [text "SUN_SENSOR_" id]
  | KStar => [text "STAR_SENSOR_" id]
  | KGnss => [text "GNSS_RECEIVER_" id]
  | KBattery => [text "BATTERY_" id]
  | KPanel => [text "SOLAR_ARRAY_PANEL_" id]
  | KPcu => [text "PCU_INITIAL_STUDY_" id]
  | KThruster => [text "THRUSTER_" id]
  | KWheel => [text "REACTION_WHEEL_" id; text "REACTION_WHEEL_JITTER_" id]
  | KAntenna => [text "ANTENNA_" id]
  | KTelescope => [text "TELESCOPE_" id]
  end.

(** Two files say the same in a section *)
Definition same_in (sec : str) (f g : ini) : Prop :=
  forall key, rd_string f sec key = rd_string g sec key /\ rd_double f sec key = rd_double g sec key /\
              rd_int f sec key = rd_int g sec key /\ rd_bool f sec key = rd_bool g sec key.

(** What else the building of a device is given *)
Record surroundings : Type := mkSurroundings {
  su_step : R; su_walk : nat -> nat -> R; su_noise : nat -> nat -> R; su_solar : R; su_a : R; su_b : R; su_satellites : bool; su_sun : bool;
  su_csv2 : str -> list (R * R); su_csv : str -> list (list R); su_statics : wheel_statics }.
Inductive device : Type :=
| DThree (t : three_axis) | DMtq (c : Z * MagneticModel.mtq_config) | DInterference (m : outcome (list mat)) | DSun (s : sun_init)
| DStar (s : outcome star_init) | DGnss (g : Z * GnssRxModel.gnss_config * vec * vec) | DBattery (b : PowerModel.battery) | DPanel (p : panel)
| DPcu (p : Z) | DThruster (t : thruster_init) | DWheel (w : outcome (wheel_statics * WheelModel.wheel))
| DAntenna (a : outcome LinkModel.antenna) | DTelescope (t : outcome TelescopeModel.tele).
(** The device of a kind and number that a file describes *)
Definition build (k : kind) (e : surroundings) (f : ini) (id : Z) : device :=
  match k with
  | KGyro => DThree (init_gyro f id (su_step e) (su_walk e) (su_noise e))
  | KMagnetometer => DThree (init_magnetometer f id (su_step e) (su_walk e) (su_noise e))
  | KMagnetorquer => DMtq (init_mtq f id (su_step e) (su_walk e) (su_noise e))
  | KInterference => DInterference (init_interference f id)
  | KSun => DSun (init_sun f id (su_solar e) (su_a e) (su_b e))
  | KStar => DStar (init_star f id (su_step e))
  | KGnss => DGnss (init_gnss f id (su_satellites e))
  | KBattery => DBattery (init_battery f id (su_step e))
  | KPanel => DPanel (init_panel f id (su_sun e))
  | KPcu => DPcu (init_pcu f id)
  | KThruster => DThruster (init_thruster f id)
  | KWheel => DWheel (init_wheel (su_csv2 e) f id (su_step e) (su_statics e))
  | KAntenna => DAntenna (init_antenna (su_csv e) f id)
  | KTelescope => DTelescope (init_telescope f id)
  end.

(** The number of ticks between two runs of a device that has one, and the time step it computes with, if it keeps one *)
Definition device_prescaler (d : device) : option Z :=
  match d with
  | DThree t => Some (ta_prescaler t) | DMtq (p, _) => Some p | DSun s => Some (sn_prescaler s)
  | DStar (Ok s) => Some (sr_prescaler s) | DGnss (p, _, _, _) => Some p | DBattery b => Some (PowerModel.prescaler b)
  | DPanel p => Some (pn_prescaler p) | DPcu p => Some p | DThruster t => Some (ti_prescaler t) | DWheel (Ok (s, _)) => Some (ws_prescaler s)
  | _ => None
  end.
Definition device_step (d : device) : option R :=
  match d with
  | DThree t => Some (walk_h (ta_sensor t)) | DMtq (_, c) => Some (MagneticModel.mq_walk_h c)
  | DStar (Ok s) => Some (StarModel.st_step (sr_config s))
  | DBattery b => Some (PowerModel.step_s b * IZR (PowerModel.prescaler b))
  | DThruster t => Some (ActuatorModel.tc_step (ti_config t)) | DWheel (Ok (s, _)) => Some (WheelModel.rw_step (ws_config s))
  | _ => None
  end.

(** Entry number i of a vector in the file: NAME(i) *)
Definition entry (f : ini) (sec : str) (name : string) (i : nat) : R :=
  rd_double f sec (lit name ++ lit "(" ++ to_string (Z.of_nat i) ++ lit ")").
Definition value (f : ini) (sec : str) (name : string) : R := rd_double f sec (lit name).
(** The scale factor matrix of a sensor: row by row, and the identity if all nine entries are zero *)
Definition scale_entry (f : ini) (sec : str) (i j : nat) : R := entry f sec "scale_factor_c" (3 * i + j).
Definition scale_matrix (f : ini) (sec : str) (m : mat) : Prop :=
  ((exists i j, (i < 3)%nat /\ (j < 3)%nat /\ scale_entry f sec i j <> 0) ->
   forall i j, (i < 3)%nat -> (j < 3)%nat -> m i j = scale_entry f sec i j) /\
  ((forall i j, (i < 3)%nat -> (j < 3)%nat -> scale_entry f sec i j = 0) ->
   forall i j, (i < 3)%nat -> (j < 3)%nat -> m i j = if Nat.eqb i j then 1 else 0).
(** What a sensor makes of a value v: range [c], zero output from [z] on (twice c if z is less than c) *)
Definition ranged (c z v out : R) : Prop :=
  let zero := if Rle_dec (Rabs c) (Rabs z) then Rabs z else 2 * Rabs c in
  (Rabs v < Rabs c -> out = v) /\ (Rabs c <= Rabs v < zero -> out = if Rle_dec 0 v then Rabs c else - Rabs c) /\ (zero <= Rabs v -> out = 0).
