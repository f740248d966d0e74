(** What a CSV log means, independently of how the logger writes it. *)
From Coq Require Import List ZArith Bool Ascii String Lia.
From Verif Require Import Base StringModel LogModel.
Import ListNotations.
Open Scope Z_scope.

Definition comma : ascii := ","%char.
(** reading a row: the texts between the commas (one more than there are commas) *)
Fixpoint cells_from (cur s : str) : list str :=
  match s with
  | [] => [rev cur]
  | c :: t => if Ascii.eqb c comma then rev cur :: cells_from [] t else cells_from (c :: cur) t
  end.
Definition cells (s : str) : list str := cells_from [] s.

Definition plain (s : str) : Prop := ~ In comma s.
(** an object writes these columns: (name, value) pairs without commas, each terminated by a comma *)
Definition has_columns (o : loggable) (cols : list (str * str)) : Prop :=
  log_header o = List.concat (map (fun c => fst c ++ [comma]) cols) /\
  log_value o = List.concat (map (fun c => snd c ++ [comma]) cols) /\
  Forall (fun c => plain (fst c) /\ plain (snd c)) cols.
(** only the header side / value side of an object *)
Definition has_names (o : loggable) (names : list str) : Prop :=
  log_header o = List.concat (map (fun c => c ++ [comma]) names) /\ Forall plain names.
Definition has_values (o : loggable) (values : list str) : Prop :=
  log_value o = List.concat (map (fun c => c ++ [comma]) values) /\ Forall plain values.

(** ** The columns a user expects of each class: which C++ quantity stands under which header.
    One row: the header call and the value calls that fill exactly its columns. *)
Definition width_h (h : hitem) : nat := match h with HScalar _ _ | HName _ => 1 | HVector _ _ _ n => n | HQuaternion _ _ => 4 end%nat.
Definition width_v (v : vitem) : nat := match v with VScalar _ => 1 | VVector n _ => n | VQuaternion _ => 4 end%nat.
(** the column names of a header call, the quantities of a value call *)
Definition names_h (h : hitem) : list str :=
  match h with
  | HScalar n u => [n ++ lit "[" ++ u ++ lit "]"]
  | HName n => [n]
  | HVector n f u k =>
      if Nat.eqb k 3 then map (fun a => n ++ lit "_" ++ f ++ lit a ++ lit "[" ++ u ++ lit "]") ["_x"; "_y"; "_z"]%string
      else map (fun i => n ++ lit "_" ++ f ++ lit "(" ++ num i ++ lit ")[" ++ u ++ lit "]") (seq 0 k)
  | HQuaternion n f => map (fun a => n ++ lit "_" ++ f ++ lit a) ["_x"; "_y"; "_z"; "_w"]%string
  end.
Definition values_v (show : str -> nat -> str) (v : vitem) : list str :=
  match v with VScalar e => [show e 0%nat] | VVector n e => map (show e) (seq 0 n) | VQuaternion e => map (show e) (seq 0 4) end.
(** the parts of a header call that come from the user *)
Definition plain_h (h : hitem) : Prop :=
  match h with
  | HScalar n u => plain n /\ plain u
  | HName n => plain n
  | HVector n f u _ => plain n /\ plain f /\ plain u
  | HQuaternion n f => plain n /\ plain f
  end.

Definition row : Type := (hitem * list vitem)%type.
Definition V3 (name frame unit : string) (e : string) : row := (HVector (lit name) (lit frame) (lit unit) 3, [VVector 3 (lit e)]).
Definition S1 (name unit e : string) : row := (HScalar (lit name) (lit unit), [VScalar (lit e)]).
Definition N1 (name e : string) : row := (HName (lit name), [VScalar (lit e)]).
(** the same with the component id inside the name *)
Definition numbered (a : string) (id : Z) (b : string) : str := lit a ++ to_string id ++ lit b.
Definition V3i (a : string) (id : Z) (b frame unit e : string) : row := (HVector (numbered a id b) (lit frame) (lit unit) 3, [VVector 3 (lit e)]).
Definition S1i (a : string) (id : Z) (b unit e : string) : row := (HScalar (numbered a id b) (lit unit), [VScalar (lit e)]).
Definition N1i (a : string) (id : Z) (b e : string) : row := (HName (numbered a id b), [VScalar (lit e)]).
Definition element (e : string) (k : nat) : vitem := VScalar (lit e ++ lit "[" ++ num k ++ lit "]").
Definition three (e : string) (i : nat) : list vitem := [element e (i * 3); element e (i * 3 + 1); element e (i * 3 + 2)].

(** the pairs of spacecraft, later one first, in the order (1,0) (2,0) (2,1) (3,0) ...; names and calls with two numbers *)
Definition spacecraft_pairs (n : nat) : list (nat * nat) := flat_map (fun target => map (fun reference => (target, reference)) (seq 0 target)) (seq 0 n).
Definition seen_from (what : string) (p : nat * nat) : str :=
  let target := fst p in let reference := snd p in lit "satellite" ++ num target ++ lit what ++ num reference.
Definition call2 (e : string) (p : nat * nat) : str := let target := fst p in let reference := snd p in lit e ++ lit "(" ++ num target ++ lit "," ++ num reference ++ lit ")".

(** the non-boundary nodes with their index in the node list *)
Definition logged_nodes (nodes : list (bool * Z * str)) : list (nat * (bool * Z * str)) :=
  filter (fun ix => negb (fst (fst (snd ix)))) (combine (seq 0 (List.length nodes)) nodes).
Definition node_rows (prefix unit e : string) (nodes : list (bool * Z * str)) : list row :=
  map (fun ix : nat * (bool * Z * str) =>
         (HScalar (lit prefix ++ to_string (snd (fst (snd ix))) ++ lit " (" ++ snd (snd ix) ++ lit ")") (lit unit), [element e (fst ix)])) (logged_nodes nodes).
Definition attitude_rows : list row :=
  [V3 "spacecraft_angular_velocity" "b" "rad/s" "angular_velocity_b_rad_s_";
   (HQuaternion (lit "spacecraft_quaternion") (lit "i2b"), [VQuaternion (lit "quaternion_i2b_")]);
   V3 "spacecraft_torque" "b" "Nm" "torque_b_Nm_"; S1 "spacecraft_total_angular_momentum" "Nms" "angular_momentum_total_Nms_";
   S1 "spacecraft_kinematic_energy" "J" "kinetic_energy_J_"].

Definition table (c : cls) : list row :=
  match c with
  | TorqueGenerator => [V3 "ideal_torque_generator_ordered_torque" "b" "Nm" "ordered_torque_b_Nm_"; V3 "ideal_torque_generator_generated_torque" "b" "Nm" "generated_torque_b_Nm_"]
  | OrbitObserver => [V3 "orbit_observer_position" "i" "m" "observed_position_i_m_"; V3 "orbit_observer_velocity" "i" "m/s" "observed_velocity_i_m_s_"]
  | AngularVelocityObserver => [V3 "angular_velocity_observer_measured_value" "b" "rad/s" "angular_velocity_b_rad_s_"]
  | AttitudeObserver => [(HQuaternion (lit "attitude_observer_quaternion") (lit "i2b"), [VQuaternion (lit "observed_quaternion_i2b_")])]
  | ForceGenerator => [V3 "ideal_force_generator_ordered_force" "b" "N" "ordered_force_b_N_"; V3 "ideal_force_generator_generated_force" "b" "N" "generated_force_b_N_";
                       V3 "ideal_force_generator_generated_force" "i" "N" "generated_force_i_N_"; V3 "ideal_force_generator_generated_force" "rtn" "N" "generated_force_rtn_N_"]
  | ExampleChangeStructure => [] | PowerControlUnit => [] | HipparcosCatalogue => [] | SimulationCase => []
  | SunSensor id => [V3i "sun_sensor" id "_measured_sun_direction" "c" "-" "measured_sun_direction_c_"; S1i "sun_sensor" id "_sun_detected_flag" "-" "sun_detected_flag_"]
  | StarSensor id => [(HQuaternion (numbered "stt" id "_measured_quaternion") (lit "i2c"), [VQuaternion (lit "measured_quaternion_i2c_")]); N1i "stt" id "_error_flag" "error_flag_"]
  | GnssReceiver id =>
      [N1i "gnss_receiver" id "_measured_utc_time_year" "utc_.year"; N1i "gnss_receiver" id "_measured_utc_time_month" "utc_.month";
       N1i "gnss_receiver" id "_measured_utc_time_day" "utc_.day"; N1i "gnss_receiver" id "_measured_utc_time_hour" "utc_.hour";
       N1i "gnss_receiver" id "_measured_utc_time_min" "utc_.minute"; N1i "gnss_receiver" id "_measured_utc_time_sec" "utc_.second";
       V3i "gnss_receiver" id "_measured_position" "ecef" "m" "position_ecef_m_"; V3i "gnss_receiver" id "_measured_velocity" "ecef" "m/s" "velocity_ecef_m_s_";
       S1i "gnss_receiver" id "_measured_latitude" "rad" "geodetic_position_.GetLatitude_rad()"; S1i "gnss_receiver" id "_measured_longitude" "rad" "geodetic_position_.GetLongitude_rad()";
       S1i "gnss_receiver" id "_measured_altitude" "m" "geodetic_position_.GetAltitude_m()"; N1i "gnss_receiver" id "_satellite_visible_flag" "is_gnss_visible_";
       N1i "gnss_receiver" id "_number_of_visible_satellites" "visible_satellite_number_"]
  | Magnetorquer id => [V3i "magnetorquer" id "_output_magnetic_moment" "b" "Am2" "output_magnetic_moment_b_Am2_"; V3i "magnetorquer" id "_output_torque" "b" "Nm" "torque_b_Nm_"]
  | ReactionWheel id logged calculated =>
      [S1i "rw" id "_angular_velocity" "rad/s" "angular_velocity_rad_s_"; S1i "rw" id "_angular_velocity" "rpm" "angular_velocity_rpm_";
       S1i "rw" id "_angular_velocity_upper_limit" "rpm" "velocity_limit_rpm_"; S1i "rw" id "_target_angular_acceleration" "rad/s2" "target_acceleration_rad_s2_";
       S1i "rw" id "_angular_acceleration" "rad/s2" "generated_angular_acceleration_rad_s2_"] ++
      (if logged && calculated then [V3i "rw" id "_jitter_force" "c" "N" "rw_jitter_.GetJitterForce_c_N()"; V3i "rw" id "_jitter_torque" "c" "Nm" "rw_jitter_.GetJitterTorque_c_Nm()"] else [])
  | GyroSensor id => [V3i "gyro_sensor" id "_measured_angular_velocity" "c" "rad/s" "angular_velocity_c_rad_s_"]
  | Magnetometer id => [V3i "magnetometer" id "_measured_magnetic_field" "c" "nT" "magnetic_field_c_nT_"]
  | Telescope catalogue stars =>
      [S1 "telescope_sun_in_exclusion_angle" "" "is_sun_in_forbidden_angle"; S1 "telescope_earth_in_exclusion_angle" "" "is_earth_in_forbidden_angle";
       S1 "telescope_moon_in_exclusion_angle" "" "is_moon_in_forbidden_angle";
       (HVector (lit "telescope_sun_position") (lit "img") (lit "pix") 2, [VVector 2 (lit "sun_position_image_sensor")]);
       (HVector (lit "telescope_earth_position") (lit "img") (lit "pix") 2, [VVector 2 (lit "earth_position_image_sensor")]);
       (HVector (lit "telescope_moon_position") (lit "img") (lit "pix") 2, [VVector 2 (lit "moon_position_image_sensor")]);
       S1 "telescope_ground_position_x" "pix" "ground_position_x_image_sensor_"; S1 "telescope_ground_position_y" "pix" "ground_position_y_image_sensor_"] ++
      (if catalogue then flat_map (fun i =>
         [(HScalar (lit "telescope_hipparcos_id (" ++ num i ++ lit ")") (lit " "), [VScalar (lit "star_list_in_sight[" ++ num i ++ lit "].hipparcos_data.hipparcos_id")]);
          (HScalar (lit "telescope_visible_magnitude (" ++ num i ++ lit ")") (lit " "), [VScalar (lit "star_list_in_sight[" ++ num i ++ lit "].hipparcos_data.visible_magnitude")]);
          (HVector (lit "telescope_star_position (" ++ num i ++ lit ")") (lit "img") (lit "pix") 2, [VVector 2 (lit "star_list_in_sight[" ++ num i ++ lit "].position_image_sensor")])])
         (seq 0 stars) else [])
  | SolarArrayPanel id => [S1i "sap" id "_generated_power" "W" "power_generation_W_"]
  | PcuInitialStudy => [S1 "pcu_initial_study_power_consumption" "W" "power_consumption_W_"; S1 "pcu_initial_study_bus_voltage" "V" "bus_voltage_V_"]
  | Battery => [S1 "battery_voltage" "V" "battery_voltage_V_"; S1 "battery_dod" "%" "depth_of_discharge_percent_"]
  | SimpleThruster id => [V3i "simple_thruster" id "_output_thrust" "b" "N" "output_thrust_b_N_"; V3i "simple_thruster" id "_output_torque" "b" "Nm" "output_torque_b_Nm_";
                          S1i "simple_thruster" id "_output_thrust_norm" "N" "output_thrust_b_N_.CalcNorm()"]
  | GroundStationCalculator => [S1 "gs_calculator_max_bitrate" "Mbps" "max_bitrate_Mbps_"; S1 "gs_calculator_receive_margin" "dB" "receive_margin_dB_"]
  | SimulationTime => [S1 "elapsed_time" "s" "elapsed_time_sec_"; S1 "time" "UTC" "current_utc_"]
  | CelestialInformation bodies =>
      flat_map (fun ib : nat * str => [(HVector (snd ib ++ lit "_position") (lit "i") (lit "m") 3, three "celestial_body_position_from_center_i_m_" (fst ib));
                                       (HVector (snd ib ++ lit "_velocity") (lit "i") (lit "m/s") 3, three "celestial_body_velocity_from_center_i_m_s_" (fst ib))])
        (combine (seq 0 (List.length bodies)) bodies)
  | GnssSatellites =>
      flat_map (fun i => [(HVector (lit "GPS" ++ num i ++ lit "_position") (lit "ecef") (lit "m") 3, [VVector 3 (lit "GetPosition_ecef_m(" ++ num i ++ lit ")")]);
                          (HScalar (lit "GPS" ++ num i ++ lit "_clock_offset") (lit "s"), [VScalar (lit "GetClock_s(" ++ num i ++ lit ")")])]) (seq 0 32)
  | SolarRadiationPressureEnvironment => [S1 "solar_radiation_pressure_at_spacecraft_position" "N/m2" "solar_radiation_pressure_N_m2_ * shadow_coefficient_"; N1 "shadow_coefficient_at_spacecraft_position" "shadow_coefficient_"]
  | Atmosphere => [S1 "air_density_at_spacecraft_position" "kg/m3" "air_density_kg_m3_"]
  | EarthAlbedo => [N1 "earth_albedo_factor" "earth_albedo_factor_"; N1 "earth_albedo_W_m2" "earth_albedo_W_m2_"]
  | EarthInfrared => [N1 "earth_infrared_temperature_hot_side_K" "earth_infrared_temperature_hot_side_K_"; N1 "earth_infrared_temperature_cold_side_K" "earth_infrared_temperature_cold_side_K_";
                      N1 "earth_infrared_W_m2" "earth_infrared_W_m2_"]
  | LocalCelestialInformation bodies =>
      flat_map (fun ib : nat * str => [(HVector (snd ib ++ lit "_position_from_spacecraft") (lit "b") (lit "m") 3, three "celestial_body_position_from_spacecraft_b_m_" (fst ib));
                                       (HVector (snd ib ++ lit "_velocity_from_spacecraft") (lit "b") (lit "m/s") 3, three "celestial_body_velocity_from_spacecraft_b_m_s_" (fst ib))])
        (combine (seq 0 (List.length bodies)) bodies)
  | GeomagneticField => [V3 "geomagnetic_field_at_spacecraft_position" "i" "nT" "magnetic_field_i_nT_"; V3 "geomagnetic_field_at_spacecraft_position" "b" "nT" "magnetic_field_b_nT_"]
  | Geopotential => [V3 "geopotential_acceleration" "ecef" "m/s2" "acceleration_ecef_m_s2_"]
  | GravityGradient => [V3 "gravity_gradient_torque" "b" "Nm" "torque_b_Nm_"]
  | LunarGravityField => [V3 "lunar_gravity_acceleration" "mcmf" "m/s2" "acceleration_mcmf_m_s2_"]
  | ThirdBodyGravity => [V3 "third_body_acceleration" "i" "m/s2" "acceleration_i_m_s2_"]
  | SolarRadiationPressureDisturbance => [V3 "srp_torque" "b" "Nm" "torque_b_Nm_"; V3 "srp_force" "b" "N" "force_b_N_"]
  | MagneticDisturbance => [V3 "spacecraft_magnetic_moment" "b" "Am2" "rmm_b_Am2_"; V3 "magnetic_disturbance_torque" "b" "Nm" "torque_b_Nm_"]
  | AirDrag => [V3 "air_drag_torque" "b" "Nm" "torque_b_Nm_"; V3 "air_drag_force" "b" "N" "force_b_N_"]
  | Orbit => [V3 "spacecraft_position" "i" "m" "spacecraft_position_i_m_"; V3 "spacecraft_position" "ecef" "m" "spacecraft_position_ecef_m_";
              V3 "spacecraft_velocity" "i" "m/s" "spacecraft_velocity_i_m_s_"; V3 "spacecraft_velocity" "b" "m/s" "spacecraft_velocity_b_m_s_";
              V3 "spacecraft_acceleration" "i" "m/s2" "spacecraft_acceleration_i_m_s2_"; S1 "spacecraft_latitude" "rad" "spacecraft_geodetic_position_.GetLatitude_rad()";
              S1 "spacecraft_longitude" "rad" "spacecraft_geodetic_position_.GetLongitude_rad()"; S1 "spacecraft_altitude" "m" "spacecraft_geodetic_position_.GetAltitude_m()"]
  | Attitude => attitude_rows
  | AttitudeWithCantileverVibration => attitude_rows ++
      [V3 "euler_angular_cantilever" "c" "rad" "euler_angular_cantilever_rad_"; V3 "angular_velocity_cantilever" "c" "rad/s" "angular_velocity_cantilever_rad_s_"]
  | Temperature nodes =>
      node_rows "temp_" "deg" "nodes_.GetTemperature_degC()" nodes ++ node_rows "heat_" "W" "heatloads_.GetTotalHeatload_W()" nodes ++
      node_rows "solar_" "W" "nodes_.GetSolarRadiation_W()" nodes ++ node_rows "albedo_" "W" "nodes_.GetAlbedoRadiation_W()" nodes ++
      node_rows "earthIR_" "W" "nodes_.GetEarthInfraredRadiation_W()" nodes
  | GroundStation id n =>
      map (fun i => (HName (lit "ground_station" ++ to_string id ++ lit "_sc" ++ num i ++ lit "_visible_flag"), [element "is_visible_" i])) (seq 0 n) ++
      [V3 "ground_station_position" "eci" "m" "position_i_m_"]
  | RelativeInformation n =>
      map (fun p => (HVector (seen_from "_position_from_satellite" p) (lit "i") (lit "m") 3, [VVector 3 (call2 "GetRelativePosition_i_m" p)])) (spacecraft_pairs n) ++
      map (fun p => (HVector (seen_from "_velocity_from_satellite" p) (lit "i") (lit "m/s") 3, [VVector 3 (call2 "GetRelativeVelocity_i_m_s" p)])) (spacecraft_pairs n) ++
      map (fun p => (HVector (seen_from "_position_from_satellite" p) (lit "rtn") (lit "m") 3, [VVector 3 (call2 "GetRelativePosition_rtn_m" p)])) (spacecraft_pairs n) ++
      map (fun p => (HVector (seen_from "_velocity_from_satellite" p) (lit "rtn") (lit "m/s") 3, [VVector 3 (call2 "GetRelativeVelocity_rtn_m_s" p)])) (spacecraft_pairs n)
  end.
(** the user-supplied names inside the headers *)
Definition plain_cls (c : cls) : Prop :=
  match c with
  | CelestialInformation bodies | LocalCelestialInformation bodies => Forall plain bodies
  | Temperature nodes => Forall (fun x : bool * Z * str => plain (snd x)) nodes
  | _ => True
  end.
(** the (column name, column value) pairs of a class *)
Definition columns (show : str -> nat -> str) (c : cls) : list (str * str) :=
  List.concat (map (fun r : row => combine (names_h (fst r)) (flat_map (values_v show) (snd r))) (table c)).
