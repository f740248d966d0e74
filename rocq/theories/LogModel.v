(** Model of src/logger: log_utility.hpp (U), logger.cpp/hpp (L), loggable.hpp, and of GetLogHeader /
    GetLogValue of every loggable class of the repository (cited at each).  The text operator<< produces
    for a number (setprecision) is a parameter: [show e i] is the text of component i of the C++
    expression e. *)
From Coq Require Import List ZArith Bool Ascii String Lia.
From Verif Require Import Base StringModel.
Import ListNotations.
Open Scope Z_scope.

Definition num (n : nat) : str := to_string (Z.of_nat n).
(** U 87-92: setprecision(p) << scalar; the printed text is the parameter *)
Definition write_scalar (text : str) : str := text ++ lit ",".
(** U 93 *)
Definition write_scalar_header (name unit : str) : str := name ++ lit "[" ++ unit ++ lit "],".
(** U 95-103 *)
Definition write_vector (texts : list str) : str := List.concat (map write_scalar texts).
(** U 104-117 *)
Definition axis3 : list str := [lit "_x"; lit "_y"; lit "_z"].
Definition write_vector_header (name frame unit : str) (length : nat) : str :=
  List.concat (map (fun i =>
    if Nat.eqb length 3 then name ++ lit "_" ++ frame ++ nth i axis3 [] ++ lit "[" ++ unit ++ lit "],"
    else name ++ lit "_" ++ frame ++ lit "(" ++ num i ++ lit ")[" ++ unit ++ lit "],") (seq 0 length)).
(** U 119-129 *)
Definition write_matrix (rows : list (list str)) : str := List.concat (map write_vector rows).
(** U 130-141 *)
Definition write_matrix_header (name frame unit : str) (rows columns : nat) : str :=
  List.concat (map (fun i => List.concat (map (fun j =>
    name ++ lit "_" ++ frame ++ lit "(" ++ num i ++ num j ++ lit ")[" ++ unit ++ lit "],") (seq 0 columns))) (seq 0 rows)).
(** U 143-150 *)
Definition write_quaternion (texts : list str) : str := List.concat (map write_scalar texts).
(** U 151-159 *)
Definition axis4 : list str := [lit "_x"; lit "_y"; lit "_z"; lit "_w"].
Definition write_quaternion_header (name frame : str) : str :=
  List.concat (map (fun i => name ++ lit "_" ++ frame ++ nth i axis4 [] ++ lit ",") (seq 0 4)).

(** ** Logger *)
(** an ILoggable: its enable flag and its current header and value texts *)
Record loggable : Type := mkLoggable { log_enabled : bool; log_header : str; log_value : str }.
Definition newline : str := ["010"%char].
(** the logger: is_enabled_, the registered objects (by an index into the store of objects, as the
    list holds pointers), and what has been written to the csv file *)
Record logger : Type := mkLogger { enabled : bool; log_list : list nat; file : str }.
(** L 76-80 (flag = true in every call) *)
Definition write (lg : logger) (s : str) : logger :=
  if enabled lg then mkLogger (enabled lg) (log_list lg) (file lg ++ s) else lg.
(** L 74 *)
Definition write_new_line (lg : logger) : logger := write lg newline.
(** L 58-64; [store]: the objects the pointers refer to *)
Definition write_headers (lg : logger) (store : nat -> loggable) (nl : bool) : logger :=
  let lg' := fold_left (fun l o => if negb (log_enabled (store o)) then l else write l (log_header (store o))) (log_list lg) lg in
  if nl then write_new_line lg' else lg'.
(** L 66-72 *)
Definition write_values (lg : logger) (store : nat -> loggable) (nl : bool) : logger :=
  let lg' := fold_left (fun l o => if negb (log_enabled (store o)) then l else write l (log_value (store o))) (log_list lg) lg in
  if nl then write_new_line lg' else lg'.
(** L 82, 84 and logger.hpp Enable *)
Definition add_log_list (lg : logger) (o : nat) : logger := mkLogger (enabled lg) (log_list lg ++ [o]) (file lg).
Definition clear_log_list (lg : logger) : logger := mkLogger (enabled lg) [] (file lg).
Definition enable (lg : logger) (b : bool) : logger := mkLogger b (log_list lg) (file lg).

(** ** The loggable classes *)
(** the calls made in GetLogHeader: WriteScalar(name, unit), WriteScalar(name) (the template, printing
    the string itself), WriteVector(name, frame, unit, n), WriteQuaternion(name, frame) *)
Inductive hitem : Type :=
  HScalar (name unit : str) | HName (name : str) | HVector (name frame unit : str) (n : nat) | HQuaternion (name frame : str).
(** the calls made in GetLogValue, on C++ expressions of the given size *)
Inductive vitem : Type := VScalar (e : str) | VVector (n : nat) (e : str) | VQuaternion (e : str).
Definition header_text (h : hitem) : str :=
  match h with
  | HScalar n u => write_scalar_header n u
  | HName n => write_scalar n
  | HVector n f u k => write_vector_header n f u k
  | HQuaternion n f => write_quaternion_header n f
  end.
Definition value_text (show : str -> nat -> str) (v : vitem) : str :=
  match v with
  | VScalar e => write_scalar (show e 0%nat)
  | VVector n e => write_vector (map (show e) (seq 0 n))
  | VQuaternion e => write_quaternion (map (show e) (seq 0 4))
  end.

(** a class, with what its header depends on *)
Inductive cls : Type :=
| TorqueGenerator | OrbitObserver | AngularVelocityObserver | AttitudeObserver | ForceGenerator | ExampleChangeStructure
| SunSensor (id : Z) | StarSensor (id : Z) | GnssReceiver (id : Z) | Magnetorquer (id : Z)
| ReactionWheel (id : Z) (logged calculated : bool) | GyroSensor (id : Z) | Magnetometer (id : Z)
| Telescope (catalogue : bool) (stars : nat) | SolarArrayPanel (id : Z) | PcuInitialStudy | Battery | PowerControlUnit
| SimpleThruster (id : Z) | GroundStationCalculator | SimulationTime | CelestialInformation (bodies : list str)
| HipparcosCatalogue | GnssSatellites | SolarRadiationPressureEnvironment | Atmosphere | EarthAlbedo | EarthInfrared
| LocalCelestialInformation (bodies : list str) | GeomagneticField | Geopotential | GravityGradient | LunarGravityField
| ThirdBodyGravity | SolarRadiationPressureDisturbance | MagneticDisturbance | AirDrag | Orbit | Attitude
| AttitudeWithCantileverVibration | Temperature (nodes : list (bool * Z * str)) | SimulationCase
| GroundStation (id : Z) (spacecraft : nat) | RelativeInformation (spacecraft : nat).

Definition pairs_below (n : nat) : list (nat * nat) := flat_map (fun t => map (fun r => (t, r)) (seq 0 t)) (seq 0 n).
Definition cat (a b : string) : str := lit a ++ lit b.
Definition with_id (a : string) (id : Z) (b : string) : str := lit a ++ to_string id ++ lit b.
Definition sat_pair (what : string) (p : nat * nat) : str :=
  lit "satellite" ++ num (fst p) ++ lit what ++ num (snd p).
(** [boundary] = GetNodeType() == kBoundary *)
Definition thermal_names (prefix : string) (nodes : list (bool * Z * str)) : list str :=
  flat_map (fun x : bool * Z * str => let '(boundary, id, name) := x in
    if boundary then [] else [lit prefix ++ to_string id ++ lit " (" ++ name ++ lit ")"]) nodes.

Definition header_of (c : cls) : list hitem :=
  match c with
  | TorqueGenerator => (* components/ideal/torque_generator.cpp:45-53 *)
      [HVector (lit "ideal_torque_generator_ordered_torque") (lit "b") (lit "Nm") 3; HVector (lit "ideal_torque_generator_generated_torque") (lit "b") (lit "Nm") 3]
  | OrbitObserver => (* components/ideal/orbit_observer.cpp:57-65 *)
      [HVector (lit "orbit_observer_position") (lit "i") (lit "m") 3; HVector (lit "orbit_observer_velocity") (lit "i") (lit "m/s") 3]
  | AngularVelocityObserver => (* components/ideal/angular_velocity_observer.cpp:21-28 *)
      [HVector (lit "angular_velocity_observer_measured_value") (lit "b") (lit "rad/s") 3]
  | AttitudeObserver => (* components/ideal/attitude_observer.cpp:35-42 *)
      [HQuaternion (lit "attitude_observer_quaternion") (lit "i2b")]
  | ForceGenerator => (* components/ideal/force_generator.cpp:67-77 *)
      [HVector (lit "ideal_force_generator_ordered_force") (lit "b") (lit "N") 3; HVector (lit "ideal_force_generator_generated_force") (lit "b") (lit "N") 3;
       HVector (lit "ideal_force_generator_generated_force") (lit "i") (lit "N") 3; HVector (lit "ideal_force_generator_generated_force") (lit "rtn") (lit "N") 3]
  | ExampleChangeStructure | PowerControlUnit | HipparcosCatalogue | SimulationCase => [] (* empty in all four *)
  | SunSensor id => (* components/real/aocs/sun_sensor.cpp:137-146 *)
      [HVector (with_id "sun_sensor" id "_measured_sun_direction") (lit "c") (lit "-") 3; HScalar (with_id "sun_sensor" id "_sun_detected_flag") (lit "-")]
  | StarSensor id => (* components/real/aocs/star_sensor.cpp:186-195 *)
      [HQuaternion (with_id "stt" id "_measured_quaternion") (lit "i2c"); HName (with_id "stt" id "_error_flag")]
  | GnssReceiver id => (* components/real/aocs/gnss_receiver.cpp:201-222 *)
      map (fun f => HName (with_id "gnss_receiver" id f))
        ["_measured_utc_time_year"; "_measured_utc_time_month"; "_measured_utc_time_day"; "_measured_utc_time_hour"; "_measured_utc_time_min"; "_measured_utc_time_sec"]%string ++
      [HVector (with_id "gnss_receiver" id "_measured_position") (lit "ecef") (lit "m") 3; HVector (with_id "gnss_receiver" id "_measured_velocity") (lit "ecef") (lit "m/s") 3;
       HScalar (with_id "gnss_receiver" id "_measured_latitude") (lit "rad"); HScalar (with_id "gnss_receiver" id "_measured_longitude") (lit "rad");
       HScalar (with_id "gnss_receiver" id "_measured_altitude") (lit "m"); HName (with_id "gnss_receiver" id "_satellite_visible_flag");
       HName (with_id "gnss_receiver" id "_number_of_visible_satellites")]
  | Magnetorquer id => (* components/real/aocs/magnetorquer.cpp:99-108; kMtqDimension = 3 *)
      [HVector (with_id "magnetorquer" id "_output_magnetic_moment") (lit "b") (lit "Am2") 3; HVector (with_id "magnetorquer" id "_output_torque") (lit "b") (lit "Nm") 3]
  | ReactionWheel id logged calculated => (* components/real/aocs/reaction_wheel.cpp:197-213 *)
      [HScalar (with_id "rw" id "_angular_velocity") (lit "rad/s"); HScalar (with_id "rw" id "_angular_velocity") (lit "rpm");
       HScalar (with_id "rw" id "_angular_velocity_upper_limit") (lit "rpm"); HScalar (with_id "rw" id "_target_angular_acceleration") (lit "rad/s2");
       HScalar (with_id "rw" id "_angular_acceleration") (lit "rad/s2")] ++
      (if logged && calculated then [HVector (with_id "rw" id "_jitter_force") (lit "c") (lit "N") 3; HVector (with_id "rw" id "_jitter_torque") (lit "c") (lit "Nm") 3] else [])
  | GyroSensor id => (* components/real/aocs/gyro_sensor.cpp:33-40; kGyroDimension = 3 *)
      [HVector (with_id "gyro_sensor" id "_measured_angular_velocity") (lit "c") (lit "rad/s") 3]
  | Magnetometer id => (* components/real/aocs/magnetometer.cpp:36-43; kMagnetometerDimension = 3 *)
      [HVector (with_id "magnetometer" id "_measured_magnetic_field") (lit "c") (lit "nT") 3]
  | Telescope catalogue stars => (* components/real/mission/telescope.cpp:190-220 *)
      [HScalar (lit "telescope_sun_in_exclusion_angle") []; HScalar (lit "telescope_earth_in_exclusion_angle") []; HScalar (lit "telescope_moon_in_exclusion_angle") [];
       HVector (lit "telescope_sun_position") (lit "img") (lit "pix") 2; HVector (lit "telescope_earth_position") (lit "img") (lit "pix") 2;
       HVector (lit "telescope_moon_position") (lit "img") (lit "pix") 2; HScalar (lit "telescope_ground_position_x") (lit "pix");
       HScalar (lit "telescope_ground_position_y") (lit "pix")] ++
      (if catalogue then flat_map (fun i => [HScalar (lit "telescope_hipparcos_id (" ++ num i ++ lit ")") (lit " ");
                                              HScalar (lit "telescope_visible_magnitude (" ++ num i ++ lit ")") (lit " ");
                                              HVector (lit "telescope_star_position (" ++ num i ++ lit ")") (lit "img") (lit "pix") 2]) (seq 0 stars) else [])
  | SolarArrayPanel id => [HScalar (with_id "sap" id "_generated_power") (lit "W")] (* components/real/power/solar_array_panel.cpp:88-93 *)
  | PcuInitialStudy => (* components/real/power/pcu_initial_study.cpp:40-46 *)
      [HScalar (lit "pcu_initial_study_power_consumption") (lit "W"); HScalar (lit "pcu_initial_study_bus_voltage") (lit "V")]
  | Battery => [HScalar (lit "battery_voltage") (lit "V"); HScalar (lit "battery_dod") (lit "%")] (* components/real/power/battery.cpp:58-64 *)
  | SimpleThruster id => (* components/real/propulsion/simple_thruster.cpp:93-101 *)
      [HVector (with_id "simple_thruster" id "_output_thrust") (lit "b") (lit "N") 3; HVector (with_id "simple_thruster" id "_output_torque") (lit "b") (lit "Nm") 3;
       HScalar (with_id "simple_thruster" id "_output_thrust_norm") (lit "N")]
  | GroundStationCalculator => (* components/real/communication/ground_station_calculator.cpp:103-111 *)
      [HScalar (lit "gs_calculator_max_bitrate") (lit "Mbps"); HScalar (lit "gs_calculator_receive_margin") (lit "dB")]
  | SimulationTime => [HScalar (lit "elapsed_time") (lit "s"); HScalar (lit "time") (lit "UTC")] (* environment/global/simulation_time.cpp:204-211 *)
  | CelestialInformation bodies => (* environment/global/celestial_information.cpp:151-172; [bodies]: the lower-case SPICE names *)
      flat_map (fun b => [HVector (b ++ lit "_position") (lit "i") (lit "m") 3; HVector (b ++ lit "_velocity") (lit "i") (lit "m/s") 3]) bodies
  | GnssSatellites => (* environment/global/gnss_satellites.cpp:156-166; kNumberOfGpsSatellite = 32 *)
      flat_map (fun i => [HVector (lit "GPS" ++ num i ++ lit "_position") (lit "ecef") (lit "m") 3; HScalar (lit "GPS" ++ num i ++ lit "_clock_offset") (lit "s")]) (seq 0 32)
  | SolarRadiationPressureEnvironment => (* environment/local/solar_radiation_pressure_environment.cpp:42-49 *)
      [HScalar (lit "solar_radiation_pressure_at_spacecraft_position") (lit "N/m2"); HName (lit "shadow_coefficient_at_spacecraft_position")]
  | Atmosphere => [HScalar (lit "air_density_at_spacecraft_position") (lit "kg/m3")] (* environment/local/atmosphere.cpp:96-102 *)
  | EarthAlbedo => [HName (lit "earth_albedo_factor"); HName (lit "earth_albedo_W_m2")] (* environment/local/earth_albedo.cpp:27-34 *)
  | EarthInfrared => (* environment/local/earth_infrared.cpp:27-35 *)
      [HName (lit "earth_infrared_temperature_hot_side_K"); HName (lit "earth_infrared_temperature_cold_side_K"); HName (lit "earth_infrared_W_m2")]
  | LocalCelestialInformation bodies => (* environment/local/local_celestial_information.cpp:168-188 *)
      flat_map (fun b => [HVector (b ++ lit "_position_from_spacecraft") (lit "b") (lit "m") 3; HVector (b ++ lit "_velocity_from_spacecraft") (lit "b") (lit "m/s") 3]) bodies
  | GeomagneticField => (* environment/local/geomagnetic_field.cpp:57-64 *)
      [HVector (lit "geomagnetic_field_at_spacecraft_position") (lit "i") (lit "nT") 3; HVector (lit "geomagnetic_field_at_spacecraft_position") (lit "b") (lit "nT") 3]
  | Geopotential => [HVector (lit "geopotential_acceleration") (lit "ecef") (lit "m/s2") 3] (* disturbances/geopotential.cpp:93-103, without DEBUG_GEOPOTENTIAL *)
  | GravityGradient => [HVector (lit "gravity_gradient_torque") (lit "b") (lit "Nm") 3] (* disturbances/gravity_gradient.cpp:38-44 *)
  | LunarGravityField => [HVector (lit "lunar_gravity_acceleration") (lit "mcmf") (lit "m/s2") 3] (* disturbances/lunar_gravity_field.cpp:116-126, without DEBUG *)
  | ThirdBodyGravity => [HVector (lit "third_body_acceleration") (lit "i") (lit "m/s2") 3] (* disturbances/third_body_gravity.cpp:47-52 *)
  | SolarRadiationPressureDisturbance => (* disturbances/solar_radiation_pressure_disturbance.cpp:39-46 *)
      [HVector (lit "srp_torque") (lit "b") (lit "Nm") 3; HVector (lit "srp_force") (lit "b") (lit "N") 3]
  | MagneticDisturbance => (* disturbances/magnetic_disturbance.cpp:49-56 *)
      [HVector (lit "spacecraft_magnetic_moment") (lit "b") (lit "Am2") 3; HVector (lit "magnetic_disturbance_torque") (lit "b") (lit "Nm") 3]
  | AirDrag => [HVector (lit "air_drag_torque") (lit "b") (lit "Nm") 3; HVector (lit "air_drag_force") (lit "b") (lit "N") 3] (* disturbances/air_drag.cpp:80-87 *)
  | Orbit => (* dynamics/orbit/orbit.cpp:69-82 *)
      [HVector (lit "spacecraft_position") (lit "i") (lit "m") 3; HVector (lit "spacecraft_position") (lit "ecef") (lit "m") 3;
       HVector (lit "spacecraft_velocity") (lit "i") (lit "m/s") 3; HVector (lit "spacecraft_velocity") (lit "b") (lit "m/s") 3;
       HVector (lit "spacecraft_acceleration") (lit "i") (lit "m/s2") 3; HScalar (lit "spacecraft_latitude") (lit "rad");
       HScalar (lit "spacecraft_longitude") (lit "rad"); HScalar (lit "spacecraft_altitude") (lit "m")]
  | Attitude => (* dynamics/attitude/attitude.cpp:24-34 *)
      [HVector (lit "spacecraft_angular_velocity") (lit "b") (lit "rad/s") 3; HQuaternion (lit "spacecraft_quaternion") (lit "i2b");
       HVector (lit "spacecraft_torque") (lit "b") (lit "Nm") 3; HScalar (lit "spacecraft_total_angular_momentum") (lit "Nms"); HScalar (lit "spacecraft_kinematic_energy") (lit "J")]
  | AttitudeWithCantileverVibration => (* dynamics/attitude/attitude_with_cantilever_vibration.cpp:47-54: the base class header first *)
      [HVector (lit "spacecraft_angular_velocity") (lit "b") (lit "rad/s") 3; HQuaternion (lit "spacecraft_quaternion") (lit "i2b");
       HVector (lit "spacecraft_torque") (lit "b") (lit "Nm") 3; HScalar (lit "spacecraft_total_angular_momentum") (lit "Nms"); HScalar (lit "spacecraft_kinematic_energy") (lit "J");
       HVector (lit "euler_angular_cantilever") (lit "c") (lit "rad") 3; HVector (lit "angular_velocity_cantilever") (lit "c") (lit "rad/s") 3]
  | Temperature nodes => (* dynamics/thermal/temperature.cpp:203-241 *)
      map (fun n => HScalar n (lit "deg")) (thermal_names "temp_" nodes) ++ map (fun n => HScalar n (lit "W")) (thermal_names "heat_" nodes) ++
      map (fun n => HScalar n (lit "W")) (thermal_names "solar_" nodes) ++ map (fun n => HScalar n (lit "W")) (thermal_names "albedo_" nodes) ++
      map (fun n => HScalar n (lit "W")) (thermal_names "earthIR_" nodes)
  | GroundStation id n => (* simulation/ground_station/ground_station.cpp:74-84 *)
      map (fun i => HName (lit "ground_station" ++ to_string id ++ lit "_sc" ++ num i ++ lit "_visible_flag")) (seq 0 n) ++
      [HVector (lit "ground_station_position") (lit "eci") (lit "m") 3]
  | RelativeInformation n => (* simulation/multiple_spacecraft/relative_information.cpp:52-84 *)
      map (fun p => HVector (sat_pair "_position_from_satellite" p) (lit "i") (lit "m") 3) (pairs_below n) ++
      map (fun p => HVector (sat_pair "_velocity_from_satellite" p) (lit "i") (lit "m/s") 3) (pairs_below n) ++
      map (fun p => HVector (sat_pair "_position_from_satellite" p) (lit "rtn") (lit "m") 3) (pairs_below n) ++
      map (fun p => HVector (sat_pair "_velocity_from_satellite" p) (lit "rtn") (lit "m/s") 3) (pairs_below n)
  end.

(** the node values: expression(index) for the nodes that are not boundary nodes *)
Definition thermal_values (e : string) (nodes : list (bool * Z * str)) : list vitem :=
  flat_map (fun ix : nat * (bool * Z * str) => let '(i, (boundary, _, _)) := ix in if boundary then [] else [VScalar (lit e ++ lit "[" ++ num i ++ lit "]")])
    (combine (seq 0 (List.length nodes)) nodes).
Definition indexed_scalars (e : string) (from count : nat) : list vitem :=
  map (fun j => VScalar (lit e ++ lit "[" ++ num (from + j) ++ lit "]")) (seq 0 count).
Definition call_pair (e : string) (p : nat * nat) : str := lit e ++ lit "(" ++ num (fst p) ++ lit "," ++ num (snd p) ++ lit ")".

Definition values_of (c : cls) : list vitem :=
  match c with
  | TorqueGenerator => [VVector 3 (lit "ordered_torque_b_Nm_"); VVector 3 (lit "generated_torque_b_Nm_")] (* torque_generator.cpp:55-62 *)
  | OrbitObserver => [VVector 3 (lit "observed_position_i_m_"); VVector 3 (lit "observed_velocity_i_m_s_")] (* orbit_observer.cpp:67-74 *)
  | AngularVelocityObserver => [VVector 3 (lit "angular_velocity_b_rad_s_")] (* angular_velocity_observer.cpp:30-36 *)
  | AttitudeObserver => [VQuaternion (lit "observed_quaternion_i2b_")] (* attitude_observer.cpp:44-50 *)
  | ForceGenerator => (* force_generator.cpp:79-88 *)
      [VVector 3 (lit "ordered_force_b_N_"); VVector 3 (lit "generated_force_b_N_"); VVector 3 (lit "generated_force_i_N_"); VVector 3 (lit "generated_force_rtn_N_")]
  | ExampleChangeStructure | PowerControlUnit | HipparcosCatalogue | SimulationCase => []
  | SunSensor _ => [VVector 3 (lit "measured_sun_direction_c_"); VScalar (lit "sun_detected_flag_")] (* sun_sensor.cpp:148-155 *)
  | StarSensor _ => [VQuaternion (lit "measured_quaternion_i2c_"); VScalar (lit "error_flag_")] (* star_sensor.cpp:197-204 *)
  | GnssReceiver _ => (* gnss_receiver.cpp:224-243 *)
      map (fun e => VScalar (lit e)) ["utc_.year"; "utc_.month"; "utc_.day"; "utc_.hour"; "utc_.minute"; "utc_.second"]%string ++
      [VVector 3 (lit "position_ecef_m_"); VVector 3 (lit "velocity_ecef_m_s_")] ++
      map (fun e => VScalar (lit e)) ["geodetic_position_.GetLatitude_rad()"; "geodetic_position_.GetLongitude_rad()"; "geodetic_position_.GetAltitude_m()";
                                       "is_gnss_visible_"; "visible_satellite_number_"]%string
  | Magnetorquer _ => [VVector 3 (lit "output_magnetic_moment_b_Am2_"); VVector 3 (lit "torque_b_Nm_")] (* magnetorquer.cpp:110-116 *)
  | ReactionWheel _ logged calculated => (* reaction_wheel.cpp:215-230 *)
      map (fun e => VScalar (lit e)) ["angular_velocity_rad_s_"; "angular_velocity_rpm_"; "velocity_limit_rpm_"; "target_acceleration_rad_s2_";
                                       "generated_angular_acceleration_rad_s2_"]%string ++
      (if logged && calculated then [VVector 3 (lit "rw_jitter_.GetJitterForce_c_N()"); VVector 3 (lit "rw_jitter_.GetJitterTorque_c_Nm()")] else [])
  | GyroSensor _ => [VVector 3 (lit "angular_velocity_c_rad_s_")] (* gyro_sensor.cpp:42-48 *)
  | Magnetometer _ => [VVector 3 (lit "magnetic_field_c_nT_")] (* magnetometer.cpp:45-51 *)
  | Telescope catalogue stars => (* telescope.cpp:220-247; the positions are Vector<2> *)
      [VScalar (lit "is_sun_in_forbidden_angle"); VScalar (lit "is_earth_in_forbidden_angle"); VScalar (lit "is_moon_in_forbidden_angle");
       VVector 2 (lit "sun_position_image_sensor"); VVector 2 (lit "earth_position_image_sensor"); VVector 2 (lit "moon_position_image_sensor");
       VScalar (lit "ground_position_x_image_sensor_"); VScalar (lit "ground_position_y_image_sensor_")] ++
      (if catalogue then flat_map (fun i => [VScalar (lit "star_list_in_sight[" ++ num i ++ lit "].hipparcos_data.hipparcos_id");
                                              VScalar (lit "star_list_in_sight[" ++ num i ++ lit "].hipparcos_data.visible_magnitude");
                                              VVector 2 (lit "star_list_in_sight[" ++ num i ++ lit "].position_image_sensor")]) (seq 0 stars) else [])
  | SolarArrayPanel _ => [VScalar (lit "power_generation_W_")] (* solar_array_panel.cpp:95-99 *)
  | PcuInitialStudy => [VScalar (lit "power_consumption_W_"); VScalar (lit "bus_voltage_V_")] (* pcu_initial_study.cpp:48-53 *)
  | Battery => [VScalar (lit "battery_voltage_V_"); VScalar (lit "depth_of_discharge_percent_")] (* battery.cpp:66-71 *)
  | SimpleThruster _ => [VVector 3 (lit "output_thrust_b_N_"); VVector 3 (lit "output_torque_b_Nm_"); VScalar (lit "output_thrust_b_N_.CalcNorm()")] (* simple_thruster.cpp:103-111 *)
  | GroundStationCalculator => [VScalar (lit "max_bitrate_Mbps_"); VScalar (lit "receive_margin_dB_")] (* ground_station_calculator.cpp:113-120 *)
  | SimulationTime => [VScalar (lit "elapsed_time_sec_"); VScalar (lit "current_utc_")] (* simulation_time.cpp:213-227: the snprintf text, which ends with the only comma *)
  | CelestialInformation bodies => (* celestial_information.cpp:174-185 *)
      flat_map (fun i => indexed_scalars "celestial_body_position_from_center_i_m_" (i * 3) 3 ++ indexed_scalars "celestial_body_velocity_from_center_i_m_s_" (i * 3) 3)
        (seq 0 (List.length bodies))
  | GnssSatellites => (* gnss_satellites.cpp:168-177 *)
      flat_map (fun i => [VVector 3 (lit "GetPosition_ecef_m(" ++ num i ++ lit ")"); VScalar (lit "GetClock_s(" ++ num i ++ lit ")")]) (seq 0 32)
  | SolarRadiationPressureEnvironment => (* solar_radiation_pressure_environment.cpp:51-58 *)
      [VScalar (lit "solar_radiation_pressure_N_m2_ * shadow_coefficient_"); VScalar (lit "shadow_coefficient_")]
  | Atmosphere => [VScalar (lit "air_density_kg_m3_")] (* atmosphere.cpp:89-94 *)
  | EarthAlbedo => [VScalar (lit "earth_albedo_factor_"); VScalar (lit "earth_albedo_W_m2_")] (* earth_albedo.cpp:36-43 *)
  | EarthInfrared => (* earth_infrared.cpp:37-45 *)
      [VScalar (lit "earth_infrared_temperature_hot_side_K_"); VScalar (lit "earth_infrared_temperature_cold_side_K_"); VScalar (lit "earth_infrared_W_m2_")]
  | LocalCelestialInformation bodies => (* local_celestial_information.cpp:190-201 *)
      flat_map (fun i => indexed_scalars "celestial_body_position_from_spacecraft_b_m_" (i * 3) 3 ++ indexed_scalars "celestial_body_velocity_from_spacecraft_b_m_s_" (i * 3) 3)
        (seq 0 (List.length bodies))
  | GeomagneticField => [VVector 3 (lit "magnetic_field_i_nT_"); VVector 3 (lit "magnetic_field_b_nT_")] (* geomagnetic_field.cpp:66-73 *)
  | Geopotential => [VVector 3 (lit "acceleration_ecef_m_s2_")] (* geopotential.cpp:105-116 *)
  | GravityGradient => [VVector 3 (lit "torque_b_Nm_")] (* gravity_gradient.cpp:46-52 *)
  | LunarGravityField => [VVector 3 (lit "acceleration_mcmf_m_s2_")] (* lunar_gravity_field.cpp:128-139 *)
  | ThirdBodyGravity => [VVector 3 (lit "acceleration_i_m_s2_")] (* third_body_gravity.cpp:54-59 *)
  | SolarRadiationPressureDisturbance => [VVector 3 (lit "torque_b_Nm_"); VVector 3 (lit "force_b_N_")] (* solar_radiation_pressure_disturbance.cpp:48-55 *)
  | MagneticDisturbance => [VVector 3 (lit "rmm_b_Am2_"); VVector 3 (lit "torque_b_Nm_")] (* magnetic_disturbance.cpp:58-65 *)
  | AirDrag => [VVector 3 (lit "torque_b_Nm_"); VVector 3 (lit "force_b_N_")] (* air_drag.cpp:89-96 *)
  | Orbit => (* orbit.cpp:84-97 *)
      map (fun e => VVector 3 (lit e)) ["spacecraft_position_i_m_"; "spacecraft_position_ecef_m_"; "spacecraft_velocity_i_m_s_"; "spacecraft_velocity_b_m_s_"; "spacecraft_acceleration_i_m_s2_"]%string ++
      map (fun e => VScalar (lit e)) ["spacecraft_geodetic_position_.GetLatitude_rad()"; "spacecraft_geodetic_position_.GetLongitude_rad()"; "spacecraft_geodetic_position_.GetAltitude_m()"]%string
  | Attitude => (* attitude.cpp:36-46 *)
      [VVector 3 (lit "angular_velocity_b_rad_s_"); VQuaternion (lit "quaternion_i2b_"); VVector 3 (lit "torque_b_Nm_"); VScalar (lit "angular_momentum_total_Nms_"); VScalar (lit "kinetic_energy_J_")]
  | AttitudeWithCantileverVibration => (* attitude_with_cantilever_vibration.cpp:56-63 *)
      [VVector 3 (lit "angular_velocity_b_rad_s_"); VQuaternion (lit "quaternion_i2b_"); VVector 3 (lit "torque_b_Nm_"); VScalar (lit "angular_momentum_total_Nms_"); VScalar (lit "kinetic_energy_J_");
       VVector 3 (lit "euler_angular_cantilever_rad_"); VVector 3 (lit "angular_velocity_cantilever_rad_s_")]
  | Temperature nodes => (* temperature.cpp:243-276 *)
      thermal_values "nodes_.GetTemperature_degC()" nodes ++ thermal_values "heatloads_.GetTotalHeatload_W()" nodes ++ thermal_values "nodes_.GetSolarRadiation_W()" nodes ++
      thermal_values "nodes_.GetAlbedoRadiation_W()" nodes ++ thermal_values "nodes_.GetEarthInfraredRadiation_W()" nodes
  | GroundStation _ n => (* ground_station.cpp:86-94 *)
      map (fun i => VScalar (lit "is_visible_[" ++ num i ++ lit "]")) (seq 0 n) ++ [VVector 3 (lit "position_i_m_")]
  | RelativeInformation n => (* relative_information.cpp:85-113 *)
      map (fun p => VVector 3 (call_pair "GetRelativePosition_i_m" p)) (pairs_below n) ++ map (fun p => VVector 3 (call_pair "GetRelativeVelocity_i_m_s" p)) (pairs_below n) ++
      map (fun p => VVector 3 (call_pair "GetRelativePosition_rtn_m" p)) (pairs_below n) ++ map (fun p => VVector 3 (call_pair "GetRelativeVelocity_rtn_m_s" p)) (pairs_below n)
  end.
(** the object as the logger sees it; [show] gives the current values *)
Definition object_of (c : cls) (on : bool) (show : str -> nat -> str) : loggable :=
  mkLoggable on (List.concat (map header_text (header_of c))) (List.concat (map (value_text show) (values_of c))).
