(** Model of the functions that build components from a settings file: ReadSensorInformation
    (src/components/base/sensor_template_functions.hpp:80-124), PowerPort::InitializeWithInitializeFile
    (src/components/ports/power_port.cpp:70-78), the Init functions of src/components/real and src/components/ideal, and the
    reading functions of src/setting_file_reader/initialize_file_access.cpp they are made of (F).
    The file is what ReadString, ReadDouble, ReadInt and ReadBoolean return by section and key (a missing key is 0, false or the
    string the reader returns); vectors, quaternions and flags are read through these as in the code.  Doubles are real numbers.
    A generator of normal random numbers delivers its standard deviation times a sequence of standard numbers, which is an
    argument.  Not modelled: messages, log flags of components, the identity of the clock and the environment objects. *)
From Coq Require Import Reals List Bool ZArith Ascii String.
From Verif Require Import Base RBase VecModel QuatModel OdeModel SensorModel StringModel PowerPortModel.
From Verif Require MagneticModel StarModel SunSensorModel WheelModel WheelJitterModel ActuatorModel GnssRxModel PowerModel LinkModel TelescopeModel.
Import ListNotations.
Open Scope list_scope.
Open Scope R_scope.

Record ini : Type := mkIni {
  rd_string : str -> str -> str; rd_double : str -> str -> R; rd_int : str -> str -> Z; rd_bool : str -> str -> bool }.

(** F 192-197 *)
Definition rd_enable (f : ini) (sec key : str) : bool :=
  let s := rd_string f sec key in str_eqb s (lit "ENABLE") || str_eqb s (lit "1").
(** initialize_file_access.hpp:213-219 and F 113-121: the key of component i *)
Definition element (key : str) (i : nat) : str := key ++ lit "(" ++ to_string (Z.of_nat i) ++ lit ")".
Definition rd_vector (f : ini) (sec key : str) : vec := fun i => rd_double f sec (element key i).
(** F 113-121; the number is a size_t: a negative one is about 2^64 and the vector cannot be allocated *)
Definition rd_vector_double (f : ini) (sec key : str) (num : Z) : outcome (list R) :=
  if (num <? 0)%Z then Throw else Ok (map (rd_vector f sec key) (seq 0 (Z.to_nat num))).
(** F 123-145: keys name_(i) first; if these are all zero, keys name(i) *)
Definition rd_quaternion (f : ini) (sec key : str) : quat :=
  let temp := rd_vector f sec (key ++ lit "_") in
  let norm := 0 + temp 0%nat * temp 0%nat + temp 1%nat * temp 1%nat + temp 2%nat * temp 2%nat + temp 3%nat * temp 3%nat in
  let data := if req norm 0 then rd_vector f sec key else temp in
  q4 (data 0%nat) (data 1%nat) (data 2%nat) (data 3%nat).

(** "NAME_" + std::to_string(id) *)
Definition numbered (name : str) (id : Z) : str := name ++ to_string id.
(** int prescaler = ReadInt(section, "prescaler"); if (prescaler <= 1) prescaler = 1; *)
Definition read_prescaler_key (f : ini) (sec key : str) : Z :=
  let p := rd_int f sec key in if (p <=? 1)%Z then 1%Z else p.
Definition read_prescaler (f : ini) (sec : str) : Z := read_prescaler_key f sec (lit "prescaler").
(** matrix[i][j] = vector[i * 3 + j], a 3 x 3 matrix (what the function gives elsewhere is never used) *)
Definition rd_matrix3 (f : ini) (sec key : str) : mat := fun i j =>
  if (Nat.ltb i 3 && Nat.ltb j 3)%bool then rd_vector f sec key (i * 3 + j)%nat else mident i j.

(** power_port.cpp:70-78 *)
Definition port_from_file (f : ini) (p : port) : port :=
  set_power (set_min_voltage p (rd_double f (lit "POWER_PORT") (lit "minimum_voltage_V")))
            (rd_double f (lit "POWER_PORT") (lit "assumed_power_consumption_W")).

(** sensor_template_functions.hpp:80-124, for three axes; [zw] and [zn] are the standard normal numbers.
    math::Vector<N> v{x} sets every component to x.  CalcNorm() == 0 of the nine numbers. *)
Definition read_sensor (f : ini) (step : R) (component unit : str) (zw zn : nat -> nat -> R) : sensor :=
  let sec := lit "SENSOR_BASE_" ++ component in
  let sv := rd_vector f sec (lit "scale_factor_c") in
  let scale := if req (norm 9 sv) 0 then mident else rd_matrix3 f sec (lit "scale_factor_c") in
  let rnd := rd_vector f sec (lit "normal_random_standard_deviation_c_" ++ unit) in
  let walk := rd_vector f sec (lit "random_walk_standard_deviation_c_" ++ unit) in
  sensor_new (mkSensor scale
    (vconst (rd_double f sec (lit "range_to_constant_" ++ unit))) (vconst (rd_double f sec (lit "range_to_zero_" ++ unit)))
    (rd_vector f sec (lit "constant_bias_c_" ++ unit)) (rd_vector f sec (lit "random_walk_limit_c_" ++ unit)) step
    (fun i k => walk i * zw i k) (fun i k => rnd i * zn i k)).

(** gyro_sensor.cpp:50-69 and magnetometer.cpp:53-72: prescaler, sensor base, mounting *)
Record three_axis : Type := mkThreeAxis { ta_prescaler : Z; ta_sensor : sensor; ta_q_b2c : quat }.
Definition init_three_axis (name unit : str) (f : ini) (id : Z) (step : R) (zw zn : nat -> nat -> R) : three_axis :=
  let sec := numbered name id in
  let p := read_prescaler f sec in
  mkThreeAxis p (read_sensor f (step * IZR p) sec unit zw zn) (rd_quaternion f sec (lit "quaternion_b2c")).
Definition init_gyro := init_three_axis (lit "GYRO_SENSOR_") (lit "rad_s").
Definition init_magnetometer := init_three_axis (lit "MAGNETOMETER_") (lit "nT").
(** gyro_sensor.cpp:71-92, magnetometer.cpp:74-96: the same with a power port *)
Definition init_gyro_port (f : ini) (id : Z) (step : R) (zw zn : nat -> nat -> R) (p : port) : three_axis * port :=
  (init_gyro f id step zw zn, port_from_file f p).
Definition init_magnetometer_port (f : ini) (id : Z) (step : R) (zw zn : nat -> nat -> R) (p : port) : three_axis * port :=
  (init_magnetometer f id step zw zn, port_from_file f p).
(** ideal/angular_velocity_observer.cpp:38-51 *)
Definition init_rate_observer (f : ini) (step : R) (zw zn : nat -> nat -> R) : Z * sensor :=
  let p := read_prescaler f (lit "COMPONENT_BASE") in
  (p, read_sensor f (step * IZR p) (lit "ANGULAR_VELOCITY_OBSERVER") (lit "rad_s") zw zn).

(** magnetorquer.cpp:118-161 *)
Definition init_mtq (f : ini) (id : Z) (step : R) (zw zn : nat -> nat -> R) : Z * MagneticModel.mtq_config :=
  let sec := numbered (lit "MAGNETORQUER_") id in
  let p := read_prescaler f sec in
  let walk := rd_vector f sec (lit "random_walk_standard_deviation_c_Am2") in
  let white := rd_vector f sec (lit "white_noise_standard_deviation_c_Am2") in
  (p, MagneticModel.mkMtqConfig (rd_quaternion f sec (lit "quaternion_b2c")) (rd_matrix3 f sec (lit "scale_factor_c"))
        (rd_vector f sec (lit "max_output_magnetic_moment_c_Am2")) (rd_vector f sec (lit "min_output_magnetic_moment_c_Am2"))
        (rd_vector f sec (lit "constant_bias_noise_c_Am2")) (rd_vector f sec (lit "random_walk_limit_c_Am2")) (step * IZR p)
        (fun i k => walk i * zw i k) (fun i k => white i * zn i k)).
(** magnetorquer.cpp:163-209 *)
Definition init_mtq_port (f : ini) (id : Z) (step : R) (zw zn : nat -> nat -> R) (p : port) : (Z * MagneticModel.mtq_config) * port :=
  (init_mtq f id step zw zn, port_from_file f p).
(** mtq_magnetometer_interference.cpp:12-32: the matrices of degree 1, 2, ...; a negative degree is about 2^64 *)
Definition init_interference (f : ini) (id : Z) : outcome (list mat) :=
  let sec := numbered (lit "MTQ_MAGNETOMETER_INTERFERENCE_") id in
  let n := rd_int f sec (lit "polynomial_degree") in
  if (n <? 0)%Z then Throw else
  Ok (map (fun d => rd_matrix3 f sec (lit "additional_bias_by_mtq_coefficients_" ++ to_string (Z.of_nat d))) (seq 1 (Z.to_nat n))).

(** sun_sensor.cpp:157-189; [za], [zb] are the standard numbers behind the two biases (48-52).  Kept beside the configuration:
    the standard deviation of the noise *)
Record sun_init : Type := mkSunInit { sn_prescaler : Z; sn_config : SunSensorModel.sun_sensor_config; sn_noise : R }.
Definition init_sun (f : ini) (id : Z) (solar_constant za zb : R) : sun_init :=
  let sec := numbered (lit "SUN_SENSOR_") id in
  let angle := PI / 180 * rd_double f sec (lit "field_of_view_deg") in
  let nr := rd_double f sec (lit "white_noise_standard_deviation_deg") * (PI / 180) in
  let bias := rd_double f sec (lit "bias_standard_deviation_deg") * (PI / 180) in
  mkSunInit (read_prescaler f sec)
    (SunSensorModel.mkSunSensorConfig (rd_quaternion f sec (lit "quaternion_b2c")) angle (rd_double f sec (lit "intensity_lower_threshold_percent"))
       (bias * za) (bias * zb) solar_constant) nr.
(** 191-225 *)
Definition init_sun_port (f : ini) (id : Z) (solar_constant za zb : R) (p : port) : sun_init * port :=
  (init_sun f id solar_constant za zb, port_from_file f p).

(** star_sensor.cpp:221-252; int output_delay is converted to the unsigned member unchanged, being at least 1 *)
Record star_init : Type := mkStarInit { sr_prescaler : Z; sr_config : StarModel.star_config; sr_sigma_ortho : R; sr_sigma_sight : R }.
Definition deg (x : R) : R := x * PI / 180.
Definition init_star (f : ini) (id : Z) (step : R) : outcome star_init :=
  let sec := numbered (lit "STAR_SENSOR_") id in
  let p := read_prescaler f sec in
  let h := step * IZR p in
  if req h 0 then UB else   (* division by zero: the conversion of infinity or NaN to int *)
  let! delay := StarModel.steps_of_seconds (rd_double f sec (lit "output_delay_s")) h in
  let! interval := StarModel.steps_of_seconds (rd_double f sec (lit "output_interval_s")) h in
  Ok (mkStarInit p
    (StarModel.mkStarConfig (rd_quaternion f sec (lit "quaternion_b2c")) h delay interval
       (deg (rd_double f sec (lit "sun_exclusion_angle_deg"))) (deg (rd_double f sec (lit "earth_exclusion_angle_deg")))
       (deg (rd_double f sec (lit "moon_exclusion_angle_deg"))) (deg (rd_double f sec (lit "angular_rate_limit_deg_s"))))
    (rd_double f sec (lit "standard_deviation_orthogonal_direction_rad")) (rd_double f sec (lit "standard_deviation_sight_direction_rad"))).
(** 254-288 *)
Definition init_star_port (f : ini) (id : Z) (step : R) (p : port) : outcome (star_init * port) :=
  let! s := init_star f id step in Ok (s, port_from_file f p).

(** gnss_receiver.cpp:244-254 *)
Definition set_antenna_model (w : str) : GnssRxModel.antenna_model :=
  if str_eqb w (lit "SIMPLE") then GnssRxModel.AntSimple
  else if str_eqb w (lit "CONE") then GnssRxModel.AntCone else GnssRxModel.AntSimple.
(** gnss_receiver.cpp:266-305: prescaler, configuration, standard deviations of position and velocity *)
Definition init_gnss (f : ini) (id : Z) (satellites_enabled : bool) : Z * GnssRxModel.gnss_config * vec * vec :=
  let sec := numbered (lit "GNSS_RECEIVER_") id in
  let m := set_antenna_model (rd_string f sec (lit "antenna_model")) in
  let m := match m with GnssRxModel.AntCone => if negb satellites_enabled then GnssRxModel.AntSimple else m | _ => m end in
  (read_prescaler f sec,
   GnssRxModel.mkGnssConfig m (rd_vector f sec (lit "antenna_position_b_m")) (rd_quaternion f sec (lit "quaternion_b2c"))
     (rd_double f sec (lit "antenna_half_width_deg")),
   rd_vector f sec (lit "white_noise_standard_deviation_position_ecef_m"),
   rd_vector f sec (lit "white_noise_standard_deviation_velocity_ecef_m_s")).
(** 307-319 *)
Definition init_gnss_port (f : ini) (id : Z) (e : bool) (p : port) := (init_gnss f id e, port_from_file f p).

(** battery.cpp:92-134; returned by value: one copy (guaranteed elision aside, the copy constructor gives the same fields but
    sets voltage and current, PowerModel.battery_copy); a negative order gives no coefficients *)
Definition init_battery (f : ini) (id : Z) (step : R) : PowerModel.battery :=
  let sec := numbered (lit "BATTERY_") id in
  let order := rd_int f sec (lit "approximation_order") in
  PowerModel.battery_new (read_prescaler f sec) (rd_int f sec (lit "number_of_series")) (rd_int f sec (lit "number_of_parallel"))
    (rd_double f sec (lit "cell_capacity_Ah"))
    (map (rd_vector f sec (lit "cell_discharge_curve_coefficients")) (seq 0 (Z.to_nat (order + 1))))
    (rd_double f sec (lit "initial_dod")) (rd_double f sec (lit "constant_charge_current_rate_C"))
    (rd_double f sec (lit "constant_voltage_charge_voltage_V")) (rd_double f sec (lit "battery_resistance_Ohm")) step.

(** solar_array_panel.cpp:120-152 and 154-185; [pn_sun_known] is false for the second, which leaves the pointer to the local
    celestial information uninitialised (33-49) *)
Record panel : Type := mkPanel {
  pn_prescaler : Z; pn_series : Z; pn_parallel : Z; pn_area : R; pn_normal : vec; pn_cell : R; pn_transmission : R; pn_sun_known : bool }.
Definition init_panel (f : ini) (id : Z) (with_sun : bool) : panel :=
  let sec := numbered (lit "SOLAR_ARRAY_PANEL_") id in
  mkPanel (read_prescaler f sec) (rd_int f sec (lit "number_of_series")) (rd_int f sec (lit "number_of_parallel"))
    (rd_double f sec (lit "cell_area_m2")) (rd_vector f sec (lit "normal_vector_b")) (rd_double f sec (lit "cell_efficiency"))
    (rd_double f sec (lit "transmission_efficiency")) with_sun.
(** solar_array_panel.cpp:101-118 with the scenario disabled *)
Definition panel_main (p : panel) (density : R) (sun_pos : vec) : outcome R :=
  if pn_sun_known p
  then Ok (PowerModel.sap_power (pn_cell p) (pn_transmission p) density (pn_area p) (pn_parallel p) (pn_series p) (pn_normal p) sun_pos)
  else UB.
(** pcu_initial_study.cpp:119-131 *)
Definition init_pcu (f : ini) (id : Z) : Z := read_prescaler f (numbered (lit "PCU_INITIAL_STUDY_") id).

(** simple_thruster.cpp:150-181; [th_sigma] is the standard deviation of the magnitude *)
Record thruster_init : Type := mkThrusterInit { ti_prescaler : Z; ti_config : ActuatorModel.thr_config; ti_sigma : R }.
Definition init_thruster (f : ini) (id : Z) : thruster_init :=
  let sec := numbered (lit "THRUSTER_") id in
  mkThrusterInit (read_prescaler f sec)
    (ActuatorModel.mkThrConfig (rd_vector f sec (lit "thruster_position_b_m")) (rd_vector f sec (lit "thruster_direction_b"))
       (rd_double f sec (lit "thrust_magnitude_N")) (rd_double f sec (lit "direction_error_standard_deviation_deg") * PI / 180)
       (rd_double f sec (lit "dead_time_s")) (rd_double f sec (lit "time_constant_s")) (rd_double f sec (lit "step_width_s")))
    (rd_double f sec (lit "thrust_error_standard_deviation_N")).
(** 183-216 *)
Definition init_thruster_port (f : ini) (id : Z) (p : port) := (init_thruster f id, port_from_file f p).

(** reaction_wheel.cpp:234-260: the variables at file scope, shared by all calls *)
Record wheel_statics : Type := mkWs {
  ws_prescaler : Z; ws_step : R; ws_inertia : R; ws_max_torque : R; ws_max_rpm : R; ws_q : quat; ws_position : vec; ws_dead : R; ws_tau : R;
  ws_friction : list R; ws_stop : R; ws_drive : bool; ws_speed : R; ws_fast : Z; ws_interval : R; ws_jitter_on : bool; ws_jitter_log : bool;
  ws_jitter : WheelJitterModel.jitter_config }.
(** 267-270 *)
Definition wheel_timing (f : ini) (sec : str) (step : R) (s : wheel_statics) : wheel_statics :=
  let p := read_prescaler f sec in
  mkWs p (step * IZR p) (ws_inertia s) (ws_max_torque s) (ws_max_rpm s) (ws_q s) (ws_position s) (ws_dead s) (ws_tau s) (ws_friction s) (ws_stop s)
    (ws_drive s) (ws_speed s) (ws_fast s) (ws_interval s) (ws_jitter_on s) (ws_jitter_log s) (ws_jitter s).
(** 272-275 *)
Definition wheel_specification (f : ini) (sec : str) (s : wheel_statics) : wheel_statics :=
  mkWs (ws_prescaler s) (ws_step s) (rd_double f sec (lit "moment_of_inertia_kgm2")) (rd_double f sec (lit "max_output_torque_Nm"))
    (rd_double f sec (lit "max_angular_velocity_rpm")) (ws_q s) (ws_position s) (ws_dead s) (ws_tau s) (ws_friction s) (ws_stop s)
    (ws_drive s) (ws_speed s) (ws_fast s) (ws_interval s) (ws_jitter_on s) (ws_jitter_log s) (ws_jitter s).
(** 277-291; direction_c is (0, 0, 1) *)
Definition wheel_mounting (f : ini) (sec : str) (s : wheel_statics) : outcome wheel_statics :=
  let! q := (if str_eqb (rd_string f sec (lit "direction_determination_mode")) (lit "QUATERNION")
             then Ok (rd_quaternion f sec (lit "quaternion_b2c"))
             else let! q := q_two_vectors (rd_vector f sec (lit "direction_b")) (v3 0 0 1) in Ok (qconj q)) in
  Ok (mkWs (ws_prescaler s) (ws_step s) (ws_inertia s) (ws_max_torque s) (ws_max_rpm s) q (rd_vector f sec (lit "position_b_m")) (ws_dead s)
    (ws_tau s) (ws_friction s) (ws_stop s) (ws_drive s) (ws_speed s) (ws_fast s) (ws_interval s) (ws_jitter_on s) (ws_jitter_log s) (ws_jitter s)).
(** 293-304 *)
Definition wheel_response (f : ini) (sec : str) (s : wheel_statics) : outcome wheel_statics :=
  let! friction := rd_vector_double f sec (lit "friction_coefficients") (rd_int f sec (lit "friction_order")) in
  Ok (mkWs (ws_prescaler s) (ws_step s) (ws_inertia s) (ws_max_torque s) (ws_max_rpm s) (ws_q s) (ws_position s) (rd_double f sec (lit "dead_time_s"))
    (rd_double f sec (lit "time_constant_s")) friction (rd_double f sec (lit "stop_limit_angular_velocity_rad_s"))
    (rd_bool f sec (lit "initial_motor_drive_flag")) (rd_double f sec (lit "initial_angular_velocity_rad_s"))
    (ws_fast s) (ws_interval s) (ws_jitter_on s) (ws_jitter_log s) (ws_jitter s)).
(** 306-332.  [csv] gives the rows of a coefficient file, each cut to two numbers; a missing file has none *)
Definition wheel_jitter (csv : str -> list (R * R)) (f : ini) (js : str) (step : R) (s : wheel_statics) : wheel_statics :=
  let fast := read_prescaler_key f js (lit "fast_prescaler") in
  let interval := IZR fast * step in
  mkWs (ws_prescaler s) (ws_step s) (ws_inertia s) (ws_max_torque s) (ws_max_rpm s) (ws_q s) (ws_position s) (ws_dead s) (ws_tau s) (ws_friction s)
    (ws_stop s) (ws_drive s) (ws_speed s) fast interval (rd_enable f js (lit "jitter_calculation")) (rd_enable f js (lit "jitter_logging"))
    (WheelJitterModel.mkJitterConfig (csv (rd_string f js (lit "radial_force_harmonics_coefficient_file")))
       (csv (rd_string f js (lit "radial_torque_harmonics_coefficient_file"))) interval (ws_q s)
       (rd_double f js (lit "structural_resonance_frequency_Hz")) (rd_double f js (lit "damping_factor")) (rd_double f js (lit "bandwidth"))
       (rd_enable f js (lit "considers_structural_resonance"))).
(** 261-333: InitParams *)
Definition init_params (csv : str -> list (R * R)) (f : ini) (id : Z) (step : R) (s : wheel_statics) : outcome wheel_statics :=
  let sec := numbered (lit "REACTION_WHEEL_") id in
  let! s := wheel_mounting f sec (wheel_specification f sec (wheel_timing f sec step s)) in
  let! s := wheel_response f sec s in
  Ok (wheel_jitter csv f (numbered (lit "REACTION_WHEEL_JITTER_") id) step s).
(** 339-341: what the constructor of the wheel is given *)
Definition ws_config (s : wheel_statics) : WheelModel.wheel_config :=
  WheelModel.mkWheelConfig (ws_step s) (ws_inertia s) (ws_max_torque s) (ws_max_rpm s) (ws_q s) (ws_dead s) (ws_tau s) (ws_friction s) (ws_stop s).
(** 336-344: the variables afterwards and the wheel *)
Definition init_wheel (csv : str -> list (R * R)) (f : ini) (id : Z) (step : R) (s : wheel_statics) : outcome (wheel_statics * WheelModel.wheel) :=
  let! s := init_params csv f id step s in Ok (s, WheelModel.wheel_new (ws_config s) (ws_drive s) (ws_speed s)).
(** 346-357 *)
Definition init_wheel_port (csv : str -> list (R * R)) (f : ini) (id : Z) (step : R) (s : wheel_statics) (p : port) :
  outcome (wheel_statics * WheelModel.wheel * port) :=
  let! (s, w) := init_wheel csv f id step s in Ok (s, w, port_from_file f p).

(** antenna.cpp:100-108 *)
Definition set_gain_model (w : str) : LinkModel.gain_model :=
  if str_eqb w (lit "ISOTROPIC") then LinkModel.GainIsotropic
  else if str_eqb w (lit "RADIATION_PATTERN_CSV") then LinkModel.GainPattern else LinkModel.GainIsotropic.
(** antenna.cpp:126-138 and 146-159, with the prefix "tx" or "rx".  [csv] gives the table of a file; a missing file gives none.
    A negative length becomes a huge size_t and reserving memory for it throws. *)
Definition init_ant_params (csv : str -> list (list R)) (f : ini) (sec x : str) (used : bool) : outcome LinkModel.ant_params :=
  if used then
    let nt := rd_int f sec (x ++ lit "_length_theta") in let np := rd_int f sec (x ++ lit "_length_phi") in
    if ((nt <? 0)%Z || (np <? 0)%Z)%bool then Throw else
    Ok (LinkModel.mkAntParams (rd_double f sec (x ++ lit "_gain_dBi")) (rd_double f sec (x ++ lit "_loss_feeder_dB"))
      (rd_double f sec (x ++ lit "_loss_pointing_dB")) (set_gain_model (rd_string f sec (x ++ lit "_antenna_gain_model")))
      (LinkModel.mkPattern (Z.to_nat nt) (Z.to_nat np) (rd_double f sec (x ++ lit "_theta_max_rad")) (rd_double f sec (x ++ lit "_phi_max_rad"))
         (csv (rd_string f sec (x ++ lit "_antenna_radiation_pattern_file")))))
  else Ok (LinkModel.mkAntParams 0 0 0 LinkModel.GainIsotropic LinkModel.pattern_default).
(** antenna.cpp:110-168 *)
Definition init_antenna (csv : str -> list (list R)) (f : ini) (id : Z) : outcome LinkModel.antenna :=
  let sec := numbered (lit "ANTENNA_") id in
  let tx := rd_bool f sec (lit "is_transmitter") in
  let rx := rd_bool f sec (lit "is_receiver") in
  let! txp := init_ant_params csv f sec (lit "tx") tx in
  let! rxp := init_ant_params csv f sec (lit "rx") rx in
  Ok (LinkModel.mkAntenna (rd_quaternion f sec (lit "quaternion_b2c")) tx rx (rd_double f sec (lit "frequency_MHz"))
        (rd_double f sec (lit "tx_bitrate_bps")) (rd_double f sec (lit "tx_output_W")) txp
        (rd_double f sec (lit "rx_system_noise_temperature_K")) rxp).
(** ground_station_calculator.cpp:122-140 *)
Definition init_calculator (f : ini) : LinkModel.calculator :=
  let sec := lit "GROUND_STATION_CALCULATOR" in
  LinkModel.mkCalculator (rd_double f sec (lit "loss_polarization_dB")) (rd_double f sec (lit "loss_atmosphere_dB")) (rd_double f sec (lit "loss_rainfall_dB"))
    (rd_double f sec (lit "loss_others_dB")) (rd_double f sec (lit "ebn0_dB")) (rd_double f sec (lit "hardware_deterioration_dB"))
    (rd_double f sec (lit "coding_gain_dB")) (rd_double f sec (lit "margin_requirement_dB")).

(** telescope.cpp:247-287; the section name is put into 30 characters with strcat, which an int's digits cannot overrun.
    A negative number of logged stars is a huge size_t; the constructor's loop (47) then exhausts the memory *)
Definition init_telescope (f : ini) (id : Z) : outcome TelescopeModel.tele :=
  let sec := numbered (lit "TELESCOPE_") id in
  let n := rd_int f sec (lit "number_of_stars_for_log") in
  let! t := TelescopeModel.tele_new (TelescopeModel.mkTele (rd_quaternion f sec (lit "quaternion_b2c"))
    (deg (rd_double f sec (lit "sun_exclusion_angle_deg"))) (deg (rd_double f sec (lit "earth_exclusion_angle_deg")))
    (deg (rd_double f sec (lit "moon_exclusion_angle_deg"))) (rd_int f sec (lit "x_number_of_pixel")) (rd_int f sec (lit "y_number_of_pixel"))
    (deg (rd_double f sec (lit "x_fov_deg_per_pixel"))) (deg (rd_double f sec (lit "y_fov_deg_per_pixel"))) (Z.to_nat n)) in
  if (n <? 0)%Z then Throw else Ok t.

(** ideal components: prescaler, then what the constructor is given *)
(** ideal/attitude_observer.cpp:52-67 *)
Definition init_attitude_observer (f : ini) : Z * R :=
  (read_prescaler f (lit "COMPONENT_BASE"), PI / 180 * rd_double f (lit "ATTITUDE_OBSERVER") (lit "error_angle_standard_deviation_deg")).
(** ideal/force_generator.cpp:110-127, torque_generator.cpp:84-102: magnitude and direction standard deviations *)
Definition init_generator (sec : str) (what unit : string) (f : ini) : Z * R * R :=
  (read_prescaler f (lit "COMPONENT_BASE"),
   rd_double f sec (lit what ++ lit "_magnitude_standard_deviation_" ++ lit unit),
   PI / 180 * rd_double f sec (lit what ++ lit "_direction_standard_deviation_deg")).
Definition init_force_generator := init_generator (lit "FORCE_GENERATOR") "force" "N".
Definition init_torque_generator := init_generator (lit "TORQUE_GENERATOR") "torque" "Nm".
(** ideal/orbit_observer.cpp:76-86, 88-105 *)
Definition set_noise_frame (w : str) : ActuatorModel.noise_frame :=
  if str_eqb w (lit "INERTIAL") then ActuatorModel.NoiseInertial
  else if str_eqb w (lit "RTN") then ActuatorModel.NoiseRtn else ActuatorModel.NoiseInertial.
Definition init_orbit_observer (f : ini) : Z * ActuatorModel.noise_frame * vec :=
  (read_prescaler f (lit "COMPONENT_BASE"), set_noise_frame (rd_string f (lit "ORBIT_OBSERVER") (lit "noise_frame")),
   rd_vector f (lit "ORBIT_OBSERVER") (lit "noise_standard_deviation")).
