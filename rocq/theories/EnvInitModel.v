(** Model of the functions that build the environment and the disturbances from settings files:
    InitCelestialInformation (src/environment/global/celestial_information.cpp:203-248, CI) with the constructor (22-71),
    LocalEnvironment::Initialize (src/environment/local/local_environment.cpp:26-55, LE) with InitGeomagneticField
    (geomagnetic_field.cpp:75-89), InitAtmosphere (atmosphere.cpp:104-137), InitSolarRadiationPressureEnvironment
    (solar_radiation_pressure_environment.cpp:107-123), InitEarthAlbedo (earth_albedo.cpp:49-59) and InitEarthInfrared
    (earth_infrared.cpp:55-66); Disturbances::InitializeInstances (src/disturbances/disturbances.cpp:61-94, DS) with the Init
    functions of src/disturbances; InitSimulationTime and the constructor of SimulationTime
    (src/environment/global/simulation_time.cpp:249-279, 26-61, 65-78, ST).
    A settings file is what the readers return (CompInitModel.ini).  Doubles are real numbers.  SPICE's table of names [naif]
    and its constants of bodies are arbitrary functions.  A failed assert or bad_alloc is [Throw].
    Not modelled: log flags, messages, SPICE kernels, the ephemeris time, the copying of settings files. *)
From Coq Require Import Reals List Bool Arith ZArith Ascii String.
From Verif Require Import Base RBase VecModel StringModel SensorModel CompInitModel CelestialModel ShadowModel EnvModel DisturbanceModel GravityModel
  EarthRotModel AtmosphereModel.
From Verif Require SimTimeModel JulianModel.
Import ListNotations.
Open Scope list_scope.
Open Scope R_scope.

(** std::string between the two models of texts *)
Definition text_of (s : str) : string := string_of_list_ascii s.
Definition rd_name (f : ini) (sec key : str) : string := text_of (rd_string f sec key).
(** key(0), ..., key(n - 1); the loops of CI 223-227 and initialize_file_access.cpp:162-170 *)
Definition rd_names (f : ini) (sec key : str) (n : nat) : list string := map (fun i => rd_name f sec (element key i)) (seq 0 n).

(** ** Celestial information *)
Section celestial.
Context (naif : string -> option Z) (radii_km : Z -> R * R * R) (garbage : nat -> R).
Definition celestial_section : str := lit "CELESTIAL_INFORMATION".
(** CI 223-236.  ReadChar copies 30 characters with strncpy: a longer name has no end mark, and reading it is undefined *)
Fixpoint body_id_list (names : list string) : outcome (list Z) :=
  match names with
  | [] => Ok []
  | n :: l =>
      if (30 <=? String.length n)%nat then UB else
      match naif n with None => Throw | Some p => let! r := body_id_list l in Ok (p :: r) end
  end.
(** CI 56-65; pow(x, 1/3) *)
Definition mean_radius (id : Z) : R :=
  let '(a, b, c) := radii_km id in cpow ((a * 1000) * (b * 1000) * (c * 1000)) (1 / 3).
(** CI 203-248 and 22-71: the bodies, and the words for the rotation of the Earth and the Moon.  The arrays of positions and
    velocities are not initialised.  new int[n] throws for a negative n *)
Definition init_celestial (f : ini) : outcome (celestial * earth_mode * moon_mode) :=
  let n := rd_int f celestial_section (lit "number_of_selected_body") in
  if (n <? 0)%Z then Throw else
  let n := Z.to_nat n in
  let! ids := body_id_list (rd_names f celestial_section (lit "selected_body_name") n) in
  let modes := rd_names f celestial_section (lit "rotation_mode") n in
  let g := mkCelestial ids (map garbage (seq 0 (3 * n))) (map (fun i => garbage (i + 3 * n)%nat) (seq 0 (3 * n))) (map mean_radius ids)
             (rd_name f celestial_section (lit "center_object")) in
  let! e := rotation_mode naif g modes "EARTH" in
  let! m := rotation_mode naif g modes "MOON" in
  Ok (g, earth_mode_of e, moon_mode_of m).
End celestial.

(** ** Local environment *)
Definition calc : str := lit "calculation".
(** the size_t of a negative int: ReadVectorString runs out of memory *)
Definition shadow_names (f : ini) : outcome (list string) :=
  let sec := lit "SOLAR_RADIATION_PRESSURE_ENVIRONMENT" in
  let n := rd_int f sec (lit "number_of_third_shadow_source") in
  if (n <? 0)%Z then Throw else Ok (rd_names f sec (lit "third_shadow_source_name") (Z.to_nat n)).
(** LE 35-50 with the Init functions *)
Definition init_env (naif : string -> option Z) (g : celestial) (f : ini) : outcome env_config :=
  let gf := lit "MAGNETIC_FIELD_ENVIRONMENT" in
  let! sun := radius_of naif g "SUN" in
  let! names := shadow_names f in
  Ok (force_disable (center_name g)
    (mkCfg (rd_enable f gf calc) (rd_enable f (lit "SOLAR_RADIATION_PRESSURE_ENVIRONMENT") calc) (rd_enable f (lit "EARTH_ALBEDO") calc)
       (rd_enable f (lit "EARTH_INFRARED") calc) (rd_enable f (lit "ATMOSPHERE") calc)
       (mkField (rd_double f gf (lit "magnetic_field_random_walk_standard_deviation_nT")) (rd_double f gf (lit "magnetic_field_random_walk_limit_nT"))
          (rd_double f gf (lit "magnetic_field_white_noise_standard_deviation_nT")))
       (shadow_sources (center_name g) names) sun (rd_double f (lit "EARTH_ALBEDO") (lit "earth_albedo_factor"))
       (rd_double f (lit "EARTH_INFRARED") (lit "earth_infrared_temperature_hot_side_K"))
       (rd_double f (lit "EARTH_INFRARED") (lit "earth_infrared_temperature_cold_side_K")))).
(** atmosphere.cpp:111-132: model word, noise, F10.7 of the day and average, ap *)
Record air_settings : Type := mkAirSettings { as_model : string; as_sd : R; as_manual : bool; as_daily : R; as_average : R; as_ap : R }.
Definition init_atmosphere (f : ini) : air_settings :=
  let sec := lit "ATMOSPHERE" in
  mkAirSettings (rd_name f sec (lit "model")) (rd_double f sec (lit "air_density_standard_deviation")) (rd_enable f sec (lit "is_manual_parameter_used"))
    (checked_f107 (rd_double f sec (lit "manual_daily_f107"))) (checked_f107 (rd_double f sec (lit "manual_average_f107"))) (rd_double f sec (lit "manual_ap")).

(** ** Disturbances *)
Definition section_of (k : kind) : str :=
  match k with
  | GravityGradient => lit "GRAVITY_GRADIENT" | SolarPressure => lit "SOLAR_RADIATION_PRESSURE_DISTURBANCE" | ThirdBody => lit "THIRD_BODY_GRAVITY"
  | LunarGravity => lit "LUNAR_GRAVITY_FIELD" | AirDrag => lit "AIR_DRAG" | Magnetic => lit "MAGNETIC_DISTURBANCE" | Geopotential => lit "GEOPOTENTIAL"
  end.
(** third_body_gravity.cpp:61-106; a negative number runs the loops zero times *)
Definition init_third_body (base dist : ini) : outcome (list string) :=
  let selected := rd_names base celestial_section (lit "selected_body_name") (Z.to_nat (rd_int base celestial_section (lit "number_of_selected_body"))) in
  let center := rd_name base celestial_section (lit "center_object") in
  let sec := section_of ThirdBody in
  init_third_bodies center selected (rd_enable dist sec calc)
    (rd_names dist sec (lit "third_body_name") (Z.to_nat (rd_int dist sec (lit "number_of_third_body")))).
(** air_drag.cpp:103-105 *)
Definition init_air_drag (f : ini) : air_drag :=
  let sec := section_of AirDrag in
  mkAir (rd_double f sec (lit "wall_temperature_degC") + 273) (rd_double f sec (lit "molecular_temperature_degC") + 273)
    (rd_double f sec (lit "molecular_weight_g_mol")).
(** what a disturbance object is built with *)
Inductive made : Type :=
| MadeGradient (gm : R) | MadeSurfaces | MadeThird (bodies : list string) | MadeDrag (a : air_drag) | MadeMagnetic | MadeGravity (g : gravity).
Section disturbances.
(** the gravity constant of the center body, the constants of the Earth's field, the coefficient files by path *)
Context (center_gm earth_gm earth_r : R) (geo : string -> option (list cline)) (lunar : string -> option lunar_file).
Definition make (base dist : ini) (k : kind) : outcome made :=
  let degree := rd_int dist (section_of k) (lit "degree") in
  let path := rd_name dist (section_of k) (lit "coefficients_file_path") in
  match k with
  | GravityGradient => Ok (MadeGradient center_gm)
  | SolarPressure => Ok MadeSurfaces
  | ThirdBody => let! l := init_third_body base dist in Ok (MadeThird l)
  | LunarGravity => let! g := lunar_new degree (lunar path) in Ok (MadeGravity g)
  | AirDrag => Ok (MadeDrag (init_air_drag dist))
  | Magnetic => Ok MadeMagnetic
  | Geopotential => let! g := geopotential_new earth_gm earth_r degree (geo path) in Ok (MadeGravity g)
  end.
Fixpoint make_all (base dist : ini) (ks : list kind) : outcome (list (kind * made)) :=
  match ks with
  | [] => Ok []
  | k :: r => let! m := make base dist k in let! l := make_all base dist r in Ok ((k, m) :: l)
  end.
(** DS 61-94; [run k m] is the Update of an object of that kind, [x0 k m] its members *)
Definition init_disturbances {E X} (run : kind -> made -> E -> X * values -> X * values) (x0 : kind -> made -> X) (g : celestial) (base dist : ini)
  : outcome (list (disturbance E X)) :=
  let! l := make_all base dist (installed (center_name g)) in
  Ok (map (fun km => mkDist (rd_enable dist (section_of (fst km)) calc) (depends_on_attitude (fst km)) (run (fst km) (snd km)) (x0 (fst km) (snd km)) zero_values) l).
End disturbances.

(** ** Simulation time *)
Definition is_digit (c : ascii) : bool := ((48 <=? code c) && (code c <=? 57))%Z%bool.
Fixpoint digits_value (acc : Z) (s : str) : Z * str :=
  match s with
  | c :: t => if is_digit c then digits_value (10 * acc + (code c - 48)) t else (acc, s)
  | [] => (acc, s)
  end.
(** %d of sscanf: blanks, a sign, at least one digit (a number that does not fit into int is not treated) *)
Definition scan_digits (s : str) : option (Z * str) :=
  match s with c :: _ => if is_digit c then Some (digits_value 0 s) else None | [] => None end.
Definition scan_int (s : str) : option (Z * str) :=
  match skip_space s with
  | c :: t =>
      if Ascii.eqb c "-" then option_map (fun r => (- fst r, snd r)%Z) (scan_digits t)
      else if Ascii.eqb c "+" then scan_digits t else scan_digits (c :: t)
  | [] => None
  end.
Definition scan_char (d : ascii) (s : str) : option str := match s with c :: t => if Ascii.eqb c d then Some t else None | [] => None end.
(** ST 46: "%d/%d/%d %d:%d:%lf"; [scan_real] is %lf.  If the conversion stops early, the members not read yet are
    uninitialised, and ST 47 reads them: [None] *)
Definition scan_date (scan_real : str -> option R) (s : str) : option JulianModel.stamp :=
  match scan_int s with None => None | Some (y, s) =>
  match scan_char "/" s with None => None | Some s =>
  match scan_int s with None => None | Some (mo, s) =>
  match scan_char "/" s with None => None | Some s =>
  match scan_int s with None => None | Some (d, s) =>
  match scan_int (skip_space s) with None => None | Some (h, s) =>
  match scan_char ":" s with None => None | Some s =>
  match scan_int s with None => None | Some (mi, s) =>
  match scan_char ":" s with None => None | Some s =>
  match scan_real s with None => None | Some x => Some (JulianModel.mkStamp y mo d h mi x)
  end end end end end end end end end end.

Record sim_time : Type := mkSim {
  sm_params : SimTimeModel.params SimTimeModel.real_arith; sm_start : JulianModel.stamp;
  sm_attitude_rk : R; sm_orbit_rk : R; sm_thermal_rk : R; sm_component_hz : Z; sm_speed : R }.
(** ST 249-279 and 26-61: the date is used before the asserts are tested; int(1.0 / 0), or of a number beyond the range of int, is
    undefined *)
Definition init_simulation_time (scan_real : str -> option R) (f : ini) : outcome sim_time :=
  let sec := lit "TIME" in
  let d key := rd_double f sec (lit key) in
  let step := d "simulation_step_s"%string in
  let att := d "attitude_update_period_s"%string in let att_rk := d "attitude_integral_step_s"%string in
  let orb := d "orbit_update_period_s"%string in let orb_rk := d "orbit_integral_step_s"%string in
  let thm := d "thermal_update_period_s"%string in let thm_rk := d "thermal_integral_step_s"%string in
  let cmp := d "component_update_period_s"%string in let log := d "log_output_period_s"%string in
  let end_ := d "simulation_duration_s"%string in
  if (req cmp 0 || (2147483647 <? Z.abs (trunc (1 / cmp))))%Z%bool then UB else
  match scan_date scan_real (rd_string f sec (lit "simulation_start_time_utc")) with
  | None => UB
  | Some start =>
      if (rle att_rk att && rle orb_rk orb && rle thm_rk thm && rle step att && rle step orb && rle step thm && rle step cmp && rle step log)%bool
      then Ok (mkSim (SimTimeModel.mkParams (A := SimTimeModel.real_arith) end_ step att orb thm cmp log (1 * end_ / step / 100)) start att_rk orb_rk thm_rk
                 (trunc (1 / cmp)) (d "simulation_speed_setting"%string))
      else Throw
  end.
