(** Model of src/environment/local/local_environment.cpp (LE), geomagnetic_field.cpp (GF), earth_albedo.cpp (EA),
    earth_infrared.cpp (EI), atmosphere.cpp (AT; its density models are in AtmosphereModel.v) and of
    solar_radiation_pressure_environment.cpp:25-40 (SP).  Doubles are real numbers, [None] is NaN.
    Not modelled here: the IGRF (an arbitrary function), the seed that AT:AddNoise draws from the global generator
    (its result is returned to LE, which drops it). *)
From Coq Require Import Reals List Bool Arith ZArith String.
From Verif Require Import Base RBase VecModel QuatModel OdeModel DisturbanceModel CelestialModel ShadowModel.
Import ListNotations.
Open Scope R_scope.

(** GF.hpp: the parameters of one object *)
Record field_params : Type := mkField { gf_walk_sd : R; gf_walk_limit : R; gf_noise_sd : R }.
Section field.
(** standard normal numbers: of the three generators of the walk, and of the noise generator *)
Context (walk_z : nat -> nat -> R) (noise_z : nat -> R).
(** GF 48-60: the function-local statics exist once per process and keep the parameters of the first call *)
Definition add_field_noise (p : field_params) (st : option rmm_statics) (b : vec) : vec * option rmm_statics :=
  let s := match st with Some s => s | None => mkStatics (gf_walk_sd p) (gf_walk_limit p) (gf_noise_sd p) 0 end in
  let walk := walk_after (vconst (st_limit s)) (fun i k => st_walk_sd s * walk_z i k) (1 / 10) (st_calls s) in
  (fun i => b i + (walk i + st_noise_sd s * noise_z (3 * st_calls s + i)%nat),
   Some (mkStatics (st_walk_sd s) (st_limit s) (st_noise_sd s) (S (st_calls s)))).
End field.

(** the settings: calculation flags (GF.hpp:22, SP.hpp, EA.hpp, EI.hpp, AT.hpp) and parameters *)
Record env_config : Type := mkCfg {
  field_on : bool; srp_on : bool; albedo_on : bool; infrared_on : bool; air_on : bool;
  field_par : field_params; sources : list string; sun_radius : R; albedo_factor : R; hot_K : R; cold_K : R }.
(** LE 46-50 *)
Definition force_disable (center : string) (c : env_config) : env_config :=
  if String.eqb center "EARTH" then c
  else mkCfg false (srp_on c) (albedo_on c) (infrared_on c) false (field_par c) (sources c) (sun_radius c) (albedo_factor c) (hot_K c) (cold_K c).

Record environment : Type := mkEnv {
  local_info : local_celestial; field_i : vec; field_b : vec; pressure : R; coefficient : option R;
  albedo_W : option R; infrared_W : R; air_density : R }.
(** GF 21-22, SP 19-20, SP.hpp:119, EA.hpp:73, EI.hpp:70, AT 24 *)
Definition new_environment (g : celestial) : environment :=
  mkEnv (new_local g) (vconst 0) (vconst 0) (solar_constant / speed_of_light) (Some 1) (Some 0) 0 0.

(** EI 48-54; physical_constants.hpp:24 *)
Definition stefan_boltzmann : R := 5670374419 / 10 ^ 17.
Definition eclipsed (co : option R) : bool := match co with Some k => is_eclipsed k | None => true end.
Definition power (p : R) (co : option R) : option R := match co with Some k => Some (power_density p k) | None => None end.
Definition infrared_flux (c : env_config) (co : option R) : R :=
  if eclipsed co then stefan_boltzmann * cold_K c ^ 4 else stefan_boltzmann * hot_K c ^ 4.
(** SP 60-112 with the positions in the arrays *)
Definition shadow_of (naif : string -> option Z) (g : celestial) (l : local_celestial) (c : env_config) (source : string) (co : option R) : outcome (option R) :=
  if String.eqb source "SUN" then Ok (times co 1)
  else let! sun := seen_i naif g l "SUN" in let! src := seen_i naif g l source in let! rad := radius_of naif g source in
       shadow_step (apparent_radius (sun_radius c) sun) (apparent_radius rad src) (delta_angle src sun) co.
Definition sunlight_update (naif : string -> option Z) (g : celestial) (l : local_celestial) (c : env_config) : outcome (R * option R) :=
  let! sun := seen_i naif g l "SUN" in
  let! co := fold_left (fun o src => let! co := o in shadow_of naif g l c src co) (sources c) (Ok (Some 1)) in
  Ok (srp_pressure sun, co).

(** what LE:Update reads: the two flags, and the state of the spacecraft *)
Record inputs : Type := mkInputs { att_now : bool; orb_now : bool; sc_position : vec; sc_velocity : vec; sc_quat : quat; sc_rate : vec }.
Section update.
Context (naif : string -> option Z) (walk_z : nat -> nat -> R) (noise_z : nat -> R).
(** IgrfCalc and the chosen density model at the time, place (and Sun) of the step *)
Context (igrf : inputs -> vec) (density : celestial -> inputs -> R).
(** GF 31-46 *)
Definition field_update (c : env_config) (x : inputs) (st : option rmm_statics) (e : environment) : environment * option rmm_statics :=
  if field_on c then
    let (b, st) := add_field_noise walk_z noise_z (field_par c) st (igrf x) in
    (mkEnv (local_info e) b (frame_conversion (sc_quat x) b) (pressure e) (coefficient e) (albedo_W e) (infrared_W e) (air_density e), st)
  else (e, st).
(** LE 57-78; g: the celestial information of this step *)
Definition env_update (c : env_config) (g : celestial) (x : inputs) (st : option rmm_statics) (e : environment) : outcome (environment * option rmm_statics) :=
  let! es := if att_now x then
               let! l := update_local g (sc_position x) (sc_velocity x) (sc_quat x) (sc_rate x) (local_info e) in
               Ok (field_update c x st (mkEnv l (field_i e) (field_b e) (pressure e) (coefficient e) (albedo_W e) (infrared_W e) (air_density e)))
             else Ok (e, st) in
  let (e, st) := es : environment * option rmm_statics in
  if orb_now x then
    let! pc := if srp_on c then sunlight_update naif g (local_info e) c else Ok (pressure e, coefficient e) in
    let (p, co) := pc : R * option R in
    let alb := if albedo_on c then match power p co with Some w => Some (w * albedo_factor c) | None => None end else albedo_W e in
    let ir := if infrared_on c then infrared_flux c co else infrared_W e in
    let air := if air_on c then density g x else air_density e in
    Ok (mkEnv (local_info e) (field_i e) (field_b e) p co alb ir air, st)
  else Ok (e, st).
End update.
