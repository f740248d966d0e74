# Formal model of s2e-core in Rocq (Coq 8.16.1)

Sources read: /repo (C++). Nothing was compiled or run; the tie between model and
code is the reading of the source, and every definition of the model cites the
file and lines it transcribes and states its simplifications.

## Layout

`rocq/theories/` one group of files per area `X`:

* `XModel.v`  – executable Gallina transcription of the C++ (no proofs).
* `XSpec.v`   – small, independent specification vocabulary (queues, calendars, ...).
* `XProofs.v` – lemmas.
* `XProps.v`  – only the property theorems (`exact lemma`), examples showing the
  hypotheses are met, and `Print Assumptions`.

## Modelling conventions

* Bytes are `Z`/`N` in 0..255 (or polymorphic elements when the code never inspects them).
* Fixed-width integers are `Z` with explicit wrap-around where the property depends on it.
* `double` is modelled by the real numbers `R` of the Coq standard library, except where a
  property is about rounding; there the standard library's executable IEEE binary64
  specification (`SpecFloat`) is used. A theorem over `R` says nothing about rounding error.
* Undefined behaviour (out-of-bounds access, null dereference, use of an uninitialised
  member, non-termination) is a distinct outcome (`None`, `UB`, out-of-fuel), never a default.
* Properties that the code violates are kept in the list and proved as `*_refuted` with a
  witness; what does hold is proved next to it.

## Areas: what is modelled, what is left out, how it is proved

Paths are relative to /repo/src. Every definition of `XModel.v` cites file and lines.

| Area (files `X*.v`) | Code | Simplified / not modelled | Method |
|---|---|---|---|
| RingBuffer | utilities/ring_buffer, components/ports/uart_port | memcpy is list copy; allocation failure not modelled | refinement to a list queue, induction over operation histories |
| Slip | utilities/slip, utilities/endian | in-place vector edits as lists; dereferencing end() is UB | induction over the byte list |
| Ports | components/ports/gpio_port, i2c_port, the I2C/GPIO wrappers of on_board_computer | std::map as association function; callbacks as a trace | refinement to a register file; induction over writes |
| PowerPort | components/ports/power_port, initialisation | doubles are R; the settings file is its values | invariant over operation lists |
| Clock | components/base/component, environment/global/clock_generator | components are opaque tick functions with traces | counting induction over steps |
| SimTime | environment/global/simulation_time (counters, flags, end, display), simulation_case main loop | exact R for intervals; real-time (chrono) waiting not modelled | closed form of the counters, invariants |
| Time | math_physics/time_system/*: DateTime, EpochTime, GpsTime | mktime/gmtime modelled as the proleptic Gregorian calendar in UTC | calendar specification; lia with div/mod, sweep over a 4-year/400-year cycle lifted |
| Rng | math_physics/randomization/* (LCG, shuffle, normal, global seed) | doubles of the normal generator are R | Schrage's lemma, order of 16807 from the factorisation of 2^31-2 |
| Sensor | components/base/sensor template, math_physics quantization, random walk | noise values are arguments; doubles are R | case analysis per component, all dimensions |
| Log | logger/logger, log_utility, every GetLogHeader/GetLogValue of the tree | text of numbers is opaque (its commas are what matters) | induction over loggables, counting separators |
| Mc | simulation/monte_carlo_simulation/* | std::map by name; random values arguments | induction over operations |
| Lu | math/matrix_vector templates: LU decomposition, solve, inverse, any size | doubles are R: no rounding, zero pivot test exact | loop invariants over in-place arrays, N arbitrary |
| Quat | math_physics/math/quaternion, vector, s2e_math | doubles are R except WrapTo2Pi, treated in IEEE binary64 as well (Flocq) | ring/nra/nsatz, branch analysis |
| Interp | math_physics/orbit/interpolation_orbit, math/interpolation | doubles are R | induction on Neville's tableau, root counting |
| Rk | math_physics/numerical_integration/* | doubles are R; right hand side an arbitrary function | Butcher tables computed over Q; generic one-step lemmas |
| Ode | math/ordinary_differential_equation, randomization/random_walk | doubles are R | algebra |
| Gnss | math_physics/gnss/gnss_satellite_number, igs_product_name_handling, satellite arithmetic | strings as character lists | finite sweeps lifted, lia |
| Thermal | simulation/thermal (temperature, node, heatload, heater, heater_controller) | doubles are R; CSV input is its values | invariants; refutations by computation |
| Obc | components/real/cdh/on_board_computer, base/uart_communication_with_obc | user callbacks arbitrary functions | refinement, index bounds |
| Setting | setting_file_reader/initialize_file_access, wings_operation_file, c2a_command_database | INIReader's own parsing, file system not modelled: a file is its lines/values | induction over lists of characters |
| String | string helpers shared by Setting/Wings | - | - |
| Wings | components/real/cdh/c2a: wings_command_sender_to_c2a | C2A itself is the sequence of commands it receives | induction over steps |
| Power | components/real/power: battery, pcu_initial_study, solar_array_panel, csv_scenario_interface | doubles are R | invariants over steps |
| Registry | components/real/power/power_control_unit, simulation/hils/hils_port_manager | serial devices not modelled: ports are registry entries | refinement to finite maps |
| Orbit | dynamics/orbit: orbit, kepler_orbit, rk4, relative_orbit, encke; math_physics/orbit/* | doubles are R; SGP4 not modelled there | calculus (derivatives of closed forms), Newton/contraction arguments, vector algebra |
| Attitude | dynamics/attitude: attitude, attitude_rk4, cantilever, controlled | doubles are R | algebra on quaternions, derivatives, loop invariants |
| Pointing | same files: cantilever vibration and controlled attitude | doubles are R | algebra, refutation by witness |
| Disturbance | disturbances/*, spacecraft/structure surfaces and initialisation | doubles are R | vector algebra, positivity of the drag function by calculus |
| Spacecraft | simulation/spacecraft/spacecraft, dynamics/dynamics | components are opaque | trace of one update, induction over steps |
| Node | thermal node radiation loads and view factors | doubles are R | geometry and calculus |
| Shadow | environment/local/solar_radiation_pressure_environment | doubles are R; acos/asin of arguments outside [-1,1] is UB/NaN outcome | areas of circular segments by calculus (Coquelicot) |
| Celestial | environment/local/local_celestial_information, global/celestial_information queries | SPICE results are arbitrary functions of time | vector algebra, kinematics |
| Env | environment/local/local_environment, earth_albedo, earth_infrared | - | trace of updates, geometry |
| Atmosphere | environment/local/atmosphere, math_physics/atmosphere/simple model, harris_priester | NRLMSISE-00 itself is an arbitrary function | monotonicity/exponentials, table bounds |
| Wheel | components/real/aocs/reaction_wheel, reaction_wheel_ode, first_order_lag | abs taken as the double overload; random jitter separate | ODE solution, invariants over steps |
| WheelJitter | components/real/aocs/reaction_wheel_jitter | random phases are arguments | digital filter algebra |
| Magnetic | components/real/aocs: magnetorquer, magnetometer, gyro_sensor, mtq interference | noise values are arguments | induction over steps |
| Star | components/real/aocs/star_sensor | noise values are arguments; buffer index as Z with C conversion | delay line refinement, rotations |
| SunSensor | components/real/aocs/sun_sensor | noise values are arguments | geometry, trace over steps |
| Geo | math_physics/geodesy/geodetic_position, sgp4ext ijk2ll | PI of sgp4ext taken exact | convergence of the fixed point iteration |
| GnssRx | components/real/aocs/gnss_receiver | noise arguments; GNSS positions arbitrary | geometry of visibility, list invariants |
| Actuator | components/real/propulsion/simple_thruster, ideal/force_generator, torque_generator, orbit/attitude observers | noise arguments | delay line refinement, rotations |
| Link | components/real/communication/antenna, antenna_radiation_pattern, ground_station(_calculator) | log10 of a non-positive number not modelled | geometry, table bounds |
| RelInfo | simulation/multiple_spacecraft/relative_information | - | frame algebra, table invariants |
| Telescope | components/real/mission/telescope, environment/global/hipparcos_catalogue | abs taken as the double overload | geometry, list invariants |
| Julian | simulation_time Julian day/UTC/decimal year, sgp4ext jday/invjday, space weather table | overflow of int dates not modelled | floor arithmetic, calendar sweep |
| EarthRot | environment/global/earth_rotation, moon_rotation, celestial_information (rotation part) | sgp4unit gstime constants exact; SPICE frames arbitrary | rotation matrices, orthogonality, closed forms |
| Gravity | math_physics/gravity/gravity_potential, disturbances/geopotential, lunar_gravity_field | negative degrees' wrap-around and memory exhaustion not modelled | Cunningham recursion against complex solid harmonics, derivatives of sums |
| Igrf | math_physics/geomagnetic/igrf | coefficient file is its numbers (text scanning, lines over 460 chars not modelled); external field, total force not modelled | loop invariants, derivatives of the spherical harmonic potential |
| Optics | math_physics/optics/gaussian_beam_base | doubles are R; assert is an abort outcome | integration by antiderivative (Coquelicot), monotonicity |
| TimeSeries | dynamics/orbit/time_series_file_orbit_propagation | doubles are R; the CSV file is its rows of seven numbers; frame transformations after the assignment in Orbit area; negative interpolation counts not modelled | window invariant over call histories, uniqueness of the interpolating polynomial (C28) |
| GnssSat | environment/global/gnss_satellites, queries of math_physics/gnss/sp3_file_reader | doubles and EpochTime are R; files that repeat the last epoch of the previous day are excluded by the hypothesis of increasing epochs; a start time outside the files leaves an uninitialised object, modelled as None | table of all files, window invariant over update histories, C28/C57 |
| Sp3 | math_physics/gnss/sp3_file_reader (reading) | std::stod and the conversion of the 28 date characters are arbitrary functions of the text; ifstream is its remaining text with eofbit and failbit; console messages left out; the header's informational fields are parsed but not kept | lines of text against the stream, induction over lines, satellites and epochs |
| Sgp4 | math_physics/orbit/sgp4/sgp4unit (initl, sgp4init, sgp4, dspace, dpper in propagation mode, getgravconst), the conversions of twoline2rv, dynamics/orbit/sgp4_orbit_propagation | exact reals and exact pi; a division by zero or a power of a non-positive number ends the run as NotFinite (NaN or infinity in C++); the initialisation of lunar-solar and resonance terms (dscom, dsinit, dpper at init) is an arbitrary function of the record here and modelled in the area Sgp4Deep; the text of the two lines is C154's; the conversion to the Earth-fixed frame after a propagation is C110's and the geodetic conversion's business | a field-by-field invariant (what propagation never changes) for history independence; inversion of the monadic program into coefficient facts and refinement of a relational specification; Newton convergence from OeProofs; interval bounds by nra for ordinary orbits |
| Start | dynamics/orbit/initialize_orbit, dynamics/attitude/initialize_attitude, SetOrbitInitializeMode, KeplerOrbitPropagation, ConvertStringToCtrlMode | the settings file is what its reading functions return by section and key; SGP4 and time series objects are kept as their constructor's arguments (their constructors are C131, C119); the fatal check for a negative altitude, log flags and Monte-Carlo registration are left out | case analysis on the words; the constructors' theorems C63, C64, C66, C72, C74 |
| C2a | components/real/cdh/on_board_computer_with_c2a (I2C, MainRoutine), components/base/i2c_target_communication_with_obc (SILS), components/base/gpio_connection_with_obc | the flight software is an arbitrary list of calls; absent and null map entries are identified; the UART methods are those of C35 with a static map | every call expands to elementary bus operations; the table is the image of per-port bus histories; C07 gives the bytes |
| HilsTarget | StoreTelemetry and the receive/refill cycle of i2c_target_communication_with_obc in HILS mode | writing to the converter always succeeds; received bytes are arbitrary lists | induction on the number of frames and on the inputs |
| Sinex | math_physics/gnss/bias_sinex_file_reader | a file is a list of lines plus whether the last one has a newline; stod is an arbitrary partial function; times and satellite number, which no getter shows, are cut out and dropped | induction on the pieces of the file |
| Antex | math_physics/gnss/antex_file_reader | doubles are reals; a file is a list of lines; stod, sscanf of numbers and of a date are arbitrary functions of their text | induction on items, blocks and pieces of a file; nearest point from the half step bound |
| CompInit | the Init functions of components/real (gyro, magnetometer, magnetorquer, interference, sun and star sensor, GNSS receiver, wheel, thruster, battery, panel, PCU, antenna, ground station calculator, telescope) and components/ideal, ReadSensorInformation, PowerPort::InitializeWithInitializeFile, and the vector, quaternion and flag readers of initialize_file_access | a settings file is what ReadString, ReadDouble, ReadInt and ReadBoolean return by section and key (arbitrary functions); normal generators are standard deviation times an arbitrary sequence; log flags and the identity of the clock are dropped | injectivity of the section names; then the theorems about the devices (C20, C75, C89, C95, C50, C106) are applied to what is built |
| ThermalInit | dynamics/thermal: InitTemperature, InitNode, InitHeater, InitHeaterController, InitHeatload, and the table accesses of CalcTemperatureDifferentials | the five CSV files are texts, a missing one the empty text; std::stoi and std::stod are arbitrary functions that give a number or throw; doubles are reals; a failed assert is a throw; the ini values (enabled flags, directory) are arguments | row by row equivalence with a relational specification; composition with C33, C34, C45, C51 |
| EnvInit | InitCelestialInformation, LocalEnvironment::Initialize and the Init functions of environment/local, Disturbances::InitializeInstances and the Init functions of disturbances, InitSimulationTime with the constructor of SimulationTime | a settings file is what its readers return; SPICE's names and radii are arbitrary functions; %lf is an arbitrary partial function and %d unbounded; the display period of a zero step (an infinity) is not used; log flags, kernels and ephemeris time are left out | inversion of the constructors, then C84, C85, C83, C79, C75, C14 |
| Tle | the text part of math_physics/orbit/sgp4/sgp4io twoline2rv: column repairs and sscanf with field widths | doubles are reals; an exponent, inf, nan or hexadecimal number in a column ends the number; conversions after the last number used are not scanned | symbolic evaluation of the repairs on the columns; scanning lemmas per field; composition with C131 |
| SimRun | simulation_case Main, global_environment Update, clock_generator and component with stateful routines, spacecraft and dynamics Update, sample_case UpdateTargetObjects | exact arithmetic, simulation speed 0; celestial bodies, GNSS, attitude, orbit, temperature, environment, component routines and ground station are arbitrary functions; routines do not register or remove components | induction over the updates with the flag theorems of C13 and the step theorem C80 |
| Sample | example sample_components: construction order, power ports, GenerateForce_b_N, GenerateTorque_b_Nm | outputs of the devices are arbitrary functions of the components' state; temporaries have other addresses than the devices kept | induction over the registration history; C139_power_port; C80 |
| SerialEx | components/examples example_serial_communication_with_obc, example_serial_communication_for_hils; base/uart_communication_with_obc (software in the loop) | sizeof(std::vector) is 24; the UART is the one of C09-C11's ring buffers; printing of received bytes is not modelled | refinement between the device with its buffers and two queues; induction over the history |
| I2cEx | components/examples example_i2c_target_for_hils, example_i2c_controller_for_hils; base/i2c_controller | the port is the one of C135; the serial line to the converter always takes the bytes; what the converter delivers is arbitrary | refinement to a counter of missing frames; induction over the requests |
| Change | components/examples/example_change_structure; with dynamics/attitude/attitude_rk4 (Attitude area) | of a surface only the area is kept; doubles are reals | the Runge-Kutta stages stay in the commutative algebra spanned by 1 and the axis; induction over the integration steps |
| Sgp4Deep | math_physics/orbit/sgp4/sgp4unit (dscom, dsinit, dpper at initialisation) | as in the area Sgp4; the Moon's node and inclination on the equator are taken by their defining equations with the rounded constants of the code; the eccentricity functions of half-day orbits are the polynomial fits of Spacetrack Report No. 3, restated in the specification | the terms of dscom are the derivatives of the averaged tidal potential: partial derivatives computed with derivable_pt_lim, Lagrange equations by field; means over a revolution by antiderivatives; inclination functions by ring against the triple sum of Kaula |
| RkOrbit | dynamics/orbit: rk4_orbit_propagation (constructor, Propagate, DerivativeFunction) | doubles are R (sums of step widths are exact); at the center of gravity the code gives NaN, the model a finite number | two runs in lock step under a relation kept by sums, multiples and the equation of motion; induction over steps and calls |
| Initial | constructors of PowerPort, Battery, SunSensor, Magnetorquer, GnssReceiver, I2cTargetCommunicationWithObc, Telescope, RelativeInformation, LocalEnvironment parts | a member the constructor leaves uninitialised is None | evaluation |
| RelRk | dynamics/orbit/relative_orbit (Propagate with Runge-Kutta), with math_physics/math/ordinary_differential_equation | model of the areas RelOrbit and Ode; the code prints a warning and goes on for a method it does not know, not modelled here | in complex coordinates of the ellipse and the cross-track oscillation a step multiplies by the Taylor polynomial of degree 4 of exp(-i n w); the error per step is bounded by (n w)^5/80 and the factors have size at most 1 |
| Spin | dynamics/attitude/attitude_rk4 (Propagate) | model of the area Attitude; doubles are reals | turns about one axis and nutations are multiplied in each step by the Taylor polynomial of degree 4 of exp(-i x) (normalised for the quaternion); the exact solutions are unique because the norm of the difference of two solutions is constant |
| Heat | dynamics/thermal/temperature.cpp (Propagate, CalcRungeOneStep, CalcTemperatureDifferentials) | model of the area Thermal; doubles are reals; the heat loads are any state machine | a step moves each node by (exchange at the start of the step + mean load) h / C; the exchange is monotone in the other nodes, and with a mild step the node itself is, which gives a comparison principle with constant fields and between two runs, carried through the loops by induction |
| Conv | math_physics/numerical_integration (Integrate, ControlStepWidth), math/ordinary_differential_equation | models of the areas Rk and Ode; doubles are reals | tube argument: in a neighbourhood of the solution all stages are bounded, one step multiplies the error by 1 + h L and adds at most h^2 K, discrete Gronwall over any list of widths; only first order is claimed for the run (the order conditions are C30) |
| OrbConv | dynamics/orbit/rk4_orbit_propagation | model of the area Orbit; doubles are reals; one acceleration for the whole run | the pull of a point mass is Lipschitz with 7 mu / m^3 beyond the distance m; C172 for the list of widths that Propagate uses; the Kepler orbit is an exact motion by C63 |
| AttConv | dynamics/attitude/attitude_rk4 | model of the area Attitude; doubles are reals; torque, wheel momentum and inertia tensor constant during the run | the derivative is bilinear, so Lipschitz on bounded sets; every stage's quaternion rate is orthogonal to its quaternion, so a step changes the norm by at most 12 M^2 w^2 and normalising adds an error of second order per step; then the growth argument of C172, by induction over the steps of all calls |
| LogFile | logger (files: constructor, destructor, CopyFileToLogDirectory), initialize_log | a disk maps paths to texts, directories are not objects, different texts are different paths, nothing else writes; a stream's texts are in its file at once; whether a path can be written is an argument | induction over the history of calls: a logger owns its file (nobody else has it open, its position is the length), and files no logger has open stay; stamps have a fixed length, so paths are injective |

## Properties

| Id | Property | Area | Proof method | Theorems |
|---|---|---|---|---|
| C01 | Ring buffer is a queue for every history | RingBuffer | refinement to a list queue, induction over operation histories | 1 |
| C02 | Ring buffer loses nothing below capacity; overflow is silent | RingBuffer | refinement to a list queue, induction over operation histories | 3 |
| C03 | UART directions are independent FIFOs | RingBuffer | refinement to a list queue, induction over operation histories | 1 |
| C04 | SLIP encoding round-trips | Slip | induction over the byte list | 1 |
| C05 | SLIP frames are self-delimiting | Slip | induction over the byte list | 2 |
| C06 | SLIP decoding of arbitrary bytes | Slip | induction over the byte list | 3 |
| C07 | I2C port is a register file with an auto-incrementing pointer | Ports | refinement to a register file; induction over writes | 1 |
| C08 | OBC I2C register bulk access round-trips | Ports | refinement to a register file; induction over writes | 4 |
| C09 | GPIO port | Ports | refinement to a register file; induction over writes | 2 |
| C10 | Power port state is consistent | PowerPort | invariant over operation lists | 7 |
| C11 | Component scheduling by prescaler | Clock | counting induction over steps | 4 |
| C12 | Clock generator ticks every registered component once per step, in registration order | Clock | counting induction over steps | 2 |
| C13 | Simulation time update flags fire at the configured interval | SimTime | closed form of the counters, invariants | 4 |
| C14 | Simulation ends when the end time is passed | SimTime | closed form of the counters, invariants | 4 |
| C15 | DateTime <-> EpochTime round trip | Time | calendar specification; lia with div/mod, sweep over a 4-year/400-year cycle lifted | 6 |
| C16 | EpochTime arithmetic is exact and ordered | Time | calendar specification; lia with div/mod, sweep over a 4-year/400-year cycle lifted | 6 |
| C17 | GPS time conversion | Time | calendar specification; lia with div/mod, sweep over a 4-year/400-year cycle lifted | 5 |
| C18 | Minimal standard generator | Initial, Rng | evaluation; Schrage's lemma, order of 16807 from the factorisation of 2^31-2 | 7 |
| C19 | Shuffled generator really shuffles | Rng | Schrage's lemma, order of 16807 from the factorisation of 2^31-2 | 2 |
| C20 | Sensor range handling | Sensor | case analysis per component, all dimensions | 3 |
| C21 | Log header and values always have the same columns | Log | induction over loggables, counting separators | 9 |
| C22 | Monte-Carlo executor runs the configured number of cases | Mc | induction over operations | 7 |
| C23 | Monte-Carlo parameters and simulation-object registries | Mc | induction over operations | 13 |
| C24 | Matrix inversion and linear solve are correct for every size | Lu | loop invariants over in-place arrays, N arbitrary | 3 |
| C25 | Quaternion algebra and frame conversion | Quat | ring/nra/nsatz, branch analysis | 10 |
| C26 | DCM <-> quaternion round trip | Quat | ring/nra/nsatz, branch analysis | 4 |
| C27 | Angle wrapping | Quat | ring/nra/nsatz, branch analysis | 4 |
| C28 | Polynomial interpolation is exact | Interp | induction on Neville's tableau, root counting | 4 |
| C29 | Interpolation data window | Interp | induction on Neville's tableau, root counting | 4 |
| C30 | Runge-Kutta integrators have their advertised order | Rk | Butcher tables computed over Q; generic one-step lemmas | 7 |
| C31 | GNSS satellite numbering is a bijection | Gnss | finite sweeps lifted, lia | 5 |
| C32 | IGS product names and day-of-year arithmetic | Gnss | finite sweeps lifted, lia | 7 |
| C33 | Heater controller hysteresis | Thermal | invariants; refutations by computation | 3 |
| C34 | Heat-load profile lookup | Thermal | invariants; refutations by computation | 5 |
| C35 | OBC communication port registry | Obc | refinement, index bounds | 1 |
| C36 | UART command reception stays inside its buffers | Obc | refinement, index bounds | 6 |
| C37 | Command argument encoding is big-endian two's complement | Setting | induction over lists of characters | 4 |
| C38 | WINGS operation file parsing | Setting | induction over lists of characters | 3 |
| C39 | Battery and power control conserve charge bookkeeping | Power | invariants over steps | 6 |
| C40 | Power control unit port registry | Registry | refinement to finite maps | 5 |
| C41 | Endian copy | Slip | induction over the byte list | 3 |
| C42 | Quantization error bound | Sensor | case analysis per component, all dimensions | 2 |
| C43 | CSV scenario lookup | Power | invariants over steps | 3 |
| C44 | HILS port registry | Registry | refinement to finite maps | 5 |
| C45 | Settings-file values, vectors, enable flags and CSV | Setting, Wings | induction over lists of characters; induction over steps | 15 |
| C46 | Progress display cadence | SimTime | closed form of the counters, invariants | 2 |
| C47 | Normal random numbers | Rng | Schrage's lemma, order of 16807 from the factorisation of 2^31-2 | 4 |
| C48 | Global seed generation | Rng | Schrage's lemma, order of 16807 from the factorisation of 2^31-2 | 2 |
| C49 | Random walk stays near its limit | Sensor | case analysis per component, all dimensions | 2 |
| C50 | Solar array panel power | Power | invariants over steps | 1 |
| C51 | Thermal network bookkeeping | Thermal | invariants; refutations by computation | 8 |
| C52 | C2A command database | Setting | induction over lists of characters | 4 |
| C53 | WINGS command sender schedule and contents | Wings | induction over steps | 10 |
| C54 | Quaternions from an axis and angle or from two vectors | Quat | ring/nra/nsatz, branch analysis | 5 |
| C55 | Euler angles and elementary rotations | Quat | ring/nra/nsatz, branch analysis | 7 |
| C56 | Polar coordinates | Quat | ring/nra/nsatz, branch analysis | 1 |
| C57 | Trigonometric interpolation | Interp | induction on Neville's tableau, root counting | 2 |
| C58 | Orbit interpolation | Interp | induction on Neville's tableau, root counting | 3 |
| C59 | Dense output and step-width control of the embedded integrators | Rk | Butcher tables computed over Q; generic one-step lemmas | 7 |
| C60 | Every loggable class of the repository writes matching headers and values | Log | induction over loggables, counting separators | 3 |
| C61 | Monte-Carlo randomization stays in the configured region | Mc | induction over operations | 11 |
| C62 | Kepler's equation is solved to the stated accuracy | Orbit | calculus (derivatives of closed forms), Newton/contraction arguments, vector algebra | 5 |
| C63 | The Kepler orbit is two-body motion | Orbit | calculus (derivatives of closed forms), Newton/contraction arguments, vector algebra | 5 |
| C64 | Orbital elements reproduce position and velocity | Orbit | calculus (derivatives of closed forms), Newton/contraction arguments, vector algebra | 3 |
| C65 | Relative orbit models solve Hill's equations | Orbit | calculus (derivatives of closed forms), Newton/contraction arguments, vector algebra | 5 |
| C66 | LVLH frame and relative position | Orbit | calculus (derivatives of closed forms), Newton/contraction arguments, vector algebra | 4 |
| C67 | Encke's method | Orbit | calculus (derivatives of closed forms), Newton/contraction arguments, vector algebra | 3 |
| C68 | Orbit propagation ends at the requested time | Orbit, RkOrbit | calculus (derivatives of closed forms), Newton/contraction arguments, vector algebra; two runs in lock step under a relation kept by sums, multiples and the equation of motion; induction over steps and calls | 5 |
| C69 | The attitude quaternion stays normalised | Attitude | algebra on quaternions, derivatives, loop invariants | 3 |
| C70 | Attitude kinematics | Attitude | algebra on quaternions, derivatives, loop invariants | 1 |
| C71 | Attitude dynamics: Euler's equation, angular momentum, energy | Attitude | algebra on quaternions, derivatives, loop invariants | 4 |
| C72 | Attitude propagation ends at the requested time and keeps steady rotation | Attitude | algebra on quaternions, derivatives, loop invariants | 5 |
| C73 | Attitude with a vibrating cantilever | Pointing | algebra, refutation by witness | 6 |
| C74 | Controlled attitude points as asked | Pointing | algebra, refutation by witness | 9 |
| C75 | Disturbance totals are the sums of the held values | Disturbance | vector algebra, positivity of the drag function by calculus | 4 |
| C76 | The gravity gradient torque is the differential torque | Disturbance | vector algebra, positivity of the drag function by calculus | 3 |
| C77 | Solar radiation pressure force and torque | Disturbance | vector algebra, positivity of the drag function by calculus | 3 |
| C78 | Air drag is free molecular flow and resists the motion | Disturbance | vector algebra, positivity of the drag function by calculus | 7 |
| C79 | Third body gravity and the residual magnetic moment | Disturbance | vector algebra, positivity of the drag function by calculus | 5 |
| C80 | What acts on the spacecraft in a step | Spacecraft | trace of one update, induction over steps | 3 |
| C81 | Structure file: surfaces and inertia | Disturbance | vector algebra, positivity of the drag function by calculus | 4 |
| C82 | Radiation loads on thermal nodes | Node | geometry and calculus | 9 |
| C83 | Sunlight and eclipses | Shadow | areas of circular segments by calculus (Coquelicot) | 7 |
| C84 | Where the celestial bodies are | Celestial | vector algebra, kinematics | 13 |
| C85 | When the local environment is updated | Env | trace of updates, geometry | 8 |
| C86 | Air density | Atmosphere | monotonicity/exponentials, table bounds | 15 |
| C87 | Reaction wheel: torque, momentum, commands, limits, coasting | Wheel | ODE solution, invariants over steps | 16 |
| C88 | Reaction wheel jitter | WheelJitter | digital filter algebra | 10 |
| C89 | Magnetorquer torque | Magnetic | induction over steps | 4 |
| C90 | Magnetorquer command held over several steps | Magnetic | induction over steps | 3 |
| C91 | Magnetometer, gyro and magnetorquer interference | Magnetic | induction over steps | 3 |
| C92 | Star sensor output delay | Star | delay line refinement, rotations | 5 |
| C93 | Star sensor attitude noise | Star | delay line refinement, rotations | 1 |
| C94 | Star sensor error flag | Star | delay line refinement, rotations | 3 |
| C95 | Sun sensor | SunSensor | geometry, trace over steps | 6 |
| C96 | Geodetic position | Geo | convergence of the fixed point iteration | 8 |
| C97 | GNSS receiver visibility | GnssRx | geometry of visibility, list invariants | 5 |
| C98 | GNSS receiver measurements | GnssRx | geometry of visibility, list invariants | 4 |
| C99 | Thruster thrust history, direction and torque | Actuator | delay line refinement, rotations | 4 |
| C100 | Force and torque generators | Actuator | delay line refinement, rotations | 5 |
| C101 | Orbit and attitude observers | Actuator | delay line refinement, rotations | 2 |
| C102 | Ground station visibility | Link | geometry, table bounds | 4 |
| C103 | Antenna radiation pattern lookup | Link | geometry, table bounds | 3 |
| C104 | Ground station link budget | Link | geometry, table bounds | 5 |
| C105 | Relative information between spacecraft | RelInfo | frame algebra, table invariants | 7 |
| C106 | Telescope forbidden angles and image positions | Telescope | geometry, list invariants | 9 |
| C107 | Hipparcos catalogue | Telescope | geometry, list invariants | 3 |
| C108 | Julian date and UTC clock | Julian | floor arithmetic, calendar sweep | 6 |
| C109 | Decimal year and space weather row | Julian | floor arithmetic, calendar sweep | 14 |
| C110 | Orientation of the Earth | EarthRot | rotation matrices, orthogonality, closed forms | 8 |
| C111 | Orientation of the Moon | EarthRot | rotation matrices, orthogonality, closed forms | 4 |
| C112 | Gravity acceleration is the gradient of the potential | Gravity | Cunningham recursion against complex solid harmonics, derivatives of sums | 4 |
| C113 | Gravity partial derivatives | Gravity | Cunningham recursion against complex solid harmonics, derivatives of sums | 1 |
| C114 | Earth gravity disturbance | Gravity | Cunningham recursion against complex solid harmonics, derivatives of sums | 3 |
| C115 | Moon gravity disturbance | Gravity | Cunningham recursion against complex solid harmonics, derivatives of sums | 3 |
| C116 | Geomagnetic field is minus the gradient of the IGRF potential | Igrf | loop invariants, derivatives of the spherical harmonic potential | 3 |
| C117 | Reading the IGRF table | Igrf | loop invariants, derivatives of the spherical harmonic potential | 4 |
| C118 | Gaussian beam | Optics | integration by antiderivative (Coquelicot), monotonicity | 7 |
| C119 | Orbit from a time series file | TimeSeries | window invariant over call histories, uniqueness of the interpolating polynomial (C28) | 7 |
| C120 | Time series orbit: following the time and the end of the file | TimeSeries | window invariant over call histories, uniqueness of the interpolating polynomial (C28) | 4 |
| C121 | GNSS satellites from SP3 files | GnssSat | table of all files, window invariant over update histories, C28/C57 | 5 |
| C122 | SP3: file of the day and nearest epoch | GnssSat | table of all files, window invariant over update histories, C28/C57 | 5 |
| C123 | SP3 file reading | Sp3 | lines of text against the stream, induction over lines, satellites and epochs | 5 |
| C124 | SP3 files that are cut off or of another kind | Sp3 | lines of text against the stream, induction over lines, satellites and epochs | 5 |
| C125 | SGP4 has no memory | Sgp4 | a field-by-field invariant (what propagation never changes) for history independence; inversion of the monadic program into coefficient facts and refinement of a relational specification; Newton convergence from OeProofs; interval bounds by nra for ordinary orbits | 3 |
| C126 | SGP4 error codes | Sgp4 | a field-by-field invariant (what propagation never changes) for history independence; inversion of the monadic program into coefficient facts and refinement of a relational specification; Newton convergence from OeProofs; interval bounds by nra for ordinary orbits | 4 |
| C127 | SGP4 resonance integration | Sgp4 | a field-by-field invariant (what propagation never changes) for history independence; inversion of the monadic program into coefficient facts and refinement of a relational specification; Newton convergence from OeProofs; interval bounds by nra for ordinary orbits | 3 |
| C128 | SGP4 is the theory of Spacetrack Report No. 3 | Sgp4 | a field-by-field invariant (what propagation never changes) for history independence; inversion of the monadic program into coefficient facts and refinement of a relational specification; Newton convergence from OeProofs; interval bounds by nra for ordinary orbits | 3 |
| C129 | SGP4 solves Kepler's equation | Sgp4 | a field-by-field invariant (what propagation never changes) for history independence; inversion of the monadic program into coefficient facts and refinement of a relational specification; Newton convergence from OeProofs; interval bounds by nra for ordinary orbits | 2 |
| C130 | Ordinary low orbits never fail | Sgp4 | a field-by-field invariant (what propagation never changes) for history independence; inversion of the monadic program into coefficient facts and refinement of a relational specification; Newton convergence from OeProofs; interval bounds by nra for ordinary orbits | 3 |
| C131 | From two line elements to the orbit object | Sgp4 | a field-by-field invariant (what propagation never changes) for history independence; inversion of the monadic program into coefficient facts and refinement of a relational specification; Newton convergence from OeProofs; interval bounds by nra for ordinary orbits | 5 |
| C132 | Initial orbit from the settings file | Start | case analysis on the words; the constructors' theorems C63, C64, C66, C72, C74 | 7 |
| C133 | Initial attitude from the settings file | Start | case analysis on the words; the constructors' theorems C63, C64, C66, C72, C74 | 9 |
| C134 | I2C devices, GPIO lines and ticks of the on-board computer with C2A | C2a | every call expands to elementary bus operations; the table is the image of per-port bus histories; C07 gives the bytes | 11 |
| C135 | Telemetry frames stored for a HILS I2C host | HilsTarget | induction on the number of frames and on the inputs | 4 |
| C136 | Bias-SINEX files | Sinex | induction on the pieces of the file | 8 |
| C137 | ANTEX antenna files | Antex | induction on items, blocks and pieces of a file; nearest point from the half step bound | 7 |
| C138 | Grid of an antenna pattern | Antex | induction on items, blocks and pieces of a file; nearest point from the half step bound | 6 |
| C139 | Settings of one device do not influence another | CompInit | injectivity of the section names; then the theorems about the devices (C20, C75, C89, C95, C50, C106) are applied to what is built | 4 |
| C140 | Gyro and magnetometer from a settings file | CompInit | injectivity of the section names; then the theorems about the devices (C20, C75, C89, C95, C50, C106) are applied to what is built | 1 |
| C141 | Time step of devices from a settings file | CompInit | injectivity of the section names; then the theorems about the devices (C20, C75, C89, C95, C50, C106) are applied to what is built | 3 |
| C142 | Axis of a reaction wheel from a settings file | CompInit | injectivity of the section names; then the theorems about the devices (C20, C75, C89, C95, C50, C106) are applied to what is built | 2 |
| C143 | Star and sun sensor from a settings file | CompInit | injectivity of the section names; then the theorems about the devices (C20, C75, C89, C95, C50, C106) are applied to what is built | 3 |
| C144 | Magnetorquer and interference from a settings file | CompInit | injectivity of the section names; then the theorems about the devices (C20, C75, C89, C95, C50, C106) are applied to what is built | 3 |
| C145 | Mounting quaternions in settings files | CompInit | injectivity of the section names; then the theorems about the devices (C20, C75, C89, C95, C50, C106) are applied to what is built | 3 |
| C146 | Words, antennas and ideal components in settings files | CompInit | injectivity of the section names; then the theorems about the devices (C20, C75, C89, C95, C50, C106) are applied to what is built | 3 |
| C147 | Battery, solar panel and telescope from a settings file | CompInit | injectivity of the section names; then the theorems about the devices (C20, C75, C89, C95, C50, C106) are applied to what is built | 4 |
| C148 | Thermal model built from its CSV files | ThermalInit | row by row equivalence with a relational specification; composition with C33, C34, C45, C51 | 6 |
| C149 | Thermal model from files in use | ThermalInit | row by row equivalence with a relational specification; composition with C33, C34, C45, C51 | 7 |
| C150 | Celestial bodies from the settings file | EnvInit | inversion of the constructors, then C84, C85, C83, C79, C75, C14 | 4 |
| C151 | Local environment from the settings file | EnvInit | inversion of the constructors, then C84, C85, C83, C79, C75, C14 | 5 |
| C152 | Disturbances from the settings files | EnvInit | inversion of the constructors, then C84, C85, C83, C79, C75, C14 | 6 |
| C153 | Simulation time from the settings file | EnvInit | inversion of the constructors, then C84, C85, C83, C79, C75, C14 | 7 |
| C154 | Text of two line elements | Tle | symbolic evaluation of the repairs on the columns; scanning lemmas per field; composition with C131 | 6 |
| C155 | Which component routines run when in a run | SimRun | induction over the updates with the flag theorems of C13 and the step theorem C80 | 3 |
| C156 | What the rows of the log of a run show | SimRun | induction over the updates with the flag theorems of C13 and the step theorem C80 | 5 |
| C157 | The sample spacecraft | Sample | induction over the registration history; C139_power_port; C80 | 4 |
| C158 | Example serial device | SerialEx | refinement between the device with its buffers and two queues; induction over the history | 3 |
| C159 | Example serial sender and responder | SerialEx | refinement between the device with its buffers and two queues; induction over the history | 2 |
| C160 | Example I2C devices in a hardware in the loop simulation | I2cEx | refinement to a counter of missing frames; induction over the requests | 5 |
| C161 | Changing mass properties during a run | Change | the Runge-Kutta stages stay in the commutative algebra spanned by 1 and the axis; induction over the integration steps | 3 |
| C162 | Deep space satellites drift as the averaged Sun and Moon make them | Sgp4Deep | the terms of dscom are the derivatives of the averaged tidal potential: partial derivatives computed with derivable_pt_lim, Lagrange equations by field; means over a revolution by antiderivatives; inclination functions by ring against the triple sum of Kaula | 6 |
| C163 | Periodic effects of Sun and Moon on deep space satellites | Sgp4Deep | the terms of dscom are the derivatives of the averaged tidal potential: partial derivatives computed with derivable_pt_lim, Lagrange equations by field; means over a revolution by antiderivatives; inclination functions by ring against the triple sum of Kaula | 1 |
| C164 | Resonance terms of half-day and one-day satellites | Sgp4Deep | the terms of dscom are the derivatives of the averaged tidal potential: partial derivatives computed with derivable_pt_lim, Lagrange equations by field; means over a revolution by antiderivatives; inclination functions by ring against the triple sum of Kaula | 5 |
| C165 | When the deep space initialisation succeeds | Sgp4Deep | the terms of dscom are the derivatives of the averaged tidal potential: partial derivatives computed with derivable_pt_lim, Lagrange equations by field; means over a revolution by antiderivatives; inclination functions by ring against the triple sum of Kaula | 4 |
| C166 | The RK4 orbit depends on no choice of axes or length unit, keeps its plane, and is exact without gravity | RkOrbit | two runs in lock step under a relation kept by sums, multiples and the equation of motion; induction over steps and calls | 10 |
| C167 | Values before the first update | Initial | evaluation | 9 |
| C168 | Accuracy of the relative orbit with Runge-Kutta | RelRk | in complex coordinates of the ellipse and the cross-track oscillation a step multiplies by the Taylor polynomial of degree 4 of exp(-i n w); the error per step is bounded by (n w)^5/80 and the factors have size at most 1 | 5 |
| C169 | Accuracy of the attitude of a steadily turning body | Spin | turns about one axis and nutations are multiplied in each step by the Taylor polynomial of degree 4 of exp(-i x) (normalised for the quaternion); the exact solutions are unique because the norm of the difference of two solutions is constant | 2 |
| C170 | Free nutation of a body of revolution | Spin | turns about one axis and nutations are multiplied in each step by the Taylor polynomial of degree 4 of exp(-i x) (normalised for the quaternion); the exact solutions are unique because the norm of the difference of two solutions is constant | 3 |
| C171 | Bounds and order of the temperatures in a thermal network | Heat | a step moves each node by (exchange at the start of the step + mean load) h / C; the exchange is monotone in the other nodes, and with a mild step the node itself is, which gives a comparison principle with constant fields and between two runs, carried through the loops by induction | 5 |
| C172 | Integrators converge to the exact solution | Conv | tube argument: in a neighbourhood of the solution all stages are bounded, one step multiplies the error by 1 + h L and adds at most h^2 K, discrete Gronwall over any list of widths; only first order is claimed for the run (the order conditions are C30) | 4 |
| C173 | The RK4 orbit converges to the exact orbit | OrbConv | the pull of a point mass is Lipschitz with 7 mu / m^3 beyond the distance m; C172 for the list of widths that Propagate uses; the Kepler orbit is an exact motion by C63 | 3 |
| C174 | The attitude converges to the exact rigid-body motion | AttConv | the derivative is bilinear, so Lipschitz on bounded sets; every stage's quaternion rate is orthogonal to its quaternion, so a step changes the norm by at most 12 M^2 w^2 and normalising adds an error of second order per step; then the growth argument of C172, by induction over the steps of all calls | 2 |
| C175 | Log files and saved settings files on the disk | LogFile | induction over the history of calls: a logger owns its file (nobody else has it open, its position is the length), and files no logger has open stay; stamps have a fixed length, so paths are injective | 8 |

A theorem named `*_refuted` proves that the natural reading of a property fails in the code, with a witness; the statement in properties.jsonl then says what does hold, and the other theorems of the property prove that.

## Trusted base

* Coq 8.16.1's kernel and the OCaml runtime; `vm_compute` is used in places and is part of the kernel.
* The reading of the C++ source into `*Model.v` (no extraction, no translation validation).
* The specifications `*Spec.v` and the theorem statements.
* Libraries: Coq's standard library; Flocq for binary64 (C27), Coquelicot for derivatives and integrals in some
  proofs. Both add no axioms beyond those below.
* Axioms, exactly as `Print Assumptions` lists them (all of the standard library, those behind `Reals` and `Classical`).
  Classes used in the list below:
  * `-`: closed under the global context
  * `D`: `ClassicalDedekindReals.sig_forall_dec`
  * `N`: `ClassicalDedekindReals.sig_not_dec`
  * `F`: `FunctionalExtensionality.functional_extensionality_dep`
  * `C`: `Classical_Prop.classic`

Axioms of each theorem:

* C01: `C01_ring_buffer_is_queue` [-]
* C02: `C02_ring_buffer_lossless` [-], `C02_exact_fill_is_lossless_refuted` [-], `C02_size_zero_never_terminates` [-]
* C03: `C03_uart_directions_are_independent_queues` [-]
* C04: `C04_slip_round_trip` [-]
* C05: `C05_slip_frame_format` [-], `C05_slip_frames_unique` [-]
* C06: `C06_slip_decode_any_input` [-], `C06_slip_decode_with_header_any_input` [-], `C06_slip_decode_safe_refuted` [-]
* C07: `C07_i2c_register_file` [-]
* C08: `C08_obc_i2c_write_effect` [-], `C08_obc_i2c_read_effect` [-], `C08_obc_i2c_read_back_refuted` [-], `C08_obc_i2c_unknown_port_refuted` [-]
* C09: `C09_gpio_level_and_callbacks` [-], `C09_obc_gpio_history` [-]
* C10: `C10_set_voltage` [DF], `C10_off_draws_no_current` [DF], `C10_over_current_latches` [DF], `C10_consumption_non_negative` [DF], `C10_subtract_consumption` [DF], `C10_switch_state_defined` [DF], `C10_switch_state_initialised_refuted` [DF]
* C11: `C11_activation_count` [-], `C11_activation_times` [-], `C11_cadence_across_counter_wrap` [-], `C11_cadence_across_counter_wrap_refuted` [-]
* C12: `C12_clock_ticks_registered_components` [-], `C12_counter_initialised_refuted` [-]
* C13: `C13_flags_fire_every_k_steps` [DF], `C13_initial_flags` [DF], `C13_counters_bounded` [DF], `C13_double_rounding_refuted` [-]
* C14: `C14_main_loop_runs_until_end` [DF], `C14_number_of_updates` [DF], `C14_elapsed_and_finish` [DF], `C14_double_rounding_refuted` [-]
* C15: `C15_round_trip` [DF], `C15_posix_time` [DF], `C15_posix_time_from_2100_refuted` [DF], `C15_round_trip_from_epoch` [DF], `C15_rejected_dates` [DF], `C15_nonexistent_date_accepted_refuted` [DF]
* C16: `C16_comparisons` [DF], `C16_addition` [DF], `C16_half_plus_half_refuted` [DF], `C16_subtraction` [DF], `C16_subtraction_of_later_time_refuted` [DF], `C16_subtract_then_add` [DF]
* C17: `C17_week_and_elapsed` [DF], `C17_gps_epoch` [DF], `C17_round_trip` [DF], `C17_utc_is_18s_behind` [DF], `C17_before_gps_epoch_refuted` [DF]
* C18: `C18_long_overflow` [-], `C18_never_overflows` [-], `C18_minimal_standard` [-], `C18_huge_seed_first_draw_refuted` [DF], `C18_outputs_in_unit_interval` [DF], `C18_full_period` [-], `C18_bad_seeds` [-]
* C19: `C19_no_shuffle_refuted` [DF], `C19_position_always_zero` [DF]
* C20: `C20_output_within_range` [DF], `C20_regimes` [DF], `C20_noise_bounded` [DF]
* C21: `C21_columns_aligned` [-], `C21_whole_run` [-], `C21_disabled_logger_silent` [-], `C21_registration` [-], `C21_flag_change_aligned_refuted` [-], `C21_vector_header` [-], `C21_matrix_header` [-], `C21_matrix_index_unambiguous` [-], `C21_matrix_names_distinct_refuted` [-]
* C22: `C22_enabled_runs_total` [-], `C22_disabled_runs_once` [-], `C22_constructor` [-], `C22_ini_number_of_cases` [-], `C22_negative_executions_refuted` [-], `C22_log_files_distinct` [-], `C22_save_log` [-]
* C23: `C23_registry_history` [-], `C23_duplicate_throws` [-], `C23_names_with_dots_refuted` [-], `C23_ini_names` [-], `C23_ini_names_dot_free` [-], `C23_unchanged` [DNF], `C23_quaternion_unchanged_refuted` [DNF], `C23_randomize_all` [DNCF], `C23_randomize_all_no_throw` [DNCF], `C23_getters` [DNF], `C23_object_list` [-], `C23_object_duplicate_throws` [-], `C23_name_order` [-]
* C24: `C24_inverse_correct` [DF], `C24_throws_iff_singular` [DF], `C24_solve` [DF]
* C25: `C25_product_is_hamilton` [DF], `C25_product_associative` [DF], `C25_norms_multiply` [DF], `C25_conjugate_is_inverse` [DF], `C25_product_with_vector` [DF], `C25_frame_conversion_is_dcm` [DF], `C25_inverse_conversion_undoes` [DF], `C25_frame_conversion_preserves` [DNF], `C25_product_composes` [DF], `C25_normalize` [DNF]
* C26: `C26_dcm_is_rotation` [DF], `C26_from_dcm_of_rotation` [DNF], `C26_round_trip` [DNF], `C26_double_cover` [DF]
* C27: `C27_wrap_correct` [DNF], `C27_wrap_terminates` [DNF], `C27_top_included` [DNF], `C27_double_wrap_never_ends_refuted` [DNCF]
* C28: `C28_interpolating_polynomial` [DF], `C28_exact_on_polynomials` [DF], `C28_returns_samples` [DF], `C28_bad_data_is_undefined` [DF]
* C29: `C29_nearest` [DF], `C29_window` [DF], `C29_accepts_iff_later` [DF], `C29_order_invariant` [DF]
* C30: `C30_order_conditions` [DF], `C30_consistent` [DF], `C30_step` [DNF], `C30_time` [DNF], `C30_exact_on_polynomial_solutions` [DNF], `C30_linear_equations` [DNF], `C30_two_implementations_agree` [DF]
* C31: `C31_satellite_numbering` [-], `C31_satellite_numbers_distinct` [-], `C31_number_not_range_checked` [-], `C31_injective_on_numbers_refuted` [-], `C31_other_inputs` [-]
* C32: `C32_merge_and_parse` [-], `C32_increment_is_next_day` [-], `C32_gregorian_1901_2099` [-], `C32_gregorian_2100_refuted` [-], `C32_product_files_cover_every_day` [-], `C32_file_names_distinct` [-], `C32_file_name_format` [-]
* C33: `C33_heater_hysteresis` [DF], `C33_heaters_follow_their_nodes` [DF], `C33_unknown_heater_is_ub` [D]
* C34: `C34_interpolation` [DF], `C34_lookup_in_bounds` [DF], `C34_stuck_in_last_segment` [DF], `C34_periodic_repetition_refuted` [DF], `C34_single_point_is_ub` [DF]
* C35: `C35_obc_uart_channels` [-]
* C36: `C36_receive_command_offset_zero` [-], `C36_receive_command_in_bounds_refuted` [-], `C36_receive_command_rejects_too_large` [-], `C36_receive_command_size_check_refuted` [-], `C36_send_telemetry` [-], `C36_send_telemetry_in_bounds_refuted` [-]
* C37: `C37_integer_argument` [-], `C37_any_text` [-], `C37_out_of_range_rejected_refuted` [-], `C37_raw_writes_nothing` [-]
* C38: `C38_lines_then_EOL` [-], `C38_cleaning_unambiguous` [-], `C38_EOL_means_end_refuted` [-]
* C39: `C39_depth_of_discharge` [DF], `C39_dod_unbounded_refuted` [DF], `C39_uninitialised_current_refuted` [DF], `C39_charge_current_rule` [DNF], `C39_charge_power_available` [DNF], `C39_overload_charges_battery_refuted` [DNF]
* C40: `C40_registry_refines_map` [-], `C40_port_lifetime` [-], `C40_get_unconnected` [-], `C40_connect_port` [D], `C40_connect_port_limit` [DF]
* C41: `C41_endian_copy_reverses` [-], `C41_endian_copy_twice_is_identity` [-], `C41_endian_copy_zero_length_refuted` [-]
* C42: `C42_quantization` [DF], `C42_dead_band` [DF]
* C43: `C43_scenario_lookup` [DF], `C43_short_row_refuted` [DF], `C43_reinitialise_merges` [DF]
* C44: `C44_hils_ports` [-], `C44_register_read_back` [-], `C44_register_wrap_refuted` [-], `C44_send` [-], `C44_receive` [-]
* C45: `C45_str_vector` [-], `C45_absent_key` [-], `C45_indexed_keys_distinct` [-], `C45_plain_value` [-], `C45_inline_comment` [-], `C45_settings_macro` [-], `C45_value_with_slashes_refuted` [-], `C45_enable` [-], `C45_vectors` [-], `C45_split` [-], `C45_split_of_joined` [-], `C45_csv_with_header` [-], `C45_csv_cells` [-], `C45_csv` [-], `C45_quaternion` [DF]
* C46: `C46_progress_cadence` [DF], `C46_progress_every_step` [DF]
* C47: `C47_normal_always_delivers` [DNCF], `C47_box_muller_pair` [DNCF], `C47_stuck_seed_hangs_refuted` [DNCF], `C47_reseed_keeps_old_value_refuted` [DNCF]
* C48: `C48_global_seeds_are_good` [DF], `C48_global_seed_multiple_refuted` [DF]
* C49: `C49_random_walk_bounded` [DF], `C49_random_walk_with_generator` [DNCF]
* C50: `C50_solar_panel_power` [DNF]
* C51: `C51_step_energy` [DF], `C51_exchange_conserves_energy` [DF], `C51_propagate_energy` [DF], `C51_propagate_time` [DF], `C51_disabled_or_bad_step` [DF], `C51_isothermal_equilibrium` [DF], `C51_step_is_euler` [DF], `C51_fourth_order_refuted` [DF]
* C52: `C52_command_line` [-], `C52_comment_lines` [-], `C52_database` [-], `C52_malformed_line_safe_refuted` [-]
* C53: `C53_schedule` [DF], `C53_wait_calls_defined` [DF], `C53_disabled` [DF], `C53_wait_line` [D], `C53_real_time_command` [-], `C53_time_line_command` [-], `C53_unknown_command_not_sent_refuted` [-], `C53_blank_line_safe_refuted` [D], `C53_long_arguments_safe_refuted` [-], `C53_wait_unit` [D]
* C54: `C54_axis_angle` [DNF], `C54_axis_not_normalized` [DNF], `C54_two_vectors` [DNCF], `C54_two_vectors_error` [DNCF], `C54_orthogonal_unit_vector` [DNF]
* C55: `C55_elementary_rotations` [DNF], `C55_elementary_rotations_add` [DNF], `C55_from_euler` [DNF], `C55_euler_round_trip` [DNCF], `C55_quaternion_round_trip` [DNCF], `C55_euler_range` [DNCF], `C55_gimbal_lock_refuted` [DNCF]
* C56: `C56_polar` [DNCF]
* C57: `C57_exact_on_trigonometric_polynomials` [DNF], `C57_returns_samples` [DNF]
* C58: `C58_push_results` [DF], `C58_orbit_polynomial_exact` [DF], `C58_not_ready_refuted` [DF]
* C59: `C59_dense_output` [DNF], `C59_interpolation_ends` [DNF], `C59_interpolation_after_control_refuted` [DNF], `C59_rk4_does_not_interpolate` [DF], `C59_step_width` [DNCF], `C59_zero_error_refuted` [DNCF], `C59_controlled_error` [DNCF]
* C60: `C60_class_columns` [-], `C60_any_log_aligned` [-], `C60_ground_station_names_distinct_refuted` [-]
* C61: `C61_cartesian_uniform` [DNCF], `C61_cartesian_normal` [DNCF], `C61_circular` [DNCF], `C61_spherical_uniform` [DNCF], `C61_spherical_normal` [DNCF], `C61_quaternion_normal` [DNCF], `C61_quaternion_uniform_unit` [DNCF], `C61_first_conversion_is_double_angle` [DF], `C61_quaternion_uniform_direction_refuted` [DF], `C61_quaternion_values` [DNCF], `C61_spherical_normal_azimuth` [DNF]
* C62: `C62_kepler_equation_solvable` [DNCF], `C62_newton_residual` [DNCF], `C62_newton_small_eccentricity` [DNCF], `C62_newton_early_exit_refuted` [DNCF], `C62_first_order_residual` [DNCF]
* C63: `C63_two_body` [DNCF], `C63_anomaly_exists` [DNF], `C63_invariants` [DNF], `C63_position_accuracy` [DNCF], `C63_calc_orbit_terminates` [DNF]
* C64: `C64_round_trip` [DNCF], `C64_node_wrong_side` [DNCF], `C64_node_quadrant_refuted` [DNCF]
* C65: `C65_stm_solves_hill` [DNCF], `C65_stm_only_solution` [DNCF], `C65_stm_composition` [DNF], `C65_system_matrix` [DF], `C65_rk4_step_taylor` [DF]
* C66: `C66_lvlh_frame` [DNF], `C66_relative_position` [DNF], `C66_stm_mode` [DNF], `C66_relative_velocity_refuted` [DNCF]
* C67: `C67_difference_equation` [DNF], `C67_unperturbed_stays_on_orbit` [DNCF], `C67_rectification_advances_refuted` [DNCF]
* C68: `C68_propagation_steps` [DF], `C68_propagation_terminates` [DF], `C68_rk4_equation` [DNF], `C68_acceleration_sum` [DF], `C68_velocity_in_body_frame` [DNF]
* C69: `C69_unit_or_zero` [DNF], `C69_unit_when_resolved` [DNF], `C69_propagate_unit` [DNF]
* C70: `C70_kinematics` [DNCF]
* C71: `C71_euler_equation` [DF], `C71_momentum` [DNCF], `C71_energy` [DNCF], `C71_reported_norm` [DNF]
* C72: `C72_propagate` [DNF], `C72_new` [DNF], `C72_inputs` [D], `C72_outcome` [DNF], `C72_steady_spin` [DNF]
* C73: `C73_coupled_equations` [DF], `C73_constructor` [DNF], `C73_propagate` [DNF], `C73_outcome` [DNF], `C73_last_step_is_full` [DNF], `C73_end_time_refuted` [DNF]
* C74: `C74_pointing` [DNF], `C74_new` [DNF], `C74_accepted` [DNF], `C74_zero_directions_accepted` [DNF], `C74_inertial_sub_mode_reads_unassigned` [DNF], `C74_idle` [DNF], `C74_rate` [DNF], `C74_torque` [DNF], `C74_rate_sign_refuted` [DNF]
* C75: `C75_totals_sum_held_values` [DF], `C75_refresh_or_hold` [D], `C75_attitude_dependent` [-], `C75_installed` [-]
* C76: `C76_is_the_differential_torque` [DNCF], `C76_gradient_exists` [DNCF], `C76_torque_properties` [DNF]
* C77: `C77_radiation_force` [DNF], `C77_pushes_away` [DNF], `C77_in_the_dark` [DNF]
* C78: `C78_drag_force` [DNF], `C78_speed_ratio` [DNF], `C78_speed_ratio_units` [DNF], `C78_error_function` [DNCF], `C78_drag_resists` [DNCF], `C78_no_wind` [DNF], `C78_flow_speed` [DNF]
* C79: `C79_third_bodies` [DNF], `C79_third_body_settings` [-], `C79_magnetic_torque` [DF], `C79_moment_bounded` [DF], `C79_own_parameters_refuted` [DF]
* C80: `C80_one_step` [DF], `C80_no_memory` [DF], `C80_unpropagated_step` [DF]
* C81: `C81_surfaces_up_to_first_error` [DNF], `C81_normals` [DNF], `C81_every_valid_surface_refuted` [DNF], `C81_inertia_rows` [-]
* C82: `C82_solar_load` [DF], `C82_view_factor_range` [DNCF], `C82_view_factor_low` [DNCF], `C82_view_factor_high` [DNCF], `C82_continuous_in_altitude_refuted` [DNCF], `C82_infrared_load` [DNCF], `C82_albedo_load` [DNCF], `C82_no_albedo_at_night_refuted` [DNCF], `C82_parameters` [DF]
* C83: `C83_one_source` [DNCF], `C83_exact_cover_is_nan` [DNCF], `C83_any_sources` [DNCF], `C83_never_brighter_refuted` [DNCF], `C83_sources` [-], `C83_every_configured_source_refuted` [-], `C83_pressure` [DNF]
* C84: `C84_ephemeris` [D], `C84_seen_from_spacecraft` [DNF], `C84_new` [D], `C84_new_zero` [D], `C84_between` [D], `C84_by_number` [D], `C84_unselected_is_first` [D], `C84_only_selected_bodies_refuted` [D], `C84_unknown_name` [D], `C84_logged_velocity` [DF], `C84_rate_of_seen_position` [DF], `C84_velocity_when_right` [DF], `C84_velocity_refuted` [DF]
* C85: `C85_flags` [DNCF], `C85_disabled` [DNCF], `C85_not_earth` [DNCF], `C85_albedo_infrared` [DNCF], `C85_field` [DNCF], `C85_sunlight_now` [DNCF], `C85_present_sunlight_refuted` [DNCF], `C85_own_noise_refuted` [DF]
* C86: `C86_simple_positive` [DNF], `C86_simple_rows` [DNCF], `C86_published_harris_priester` [DF], `C86_published_exponential` [DNF], `C86_published_350km_refuted` [DNF], `C86_simple_falls_refuted` [DNCF], `C86_simple_density_at_every_altitude_refuted` [DNF], `C86_harris_priester` [DNCF], `C86_harris_priester_falls` [DNCF], `C86_tables` [DNCF], `C86_harris_priester_outside` [DNCF], `C86_harris_priester_continues_refuted` [DNCF], `C86_same_place_same_density_refuted` [DNCF], `C86_stored_without_noise` [DNCF], `C86_settings` [DF]
* C87: `C87_momentum_conservation` [DNF], `C87_reported_momentum` [DNF], `C87_axis` [DF], `C87_command_saturation` [DNF], `C87_dead_time` [DF], `C87_command_response` [DNF], `C87_constant_command` [DF], `C87_speed_limit` [DNF], `C87_limit_setting` [DNF], `C87_beyond_the_limit` [DNF], `C87_coasting_step` [DNF], `C87_coasting_stops` [DNF], `C87_unpowered_wheel_is_frozen` [DNF], `C87_restart` [DNF], `C87_documented_friction_law_refuted` [DNF], `C87_rest_is_kept_without_stop_limit_refuted` [DNCF]
* C88: `C88_harmonics` [DNF], `C88_radial_and_bounded` [DNF], `C88_filtered` [DNF], `C88_filter_stable` [DNF], `C88_filter_unit_gain` [DNF], `C88_resonance_gain` [DNF], `C88_output_torque` [DF], `C88_wheels_share_the_last_jitter` [DNF], `C88_single_wheel` [DNF], `C88_own_jitter_per_wheel_refuted` [DNF]
* C89: `C89_commanded_step` [DF], `C89_torque_geometry` [DNF], `C89_ideal` [DF], `C89_power_off` [DF]
* C90: `C90_held_command_bias` [DF], `C90_held_command_scale` [DF], `C90_held_command_constant_refuted` [DF]
* C91: `C91_interference_does_not_accumulate` [DF], `C91_set_bias_under_interference` [DF], `C91_three_axis_sensors` [DNF]
* C92: `C92_output` [DNCF], `C92_delay_kept_iff` [-], `C92_undelayed_outputs` [DF], `C92_constant_delay_refuted` [DF], `C92_seconds` [DF]
* C93: `C93_noise` [DNF]
* C94: `C94_error_flag` [DNCF], `C94_earth_clear` [DNCF], `C94_no_error_clear_of_earth_refuted` [DNCF]
* C95: `C95_illuminance` [DNCF], `C95_detection` [DNCF], `C95_output` [DNCF], `C95_accuracy` [DNCF], `C95_noisy_angles` [DNCF], `C95_detected_means_lit_refuted` [DNCF]
* C96: `C96_terminates` [DNCF], `C96_to_ecef` [DNF], `C96_round_trip` [DNCF], `C96_accuracy` [DNCF], `C96_local_frame` [DNF], `C96_update_frame` [DNCF], `C96_polar_altitude_refuted` [DNCF], `C96_polar_altitude` [DNCF]
* C97: `C97_simple_antenna` [DNCF], `C97_cone_antenna` [DNCF], `C97_clear_above` [DNF], `C97_received_clear_refuted` [DNCF], `C97_channels` [DNCF]
* C98: `C98_measurement` [DNCF], `C98_held` [DNCF], `C98_gps_time` [DF], `C98_fallback` [-]
* C99: `C99_thrust_history` [DNF], `C99_thrust_bounds` [DNF], `C99_torque_and_off` [DNF], `C99_direction_error` [DNF]
* C100: `C100_exact` [DNF], `C100_frames` [DNF], `C100_off` [DNF], `C100_noise` [DNF], `C100_magnitude_refuted` [DNF]
* C101: `C101_orbit_observer` [DNF], `C101_attitude_observer` [DNF]
* C102: `C102_elevation` [DNCF], `C102_line_of_sight` [DNF], `C102_flags` [DNF], `C102_inertial_position` [DNF]
* C103: `C103_gain` [DF], `C103_inclusive_grid` [DF], `C103_default_and_negative` [DNF]
* C104: `C104_friis` [DNCF], `C104_bitrate` [DNCF], `C104_no_link` [DNCF], `C104_pointing` [DNCF], `C104_pointing_refuted` [DNCF]
* C105: `C105_update` [DNF], `C105_update_throws` [DNF], `C105_registration` [D], `C105_consistency` [DNF], `C105_rtn_velocity` [DNF], `C105_attitude` [DNF], `C105_attitude_refuted` [DNF]
* C106: `C106_construction` [DNF], `C106_forbidden` [DNCF], `C106_position` [DNCF], `C106_within_field_of_view_refuted` [DNCF], `C106_star_list` [DNCF], `C106_star_position` [DNCF], `C106_ground_position` [DNCF], `C106_ground_mark_refuted` [DNCF], `C106_ground_point` [DNF]
* C107: `C107_catalogue` [DF], `C107_sorted` [DF], `C107_directions` [DNCF]
* C108: `C108_julian_date` [DF], `C108_julian_date_1970` [DF], `C108_utc_clock` [DF], `C108_round_trip` [DF], `C108_valid_date_refuted` [DF], `C108_logged_seconds` [DF]
* C109: `C109_decimal_year` [DF], `C109_decimal_year_integer_part_refuted` [DF], `C109_decimal_year_increasing_refuted` [DF], `C109_month_day` [-], `C109_date` [DF], `C109_date_round_trip` [DF], `C109_weather_day` [DF], `C109_day_of_year` [DF], `C109_rows_kept` [DF], `C109_seconds_of_day_refuted` [DF], `C109_weather_same_day_refuted` [DF], `C109_weather_row` [DF], `C109_monthly_from` [DF], `C109_monthly_from_unknown` [DF]
* C110: `C110_sidereal_time` [DNF], `C110_sidereal_rate` [DNF], `C110_rotation_and_history` [DNF], `C110_simple_mode` [DNF], `C110_full_mode_order` [DNF], `C110_iau_series` [DNF], `C110_full_close_to_simple` [DNCF], `C110_mode_words` [-]
* C111: `C111_moon_simple` [DNCF], `C111_fixed_axes` [DNF], `C111_other_modes` [DNF], `C111_moon_not_selected` [DNF]
* C112: `C112_acceleration_is_gradient` [DNF], `C112_potential_in_spherical_coordinates` [DNF], `C112_low_degree` [DNF], `C112_missing_coefficient` [DNF]
* C113: `C113_partial_derivatives` [DNF]
* C114: `C114_geopotential` [DNF], `C114_without_file` [DNF], `C114_degree_is_limited_refuted` [DNF]
* C115: `C115_lunar_field` [DNF], `C115_update_refuted` [-], `C115_construction_failures` [D]
* C116: `C116_field` [DNCF], `C116_history` [DNCF], `C116_angle_factor` [DNCF]
* C117: `C117_bad_file` [DNCF], `C117_degree_19` [DNCF], `C117_interval_refuted` [DNCF], `C117_axial_dipole_refuted` [DNCF]
* C118: `C118_width` [DNF], `C118_width_grows` [DNF], `C118_power` [DNCF], `C118_total_power` [DNCF], `C118_profile` [DNCF], `C118_setters` [DNF], `C118_new` [D]
* C119: `C119_construction` [DNF], `C119_fewer_than_two_points` [DNF], `C119_history` [DNF], `C119_disabled` [DNF], `C119_exact_on_polynomial_motion` [DNF], `C119_returns_rows` [DNF], `C119_returns_rows_trigonometric` [DNF]
* C120: `C120_tracking` [DF], `C120_end_of_file_refuted` [DNF], `C120_window_follows_refuted` [DF], `C120_late_start` [DNF]
* C121: `C121_initialisation` [DNF], `C121_history` [DNF], `C121_tracking` [DF], `C121_returns_samples` [DNF], `C121_exact` [DNF]
* C122: `C122_missing_entry` [DF], `C122_nearest_epoch` [DF], `C122_file_of_the_day` [DF], `C122_centred_window_refuted` [DNF], `C122_end_of_files_refuted` [DNF]
* C123: `C123_position_line` [D], `C123_velocity_line` [-], `C123_blank_velocity_deviation_refuted` [-], `C123_trimmed_line` [D], `C123_reads_position_file` [D]
* C124: `C124_no_file` [D], `C124_cut_file_repeats_line_refuted` [D], `C124_cut_header_hangs_refuted` [D], `C124_single_epoch_refuted` [D], `C124_velocity_file_refuted` [D]
* C125: `C125_history` [DNCF], `C125_object_history` [DNCF], `C125_disabled` [-]
* C126: `C126_codes` [DNCF], `C126_initial_code` [DNCF], `C126_position_always_given_refuted` [DNCF], `C126_object_without_position` [DNCF]
* C127: `C127_resonance` [DNF], `C127_no_resonance` [DNF], `C127_ends` [DNCF]
* C128: `C128_spacetrack_report_3` [DNCF], `C128_report_determined` [DNCF], `C128_constants` [DNF]
* C129: `C129_kepler_accurate` [DNCF], `C129_newton` [DNCF]
* C130: `C130_initialises` [DNCF], `C130_drag_free` [DNCF], `C130_node_drift` [DNCF]
* C131: `C131_year` [-], `C131_epoch` [DF], `C131_orbit_object` [DNCF], `C131_unknown_setting` [DNCF], `C131_construction` [DNCF]
* C132: `C132_kind` [DNCF], `C132_given_state` [DNCF], `C132_elements_state` [DNCF], `C132_kepler_from_state` [DNCF], `C132_relative` [DNCF], `C132_same_start_refuted` [DNCF], `C132_section_refuted` [DNCF]
* C133: `C133_control_words` [-], `C133_other_words` [-], `C133_kind` [DNF], `C133_manual` [DNF], `C133_controlled_start` [DNF], `C133_controlled_start_idle` [DNF], `C133_controlled_propagation` [DNF], `C133_manual_total` [DNF], `C133_unit_refuted` [DNF]
* C134: `C134_histories` [-], `C134_component_read_back` [-], `C134_flight_software_reads` [-], `C134_flight_software_writes` [-], `C134_command` [-], `C134_connect` [-], `C134_destroy_refuted` [-], `C134_own_ports_refuted` [-], `C134_wrap_refuted` [-], `C134_main_routine` [-], `C134_gpio_lines` [-]
* C135: `C135_store` [-], `C135_unconnected_refuted` [-], `C135_cycle` [-], `C135_starved_refuted` [-]
* C136: `C136_file` [D], `C136_words` [-], `C136_slope_refuted` [D], `C136_slope_sd_refuted` [D], `C136_unended_section` [D], `C136_unended_data` [D], `C136_short_row` [D], `C136_unopened` [-]
* C137: `C137_file` [DF], `C137_access` [D], `C137_unopened` [-], `C137_unended` [DF], `C137_unreadable` [DF], `C137_receiver_serial_refuted` [DF], `C137_comment_refuted` [DF]
* C138: `C138_number_of_points` [DF], `C138_closest_zenith` [DF], `C138_index_in_range_refuted` [DF], `C138_closest_azimuth` [DF], `C138_azimuth_of_files_refuted` [DF], `C138_zero_step` [DF]
* C139: `C139_isolation` [DNCF], `C139_own_sections` [DNCF], `C139_wheels_do_not_leak` [DNCF], `C139_power_port` [DF]
* C140: `C140_three_axis_sensors` [DNF]
* C141: `C141_time_step` [DNCF], `C141_thruster_step` [DNCF], `C141_thruster_time_step_refuted` [DNCF]
* C142: `C142_wheel_axis` [DNCF], `C142_wheel_values` [DNCF]
* C143: `C143_star_sensor` [DNCF], `C143_sun_sensor` [DNCF], `C143_sun_full_field_of_view_refuted` [DNCF]
* C144: `C144_missing_scale_factor` [DF], `C144_ideal_magnetorquer` [DF], `C144_interference` [DF]
* C145: `C145_quaternion_keys` [DF], `C145_not_normalised` [DNF], `C145_no_mounting_blind` [DNF]
* C146: `C146_words` [DF], `C146_antenna` [DNCF], `C146_ideal_components` [DNF]
* C147: `C147_battery` [DF], `C147_solar_panel` [DNF], `C147_solar_panel_without_sun_refuted` [-], `C147_telescope` [DNF]
* C148: `C148_built_iff_described` [DNF], `C148_disabled` [-], `C148_failure` [DNF], `C148_missing_file_is_ub` [DNF], `C148_ids_ignored` [DNF], `C148_loads_belong_to_the_named_node_refuted` [DNF]
* C149: `C149_heat_input` [DNF], `C149_symmetric_files_conserve_energy` [DNF], `C149_internal_load` [DNF], `C149_heater_of_node` [DNF], `C149_unit_normal` [DNF], `C149_accepted_model_is_safe_refuted` [DNF], `C149_diffusive_unit_normal_refuted` [DNF]
* C150: `C150_bodies` [DNCF], `C150_outcome` [DNCF], `C150_found_by_name` [DNCF], `C150_rotation_modes` [DNCF]
* C151: `C151_switched_off` [DNCF], `C151_albedo_infrared` [DNCF], `C151_shadow_sources` [-], `C151_negative_sources` [-], `C151_solar_activity` [DF]
* C152: `C152_totals` [DF], `C152_third_bodies` [DNCF], `C152_third_body_abort` [-], `C152_center_is_no_third_body_refuted` [DNCF], `C152_earth_by_any_name_refuted` [DNCF], `C152_drag_temperatures` [DF]
* C153: `C153_date` [-], `C153_wrong_separator` [DF], `C153_accepted` [DF], `C153_component_rate` [DF], `C153_run` [DF], `C153_accepted_simulation_ends_refuted` [DF], `C153_positive_integration_step_refuted` [DF]
* C154: `C154_numbers` [DF], `C154_orbit` [DNCF], `C154_letter_in_catalogue` [DNCF], `C154_rest_ignored` [DF], `C154_wrong_lines_rejected_refuted` [DF], `C154_mean_motion_columns_refuted` [DF]
* C155: `C155_routines_called` [DF], `C155_count` [DF], `C155_main_routine_times` [DF]
* C156: `C156_rows` [DF], `C156_attitude` [DF], `C156_orbit` [DF], `C156_environment` [DF], `C156_attitude_of_the_row_refuted` [DF]
* C157: `C157_registered` [-], `C157_power` [DF], `C157_shared_power_refuted` [DF], `C157_forces_and_torques` [DF]
* C158: `C158_serial_device` [-], `C158_one_command_at_a_time` [-], `C158_every_command_refuted` [-]
* C159: `C159_sender` [-], `C159_responder` [-]
* C160: `C160_frames` [-], `C160_steady` [-], `C160_first_frames_refuted` [-], `C160_two_requests_refuted` [-], `C160_controller` [-]
* C161: `C161_inertia_change` [DNF], `C161_example_structure` [DF], `C161_example_spin` [DNF]
* C162: `C162_single_average` [DNCF], `C162_double_average` [DNCF], `C162_means_unique` [DNCF], `C162_secular` [DNCF], `C162_circular` [DNCF], `C162_rates_unique` [DNF]
* C163: `C163_periodic` [DNCF]
* C164: `C164_class` [DNCF], `C164_half_day` [DNCF], `C164_one_day` [DNCF], `C164_resonant_terms` [DF], `C164_epoch` [DNCF]
* C165: `C165_total` [DNCF], `C165_ends` [DNCF], `C165_frame` [DNCF], `C165_initial_code` [DNCF]
* C166: `C166_new` [D], `C166_propagate` [DNF], `C166_disabled` [-], `C166_terminates` [DNF], `C166_nonpositive_step_hangs` [DNF], `C166_any_axes` [DNF], `C166_any_length_unit` [DNF], `C166_stays_in_plane` [DNF], `C166_exact_without_gravity` [DNF], `C166_grid_calls` [DNF]
* C167: `C167_power_port` [DF], `C167_battery` [DF], `C167_sun_sensor` [D], `C167_magnetorquer` [D], `C167_gnss_receiver` [DNF], `C167_i2c_target` [-], `C167_telescope` [D], `C167_relative_information` [D], `C167_environment` [DF]
* C168: `C168_centre_exact` [DNF], `C168_damping` [DNF], `C168_never_grows` [DNCF], `C168_accuracy` [DNCF], `C168_any_step_width_refuted` [DNF]
* C169: `C169_steady_spin_accuracy` [DNCF], `C169_exact_is_the_motion` [DF]
* C170: `C170_spin_and_damping` [DNF], `C170_accuracy` [DNCF], `C170_any_step_width_refuted` [DNF]
* C171: `C171_temperature_bounds` [DF], `C171_no_load_no_extremes` [DF], `C171_ordered` [DF], `C171_step_factor` [DF], `C171_every_step_width_refuted` [DF]
* C172: `C172_integrators_converge` [DNCF], `C172_fixed_width` [DNF], `C172_control_changes_the_width_only` [DNCF], `C172_ode_class_converges` [DNCF]
* C173: `C173_rk4_orbit_converges` [DNCF], `C173_kepler_orbit` [DNCF], `C173_below_a_microsecond` [DNF]
* C174: `C174_rk4_attitude_converges` [DNCF], `C174_any_accuracy` [DNCF]
* C175: `C175_own_file` [-], `C175_files_differ` [-], `C175_log_kept_refuted` [-], `C175_existing_files_kept` [-], `C175_saved_files` [-], `C175_all_settings_saved_refuted` [-], `C175_switched_off` [-], `C175_from_settings_file` [-]

## Not modelled at all

* external libraries: SPICE, NRLMSISE-00's numerical model, nlohmann json/INIReader parsing, C2A flight software, boost; where the code calls them their results are arbitrary values or functions
* the operating system: files are their contents, serial ports / HILS devices / wall clock / directory creation are not modelled
* threads: the simulator is single threaded apart from HILS, which is not modelled
* floating point rounding, NaN propagation and overflow except where a theorem says binary64 (C13/C14, C27); a division by zero or an acos/asin/sqrt/log argument outside the real domain is either excluded by a hypothesis, an explicit outcome, or stated as a finding
* int overflow except where modelled as wrap-around (RNG, encodings, sizes)

## Findings in the code (each is behind a theorem or a stated failure case)

* Logger flags changing after the header was written misalign the columns; matrix header "(ij)" is ambiguous from 12x12 on; ground station position columns share names; RelativeInformation log ids 0..size-1; Logger::is_directory_created_ is never set true
* negative number_of_executions wraps around; Monte-Carlo keys with dots are ambiguous; GetRandomizedQuaternion normalizes even for NoRandomization; CalcQuaternionUniform doubles the angle
* Kepler's equation: the Newton loop can exit early; orbital elements from position/velocity: RAAN by asin loses the quadrant; Encke rectification bug and stale satellite/reference positions; relative orbit velocity lacks omega x r; time-series orbit reads one sample beyond the table
* MagneticDisturbance and GeomagneticField use static locals shared by all spacecraft
* ControlledAttitude: torque uses the inverse inertia with reversed sign, rate sign flip, zero rate after the first call at time 0, sub-mode inertial reads an uninitialised vector, zero target directions are accepted
* AttitudeRk4 Propagate with end == current time gives NaN; cantilever SetState misuse and stale inverse tensors
* heat-load index wrap-around is dead code; InitSurfaces silently drops remaining surfaces and leaves short normals unnormalised
* AirDrag speed ratio off by sqrt(1000 N_A) and uses the wall temperature; forces/torques generated in steps without propagation are lost
* albedo half-angle; view-factor jump at 1732 km; shadow coefficient of an annular eclipse; shadow delta is the exterior angle; NaN when the source covers the Sun exactly; third_shadow_source list[0]
* body-frame velocity of celestial bodies mixes frames; an unselected body name returns body 0, an unknown name reads an uninitialised id, id == n reads out of bounds; the CelestialInformation copy constructor leaves rotation pointers uninitialised (LunarGravityField::Update uses such a copy)
* LocalEnvironment celestial information is stale on orbit-only steps; atmosphere: zero density from 1000 km, jump up at 400 km, Harris-Priester units/UB/frames, noise not stored
* NRLMSISE date off by one (Dec 31 never used), a table updated in December is read out of bounds; decimal year is one day ahead; space-weather date up to a day off and time of day up to 18 h off; UTC seconds -0.864 us on Dec 31, 32 December in the last 0.864 us of years 3 mod 4
* reaction wheel: a static jitter object shared by all wheels of InitReactionWheel, friction polynomial starts at power 0, initial momentum reported zero, power-off freezes reported torque and speed, zero stop limit spins up a wheel at rest, negative speed limit acts as a set point, lag state survives drive-off, jitter couple has the opposite sign of the reported force
* magnetorquer stores the noisy output over the command (bias/scale accumulate while a command is held); SetConstantBiasNoise under MTQ interference loses the old interference at the next update
* star sensor: delay-buffer wrap-around resolved to the last entry, never delayed for a step > 2 s, output_delay 0 s becomes one step, error flag not delayed, Earth half-angle uses atan instead of asin
* sun sensor judges detection with the previous measurement's illuminance; the Sun behind is mirrored to the front for half angles above 90 deg
* geodetic altitude on the polar axis is wrong; GNSS receiver: same-hemisphere satellites always visible, GPS time without leap seconds, channel latitude range, channel list not updated by the simple model, dates a week or more before the GPS epoch are UB
* thruster delay is floor(dead/step)+1 calls, noise keyed to the undelayed duty, duty not clamped, direction error reduced for thrusters with an x component, power-off freezes the delay state; force/torque generator error axis not normalised
* antenna pattern grid spacing max/n, negative phi clipped to 0; GroundStationCalculator composes quaternions in the wrong order, downlink_bitrate unused, incompatible antennas give 0 dBHz rather than no link; RelativeInformation attitude quaternion composed in the wrong order, emplace keeps the first registration, Update throws unless ids are 0..n-1
* telescope field of view used as a half angle on each side, odd pixel counts, ground position sticky, empty catalogue out of bounds; Hipparcos reader stores an uninitialised star at a trailing newline
* EarthRotation dcm_teme_to_ecef_ is never updated (always identity), TT offset without leap seconds; Moon not selected takes body 0's rotation mode and SIMPLE then yields a zero matrix
* Geopotential/LunarGravityField clamp degree_ but pass the unclamped degree; LunarGravityField constructor reads uninitialised radius/mu without a file or for degree <= 1
* IGRF: interval chosen only at the first call, maxod check off by one and reads an uninitialised element (a pure axial dipole table may give a zero field), a degree-19 file reads out of bounds, pi with 11 decimals, field inexact within 1.5e-7 rad of the axis
* time-series orbit: the last half window of the file is never interpolated (the last row is reported too early), then the table is read out of bounds; the window moves one row per call, so steps longer than the row spacing make it fall behind and extrapolate; a start after the end puts the window at the beginning; after 1e6 s the last row is reported even inside the file
* GnssSatellites: satellite index equal to the count passes the check and reads out of bounds; window not taken from the previous day's file; the next file is read out of bounds five epochs before the end of the last file; zero positions 1e6 s after the start
* SP3 reader: velocity files never recognised (line[3] instead of line[2] is compared with V); a file cut after a position line copies that line to the remaining satellites; a file cut inside "+ " or "/*" lines loops for ever; a single-epoch file reads epoch_[1] out of bounds; lines trimmed inside the optional columns throw
* SGP4: error code 4 (semi-latus rectum negative) is always overwritten by 6 and then r and v are not written, but Sgp4OrbitPropagation::Propagate copies them (uninitialised read; reachable from ordinary elements propagated far back with drag); code 5 of sgp4init is lost at the first propagation; error codes are only printed; a wgs setting other than 0, 1, 2 leaves gravity_constant_setting_ uninitialised; nm <= 0 gives NaN although code 2 was meant
* simple air density model: the base density of the 350-400 km band is 9.158e-12 kg/m3, the published table has 9.518e-12 (digits swapped; the published value joins the band below continuously)
* InitOrbit: InitializePosVel is not given the section argument, so RK4 and Encke orbits of another section silently use [ORBIT]; initialize_mode DEFAULT (or a misspelt word) means position/velocity for RK4 and ENCKE but orbital elements for KEPLER; RELATIVE with a reference spacecraft constructed later throws out_of_range although the comment says a temporary orbit is made
* InitAttitude: the initial quaternion is not normalised; with propagate_mode CONTROLLED the initialize_mode CONTROLLED has no effect (the temporary pointing solution is thrown away); the temporary ControlledAttitude is leaked and stays registered under the attitude's Monte-Carlo name
* ObcWithC2a: the port maps are static, so two on-board computers share ports with the same id; I2cTargetCommunicationWithObc's destructor closes the whole I2C port, so other devices on the bus dereference a null pointer afterwards; register addresses wrap modulo 256 in bulk accesses
* StoreTelemetry returns 0 although nothing was stored when the selected register leaves no room for the frame or the port is not connected
* Bias-SINEX reader: the standard deviation field is read 12 columns wide instead of 11, so the slope is read one column late (its first character is lost) and the slope's standard deviation is never read; sections without end never let the reader return; the satellite number and times have no getter
* ANTEX reader: a receiver antenna whose serial number begins with G, R, E, C, J or I and no number ends the reading with an exception; a comment mentioning NOAZI inside a frequency block is read as variation data; blocks without end never let the reader return; the azimuth step is never read, so CalcClosestAzimuthIndex of any grid from a file divides by zero; with a step that does not divide the range CalcClosestZenithIndex returns an index past the grid
* InitSimpleThruster takes the time step from step_width_s of the file instead of prescaler x component step, so dead time and lag of the thruster are wrong by that ratio if the two differ
* InitSunSensor passes field_of_view_deg as the half angle of detection: the detected cone is twice the field of view
* Power ports of all components of a file read the one section POWER_PORT: two components cannot have different minimum voltages or powers
* InitMagnetorquer does not replace a missing scale factor by the identity (ReadSensorInformation does): such a magnetorquer is silently without output
* ReadQuaternion returns the zero quaternion for a missing key and never normalises: a component without quaternion_b2c sees nothing, a non-unit one scales its readings
* InitSAP without local celestial information builds a panel whose MainRoutine dereferences an uninitialised pointer when no scenario is used
* InitTemperature checks only the length of the first row of cij.csv and rij.csv: a shorter later row is read out of bounds at the first step
* InitTemperature ignores the node ids of heatload.csv, node.csv and heaters.csv: everything goes by row position
* InitNode treats a node type other than 0, 1, 2 as diffusive but does not normalise its normal vector, so its solar load is scaled by the length; a negative heater id becomes a huge index
* InitHeatload accepts a single time column, whose first use reads beyond the table; a missing CSV file makes InitTemperature iterate from begin()+1 of an empty vector
* InitCelestialInformation reads selected_body_name with strncpy into 30 characters: a longer name has no terminator
* names of bodies are compared as texts: center_object "Earth" switches the Earth's field, air and geopotential off, and a center object EARTH can also be the third body "Earth"
* AssertTimeStepParams accepts a simulation step of 0 (missing key), with which the main loop never ends, and integration steps of 0, with which the attitude propagation never ends
* SimulationTime's constructor does not look at sscanf's result: a start time in another format is computed from uninitialised members
* component_propagate_frequency_Hz is int(1/period): 0 for periods above 1 s, and undefined for a period of 0, which is converted before the assertions are checked
* InitAirDrag adds 273.0, not 273.15, to degrees Celsius
* twoline2rv does not look at sscanf's result: a catalogue number above 99999 in the letter notation leaves all elements uninitialised
* twoline2rv checks neither check digits nor that the two lines belong to the same satellite; a mean motion padded with two blanks takes in the first digit of the revolution number
* a log row is written before the update: with attitude (orbit) and log periods of the same k >= 2 steps every row pairs its time with an attitude (orbit) one step old, because the propagation counters start at 1 and the log counter at 0
* in the sample spacecraft seven devices share power port 2; each Init function overwrites its settings, so only the thruster's file counts; telescope_ and main_logger_ are never deleted
* ExampleSerialCommunicationWithObc::GenerateTelemetry returns sizeof(tx_buffer_), the size of a std::vector object (24), not the 100 bytes it has filled
* ExampleSerialCommunicationWithObc reads five bytes for four-byte commands: a second command queued between two activations is cut and lost, and so are those after it until the queue empties
* ExampleI2cTargetForHils: WriteRegister moves the selected register, so unless a request is waiting the first three frames stored in the converter are the fifth letter and four zeros; two requests between activations are taken for a register write and never answered
* ExampleChangeStructure accesses surfaces[0] without checking that there is one
* Logger::is_directory_created_ is never set, so every log makes its own directory logs_TIME; the file name has a resolution of one second, so a simulation begun in the same second as another one with the same log name empties its log
* settings files are saved by file name only: the second of two files with the same name in different directories is not saved; a logger that is switched off (Monte Carlo without log history) saves them into the working directory
