{"id": "C01", "title": "Ring buffer is a queue for every history", "statement": "After any sequence of Write(data) and Read(n) calls on a ring buffer of size S>=1, the bytes a Read returns are those of a queue: Read(n) returns the first min(n, unread) unread bytes in the order written and reports that count; Write keeps exactly the last ((unread + length) mod S) bytes of (unread bytes followed by the written ones). Nothing else is ever returned.", "quantifier": "every buffer size S>=1, every byte content, every finite sequence of Write/Read calls of any length", "why_tests_cant": "the pointers wrap around at every multiple of S, so correctness depends on all alignments of the history; a test samples a few", "anchors": ["src/utilities/ring_buffer.cpp:RingBuffer::Write", "src/utilities/ring_buffer.cpp:RingBuffer::Read"]}
{"id": "C02", "title": "Ring buffer loses nothing below capacity; overflow is silent", "statement": "If before each Write unread + length < S then no byte is ever lost, duplicated or reordered. A Write that makes unread + length reach exactly S (e.g. filling the advertised buffer size) silently empties the buffer, so the full advertised capacity is not usable.", "quantifier": "every size S>=1 and every history respecting (or reaching) the bound", "why_tests_cant": "needs all histories; the failing case is a single boundary length", "anchors": ["src/utilities/ring_buffer.cpp:RingBuffer::Write", "src/utilities/ring_buffer.cpp:RingBuffer::Read"]}
{"id": "C03", "title": "UART directions are independent FIFOs", "statement": "For a UART port, bytes written on the TX side are read back only from the TX side in order and likewise RX; operations on one direction never change what the other direction returns; a requested buffer size of 0 behaves as 1024.", "quantifier": "every interleaving of the four port operations, all data, all buffer sizes", "why_tests_cant": "all interleavings of two streams", "anchors": ["src/components/ports/uart_port.cpp:UartPort"]}
{"id": "C04", "title": "SLIP encoding round-trips", "statement": "Decoding the SLIP encoding of any byte string returns the byte string (for the forms with and without leading delimiter), without ever reading outside the vector.", "quantifier": "every byte string of any length", "why_tests_cant": "escape sequences can be adjacent to each other, to the end of the string or to literal escape codes in every combination", "anchors": ["src/utilities/slip.cpp:encode_slip", "src/utilities/slip.cpp:decode_slip", "src/utilities/slip.cpp:encode_slip_with_header", "src/utilities/slip.cpp:decode_slip_with_header"]}
{"id": "C05", "title": "SLIP frames are self-delimiting", "statement": "An encoded frame contains the delimiter 0xC0 exactly once, at its end (with header: exactly at the first and last position); hence decoding any stream that starts with an encoded frame returns that frame's payload whatever bytes follow. Length of the frame is len + (number of 0xC0 or 0xDB bytes) + 1 (+1 with header).", "quantifier": "every payload and every following byte stream", "why_tests_cant": "depends on all payload contents", "anchors": ["src/utilities/slip.cpp:encode_slip", "src/utilities/slip.cpp:decode_slip"]}
{"id": "C06", "title": "SLIP decoding of arbitrary bytes", "statement": "On an arbitrary received byte string the decoder never reads outside the string. (Violated: when the first frame ends in a lone 0xDB, or the headered decoder is given an empty string, it dereferences the end iterator; the model proves these are the only inputs for which it does so and gives the exact result on all others.)", "quantifier": "every byte string (not only encoder outputs)", "why_tests_cant": "the input is adversarial: any bytes may arrive", "anchors": ["src/utilities/slip.cpp:decode_slip", "src/utilities/slip.cpp:decode_slip_with_header"]}
{"id": "C07", "title": "I2C port is a register file with an auto-incrementing pointer", "statement": "For every history of register/command operations a register read returns the value of the last write to that (device, register) pair, or 0; accesses to registers >= max_register read 0 and change nothing; pointer reads advance the pointer by one and wrap to 0 at max_register; a 1-byte write command only moves the pointer, a 2-byte command writes one register.", "quantifier": "all operation histories over all 256x256 addresses, every max_register", "why_tests_cant": "history dependent state with a pointer shared by all devices", "anchors": ["src/components/ports/i2c_port.cpp:I2cPort"]}
{"id": "C08", "title": "OBC I2C register bulk access round-trips", "statement": "What a component writes to registers r..r+n-1 through the OBC's I2cComponentWriteRegister is what I2cComponentReadRegister with the same arguments returns. (Violated by the code: the read passes device and register address in swapped order and the write stores every byte in the same register.)", "quantifier": "all ports, device addresses, registers, data", "why_tests_cant": "values agree accidentally for small symmetric cases", "anchors": ["src/components/real/cdh/on_board_computer.cpp:I2cComponentReadRegister", "src/components/real/cdh/on_board_computer.cpp:I2cComponentWriteRegister"]}
{"id": "C09", "title": "GPIO port", "statement": "DigitalRead returns the last DigitalWrite (LOW initially) and the component callback is invoked exactly at changes of level, once per change, in order.", "quantifier": "every sequence of writes", "why_tests_cant": "all histories", "anchors": ["src/components/ports/gpio_port.cpp:GpioPort"]}
{"id": "C10", "title": "Power port state is consistent", "statement": "After any sequence of SetVoltage/SetAssumedPowerConsumption/SetMinimumVoltage/AddAssumed/SubtractAssumed calls: the port is on only if the voltage is at least the minimum voltage (minus epsilon); while it is off the current is 0; while it is on current*voltage equals the assumed power consumption and the current is below the limit; an over-current forces voltage 0 and the port stays off until the voltage is set again; subtracting consumption never makes it negative.", "quantifier": "every call sequence and all real parameters", "why_tests_cant": "all histories of a latching state machine", "anchors": ["src/components/ports/power_port.cpp:PowerPort::Update", "src/components/ports/power_port.cpp:PowerPort::SetVoltage", "src/components/ports/power_port.cpp:PowerPort::SubtractAssumedPowerConsumption_W"]}
{"id": "C11", "title": "Component scheduling by prescaler", "statement": "With prescaler p (0 is taken as 1) and count values passed consecutively, the main routine (or, when the power port is off, the power-off routine) runs exactly at the counts divisible by p: over any n consecutive counts from 0 it runs ceil(n/p) times; the main routine never runs while power is off.", "quantifier": "every prescaler, every count sequence, every power history", "why_tests_cant": "unbounded schedule", "anchors": ["src/components/base/component.cpp:Component::Tick", "src/components/base/component.cpp:Component::FastTick"]}
{"id": "C12", "title": "Clock generator ticks every registered component once per step, in registration order", "statement": "For any sequence of register/remove/tick operations each tick calls every currently registered component exactly once per registration in registration order with the current timer count, and the count then advances by one; removing a component removes its oldest registration only; components are not ticked when the update flag is off.", "quantifier": "every operation sequence", "why_tests_cant": "all histories", "anchors": ["src/environment/global/clock_generator.cpp:ClockGenerator"]}
{"id": "C13", "title": "Simulation time update flags fire at the configured interval", "statement": "With a step of s and an update interval of k*s (k>=1), the attitude/orbit/thermal/component update flags are raised on exactly one step in every k consecutive steps: the first after k-1 steps and then every k steps; the log flag is raised initially and then on every k-th step, whatever the wall clock does. (Exact arithmetic. With the double comparison counter*step >= interval the code really performs, e.g. step=0.3, interval=0.9 fires every fourth instead of every third step.)", "quantifier": "all step counts, every k", "why_tests_cant": "unbounded number of steps; phase depends on initial counters", "anchors": ["src/environment/global/simulation_time.cpp:SimulationTime::UpdateTime"]}
{"id": "C14", "title": "Simulation ends when the end time is passed", "statement": "The simulation finishes after the first step whose elapsed time exceeds the end time, and never before; with exact arithmetic and end = n*step this is step n+1. (With the double accumulation the code really performs the count may be different; the model exhibits step=0.1, end=0.3.)", "quantifier": "all step/end values, all histories", "why_tests_cant": "unbounded loop; floating rounding", "anchors": ["src/environment/global/simulation_time.cpp:SimulationTime::UpdateTime", "src/environment/global/simulation_time.cpp:SimulationTime::InitializeState"]}
{"id": "C15", "title": "DateTime <-> EpochTime round trip", "statement": "For every valid civil date-time with 1970<=year<=2099 converting to EpochTime and back returns the same date-time, and the epoch seconds equal the proleptic Gregorian POSIX time. Outside (from 2100-03-01) the result is off by a day.", "quantifier": "every valid date-time in the range", "why_tests_cant": "more than four billion seconds", "anchors": ["src/math_physics/time_system/epoch_time.cpp:EpochTime", "src/math_physics/time_system/date_time_format.cpp:DateTime"]}
{"id": "C16", "title": "EpochTime arithmetic is exact and ordered", "statement": "For normalised times (fraction in [0,1)): ordering is a total order agreeing with the represented instant; subtraction of a smaller time then re-adding gives the original; results stay normalised. (Violated in one boundary case: fractions summing to exactly 1 yield a fraction of 1.)", "quantifier": "all pairs of times", "why_tests_cant": "unbounded integers and reals, boundary case", "anchors": ["src/math_physics/time_system/epoch_time.cpp:EpochTime::operator+", "src/math_physics/time_system/epoch_time.cpp:EpochTime::operator-", "src/math_physics/time_system/epoch_time.cpp:EpochTime::operator=="]}
{"id": "C17", "title": "GPS time conversion", "statement": "For every instant (in the GPS time scale) not before 1980-01-06 the week and elapsed seconds satisfy 0<=elapsed<604800 and week*604800+elapsed = instant - GPS epoch; building a GpsTime from week and elapsed seconds and reading them back is the identity; the UTC date is the one 18 s earlier. For earlier instants the unsigned subtraction wraps and the week number is astronomically large.", "quantifier": "every normalised instant, every week number below 2^44, every elapsed time", "why_tests_cant": "billions of seconds", "anchors": ["src/math_physics/time_system/gps_time.cpp:GpsTime"]}
{"id": "C18", "title": "Minimal standard generator", "statement": "For any non-zero seed that is not a multiple of 2^31-1 the generator yields x' = 16807*x mod (2^31-1), never overflows 64-bit, never returns 0 after start, outputs lie in (0,1), and the sequence has full period 2^31-2: no state repeats earlier. Seeds that are multiples of 2^31-1 get stuck at 0; seed 0 is rejected.", "quantifier": "every 64-bit seed, every number of draws", "why_tests_cant": "period is two billion; seeds are 2^64", "anchors": ["src/math_physics/randomization/minimal_standard_linear_congruential_generator.cpp:MinimalStandardLcg"]}
{"id": "C19", "title": "Shuffled generator really shuffles", "statement": "The Bays-Durham shuffle selects the table slot from the generator output. (Violated: the cast truncates the output to 0 before scaling, so the slot is always 0; the output stream is the plain generator stream delayed.)", "quantifier": "every seed, every number of draws", "why_tests_cant": "statistical tests with few draws pass", "anchors": ["src/math_physics/randomization/minimal_standard_linear_congruential_generator_with_shuffle.cpp:MinimalStandardLcgWithShuffle"]}
{"id": "C20", "title": "Sensor range handling", "statement": "Measured output of a sensor with range check is clipped into [-limit, +limit] in every axis and equals the unclipped value when inside; invalid range settings never produce output outside the configured range.", "quantifier": "all measured vectors, all range settings, all dimensions", "why_tests_cant": "infinite domain, boundary", "anchors": ["src/components/base/sensor_template_functions.hpp:Sensor<N>::Clip", "src/components/base/sensor_template_functions.hpp:Sensor<N>::RangeCheck"]}
{"id": "C21", "title": "Log header and values always have the same columns", "statement": "Whatever set of loggables is registered and enabled, every value row has exactly as many comma separated columns as the header row and the i-th value belongs to the i-th header name; disabled loggables contribute neither; this needs the enable flags not to change after the header (a counterexample is proved otherwise). A disabled logger writes nothing. Vector headers have distinct names for every length, matrix headers for up to ten columns (from 12x12 on two entries share a name).", "quantifier": "every registration list, every enable pattern, all values", "why_tests_cant": "all lists of loggables", "anchors": ["src/logger/logger.cpp:Logger::WriteHeaders", "src/logger/logger.cpp:Logger::WriteValues", "src/logger/log_utility.hpp:WriteScalar"]}
{"id": "C22", "title": "Monte-Carlo executor runs the configured number of cases", "statement": "The loop while WillExecuteNextCase: run a case; AtTheEndOfEachCase runs exactly N cases, numbered 0..N-1, when Monte-Carlo is enabled with total N >= 0, and exactly one case when it is disabled; afterwards WillExecuteNextCase stays false. The constructor enables Monte-Carlo exactly when N > 1; from the ini file N is number_of_executions, and a negative value k silently becomes 2^64+k. The log file names of different cases differ; logs are saved when Monte-Carlo is disabled or log_enable is set.", "quantifier": "every total number of executions, flag combination and ini entry list", "why_tests_cant": "unbounded N, interplay of the two flags", "anchors": ["src/simulation/monte_carlo_simulation/monte_carlo_simulation_executor.cpp:MonteCarloSimulationExecutor", "src/simulation/monte_carlo_simulation/initialize_monte_carlo_simulation.cpp:InitMonteCarloSimulation"]}
{"id": "C23", "title": "Monte-Carlo parameters and simulation-object registries", "statement": "After any history of additions (object names without dots, which is what the ini reader produces), a lookup finds exactly the first configuration added for that object and parameter; adding a registered name throws and changes nothing. A variable is left unchanged if Monte-Carlo is disabled, nothing was added for it, or its type is NoRandomization (except that a quaternion is then normalized). RandomizeAllParameters changes no name or configuration and gives each parameter the number of values of its kind; the getters return the first values if there are enough and throw otherwise. After any history of constructions and destructions the object list holds exactly the live objects, no name twice, and SetAllParameters reaches each once. Names containing dots can collide.", "quantifier": "every sequence of additions, randomizations, constructions, destructions", "why_tests_cant": "all histories", "anchors": ["src/simulation/monte_carlo_simulation/simulation_object.cpp:SimulationObject", "src/simulation/monte_carlo_simulation/monte_carlo_simulation_executor.hpp:GetInitializedMonteCarloParameterDouble"]}
{"id": "C24", "title": "Matrix inversion and linear solve are correct for every size", "statement": "For every N and every real NxN matrix A: CalcInverseMatrix either returns B with A*B = B*A = I or throws, and it throws only if A is singular; SolveLinearSystemWithLu returns x with A*x = b.", "quantifier": "every dimension N, every real matrix and right-hand side", "why_tests_cant": "infinite domain; pivoting order is data dependent", "anchors": ["src/math_physics/math/matrix_vector_template_functions.hpp:LuDecomposition", "src/math_physics/math/matrix_vector_template_functions.hpp:SolveLinearSystemWithLu", "src/math_physics/math/matrix_vector_template_functions.hpp:CalcInverseMatrix"]}
{"id": "C25", "title": "Quaternion algebra and frame conversion", "statement": "For every unit quaternion q and vector v: FrameConversion(q,v) = ConvertToDcm(q)*v, preserves dot products and orientation, InverseFrameConversion undoes it; the product of quaternions corresponds to the product of rotations; norms multiply; product is associative.", "quantifier": "all real quaternions/vectors", "why_tests_cant": "infinite domain", "anchors": ["src/math_physics/math/quaternion.cpp:Quaternion"]}
{"id": "C26", "title": "DCM <-> quaternion round trip", "statement": "ConvertToDcm of a unit quaternion is a proper rotation matrix (orthogonal, det 1) and ConvertFromDcm(ConvertToDcm(q)) is q or -q for every unit q, through all four branches.", "quantifier": "all unit quaternions", "why_tests_cant": "branch selection and degenerate components", "anchors": ["src/math_physics/math/quaternion.cpp:Quaternion::ConvertToDcm", "src/math_physics/math/quaternion.cpp:Quaternion::ConvertFromDcm"]}
{"id": "C27", "title": "Angle wrapping", "statement": "WrapTo2Pi returns an angle congruent to its argument modulo 2*pi lying in [0, 2*pi], for every real argument, and terminates; the range is closed (2*pi itself is returned unchanged, not as 0); with doubles the loop never terminates for 2^60, where x - 2*pi rounds to x.", "quantifier": "all real angles (and the double counterexample)", "why_tests_cant": "unbounded loop count", "anchors": ["src/math_physics/math/s2e_math.cpp:WrapTo2Pi"]}
{"id": "C28", "title": "Polynomial interpolation is exact", "statement": "Interpolation::CalcPolynomial with distinct abscissae returns the value of the unique interpolating polynomial of degree < n: it reproduces every polynomial of degree < n exactly and returns the node value at nodes, for every n. With no data, or fewer values than abscissae, the call is undefined behaviour.", "quantifier": "every number of nodes, every distinct node set, every query", "why_tests_cant": "infinite domain, recursion over degree", "anchors": ["src/math_physics/math/interpolation.cpp:Interpolation::CalcPolynomial"]}
{"id": "C29", "title": "Interpolation data window", "statement": "PushAndPopData accepts only data later than the newest one and keeps the window length and strict ordering for every sequence of pushes; FindNearestPoint returns the index of a nearest node.", "quantifier": "every push sequence, every query", "why_tests_cant": "all histories", "anchors": ["src/math_physics/math/interpolation.cpp:Interpolation::PushAndPopData", "src/math_physics/math/interpolation.cpp:Interpolation::FindNearestPoint"]}
{"id": "C30", "title": "Runge-Kutta integrators have their advertised order", "statement": "Integrate performs one step of the explicit Runge-Kutta method of its table. The tables satisfy the row-sum condition and all order conditions (every rooted tree) up to order 4 (RK4, lower-order weights of RKF and DP5, not 5) and 5 (the higher-order weights used by RKF and DP5). Any number of steps of any width follow exactly every solution that is a polynomial of degree <= order when the right-hand side depends on time only; on x' = A x of any dimension the step agrees with the Taylor polynomial of exp(hA) to the order. Time advances by the step width, the old state is remembered, the embedded error estimate is the norm of the difference of the two solutions. OrdinaryDifferentialEquation::Update gives the same result as RungeKutta4.", "quantifier": "every step width, start state, dimension", "why_tests_cant": "continuum of inputs; a wrong digit in a table is invisible in tolerance tests", "anchors": ["src/math_physics/numerical_integration/runge_kutta_template.hpp:RungeKutta<N>::Integrate", "src/math_physics/numerical_integration/runge_kutta_4.hpp", "src/math_physics/numerical_integration/runge_kutta_fehlberg.hpp", "src/math_physics/numerical_integration/dormand_prince_5.hpp"]}
{"id": "C31", "title": "GNSS satellite numbering is a bijection", "statement": "Every index < total maps to a satellite id string whose conversion gives the index back; distinct ids in range map to distinct indices; ids with unknown constellation give UINT32_MAX.", "quantifier": "all indices/ids", "why_tests_cant": "boundaries between constellations", "anchors": ["src/math_physics/gnss/gnss_satellite_number.cpp"]}
{"id": "C32", "title": "IGS product names and day-of-year arithmetic", "statement": "MergeYearDoy/PerseYear/PerseDoy are mutually inverse and IncrementYearDoy is the calendar successor for every day between 1901 and 2099.", "quantifier": "every year/day", "why_tests_cant": "boundaries at year ends and leap years", "anchors": ["src/math_physics/gnss/igs_product_name_handling.hpp"]}
{"id": "C33", "title": "Heater controller hysteresis", "statement": "For any temperature history the heater is switched on only below the lower threshold and off only above the upper threshold and keeps its state in between; thresholds are ordered after construction.", "quantifier": "every temperature sequence", "why_tests_cant": "all histories", "anchors": ["src/dynamics/thermal/heater_controller.cpp", "src/dynamics/thermal/heater.cpp"]}
{"id": "C34", "title": "Heat-load profile lookup", "statement": "For a profile of at least two points with increasing times from 0, the internal heat load is the linear interpolation at elapsed time modulo the period as long as no earlier query was later within the period (in particular during the whole first period), and no history of queries reads out of bounds or loops. After a query in the last segment the load is for ever the extrapolation of that segment (the profile does not repeat); a single-point profile reads out of bounds.", "quantifier": "every profile, every sequence of elapsed times", "why_tests_cant": "all histories, period wrap-around", "anchors": ["src/dynamics/thermal/heatload.cpp:Heatload::SetElapsedTime_s", "src/dynamics/thermal/heatload.cpp:Heatload::CalcInternalHeatload"]}
{"id": "C35", "title": "OBC communication port registry", "statement": "Connecting a used port id fails with -1 and changes nothing, closing an unused one fails with -1; data sent by the OBC on a port is received by the component on the same port only, in order; operations on an unconnected port return -1.", "quantifier": "every operation history over every port id", "why_tests_cant": "all histories", "anchors": ["src/components/real/cdh/on_board_computer.cpp:OnBoardComputer"]}
{"id": "C36", "title": "UART command reception stays inside its buffers", "statement": "ReceiveCommand never writes outside the receive buffer and SendTelemetry never reads outside the transmit buffer for any offset/length. (Violated: the buffer is shrunk to rec_size and then written at offset; the telemetry check uses the wrong size.)", "quantifier": "all offsets, lengths, buffer sizes, received counts", "why_tests_cant": "memory safety for all arguments", "anchors": ["src/components/base/uart_communication_with_obc.cpp:ReceiveCommand", "src/components/base/uart_communication_with_obc.cpp:SendTelemetry"]}
{"id": "C37", "title": "Command argument encoding is big-endian two's complement", "statement": "DecodeC2aCommandArgument writes for each integer type exactly its width in bytes, most significant first, so that re-reading them (two's complement for signed types) gives the argument when it is in the type's range and the parsed number modulo 2^(8*width) otherwise; unparsable text throws. Out-of-range numbers are NOT rejected (256 as uint8 is sent as 0); raw arguments write nothing.", "quantifier": "all argument values and types", "why_tests_cant": "all integer values", "anchors": ["src/setting_file_reader/c2a_command_database.cpp:DecodeC2aCommandArgument"]}
{"id": "C38", "title": "WINGS operation file parsing", "statement": "GetLatestLine returns, in order, exactly the lines of the file that are longer than two characters after removing one leading '.', one leading blank and everything from '#', then EOL forever. (A file line that is literally EOL is indistinguishable from the end.)", "quantifier": "every file contents, every number of calls", "why_tests_cant": "all files", "anchors": ["src/setting_file_reader/wings_operation_file.cpp:WingsOperationFile"]}
{"id": "C39", "title": "Battery and power control conserve charge bookkeeping", "statement": "Depth of discharge changes by exactly current*dt/capacity per step and is therefore the integral of the current for every history; the PCU's charge current selection follows its constant-current/constant-voltage rule.", "quantifier": "every current history", "why_tests_cant": "all histories", "anchors": ["src/components/real/power/battery.cpp", "src/components/real/power/pcu_initial_study.cpp"]}
{"id": "C40", "title": "Power control unit port registry", "statement": "ConnectPort refuses ids in use, ClosePort refuses ids not in use, GetPowerPort returns a port exactly for connected ids, for every history.", "quantifier": "every operation history", "why_tests_cant": "all histories", "anchors": ["src/components/real/power/power_control_unit.cpp"]}
{"id": "C41", "title": "Endian copy", "statement": "endian_memcpy of n>=1 bytes on a little-endian host writes exactly n bytes, reversed; applying it twice restores the original. (For n = 0 it nevertheless copies one byte.)", "quantifier": "every length and content", "why_tests_cant": "boundary length 0", "anchors": ["src/utilities/endian.cpp:endian_memcpy"]}
{"id": "C42", "title": "Quantization error bound", "statement": "quantization(x, r) is an integer multiple of r, has magnitude <= |x|, and differs from x by less than r whenever |x/r| < 2^31; outside it is undefined behaviour.", "quantifier": "every real x, every resolution r > 0", "why_tests_cant": "infinite domain, sign asymmetry", "anchors": ["src/utilities/quantization.cpp:quantization"]}
{"id": "C43", "title": "CSV scenario lookup", "statement": "The scenario value at time t is the value of the latest entry not later than t; querying before the first entry steps before the beginning of the map.", "quantifier": "every scenario map and query", "why_tests_cant": "boundary at both ends", "anchors": ["src/components/real/power/csv_scenario_interface.cpp:GetValueFromBuffer"]}
{"id": "C44", "title": "HILS port registry", "statement": "A HILS UART/I2C port id can be opened once, used while open, closed once; operations on ids that are not open fail and change nothing, for every history.", "quantifier": "every operation history", "why_tests_cant": "all histories", "anchors": ["src/simulation/hils/hils_port_manager.cpp"]}
{"id": "C45", "title": "Settings-file values, vectors, enable flags and CSV", "statement": "ReadStrVector terminates for every file with fewer than 2^32 entries and returns exactly the values key(0), key(1), ... up to the first that is missing or reads NULL. ReadString returns a value without comment and macros unchanged, removes an inline // comment with the blanks before it and substitutes the directory macros (a value containing // such as a URL is cut there). ReadEnable is true exactly for ENABLE or 1. ReadVector* element i is entry key(i). ReadQuaternion uses the key_(i) entries iff one of them is non-zero. Split returns delimiter-free fields whose re-joining gives back the input except for one trailing delimiter. The CSV readers return cell (i+row_header, j+column_header) at (i,j).", "quantifier": "every file, key, string, header size", "why_tests_cant": "all files and strings", "anchors": ["src/setting_file_reader/initialize_file_access.cpp"]}
{"id": "C46", "title": "Progress display cadence", "statement": "With display period P = end/step/100: for P<=1 progress is output on every step; for P>=1 first on step ceil(P) and then every floor(P) steps, for every number of steps.", "quantifier": "every display period, every number of steps", "why_tests_cant": "unbounded schedule, fractional period", "anchors": ["src/environment/global/simulation_time.cpp:SimulationTime::UpdateTime"]}
{"id": "C47", "title": "Normal random numbers", "statement": "A NormalRand with any seed that is not a multiple of 2^31-1 always delivers (its rejection loop ends from every reachable state), every value lies within 8.5 standard deviations of the average, and consecutive values are Box-Muller pairs. A seed that is a non-zero multiple of 2^31-1 makes the first draw hang; re-seeding does not discard the value held back from the previous seed, so the first value after re-seeding can be independent of the seed.", "quantifier": "every 64-bit seed, every number of draws, every average and deviation", "why_tests_cant": "termination of a rejection loop for 2^64 seeds", "anchors": ["src/math_physics/randomization/normal_randomization.cpp:NormalRand", "src/math_physics/randomization/normal_randomization.hpp:SetParameters"]}
{"id": "C48", "title": "Global seed generation", "statement": "However many seeds are requested from the global randomization (default state or any SetSeed value of moderate size that is not a multiple of 2^31-1), every seed handed out is non-zero and not a multiple of 2^31-1, hence acceptable for every generator. After SetSeed with a multiple of 2^31-1 all seeds handed out are such multiples.", "quantifier": "every base seed, every number of requests", "why_tests_cant": "two billion states", "anchors": ["src/math_physics/randomization/global_randomization.cpp:GlobalRandomization::MakeSeed"]}
{"id": "C49", "title": "Random walk stays near its limit", "statement": "A RandomWalk never exceeds its limit by more than step_width times the largest random number drawn (8.5 standard deviations for the generator used), in every axis, after any number of updates.", "quantifier": "every number of updates, every axis, every sequence of random numbers", "why_tests_cant": "unbounded number of random steps", "anchors": ["src/math_physics/randomization/random_walk_template_functions.hpp:RandomWalk<N>::DerivativeFunction", "src/math_physics/math/ordinary_differential_equation_template_functions.hpp:OrdinaryDifferentialEquation<N>::Update"]}
{"id": "C50", "title": "Solar array panel power", "statement": "Generated power is never negative, never exceeds efficiency times incident power on the full area, is exactly zero when the sun is behind the panel, and otherwise proportional to the cosine of the sun angle.", "quantifier": "every panel, every sun position", "why_tests_cant": "all real inputs", "anchors": ["src/components/real/power/solar_array_panel.cpp:SolarArrayPanel::MainRoutine"]}
{"id": "C51", "title": "Thermal network bookkeeping", "statement": "Temperature::Propagate with a positive step terminates and lands exactly on the requested time; boundary nodes keep their temperature; each step gives every diffusive node step times (heat exchange at the start-of-step temperatures + Simpson mean of its load); with symmetric matrices exchange creates no energy, so with constant loads the stored energy grows by exactly load times elapsed time for every sub-step division; an isothermal unloaded network stays isothermal; disabled networks do nothing; a non-positive step never terminates. The step is NOT fourth order: the Runge-Kutta stage temperatures are ignored and the step is explicit Euler.", "quantifier": "every network size, matrices, loads, step and end time", "why_tests_cant": "unbounded sizes and step counts, all real inputs", "anchors": ["src/dynamics/thermal/temperature.cpp:Temperature::Propagate", "src/dynamics/thermal/temperature.cpp:Temperature::CalcRungeOneStep", "src/dynamics/thermal/temperature.cpp:Temperature::CalcTemperatureDifferentials"]}
{"id": "C52", "title": "C2A command database", "statement": "A database line ,NAME,..,ID,N,T1,..,T2,.. gives the command NAME with code ID and argument types T1..TN, kError for argument numbers beyond N; lines not starting with a comma define nothing; GetCommandInformation returns the last line of the file with that name and, for an unknown name, the command Error with code 0 and no arguments. (A line with fewer type columns than N, or the line ',', reads outside the token vector.)", "quantifier": "every database file, every name", "why_tests_cant": "all file contents and orders of lines", "anchors": ["src/setting_file_reader/c2a_command_database.cpp:C2aCommandInformation", "src/setting_file_reader/c2a_command_database.cpp:C2aCommandDatabase"]}
{"id": "C53", "title": "WINGS command sender schedule and contents", "statement": "With command sending enabled the kept lines of the operation file are executed exactly once each, in order, at most one per call; a wait_sec w line is followed by exactly max(0, ceil(w/step)) idle calls; after the end nothing happens; disabled nothing ever happens. A line target_RT.NAME v1..vn (or _TL with a time) whose values fit the types registers one command with the database code and the parameter bytes being the big-endian encodings of v1..vn back to back. (Violated expectations: an unknown NAME is sent as command code 0 without parameters; a blank line and over-long arguments are undefined behaviour.)", "quantifier": "every operation file, database, number of calls, step, wait time and argument values", "why_tests_cant": "unbounded schedules, all files", "anchors": ["src/components/real/communication/wings_command_sender_to_c2a.cpp:MainRoutine", "src/components/real/communication/wings_command_sender_to_c2a.cpp:ExecuteCommandLine", "src/components/real/communication/wings_command_sender_to_c2a.cpp:AnalyzeC2aCommand"]}
{"id": "C54", "title": "Quaternions from an axis and angle or from two vectors", "statement": "The quaternion built from a unit axis and an angle is a unit quaternion whose inverse frame conversion is the Rodrigues rotation by that angle about that axis; the axis is not normalized, so a non-unit axis gives a non-unit quaternion. The two-vector constructor throws exactly when a vector's norm is at most epsilon, otherwise gives a unit quaternion that maps the first direction onto the second (exactly, or within epsilon of parallel in the special cases). GenerateOrthogonalUnitVector returns a unit vector orthogonal to its argument for every non-zero argument.", "quantifier": "all axes, angles, vectors", "why_tests_cant": "infinite domain with degenerate branches", "anchors": ["src/math_physics/math/quaternion.cpp:Quaternion::Quaternion", "src/math_physics/math/vector.cpp:GenerateOrthogonalUnitVector"]}
{"id": "C55", "title": "Euler angles and elementary rotations", "statement": "MakeRotationMatrixX/Y/Z are rotations that add their angles; ConvertFromEuler gives the unit quaternion of Rx(phi)*Ry(theta)*Rz(psi); ConvertToEuler stays in its ranges, inverts ConvertFromEuler on them and is inverted by it (up to sign) away from gimbal lock; at gimbal lock the round trip loses the rotation.", "quantifier": "all angles, all unit quaternions", "why_tests_cant": "infinite domain, branch cuts, singularities", "anchors": ["src/math_physics/math/quaternion.cpp:Quaternion::ConvertToEuler", "src/math_physics/math/quaternion.cpp:Quaternion::ConvertFromEuler", "src/math_physics/math/matrix_vector_template_functions.hpp"]}
{"id": "C56", "title": "Polar coordinates", "statement": "ConvertFrameOrthogonal2Polar returns r>=0, theta in [0,pi], phi in [0,2pi) with x = r sin(theta) cos(phi), y = r sin(theta) sin(phi), z = r cos(theta), for every vector.", "quantifier": "all vectors", "why_tests_cant": "infinite domain, quadrant cases", "anchors": ["src/math_physics/math/vector.cpp:ConvertFrameOrthogonal2Polar"]}
{"id": "C57", "title": "Trigonometric interpolation", "statement": "CalcTrigonometric reproduces every trigonometric polynomial of degree k from 2k+1 used samples exactly, and returns the sample at a sample point, whenever no two abscissae coincide modulo the period.", "quantifier": "every number of samples, coefficients, query", "why_tests_cant": "infinite domain", "anchors": ["src/math_physics/math/interpolation.cpp:Interpolation::CalcTrigonometric"]}
{"id": "C58", "title": "Orbit interpolation", "statement": "Once at least n samples have been accepted, InterpolationOrbit of degree n reproduces every orbit whose coordinates are polynomials of degree < n exactly; before that its abscissae are not distinct, so results are meaningless.", "quantifier": "every push history, query", "why_tests_cant": "all histories", "anchors": ["src/math_physics/orbit/interpolation_orbit.cpp:InterpolationOrbit"]}
{"id": "C59", "title": "Dense output and step-width control of the embedded integrators", "statement": "CalcInterpolationState(sigma) of RKF and DP5 satisfies all order conditions of order 4 for every sigma, gives the previous state at 0 and the current state at 1 (RK4 ignores sigma). ControlStepWidth multiplies the width by (tolerance/error)^(1/(order+1)); for RKF this makes an O(h^5) error exactly the tolerance. Violated expectations: a zero error (any right-hand side both orders solve exactly) makes the width infinite; interpolating after ControlStepWidth no longer ends at the current state; DP5 uses the exponent 1/6 although its estimate is O(h^5), so a step that missed the tolerance misses it again with the controlled width.", "quantifier": "every right-hand side, dimension, state, sigma, width, tolerance", "why_tests_cant": "continuum of inputs; wrong coefficient digits invisible to tolerance tests", "anchors": ["src/math_physics/numerical_integration/runge_kutta_fehlberg_implementation.hpp:CalcInterpolationState", "src/math_physics/numerical_integration/dormand_prince_5_implementation.hpp:CalcInterpolationState", "src/math_physics/numerical_integration/embedded_runge_kutta_implementation.hpp:ControlStepWidth"]}
{"id": "C60", "title": "Every loggable class of the repository writes matching headers and values", "statement": "For each of the 44 loggable classes, with any id, number of spacecraft, celestial bodies, stars or thermal nodes, and any comma-free names and values, the header and the value text parse to the same number of columns and the k-th value is the quantity the specification table lists under the k-th name; so any log made of such objects is aligned. The position columns of all ground stations carry the same names.", "quantifier": "every class, every parameter, every value, every collection of objects in one log", "why_tests_cant": "44 classes with variable numbers of columns; header and value code are written separately", "anchors": ["src/logger/loggable.hpp:ILoggable", "src/simulation/ground_station/ground_station.cpp:GetLogHeader", "src/dynamics/thermal/temperature.cpp:GetLogHeader", "src/environment/global/celestial_information.cpp:GetLogValue"]}
{"id": "C61", "title": "Monte-Carlo randomization stays in the configured region", "statement": "For every draw: cartesian-uniform components lie in [min,max), cartesian-normal ones are mean + z*sigma; circular values are r(cos t, sin t) with r normal and t in [min,max) or normal; spherical-uniform points have polar angle in [tmin,tmax] and azimuth in [pmin,pmax); spherical-normal points have length |r| and make the drawn angle with the mean vector; randomized quaternions have unit norm and the normal kind rotates by the drawn angle about a unit axis. The uniform kind does not turn the x axis to the drawn direction: it rotates by twice the angle (the half angle is missing).", "quantifier": "every sequence of random draws and every configuration", "why_tests_cant": "infinite domain of random draws", "anchors": ["src/simulation/monte_carlo_simulation/initialize_monte_carlo_parameters.cpp:CalcSphericalNormalNormal", "src/simulation/monte_carlo_simulation/initialize_monte_carlo_parameters.cpp:CalcQuaternionUniform"]}
{"id": "C62", "title": "Kepler's equation is solved to the stated accuracy", "statement": "For 0<=e<1 Kepler's equation u - e sin u = m has exactly one solution. The Newton solver, when two consecutive estimates after the first pass differ by less than the limit, returns u with |u - e sin u - m| <= e limit^2/2; with the limit and iteration count the orbit uses, for e<=0.2 and m in [0,2pi], the residual is at most 2e-5 and u is within 2.5e-5 of the solution. The first-order solver's residual is at most e*limit or e^(n+1). It is not true for all e<1: the first pass subtracts the correction from 0 instead of m, and for some e, m the solver stops there and returns m itself.", "quantifier": "every eccentricity, mean anomaly, limit and iteration count", "why_tests_cant": "the real line of anomalies and eccentricities cannot be enumerated; the early exit happens on a thin set of inputs", "anchors": ["src/math_physics/orbit/kepler_orbit.cpp:SolveKeplerNewtonMethod", "src/math_physics/orbit/kepler_orbit.cpp:SolveKeplerFirstOrder"]}
{"id": "C63", "title": "The Kepler orbit is two-body motion", "statement": "For every elliptic set of elements, position and velocity as functions of time (through Kepler's equation) satisfy r' = v and v' = -mu r/|r|^3; |r| = a(1 - e cos u), energy is -mu/2a, angular momentum is constant with the direction given by node and inclination. CalcOrbit terminates, and for e<=0.2 its position is within 2.5e-5 a of the exact one at every time.", "quantifier": "every element set, every time", "why_tests_cant": "the statement is about derivatives along the whole orbit", "anchors": ["src/math_physics/orbit/kepler_orbit.cpp:KeplerOrbit::CalcOrbit", "src/math_physics/orbit/kepler_orbit.cpp:KeplerOrbit::CalcConstKeplerMotion"]}
{"id": "C64", "title": "Orbital elements reproduce position and velocity", "statement": "For every elliptic position and velocity whose angular momentum has y component <= 0 (or an equatorial orbit), the computed elements describe an orbit that passes through exactly this position and velocity at the given time. For angular momentum with positive y component (half of all orbits) the node comes out in the wrong quadrant and no point of the computed orbit has the given position and velocity.", "quantifier": "every elliptic state, gravity constant and time", "why_tests_cant": "continuous six-dimensional input", "anchors": ["src/math_physics/orbit/orbital_elements.cpp:OrbitalElements::CalcOeFromPosVel"]}
{"id": "C65", "title": "Relative orbit models solve Hill's equations", "statement": "The Hill-Clohessy-Wiltshire transition matrix is the identity at 0, propagates every initial state along a solution of Hill's equations, is the only solution, and composes: Phi(s+t) = Phi(s)Phi(t). The Hill system matrix is the right-hand side of the same equations, and one RK4 step on a linear system is the degree-four Taylor polynomial of the exact solution.", "quantifier": "every orbital rate, time, and initial relative state", "why_tests_cant": "differential equation, uniqueness over all motions", "anchors": ["src/math_physics/orbit/relative_orbit_models.cpp:CalcHcwStm", "src/math_physics/orbit/relative_orbit_models.cpp:CalcHillSystemMatrix"]}
{"id": "C66", "title": "LVLH frame and relative position", "statement": "For every position and velocity that are not parallel the LVLH quaternion is a unit quaternion whose matrix is a proper rotation taking the position to (|r|,0,0), the velocity into the xy plane with positive y. RelativeOrbit reports reference position plus the relative position turned out of this frame, and reference velocity plus the turned relative velocity; since the turning of the frame is left out, the reported velocity is not the rate of change of the reported position.", "quantifier": "every reference state, relative state and time", "why_tests_cant": "continuous inputs; derivative of an output", "anchors": ["src/dynamics/orbit/orbit.cpp:Orbit::CalcQuaternion_i2lvlh", "src/dynamics/orbit/relative_orbit.cpp:RelativeOrbit::Propagate"]}
{"id": "C67", "title": "Encke's method", "statement": "When the spacecraft position is reference plus difference, the right-hand side for the difference is exactly gravity at the spacecraft minus gravity at the reference plus the perturbation. With no perturbation every history of Propagate calls leaves the spacecraft exactly on the Kepler orbit of its initial state. At a rectification, however, the old position is taken for the new time and the acceleration is cleared, so that the spacecraft does not advance during that Propagate, whatever its length.", "quantifier": "every state, perturbation and history of calls", "why_tests_cant": "histories of arbitrary length", "anchors": ["src/dynamics/orbit/encke_orbit_propagation.cpp:EnckeOrbitPropagation::Propagate", "src/dynamics/orbit/encke_orbit_propagation.cpp:EnckeOrbitPropagation::CalcQFunction"]}
{"id": "C68", "title": "Orbit propagation ends at the requested time", "statement": "Each Propagate call makes k Runge-Kutta steps of the configured width and one last step (at most the width plus 1e-6 s) that ends exactly at the requested time, and terminates; the RK4 orbit integrates r'' = -mu r/|r|^3 + a; forces and accelerations added since the last SetAcceleration sum up as force over mass in the inertial frame.", "quantifier": "every step width, end time, state and sequence of force calls", "why_tests_cant": "unbounded number of steps and calls", "anchors": ["src/dynamics/orbit/rk4_orbit_propagation.cpp:Rk4OrbitPropagation::Propagate", "src/dynamics/orbit/orbit.hpp:Orbit::AddForce_b_N"]}
{"id": "C69", "title": "The attitude quaternion stays normalised", "statement": "After every Propagate of AttitudeRk4, whatever the torques, inertia and step, the quaternion has length 1 or exactly 0; it has length 1 whenever the quaternion before had non-zero length and in every step the body turns by at most one radian at the rates the integrator sees.", "quantifier": "every state, torque, inertia tensor, wheel momentum and step width", "why_tests_cant": "all real inputs and step counts", "anchors": ["src/dynamics/attitude/attitude_rk4.cpp:AttitudeRk4::RungeKuttaOneStep", "src/dynamics/attitude/attitude_rk4.cpp:AttitudeRk4::Propagate"]}
{"id": "C70", "title": "Attitude kinematics", "statement": "Along every exact solution of the equations AttitudeRk4 integrates, every inertially fixed vector seen from the body turns at the rate -w x v (so the quaternion is the attitude of a body turning with angular velocity w in body axes), and the quaternion keeps its length.", "quantifier": "every solution, every time, every vector", "why_tests_cant": "statement about all solutions of a differential equation", "anchors": ["src/dynamics/attitude/attitude_rk4.cpp:AttitudeRk4::AttitudeDynamicsAndKinematics", "src/dynamics/attitude/attitude.cpp:CalcAngularVelocityMatrix"]}
{"id": "C71", "title": "Attitude dynamics: Euler's equation, angular momentum, energy", "statement": "The computed angular acceleration satisfies I w' = torque - w x (Iprev w + h) - dI/dt w. With constant inertia the reported inertial angular momentum vector changes at the rate of the torque; without torque the reported momentum vector, its reported norm and the reported kinetic energy are constant for all times along every exact solution; in general the energy changes at w . torque. For a unit quaternion the reported norm is |I w + h|.", "quantifier": "every inertia tensor with inverse, every wheel momentum and torque, every solution and time", "why_tests_cant": "conservation over all times and solutions", "anchors": ["src/dynamics/attitude/attitude_rk4.cpp:AttitudeRk4::AttitudeDynamicsAndKinematics", "src/dynamics/attitude/attitude.cpp:Attitude::CalcAngularMomentum"]}
{"id": "C72", "title": "Attitude propagation ends at the requested time and keeps steady rotation", "statement": "Propagate makes k full steps and one last step that ends exactly at the requested time; it terminates for positive step, throws exactly for a singular inertia tensor, does nothing when disabled, gives not-a-number for the current time and never ends for a non-positive step. A body spinning without torque about a principal axis keeps angular velocity and the inertial direction of the axis exactly; a body at rest keeps its quaternion.", "quantifier": "every step width, end time, inertia tensor and state", "why_tests_cant": "unbounded numbers of steps, all real inputs", "anchors": ["src/dynamics/attitude/attitude_rk4.cpp:AttitudeRk4::Propagate"]}
{"id": "C73", "title": "Attitude with a vibrating cantilever", "statement": "The integrated equations are the balance of total angular momentum of body and cantilever and the damped oscillation of the cantilever: (I+Ic) w' + Ic wc' = torque - w x (I w + h) - dI/dt w and w' + wc' = -(2 zeta w0 wc + w0^2 e). Propagate terminates and sets the time to the end time; end times at most 1e-6 s ahead are rejected. It always integrates whole steps of the configured width: with unchanged inertia, propagations to any two times at most a step ahead give the same state, so a last partial step is wrong.", "quantifier": "every state, inertia, torque, step and end time", "why_tests_cant": "all real inputs, unbounded numbers of steps", "anchors": ["src/dynamics/attitude/attitude_with_cantilever_vibration.cpp:AttitudeWithCantileverVibration::Propagate", "src/dynamics/attitude/ode_attitude_with_cantilever_vibration.hpp:AttitudeWithCantileverVibrationOde::DerivativeFunction"]}
{"id": "C74", "title": "Controlled attitude points as asked", "statement": "After every history of calls, Propagate of an accepted configuration with non-zero body directions and non-parallel asked directions leaves a unit quaternion with which the main body direction points exactly along the main asked direction, and no attitude doing so brings the sub direction closer. Configurations are accepted iff both modes are control modes and the main one is inertial stabilisation or they differ and the directions are at least 30 degrees apart. The reported rate is (2/dt) sin(phi/2) along the axis of the turn since the previous call. Violated: zero directions and inertial sub mode are accepted (the latter reads an unassigned vector), the rate is reversed when the quaternion changes sign, and the reported torque is minus the inverse inertia times the acceleration.", "quantifier": "every configuration, surroundings and history of calls", "why_tests_cant": "continuous inputs, maximality over all attitudes", "anchors": ["src/dynamics/attitude/controlled_attitude.cpp:ControlledAttitude::Propagate", "src/dynamics/attitude/controlled_attitude.cpp:ControlledAttitude::CalcAngularVelocity"]}
{"id": "C75", "title": "Disturbance totals are the sums of the held values", "statement": "Whatever disturbances are installed and whatever the history of steps, the torque, force and acceleration totals are the sums over all disturbances of the values each computed at its own last refresh: attitude-dependent ones are refreshed in steps that propagate orbit or attitude, the others in steps that propagate the orbit, and in all other steps values are held; a disabled disturbance contributes nothing. Gravity gradient, solar pressure and third bodies are always installed, lunar gravity iff the center is the Moon, drag, magnetic torque and geopotential iff it is the Earth.", "quantifier": "every list of disturbances, every history of propagation flags and inputs", "why_tests_cant": "histories of arbitrary length", "anchors": ["src/disturbances/disturbances.cpp:Disturbances::Update", "src/disturbances/disturbance.hpp:Disturbance::UpdateIfEnabled"]}
{"id": "C76", "title": "The gravity gradient torque is the differential torque", "statement": "For every body of point masses the gravity gradient torque computed from its inertia tensor equals the torque of the first-order differences of the central attraction on the masses. It has no component along the line to the center, is the same on both sides, turns with the body and vanishes if that line is a principal axis.", "quantifier": "every body, position and gravity constant", "why_tests_cant": "all bodies (any number of masses) and all real positions", "anchors": ["src/disturbances/gravity_gradient.cpp:GravityGradient::CalcTorque_b_Nm"]}
{"id": "C77", "title": "Solar radiation pressure force and torque", "statement": "For any list of surfaces with unit normals the force is the sum over the surfaces facing the Sun of the force of absorbed, specularly and diffusely reflected light, the torque its moment about the center of gravity; the force never pulls towards the Sun and is at most the light caught times one plus the reflectivity; nothing acts when no surface faces the Sun.", "quantifier": "every list of surfaces, sun direction and pressure", "why_tests_cant": "unbounded lists, all real inputs", "anchors": ["src/disturbances/surface_force.cpp:SurfaceForce::CalcTorqueForce", "src/disturbances/solar_radiation_pressure_disturbance.cpp:SolarRadiationPressureDisturbance::CalcCoefficients"]}
{"id": "C78", "title": "Air drag is free molecular flow and resists the motion", "statement": "For any list of surfaces the drag force is the sum over the surfaces facing the flow of Schaaf and Chambre's force, the torque its moment; the error function in it has the right derivative everywhere; drag never accelerates the spacecraft along its velocity relative to the air and strictly slows it if some surface faces the flow; no wind, no force. The speed ratio takes the molecular weight in grams per mole as kilograms per molecule, so it is sqrt(1000 N_A) times that of the molecules.", "quantifier": "every list of surfaces, gas parameters and velocity", "why_tests_cant": "unbounded lists, all real inputs", "anchors": ["src/disturbances/air_drag.cpp:AirDrag::CalcCoefficients", "src/disturbances/air_drag.cpp:AirDrag::CalCnCt"]}
{"id": "C79", "title": "Third body gravity and the residual magnetic moment", "statement": "The third body acceleration is, for any list of bodies, the sum of the differences of their attraction on the spacecraft and on the center; each named body counts once, and naming the center or an unselected body throws. The magnetic torque is the moment crossed with the field, perpendicular to both; the moment is the constant plus a random walk bounded by its limit plus one step plus noise. Violated: the walk and noise parameters and states are shared by all spacecraft (those of the first call win).", "quantifier": "every list of bodies, every sequence of calls by any number of spacecraft, every noise", "why_tests_cant": "unbounded lists and call sequences, all noise sequences", "anchors": ["src/disturbances/third_body_gravity.cpp:ThirdBodyGravity::Update", "src/disturbances/magnetic_disturbance.cpp:MagneticDisturbance::CalcRMM"]}
{"id": "C80", "title": "What acts on the spacecraft in a step", "statement": "In every step the environment is computed from the state at its beginning, disturbances and components from that environment; the torque on the attitude is the disturbance torque plus the component torque, the acceleration on the orbit the disturbance accelerations plus all forces turned to the inertial frame with the attitude at the beginning and divided by the mass; nothing is carried over from earlier steps, and forces generated in a step that does not propagate are lost.", "quantifier": "every spacecraft, component behaviour, disturbance list and time flags", "why_tests_cant": "all states and behaviours of the parts", "anchors": ["src/simulation/spacecraft/spacecraft.cpp:Spacecraft::Update", "src/dynamics/dynamics.cpp:Dynamics::Update"]}
{"id": "C81", "title": "Structure file: surfaces and inertia", "statement": "From any list of surface entries the spacecraft gets exactly those before the first one out of range; normals longer than one (plus 1e-6) are normalised, shorter ones are kept as they are; the nine inertia numbers are the rows of the tensor. Violated: valid surfaces after an invalid one are silently dropped.", "quantifier": "every list of surface entries", "why_tests_cant": "lists of arbitrary length and content", "anchors": ["src/simulation/spacecraft/structure/initialize_structure.cpp:InitSurfaces", "src/simulation/spacecraft/structure/initialize_structure.cpp:InitKinematicsParameters"]}
{"id": "C82", "title": "Radiation loads on thermal nodes", "statement": "The solar load is flux times area times absorptivity times the cosine of the incidence angle, zero from behind. The Earth view factor of a plate outside the Earth lies between 0 and (R/r)^2; below 1732 km it is exact when the Earth is wholly in front or behind, never grows when the plate turns away, and is the known value edge-on; infrared and albedo loads obey the resulting bounds and vanish when the Earth is wholly behind. Node parameters out of range become 0. Violated: the view factor jumps at 1732 km altitude; albedo uses half the Sun's zenith angle, so it does not vanish over the night side.", "quantifier": "every position outside the Earth, plate direction, Sun direction and flux", "why_tests_cant": "continuous inputs; monotonicity over all pairs", "anchors": ["src/dynamics/thermal/node.cpp:Node::CalcSolarRadiation_W", "src/dynamics/thermal/node.cpp:Node::CalcAlbedoRadiation_W", "src/dynamics/thermal/node.cpp:Node::CalcEarthInfraredRadiation_W"]}
{"id": "C83", "title": "Sunlight and eclipses", "statement": "A shadow source multiplies the Sun coefficient by the part of the Sun's disc that stays visible (one minus the shared area, as an integral, over the disc's area), except that a source wholly in front of the disc replaces it. For any list of sources outside which the spacecraft lies the coefficient is a number in [0,1] and is the product of the visible parts if no source lies wholly inside the Sun's disc. The pressure falls with the square of the distance and is the solar constant over c at 1 au; power density is pressure times c. Violated: a second source can undo an eclipse; only the first configured extra source is used, repeated; a source exactly covering the Sun gives not-a-number.", "quantifier": "every apparent size and separation, every number of sources, every distance", "why_tests_cant": "areas over continuous geometry; all lists of sources", "anchors": ["src/environment/local/solar_radiation_pressure_environment.cpp:SolarRadiationPressureEnvironment::CalcShadowCoefficient", "src/environment/local/solar_radiation_pressure_environment.cpp:SolarRadiationPressureEnvironment::UpdateAllStates", "src/environment/local/solar_radiation_pressure_environment.cpp:InitSolarRadiationPressureEnvironment"]}
{"id": "C84", "title": "Where the celestial bodies are", "statement": "After an update every selected body has the state SPICE gives for its id, in metres; seen from the spacecraft it is at the difference of the positions, in inertial components and, rotated, in body components with the same length; relative states of two bodies are differences; no access leaves the arrays and nothing of earlier steps survives. The log row has six values per body in the order of selection. Violated: a known but unselected name silently gives the first selected body; an unknown name reads an uninitialised id; number n of n bodies reads behind the array; the logged body-frame velocity is not the rate of change of the logged position (it mixes frames).", "quantifier": "every number and selection of bodies, every state, attitude and turning rate", "why_tests_cant": "all list lengths and histories; derivatives over continuous time", "anchors": ["src/environment/global/celestial_information.cpp:CelestialInformation::UpdateAllObjectsInformation", "src/environment/global/celestial_information.cpp:CelestialInformation::CalcBodyIdFromName", "src/environment/local/local_celestial_information.cpp:LocalCelestialInformation::UpdateAllObjectsInformation", "src/environment/local/local_celestial_information.cpp:LocalCelestialInformation::ConvertVelocityInertialToBody"]}
{"id": "C85", "title": "When the local environment is updated", "statement": "Body directions and magnetic field change only in attitude steps, sunlight, albedo, infrared and air density only in orbit steps; what is switched off keeps its value over any run; around another center than the Earth field and density stay 0. Albedo is the factor times this step's sunlight; infrared is a black body at the cold temperature exactly if something of the Sun is covered, else at the hot one. The body-frame field is the rotated inertial one with the same strength, within the walk limit (and one step) and the noise of the IGRF. With both flags the sunlight is that of the bodies' present places. Violated: in orbit-only steps it is that of an earlier step; the noise settings of a second spacecraft are ignored.", "quantifier": "every run, flag schedule, setting and input", "why_tests_cant": "all schedules of the update flags and all run lengths", "anchors": ["src/environment/local/local_environment.cpp:LocalEnvironment::Update", "src/environment/local/local_environment.cpp:LocalEnvironment::Initialize", "src/environment/local/geomagnetic_field.cpp:GeomagneticField::CalcMagneticField", "src/environment/local/earth_albedo.cpp:EarthAlbedo::CalcEarthAlbedo", "src/environment/local/earth_infrared.cpp:EarthInfrared::CalcEarthInfrared"]}
{"id": "C86", "title": "Air density", "statement": "STANDARD model: never negative, positive exactly from altitude 0 except at exactly 1000 km; in every row it starts at the row's density and falls strictly, by e per scale height. The tables are the published ones (Vallado; Montenbruck and Gill) except one value. Harris-Priester from 100 km to 1000 km: between the far-side and bulge densities interpolated on a logarithmic scale between table entries, with weight ((1+cos psi)/2)^(n/2) about the direction 30 degrees east of the Sun; it falls strictly with altitude in a fixed direction. The density readable afterwards carries no noise. Violated: STANDARD has 9.158e-12 for the published 9.518e-12 at 350 km, so that it is higher at 400 km than at 399.9 km and zero at 1000 km; Harris-Priester is a factor 10^12 too large below 100 km, reads past its table from 1000 km on, and mixes inertial and Earth-fixed directions.", "quantifier": "every altitude, position, Sun direction and exponent", "why_tests_cant": "continuous inputs; monotonicity over all pairs", "anchors": ["src/math_physics/atmosphere/simple_air_density_model.cpp:CalcAirDensityWithSimpleModel", "src/math_physics/atmosphere/harris_priester_model.cpp:CalcAirDensityWithHarrisPriester_kg_m3", "src/environment/local/atmosphere.cpp:Atmosphere::CalcAirDensity_kg_m3"]}
{"id": "C87", "title": "Reaction wheel: torque, momentum, commands, limits, coasting", "statement": "Over any history of torque commands, speed limits, drive switching and powered or unpowered ticks, the impulse of the torques a reaction wheel reports in its powered steps equals the rotor momentum lost, along the wheel's z axis in the body frame (a unit vector); the reported momentum is inertia times speed along that axis after the first powered step, and zero before it whatever the initial speed. Commands saturate at the maximum torque (a body-frame command is the negated one), reach the rotor after the dead time rounded up strictly to whole steps and through a backward-Euler first-order lag, so that below the maximum speed the speed is exactly the sum of the delayed, lagged, saturated commands. The speed never exceeds the maximum by more than one step at maximum torque (or the initial speed) if friction only brakes; limits saturate at plus or minus the maximum, and beyond the limit a driven step never moves further out, so that a negative limit acts as a set point. A coasting wheel loses the friction polynomial (constant term first, not as documented) per step without reversing, stops at once below the stop limit, and comes to rest for good in finitely many steps if friction does not vanish; with a zero stop limit friction accelerates a wheel at rest. Without power speed, momentum and reported torque freeze. Switching off clears delayed commands but not the lag's memory.", "quantifier": "every configuration, initial state and finite sequence of commands, limits, drive switches and ticks; every n", "why_tests_cant": "Momentum balance, bounds and liveness range over unbounded histories and real parameters.", "anchors": ["src/components/real/aocs/reaction_wheel.cpp:ReactionWheel::CalcTorque", "src/components/real/aocs/reaction_wheel.cpp:ReactionWheel::SetTargetTorque_rw_Nm", "src/components/real/aocs/reaction_wheel.cpp:ReactionWheel::SetVelocityLimit_rpm", "src/components/real/aocs/reaction_wheel_ode.cpp:ReactionWheelOde::DerivativeFunction", "src/math_physics/control_utilities/first_order_lag.hpp:FirstOrderLag::Update"]}
{"id": "C88", "title": "Reaction wheel jitter", "statement": "Without structural resonance the jitter force and torque of a wheel after any speed history are the sums of its harmonics of the angle turned, with amplitudes times the present speed squared, expressed in the body frame: perpendicular to the rotation axis, no larger than speed squared times the sum of the amplitudes, zero at standstill. With resonance each component answers these harmonics through a second-order difference equation from rest that passes constant and alternating input unchanged, forgets its past geometrically for a resonance frequency below half the update rate and positive damping and bandwidth, and finally amplifies input at the resonance frequency by one over the bandwidth. The couple added to the wheel torque is that of the opposite of the reported force. All wheels built by InitReactionWheel share the jitter object of the wheel initialised last, driven by all their speeds in turn; only a single wheel has its own.", "quantifier": "every set of harmonics, initial phases, quaternion, filter parameters, speed history, and sequence of wheel initialisations and fast updates", "why_tests_cant": "Frequency response and convergence are statements about infinite sequences; sharing shows only in histories with several wheels.", "anchors": ["src/components/real/aocs/reaction_wheel_jitter.cpp:ReactionWheelJitter::CalcJitter", "src/components/real/aocs/reaction_wheel_jitter.cpp:ReactionWheelJitter::AddStructuralResonance", "src/components/real/aocs/reaction_wheel_jitter.cpp:ReactionWheelJitter::CalcCoefficients", "src/components/real/aocs/reaction_wheel.cpp:InitParams", "src/components/real/aocs/reaction_wheel.cpp:ReactionWheel::GetOutputTorque_b_Nm"]}
{"id": "C89", "title": "Magnetorquer torque", "statement": "A magnetorquer turns a command into torque in its next step: the commanded moment is limited per axis to [min, max], bias, random walk and noise are added, the scale factor matrix is applied, the result is expressed in the body frame, and the torque is its cross product with the geomagnetic field (nT times 1e-9). The torque is perpendicular to moment and field and at most |m||B|. Without errors a command yields exactly the limited moment in every step it is held. Switching off zeroes moment and torque and forgets the command.", "quantifier": "every parameter set, history of commands, steps and power failures, field and attitude of the component", "why_tests_cant": "The statement ranges over all histories and all fields; geometry (perpendicularity) is exact.", "anchors": ["src/components/real/aocs/magnetorquer.cpp:Magnetorquer::CalcOutputTorque", "src/components/real/aocs/magnetorquer.cpp:Magnetorquer::PowerOffRoutine", "src/components/real/aocs/magnetorquer.hpp:SetOutputMagneticMoment_c_Am2"]}
{"id": "C90", "title": "Magnetorquer command held over several steps", "statement": "A magnetorquer writes its disturbed output over the command, so errors that are constant in time accumulate while a command is held: with a bias b >= 0 only, a command v in range held for n steps yields min(v + n b, max + b), and with a scale factor s in [0,1] only, s^n v. That a held command keeps its output under constant errors is refuted.", "quantifier": "every command in range, bias, scale factor and number of steps", "why_tests_cant": "A closed form for every number of steps; the drift shows only over long histories.", "anchors": ["src/components/real/aocs/magnetorquer.cpp:Magnetorquer::CalcOutputTorque"]}
{"id": "C91", "title": "Magnetometer, gyro and magnetorquer interference", "statement": "Magnetometer and gyro outputs are the true body vector in the component frame passed through the sensor error model: always within the measurable range and, without errors and in range, exactly the rotated true vector of the same length. Interference updates of any number of magnetorquers, in any order and any number of times, do not accumulate: the magnetometer bias is the initial one plus the biases the user added plus, for each torquer, the polynomial of its moment at its latest update. A bias set while interference is applied loses the old interference contribution at the next update.", "quantifier": "every sensor parameter set, quaternion, measurement number and input; every history of bias additions and interference updates of any number of torquers", "why_tests_cant": "No accumulation is an invariant over unbounded histories.", "anchors": ["src/components/real/aocs/magnetometer.cpp:Magnetometer::MainRoutine", "src/components/real/aocs/gyro_sensor.cpp:GyroSensor::MainRoutine", "src/components/real/aocs/mtq_magnetometer_interference.cpp:MtqMagnetometerInterference::UpdateInterference", "src/components/real/aocs/magnetometer.hpp:AddConstantBiasNoise_c_nT"]}
{"id": "C92", "title": "Star sensor output delay", "statement": "After k+1 measurements a star sensor delivers the attitude recorded at the source determined by its ring buffer for the latest multiple of the output interval, and never reads outside the buffer. The output is exactly the configured d measurements old only while the buffer position is past d; after each wrap-around the outputs are younger (not delayed at all at the wrap itself), in the first round the identity quaternion; for step times above 2 s the delay is never kept. That every output is d measurements old is refuted for every delay and buffer size. Delays and intervals in seconds are cut to whole steps, at least one.", "quantifier": "every configuration, input history and number of measurements", "why_tests_cant": "The age of the output depends on the position in an unbounded history relative to the buffer size.", "anchors": ["src/components/real/aocs/star_sensor.cpp:StarSensor::Measure", "src/components/real/aocs/star_sensor.cpp:StarSensor::update", "src/components/real/aocs/star_sensor.cpp:StarSensor::Initialize", "src/components/real/aocs/star_sensor.cpp:InitStarSensor"]}
{"id": "C93", "title": "Star sensor attitude noise", "statement": "The attitude a star sensor records is a unit quaternion whose boresight deviates from the true one by exactly the orthogonal noise angle, whatever the noise about the boresight and the direction drawn; the cosine of half the whole error rotation is the product of the cosines of half the two noise angles; without noise it is the true attitude of the component.", "quantifier": "every attitude, mounting quaternion and drawn noise", "why_tests_cant": "Exact rotation algebra for all attitudes and draws.", "anchors": ["src/components/real/aocs/star_sensor.cpp:StarSensor::update"]}
{"id": "C94", "title": "Star sensor error flag", "statement": "The error flag after a measurement is false exactly if at that measurement the boresight is at least the exclusion angle away from Sun and Moon, at least the exclusion angle plus atan(R/distance) away from the centre of the Earth, and the angular rate is within its limit (it refers to the present, not to the delayed attitude). With an exclusion angle of at least asin(R/d) - atan(R/d) a measurement without error has a line of sight clear of the Earth; without this margin that claim is refuted.", "quantifier": "every configuration, attitude, rate and position of the bodies", "why_tests_cant": "Geometric statement over all directions and distances.", "anchors": ["src/components/real/aocs/star_sensor.cpp:StarSensor::AllJudgement", "src/components/real/aocs/star_sensor.cpp:StarSensor::EarthJudgement", "src/components/real/aocs/star_sensor.cpp:StarSensor::CalAngleVector_rad"]}
{"id": "C95", "title": "Sun sensor", "statement": "A sun sensor reports the Sun as detected at a measurement exactly if the illuminance computed at the previous measurement (zero before the first) reaches the threshold and the Sun is now inside the detectable half angle; a detected Sun is reported as a unit vector in front of the sensor, an undetected one as the zero vector with zero angles. Without bias and noise the reported direction is the true one for a Sun in front and its mirror image for a Sun behind; with errors that keep both angles inside 90 degrees the reported direction shows exactly the true angles plus the errors. The illuminance is the power density times the cosine of incidence, zero from behind. That a detected Sun is lit at that measurement is refuted (eclipse entry is noticed one measurement late).", "quantifier": "every configuration, measurement history, Sun direction, power density and drawn noise", "why_tests_cant": "Trigonometric identities for every direction; the delay by one measurement is a property of histories.", "anchors": ["src/components/real/aocs/sun_sensor.cpp:SunSensor::Measure", "src/components/real/aocs/sun_sensor.cpp:SunSensor::SunDetectionJudgement", "src/components/real/aocs/sun_sensor.cpp:SunSensor::CalcSolarIlluminance", "src/components/real/aocs/sun_sensor.cpp:SunSensor::TanRange"]}
{"id": "C96", "title": "Geodetic position", "statement": "The conversion from ECEF to geodetic coordinates stops for every position, with a latitude in [-pi/2, pi/2] and a longitude in [0, 2 pi). The conversion to ECEF gives exactly the point at the given altitude along the outward normal of the reference ellipsoid with that latitude and longitude. Off the polar axis, converting to geodetic and back gives the position to 0.01 mm per component, and for every point above -3000 km the latitude is right to 1e-11 rad, the longitude exactly and the altitude to 0.02 mm. The quaternion is the rotation to east, north and up. On the polar axis the altitude is a constant -6400 km whatever the height (the accuracy claim is refuted there).", "quantifier": "every position, latitude, longitude and altitude", "why_tests_cant": "Termination and accuracy of a fixed-point iteration over a continuum of positions.", "anchors": ["src/math_physics/geodesy/geodetic_position.cpp:GeodeticPosition::UpdateFromEcef", "src/math_physics/geodesy/geodetic_position.cpp:GeodeticPosition::CalcEcefPosition", "src/math_physics/geodesy/geodetic_position.cpp:GeodeticPosition::CalcQuaternionXcxfToLtc", "src/math_physics/orbit/sgp4/sgp4ext.cpp:AcTan", "src/math_physics/orbit/sgp4/sgp4ext.cpp:FMod2p"]}
{"id": "C97", "title": "GNSS receiver visibility", "statement": "With the simple antenna model a receiver sees GNSS exactly if its boresight points away from the Earth's centre. With the cone model a satellite is received exactly if it lies inside the cone and is on the receiver's side of the Earth's centre or connected by a straight line that stays outside the Earth; the channels list exactly these satellites in order with their distance and the spherical coordinates of their direction in the antenna frame, the reported number is the number of channels, and GNSS is visible from four up. With 1/a^2 + 1/s^2 < 1/R^2 every received satellite has a clear line; without this margin (antenna below about 190 km) that claim is refuted.", "quantifier": "every attitude, mounting, antenna offset, cone width and set of satellites", "why_tests_cant": "Geometric equivalence with a statement over all points of the line of sight.", "anchors": ["src/components/real/aocs/gnss_receiver.cpp:GnssReceiver::CheckAntennaSimple", "src/components/real/aocs/gnss_receiver.cpp:GnssReceiver::CheckAntennaCone", "src/components/real/aocs/gnss_receiver.cpp:GnssReceiver::SetGnssInfo"]}
{"id": "C98", "title": "GNSS receiver measurements", "statement": "At a step with GNSS visible the measured position and velocity are the true ECEF values plus the noise and the geodetic position is the conversion of the measured position; through any sequence of steps without visibility all three keep their values. GPS time is the number of whole weeks and remaining seconds since JD 2444244.5 (no leap seconds) for every later date below 2^32 weeks, and undefined from a week before that epoch. An unknown antenna model, or the cone model without GNSS calculation, falls back to the simple model.", "quantifier": "every input, history and date", "why_tests_cant": "Hold behaviour over all histories; exact time split over all dates.", "anchors": ["src/components/real/aocs/gnss_receiver.cpp:GnssReceiver::MainRoutine", "src/components/real/aocs/gnss_receiver.cpp:GnssReceiver::AddNoise", "src/components/real/aocs/gnss_receiver.cpp:GnssReceiver::ConvertJulianDayToGpsTime", "src/components/real/aocs/gnss_receiver.cpp:SetAntennaModel"]}
{"id": "C99", "title": "Thruster thrust history, direction and torque", "statement": "For every duty history with a positive step and non-negative time constant and dead time, the thrust after each call is the maximum thrust times the first-order lag response of the duty delayed by a fixed number of calls (the smallest number whose time exceeds the dead time, so one call even without dead time), plus the magnitude noise when the undelayed duty is positive, along a unit direction. Without noise and with duties in [0,1] the thrust never exceeds the maximum and is zero during the dead time. The torque is the lever arm from the centre of mass crossed with the thrust. The direction deviates from nominal by the drawn angle when the nominal direction has no x component, by less otherwise, and not at all along x. Power-off zeroes thrust and torque and keeps the delay and lag state.", "quantifier": "every thruster configuration, duty history, noise history and call count", "why_tests_cant": "Trajectory property over unbounded histories and real-valued parameters.", "anchors": ["src/components/real/propulsion/simple_thruster.cpp:SimpleThruster::MainRoutine", "src/components/real/propulsion/simple_thruster.cpp:SimpleThruster::CalcThrust", "src/components/real/propulsion/simple_thruster.cpp:SimpleThruster::CalcTorque", "src/components/real/propulsion/simple_thruster.cpp:SimpleThruster::CalcThrustDirection", "src/components/real/propulsion/simple_thruster.cpp:SimpleThruster::PowerOffRoutine"]}
{"id": "C100", "title": "Force and torque generators", "statement": "Without noise the generated force or torque equals the ordered one, and a force ordered in the body, inertial or RTN frame is reported unchanged in that frame and consistently in the others. With noise the generated size is the ordered size plus the magnitude noise, times cos^2(a/2)+s^2 sin^2(a/2) where a is the drawn angle and s the sine between the ordered and the drawn direction (never more than one, less than one in general: the claim that direction noise keeps the size is refuted), and the direction deviates by at most a.", "quantifier": "every ordered vector, unit attitude, non-degenerate orbit state and noise draw", "why_tests_cant": "Quantifies over all real vectors, attitudes and noise draws.", "anchors": ["src/components/ideal/force_generator.cpp:ForceGenerator::MainRoutine", "src/components/ideal/force_generator.cpp:ForceGenerator::SetForce_i_N", "src/components/ideal/force_generator.cpp:ForceGenerator::SetForce_rtn_N", "src/components/ideal/torque_generator.cpp:TorqueGenerator::MainRoutine"]}
{"id": "C101", "title": "Orbit and attitude observers", "statement": "The orbit observer differs from the true position and velocity by exactly the drawn noise, along the inertial axes or along the radial, transverse and normal directions as configured. The attitude observer returns a unit quaternion that differs from the true attitude by a rotation of the drawn angle about the drawn direction of the inertial frame.", "quantifier": "every non-degenerate orbit state, unit attitude, noise frame and noise draw", "why_tests_cant": "Quantifies over all real states and draws.", "anchors": ["src/components/ideal/orbit_observer.cpp:OrbitObserver::MainRoutine", "src/components/ideal/attitude_observer.cpp:AttitudeObserver::MainRoutine"]}
{"id": "C102", "title": "Ground station visibility", "statement": "A spacecraft away from the station is reported visible exactly when its elevation above the plane normal to the reference ellipsoid at the station exceeds the configured limit; with a non-negative limit and station height the line of sight to a visible spacecraft never enters the ellipsoid. After any history of updates the flag of a spacecraft is that of its latest update, false before the first one, and an exception for an unknown identifier. The inertial station position is the Earth-fixed position turned back by the Earth rotation.", "quantifier": "every station location, elevation limit in [-90,90] deg, spacecraft position, rotation and update history", "why_tests_cant": "Geometric fact over all real positions; flag history unbounded.", "anchors": ["src/simulation/ground_station/ground_station.cpp:GroundStation::CalcIsVisible", "src/simulation/ground_station/ground_station.cpp:GroundStation::Update", "src/simulation/ground_station/ground_station.hpp:GroundStation::IsVisible"]}
{"id": "C103", "title": "Antenna radiation pattern lookup", "statement": "For a full table with at least one entry per axis and positive maximum angles, every pair of angles yields the gain of the nearest grid point (spacing maximum/length, angles brought into range first), never an out-of-bounds read. A pattern sampled with both end points included is read one entry too far from the middle of the range on. The default pattern has zero gain everywhere, and negative angles are read as zero.", "quantifier": "every table, pair of real angles, grid length and maximum", "why_tests_cant": "Index arithmetic over all reals and all table sizes.", "anchors": ["src/components/real/communication/antenna_radiation_pattern.cpp:AntennaRadiationPattern::GetGain_dBi", "src/components/real/communication/antenna_radiation_pattern.hpp:AntennaRadiationPattern"]}
{"id": "C104", "title": "Ground station link budget", "statement": "For a visible spacecraft with a transmitter and a receiver the carrier-to-noise density is, in linear units, the Friis equation (wavelength 300/f[MHz]) with the configured gains and losses over k T. The reported maximum bitrate is the rate at which the receive margin equals the requirement (zero if that is at most 1 bps), and the transmission rate is within it exactly when the reported receive margin meets the requirement. Not visible gives 0 Mbps and -10000 dB, incompatible antennas count as 0 dBHz. The pattern angles are the true ones for antennas mounted along the body and local axes; for other mountings the rotations are composed in the wrong order (refuted).", "quantifier": "every antenna pair, link geometry and loss configuration with positive power, temperature, frequency and distance", "why_tests_cant": "Quantifies over all real link parameters and attitudes.", "anchors": ["src/components/real/communication/ground_station_calculator.cpp:GroundStationCalculator::Update", "src/components/real/communication/ground_station_calculator.cpp:GroundStationCalculator::CalcCn0OnGs", "src/components/real/communication/ground_station_calculator.cpp:GroundStationCalculator::CalcMaxBitrate", "src/components/real/communication/ground_station_calculator.cpp:GroundStationCalculator::CalcReceiveMarginOnGs", "src/components/real/communication/antenna.cpp:Antenna::CalcTxEirp_dBW", "src/components/real/communication/antenna.cpp:Antenna::CalcRxGt_dB_K"]}
{"id": "C105", "title": "Relative information between spacecraft", "statement": "With identifiers 0..n-1 registered an update succeeds and gives for every ordered pair the difference of positions and velocities, the distance, and the RTN components along the reference's radial, transverse and normal directions; with an identifier below n missing it throws. Registering keeps the first dynamics of an identifier and, like removing, resets all values until the next update. Positions are antisymmetric and additive, distances a metric. The RTN velocity is the time derivative of the RTN position (radially always, in all components when the reference acceleration is along its position). The relative attitude quaternion has the right angle but its axis is in the inertial frame, so it does not convert between the two body frames (refuted).", "quantifier": "every set of registrations, dynamics states, pair of identifiers and differentiable motion", "why_tests_cant": "Derivative over all motions; registration histories and states unbounded.", "anchors": ["src/simulation/multiple_spacecraft/relative_information.cpp:RelativeInformation::Update", "src/simulation/multiple_spacecraft/relative_information.cpp:RelativeInformation::RegisterDynamicsInfo", "src/simulation/multiple_spacecraft/relative_information.cpp:RelativeInformation::RemoveDynamicsInfo", "src/simulation/multiple_spacecraft/relative_information.cpp:RelativeInformation::CalcRelativeVelocity_rtn_m_s", "src/simulation/multiple_spacecraft/relative_information.cpp:RelativeInformation::CalcRelativeAttitudeQuaternion"]}
{"id": "C106", "title": "Telescope forbidden angles and image positions", "statement": "The telescope raises the Sun, Earth or Moon forbidden flag exactly when the body is closer to the line of sight (the camera x axis) than its limit. A configured field of view of 90 degrees or more aborts construction. A body is put on the image exactly when it lies in front of the camera within one full field of view to either side in both directions (so the image covers twice the configured angle: the half-angle reading is refuted), at its pinhole-projected pixel, strictly inside the image; otherwise its position is (-1,-1). The star list always has the configured length: the first stars in sight in catalogue order, then marks of no star; an empty catalogue is read out of bounds. The ground point lies on the equatorial sphere below the initial position and the direction to it is the unit vector from the spacecraft to it. The ground-point position on the image depends on the previously reported one and its (-1,-1) mark does not tell whether the point is on the image (refuted).", "quantifier": "every mounting, attitude, target direction, pixel count and angle, catalogue and previous state", "why_tests_cant": "Quantifies over all attitudes and directions; boundary behaviour on the reals.", "anchors": ["src/components/real/mission/telescope.cpp:Telescope::MainRoutine", "src/components/real/mission/telescope.cpp:Telescope::JudgeForbiddenAngle", "src/components/real/mission/telescope.cpp:Telescope::Observe", "src/components/real/mission/telescope.cpp:Telescope::ObserveStars", "src/components/real/mission/telescope.cpp:Telescope::ObserveGroundPositionDeviation"]}
{"id": "C107", "title": "Hipparcos catalogue", "statement": "Reading the catalogue keeps the rows up to the first one darker than the limit: for a file sorted by magnitude exactly the stars not darker than the limit, in order. If no row is darker and white space follows the last row, an uninitialised record is used. Star directions are unit vectors at the star's right ascension and declination, and body-frame directions are rotations of them that keep all angles between stars.", "quantifier": "every catalogue file, magnitude limit, star and attitude", "why_tests_cant": "Unbounded files, all reals.", "anchors": ["src/environment/global/hipparcos_catalogue.cpp:HipparcosCatalogue::ReadContents", "src/environment/global/hipparcos_catalogue.cpp:HipparcosCatalogue::GetStarDirection_i", "src/environment/global/hipparcos_catalogue.cpp:HipparcosCatalogue::GetStarDirection_b"]}
{"id": "C108", "title": "Julian date and UTC clock", "statement": "The Julian date of a calendar date and time counts days correctly for every Gregorian date from 1901 to 2099 (and any year when every fourth year is a leap year), anchored at 2451545 for J2000. The UTC date reported by the simulation clock at any elapsed time is that of the start plus the elapsed time, exactly or, on 31 December only, 0.864 microseconds early; fields are in range except that seconds may be negative by that amount, and the date is a valid one except in the last 0.864 microseconds of a day (32 December at the end of years like 2023: validity refuted). Date to Julian date and back is the identity, up to that amount on 31 December. The logged seconds are the reported ones cut to milliseconds, -0.001 when the reported ones are negative.", "quantifier": "every date, time of day, elapsed time and Julian date (reals)", "why_tests_cant": "All dates and all real instants; exact boundary behaviour at the ends of days and years.", "anchors": ["src/math_physics/orbit/sgp4/sgp4ext.cpp:jday", "src/math_physics/orbit/sgp4/sgp4ext.cpp:invjday", "src/math_physics/orbit/sgp4/sgp4ext.cpp:days2mdhms", "src/environment/global/simulation_time.cpp:SimulationTime::ConvJDtoCalendarDay", "src/environment/global/simulation_time.cpp:SimulationTime::GetLogValue"]}
{"id": "C109", "title": "Decimal year and space weather row", "statement": "The decimal year is the year plus the one-based day of the year over 365.25, so it is a day ahead, its integer part is not always the year (refuted) and it does not always increase with time (refuted at the end of leap years). Converting a decimal year to a date always gives a valid Gregorian date and time; a date converted to decimal year and back is unchanged except 31 December, which becomes 1 January. The date used to look up the space weather is at most one day off the true date, not always equal (refuted). The day of the year handed to the density model is the true one, but its seconds of the day are hours off (refuted). The rows kept from the table are those dated from 31/365 of a year before the start to the end. The row taken is the first one matching the day (or month, in the monthly part), else the first row of the table. A table updated in December or with an unknown month name reads out of bounds.", "quantifier": "every date, instant, decimal year, table and header", "why_tests_cant": "All dates and real instants, tables of any length.", "anchors": ["src/math_physics/orbit/sgp4/sgp4ext.cpp:JdToDecyear", "src/math_physics/atmosphere/wrapper_nrlmsise00.cpp:ConvertDecyearToDate", "src/math_physics/atmosphere/wrapper_nrlmsise00.cpp:ConvertDaysToMonthDay", "src/math_physics/atmosphere/wrapper_nrlmsise00.cpp:ConvertDateToDecyear", "src/math_physics/atmosphere/wrapper_nrlmsise00.cpp:CalcNRLMSISE00", "src/math_physics/atmosphere/wrapper_nrlmsise00.cpp:GetSpaceWeatherTable_"]}
{"id": "C110", "title": "Orientation of the Earth", "statement": "The sidereal time is the documented polynomial brought into [0,2*pi), the Earth turns 1.0027379093 times a day, and in every mode and after any sequence of updates the J2000-to-ECEF matrix is a proper rotation depending on the last date only; simple mode keeps the polar axis and maps right ascension to longitude; full mode is precession, nutation, apparent sidereal time, and within a century stays within 6620''/century+50'' of the simple mode (pole 2005''/century+30''); idle (and any unknown mode word) is the identity, and the TEME matrix is always the identity.", "quantifier": "all Julian dates (bounds: within a century of J2000), modes, update histories, vectors", "why_tests_cant": "continuous dates and arbitrary histories; bounds over all dates", "anchors": ["src/environment/global/earth_rotation.cpp:EarthRotation::Update", "src/environment/global/earth_rotation.cpp:EarthRotation::Nutation", "src/environment/global/earth_rotation.cpp:EarthRotation::Precession", "src/math_physics/orbit/sgp4/sgp4unit.cpp:gstime"]}
{"id": "C111", "title": "Orientation of the Moon", "statement": "In simple mode, whenever the Moon's position and velocity relative to the Earth are not parallel, the J2000-to-Moon-fixed matrix is a proper rotation that puts the Earth on +x and the orbit normal on +z up to the fixed 147'' between mean-Earth and principal axes; IAU mode returns SPICE's matrix, any other word the identity. If the Moon is not among the selected bodies and the Earth is the first one, the Moon takes the Earth's mode and simple mode yields the zero matrix.", "quantifier": "all Moon states, body lists, mode words", "why_tests_cant": "all relative states of Earth and Moon and all body lists", "anchors": ["src/environment/global/moon_rotation.cpp:MoonRotation::Update", "src/math_physics/planet_rotation/moon_rotation_utilities.cpp:CalcDcmEciToPrincipalAxis", "src/environment/global/celestial_information.hpp:GetRotationMode"]}
{"id": "C112", "title": "Gravity acceleration is the gradient of the potential", "statement": "For every degree from 2 on, any normalised cosine and sine coefficients, reference radius other than zero and position other than the centre, the acceleration returned by the gravity potential class is exactly the gradient of the spherical harmonic potential of that degree with those coefficients (the textbook series in radius, latitude and longitude; computed by recursions with normalisation factors, which need no bound on the degree in exact arithmetic). A degree of 0 or 1 returns zero. A coefficient missing from the arrays is not noticed and reads out of bounds.", "quantifier": "all degrees, coefficient arrays, radii and positions off the centre", "why_tests_cant": "unbounded degree, all coefficients and all positions; a gradient is a limit over all neighbouring points", "anchors": ["src/math_physics/gravity/gravity_potential.cpp:GravityPotential::CalcAcceleration_xcxf_m_s2", "src/math_physics/gravity/gravity_potential.cpp:GravityPotential::v_w_nn_update", "src/math_physics/gravity/gravity_potential.cpp:GravityPotential::v_w_nm_update"]}
{"id": "C113", "title": "Gravity partial derivatives", "statement": "The matrix of partial derivatives returned by the gravity potential class is, for every degree from 2 on, all coefficients and every position off the centre, the matrix of the derivatives of the components of the acceleration it returns by the three coordinates; it is symmetric and has trace zero.", "quantifier": "all degrees, coefficient arrays, radii and positions off the centre", "why_tests_cant": "unbounded degree; derivatives are limits", "anchors": ["src/math_physics/gravity/gravity_potential.cpp:GravityPotential::CalcPartialDerivative_xcxf_s2"]}
{"id": "C114", "title": "Earth gravity disturbance", "statement": "Built with a degree from 2 to 360 and a file with a readable line in range for each coefficient (in any order), the geopotential yields in the Earth-fixed frame the gradient of the potential with the file's coefficients (the last line for a coefficient wins, coefficients without a line are zero) and in the inertial frame the same vector turned back. Without the file, or with degree 0 or 1, it yields zero. A degree over 360 is announced as limited to 360 but is not (refuted): every update reads out of bounds.", "quantifier": "all degrees, coefficient files, rotation matrices and positions", "why_tests_cant": "all files and degrees, all positions", "anchors": ["src/disturbances/geopotential.cpp:Geopotential::Geopotential", "src/disturbances/geopotential.cpp:Geopotential::ReadCoefficientsEgm96", "src/disturbances/geopotential.cpp:Geopotential::Update"]}
{"id": "C115", "title": "Moon gravity disturbance", "statement": "Built with a degree from 2 to 1200 and a readable file, the lunar field, given the Moon's rotation matrix, yields the gradient of the potential with the file's radius, gravity constant and coefficients, turned back to the inertial frame. But Update takes that matrix from a copy of the celestial information whose pointer is never set, so it is undefined for every state (refuted). Without a file or with degree 0 or 1 the construction itself reads values nothing has set; an unreadable header ends in an exception.", "quantifier": "all degrees, coefficient files, rotation matrices, positions", "why_tests_cant": "all files, degrees, states", "anchors": ["src/disturbances/lunar_gravity_field.cpp:LunarGravityField::LunarGravityField", "src/disturbances/lunar_gravity_field.cpp:LunarGravityField::Update", "src/disturbances/lunar_gravity_field.cpp:LunarGravityField::ReadCoefficientsGrgm1200a", "src/environment/global/celestial_information.cpp:CelestialInformation::CelestialInformation"]}
{"id": "C116", "title": "Geomagnetic field is minus the gradient of the IGRF potential", "statement": "Whatever calls came before, a call of the geomagnetic field routine with a complete coefficient table returns, at every place whose latitude is at least 1.5e-7 rad from the pole (cosine) and not deeper than 6300 km, exactly minus the gradient of the Schmidt-normalised spherical harmonic potential with the table's coefficients at the geodetic point, turned into the inertial frame; the angles carry a factor between 1 and 1+1e-12 (truncated pi). Each result depends on the file, the arguments and the year of the very first call only, never on cached values of other calls, at every place including the poles.", "quantifier": "all coefficient tables of degree 8 to 18, call histories, years, places, sidereal angles", "why_tests_cant": "unbounded call histories, all reals, a gradient is a limit", "anchors": ["src/math_physics/geomagnetic/igrf.cpp:IgrfCalc", "src/math_physics/geomagnetic/igrf.cpp:fcalc", "src/math_physics/geomagnetic/igrf.cpp:mfldg", "src/math_physics/geomagnetic/igrf.cpp:tcoef", "src/math_physics/geomagnetic/igrf.cpp:tyear", "src/math_physics/geomagnetic/igrf.cpp:TransMagaxisToECI"]}
{"id": "C117", "title": "Reading the IGRF table", "statement": "A table that cannot be opened, with degree or column count out of range or with lines missing ends the program at the first call. A table of degree 19, which passes the checks, reads out of bounds. The coefficients are interpolated on the interval of the first call's year for ever after (that every call uses its own year's interval is refuted), and whether the highest degree's axial coefficient is used when it is the only one of its degree depends on uninitialised memory (a pure axial dipole table may give no field at all: refuted).", "quantifier": "all tables, years and histories", "why_tests_cant": "all tables; behaviour dependent on uninitialised memory cannot be settled by running", "anchors": ["src/math_physics/geomagnetic/igrf.cpp:gigrf", "src/math_physics/geomagnetic/igrf.cpp:IgrfCalc"]}
{"id": "C118", "title": "Gaussian beam", "statement": "For every positive wavelength and waist radius and non-negative power, the beam width squared is waist^2 + (wavelength z/(pi waist))^2: the waist at z=0, sqrt 2 times it at the Rayleigh length, symmetric, strictly growing with |z| and closing in on the asymptotic cone; the intensity is positive, strictly falls with the distance from the axis, is exp(-2) of the axis value at the beam width; and at every distance the power through a disc of radius rho on the axis (the integral of the intensity) is P(1-exp(-2 rho^2/w^2)), tending to P, so no power is created or lost along the beam. Setters abort on non-positive wavelength or waist and negative power and otherwise change only their parameter; the constructor checks nothing.", "quantifier": "all wavelengths, waists, powers, distances, radii", "why_tests_cant": "statements about integrals, limits and all reals", "anchors": ["src/math_physics/optics/gaussian_beam_base.cpp:GaussianBeamBase::CalcBeamWidthRadius_m", "src/math_physics/optics/gaussian_beam_base.cpp:GaussianBeamBase::CalcIntensity_W_m2", "src/math_physics/optics/gaussian_beam_base.cpp:GaussianBeamBase::SetTotalPower_W"]}
{"id": "C119", "title": "Orbit from a time series file", "statement": "For a file with increasing times and at least two interpolation points the construction puts the window half a window before the first later row; for every history of propagation calls each call moves the window by at most one row (when the time is beyond its middle row) and reports the unique polynomial of degree below n (or the trigonometric interpolation) through the rows of the window, the first row before the window's origin, and the last row once the window has reached the end of the file or the time is more than 1e6 s after the origin. Motion polynomial in time of degree below n is therefore reported exactly, and rows of the window are reported at their times. Fewer than two points, or too few rows after the start, read out of bounds; a switched-off orbit does not change.", "quantifier": "all files with increasing times, interpolation counts, start times, call histories", "why_tests_cant": "unbounded files and histories, all reals", "anchors": ["src/dynamics/orbit/time_series_file_orbit_propagation.cpp:TimeSeriesFileOrbitPropagation::TimeSeriesFileOrbitPropagation", "src/dynamics/orbit/time_series_file_orbit_propagation.cpp:TimeSeriesFileOrbitPropagation::Propagate", "src/dynamics/orbit/time_series_file_orbit_propagation.cpp:TimeSeriesFileOrbitPropagation::UpdateInterpolationInformation", "src/dynamics/orbit/time_series_file_orbit_propagation.cpp:TimeSeriesFileOrbitPropagation::SearchNearestEphemerisTimeId"]}
{"id": "C120", "title": "Time series orbit: following the time and the end of the file", "statement": "When the calls are not further apart than the rows, the time stays in the middle interval of the interpolation window until the middle of the last window; in the next interval the last row of the file is reported, although its time has not come (that rows are reported at their times is refuted there), and after that the table is read out of bounds, before the end of the file if n > 3. With longer steps the window falls behind and the orbit is extrapolated although later rows exist (refuted). A start after the last row puts the window at the beginning of the file.", "quantifier": "all files with a minimum spacing, call histories, interpolation counts", "why_tests_cant": "unbounded histories; exact boundary instants", "anchors": ["src/dynamics/orbit/time_series_file_orbit_propagation.cpp:TimeSeriesFileOrbitPropagation::Propagate", "src/dynamics/orbit/time_series_file_orbit_propagation.cpp:TimeSeriesFileOrbitPropagation::UpdateInterpolationInformation", "src/dynamics/orbit/time_series_file_orbit_propagation.cpp:TimeSeriesFileOrbitPropagation::CalcEphemerisTimeData"]}
{"id": "C121", "title": "GNSS satellites from SP3 files", "statement": "For complete daily SP3 files whose epochs increase over the whole list, the first window of nine epochs begins four epochs before the one nearest to the start time (but not before the beginning of that day's file) and runs on into the next files; for every history of updates the window moves by one epoch whenever the time has passed its middle epoch. At every time asked for, the position is the trigonometric interpolation (period 1.003 days) of the nine file positions in metres and the clock offset the polynomial through the nine offsets in seconds: the file values at the epochs, exact for trigonometric motions of degree four and clock polynomials of degree below nine. Times before the first window or over 1e6 s after it and satellite indices above the count give zero; the index equal to the count reads out of bounds. With steps not longer than the spacing the time stays in the middle of the window until the fifth epoch from the end, after which the next file is read out of bounds.", "quantifier": "all SP3 contents with increasing epochs, start times, update histories, satellites and query times", "why_tests_cant": "unbounded files and histories, all reals", "anchors": ["src/environment/global/gnss_satellites.cpp:GnssSatellites::Initialize", "src/environment/global/gnss_satellites.cpp:GnssSatellites::Update", "src/environment/global/gnss_satellites.cpp:GnssSatellites::GetPosition_ecef_m", "src/environment/global/gnss_satellites.cpp:GnssSatellites::GetClock_s", "src/environment/global/gnss_satellites.cpp:GnssSatellites::UpdateInterpolationInformation"]}
{"id": "C122", "title": "SP3: file of the day and nearest epoch", "statement": "For epochs at the header's interval the nearest-epoch search returns the epoch nearest to the time (of two equally near the later, the first or last epoch outside the file). The file used is the only one whose day contains the start time and before which all files' days are over; if there is none, nothing is initialised. The window does not reach back into the previous day's file, so in the first hours of a day the time is at its edge (that it is centred is refuted), and a start within the last epochs of the last file reads out of bounds (refuted).", "quantifier": "all file lists and times", "why_tests_cant": "all reals and file lists", "anchors": ["src/math_physics/gnss/sp3_file_reader.cpp:Sp3FileReader::SearchNearestEpochId", "src/environment/global/gnss_satellites.cpp:GnssSatellites::GetCurrentSp3File", "src/environment/global/gnss_satellites.cpp:GnssSatellites::Initialize"]}
{"id": "C123", "title": "SP3 file reading", "statement": "For every text that is a complete SP3 position file (header lines, as many satellite id and accuracy lines as needed for n satellites, any comments, at least two epochs of n position lines each optionally followed by a correlation line, anything not beginning with EP after them), the reader succeeds and holds exactly the file's start time, interval, satellite ids, accuracies, epochs and, for each satellite and epoch, the position, clock offset, standard deviations (blank ones as zero) and flags written in the line's columns; the result is usable by the GNSS satellites. A position line gives an entry exactly when its fields are numbers and it is not cut inside the optional columns (a length of 62..69 or 74..78): otherwise an exception leaves the reader. A velocity line is accepted exactly when its four numbers and, beyond 60 characters, its deviations in columns 61, 63, 65 and 70 are numbers; blank deviations there throw.", "quantifier": "all texts, numbers of satellites, epochs, comments; all position lines", "why_tests_cant": "unbounded texts; every character of every line matters", "anchors": ["src/math_physics/gnss/sp3_file_reader.cpp:Sp3FileReader::ReadFile", "src/math_physics/gnss/sp3_file_reader.cpp:Sp3FileReader::ReadHeader", "src/math_physics/gnss/sp3_file_reader.cpp:Sp3FileReader::DecodePositionClockData", "src/math_physics/gnss/sp3_file_reader.cpp:Sp3FileReader::DecodePositionClockCorrelation"]}
{"id": "C124", "title": "SP3 files that are cut off or of another kind", "statement": "A missing file leaves an empty reader. That incomplete files are rejected is refuted: a file that ends in its last epoch after a position line without a newline is accepted, with that line's position copied to all satellites left; one that ends inside the satellite id lines or the comments without a newline is never done with; a file of a single epoch is read out of bounds. A position-and-velocity file (V in the header) is never recognised as such: reading ends after the first satellite of the first epoch, whose entry is kept.", "quantifier": "all cut points of these kinds, all texts", "why_tests_cant": "every truncation point of every file", "anchors": ["src/math_physics/gnss/sp3_file_reader.cpp:Sp3FileReader::ReadFile", "src/math_physics/gnss/sp3_file_reader.cpp:Sp3FileReader::ReadHeader"]}
{"id": "C125", "title": "SGP4 has no memory", "statement": "Whatever times were propagated before, in any order and number, an SGP4 propagation to a time gives the same position, velocity and error code (or failure) as the first propagation of the freshly initialised record. The same holds for the orbit object after any sequence of enabling, disabling and propagating calls; a disabled object does not change.", "quantifier": "all records (near Earth and deep space), gravity models, call histories, times and dates", "why_tests_cant": "unbounded histories; deep space integration keeps intermediate results in the record", "anchors": ["src/math_physics/orbit/sgp4/sgp4unit.cpp:sgp4", "src/math_physics/orbit/sgp4/sgp4unit.cpp:dspace", "src/dynamics/orbit/sgp4_orbit_propagation.cpp:Sgp4OrbitPropagation::Propagate"]}
{"id": "C126", "title": "SGP4 error codes", "statement": "A propagation with finite numbers reports one of the codes 0, 1, 3, 6 (3 for deep space only); codes 2 and 4 are never left. Without code 6 the position given is not inside the Earth. When no position is written the code is 6, and this does happen for element sets well inside the theory that initialise without an error (that every propagation gives a position is refuted): the orbit object then copies uninitialised variables. The initialisation of a near-Earth satellite reports 5 exactly if the perigee is inside the Earth, and the next propagation replaces that code.", "quantifier": "all records, gravity models, times, element sets", "why_tests_cant": "all reals; a read of uninitialised memory", "anchors": ["src/math_physics/orbit/sgp4/sgp4unit.cpp:sgp4", "src/math_physics/orbit/sgp4/sgp4unit.cpp:sgp4init", "src/dynamics/orbit/sgp4_orbit_propagation.cpp:Sgp4OrbitPropagation::Propagate"]}
{"id": "C127", "title": "SGP4 resonance integration", "statement": "For a deep space satellite in resonance with the Earth's rotation, the mean motion and mean anomaly at any time come from integrating the resonance angle from the epoch towards the time in steps of 720 minutes by the second order method, as many whole steps as fit and one shorter one, with the published tesseral terms (angles and phases) as rates, forwards and backwards; without resonance the elements are linear in time. The propagation ends for every record and time.", "quantifier": "all deep space records, times positive and negative of any size", "why_tests_cant": "unbounded number of steps", "anchors": ["src/math_physics/orbit/sgp4/sgp4unit.cpp:dspace"]}
{"id": "C128", "title": "SGP4 is the theory of Spacetrack Report No. 3", "statement": "For every element set with a period below 225 minutes that initialises, every time and any propagations before, the position, velocity and error code are those of the equations of Spacetrack Report No. 3 as corrected in 2006 (original mean motion, drag coefficients C1-C5, D2-D4, secular and long and short period terms, truncated drag below 220 km), written independently as a mathematical specification; the equations determine them. The constants are those of WGS-72 (old and new) and WGS-84.", "quantifier": "all element sets (reals), gravity models, times, histories", "why_tests_cant": "all real inputs against a specification of some eighty equations", "anchors": ["src/math_physics/orbit/sgp4/sgp4unit.cpp:sgp4init", "src/math_physics/orbit/sgp4/sgp4unit.cpp:initl", "src/math_physics/orbit/sgp4/sgp4unit.cpp:sgp4", "src/math_physics/orbit/sgp4/sgp4unit.cpp:getgravconst"]}
{"id": "C129", "title": "SGP4 solves Kepler's equation", "statement": "For every mean longitude and eccentricity vector of length up to 0.4, at most ten turns of the limited Newton iteration give the sine and cosine of a number within 2.4e-12 of the only solution of Kepler's equation; below 1 a result always comes, and whenever a result comes it is the estimate at which the limited iteration first has a correction below 1e-12 or the tenth.", "quantifier": "all mean longitudes and eccentricity vectors", "why_tests_cant": "convergence for every real input", "anchors": ["src/math_physics/orbit/sgp4/sgp4unit.cpp:sgp4"]}
{"id": "C130", "title": "Ordinary low orbits never fail", "statement": "Every element set with a period of at most 224 minutes and a two-body perigee of at least 1.02 Earth radii initialises without an error for any drag term. At epoch, and without drag at every time, the propagation reports no error and a distance between the two-body perigee minus 0.02 and the two-body apogee plus 0.02 Earth radii, never below the surface. Without drag the node moves at a constant rate against the sign of the cosine of the inclination.", "quantifier": "all such element sets, all times, all histories", "why_tests_cant": "unbounded time; all reals", "anchors": ["src/math_physics/orbit/sgp4/sgp4unit.cpp:sgp4", "src/math_physics/orbit/sgp4/sgp4unit.cpp:sgp4init"]}
{"id": "C131", "title": "From two line elements to the orbit object", "statement": "Two-digit years mean 1957 to 2056 and the epoch is the fractional day of that year. After construction and any calls, an object for elements with a period below 225 minutes shows in metres and metres per second the state that the theory gives for the minutes from the epoch of the lines to the date asked for, with the angles, mean motion and drag term converted from degrees, revolutions per day and decimal exponent; it starts disabled, its acceleration is always zero. Ordinary element sets always give an object. A gravity setting other than 0, 1, 2 leaves the model uninitialised.", "quantifier": "all element lines (numbers after scanning), settings, dates, histories", "why_tests_cant": "all reals and histories", "anchors": ["src/math_physics/orbit/sgp4/sgp4io.cpp:twoline2rv", "src/dynamics/orbit/sgp4_orbit_propagation.cpp:Sgp4OrbitPropagation::Sgp4OrbitPropagation", "src/dynamics/orbit/sgp4_orbit_propagation.cpp:Sgp4OrbitPropagation::Propagate"]}
{"id": "C132", "title": "Initial orbit from the settings file", "statement": "The orbit object made is the kind the settings' propagate_mode word names (an unknown word makes an RK4 orbit), enabled as the file says. RK4 and Encke orbits start exactly at the file's position and velocity unless initialize_mode is ORBITAL_ELEMENTS, and then (like a Kepler orbit) at the state of the file's elements at the current time, within 25e-6 of the semi-major axis of the exact Kepler motion for eccentricities up to 1/5. A Kepler orbit from position and velocity starts within 25e-6 of the semi-major axis of the given position and stays there while disabled. A relative orbit starts at the given position and velocity in the reference spacecraft's LVLH frame; a reference not registered yet is an exception. That changing propagate_mode alone keeps the start is refuted (DEFAULT means position/velocity for RK4 but elements for KEPLER), and so is that another section's state is used when another section is asked for.", "quantifier": "all settings files, dates, sections and reference states", "why_tests_cant": "all words, all real states", "anchors": ["src/dynamics/orbit/initialize_orbit.cpp:InitOrbit", "src/dynamics/orbit/initialize_orbit.cpp:InitializePosVel", "src/dynamics/orbit/orbit.cpp:SetOrbitInitializeMode", "src/dynamics/orbit/kepler_orbit_propagation.cpp:KeplerOrbitPropagation::Propagate"]}
{"id": "C133", "title": "Initial attitude from the settings file", "statement": "The attitude object made is the kind the propagate_mode word names (an unknown word makes RK4). Unless initialize_mode is CONTROLLED it starts with the file's quaternion, angular velocity and torque, and construction succeeds exactly when the inertia tensor is invertible. With CONTROLLED and accepted pointing modes it starts at rest with the unit quaternion that puts the main body direction exactly on the main target and, among all rotations doing so, the sub direction closest to its target; with rejected modes or inertial stabilisation at rest with the file's quaternion. With propagate_mode CONTROLLED the initialisation mode has no effect: it starts with the file's quaternion at rest. The seven mode words mean the seven modes, any other word means none. That the start quaternion is a unit quaternion is refuted.", "quantifier": "all settings files, surroundings, inertia tensors", "why_tests_cant": "all words and real states; optimality over all rotations", "anchors": ["src/dynamics/attitude/initialize_attitude.cpp:InitAttitude", "src/dynamics/attitude/controlled_attitude.cpp:ConvertStringToCtrlMode"]}
{"id": "C134", "title": "I2C devices, GPIO lines and ticks of the on-board computer with C2A", "statement": "For every history of component and flight software calls over any computers and ports, a call on an I2C port hands back exactly the bytes of the register file of that port; registers written by a component are read back by the component and, after selecting the register, by the flight software, registers written by the flight software are read by the component, and a command sent is the command read (up to register 254; past it addresses wrap: refuted). Another device connecting to the port clears only its own address. Destroying one component removes the port for all devices on it, so the next access of any other is undefined (refuted), and the ports are shared by all computer objects (refuted). The flight software is initialised once before its first tick and gets exactly regulator ticks per activation. A GPIO write is seen on exactly the indices with the same port id; an index outside the list is undefined.", "quantifier": "all call histories, ports, addresses, data, computers", "why_tests_cant": "unbounded call histories over many objects", "anchors": ["src/components/real/cdh/on_board_computer_with_c2a.cpp:ObcWithC2a", "src/components/base/i2c_target_communication_with_obc.cpp:I2cTargetCommunicationWithObc", "src/components/base/gpio_connection_with_obc.cpp:GpioConnectionWithObc"]}
{"id": "C135", "title": "Telemetry frames stored for a HILS I2C host", "statement": "Refilling the converter up to n frames sends exactly the missing frames, each holding the registers from the selected one on, and leaves n frames stored; with n or more stored it reports -1 and does nothing. Over any history of received commands that leave room for a frame, exactly one frame is sent per read request and n frames stay stored. If the selected register leaves no room, or no port is connected, nothing is stored although success is reported (refuted), and the host starves.", "quantifier": "all register contents, frame counts, sizes, command histories", "why_tests_cant": "unbounded histories", "anchors": ["src/components/base/i2c_target_communication_with_obc.cpp:I2cTargetCommunicationWithObc::StoreTelemetry", "src/components/ports/hils_i2c_target_port.cpp:HilsI2cTargetPort::Send", "src/components/ports/hils_i2c_target_port.cpp:HilsI2cTargetPort::Receive"]}
{"id": "C136", "title": "Bias-SINEX files", "statement": "For every file made of header, comments, sections without data, data sections and other lines, ended or not by %=ENDBIA, the reader yields one entry per data line, in order: identifier, space vehicle, station, signal pair, unit, bias and standard deviation are the texts of the columns of the format, slope 0 if the line has none; the words of the format have their meaning and every other word is an error value. A number that cannot be read, or a data line shorter than 92 characters, is an exception; a file that cannot be opened yields none. That slopes are read is refuted: the slope's columns are read from the second one on, so its first character (a sign) is lost, and its standard deviation is 0 for every line in the format. A section that is not ended never lets the reader return, a data section that is not ended is an exception, or without a final newline no return.", "quantifier": "all files of these kinds, all texts, any number reading function", "why_tests_cant": "unbounded files; termination", "anchors": ["src/math_physics/gnss/bias_sinex_file_reader.cpp:BiasSinexFileReader::ReadFile", "src/math_physics/gnss/bias_sinex_file_reader.cpp:BiasSinexFileReader::ReadBiasSolution", "src/math_physics/gnss/bias_sinex_file_reader.cpp:BiasSolutionData::SetIdentifier", "src/math_physics/gnss/bias_sinex_file_reader.cpp:BiasSolutionData::SetUnit", "src/math_physics/gnss/bias_sinex_file_reader.cpp:BiasSolutionData::SetTargetSignal"]}
{"id": "C137", "title": "ANTEX antenna files", "statement": "For every file made of antenna blocks and other lines the entries found under a satellite index are those of the blocks of the satellites with that index, in order: type, serial number, validity times (last line of each kind; none leaves 0000/01/01), number of frequencies (1 if none), and for each frequency block its name, the last offset and the last azimuth-independent variation, read in the columns of the format with as many numbers as the grid line before it has zenith points; the number of satellites counts different indices; receivers are skipped. An access past the last frequency block is undefined whatever the file's count says. Unreadable numbers are an exception, missing grid or date numbers a read of uninitialised variables, a block that is not ended never lets the reader return. That any receiver serial is accepted is refuted (one beginning with a system letter without number aborts the reading), and so is that comments have no effect (one mentioning NOAZI in a frequency block is read as data).", "quantifier": "all files of this kind, all texts, any number and date scanning functions", "why_tests_cant": "unbounded files; termination", "anchors": ["src/math_physics/gnss/antex_file_reader.cpp:AntexFileReader::ReadFile", "src/math_physics/gnss/antex_file_reader.cpp:AntexFileReader::ReadAntexData", "src/math_physics/gnss/antex_file_reader.cpp:AntexFileReader::ReadAntexSatelliteData", "src/math_physics/gnss/antex_file_reader.cpp:AntexFileReader::ReadPhaseCenterData", "src/math_physics/gnss/antex_file_reader.hpp:AntexSatelliteData::GetPhaseCenterData"]}
{"id": "C138", "title": "Grid of an antenna pattern", "statement": "A grid has as many zenith points as fit from the start to the end. If the step divides the range, the zenith (azimuth) index given is for every angle, inside or outside of the range, that of a nearest grid point. If it does not, the index is of a point within half a step, which may be one past the last (refuted that the index is always one of the grid). Grids read from files have azimuth step zero: no azimuth points, and the azimuth index is 2^64-1 from 360 degrees on and undefined behaviour between 0 and 360 (refuted that it is usable).", "quantifier": "all real angles, ranges and steps", "why_tests_cant": "all reals", "anchors": ["src/math_physics/gnss/antex_file_reader.cpp:AntexGridDefinition::CalcClosestZenithIndex", "src/math_physics/gnss/antex_file_reader.cpp:AntexGridDefinition::CalcClosestAzimuthIndex", "src/math_physics/gnss/antex_file_reader.cpp:AntexGridDefinition::AntexGridDefinition"]}
{"id": "C139", "title": "Settings of one device do not influence another", "statement": "For every settings file and every two numbered devices (14 kinds of components built by Init functions, different in kind or number), changing the file only in the sections of one leaves what is built for the other unchanged; a device is determined by its own sections, and the wheels built before leave no trace in a wheel although they share variables. Only the power port is common: a device with a power port switches at the voltage and draws the power of the section POWER_PORT, the same for all devices of the file.", "quantifier": "all settings files, all kinds and numbers of devices, all previous initialisations", "why_tests_cant": "all pairs of files and devices; section names built from numbers", "anchors": ["src/components/real/aocs/gyro_sensor.cpp:InitGyroSensor", "src/components/real/aocs/reaction_wheel.cpp:InitParams", "src/components/ports/power_port.cpp:PowerPort::InitializeWithInitializeFile", "src/components/base/sensor_template_functions.hpp:ReadSensorInformation"]}
{"id": "C140", "title": "Gyro and magnetometer from a settings file", "statement": "What a gyro or a magnetometer built from a file reports is, for every measured vector and measurement, the vector turned into the component frame, multiplied by the file's scale factor matrix (the identity if its nine entries are zero or missing), plus the file's bias, plus a random walk and noise of the file's standard deviations, cut at the file's ranges on each axis; with standard deviations zero the random parts vanish.", "quantifier": "all files, devices, random sequences, vectors, measurement numbers", "why_tests_cant": "all reals and files", "anchors": ["src/components/real/aocs/gyro_sensor.cpp:InitGyroSensor", "src/components/real/aocs/magnetometer.cpp:InitMagnetometer", "src/components/base/sensor_template_functions.hpp:ReadSensorInformation"]}
{"id": "C141", "title": "Time step of devices from a settings file", "statement": "Every device runs exactly on the ticks that are multiples of its file's prescaler (1 if that is below 1), and the time step it computes random walks, delays and integrals with is the time between two such ticks. For thrusters this is refuted: they use the step_width_s of the file whatever the prescaler and the component step are.", "quantifier": "all files, kinds, numbers, component steps, ticks", "why_tests_cant": "unbounded ticks, all files", "anchors": ["src/components/real/propulsion/simple_thruster.cpp:InitSimpleThruster", "src/components/real/aocs/star_sensor.cpp:InitStarSensor", "src/components/real/aocs/magnetorquer.cpp:InitMagnetorquer", "src/components/base/component.cpp:Component::Tick"]}
{"id": "C142", "title": "Axis of a reaction wheel from a settings file", "statement": "With direction_determination_mode QUATERNION the wheel turns about the z axis of the component frame of the file's quaternion; with any other word about direction_b: exactly, except within DBL_EPSILON (in cosine) of plus or minus z, where the cosine between the two is at least 1 - DBL_EPSILON; without a direction the program aborts. The jitter of the wheel acts in the same frame. The other values of the wheel are those of its section, friction coefficient k below friction_order from the key friction_coefficients(k); a negative order throws.", "quantifier": "all files and wheels", "why_tests_cant": "all real directions", "anchors": ["src/components/real/aocs/reaction_wheel.cpp:InitParams", "src/components/real/aocs/reaction_wheel.cpp:InitReactionWheel"]}
{"id": "C143", "title": "Star and sun sensor from a settings file", "statement": "A star sensor built from a file waits and repeats for the file's seconds cut to whole update intervals (at least one) and raises its error flag by the file's exclusion angles and rate limit in degrees. A sun sensor built from a file detects the Sun exactly when the illuminance of the previous run reaches the file's percentage of the solar constant and the Sun is less than field_of_view_deg off the boresight; that field_of_view_deg is the full angle is refuted for every value (a Sun three quarters of it off the boresight is detected).", "quantifier": "all files, Sun directions and powers, histories", "why_tests_cant": "all reals and histories", "anchors": ["src/components/real/aocs/star_sensor.cpp:InitStarSensor", "src/components/real/aocs/sun_sensor.cpp:InitSunSensor"]}
{"id": "C144", "title": "Magnetorquer and interference from a settings file", "statement": "A magnetorquer whose nine scale factors are zero or missing in the file produces neither moment nor torque after any history (the identity is not put in, unlike for sensors). With the identity, no bias and no noise in the file it gives from the first step after a command on the commanded moment cut at the file's limits, and the torque moment x field. The interference of a magnetorquer on the magnetometer is the file's polynomial of the moment; a negative degree ends the program.", "quantifier": "all files, command histories, fields, moments", "why_tests_cant": "unbounded histories, all polynomial degrees", "anchors": ["src/components/real/aocs/magnetorquer.cpp:InitMagnetorquer", "src/components/real/aocs/mtq_magnetometer_interference.cpp:MtqMagnetometerInterference::MtqMagnetometerInterference"]}
{"id": "C145", "title": "Mounting quaternions in settings files", "statement": "A quaternion NAME is read from the keys NAME_(0..3), and if these are all zero or missing from NAME(0..3); it is not normalised: a vector turned by it is stretched by the square of its length, so a gyro or magnetometer without a mounting quaternion in the file gives readings that do not depend on what it measures.", "quantifier": "all files, names, vectors", "why_tests_cant": "all reals and files", "anchors": ["src/setting_file_reader/initialize_file_access.cpp:IniAccess::ReadQuaternion", "src/math_physics/math/quaternion.cpp:Quaternion::FrameConversion"]}
{"id": "C146", "title": "Words, antennas and ideal components in settings files", "statement": "A GNSS receiver uses the cone model exactly when the file says CONE and GNSS satellites are computed; orbit observer noise is in RTN exactly when the file says RTN. An antenna from a file has in every direction the EIRP and G/T of the file's numbers, with the constant gain unless the word is RADIATION_PATTERN_CSV and then the gain of the file's table; a side switched off contributes 0 dB; a negative table length of a side in use ends the program. The ideal components share the prescaler of COMPONENT_BASE; their angles are degrees in the file and radians in use.", "quantifier": "all files, words, directions", "why_tests_cant": "all words and reals", "anchors": ["src/components/real/communication/antenna.cpp:InitAntenna", "src/components/real/communication/antenna.cpp:SetAntennaGainModel", "src/components/real/aocs/gnss_receiver.cpp:InitGnssReceiver", "src/components/ideal/orbit_observer.cpp:InitializeOrbitObserver", "src/components/ideal/attitude_observer.cpp:InitializeAttitudeObserver"]}
{"id": "C147", "title": "Battery, solar panel and telescope from a settings file", "statement": "A battery from a file has the voltage number of series x polynomial of the discharged capacity with the file's order and coefficients (0 V for a negative order) and the charging current rate x capacity x parallel. A solar panel built with the Sun's position generates the file's efficiencies x area x cells x the cosine to the Sun, never negative; built by the variant without it, computing the power is undefined behaviour whatever the file says (refuted that both variants work). A telescope is built when pixels x degrees per pixel is less than 90 on both axes and the number of logged stars is not negative, with fields and exclusion angles in degrees; otherwise the program ends.", "quantifier": "all files, Sun positions, powers", "why_tests_cant": "all reals; uninitialised memory", "anchors": ["src/components/real/power/battery.cpp:InitBAT", "src/components/real/power/solar_array_panel.cpp:InitSAP", "src/components/real/mission/telescope.cpp:InitTelescope"]}
{"id": "C148", "title": "Thermal model built from its CSV files", "statement": "A thermal model is built exactly when heatload.csv, node.csv, heaters.csv, cij.csv and rij.csv describe one, and it is the one they describe: node i is row i+1 of node.csv (type 1 boundary, 2 arithmetic, anything else diffusive; negative temperature, capacity, area become 0, coefficients outside [0,1] become 0), its load is row i+1 of heatload.csv over the times of the first row, heater and controller k are row k+1 of heaters.csv, the matrices are the files' numbers, with as many rows as nodes and a first row of that length. Otherwise an assertion or conversion stops the program, unless one of the first three files is missing or empty (undefined). With the calculation disabled nothing is read. The ids in the first columns are ignored; that a load belongs to the node named in its row is refuted.", "quantifier": "all files (texts), conversions", "why_tests_cant": "files and tables of any size", "anchors": ["src/dynamics/thermal/temperature.cpp:InitTemperature", "src/dynamics/thermal/node.cpp:InitNode", "src/dynamics/thermal/heater.cpp:InitHeater", "src/dynamics/thermal/heater_controller.cpp:InitHeaterController", "src/dynamics/thermal/heatload.cpp:InitHeatload"]}
{"id": "C149", "title": "Thermal model from files in use", "statement": "In a thermal model built from files the heat node i takes from the others is that of the numbers in row i of cij.csv and rij.csv, provided those rows have a number per node, and undefined behaviour otherwise (that an accepted model never reads outside its tables is refuted); with complete symmetric files the heat inputs add up to 0. The internal load of node i interpolates row i+1 of heatload.csv linearly; a heatload.csv with a single time column is accepted and undefined at first use. Heater column 0 means none, k the k-th row of heaters.csv, any other number (negative included) is undefined behaviour. Nodes of type 0 get a unit normal (NaN for the zero vector); that every diffusive node has one is refuted.", "quantifier": "all files, temperatures, times, histories", "why_tests_cant": "files of any size, all reals", "anchors": ["src/dynamics/thermal/temperature.cpp:Temperature::CalcTemperatureDifferentials", "src/dynamics/thermal/temperature.cpp:Temperature::GetHeaterPower_W", "src/dynamics/thermal/temperature.cpp:InitTemperature", "src/dynamics/thermal/node.cpp:InitNode"]}
{"id": "C150", "title": "Celestial bodies from the settings file", "statement": "Body number i of the simulation is SPICE's body of the name selected_body_name(i) of the settings file, in order, with the mean radius of SPICE's three radii, and after every ephemeris update a body is found by its name with SPICE's position of it. The program ends when the number is negative or a name is unknown; a name of 30 or more characters is read beyond its buffer. The rotation mode of the Earth and of the Moon is the word beside their own name; one that is not selected takes the word of the first body.", "quantifier": "all settings files, name tables, SPICE constants and states", "why_tests_cant": "unbounded numbers of bodies, arbitrary texts", "anchors": ["src/environment/global/celestial_information.cpp:InitCelestialInformation", "src/environment/global/celestial_information.cpp:CelestialInformation::CelestialInformation", "src/environment/global/celestial_information.hpp:GetRotationMode"]}
{"id": "C151", "title": "Local environment from the settings file", "statement": "In every history an environment switched off in its section of the settings file keeps its initial value, as do the geomagnetic field and the air density when the center object is not called EARTH in capital letters. What is switched on is computed with the file's albedo factor and infrared temperatures. Shadows are cast by the center object and the first named further source only (the list has one place for each). A negative number of sources ends the program. Solar activity indices below 50 become 150.", "quantifier": "all settings files, center objects, update histories", "why_tests_cant": "unbounded histories and arbitrary files", "anchors": ["src/environment/local/local_environment.cpp:LocalEnvironment::Initialize", "src/environment/local/geomagnetic_field.cpp:InitGeomagneticField", "src/environment/local/atmosphere.cpp:InitAtmosphere", "src/environment/local/solar_radiation_pressure_environment.cpp:InitSolarRadiationPressureEnvironment", "src/environment/local/earth_albedo.cpp:InitEarthAlbedo", "src/environment/local/earth_infrared.cpp:InitEarthInfrared"]}
{"id": "C152", "title": "Disturbances from the settings files", "statement": "A spacecraft gets the disturbances that belong to its center object; after every history the total torque, force and acceleration are the sums over those whose section of the file says ENABLE or 1. The third bodies are the names listed, once each, none of them called like the center object and each found by its name among the bodies of the base file; otherwise the program ends. That the center body never acts as a third body, and that the Earth's disturbances and environment are there whenever the Earth is the center, is refuted: names are compared as texts. Air drag temperatures are taken as degrees Celsius plus 273.", "quantifier": "all settings files, update histories", "why_tests_cant": "unbounded histories, arbitrary files", "anchors": ["src/disturbances/disturbances.cpp:Disturbances::InitializeInstances", "src/disturbances/third_body_gravity.cpp:InitThirdBodyGravity", "src/disturbances/air_drag.cpp:InitAirDrag", "src/disturbances/geopotential.cpp:InitGeopotential"]}
{"id": "C153", "title": "Simulation time from the settings file", "statement": "A start time year/month/day hour:minute:second is read as these numbers; any other separator leaves it undefined. Given a readable date and a component period whose inverse fits into int, the settings are accepted exactly if no integration step is longer than its update period and the simulation step is not longer than any period. With a positive step and a duration of zero or more an accepted simulation ends after the first N updates with N times the step over the duration and writes a log row every period. That every accepted simulation ends is refuted (a missing step is 0 and accepted), as is that accepted integration steps are positive. The component rate is the whole part of 1/period, zero above one second.", "quantifier": "all settings files, start texts, durations and periods", "why_tests_cant": "all reals, unbounded runs, arbitrary texts", "anchors": ["src/environment/global/simulation_time.cpp:InitSimulationTime", "src/environment/global/simulation_time.cpp:SimulationTime::SimulationTime", "src/environment/global/simulation_time.cpp:SimulationTime::AssertTimeStepParams"]}
{"id": "C154", "title": "Text of two line elements", "statement": "Two lines in the standard columns are read as the numbers written in them: two-digit year and day, derivatives of the mean motion and drag term with implied points and exponents, angles, eccentricity with implied point and mean motion; blanks in the columns count as the format says (padding, zero or plus sign). The orbit object built from the texts then shows what the theory gives for these numbers. Element and revolution numbers, check digits and the catalogue numbers have no influence, so lines with a wrong check digit or of two satellites are accepted (rejection refuted). A catalogue number beginning with a letter leaves the elements undefined. With two blanks before the mean motion a digit of the revolution number is read into it (refuted).", "quantifier": "all texts in the standard columns, gravity settings, dates and histories", "why_tests_cant": "every character of every line matters; unbounded histories", "anchors": ["src/math_physics/orbit/sgp4/sgp4io.cpp:twoline2rv", "src/dynamics/orbit/sgp4_orbit_propagation.cpp:Sgp4OrbitPropagation::Sgp4OrbitPropagation", "src/dynamics/orbit/initialize_orbit.cpp:InitOrbit"]}
{"id": "C155", "title": "Which component routines run when in a run", "statement": "In a run, update n calls component routines only if the component period (kc steps) divides n+1; then every registered component is asked in the order of registration with the same count, the number of earlier such updates (modulo 2^32), which is floor(n/kc), less one for kc = 1. A component that always has power runs its main routine exactly in updates kc(1+jP)-1 (1+jP for kc = 1), P its prescaler, until the count wraps; without power its power off routine is called instead; the power is looked at when the routine is due, so a component can switch a later one in the same update.", "quantifier": "all component sets, prescalers, periods, power histories, environments and run lengths", "why_tests_cant": "all run lengths and all behaviours of components and environment", "anchors": ["src/simulation/case/simulation_case.cpp:SimulationCase::Main", "src/environment/global/clock_generator.cpp:ClockGenerator::UpdateComponents", "src/components/base/component.cpp:Component::Tick", "src/simulation/spacecraft/spacecraft.cpp:Spacecraft::Update"]}
{"id": "C156", "title": "What the rows of the log of a run show", "statement": "A run ends after the first N updates with N steps over the end time; the rows of the log are the states after 0, kl, 2kl, ... < N updates, with time n steps. The attitude (orbit) in row n is the one propagated in the last update m <= n with ka (ko) dividing m+1, to the time of update m with the torque (acceleration) of update m. Celestial bodies, GNSS satellites and the ground station are those of the row's time, the local environment is computed from the orbit and attitude of the update before. That a row shows the attitude at its time is refuted: with equal periods of two or more steps it is always one step old.", "quantifier": "all settings, dynamics, environments, components and run lengths", "why_tests_cant": "all run lengths and all behaviours of the parts", "anchors": ["src/simulation/case/simulation_case.cpp:SimulationCase::Main", "src/environment/global/global_environment.cpp:GlobalEnvironment::Update", "src/environment/global/simulation_time.cpp:SimulationTime::UpdateTime", "src/simulation/spacecraft/spacecraft.cpp:Spacecraft::Update", "src/dynamics/dynamics.cpp:Dynamics::Update"]}
{"id": "C157", "title": "The sample spacecraft", "statement": "Its sixteen devices are at the clock once each, in the order of construction, whatever temporary copies the compiler makes. Disturbances, magnetorquer, wheel, thruster and torque generator turn it, disturbances, thruster and force generator push it, each once per step with its output of this step. The on board computer has power; the gyro if its file's minimum voltage and power allow; the seven other devices on the power control unit share a port with the settings of the thruster's file alone. That the port draws the sum of what its devices ask for is refuted.", "quantifier": "all settings files, temporaries, disturbances and component states", "why_tests_cant": "all settings, copies and states", "anchors": ["example/src/simulation/spacecraft/sample_components.cpp:SampleComponents::SampleComponents", "example/src/simulation/spacecraft/sample_components.cpp:SampleComponents::GenerateForce_b_N", "example/src/simulation/spacecraft/sample_components.cpp:SampleComponents::GenerateTorque_b_Nm"]}
{"id": "C158", "title": "Example serial device", "statement": "For every history of bytes sent by the flight software, reads and activations, the example serial component behaves as a pair of byte queues of 1024 and a list of parameters: each activation takes up to five bytes, a chunk that starts with SET and has a fourth byte puts that byte in front of the list (any other chunk is dropped), and the answer is 24 bytes: the newest parameters, newest first, then zeros; no access is out of bounds. With one four-byte command per activation the n-th answer shows parameters 1..n. That every command sent takes effect is refuted: of two commands sent between two activations the second is lost, for good.", "quantifier": "all histories of sends, reads and activations; all contents of the ports' memory", "why_tests_cant": "a test sends a few commands in one order; queue overflow, partial chunks and interleavings are unbounded", "anchors": ["src/components/examples/example_serial_communication_with_obc.cpp:ExampleSerialCommunicationWithObc", "src/components/base/uart_communication_with_obc.cpp:ReceiveCommand", "src/components/base/uart_communication_with_obc.cpp:SendTelemetry"]}
{"id": "C159", "title": "Example serial sender and responder", "statement": "For every history of sends, reads and activations, the sender answers each activation with ABC, BCD, ..., XYZ in turn and again ABC, and a zero, whatever it receives; the responder answers with the first three of the four bytes taken last and a zero, bytes of earlier receptions filling in where fewer came.", "quantifier": "all histories of sends, reads and activations", "why_tests_cant": "the cycle and the leftovers of earlier receptions show only in long and irregular histories", "anchors": ["src/components/examples/example_serial_communication_for_hils.cpp:ExampleSerialCommunicationForHils", "src/components/base/uart_communication_with_obc.cpp:ReceiveCommand"]}
{"id": "C160", "title": "Example I2C devices in a hardware in the loop simulation", "statement": "For every sequence of requests by the host, one or none between two activations and for any register, the example target hands the converter exactly the frames of the specification: it keeps three frames there, each with five registers from the requested one on, the registers 0 to 4 showing ABCDE, BCDEF, ..., VWXYZ in turn; a request that leaves no room sends nothing and is made up for later. A host that asks for register 0 before every activation gets three times ABCDE and then one frame for each request with the letters of that activation. The controller sends a register write and a five byte read in the converter's format and prints what it received; outside of HILS it does nothing. Refuted: that the first frames carry the five letters (without a waiting request they are E and four zeros, because writing the registers moves the selected register) and that every request yields a frame (two requests between two activations are taken for a register write).", "quantifier": "all sequences of requests and registers", "why_tests_cant": "the frames depend on the whole interleaving of requests and activations", "anchors": ["src/components/examples/example_i2c_target_for_hils.cpp:ExampleI2cTargetForHils", "src/components/examples/example_i2c_controller_for_hils.cpp:ExampleI2cControllerForHils", "src/components/base/i2c_controller.cpp:I2cController", "src/components/ports/hils_i2c_target_port.cpp:HilsI2cTargetPort"]}
{"id": "C161", "title": "Changing mass properties during a run", "statement": "If the inertia tensor is replaced before a propagation of AttitudeRk4 and the body turns about a common principal axis (wheel momentum and torque along it), the propagation changes the angular momentum along the axis by exactly the impulse of the torque, for any number and width of integration steps, and keeps the axis in inertial space as long as the quaternion keeps length 1 (it has length 1 or 0): without torque the inertial angular momentum is conserved. The example component leaves the structure as configured through its activations 1 to 1001 and from the 1002nd on mass, center of gravity, magnetic moment, first area and inertia are the new ones; a spacecraft without surfaces then makes it undefined. The spin about a principal axis with moment j0 becomes 5 j0 times as fast.", "quantifier": "all inertia tensors, axes, rates, torques, step widths and end times; all numbers of activations", "why_tests_cant": "all real inputs and step counts; the effect shows after more than a thousand activations", "anchors": ["src/components/examples/example_change_structure.cpp:MainRoutine", "src/dynamics/attitude/attitude_rk4.cpp:Propagate", "src/simulation/spacecraft/structure/kinematics_parameters.hpp:KinematicsParameters"]}
{"id": "C162", "title": "Deep space satellites drift as the averaged Sun and Moon make them", "statement": "For every deep space satellite (original period of 225 minutes or more) with eccentricity above 0 and an inclination whose sine is not 0, initialised at any epoch and propagated any number of times before, the secular part of a propagation changes eccentricity, inclination, perigee, node and (without resonance) mean anomaly at the rates that Lagrange's planetary equations give, at the elements of the epoch, for the tidal potential of the Sun and the Moon averaged over the satellite's revolution and the body's. The Sun's orbit is fixed, the Moon's the one of the epoch's day. Within 3 degrees of 0 or 180 degrees of inclination the node is held and the perigee moves by its own rate plus cos i times the node's. For a circular orbit the eccentricity stays and the plane moves as the equations say.", "quantifier": "all element sets, epochs, gravity models, times and histories of propagations", "why_tests_cant": "all real elements and epochs; a test compares a few published state vectors", "anchors": ["src/math_physics/orbit/sgp4/sgp4unit.cpp:dscom", "src/math_physics/orbit/sgp4/sgp4unit.cpp:dsinit", "src/math_physics/orbit/sgp4/sgp4unit.cpp:dspace", "src/math_physics/orbit/sgp4/sgp4unit.cpp:sgp4init"]}
{"id": "C163", "title": "Periodic effects of Sun and Moon on deep space satellites", "statement": "For the same satellites, epochs and histories, the periodic part of a propagation adds to the elements the sum of two changes, one a function of the Sun's and one of the Moon's true anomaly at the time (to first order in their eccentricities, from their mean anomalies at the epoch): each is the zero-mean integral over the body's orbit of the difference between the element's rate under the potential averaged over the satellite's revolution and its secular rate, with the body's distance in the isotropic part to first order. From 0.2 rad on the change of the node is divided by sin i and the perigee corrected by cos i times it; below 0.2 rad the direction of the node moves in the plane of the equator and the node stays within half a turn of where it was.", "quantifier": "all element sets, epochs, gravity models, times and histories", "why_tests_cant": "all real elements, epochs and times", "anchors": ["src/math_physics/orbit/sgp4/sgp4unit.cpp:dscom", "src/math_physics/orbit/sgp4/sgp4unit.cpp:dpper"]}
{"id": "C164", "title": "Resonance terms of half-day and one-day satellites", "statement": "A deep space satellite is treated as one-day resonant exactly for an original mean motion strictly between 0.0034906585 and 0.0052359877 rad/min, as half-day resonant exactly for 8.26e-3 to 9.24e-3 and eccentricity 0.5 or more. Its resonance coefficients are those of the geopotential terms of the published table with Kaula's inclination functions (for the (5,2) terms within 3e-6, because of a truncated decimal) and the published eccentricity functions; every term of the table is resonant. The resonance angle starts at mean anomaly plus node(s) (plus perigee) minus sidereal angle(s) of the epoch and moves at the secular rates relative to the Earth. At the epoch itself the integration gives back mean motion and elements, the mean anomaly up to full turns.", "quantifier": "all deep space element sets, epochs, gravity models, histories", "why_tests_cant": "all real elements; the half-day branch has three ranges of eccentricity and ten terms", "anchors": ["src/math_physics/orbit/sgp4/sgp4unit.cpp:dsinit", "src/math_physics/orbit/sgp4/sgp4unit.cpp:dspace"]}
{"id": "C165", "title": "When the deep space initialisation succeeds", "statement": "The lunar-solar and resonance initialisation gives finite numbers exactly for an eccentricity of size below 1 and a mean motion other than 0, ends always, and leaves the elements, the near-Earth coefficients, the sidereal angle and the error code alone. The initialisation of a deep space satellite reports code 5 exactly for a perigee inside the Earth.", "quantifier": "all records, epochs and gravity models", "why_tests_cant": "all real records", "anchors": ["src/math_physics/orbit/sgp4/sgp4unit.cpp:dscom", "src/math_physics/orbit/sgp4/sgp4unit.cpp:dsinit", "src/math_physics/orbit/sgp4/sgp4unit.cpp:sgp4init"]}
{"id": "C166", "title": "The RK4 orbit depends on no choice of axes or length unit, keeps its plane, and is exact without gravity", "statement": "A new RK4 orbit is at the given state at time 0 with no acceleration (whatever the initial time). Through every history of SetAcceleration and Propagate calls: rotated or mirrored axes give rotated or mirrored positions and velocities at the same times (and runs that do not return still do not); all lengths scaled by c and the gravity parameter by c^3 give positions and velocities scaled by c; with initial position and velocity and every acceleration in a plane through the center, position and velocity stay in it; without gravity position and velocity are those of constant acceleration in each span, for every step width. A Propagate that ends on the grid of steps (width above 1e-6 s) can be left out. A disabled orbit does not change; a step width of 0 or less makes Propagate never return.", "quantifier": "every state, gravity parameter, step width, sequence of accelerations and end times, every orthogonal matrix and scale", "why_tests_cant": "unbounded number of steps and calls, all real inputs", "anchors": ["src/dynamics/orbit/rk4_orbit_propagation.cpp:Rk4OrbitPropagation::Propagate", "src/dynamics/orbit/rk4_orbit_propagation.cpp:Rk4OrbitPropagation::DerivativeFunction", "src/dynamics/orbit/rk4_orbit_propagation.cpp:Rk4OrbitPropagation::Initialize"]}
{"id": "C167", "title": "Values before the first update", "statement": "Between construction and its first update every object reports the documented initial values: a power port 10 A and 3.3 V unless given, no power, voltage or current (switched on only when built without arguments, else undefined until the first update); a battery charges with the given rate times the capacity of its parallel strings; Sun sensor, magnetorquer and GNSS receiver report nothing measured or put out; an I2C target has 255 registers of 0; the telescope marks missing stars with -1 and the ground position 0; relative quantities are zero with the identity attitude; the environment has the light pressure 1366/299792458 N/m2, full sunlight and no field, albedo, infrared or air.", "quantifier": "all constructor arguments", "why_tests_cant": "a sanitizer or a test sees one build and one memory content; uninitialised members often read as 0", "anchors": ["src/components/ports/power_port.cpp:PowerPort::PowerPort", "src/components/real/power/battery.cpp:Battery::Battery", "src/components/real/aocs/sun_sensor.hpp:SunSensor", "src/components/real/aocs/magnetorquer.hpp:Magnetorquer", "src/environment/local/solar_radiation_pressure_environment.cpp:SolarRadiationPressureEnvironment::SolarRadiationPressureEnvironment"]}
{"id": "C168", "title": "Accuracy of the relative orbit with Runge-Kutta", "statement": "In the relative orbit propagated with Runge-Kutta, through every history of Propagate calls: the guiding centre of the relative motion (its radial offset and its along-track drift of -3/2 n t times the offset) is exact for every step width. Each step of width w multiplies the squared size of the relative ellipse and of the cross-track oscillation by 1-(nw)^6/72+(nw)^8/576, and the steps add up to the time. With n (step + 1e-6 s) at most 2 sqrt 2 neither ever grows, and the error against the exact solution of Hill's equations is at most (n (step+1e-6))^4/80 times the angle n t, relative to the size of the ellipse or oscillation (twice that along track; n times that for the velocities). With a larger step width a step enlarges the oscillation.", "quantifier": "all gravity parameters, reference orbits, initial states, step widths and histories of calls", "why_tests_cant": "all real initial states, step widths and unbounded histories; a test compares one trajectory with a tolerance", "anchors": ["src/dynamics/orbit/relative_orbit.cpp:RelativeOrbit::PropagateRk4", "src/dynamics/orbit/relative_orbit.cpp:RelativeOrbit::CalculateSystemMatrix", "src/math_physics/orbit/relative_orbit_models.cpp:CalcHillSystemMatrix", "src/math_physics/math/ordinary_differential_equation_template_functions.hpp:OrdinaryDifferentialEquation::Update"]}
{"id": "C169", "title": "Accuracy of the attitude of a steadily turning body", "statement": "For a body turning about a principal axis without torque (wheels' momentum along the axis), through every history of Propagate calls: the angular velocity does not change, the quaternion stays a unit quaternion, the time is the last end time, and each component of the quaternion stays within x^4/40 times half the angle turned of the exact solution of the kinematic equation, x = |w|/2 (step + 1e-6 s), for all x with x^2 at most 8. That solution is the motion in which inertial vectors seen from the body turn at -w x v.", "quantifier": "all inertia tensors, angular velocities, quaternions, step widths and histories of calls", "why_tests_cant": "all real states and unbounded histories; a test compares one trajectory with a tolerance", "anchors": ["src/dynamics/attitude/attitude_rk4.cpp:AttitudeRk4::Propagate", "src/dynamics/attitude/attitude_rk4.cpp:AttitudeRk4::RungeKuttaOneStep", "src/dynamics/attitude/attitude_rk4.cpp:AttitudeRk4::AttitudeDynamicsAndKinematics"]}
{"id": "C170", "title": "Free nutation of a body of revolution", "statement": "For a body of revolution with moments of inertia A along and B across its axis and the wheels' momentum h along the axis, without torque, through every history of Propagate calls: the spin about the axis is exact; each step of width w multiplies the squared transverse rate by 1-(Lw)^6/72+(Lw)^8/576 with the nutation rate L = ((A-B) spin + h)/B, and the steps add up to the time. With |L| (step + 1e-6 s) at most 2 sqrt 2 the nutation never grows and the angular velocity stays within (L(step+1e-6))^4/80 times the angle |L| T, relative to the transverse rate, of the solution of Euler's equations. With a larger step width a step makes the nutation grow.", "quantifier": "all bodies of revolution, axes, wheel momenta, angular velocities, step widths and histories of calls", "why_tests_cant": "all real states and unbounded histories; a test compares one trajectory with a tolerance", "anchors": ["src/dynamics/attitude/attitude_rk4.cpp:AttitudeRk4::Propagate", "src/dynamics/attitude/attitude_rk4.cpp:AttitudeRk4::RungeKuttaOneStep", "src/dynamics/attitude/attitude_rk4.cpp:AttitudeRk4::AttitudeDynamicsAndKinematics"]}
{"id": "C171", "title": "Bounds and order of the temperatures in a thermal network", "statement": "For a thermal network in which heat flows from hot to cold (no negative conductance or radiative coupling between different nodes, positive capacities), with any heat loads - heaters, sun, internal, with a memory of their own - that never warm a node faster than q2 K/s nor cool it faster than q1 K/s, and a step width small against the capacities at the temperatures that can occur: every sequence of Propagate calls in order of time returns at the last time asked for, and every temperature lies between the coldest initial one minus q1 times the time elapsed and the hottest plus q2 times the time elapsed; without loads no node ever gets hotter than the hottest or colder than the coldest was. Of two runs over the same call times the one that starts nowhere colder and is loaded nowhere less ends nowhere colder. With a larger step width this fails: the distance from a boundary is multiplied by 1 - h G / C in each step.", "quantifier": "all networks, heat-load histories, initial temperatures, step widths and sequences of calls", "why_tests_cant": "unbounded histories, arbitrary networks and loads; a test runs one network", "anchors": ["src/dynamics/thermal/temperature.cpp:Temperature::Propagate", "src/dynamics/thermal/temperature.cpp:Temperature::CalcRungeOneStep", "src/dynamics/thermal/temperature.cpp:Temperature::CalcTemperatureDifferentials"]}
{"id": "C172", "title": "Integrators converge to the exact solution", "statement": "For every differential equation y' = f(t, y) of any dimension and every solution y on an interval near which f is Lipschitz: there are a width h0 and a constant K such that the classical Runge-Kutta, Runge-Kutta-Fehlberg and Dormand-Prince integrators and the class OrdinaryDifferentialEquation, started within d0 of the solution and run with any steps - equal or of changing widths - no wider than eta, stay within K (d0 + eta) of the solution (for d0 and eta up to h0) and show the time that the steps add up to. ControlStepWidth changes nothing but the width.", "quantifier": "all differential equations, solutions, initial errors and sequences of step widths", "why_tests_cant": "all right-hand sides and all step widths; a test compares a few equations at a few widths", "anchors": ["src/math_physics/numerical_integration/runge_kutta_template.hpp:RungeKutta::Integrate", "src/math_physics/numerical_integration/embedded_runge_kutta_implementation.hpp:EmbeddedRungeKutta::Integrate", "src/math_physics/numerical_integration/embedded_runge_kutta_implementation.hpp:EmbeddedRungeKutta::ControlStepWidth", "src/math_physics/math/ordinary_differential_equation_template_functions.hpp:OrdinaryDifferentialEquation::Update"]}
{"id": "C173", "title": "The RK4 orbit converges to the exact orbit", "statement": "For every motion under the gravity of a point mass and a constant acceleration that keeps away from the centre there are a width h0 and a constant K such that every orbit of type RK4 started within d0 of it (position and velocity) is within K (d0 + eta) of it at the end of every sequence of Propagate calls in order of time whose steps are no wider than eta: that is, when the step width + 1e-6 s is at most eta, or when no call advances the time by more than eta. In particular the RK4 orbit converges to the Kepler orbit, for every semi-major axis, eccentricity below 1 and orientation, as the steps get shorter. Calls that advance the time by at most 1e-6 s take a single step whatever the step width.", "quantifier": "all gravity parameters, exact motions, initial errors, step widths and sequences of calls", "why_tests_cant": "all orbits, step widths and unbounded histories; a test compares one orbit with a tolerance", "anchors": ["src/dynamics/orbit/rk4_orbit_propagation.cpp:Rk4OrbitPropagation::Propagate", "src/dynamics/orbit/rk4_orbit_propagation.cpp:Rk4OrbitPropagation::DerivativeFunction", "src/math_physics/math/ordinary_differential_equation_template_functions.hpp:OrdinaryDifferentialEquation::Update"]}
{"id": "C174", "title": "The attitude converges to the exact rigid-body motion", "statement": "For every rigid body (any inertia tensor with an inverse, any products of inertia), constant body torque and constant momentum of the wheels, and every motion w(t), q(t) that obeys Euler's equations and q' = 1/2 q w: there are a width h0 and a constant K such that the Runge-Kutta attitude, started within d0 of the motion with a unit quaternion, is within K (d0 + eta) of it - angular velocity and quaternion - and has a unit quaternion at the end of every sequence of Propagate calls in order of time whose steps are no wider than eta (the step width + 1e-6 s is at most eta, or no call advances the time by more). So the normalisation after each step costs no accuracy in the limit, and any accuracy is reached with short enough steps.", "quantifier": "all inertia tensors, torques, wheel momenta, exact motions, initial errors, step widths and sequences of calls", "why_tests_cant": "all bodies, step widths and unbounded histories; a test compares one trajectory with a tolerance", "anchors": ["src/dynamics/attitude/attitude_rk4.cpp:AttitudeRk4::Propagate", "src/dynamics/attitude/attitude_rk4.cpp:AttitudeRk4::RungeKuttaOneStep", "src/dynamics/attitude/attitude_rk4.cpp:AttitudeRk4::AttitudeDynamicsAndKinematics"]}
{"id": "C175", "title": "Log files and saved settings files on the disk", "statement": "A log begun at local time T is the file DIR/logs_T/T_NAME (T = yymmdd_hhmmss) and holds, after every history of logs, exactly the texts given to it while switched on, in order, if no other log has the same file; logs begun in different seconds or with different names never have. DIR is log_file_save_directory, NAME default.csv or monte_carlo.csv; the directory is made whether or not settings files are saved. That a log outlives the next simulation is refuted: one begun in the same second empties it. Saving a settings file puts its text under its name into the directory of the log unless a file of that name is there (that all settings files are saved is refuted: of two with the same name only the first is); a missing one stops the program; no existing file is ever changed otherwise. A log that is off and does not save leaves the disk alone; that one that is off does so always is refuted: with saving on the settings files go to the working directory.", "quantifier": "all disks, settings files, times, directories, names and histories of logs", "why_tests_cant": "unbounded histories, arbitrary texts and paths; wall clock", "anchors": ["src/logger/logger.cpp:Logger::Logger", "src/logger/logger.cpp:Logger::CopyFileToLogDirectory", "src/logger/logger.cpp:Logger::CreateDirectory", "src/logger/logger.cpp:Logger::Write", "src/logger/initialize_log.cpp:InitLog", "src/logger/initialize_log.cpp:InitMonteCarloLog"]}
