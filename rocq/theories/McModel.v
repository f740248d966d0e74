(** Model of src/simulation/monte_carlo_simulation: monte_carlo_simulation_executor.cpp/hpp (E, EH),
    initialize_monte_carlo_parameters.cpp/hpp (P, PH), initialize_monte_carlo_simulation.cpp (I),
    simulation_object.cpp/hpp (O), and of the log file naming of src/simulation/case/simulation_case.cpp.
    Doubles are reals.  The Mersenne twister and the two std distributions are an oracle: the n-th draw is
    [uniform o n] or [normal o n]; theorems hold for every oracle whose uniform draws are in [0,1). *)
From Coq Require Import Reals List ZArith Bool Ascii String Lia.
From Verif Require Import Base RBase StringModel VecModel QuatModel.
Import ListNotations.
Open Scope R_scope.

Record oracle : Type := mkOracle { uniform : nat -> R; normal : nat -> R }.

(** ** InitializedMonteCarloParameters *)
(** PH 28-38 *)
Inductive rtype : Type :=
  kNoRandomization | kCartesianUniform | kCartesianNormal | kCircularNormalUniform | kCircularNormalNormal |
  kSphericalNormalUniformUniform | kSphericalNormalNormal | kQuaternionUniform | kQuaternionNormal.
(** PH 86-92 *)
Record param : Type := mkParam { mean_or_min : list R; sigma_or_max : list R; randomization_type : rtype; randomized_value : list R }.
(** P 19-31 (the static set-up belongs to the oracle) and SetRandomConfiguration, PH 209-222 *)
Definition param_new : param := mkParam [] [] kNoRandomization [].
Definition set_random_configuration (p : param) (mean sigma : list R) (t : rtype) : param := mkParam mean sigma t (randomized_value p).

(** P 99-105; the second component is the number of draws made so far *)
Definition uniform_1d (o : oracle) (n : nat) (lb ub : R) : R := lb + uniform o n * (ub - lb).
Definition normal_1d (o : oracle) (n : nat) (mean std : R) : R := mean + normal o n * std.
(** math_physics/math/constants.hpp: tau = 2 pi *)
Definition tau : R := 2 * PI.

(** the loop of P 109-123: mean_or_min_.size() passes, sigma_or_max_[i] is not bound checked *)
Fixpoint cartesian (draw : nat -> R -> R -> R) (n : nat) (mean sigma : list R) : outcome (list R * nat) :=
  match mean, sigma with
  | [], _ => Ok ([], n)
  | _, [] => UB
  | m :: ms, s :: ss => let! (r, n') := cartesian draw (S n) ms ss in Ok (draw n m s :: r, n')
  end.
(** P 125-132, 148-155 *)
Definition circular (r theta : R) : list R := [r * cos theta; r * sin theta].
(** P 171-180 *)
Definition spherical (r theta phi : R) : list R := [r * sin theta * cos phi; r * sin theta * sin phi; r * cos theta].
Definition calc_spherical_uniform (o : oracle) (n : nat) (r_mean r_sigma theta_min theta_max phi_min phi_max : R) : list R :=
  let r := normal_1d o n r_mean r_sigma in
  let theta := acos (cos theta_min - (cos theta_min - cos theta_max) * uniform_1d o (S n) 0 1) in
  let phi := uniform_1d o (S (S n)) phi_min phi_max in
  spherical r theta phi.
(** P 197-226.  A zero mean vector gives NaN in the code (division by the zero norm); the theorems exclude it. *)
Definition calc_spherical_normal (o : oracle) (n : nat) (mean : vec) (sigma0 sigma1 : R) : vec :=
  let dir := vscal (1 / norm 3 mean) mean in
  let op_x := cross dir (v3 1 0 0) in
  let op_y := cross dir (v3 0 1 0) in
  let nu := if rlt (norm 3 op_y) (norm 3 op_x) then normalize 3 op_x else normalize 3 op_y in
  let a := uniform_1d o n 0 tau in
  let axis := frame_conversion (q_axis_angle dir (- a)) nu in
  let b := normal_1d o (S n) 0 sigma1 in
  let ret := frame_conversion (q_axis_angle axis (- b)) dir in
  vscal (normal_1d o (S (S n)) (norm 3 mean) sigma0) ret.
(** P 245-275 and 292-296: a direction uniform on the sphere *)
Definition sphere_direction (o : oracle) (n : nat) : vec :=
  let theta := acos (1 - (1 - -1) * uniform_1d o n 0 1) in
  let phi := uniform_1d o (S n) 0 tau in
  v3 (sin theta * cos phi) (sin theta * sin phi) (cos theta).
(** 259-264 *)
Definition first_conversion (v : vec) : quat :=
  let x := v3 1 0 0 in let op := cross x v in q4 (op 0%nat) (op 1%nat) (op 2%nat) (dot 3 x v).
Definition calc_quaternion_uniform (o : oracle) (n : nat) : quat :=
  let v := sphere_direction o n in
  let second := q_axis_angle (v3 1 0 0) (uniform_1d o (S (S n)) 0 tau) in
  qmul (first_conversion v) second.
(** P 288-304 *)
Definition calc_quaternion_normal (o : oracle) (n : nat) (sigma : R) : quat :=
  q_axis_angle (sphere_direction o n) (normal_1d o (S (S n)) 0 sigma).
Definition list3 (v : vec) : list R := [v 0%nat; v 1%nat; v 2%nat].
Definition list4 (q : quat) : list R := [q 0%nat; q 1%nat; q 2%nat; q 3%nat].

(** P 65-97 with the Generate functions 107-169, 182-195, 228-243, 277-286, 306-319 *)
Definition randomize (o : oracle) (n : nat) (p : param) : outcome (param * nat) :=
  let set v := mkParam (mean_or_min p) (sigma_or_max p) (randomization_type p) v in
  let m i := nth i (mean_or_min p) 0 in let s i := nth i (sigma_or_max p) 0 in
  let lm := List.length (mean_or_min p) in let ls := List.length (sigma_or_max p) in
  match randomization_type p with
  | kNoRandomization => Ok (set [], n)
  | kCartesianUniform => let! (v, n') := cartesian (uniform_1d o) n (mean_or_min p) (sigma_or_max p) in Ok (set v, n')
  | kCartesianNormal => let! (v, n') := cartesian (normal_1d o) n (mean_or_min p) (sigma_or_max p) in Ok (set v, n')
  | kCircularNormalUniform =>
      if (Nat.ltb lm 2 || Nat.ltb ls 2)%bool then Throw
      else Ok (set (circular (normal_1d o n (m 0%nat) (s 0%nat)) (uniform_1d o (S n) (m 1%nat) (s 1%nat))), (n + 2)%nat)
  | kCircularNormalNormal =>
      if (Nat.ltb lm 2 || Nat.ltb ls 2)%bool then Throw
      else Ok (set (circular (normal_1d o n (m 0%nat) (s 0%nat)) (normal_1d o (S n) (m 1%nat) (s 1%nat))), (n + 2)%nat)
  | kSphericalNormalUniformUniform =>
      if (Nat.ltb lm 3 || Nat.ltb ls 3)%bool then Throw
      else Ok (set (calc_spherical_uniform o n (m 0%nat) (s 0%nat) (m 1%nat) (s 1%nat) (m 2%nat) (s 2%nat)), (n + 3)%nat)
  | kSphericalNormalNormal =>
      if (Nat.ltb lm 3 || Nat.ltb ls 2)%bool then Throw
      else Ok (set (list3 (calc_spherical_normal o n (v3 (m 0%nat) (m 1%nat) (m 2%nat)) (s 0%nat) (s 1%nat))), (n + 3)%nat)
  | kQuaternionUniform => Ok (set (list4 (calc_quaternion_uniform o n)), (n + 3)%nat)
  | kQuaternionNormal =>
      if Nat.ltb ls 1 then Throw else Ok (set (list4 (calc_quaternion_normal o n (s 0%nat))), (n + 3)%nat)
  end.
(** P 41-49 *)
Definition get_randomized_scalar (p : param) (destination : R) : outcome R :=
  match randomization_type p with
  | kNoRandomization => Ok destination
  | _ => match randomized_value p with [] => Throw | v :: _ => Ok v end
  end.
(** PH 224-235; a Vector<n> is the list of its n components *)
Definition get_randomized_vector (p : param) (destination : list R) : outcome (list R) :=
  match randomization_type p with
  | kNoRandomization => Ok destination
  | _ => if Nat.ltb (List.length (randomized_value p)) (List.length destination) then Throw
         else Ok (firstn (List.length destination) (randomized_value p))
  end.
(** P 51-63 *)
Definition get_randomized_quaternion (p : param) (destination : quat) : outcome quat :=
  match randomization_type p with
  | kNoRandomization => Ok (qnormalize destination)
  | _ => match randomized_value p with
         | a :: b :: c :: d :: _ => Ok (qnormalize (q4 a b c d))
         | _ => Throw
         end
  end.

(** ** MonteCarloSimulationExecutor *)
(** std::map<std::string, ...>: the entries in key order (std::string compares its characters as
    unsigned char, a shorter prefix first) *)
Fixpoint str_ltb (a b : str) : bool :=
  match a, b with
  | _, [] => false
  | [], _ => true
  | x :: a', y :: b' => (code x <? code y)%Z || ((code x =? code y)%Z && str_ltb a' b')
  end.
Section map.
Context {A : Type}.
Fixpoint find (k : str) (m : list (str * A)) : option A :=
  match m with [] => None | (j, a) :: r => if str_eqb k j then Some a else find k r end.
Fixpoint insert (k : str) (a : A) (m : list (str * A)) : list (str * A) :=
  match m with
  | [] => [(k, a)]
  | (j, b) :: r => if str_ltb k j then (k, a) :: m else (j, b) :: insert k a r
  end.
Definition erase (k : str) (m : list (str * A)) : list (str * A) := filter (fun e => negb (str_eqb k (fst e))) m.
End map.

(** EH 98-103; the counters are unsigned long long *)
Record executor : Type := mkExec {
  total : Z; done : Z; enabled : bool; save_log_history : bool; init_parameter_list : list (str * param) }.
Definition u64 (z : Z) : Z := (z mod 2 ^ 64)%Z.
(** E 12-17 *)
Definition executor_new (n : Z) : executor := mkExec n 0 (1 <? n)%Z (negb (1 <? n)%Z) [].
(** EH 119, 124, 129 *)
Definition set_enable (e : executor) (b : bool) : executor := mkExec (total e) (done e) b (save_log_history e) (init_parameter_list e).
Definition set_total (e : executor) (n : Z) : executor := mkExec n (done e) (enabled e) (save_log_history e) (init_parameter_list e).
Definition set_save_log (e : executor) (b : bool) : executor := mkExec (total e) (done e) (enabled e) b (init_parameter_list e).
(** EH 156-159 *)
Definition get_save_log (e : executor) : bool := negb (enabled e) || save_log_history e.
(** E 19-25 *)
Definition will_execute_next_case (e : executor) : bool :=
  if negb (enabled e) then (done e <? 1)%Z else (done e <? total e)%Z.
(** E 32-35 *)
Definition at_the_end_of_each_case (e : executor) : executor :=
  mkExec (total e) (u64 (done e + 1)) (enabled e) (save_log_history e) (init_parameter_list e).
(** EH 106, E 41: the key of a parameter *)
Definition key (so ip : str) : str := so ++ lit "." ++ ip.
(** EH 229-244 *)
Definition add_parameter (e : executor) (so ip : str) (mean sigma : list R) (t : rtype) : outcome executor :=
  match find (key so ip) (init_parameter_list e) with
  | None => Ok (mkExec (total e) (done e) (enabled e) (save_log_history e)
                  (insert (key so ip) (set_random_configuration param_new mean sigma t) (init_parameter_list e)))
  | Some _ => Throw
  end.
(** E 65-69: in key order *)
Fixpoint randomize_list (o : oracle) (n : nat) (l : list (str * param)) : outcome (list (str * param) * nat) :=
  match l with
  | [] => Ok ([], n)
  | (k, p) :: r =>
      let! (p', n') := randomize o n p in
      let! (r', n'') := randomize_list o n' r in Ok ((k, p') :: r', n'')
  end.
Definition randomize_all (o : oracle) (n : nat) (e : executor) : outcome (executor * nat) :=
  let! (l, n') := randomize_list o n (init_parameter_list e) in
  Ok (mkExec (total e) (done e) (enabled e) (save_log_history e) l, n').
(** E 37-49, 51-63, EH 216-227 (and O 37-45, O-hpp 82-87, which pass the object's own name) *)
Definition get_double (e : executor) (so ip : str) (destination : R) : outcome R :=
  if negb (enabled e) then Ok destination else
  match find (key so ip) (init_parameter_list e) with None => Ok destination | Some p => get_randomized_scalar p destination end.
Definition get_vector (e : executor) (so ip : str) (destination : list R) : outcome (list R) :=
  if negb (enabled e) then Ok destination else
  match find (key so ip) (init_parameter_list e) with None => Ok destination | Some p => get_randomized_vector p destination end.
Definition get_quaternion (e : executor) (so ip : str) (destination : quat) : outcome quat :=
  if negb (enabled e) then Ok destination else
  match find (key so ip) (init_parameter_list e) with None => Ok destination | Some p => get_randomized_quaternion p destination end.

(** ** The case loop (the loop the interface is made for; the main program of an application is not in the repository): while WillExecuteNextCase: run a case,
    AtTheEndOfEachCase.  [cases fuel e]: the numbers GetNumberOfExecutionsDone of the cases executed, and the
    executor after the loop. *)
Fixpoint cases (fuel : nat) (e : executor) : outcome (list Z * executor) :=
  if will_execute_next_case e then
    match fuel with
    | O => Hang
    | S f => let! (r, e') := cases f (at_the_end_of_each_case e) in Ok (done e :: r, e')
    end
  else Ok ([], e).
(** simulation_case.cpp:29: the log file of a case *)
Definition log_file_name (e : executor) : str := lit "default" ++ to_string (done e) ++ lit ".csv".

(** ** InitMonteCarloSimulation *)
(** I 33-52: the first two non-empty items between dots *)
Definition parse_name (s : str) : str * str :=
  match filter (fun i => match i with [] => false | _ => true end) (getlines "."%char s) with
  | [] => ([], [])
  | [a] => (a, [])
  | a :: b :: _ => (a, b)
  end.
(** I 61-80 *)
Definition parse_type (s : str) : rtype :=
  if str_eqb s (lit "NoRandomization") then kNoRandomization
  else if str_eqb s (lit "CartesianUniform") then kCartesianUniform
  else if str_eqb s (lit "CartesianNormal") then kCartesianNormal
  else if str_eqb s (lit "CircularNormalUniform") then kCircularNormalUniform
  else if str_eqb s (lit "CircularNormalNormal") then kCircularNormalNormal
  else if str_eqb s (lit "SphericalNormalUniformUniform") then kSphericalNormalUniformUniform
  else if str_eqb s (lit "SphericalNormalNormal") then kSphericalNormalNormal
  else if str_eqb s (lit "QuaternionUniform") then kQuaternionUniform
  else if str_eqb s (lit "QuaternionNormal") then kQuaternionNormal
  else kNoRandomization.
(** I 15-97; the ini file is given by what is read from it: number_of_executions (an int, converted to
    unsigned long long), the two flags, and per parameter its name, type text and two Vector<3> *)
Record entry : Type := mkEntry { ename : str; etype : str; emean : list R; esigma : list R }.
Fixpoint add_all (e : executor) (l : list entry) : outcome executor :=
  match l with
  | [] => Ok e
  | x :: r => let (so, ip) := parse_name (ename x) in
              let! e' := add_parameter e so ip (emean x) (esigma x) (parse_type (etype x)) in add_all e' r
  end.
Definition init_monte_carlo (number_of_executions : Z) (enable log_enable : bool) (l : list entry) : outcome executor :=
  add_all (set_save_log (set_enable (executor_new (u64 number_of_executions)) enable) log_enable) l.

(** ** SimulationObject *)
(** O 10: the static list; objects are identified by their address *)
Definition objects : Type := list (str * nat).
(** O 12-24 *)
Definition construct (l : objects) (name : str) (this : nat) : outcome objects :=
  match find name l with None => Ok (insert name this l) | Some _ => Throw end.
(** O 26-29 *)
Definition destruct_object (l : objects) (name : str) : objects := erase name l.
(** O 31-35: the objects whose SetParameters is called, in order *)
Definition set_all_parameters (l : objects) : list nat := map snd l.
