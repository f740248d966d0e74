(** Model of src/math_physics/numerical_integration: runge_kutta_template.hpp (T),
    embedded_runge_kutta_implementation.hpp (E), runge_kutta_4.hpp (K),
    runge_kutta_fehlberg_implementation.hpp (F), dormand_prince_5_implementation.hpp (D),
    numerical_integrator.hpp (I).  Doubles are real numbers; the coefficients, quotients of double
    literals in the source, are the rational numbers they denote. *)
From Coq Require Import Reals List Bool Arith Lia QArith Qreals.
From Verif Require Import Base RBase VecModel LuModel.
Import ListNotations.
Open Scope R_scope.

(** number_of_stages_, approximation_order_, nodes_, weights_, higher_order_weights_, rk_matrix_ *)
Record tableau : Type := mkTableau {
  stages : nat; order_p : nat; nodes : list Q; weights : list Q; higher : list Q; matrix : list (list Q) }.
Definition cn (tb : tableau) (i : nat) : R := Q2R (nth i (nodes tb) 0%Q).
Definition bw (tb : tableau) (i : nat) : R := Q2R (nth i (weights tb) 0%Q).
Definition bh (tb : tableau) (i : nat) : R := Q2R (nth i (higher tb) 0%Q).
Definition am (tb : tableau) (i j : nat) : R := Q2R (nth j (nth i (matrix tb) []) 0%Q).

(** K 25-43; nodes_, weights_ and rk_matrix_ are zero where not assigned; no higher weights *)
Definition rk4 : tableau := mkTableau 4 4
  [0; 1#2; 1#2; 1]%Q [1#6; 1#3; 1#3; 1#6]%Q []
  [[]; [1#2]; [0; 1#2]; [0; 0; 1]]%Q.

(** F 12-64 *)
Definition rkf : tableau := mkTableau 6 4
  [0; 1#4; 3#8; 12#13; 1; 1#2]%Q
  [25#216; 0; 1408#2565; 2197#4104; -1#5; 0]%Q
  [16#135; 0; 6656#12825; 28561#56430; -9#50; 2#55]%Q
  [[]; [1#4]; [3#32; 9#32]; [1932#2197; -7200#2197; 7296#2197];
   [439#216; -8; 3680#513; -845#4104]; [-8#27; 2; -3544#2565; 1859#4104; -11#40]]%Q.

(** D 13-123 *)
Definition dp5 : tableau := mkTableau 7 5
  [0; 1#5; 3#10; 4#5; 8#9; 1; 1]%Q
  [5179#57600; 0; 7571#16695; 393#640; -92097#339200; 187#2100; 1#40]%Q
  [35#384; 0; 500#1113; 125#192; -2187#6784; 11#84; 0]%Q
  [[]; [1#5]; [3#40; 9#40]; [44#45; -56#15; 32#9]; [19372#6561; -25360#2187; 64448#6561; -212#729];
   [9017#3168; -355#33; 46732#5247; 49#176; -5103#18656]; [35#384; 0; 500#1113; 125#192; -2187#6784; 11#84]]%Q.

(** I: step_width_, current_independent_variable_, current_state_, previous_state_; slope_ and
    local_truncation_error_ of the derived classes *)
Record integrator : Type := mkInt { h : R; t_cur : R; x_cur : vec; x_prev : vec; slope : nat -> vec; error : R }.

Section ode.
Context (tb : tableau) (dim : nat) (f : R -> vec -> vec).

(** T 28-31: the state at which stage i is evaluated *)
Definition stage_state (h : R) (x : vec) (slopes : nat -> vec) (i : nat) : vec :=
  for_ i 0 (fun j st => vadd st (vscal (am tb i j * h) (slopes j))) x.
(** T 24-35 *)
Definition calc_slope (h t : R) (x : vec) : nat -> vec :=
  for_ (stages tb) 0 (fun i slopes => upd slopes i (f (t + cn tb i * h) (stage_state h x slopes i))) (fun _ => vconst 0).
Definition weighted (b : nat -> R) (h : R) (x : vec) (slopes : nat -> vec) : vec :=
  for_ (stages tb) 0 (fun i st => vadd st (vscal (b i * h) (slopes i))) x.

(** I 30-31 and the CalcSlope at the end of each constructor (the value of local_truncation_error_ is
    not initialised: [e0]) *)
Definition construct (step e0 : R) : integrator :=
  mkInt step 0 (vconst 0) (vconst 0) (calc_slope step 0 (vconst 0)) e0.
(** I 47-51 *)
Definition set_state (s : integrator) (t : R) (x : vec) : integrator :=
  mkInt (h s) t x x (slope s) (error s).
(** T 12-21 *)
Definition integrate (s : integrator) : integrator :=
  let k := calc_slope (h s) (t_cur s) (x_cur s) in
  mkInt (h s) (t_cur s + h s) (weighted (bw tb) (h s) (x_cur s) k) (x_cur s) k (error s).
(** E 12-31 *)
Definition integrate_embedded (s : integrator) : integrator :=
  let k := calc_slope (h s) (t_cur s) (x_cur s) in
  let lower := weighted (bw tb) (h s) (x_cur s) k in
  let higher := weighted (bh tb) (h s) (x_cur s) k in
  mkInt (h s) (t_cur s + h s) higher (x_cur s) k (norm dim (vsub lower higher)).
(** E 33-38; pow of a positive number is Rpower.  None: the new step width is not a number (error
    zero: tolerance / 0 is infinite; negative tolerance: pow is NaN) *)
Definition control_step_width (s : integrator) (tolerance : R) : option integrator :=
  if req (error s) 0 then None
  else if rlt (tolerance / error s) 0 then None
  else
    let factor := if req (tolerance / error s) 0 then 0 else Rpower (tolerance / error s) (1 / INR (order_p tb + 1)) in
    let updated := factor * h s in
    if rle updated 0 then Some s
    else Some (mkInt updated (t_cur s) (x_cur s) (x_prev s) (slope s) (error s)).

(** F 83-97 *)
Definition rkf_weight (sigma : R) (i : nat) : R :=
  match i with
  | 0%nat => 1 - sigma * (301 / 120 + sigma * (-269 / 108 + sigma * 311 / 360))
  | 1%nat => 0
  | 2%nat => sigma * (7168 / 1425 + sigma * (-4096 / 513 + sigma * 14848 / 4275))
  | 3%nat => sigma * (-28561 / 8360 + sigma * (199927 / 22572 - sigma * 371293 / 75240))
  | 4%nat => sigma * (57 / 50 + sigma * (-3 + sigma * 42 / 25))
  | 5%nat => sigma * (-96 / 55 + sigma * (40 / 11 - sigma * 102 / 55))
  | _ => sigma * (3 / 2 + sigma * (-4 + sigma * 5 / 2))
  end.
(** F 66-81 *)
Definition rkf_interpolate (s : integrator) (sigma : R) : vec :=
  let state_7 := vadd (x_prev s) (vscal (h s) (vadd (vadd (vscal (1 / 6) (slope s 0%nat)) (vscal (1 / 6) (slope s 4%nat))) (vscal (2 / 3) (slope s 5%nat)))) in
  let k7 := f (t_cur s) state_7 in
  let y := for_ (stages tb) 0 (fun i st => vadd st (vscal (sigma * h s * rkf_weight sigma i) (slope s i))) (x_prev s) in
  vadd y (vscal (sigma * h s) (vscal (rkf_weight sigma 6) k7)).

(** D 74-120: coefficients_ *)
Definition dp5_coefficients : list (list Q) :=
  let scale (c : Q) (l : list Q) := map (Qmult c) l in
  [scale (1 # 11282082432) [11282082432; -32272833064; 34969693132; -13107642775; 157015080];
   scale 0 [1; 1; 1; 1; 1];   (* line 82: coefficients_temp *= 0.0 *)
   scale (-100 # 32700410799) [0; -1323431896; 2074956840; -914128567; 15701508];
   scale (25 # 5641041216) [0; -889289856; 2460397220; -1518414297; 94209048];
   scale (-2187 # 199316789632) [0; -259006536; 687873124; -451824525; 52338360];
   scale (11 # 2467955532) [0; -361440756; 946554244; -661884105; 106151040]]%Q.
(** D 137-150 *)
Definition dp5_weight (sigma : R) (i : nat) : R :=
  if (i <? 6)%nat then for_ 5 0 (fun j w => w + sigma ^ j * Q2R (nth j (nth i dp5_coefficients []) 0%Q)) 0
  else sigma * (1 - sigma) * (8293050 * sigma ^ 2 - 82437520 * sigma + 44764047) / 29380423.
(** D 125-135 *)
Definition dp5_interpolate (s : integrator) (sigma : R) : vec :=
  for_ (stages tb) 0 (fun i st => vadd st (vscal (sigma * h s * dp5_weight sigma i) (slope s i))) (x_prev s).
End ode.

(** K 46-50: RungeKutta4 does not interpolate *)
Definition rk4_interpolate (s : integrator) (sigma : R) : vec := x_cur s.
