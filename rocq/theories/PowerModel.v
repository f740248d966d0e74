(** Model of src/components/real/power: battery.cpp, pcu_initial_study.cpp, solar_array_panel.cpp,
    csv_scenario_interface.cpp.  Doubles are real numbers; the one NaN that matters (square root of
    a negative number in the PCU) is represented by [None]. *)
From Coq Require Import Reals Lra Lia List Bool ZArith.
From Verif Require Import Base RBase VecModel.
Import ListNotations.
Open Scope R_scope.

(** battery.hpp:125-135.  [None] is an uninitialised member. *)
Record battery : Type := mkBattery {
  n_series : Z; n_parallel : Z; capacity_Ah : R; curve : list R; cc_current : R; cv_voltage : R;
  bat_voltage : option R; dod : R; charge_current : option R; resistance : R; step_s : R; prescaler : Z }.

(** battery.cpp:13-25: voltage and charge current are left uninitialised *)
Definition battery_new (pre ns np : Z) (cap : R) (coef : list R) (dod0 crate cv res dt : R) : battery :=
  mkBattery ns np cap coef (crate * cap * IZR np) cv None dod0 None res dt pre.

(** battery.cpp:81-90; std::pow(x, index) with an int index is x^index, and 1 for index 0 *)
Fixpoint curve_from (i : nat) (coef : list R) (x : R) (acc : R) : R :=
  match coef with [] => acc | c :: t => curve_from (S i) t x (acc + c * x ^ i) end.
Definition update_voltage (b : battery) : battery :=
  mkBattery (n_series b) (n_parallel b) (capacity_Ah b) (curve b) (cc_current b) (cv_voltage b)
    (Some (curve_from 0 (curve b) (dod b / 100 * capacity_Ah b) 0 * IZR (n_series b)))
    (dod b) (charge_current b) (resistance b) (step_s b) (prescaler b).
(** battery.cpp:41-54: the copy constructor *)
Definition battery_copy (b : battery) : battery :=
  update_voltage (mkBattery (n_series b) (n_parallel b) (capacity_Ah b) (curve b) (cc_current b) (cv_voltage b)
    (bat_voltage b) (dod b) (Some 0) (resistance b) (step_s b) (prescaler b)).
(** battery.hpp:72 *)
Definition set_charge_current (b : battery) (i : R) : battery :=
  mkBattery (n_series b) (n_parallel b) (capacity_Ah b) (curve b) (cc_current b) (cv_voltage b)
    (bat_voltage b) (dod b) (Some i) (resistance b) (step_s b) (prescaler b).
(** battery.cpp:73-79 *)
Definition battery_main (b : battery) : outcome battery :=
  match charge_current b with
  | None => UB
  | Some i =>
      Ok (update_voltage (mkBattery (n_series b) (n_parallel b) (capacity_Ah b) (curve b) (cc_current b) (cv_voltage b)
            (bat_voltage b)
            (dod b - i * (step_s b * IZR (prescaler b)) / 3600 / (capacity_Ah b * IZR (n_parallel b)) * 100)
            (Some i) (resistance b) (step_s b) (prescaler b)))
  end.
(** a history: before each MainRoutine the charge current is possibly set *)
Fixpoint battery_run (b : battery) (currents : list (option R)) : outcome battery :=
  match currents with
  | [] => Ok b
  | c :: t =>
      let b1 := match c with Some i => set_charge_current b i | None => b end in
      let! b2 := battery_main b1 in battery_run b2 t
  end.

(** std::sqrt: NaN for a negative argument *)
Definition sqrt_d (x : R) : option R := if rlt x 0 then None else Some (sqrt x).

(** pcu_initial_study.cpp:83-117.  Result: (charge current, bus voltage).  [x >= y] and [x < y] are
    false when x is NaN. *)
Definition pcu_update (v res cc cv : R) (gen : list R) (cons : R) : R * R :=
  let p_gen := fold_left Rplus gen 0 in
  let current_temp := match sqrt_d (v * v + 4 * res * (p_gen - cons)) with
                      | Some s => Some ((- v + s) / (2 * res)) | None => None end in
  let cv_result := ((cv - v) / res, v + res * (cv - v) / res) in
  if match current_temp with Some i => rle cc i | None => false end then
    if rlt (v + cc * res) cv then (cc, v + res * cc) else cv_result
  else
    match current_temp with
    | Some i => if rlt (v + i * res) cv then (i, v + res * i) else cv_result
    | None => cv_result
    end.

(** solar_array_panel.cpp:109-117 (scenario disabled): [density] the solar power density *)
Definition sap_power (eff trans density area : R) (np ns : Z) (normal sun_pos : vec) : R :=
  let p := eff * trans * density * area * IZR np * IZR ns
           * dot 3 (normalize 3 normal) (normalize 3 sun_pos) in
  if rlt p 0 then 0 else p.

(** std::map<double,double> as the list of its entries in key order *)
Definition dmap : Type := list (R * R).
(** map[k] = v *)
Fixpoint insert (k v : R) (m : dmap) : dmap :=
  match m with
  | [] => [(k, v)]
  | (k0, v0) :: t => if rlt k k0 then (k, v) :: m
                     else if rlt k0 k then (k0, v0) :: insert k v t
                     else (k0, v) :: t
  end.
(** csv_scenario_interface.cpp:82-87 for one column; reading past the end of a row is undefined.
    [m] is the buffer of that column so far: the buffers are static and never cleared. *)
Fixpoint store_buffer (col : nat) (rows : list (list R)) (m : dmap) : outcome dmap :=
  match rows with
  | [] => Ok m
  | row :: t => match nth_error row 0, nth_error row col with
                | Some k, Some v => store_buffer col t (insert k v m)
                | _, _ => UB
                end
  end.
(** upper_bound(t): number of entries with key <= t *)
Fixpoint upper_bound (t : R) (m : dmap) : nat :=
  match m with [] => 0 | (k, _) :: tl => if rlt t k then 0 else S (upper_bound t tl) end.
(** csv_scenario_interface.cpp:89-96: decrementing begin() is undefined; after the decrement the
    iterator is never end(), so the "return 0" is dead *)
Definition get_value (m : dmap) (t : R) : outcome R :=
  match upper_bound t m with
  | O => UB
  | S i => match nth_error m i with Some (_, v) => Ok v | None => Ok 0 end
  end.
