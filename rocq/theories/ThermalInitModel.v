(** Model of InitTemperature (src/dynamics/thermal/temperature.cpp:343-442) and of the functions it builds the thermal model with:
    InitNode (node.cpp:218-278), InitHeater (heater.cpp:60-79), InitHeaterController (heater_controller.cpp:38-56), InitHeatload
    (heatload.cpp:84-104).  The five CSV files are texts (a missing file is the empty text); [stoi] and [stod] are std::stoi and
    std::stod, arbitrary functions that give a number or throw.  Doubles are real numbers.  A failed assert is [Throw].
    Not modelled: printing, the pointers to the environment. *)
From Coq Require Import Reals List Bool ZArith Ascii String.
From Verif Require Import Base RBase VecModel StringModel SettingModel ThermalModel NodeModel.
Import ListNotations.
Open Scope list_scope.
Open Scope R_scope.

(** node.hpp:162-183; [None]: the normal vector is NaN *)
Record tnode : Type := mkTnode { tn_label : str; tn_type : node_type; tn_heater : nat; tn_params : node_params; tn_normal : option vec }.
(** temperature.hpp:136-152 without the environment *)
Record thermal : Type := mkThermal {
  th_nodes : list tnode; th_loads : list heatload; th_heaters : list heater; th_controllers : list controller;
  th_cij : list (list R); th_rij : list (list R); th_step : R; th_solar : bool }.

Section reading.
Variable stoi : str -> outcome Z.
Variable stod : str -> outcome R.

(** size_t x = stoi(..) *)
Definition size_of_int (z : Z) : nat := Z.to_nat (z mod 2 ^ 64).
(** node.cpp:261-266, 270-275; the int is compared as a size_t, which makes no difference *)
Definition node_type_of (z : Z) : node_type := if (z =? 1)%Z then Boundary else if (z =? 2)%Z then Arithmetic else Diffusive.
Definition node_normal (z : Z) (v : vec) : option vec :=
  if (z =? 0)%Z then (if req (norm 3 v) 0 then None else Some (fun i => v i / norm 3 v)) else Some v.
(** node.cpp:218-278, then the constructor (18-33) *)
Definition init_node (cells : list str) : outcome tnode :=
  match cells with
  | [id; label; ty; heater; cap; alpha; eps; area; nx; ny; nz; temp] =>
      let! _ := stoi id in
      let! t := stoi ty in
      let! h := stoi heater in
      let! c := stod cap in let! a := stod alpha in let! e := stod eps in let! s := stod area in
      let! x := stod nx in let! y := stod ny in let! z := stod nz in
      let! k := stod temp in
      Ok (mkTnode label (node_type_of t) (size_of_int h) (assert_params (mkNode k c a e s)) (node_normal t (v3 x y z)))
  | _ => Throw
  end.
(** heater.cpp:60-79 *)
Definition init_heater (cells : list str) : outcome heater :=
  match cells with
  | [id; power; lo; up] => let! _ := stoi id in let! p := stod power in Ok (heater_new p)
  | _ => Throw
  end.
(** heater_controller.cpp:38-56 *)
Definition init_controller (cells : list str) : outcome controller :=
  match cells with
  | [id; power; lo; up] => let! l := stod lo in let! u := stod up in Ok (controller_new l u)
  | _ => Throw
  end.
(** heatload.cpp:98-101: the loop reads time and load alternately *)
Fixpoint read_profile (times loads : list str) : outcome (list R * list R) :=
  match times, loads with
  | t :: ts, w :: ws => let! t := stod t in let! w := stod w in let! (a, b) := read_profile ts ws in Ok (t :: a, w :: b)
  | _, _ => Ok ([], [])
  end.
(** heatload.cpp:84-104 *)
Definition init_heatload (times loads : list str) : outcome heatload :=
  if (Nat.ltb (List.length times) 2 || Nat.ltb (List.length loads) 2 || negb (Nat.eqb (List.length times) (List.length loads)))%bool then Throw else
  match times, loads with
  | _ :: ts, id :: ws => let! _ := stoi id in let! (a, b) := read_profile ts ws in heatload_new a b
  | _, _ => Throw
  end.
(** temperature.cpp:391-393, 404-406: a push_back per row *)
Fixpoint each_row {A B} (f : A -> outcome B) (rows : list A) : outcome (list B) :=
  match rows with
  | [] => Ok []
  | r :: t => let! x := f r in let! l := each_row f t in Ok (x :: l)
  end.
(** 421-422 *)
Definition init_heater_row (cells : list str) : outcome (heater * controller) :=
  let! h := init_heater cells in let! c := init_controller cells in Ok (h, c).

(** 369-441, with [solar] and the texts of the five files.  begin() + 1 of an empty vector is undefined, and so is
    conductance_matrix[0] of an empty one *)
Definition init_thermal (solar : bool) (step : R) (heatload_csv node_csv heaters_csv cij_csv rij_csv : str) : outcome thermal :=
  let! loads := match read_csv_string heatload_csv with
                | [] => UB
                | times :: rows => each_row (init_heatload times) rows
                end in
  let! nodes := match read_csv_string node_csv with
                | [] => UB
                | _ :: rows => each_row init_node rows
                end in
  if negb (Nat.eqb (List.length nodes) (List.length loads)) then Throw else
  let! heaters := match read_csv_string heaters_csv with
                  | [] => UB
                  | _ :: rows => each_row init_heater_row rows
                  end in
  let! cij := read_csv_with_header stod cij_csv 1 1 in
  let! rij := read_csv_with_header stod rij_csv 1 1 in
  if negb (Nat.eqb (List.length cij) (List.length nodes)) then Throw else
  if negb (Nat.eqb (List.length rij) (List.length nodes)) then Throw else
  match cij, rij with
  | c0 :: _, r0 :: _ =>
      if negb (Nat.eqb (List.length cij) (List.length c0)) then Throw else
      if negb (Nat.eqb (List.length rij) (List.length r0)) then Throw else
      Ok (mkThermal nodes loads (map fst heaters) (map snd heaters) cij rij step solar)
  | _, _ => UB
  end.
(** 361-367: with the calculation disabled an object without nodes ([None]) *)
Definition init_temperature (enabled solar : bool) (step : R) (heatload_csv node_csv heaters_csv cij_csv rij_csv : str) : outcome (option thermal) :=
  if enabled then let! t := init_thermal solar step heatload_csv node_csv heaters_csv cij_csv rij_csv in Ok (Some t) else Ok None.
End reading.

(** The model of ThermalModel that the object is *)
Definition node_default : tnode := mkTnode [] Diffusive 0 (mkNode 0 0 0 0 0) None.
Definition network_of (t : thermal) : network :=
  mkNetwork (List.length (th_nodes t)) (fun i => tn_type (nth i (th_nodes t) node_default)) (fun i => n_capacity (tn_params (nth i (th_nodes t) node_default)))
    (fun i => tn_heater (nth i (th_nodes t) node_default)) (fun i j => nth j (nth i (th_cij t) []) 0) (fun i j => nth j (nth i (th_rij t) []) 0).
Definition initial_temperatures (t : thermal) : vec := fun i => n_temperature (tn_params (nth i (th_nodes t) node_default)).

(** temperature.cpp:163-170 on the tables as they are stored: an index past the end of a row is undefined behaviour *)
Fixpoint input_loop (c r : list R) (T : vec) (i : nat) (js : list nat) (con rad : R) : outcome R :=
  match js with
  | [] => Ok (con + rad)
  | j :: t =>
      match nth_error c j, nth_error r j with
      | Some cj, Some rj =>
          input_loop c r T i t (con + cj * (T j - T i)) (rad + stefan_boltzmann * rj * (T j ^ 4 - T i ^ 4))
      | _, _ => UB
      end
  end.
Definition heat_input (t : thermal) (T : vec) (i : nat) : outcome R :=
  match nth_error (th_cij t) i, nth_error (th_rij t) i with
  | Some c, Some r => input_loop c r T i (seq 0 (List.length (th_nodes t))) 0 0
  | _, _ => UB
  end.
