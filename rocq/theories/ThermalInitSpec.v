(** What the rows of the five CSV files of a thermal model mean.  A file is given by its rows of cells. *)
From Coq Require Import Reals List ZArith Ascii String.
From Verif Require Import Base RBase VecModel StringModel ThermalModel NodeModel ThermalInitModel.
Import ListNotations.
Open Scope R_scope.

Section rows.
Variable stoi : str -> outcome Z.
Variable stod : str -> outcome R.
(** cell c of a row *)
Definition cell (row : list str) (c : nat) : str := nth c row [].
(** the cell holds that number *)
Definition int_cell (row : list str) (c : nat) (z : Z) : Prop := stoi (cell row c) = Ok z.
Definition num_cell (row : list str) (c : nat) (x : R) : Prop := stod (cell row c) = Ok x.

(** a row of node.csv: id, label, type, heater, capacity, alpha, epsilon, area, normal (3), temperature *)
Definition node_row (row : list str) (n : tnode) : Prop :=
  List.length row = 12%nat /\
  exists id ty heater cap alpha eps area nx ny nz temp,
    int_cell row 0 id /\ int_cell row 2 ty /\ int_cell row 3 heater /\
    num_cell row 4 cap /\ num_cell row 5 alpha /\ num_cell row 6 eps /\ num_cell row 7 area /\
    num_cell row 8 nx /\ num_cell row 9 ny /\ num_cell row 10 nz /\ num_cell row 11 temp /\
    tn_label n = cell row 1 /\
    tn_type n = match ty with 1%Z => Boundary | 2%Z => Arithmetic | _ => Diffusive end /\
    Z.of_nat (tn_heater n) = (heater mod 18446744073709551616)%Z /\
    (** negative values become 0, and so do coefficients above 1 *)
    n_temperature (tn_params n) = Rmax temp 0 /\ n_capacity (tn_params n) = Rmax cap 0 /\ n_area (tn_params n) = Rmax area 0 /\
    n_alpha (tn_params n) = (if Rlt_dec 1 alpha then 0 else Rmax alpha 0) /\
    n_epsilon (tn_params n) = (if Rlt_dec 1 eps then 0 else Rmax eps 0) /\
    tn_normal n = (if Z.eq_dec ty 0 then
                     if Req_EM_T (sqrt (nx * nx + ny * ny + nz * nz)) 0 then None
                     else Some (fun i => v3 nx ny nz i / sqrt (nx * nx + ny * ny + nz * nz))
                   else Some (v3 nx ny nz)).
(** the first row of heatload.csv holds the times, every other one the node's id and its loads at those times *)
Definition load_row (times_row row : list str) (l : heatload) : Prop :=
  (2 <= List.length row)%nat /\ List.length times_row = List.length row /\
  (exists id, int_cell row 0 id) /\
  Forall2 (fun c t => stod c = Ok t) (tl times_row) (times l) /\
  Forall2 (fun c w => stod c = Ok w) (tl row) (watts l) /\
  heatload_new (times l) (watts l) = Ok l.
(** a row of heaters.csv: id, power, lower threshold, upper threshold *)
Definition heater_row (row : list str) (h : heater) (c : controller) : Prop :=
  List.length row = 4%nat /\
  exists id power lo up, int_cell row 0 id /\ num_cell row 1 power /\ num_cell row 2 lo /\ num_cell row 3 up /\
    rating h = Rmax power 0 /\ is_on h = false /\ output h = 0 /\
    lower c = lo /\ upper c = (if Rlt_dec up lo then lo + 10 else up).
(** a row of cij.csv or rij.csv: a name and one number for every node *)
Definition matrix_row (row : list str) (xs : list R) : Prop := Forall2 (fun c x => stod c = Ok x) (tl row) xs.

(** the thermal model that the files (rows of cells, [L] heatload, [N] node, [H] heaters, [C] cij, [Rr] rij) describe *)
Definition described (L N H C Rr : list (list str)) (t : thermal) : Prop :=
  let n := List.length (th_nodes t) in
  (1 <= n)%nat /\ List.length N = S n /\ List.length L = S n /\ List.length (th_loads t) = n /\
  List.length H = S (List.length (th_heaters t)) /\ List.length (th_controllers t) = List.length (th_heaters t) /\
  List.length (tl C) = n /\ List.length (tl Rr) = n /\ List.length (th_cij t) = n /\ List.length (th_rij t) = n /\
  List.length (nth 0 (th_cij t) []) = n /\ List.length (nth 0 (th_rij t) []) = n /\
  (forall i row node, nth_error N (S i) = Some row -> nth_error (th_nodes t) i = Some node -> node_row row node) /\
  (forall i times row load, nth_error L 0 = Some times -> nth_error L (S i) = Some row -> nth_error (th_loads t) i = Some load ->
     load_row times row load) /\
  (forall k row h c, nth_error H (S k) = Some row -> nth_error (th_heaters t) k = Some h -> nth_error (th_controllers t) k = Some c ->
     heater_row row h c) /\
  (forall i row xs, nth_error C (S i) = Some row -> nth_error (th_cij t) i = Some xs -> matrix_row row xs) /\
  (forall i row xs, nth_error Rr (S i) = Some row -> nth_error (th_rij t) i = Some xs -> matrix_row row xs).
End rows.
