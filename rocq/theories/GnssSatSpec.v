(** GNSS satellites from daily SP3 files: the files put one after the other are one table of epochs for each satellite. *)
From Coq Require Import Reals List Arith ZArith.
From Verif Require Import Base InterpModel InterpSpec TimeSeriesModel TimeSeriesSpec GnssSatModel.
Import ListNotations.
Open Scope R_scope.

(** position in metres of an entry in kilometres *)
Definition metres (e : pc) : R * R * R := let '((x, y, z), _) := e in (1000 * x, 1000 * y, 1000 * z).
(** the rows of one file for one satellite: epoch, position [m], clock offset [us] *)
Definition file_rows (sat : nat) (f : sp3) : list row :=
  map (fun i => let e := nth i (nth sat (f_pc f) []) ((0, 0, 0), 0) in mkRow (nth i (f_epochs f) 0) (metres e) (snd e, 0, 0)) (seq 0 (length (f_epochs f))).
Definition all_rows (files : list sp3) (sat : nat) : list row := flat_map (file_rows sat) files.
Definition clock_us (r : row) : R := fst (fst (r_vel r)).
(** a file read completely, with data of n satellites at least *)
Definition complete (n : nat) (f : sp3) : Prop :=
  (0 < length (f_epochs f))%nat /\ f_nepoch f = length (f_epochs f) /\ (n <= length (f_pc f))%nat /\
  forall sat, (sat < n)%nat -> length (nth sat (f_pc f) []) = length (f_epochs f).
(** what the object answers when its window begins at row w, its origin is row [start] and its clock stands at [now] *)
Definition serves (g : gnss) (files : list sp3) (n start w : nat) (now : R) : Prop :=
  let t0 := T (all_rows files 0) start in
  forall sat time u, u = (if Z.eqb (Int_part time) 0 then now else time) ->
  ((n < sat)%nat -> gnss_position g sat time = Ok (0, 0, 0) /\ gnss_clock g sat time = Ok 0) /\
  (u < t0 \/ t0 + 1000000 < u -> gnss_position g sat time = Ok (0, 0, 0) /\ gnss_clock g sat time = Ok 0) /\
  (t0 <= u <= t0 + 1000000 -> sat = n -> gnss_position g sat time = UB /\ gnss_clock g sat time = UB) /\
  (t0 <= u <= t0 + 1000000 -> (sat < n)%nat -> exists p c us,
     gnss_position g sat time = Ok p /\ trigonometric3 (rows_from (all_rows files sat) w 9) r_pos (86400 * 1003 / 1000) t0 u p /\
     gnss_clock g sat time = Ok c /\ c = us / 1000000 /\ interpolated (rows_from (all_rows files sat) w 9) clock_us u us).

(** row of the table at which file i begins *)
Definition offset (files : list sp3) (i : nat) : nat := length (all_rows (firstn i files) 0).
(** file i is the first one whose day has not ended at time t, and its day has begun *)
Definition covers (files : list sp3) (t : R) (i : nat) : Prop :=
  exists f, nth_error files i = Some f /\ f_start f <= t < f_start f + 86400 /\
  forall j g, (j < i)%nat -> nth_error files j = Some g -> f_start g + 86400 <= t.
(** epochs at the interval the header gives *)
Definition even (f : sp3) : Prop :=
  0 < f_interval f /\ forall k, (k < length (f_epochs f))%nat -> nth k (f_epochs f) 0 = nth 0 (f_epochs f) 0 + INR k * f_interval f.
(** epoch m of the file is the one nearest to t; of two equally near ones the later *)
Definition nearest_epoch (f : sp3) (t : R) (m : nat) : Prop :=
  (m < length (f_epochs f))%nat /\
  forall k, (k < length (f_epochs f))%nat -> k <> m ->
    Rabs (t - nth m (f_epochs f) 0) < Rabs (t - nth k (f_epochs f) 0) \/
    (Rabs (t - nth m (f_epochs f) 0) = Rabs (t - nth k (f_epochs f) 0) /\ (k < m)%nat).
