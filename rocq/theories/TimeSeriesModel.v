(** Model of src/dynamics/orbit/time_series_file_orbit_propagation.cpp (T).  Doubles are real numbers.  The CSV file is its rows of
    seven numbers (T 36; a shorter row, which would be read out of bounds, is not modelled); number_of_interpolation is not negative.
    The warnings (T 95-97, 102-104, 117-120) and the frame transformations after the assignment (T 131-132) are left out. *)
From Coq Require Import Reals List Bool Arith.
From Verif Require Import Base RBase VecModel LuModel InterpModel.
Import ListNotations.
Open Scope R_scope.

(** one row: time_series_data_[i][0], [1..3], [4..6] *)
Record row : Type := mkRow { r_time : R; r_pos : R * R * R; r_vel : R * R * R }.
Definition orbit3 : Type := (interp * interp * interp)%type.
(** time_series_file_orbit_propagation.hpp:69-82 and Orbit's position and velocity *)
Record tso : Type := mkTso { s_data : list row; s_n : nat; s_method : Z; s_period : R; s_ref_time : R; s_ref_id : nat;
                             s_opos : orbit3; s_ovel : orbit3; s_position : R * R * R; s_velocity : R * R * R; s_enabled : bool }.

(** T 64 and T 87 *)
Definition ephemeris_time (jd : R) : R := (jd - 2451545) * 86400.
(** T 67-73: the loop from index i; 0 when nothing is found *)
Fixpoint search_from (t : R) (l : list row) (i : nat) : nat :=
  match l with [] => 0%nat | r :: rest => if rlt t (r_time r) then i else search_from t rest (S i) end.
(** T 60-75 *)
Definition search_nearest (data : list row) (jd : R) : nat := search_from (ephemeris_time jd) data 0.
(** T 77-82: the index equal to the size passes the check *)
Definition ephemeris_time_data (data : list row) (id : nat) : outcome R :=
  if (length data <? id)%nat then Ok 0 else match nth_error data id with Some r => Ok (r_time r) | None => UB end.
(** T 135-157 *)
Definition update_interpolation (s : tso) : outcome tso :=
  let! t := ephemeris_time_data (s_data s) (s_ref_id s) in
  let time_diff := t - s_ref_time s in
  match nth_error (s_data s) (if (length (s_data s) <=? s_ref_id s)%nat then (length (s_data s) - 1)%nat else s_ref_id s) with
  | None => UB
  | Some r =>
    let! (_, op) := orbit_push (s_opos s) time_diff (r_pos r) in
    let! (_, ov) := orbit_push (s_ovel s) time_diff (r_vel r) in
    Ok (mkTso (s_data s) (s_n s) (s_method s) (s_period s) (s_ref_time s) (S (s_ref_id s)) op ov (r_pos r) (r_vel r) (s_enabled s))
  end.
Definition set_state (s : tso) (p v : R * R * R) : tso :=
  mkTso (s_data s) (s_n s) (s_method s) (s_period s) (s_ref_time s) (s_ref_id s) (s_opos s) (s_ovel s) p v (s_enabled s).
Definition set_enabled (s : tso) (b : bool) : tso :=
  mkTso (s_data s) (s_n s) (s_method s) (s_period s) (s_ref_time s) (s_ref_id s) (s_opos s) (s_ovel s) (s_position s) (s_velocity s) b.
(** T 89: round(n / 2.0), halves away from zero *)
Definition medium_index (n : nat) : nat := ((n + 1) / 2)%nat.
(** GetTimeList of the x axis, interpolation_orbit.hpp:64 *)
Definition time_list (o : orbit3) : list R := xs (fst (fst o)).
(** T 84-133; the first argument is unused *)
Definition propagate (s : tso) (jd : R) : outcome tso :=
  if negb (s_enabled s) then Ok s else
  let diff := ephemeris_time jd - s_ref_time s in
  match nth_error (time_list (s_opos s)) (medium_index (s_n s)) with
  | None => UB
  | Some medium =>
    let! s := (if rlt medium diff then update_interpolation s else Ok s) in
    if rlt diff 0 then
      match nth_error (s_data s) 0 with Some r => Ok (set_state s (r_pos r) (r_vel r)) | None => UB end
    else if rlt 1000000 diff || (length (s_data s) <=? s_ref_id s)%nat then
      match nth_error (s_data s) (length (s_data s) - 1) with Some r => Ok (set_state s (r_pos r) (r_vel r)) | None => UB end
    else if Z.eqb (s_method s) 1 then
      let! p := orbit_trigonometric (s_opos s) diff (2 * PI / s_period s) in
      let! v := orbit_trigonometric (s_ovel s) diff (2 * PI / s_period s) in Ok (set_state s p v)
    else
      let! p := orbit_polynomial (s_opos s) diff in
      let! v := orbit_polynomial (s_ovel s) diff in Ok (set_state s p v)
  end.
(** T 51-53 *)
Fixpoint fill (count : nat) (s : tso) : outcome tso :=
  match count with O => Ok s | S c => let! s := update_interpolation s in fill c s end.
(** T 19-58; the position before the first row is read is the zero vector of Orbit's constructor *)
Definition tso_new (data : list row) (n : nat) (method : Z) (period jd : R) : outcome tso :=
  let nearest := search_nearest data jd in
  let half := (n / 2)%nat in
  let ref_id := if (half <=? nearest)%nat then (nearest - half)%nat else 0%nat in
  let! ref_time := ephemeris_time_data data ref_id in
  let! s := fill n (mkTso data n method period ref_time ref_id (orbit_interpolation n) (orbit_interpolation n) (0, 0, 0) (0, 0, 0) true) in
  let! s := propagate s jd in
  Ok (set_enabled s false).
(** a history of Propagate calls *)
Fixpoint propagates (s : tso) (jds : list R) : outcome tso :=
  match jds with [] => Ok s | jd :: r => let! s := propagate s jd in propagates s r end.
