(** Model of src/simulation/multiple_spacecraft/relative_information.cpp (line numbers below) and .hpp (exact reals).
    The database stores for a spacecraft identifier the number of a dynamics object; [world] gives the state of every
    dynamics object at the time of the call.  The log text is modelled in LogModel. *)
From Coq Require Import Reals Lra Lia List Bool ZArith.
From Verif Require Import Base RBase VecModel QuatModel OrbitModel ActuatorModel.
Import ListNotations.
Open Scope R_scope.

(** one entry of the six tables *)
Record relative : Type := mkRelative {
  re_pos_i : vec; re_vel_i : vec; re_dist : R; re_pos_rtn : vec; re_vel_rtn : vec; re_q : quat }.
Record rel_info : Type := mkRelInfo { ri_db : list (nat * nat); ri_table : list (list relative) }.
Definition rel_info_new : rel_info := mkRelInfo [] [].

(** std::map::find on the identifiers *)
Definition db_find (db : list (nat * nat)) (id : nat) : option nat :=
  match find (fun e => Nat.eqb (fst e) id) db with Some e => Some (snd e) | None => None end.
(** map::at *)
Definition db_at (db : list (nat * nat)) (id : nat) : outcome nat :=
  match db_find db id with Some d => Ok d | None => Throw end.

(** 167-175 *)
Definition blank : relative := mkRelative (v3 0 0 0) (v3 0 0 0) 0 (v3 0 0 0) (v3 0 0 0) (q4 0 0 0 1).
Definition resized (db : list (nat * nat)) : rel_info :=
  let n := length db in mkRelInfo db (repeat (repeat blank n) n).
(** 43-46: emplace does not replace an existing entry *)
Definition register (r : rel_info) (id d : nat) : rel_info :=
  resized (match db_find (ri_db r) id with Some _ => ri_db r | None => ri_db r ++ [(id, d)] end).
(** 48-51 *)
Definition remove_info (r : rel_info) (id : nat) : rel_info :=
  resized (filter (fun e => negb (Nat.eqb (fst e) id)) (ri_db r)).

(** 117-127 *)
Definition relative_attitude (t r : motion) : quat := qmul (mo_q_i2b t) (qconj (mo_q_i2b r)).
(** 129-139 *)
Definition relative_position_rtn (t r : motion) : vec :=
  frame_conversion (quaternion_i2lvlh (mo_r r) (mo_v r)) (vsub (mo_r t) (mo_r r)).
(** 141-160 *)
Definition relative_velocity_rtn (t r : motion) : vec :=
  let rot := vdiv (cross (mo_r r) (mo_v r)) (norm 3 (mo_r r) * norm 3 (mo_r r)) in
  frame_conversion (quaternion_i2lvlh (mo_r r) (mo_v r))
    (vsub (vsub (mo_v t) (mo_v r)) (cross rot (vsub (mo_r t) (mo_r r)))).
(** 18-39: the body of the two loops *)
Definition relative_of (t r : motion) : relative :=
  mkRelative (vsub (mo_r t) (mo_r r)) (vsub (mo_v t) (mo_v r)) (norm 3 (vsub (mo_r t) (mo_r r)))
    (relative_position_rtn t r) (relative_velocity_rtn t r) (relative_attitude t r).
(** a loop that fills a vector, stopping at the first exception *)
Fixpoint collect {A B} (f : A -> outcome B) (l : list A) : outcome (list B) :=
  match l with [] => Ok [] | x :: r => let! y := f x in let! ys := collect f r in Ok (y :: ys) end.
(** 14-41 *)
Definition rel_update (world : nat -> motion) (r : rel_info) : outcome rel_info :=
  let n := length (ri_db r) in
  let! table := collect (fun t => collect (fun f => let! dt := db_at (ri_db r) t in let! df := db_at (ri_db r) f in
                                               Ok (relative_of (world dt) (world df))) (seq 0 n)) (seq 0 n) in
  Ok (mkRelInfo (ri_db r) table).
(** relative_information.hpp:83-133: operator[] twice, not checked *)
Definition rel_get (r : rel_info) (t f : nat) : outcome relative :=
  match nth_error (ri_table r) t with
  | Some row => match nth_error row f with Some e => Ok e | None => UB end
  | None => UB
  end.
