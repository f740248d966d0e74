(** Model of src/environment/global/celestial_information.{hpp,cpp} (CI, CI.hpp) and
    src/environment/local/local_celestial_information.cpp (LC): where the celestial bodies are.
    Doubles are real numbers; arrays are lists, touching a slot outside is undefined behaviour.
    Not modelled: SPICE itself (its ephemerides are the contents of the arrays, its names a table). *)
From Coq Require Import Reals List Bool Arith ZArith String.
From Verif Require Import Base RBase VecModel QuatModel.
Import ListNotations.
Open Scope R_scope.

(** new double[n]: reading and writing slot i *)
Definition aget (a : list R) (i : nat) : outcome R := match nth_error a i with Some x => Ok x | None => UB end.
Definition aset (a : list R) (i : nat) (x : R) : outcome (list R) :=
  if (i <? List.length a)%nat then Ok (firstn i a ++ x :: skipn (S i) a) else UB.
(** for (int j = 0; j < 3; j++) v[j] = a[id * 3 + j], and a[id * 3 + j] = v[j] *)
Definition aget3 (a : list R) (id : nat) : outcome vec :=
  let! x := aget a (id * 3) in let! y := aget a (id * 3 + 1) in let! z := aget a (id * 3 + 2) in Ok (v3 x y z).
Definition aset3 (a : list R) (id : nat) (v : vec) : outcome (list R) :=
  let! a := aset a (id * 3) (v 0%nat) in let! a := aset a (id * 3 + 1) (v 1%nat) in aset a (id * 3 + 2) (v 2%nat).
(** for (int i = 0; i < n; i++) body(i) on a state *)
Fixpoint for_upto {A} (n : nat) (body : nat -> A -> outcome A) (s : A) : outcome A :=
  match n with O => Ok s | S n => let! s := for_upto n body s in body n s end.

(** CI: number_of_selected_bodies_ is the length of selected_body_ids_ *)
Record celestial : Type := mkCelestial { body_ids : list Z; body_pos : list R; body_vel : list R; body_radius : list R; center_name : string }.
Definition n_bodies (g : celestial) : nat := List.length (body_ids g).
(** CI.hpp:78-83, 113-118: the test is > *)
Definition from_center (g : celestial) (a : list R) (id : nat) : outcome vec :=
  if (n_bodies g <? id)%nat then Ok (vconst 0) else aget3 a id.
(** CI 142-147: the loop that stops at the first equal id *)
Fixpoint index_of (p : Z) (ids : list Z) : option nat :=
  match ids with [] => None | z :: l => if Z.eqb z p then Some 0%nat else option_map S (index_of p l) end.
(** CI 135-149; [naif] is SPICE's table of names; the id of an unknown name stays uninitialised, and is read if there
    is a selected body *)
Definition body_index (naif : string -> option Z) (g : celestial) (name : string) : outcome nat :=
  match naif name, body_ids g with
  | Some p, ids => Ok match index_of p ids with Some i => i | None => 0%nat end
  | None, [] => Ok 0%nat
  | None, _ :: _ => UB
  end.
(** CI.hpp:89-92, 99-106, 124-127, 134-141, 185-188 *)
Definition position_of (naif : string -> option Z) (g : celestial) (name : string) : outcome vec :=
  let! i := body_index naif g name in from_center g (body_pos g) i.
Definition velocity_of (naif : string -> option Z) (g : celestial) (name : string) : outcome vec :=
  let! i := body_index naif g name in from_center g (body_vel g) i.
Definition position_between (naif : string -> option Z) (g : celestial) (target reference : string) : outcome vec :=
  let! t := position_of naif g target in let! r := position_of naif g reference in Ok (vsub t r).
Definition velocity_between (naif : string -> option Z) (g : celestial) (target reference : string) : outcome vec :=
  let! t := velocity_of naif g target in let! r := velocity_of naif g reference in Ok (vsub t r).
Definition radius_of (naif : string -> option Z) (g : celestial) (name : string) : outcome R :=
  let! i := body_index naif g name in aget (body_radius g) i.
(** CI 107-133 without the rotations; [spk] is SPICE's state of a body in km and km/s *)
Definition update_bodies (spk : Z -> vec * vec) (g : celestial) : outcome celestial :=
  let! pv := for_upto (n_bodies g) (fun i pv =>
    let s := spk (nth i (body_ids g) 0%Z) in
    let! p := aset3 (fst pv) i (vscal 1000 (fst s)) in
    let! v := aset3 (snd pv) i (vscal 1000 (snd s)) in Ok (p, v)) (body_pos g, body_vel g) in
  Ok (mkCelestial (body_ids g) (fst pv) (snd pv) (body_radius g) (center_name g)).

(** LC: the six arrays, in the order of LC 22-27 *)
Record local_celestial : Type := mkLocal { pc_b : list R; vc_b : list R; ps_i : list R; vs_i : list R; ps_b : list R; vs_b : list R }.
(** LC 19-38 *)
Definition new_local (g : celestial) : local_celestial :=
  let z := repeat 0 (n_bodies g * 3) in mkLocal z z z z z z.
(** LC 103-133 *)
Definition velocity_to_body (position_i velocity_i : vec) (q : quat) (w_b : vec) : vec :=
  frame_conversion q (vsub velocity_i (cross w_b position_i)).
(** LC 67-92 *)
Definition calc_all_b (g : celestial) (q : quat) (w : vec) (l : local_celestial) : outcome local_celestial :=
  for_upto (n_bodies g) (fun i l =>
    let! r1 := from_center g (body_pos g) i in
    let! v1 := from_center g (body_vel g) i in
    let! r2 := aget3 (ps_i l) i in
    let! v2 := aget3 (vs_i l) i in
    let! pc := aset3 (pc_b l) i (frame_conversion q r1) in
    let! ps := aset3 (ps_b l) i (frame_conversion q r2) in
    let! vc := aset3 (vc_b l) i (velocity_to_body r1 v1 q w) in
    let! vs := aset3 (vs_b l) i (velocity_to_body r2 v2 q w) in
    Ok (mkLocal pc vc (ps_i l) (vs_i l) ps vs)) l.
(** LC 48-65 *)
Definition update_local (g : celestial) (sc_pos sc_vel : vec) (q : quat) (w : vec) (l : local_celestial) : outcome local_celestial :=
  let! l := for_upto (n_bodies g) (fun i l =>
    let! r := from_center g (body_pos g) i in
    let! v := from_center g (body_vel g) i in
    let! p := aset3 (ps_i l) i (vsub r sc_pos) in
    let! v := aset3 (vs_i l) i (vsub v sc_vel) in
    Ok (mkLocal (pc_b l) (vc_b l) p v (ps_b l) (vs_b l))) l in
  calc_all_b g q w l.
(** LC 135-143, 151-159; 145-149, 161-165 with the name of the center body *)
Definition seen_i (naif : string -> option Z) (g : celestial) (l : local_celestial) (name : string) : outcome vec :=
  let! i := body_index naif g name in aget3 (ps_i l) i.
Definition seen_b (naif : string -> option Z) (g : celestial) (l : local_celestial) (name : string) : outcome vec :=
  let! i := body_index naif g name in aget3 (ps_b l) i.
(** LC 190-203: the logged row: position then velocity of each body *)
Definition celestial_log (g : celestial) (l : local_celestial) : outcome (list R) :=
  for_upto (n_bodies g) (fun i row =>
    let! p := aget3 (ps_b l) i in let! v := aget3 (vs_b l) i in
    Ok (row ++ [p 0%nat; p 1%nat; p 2%nat; v 0%nat; v 1%nat; v 2%nat])) [].
