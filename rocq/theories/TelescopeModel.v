(** Models of src/components/real/mission/telescope.cpp (line numbers below, T) and of
    src/environment/global/hipparcos_catalogue.cpp (H), exact reals.  abs on a double is the absolute value.
    Not modelled: the log text and the setting files. *)
From Coq Require Import Reals Lra Lia List Bool ZArith.
From Verif Require Import Base RBase VecModel QuatModel Trig.
Import ListNotations.
Open Scope R_scope.

(** ** Hipparcos catalogue *)
(** hipparcos_catalogue.hpp:21-26 *)
Record hip : Type := mkHip { hp_id : Z; hp_mag : R; hp_ra_deg : R; hp_de_deg : R }.
(** H 24-54.  A file is the list of its well-formed lines after the title, and whether white space follows the last of them.
    Then the end of the file is only found by a failed read, after which the (uninitialised) record is compared and stored. *)
Fixpoint hip_read (max : R) (rows : list hip) (trailing : bool) (acc : list hip) : outcome (list hip) :=
  match rows with
  | [] => if trailing then UB else Ok acc
  | s :: r => if rlt max (hp_mag s) then Ok acc
              else match r with [] => if trailing then UB else Ok (acc ++ [s]) | _ => hip_read max r trailing (acc ++ [s]) end
  end.
(** H 56-67; operator[] is not checked *)
Definition star_direction_i (s : hip) : vec :=
  let ra := hp_ra_deg s * (PI / 180) in let de := hp_de_deg s * (PI / 180) in
  v3 (cos ra * cos de) (sin ra * cos de) (sin de).
(** H 69-77 *)
Definition star_direction_b (s : hip) (q_i2b : quat) : vec := frame_conversion q_i2b (star_direction_i s).

(** ** Telescope *)
Record tele : Type := mkTele {
  tl_q_b2c : quat; tl_sun : R; tl_earth : R; tl_moon : R; tl_nx : Z; tl_ny : Z; tl_fx_pix : R; tl_fy_pix : R; tl_logged : nat }.
(** T 38-39 *)
Definition fov_x (t : tele) : R := IZR (tl_nx t) * tl_fx_pix t.
Definition fov_y (t : tele) : R := IZR (tl_ny t) * tl_fy_pix t.
(** T 40-41: the asserts (compiled in unless NDEBUG) abort, modelled as Throw *)
Definition tele_new (t : tele) : outcome tele :=
  if negb (rlt (fov_x t) (PI / 2)) then Throw else if negb (rlt (fov_y t) (PI / 2)) then Throw else Ok t.
(** T 43-44, 93-102 *)
Definition sight_b (t : tele) : vec := frame_conversion (qconj (tl_q_b2c t)) (v3 1 0 0).
Definition judge_forbidden (t : tele) (target_b : vec) (forbidden : R) : bool :=
  rlt (angle_two_vectors 3 target_b (sight_b t)) forbidden.
(** T 104-116; x_number_of_pix_ / 2 is an integer division *)
Definition observe (t : tele) (target_b : vec) : R * R :=
  let c := frame_conversion (tl_q_b2c t) target_b in
  let ax := atan2 (c 2%nat) (c 0%nat) in let ay := atan2 (c 1%nat) (c 0%nat) in
  if (rlt (Rabs ax) (fov_x t) && rlt (Rabs ay) (fov_y t))%bool
  then (IZR (Z.quot (tl_nx t) 2) * tan ax / tan (fov_x t) + IZR (Z.quot (tl_nx t) 2),
        IZR (Z.quot (tl_ny t) 2) * tan ay / tan (fov_y t) + IZR (Z.quot (tl_ny t) 2))
  else (-1, -1).
(** telescope.hpp:26-29 *)
Record star : Type := mkStar { sr_data : hip; sr_pos : R * R }.
(** T 50-55, 147-152 *)
Definition no_star : star := mkStar (mkHip (-1) (-1) (-1) (-1)) (-1, -1).
(** T 125-141: the catalogue entry as observed, if in sight (here the bounds are included and the halves are not rounded) *)
Definition observe_star (t : tele) (q_i2b : quat) (s : hip) : option star :=
  let c := frame_conversion (tl_q_b2c t) (star_direction_b s q_i2b) in
  let ax := atan2 (c 2%nat) (c 0%nat) in let ay := atan2 (c 1%nat) (c 0%nat) in
  if (rle (Rabs ax) (fov_x t) && rle (Rabs ay) (fov_y t))%bool
  then Some (mkStar s (IZR (tl_nx t) / 2 * tan ax / tan (fov_x t) + IZR (tl_nx t) / 2,
                       IZR (tl_ny t) / 2 * tan ay / tan (fov_y t) + IZR (tl_ny t) / 2))
  else None.
(** T 124-160: the loop from a list of stars found and the rest of the catalogue *)
Fixpoint stars_loop (t : tele) (q_i2b : quat) (found : list star) (rest : list hip) : outcome (list star) :=
  if Nat.ltb (length found) (tl_logged t) then
    match rest with
    | [] => UB
    | s :: r =>
      let found := match observe_star t q_i2b s with Some o => found ++ [o] | None => found end in
      match r with [] => Ok (found ++ repeat no_star (tl_logged t - length found)) | _ => stars_loop t q_i2b found r end
    end
  else Ok found.
(** T 118-124 *)
Definition observe_stars (t : tele) (q_i2b : quat) (catalogue : list hip) : outcome (list star) := stars_loop t q_i2b [] catalogue.

(** T 163-187: the position of the ground point on the image; [target_i] is the direction to it in the inertial frame *)
Definition ground_step (t : tele) (q_i2b : quat) (target_i : vec) (p : R * R) : R * R :=
  if (rlt (IZR (tl_nx t)) (fst p) || rlt (IZR (tl_ny t)) (snd p))%bool then (-1, -1)
  else let c := frame_conversion (tl_q_b2c t) (frame_conversion q_i2b target_i) in
       (atan2 (c 2%nat) (c 0%nat) / tl_fx_pix t, atan2 (c 1%nat) (c 0%nat) / tl_fy_pix t).
(** telescope.hpp:86-87: the initial value *)
Definition ground_initial : R * R := (0, 0).
(** T 57-61 and 176-179: the ground point below the initial position (kept), and the direction to it *)
Definition ground_point (radius : R) (initial_ecef : vec) (altitude : R) : vec := vdiv (vscal radius initial_ecef) (altitude + radius).
Definition ground_direction_i (dcm_i2ecef : mat) (ground sc_ecef : vec) : vec :=
  normalize 3 (mvec 3 (mtrans dcm_i2ecef) (normalize 3 (vsub ground sc_ecef))).
