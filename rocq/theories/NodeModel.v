(** Model of the radiation loads of src/dynamics/thermal/node.cpp (the solar load is in ThermalModel).
    Doubles are real numbers.  CalcAlbedoRadiation_W and CalcEarthInfraredRadiation_W contain the same view factor
    code (57-82 and 101-127). *)
From Coq Require Import Reals List Bool.
From Verif Require Import Base RBase VecModel ThermalModel.
Import ListNotations.
Open Scope R_scope.

(** environment/global/physical_constants.hpp:33 *)
Definition earth_radius : R := 63781366 / 10.
(** 66-82, 111-127.  asin, acos of an argument outside [-1,1] (a spacecraft below the equatorial radius, a normal longer
    than 1) and tan at pi/2 are as in the C library only up to NaN / rounding; Coq's x / tan (pi/2) is 0. *)
Definition view_factor (h H lamda : R) : R :=
  let phi_m := asin (1 / H) in
  let b := sqrt (H * H - 1) in
  if rlt h (1732 * 10 ^ 3) then
    if rle lamda (PI / 2 - phi_m) then cos lamda / H / H
    else if rle lamda (PI / 2 + phi_m) then
      1 / 2 - 1 / PI * asin (b / (H * sin lamda))
      + 1 / (PI * (H * H)) * (cos lamda * acos (- b / tan lamda) - b * sqrt (1 - (H * cos lamda) * (H * cos lamda)))
    else 0
  else if rlt lamda (PI / 2) then 1 / 4 / H / H else 0.
(** 57-61, 99-105 *)
Definition node_view_factor (earth normal : vec) : R :=
  let lamda := acos (dot 3 (normalize 3 earth) normal) in
  let h := norm 3 earth - earth_radius in
  let H := norm 3 earth / earth_radius in
  view_factor h H lamda.
(** 98-133 *)
Definition earth_infrared (earth normal : vec) (flux area epsilon : R) : R := flux * area * epsilon * node_view_factor earth normal.
(** 49-96 *)
Definition albedo_radiation (earth sun normal : vec) (flux area alpha : R) : R :=
  let e := normalize 3 earth in
  let vec_a := vneg e in
  let vec_b := normalize 3 (vsub sun e) in
  let c := dot 3 vec_a vec_b in
  let vf := node_view_factor earth normal in
  let vf := if rlt 0 c then vf * (c * c * c) else 0 in
  flux * area * alpha * vf.
(** 159-192: the constructor's corrections *)
Record node_params : Type := mkNode { n_temperature : R; n_capacity : R; n_alpha : R; n_epsilon : R; n_area : R }.
Definition assert_params (n : node_params) : node_params :=
  let unit_or_0 x := if rlt x 0 || rlt 1 x then 0 else x in
  let pos_or_0 x := if rlt x 0 then 0 else x in
  mkNode (pos_or_0 (n_temperature n)) (pos_or_0 (n_capacity n)) (unit_or_0 (n_alpha n)) (unit_or_0 (n_epsilon n)) (pos_or_0 (n_area n)).
