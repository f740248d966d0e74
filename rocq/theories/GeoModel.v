(** Model of src/math_physics/geodesy/geodetic_position.cpp and of AcTan and FMod2p of
    src/math_physics/orbit/sgp4/sgp4ext.cpp (exact reals; the constants PIO2, TWOPI... of sgp4ext.cpp:35-38
    are taken to be the exact multiples of pi). *)
From Coq Require Import Reals Lra Lia List Bool ZArith.
From Verif Require Import Base RBase VecModel QuatModel SensorModel.
Import ListNotations.
Open Scope R_scope.

(** physical_constants.hpp:33, 37 *)
Definition geo_radius : R := 6378136.6.
Definition geo_flattening : R := 3352797 / 10 ^ 9.
Definition geo_e2 : R := geo_flattening * (2 - geo_flattening).

(** sgp4ext.cpp:89-110 *)
Definition actan (sinx cosx : R) : R :=
  if req cosx 0 then (if rlt 0 sinx then PI / 2 else 3 * (PI / 2))
  else if rlt 0 cosx then (if rlt 0 sinx then atan (sinx / cosx) else 2 * PI + atan (sinx / cosx))
  else PI + atan (sinx / cosx).
(** sgp4ext.cpp:113-126; the conversion to int is undefined outside its range *)
Definition fmod2p (x : R) : outcome R :=
  let! i := int_of_double (x / (2 * PI)) in
  let r := x - IZR i * (2 * PI) in
  Ok (if rlt r 0 then r + 2 * PI else r).

Record geodetic : Type := mkGeodetic { geo_lat : R; geo_lon : R; geo_alt : R; geo_q : quat }.

(** geodetic_position.cpp:74-88 *)
Definition ltc_dcm (lat lon : R) : mat :=
  m3 (- sin lon) (cos lon) 0
     (- sin lat * cos lon) (- sin lat * sin lon) (cos lat)
     (cos lat * cos lon) (cos lat * sin lon) (sin lat).
(** 15-26 *)
Definition geodetic_new (lat lon alt : R) : geodetic := mkGeodetic lat lon alt (from_dcm (ltc_dcm lat lon)).

(** 42, 62 *)
Definition geo_c (phi : R) : R := 1 / sqrt (1 - geo_e2 * sin phi * sin phi).
(** 43 *)
Definition geo_next (z r phi : R) : R := actan (z + geo_radius * geo_c phi * geo_e2 * sin phi) r.
(** 40-44: the loop from lat_tmp = lat; returns the last phi and lat_tmp *)
Fixpoint geo_loop (fuel : nat) (z r lat : R) : outcome (R * R) :=
  match fuel with
  | O => Hang
  | S k => let lat' := geo_next z r lat in
           if rle (1 / 10 ^ 10) (Rabs (lat' - lat)) then geo_loop k z r lat' else Ok (lat, lat')
  end.
(** 28-55 *)
Definition update_from_ecef (fuel : nat) (p : vec) : outcome geodetic :=
  let! lon := fmod2p (actan (p 1%nat) (p 0%nat)) in
  let r := sqrt (p 0%nat * p 0%nat + p 1%nat * p 1%nat) in
  let! pl := geo_loop fuel (p 2%nat) r (actan (p 2%nat) r) in
  let (phi, lat) := (pl : R * R) in
  let alt := r / cos lat - geo_c phi * geo_radius in
  let lat' := if rlt (PI / 2) lat then lat - 2 * PI else lat in
  Ok (mkGeodetic lat' lon alt (from_dcm (ltc_dcm lat' lon))).

(** 57-72 *)
Definition ecef_position (g : geodetic) : outcome vec :=
  let! theta := fmod2p (geo_lon g) in
  let n := geo_c (geo_lat g) * geo_radius in
  Ok (v3 ((n + geo_alt g) * cos (geo_lat g) * cos theta)
         ((n + geo_alt g) * cos (geo_lat g) * sin theta)
         ((n * (1 - geo_e2) + geo_alt g) * sin (geo_lat g))).
