(** Model of src/math_physics/optics/gaussian_beam_base.cpp (G).  Doubles are real numbers; math::pi is PI. *)
From Coq Require Import Reals.
From Verif Require Import Base RBase VecModel.
Open Scope R_scope.

(** gaussian_beam_base.hpp:104-109 *)
Record beam : Type := mkBeam { b_wavelength : R; b_waist : R; b_power : R; b_pointing : vec; b_position : vec }.
(** G 13-14 and the member initialisers hpp:108-109; the constructor checks nothing *)
Definition beam_new (wavelength waist power : R) : beam :=
  mkBeam wavelength waist power (fun _ => 0) (fun _ => 0).
(** G 18-21: assert aborts; it is the outcome Throw here *)
Definition set_wavelength (b : beam) (v : R) : outcome beam :=
  if rlt 0 v then Ok (mkBeam v (b_waist b) (b_power b) (b_pointing b) (b_position b)) else Throw.
(** G 23-26 *)
Definition set_waist (b : beam) (v : R) : outcome beam :=
  if rlt 0 v then Ok (mkBeam (b_wavelength b) v (b_power b) (b_pointing b) (b_position b)) else Throw.
(** G 28-31 *)
Definition set_power (b : beam) (v : R) : outcome beam :=
  if rle 0 v then Ok (mkBeam (b_wavelength b) (b_waist b) v (b_pointing b) (b_position b)) else Throw.
(** G 33 *)
Definition set_pointing (b : beam) (v : vec) : beam := mkBeam (b_wavelength b) (b_waist b) (b_power b) v (b_position b).
(** G 35 *)
Definition set_position (b : beam) (v : vec) : beam := mkBeam (b_wavelength b) (b_waist b) (b_power b) (b_pointing b) v.
(** G 37-41; pow(x, 2.0) is x * x *)
Definition beam_width (b : beam) (distance : R) : R :=
  let rayleigh := PI * b_waist b * b_waist b / b_wavelength b in
  b_waist b * sqrt (1 + (distance / rayleigh) * (distance / rayleigh)).
(** G 43-50 *)
Definition intensity (b : beam) (distance deviation : R) : R :=
  let w := beam_width b distance in
  let peak := (2 * b_power b) / (PI * w * w) in
  let dist := exp ((-2 * deviation * deviation) / (w * w)) in
  peak * dist.
