(** What a settings file asks for, independently of the code. *)
From Coq Require Import Reals List String.
From Verif Require Import Base RBase VecModel QuatModel QuatSpec OrbitModel AttitudeModel StartModel.
Import ListNotations.
Open Scope string_scope.

(** the propagation methods of the documentation *)
Definition orbit_words : list string := ["RK4"; "SGP4"; "RELATIVE"; "KEPLER"; "ENCKE"; "TIME_SERIES_FILE"].
Definition kind_word (o : orbit_object) : string :=
  match o with ORk4 _ => "RK4" | OSgp4 _ _ _ => "SGP4" | ORelative _ _ => "RELATIVE" | OKepler _ _ _ _ => "KEPLER" | OEncke _ => "ENCKE" | OSeries _ _ _ _ => "TIME_SERIES_FILE" end.
(** the control modes of the documentation *)
Definition control_words : list (string * mode) :=
  [("INERTIAL_STABILIZE", MInertial); ("SUN_POINTING", MSun); ("EARTH_CENTER_POINTING", MEarth); ("VELOCITY_DIRECTION_POINTING", MVelocity);
   ("GROUND_SPEED_DIRECTION_POINTING", MGroundSpeed); ("ORBIT_NORMAL_POINTING", MNormal); ("EARTH_SURFACE_POINTING", MSurface)].
Definition attitude_words : list string := ["RK4"; "CANTILEVER_VIBRATION"; "CONTROLLED"].
Definition attitude_word (a : attitude_object) : string :=
  match a with ARk4 _ => "RK4" | ACantilever _ => "CANTILEVER_VIBRATION" | AControlled _ => "CONTROLLED" end.

Open Scope R_scope.
(** position and velocity of the orbit object are r and v *)
Definition starts_at (o : orbit_object) (r v : vec) : Prop :=
  exists p w, orbit_state o = Some (p, w) /\ veq 3 p r /\ veq 3 w v.
