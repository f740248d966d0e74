(** Model of src/environment/local/solar_radiation_pressure_environment.cpp (SP): sunlight and eclipses.
    Doubles are real numbers; [None] stands for a coefficient that is NaN. *)
From Coq Require Import Reals List Bool String.
From Verif Require Import Base RBase VecModel.
Import ListNotations.
Open Scope R_scope.

(** physical_constants.hpp; SP.hpp:118 *)
Definition speed_of_light : R := 299792458.
Definition astronomical_unit : R := 149597870700.
Definition solar_constant : R := 1366.
(** SP 35-40 *)
Definition srp_pressure (sc2sun : vec) : R :=
  solar_constant / speed_of_light / ((norm 3 sc2sun / astronomical_unit) * (norm 3 sc2sun / astronomical_unit)).

(** SP 72-80: the apparent radii of the Sun and of the source, and the angle from the source to the Sun.  Outside
    [-1,1] asin and acos would be NaN; rounding can cause that for acos, a position inside a body for asin. *)
Definition apparent_radius (radius : R) (to_body : vec) : R := asin (radius / norm 3 to_body).
Definition delta_angle (sc2source sc2sun : vec) : R :=
  let source2sun := vsub sc2sun sc2source in
  acos (dot 3 sc2source source2sun / norm 3 sc2source / norm 3 source2sun).
(** SP 81-84 *)
Definition chord_x (a b c : R) : R := (c * c + a * a - b * b) / (2 * c).
Definition chord_y (a b c : R) : R := sqrt (Rmax (a * a - chord_x a b c * chord_x a b c) 0).
(** SP 98: the covered area *)
Definition lens_area (a b c : R) : R :=
  a * a * acos (chord_x a b c / a) + b * b * acos ((c - chord_x a b c) / b) - c * chord_y a b c.
(** SP 86-112.  Products with NaN stay NaN, the assignment in the second case does not read the old value.
    In the third case with c = 0 (then a = b) the chord is 0/0.  In the last case c < a + b never holds for real numbers. *)
Definition times (co : option R) (f : R) : option R := match co with Some x => Some (x * f) | None => None end.
Definition shadow_step (a b c : R) (co : option R) : outcome (option R) :=
  if rlt c (Rabs (a - b)) && rle a b then Ok (times co 0)
  else if rlt c (Rabs (a - b)) && rlt b a then Ok (Some (1 - (b * b) / (a * a)))
  else if rle (Rabs (a - b)) c && rle c (a + b) then
    if req c 0 then Ok None
    else Ok (times co (1 - lens_area a b c / (PI * a * a)))
  else if rlt c (a + b) then Throw
  else Ok (times co 1).
(** SP 60-112 for one source; "SUN" is skipped (61-64) *)
Record sky : Type := mkSky { to_body : string -> vec; radius : string -> R }.
Definition calc_shadow (s : sky) (source : string) (co : option R) : outcome (option R) :=
  if String.eqb source "SUN" then Ok (times co 1)
  else shadow_step (apparent_radius (radius s "SUN") (to_body s "SUN")) (apparent_radius (radius s source) (to_body s source))
         (delta_angle (to_body s source) (to_body s "SUN")) co.
(** SP 25-33 *)
Definition all_shadows (s : sky) (sources : list string) : outcome (option R) :=
  fold_left (fun o src => let! co := o in calc_shadow s src co) sources (Ok (Some 1)).
(** SP 19-22 and 115-130: the center body, then for every configured source the first one *)
Definition shadow_sources (center : string) (names : list string) : list string :=
  center :: match names with [] => [] | n :: _ => map (fun _ => n) names end.
(** SP.hpp:56, 61, 81 *)
Definition pressure_now (p : R) (coefficient : R) : R := p * coefficient.
Definition power_density (p : R) (coefficient : R) : R := p * speed_of_light * coefficient.
Definition is_eclipsed (coefficient : R) : bool := negb (rle 1 coefficient).
