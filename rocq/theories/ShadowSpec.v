(** Eclipses: what is expected, independently of the code. *)
From Coq Require Import Reals List Bool String.
From Coquelicot Require Import Coquelicot.
From Verif Require Import Base RBase VecModel ShadowModel.
Import ListNotations.
Open Scope R_scope.

(** half the chord of a disc of radius r at the distance t from the center; 0 outside (the square root of a negative number is 0 here) *)
Definition hc (r t : R) : R := sqrt (r * r - t * t).
(** at the distance t along the line of the centers the discs (radius a at 0, radius b at c) share the shorter chord *)
Definition shared_chord (a b c t : R) : R := 2 * Rmin (hc a t) (hc b (t - c)).
(** the part of a disc of radius a that a disc of radius b, with centers c apart, leaves uncovered: 1 minus the shared
    area (the integral of the shared chords) over the area of the first disc *)
Definition visible_part (a b c f : R) : Prop :=
  exists shared, is_RInt (shared_chord a b c) (- a) a shared /\ f = 1 - shared / (PI * (a * a)).
(** the angles of a source: apparent radius of the Sun, of the source, and their distance *)
Definition sun_size (s : sky) : R := apparent_radius (radius s "SUN") (to_body s "SUN").
Definition source_size (s : sky) (n : string) : R := apparent_radius (radius s n) (to_body s n).
Definition separation (s : sky) (n : string) : R := delta_angle (to_body s n) (to_body s "SUN").
(** the spacecraft is outside the Sun and outside the source, and the source does not cover the Sun exactly *)
Definition outside (s : sky) (n : string) : Prop := 0 < radius s n < norm 3 (to_body s n).
Definition source_ok (s : sky) (n : string) : Prop :=
  n = "SUN"%string \/ (outside s n /\ (separation s n = 0 -> sun_size s <> source_size s n)).
(** the source lies wholly in front of the Sun's disc *)
Definition annular (s : sky) (n : string) : Prop := n <> "SUN"%string /\ separation s n < sun_size s - source_size s n.
(** the part of the Sun's disc that one source leaves *)
Definition leaves (s : sky) (n : string) (f : R) : Prop :=
  if String.eqb n "SUN" then f = 1 else visible_part (sun_size s) (source_size s n) (separation s n) f.
Definition product (l : list R) : R := fold_right Rmult 1 l.
