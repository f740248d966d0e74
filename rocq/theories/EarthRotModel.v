(** Models of src/environment/global/earth_rotation.cpp (E), of gstime in src/math_physics/orbit/sgp4/sgp4unit.cpp (S), of
    src/environment/global/moon_rotation.cpp (M) and of src/math_physics/planet_rotation/moon_rotation_utilities.cpp (U).
    Doubles are real numbers and decimal literals exact; the constant pi of sgp4unit.cpp is taken to be the exact one.
    SPICE's matrix of the IAU_MOON frame is an input. *)
From Coq Require Import Reals Lra Lia List Bool ZArith String.
From Verif Require Import Base RBase VecModel QuatModel SensorModel CelestialModel.
Import ListNotations.
Open Scope R_scope.

(** constants.hpp:39, 41 *)
Definition deg : R := PI / 180.
Definition arcsec : R := deg / 3600.

(** S 1757-1758: sidereal time in seconds, then in radians *)
Definition gst_seconds (t : R) : R := -0.0000062 * t * t * t + 0.093104 * t * t + (876600 * 3600 + 8640184.812866) * t + 67310.54841.
Definition gst_angle (jd : R) : R := gst_seconds ((jd - 2451545) / 36525) * deg / 240.
(** S 1752-1776: fmod truncates toward zero *)
Definition gstime (jd : R) : R :=
  let temp := gst_angle jd - 2 * PI * IZR (trunc (gst_angle jd / (2 * PI))) in
  if rlt temp 0 then temp + 2 * PI else temp.

(** earth_rotation.hpp:22-26 and E 273-288 *)
Inductive earth_mode : Type := EarthIdle | EarthSimple | EarthFull.
Definition earth_mode_of (s : string) : earth_mode :=
  if String.eqb s "IDLE" then EarthIdle else if String.eqb s "SIMPLE" then EarthSimple else if String.eqb s "FULL" then EarthFull else EarthIdle.

(** the loops  x += c[i + k] * t[i]  of E 167-198 and 241-252: the list holds the remaining coefficients, p the power of t *)
Fixpoint series (acc : R) (cs : list R) (t p : R) : R :=
  match cs with [] => acc | c :: r => series (acc + c * p) r t (p * t) end.

(** E 36-106, in the units written there *)
Definition eps_angle (t : R) : R := series (23.4392911 * deg) [-46.815 * arcsec; -0.00059 * arcsec; 0.001813 * arcsec] t t.
Definition lm_angle (t : R) : R := series (134.96340251 * deg) [1717915923.2178 * arcsec; 31.8792 * arcsec; 0.051635 * arcsec; -0.0002447 * arcsec] t t.
Definition ls_angle (t : R) : R := series (357.52910918 * deg) [129596581.0481 * arcsec; -0.5532 * arcsec; 0.000136 * arcsec; -0.00001149 * arcsec] t t.
Definition f_angle (t : R) : R := series (93.27209062 * deg) [1739527262.8478 * arcsec; -12.7512 * arcsec; -0.001037 * arcsec; 0.00000417 * arcsec] t t.
Definition d_angle (t : R) : R := series (297.85019547 * deg) [1602961601.209 * arcsec; -6.3706 * arcsec; 0.006593 * arcsec; -0.00003169 * arcsec] t t.
Definition o_angle (t : R) : R := series (125.04455501 * deg) [-6962890.5431 * arcsec; 7.4722 * arcsec; 0.007702 * arcsec; -0.00005939 * arcsec] t t.
Definition zeta_angle (t : R) : R := series 0 [2306.2181 * arcsec; 0.30188 * arcsec; 0.017998 * arcsec] t t.
Definition theta_angle (t : R) : R := series 0 [2004.3109 * arcsec; -0.42665 * arcsec; -0.041833 * arcsec] t t.
Definition z_angle (t : R) : R := series 0 [2306.2181 * arcsec; 1.09468 * arcsec; 0.018203 * arcsec] t t.

(** E 200-216: the nine terms *)
Definition nutation_terms (f : R -> R) (c : list R) (t : R) : R :=
  let o := o_angle t in let ls := ls_angle t in let lm := lm_angle t in
  let l := f_angle t + o in let ld := l - d_angle t in
  let k n := nth n c 0 * arcsec in
  k 0%nat * f o + k 1%nat * f (2 * ld) + k 2%nat * f (2 * o) + k 3%nat * f (2 * l) + k 4%nat * f ls
  + k 5%nat * f lm + k 6%nat * f (2 * ld + ls) + k 7%nat * f (2 * l + lm) + k 8%nat * f (2 * ld - ls).
Definition d_psi (t : R) : R := nutation_terms sin [-17.206; -1.317; 0.207; -0.228; 0.148; 0.071; -0.052; -0.03; 0.022] t.
Definition d_eps (t : R) : R := nutation_terms cos [9.205; 0.573; -0.09; 0.098; 0.007; -0.001; 0.022; 0.013; -0.01] t.

(** E 218-226; the matrix product associates to the left *)
Definition nutation (t : R) : mat :=
  mmul 3 (mmul 3 (rot_x (- (eps_angle t + d_eps t))) (rot_z (- d_psi t))) (rot_x (eps_angle t)).
(** E 238-262 *)
Definition precession (t : R) : mat := mmul 3 (mmul 3 (rot_z (- z_angle t)) (rot_y (theta_angle t))) (rot_z (- zeta_angle t)).
(** E 264-278 *)
Definition polar_motion (xp yp : R) : mat := m3 1 0 (- xp)  0 1 (- yp)  xp yp 1.
(** E 118-127: centuries of terrestrial time, taken 32.184 s ahead of the given date *)
Definition tt_century (jd : R) : R := (jd + 32.184 * (1 / (24 * 60 * 60)) - 2451545) / 36525.
(** E 138-147 *)
Definition full_dcm (jd : R) : mat :=
  let t := tt_century jd in
  let gast := gstime jd + d_psi t * cos (eps_angle t + d_eps t) in
  mmul 3 (mmul 3 (mmul 3 (polar_motion 0 0) (rot_z gast)) (nutation t)) (precession t).

Record earth : Type := mkEarth { er_mode : earth_mode; er_ecef : mat; er_teme : mat }.
(** E 21-25, 103-106 *)
Definition earth_new (m : earth_mode) : earth := mkEarth m mident mident.
(** E 114-157 *)
Definition earth_update (e : earth) (jd : R) : earth :=
  match er_mode e with
  | EarthFull => mkEarth (er_mode e) (full_dcm jd) (er_teme e)
  | EarthSimple => mkEarth (er_mode e) (rot_z (gstime jd)) (er_teme e)
  | EarthIdle => e
  end.

(** ** Moon *)
(** moon_rotation.hpp:22-26 and M 46-61 *)
Inductive moon_mode : Type := MoonIdle | MoonSimple | MoonIau.
Definition moon_mode_of (s : string) : moon_mode :=
  if String.eqb s "IDLE" then MoonIdle else if String.eqb s "SIMPLE" then MoonSimple else if String.eqb s "IAU_MOON" then MoonIau else MoonIdle.
(** U 25-43 *)
Definition mean_earth_dcm (r v : vec) : mat :=
  let ex := vscal (-1) (normalize 3 r) in
  let ez := normalize 3 (cross r v) in
  let ey := cross ez ex in
  fun i => match i with 0%nat => ex | 1%nat => ey | _ => ez end.
(** U 45-55 *)
Definition me_to_pa : mat := mmul 3 (mmul 3 (rot_z (67.573 * arcsec)) (rot_y (78.58 * arcsec))) (rot_x (0.285 * arcsec)).
(** U 18-23 *)
Definition principal_axis_dcm (r v : vec) : mat := mmul 3 me_to_pa (mean_earth_dcm r v).
(** M 20-44; [iau] is what SPICE returns for the time of the call *)
Definition moon_update (naif : string -> option Z) (g : celestial) (iau : mat) (m : moon_mode) : outcome mat :=
  match m with
  | MoonSimple => let! p := position_between naif g "MOON" "EARTH" in let! v := velocity_between naif g "MOON" "EARTH" in Ok (principal_axis_dcm p v)
  | MoonIau => Ok iau
  | MoonIdle => Ok mident
  end.

(** celestial_information.hpp:272-276 and celestial_information.cpp:69-70: which mode a body gets; the list of modes is as long as the
    list of bodies *)
Definition rotation_mode (naif : string -> option Z) (g : celestial) (modes : list string) (name : string) : outcome string :=
  let! i := body_index naif g name in
  if Nat.leb (n_bodies g) i then Ok "Idle"%string else match nth_error modes i with Some s => Ok s | None => UB end.
