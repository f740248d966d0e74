(** Model of src/math_physics/atmosphere/simple_air_density_model.cpp (SA), harris_priester_model.cpp (HP),
    harris_priester_coefficients.hpp (HC) and src/environment/local/atmosphere.cpp (AT).
    Doubles are real numbers (decimal literals exactly).  Not modelled: NRLMSISE-00 (an arbitrary function). *)
From Coq Require Import Reals List Bool Arith String.
From Verif Require Import Base RBase VecModel Trig.
Import ListNotations.
Open Scope R_scope.

(** ** SA: the chain of ifs, one row per case: lower limit, upper limit, scale height, base height [km], base density *)
Record band : Type := mkBand { b_lo : R; b_hi : R; b_scale : R; b_base : R; b_rho : R }.
(** SA 23-130 *)
Definition simple_bands : list band :=
  [mkBand 900 1000 (18105 / 10 ^ 2) 900 (5245 / 10 ^ 18);
   mkBand 800 900 (12464 / 10 ^ 2) 800 (117 / 10 ^ 16);
   mkBand 700 800 (88667 / 10 ^ 3) 700 (3614 / 10 ^ 17);
   mkBand 600 700 (71835 / 10 ^ 3) 600 (1454 / 10 ^ 16);
   mkBand 500 600 (63822 / 10 ^ 3) 500 (6967 / 10 ^ 16);
   mkBand 450 500 (60828 / 10 ^ 3) 450 (1585 / 10 ^ 15);
   mkBand 400 450 (58515 / 10 ^ 3) 400 (3725 / 10 ^ 15);
   mkBand 350 400 (53298 / 10 ^ 3) 350 (9158 / 10 ^ 15);
   mkBand 300 350 (53628 / 10 ^ 3) 300 (2418 / 10 ^ 14);
   mkBand 250 300 (45546 / 10 ^ 3) 250 (7248 / 10 ^ 14);
   mkBand 200 250 (37105 / 10 ^ 3) 200 (2789 / 10 ^ 13);
   mkBand 180 200 (2974 / 10 ^ 2) 180 (5464 / 10 ^ 13);
   mkBand 150 180 (22523 / 10 ^ 3) 150 (207 / 10 ^ 11);
   mkBand 140 150 (16149 / 10 ^ 3) 140 (3845 / 10 ^ 12);
   mkBand 130 140 (12636 / 10 ^ 3) 130 (8484 / 10 ^ 12);
   mkBand 120 130 (9473 / 10 ^ 3) 120 (2438 / 10 ^ 11);
   mkBand 110 120 (7263 / 10 ^ 3) 110 (9661 / 10 ^ 11);
   mkBand 100 110 (5877 / 10 ^ 3) 100 (5297 / 10 ^ 10);
   mkBand 90 100 (5382 / 10 ^ 3) 90 (3396 / 10 ^ 9);
   mkBand 80 90 (5799 / 10 ^ 3) 80 (1905 / 10 ^ 8);
   mkBand 70 80 (6549 / 10 ^ 3) 70 (877 / 10 ^ 7);
   mkBand 60 70 (7714 / 10 ^ 3) 60 (3206 / 10 ^ 7);
   mkBand 50 60 (8382 / 10 ^ 3) 50 (1057 / 10 ^ 6);
   mkBand 40 50 (7554 / 10 ^ 3) 40 (3972 / 10 ^ 6);
   mkBand 30 40 (6682 / 10 ^ 3) 30 (1774 / 10 ^ 5);
   mkBand 25 30 (6349 / 10 ^ 3) 25 (3899 / 10 ^ 5);
   mkBand 0 25 (7249 / 10 ^ 3) 0 (1225 / 10 ^ 3)].
Fixpoint find_band (a : R) (l : list band) : option band :=
  match l with [] => None | b :: l => if rle (b_lo b) a && rlt a (b_hi b) then Some b else find_band a l end.
(** SA 12-142: above 1000 km (19-22), the chain, and the else case, which returns 0 *)
Definition top_band : band := mkBand 1000 1000 268 1000 (3019 / 10 ^ 18).
Definition band_density (b : band) (a : R) : R := b_rho b * exp (- (a - b_base b) / b_scale b).
Definition simple_density (altitude_m : R) : R :=
  let a := altitude_m / 1000 in
  if rlt 1000 a then band_density top_band a
  else match find_band a simple_bands with Some b => band_density b a | None => 0 end.

(** ** HP *)
(** HC 14-29: height [km], density [g/km3] *)
Definition hp_min : list (R * R) :=
  [(100, 497400); (120, 24900); (130, 8377); (140, 3899); (150, 2122); (160, 1263); (170, (8008 / 10 ^ 1)); 
   (180, (5283 / 10 ^ 1)); (190, (3617 / 10 ^ 1)); (200, (2557 / 10 ^ 1)); (210, (1839 / 10 ^ 1)); 
   (220, (1341 / 10 ^ 1)); (230, (9949 / 10 ^ 2)); (240, (7488 / 10 ^ 2)); (250, (5709 / 10 ^ 2)); 
   (260, (4403 / 10 ^ 2)); (270, (343 / 10 ^ 1)); (280, (2697 / 10 ^ 2)); (290, (2139 / 10 ^ 2)); 
   (300, (1708 / 10 ^ 2)); (320, (1099 / 10 ^ 2)); (340, (7214 / 10 ^ 3)); (360, (4824 / 10 ^ 3)); 
   (380, (3274 / 10 ^ 3)); (400, (2249 / 10 ^ 3)); (420, (1558 / 10 ^ 3)); (440, (1091 / 10 ^ 3)); 
   (460, (7701 / 10 ^ 4)); (480, (5474 / 10 ^ 4)); (500, (3916 / 10 ^ 4)); (520, (2819 / 10 ^ 4)); 
   (540, (2042 / 10 ^ 4)); (560, (1488 / 10 ^ 4)); (580, (1092 / 10 ^ 4)); (600, (807 / 10 ^ 4)); 
   (620, (6012 / 10 ^ 5)); (640, (4519 / 10 ^ 5)); (660, (343 / 10 ^ 4)); (680, (2632 / 10 ^ 5)); 
   (700, (2043 / 10 ^ 5)); (720, (1607 / 10 ^ 5)); (740, (1281 / 10 ^ 5)); (760, (1036 / 10 ^ 5)); 
   (780, (8496 / 10 ^ 6)); (800, (7069 / 10 ^ 6)); (840, (468 / 10 ^ 5)); (880, (32 / 10 ^ 4)); 
   (920, (221 / 10 ^ 5)); (960, (156 / 10 ^ 5)); (1000, (115 / 10 ^ 5))].
Definition hp_max : list (R * R) :=
  [(100, 497400); (120, 24900); (130, 8710); (140, 4059); (150, 2215); (160, 1344); (170, (8758 / 10 ^ 1)); 
   (180, 601); (190, (4297 / 10 ^ 1)); (200, (3162 / 10 ^ 1)); (210, (2396 / 10 ^ 1)); (220, (1853 / 10 ^ 1)); 
   (230, (1455 / 10 ^ 1)); (240, (1157 / 10 ^ 1)); (250, (9308 / 10 ^ 2)); (260, (7555 / 10 ^ 2)); 
   (270, (6182 / 10 ^ 2)); (280, (5095 / 10 ^ 2)); (290, (4226 / 10 ^ 2)); (300, (3526 / 10 ^ 2)); 
   (320, (2511 / 10 ^ 2)); (340, (1819 / 10 ^ 2)); (360, (1337 / 10 ^ 2)); (380, (9955 / 10 ^ 3)); 
   (400, (7492 / 10 ^ 3)); (420, (5684 / 10 ^ 3)); (440, (4355 / 10 ^ 3)); (460, (3362 / 10 ^ 3)); 
   (480, (2612 / 10 ^ 3)); (500, (2042 / 10 ^ 3)); (520, (1605 / 10 ^ 3)); (540, (1267 / 10 ^ 3)); 
   (560, (1005 / 10 ^ 3)); (580, (7997 / 10 ^ 4)); (600, (639 / 10 ^ 3)); (620, (5123 / 10 ^ 4)); 
   (640, (4121 / 10 ^ 4)); (660, (3325 / 10 ^ 4)); (680, (2691 / 10 ^ 4)); (700, (2185 / 10 ^ 4)); 
   (720, (1779 / 10 ^ 4)); (740, (1452 / 10 ^ 4)); (760, (119 / 10 ^ 3)); (780, (9776 / 10 ^ 5)); 
   (800, (8059 / 10 ^ 5)); (840, (5741 / 10 ^ 5)); (880, (421 / 10 ^ 4)); (920, (313 / 10 ^ 4)); 
   (960, (236 / 10 ^ 4)); (1000, (181 / 10 ^ 4))].
(** std::map::upper_bound: the place of the first key greater than x, the number of entries if there is none *)
Fixpoint upper_bound (x : R) (t : list (R * R)) : nat :=
  match t with [] => 0 | (h, _) :: t => if rlt x h then 0 else S (upper_bound x t) end.
(** HP 75-92: *itr and *next(itr); past the end is undefined behaviour *)
Definition entry (t : list (R * R)) (i : nat) : outcome (R * R) := match nth_error t i with Some e => Ok e | None => UB end.
Definition apex_density (t : list (R * R)) (i : nat) (alt : R) : outcome R :=
  let! e1 := entry t i in let! e2 := entry t (S i) in
  let scale := (fst e1 - fst e2) / ln (snd e2 / snd e1) in
  Ok (snd e1 * exp ((fst e1 - alt) / scale)).
(** C pow for a base >= 0 *)
Definition cpow (x y : R) : R := if req x 0 then (if req y 0 then 1 else 0) else Rpower x y.
(** HP 41-51: the direction of the diurnal bulge *)
Definition lag_angle : R := 30 * (PI / 180).
Definition apex_direction (sun : vec) : vec :=
  let ra := atan2 (sun 1%nat) (sun 0%nat) in
  let dec := atan2 (sun 2%nat) (sqrt (sun 0%nat * sun 0%nat + sun 1%nat * sun 1%nat)) in
  let apex_ra := ra + lag_angle in
  v3 (cos dec * cos apex_ra) (cos dec * sin apex_ra) (sin dec).
(** HP 30-73; altitude and position of the geodetic position *)
Definition harris_priester (altitude_m : R) (position_ecef : vec) (sun_eci : vec) (exponent : R) : outcome R :=
  let alt := altitude_m / 1000 in
  let beta := dot 3 (normalize 3 position_ecef) (apex_direction sun_eci) in
  let cos_phi := cpow (5 / 10 + beta / 2) (exponent / 2) in
  let imin := upper_bound alt hp_min in
  let imax := upper_bound alt hp_max in
  if (imin =? 0)%nat then let! e := entry hp_min imin in Ok (snd e)
  else if (imin =? List.length hp_min)%nat then let! e := entry hp_min imin in let! e' := entry hp_max imax in Ok ((snd e + snd e') / 2)
  else let! lo := apex_density hp_min (imin - 1) alt in
       let! hi := apex_density hp_max (imax - 1) alt in
       Ok ((lo + (hi - lo) * cos_phi) * (1 / 10 ^ 12)).

(** ** AT: the class *)
(** AT 30-54: the model used after the constructor; the table read failed: STANDARD *)
Definition effective_model (model : string) (manual table_read : bool) : string :=
  if String.eqb model "NRLMSISE00" && negb manual && negb table_read then "STANDARD" else model.
(** AT 57-86; [nrl]: the NRLMSISE-00 value; z: a standard normal number; the stored density and the returned value *)
Definition calc_air_density (model : string) (enabled : bool) (altitude_m : R) (ecef sun : vec) (nrl sd_rate z stored : R) : outcome (R * R) :=
  if negb enabled then Ok (stored, 0)
  else if String.eqb model "STANDARD" then let rho := simple_density altitude_m in Ok (rho, rho + rho * sd_rate * z)
  else if String.eqb model "NRLMSISE00" then Ok (nrl, nrl + nrl * sd_rate * z)
  else if String.eqb model "HARRIS_PRIESTER" then let! rho := harris_priester altitude_m ecef (normalize 3 sun) 4 in Ok (rho, rho + rho * sd_rate * z)
  else Ok (0, 0).
(** AT 119-135 *)
Definition checked_f107 (x : R) : R := if rlt x 50 then 150 else x.
