(** Model of the text part of twoline2rv (src/math_physics/orbit/sgp4/sgp4io.cpp:82-141, IO): the repairs of the columns and the
    two sscanf calls, and of Sgp4OrbitPropagation's use of it (src/dynamics/orbit/sgp4_orbit_propagation.cpp:14-47,
    initialize_orbit.cpp:43-47) with the run type 'c'.  The numerical part is Sgp4Model.twoline2rv.
    A line is the text in its buffer of 80 characters, filled with zeros by strncpy.  Doubles are real numbers; %d is not limited to the
    range of int (two characters at most here).  An exponent, inf, nan or hexadecimal number in a %lf is not treated: the letter ends the
    number.  The numbers after the one needed last (ephemeris type, element number, revolution number) are never used and not scanned. *)
From Coq Require Import Reals List Bool Arith ZArith Ascii String.
From Verif Require Import Base RBase StringModel Sgp4Model.
Import ListNotations.
Open Scope list_scope.
Open Scope nat_scope.

(** ** sscanf with field widths *)
Definition digit (c : ascii) : bool := ((48 <=? code c) && (code c <=? 57))%Z%bool.
Definition digit_of (c : ascii) : Z := (code c - 48)%Z.
(** at most w digits: their number's value (continuing acc), how many, the rest *)
Fixpoint take_digits (w : nat) (acc : Z) (s : str) : Z * nat * str :=
  match w, s with
  | S w', c :: t => if digit c then let '(v, k, r) := take_digits w' (10 * acc + digit_of c)%Z t in (v, S k, r) else (acc, O, s)
  | _, _ => (acc, O, s)
  end.
Definition sign_of (s : str) : option (Z * str) :=
  match s with
  | c :: t => if Ascii.eqb c "-" then Some (-1, t)%Z else if Ascii.eqb c "+" then Some (1, t)%Z else None
  | [] => None
  end.
(** %wd, %wld *)
Definition scan_d (w : nat) (s : str) : option (Z * str) :=
  let s := skip_space s in
  let '(sg, s, w) := match sign_of s with Some (g, t) => (g, t, w - 1) | None => (1%Z, s, w) end in
  let '(v, k, r) := take_digits w 0 s in
  if (k =? 0) then None else Some ((sg * v)%Z, r).
(** %wlf *)
Definition scan_lf (w : nat) (s : str) : option (R * str) :=
  let s := skip_space s in
  let '(sg, s, w) := match sign_of s with Some (g, t) => (g, t, w - 1) | None => (1%Z, s, w) end in
  let '(v, k, r) := take_digits w 0 s in
  let '(v, k, f, r) :=
    match r with
    | c :: t => if Ascii.eqb c "." && (k <? w) then let '(v', j, r') := take_digits (w - k - 1) v t in (v', k + j, j, r') else (v, k, O, r)
    | [] => (v, k, O, r)
    end in
  if (k =? 0) then None else Some ((IZR (sg * v) / 10 ^ f)%R, r).
(** %1c, %ws *)
Definition scan_c (s : str) : option str := match s with _ :: t => Some t | [] => None end.
Fixpoint take_word (w : nat) (s : str) : nat * str :=
  match w, s with
  | S w', c :: t => if is_space c then (O, s) else let '(k, r) := take_word w' t in (S k, r)
  | _, _ => (O, s)
  end.
Definition scan_s (w : nat) (s : str) : option str := let '(k, r) := take_word w (skip_space s) in if (k =? 0) then None else Some r.

(** ** Repair of the columns, IO 101-119 *)
Fixpoint set_at (i : nat) (c : ascii) (s : str) : str :=
  match i, s with O, _ :: t => c :: t | S i', d :: t => d :: set_at i' c t | _, [] => [] end.
Definition at_ (s : str) (i : nat) : ascii := nth i s zero.
Definition blank (c : ascii) : bool := Ascii.eqb c " ".
(** if (longstr[i] == ' ') longstr[i] = c; *)
Definition fill (i : nat) (c : ascii) (s : str) : str := if blank (at_ s i) then set_at i c s else s.
Definition fills (is : list nat) (c : ascii) (s : str) : str := fold_left (fun s i => fill i c s) is s.
(** if (longstr[i] != ' ') longstr[j] = longstr[i]; *)
Definition shift (i j : nat) (s : str) : str := if negb (blank (at_ s i)) then set_at j (at_ s i) s else s.
Definition repair1 (s : str) : str :=
  let s := fills [10; 11; 12; 13; 14; 15] "_" s in
  let s := shift 44 43 s in
  let s := set_at 44 "." s in
  let s := fill 7 "U" s in
  let s := fill 9 "." s in
  let s := fills [45; 46; 47; 48; 49] "0" s in
  let s := fill 51 "0" s in
  let s := shift 53 52 s in
  let s := set_at 53 "." s in
  let s := fill 62 "0" s in
  fill 68 "0" s.
Definition repair2 (s : str) : str := fills [26; 27; 28; 29; 30; 31; 32] "0" (set_at 25 "." s).

(** ** The scanned numbers, IO 121-122, 138-144; None: a conversion fails, or the line is so short that a repair overwrites the
    terminating zero or comes after it, or too long for the buffer, and members are used that were never set *)
Definition scan_line1 (s : str) : option (Z * R * R * R * Z * R * Z) :=
  match scan_d 2 s with None => None | Some (_, s) =>
  match scan_d 5 s with None => None | Some (_, s) =>
  match scan_c (skip_space s) with None => None | Some s =>
  match scan_s 10 s with None => None | Some s =>
  match scan_d 2 s with None => None | Some (yr, s) =>
  match scan_lf 12 s with None => None | Some (days, s) =>
  match scan_lf 11 s with None => None | Some (nd, s) =>
  match scan_lf 7 s with None => None | Some (ndd, s) =>
  match scan_d 2 s with None => None | Some (nexp, s) =>
  match scan_lf 7 s with None => None | Some (bs, s) =>
  match scan_d 2 s with None => None | Some (ibexp, s) => Some (yr, days, nd, ndd, nexp, bs, ibexp)
  end end end end end end end end end end end.
Definition scan_line2 (s : str) : option (R * R * R * R * R * R) :=
  let wn := if blank (at_ s 52) then 10 else 11 in
  match scan_d 2 s with None => None | Some (_, s) =>
  match scan_d 5 s with None => None | Some (_, s) =>
  match scan_lf 9 s with None => None | Some (incl, s) =>
  match scan_lf 9 s with None => None | Some (node, s) =>
  match scan_lf 8 s with None => None | Some (ecc, s) =>
  match scan_lf 9 s with None => None | Some (argp, s) =>
  match scan_lf 9 s with None => None | Some (m, s) =>
  match scan_lf wn s with None => None | Some (n, s) => Some (incl, node, ecc, argp, m, n)
  end end end end end end end end.
Definition fits (least : nat) (s : str) : bool := (least <=? List.length s) && (List.length s <? 80).
Definition scan_tle (line1 line2 : str) : option tle :=
  if fits 54 line1 && fits 26 line2 then
    match scan_line1 (repair1 line1), scan_line2 (repair2 line2) with
    | Some (yr, days, nd, ndd, nexp, bs, ibexp), Some (incl, node, ecc, argp, m, n) => Some (mkTle yr days nd ndd nexp bs ibexp incl node ecc argp m n)
    | _, _ => None
    end
  else None.
(** the constructor from the two lines; [Val None]: undefined *)
Definition orbit_of_lines deepinit (setting : Z) (line1 line2 : str) (s0 : satrec) (current_jd : R) : res (option sgp4orbit) :=
  match scan_tle line1 line2 with
  | None => Val None
  | Some l => orbit_new deepinit setting l s0 current_jd
  end.
