(** Model of src/math_physics/gnss/antex_file_reader.cpp (AX) and .hpp (AXH).
    Angles are real numbers (the code's doubles).  A file is the list of its lines.  std::stod, sscanf of three numbers and sscanf of a date
    are arbitrary functions of the text they are given.  std::getline at the end of the file leaves an empty string, or, when the last line
    has no newline, a string already dealt with: neither ends the three inner loops, so these do not end ([Hang]). *)
From Coq Require Import Reals String List Bool Arith ZArith.
From Verif Require Import Base StringModel GnssModel.
Import ListNotations.
Open Scope string_scope.

(** conversion of a double to size_t: undefined outside the range *)
Definition to_size (r : R) : outcome Z :=
  if Rlt_dec (-1) r then if Rlt_dec r (IZR (2 ^ 64)) then Ok (if Rlt_dec r 0 then 0%Z else Int_part r) else UB else UB.

(** ** AntexGridDefinition *)
Record grid : Type := mkGrid { g_start : R; g_end : R; g_step : R; g_zenith : Z; g_azstep : R; g_azimuth : Z }.
(** AX 17-35 (size_t wraps) *)
Definition make_grid (zs ze step az : R) : outcome grid :=
  let! nz := (if Rle_dec step 0 then Ok 0%Z else let! k := to_size ((ze - zs) / step) in Ok ((k + 1) mod 2 ^ 64)%Z) in
  let! na := (if Rle_dec az 0 then Ok 0%Z else let! k := to_size (360 / az) in Ok ((k + 1) mod 2 ^ 64)%Z) in
  Ok (mkGrid zs ze step nz az na).
(** a positive number divided by a step and rounded: division by zero gives infinity, whose conversion is undefined *)
Definition rounded (x step : R) : outcome Z := if Req_EM_T step 0 then UB else to_size (x / step + 1 / 2).
(** AX 37-47 *)
Definition closest_zenith (g : grid) (z : R) : outcome Z :=
  if Rle_dec z (g_start g) then Ok 0%Z
  else if Rge_dec z (g_end g) then Ok ((g_zenith g - 1) mod 2 ^ 64)%Z
  else rounded (z - g_start g) (g_step g).
(** AX 49-58 *)
Definition closest_azimuth (g : grid) (a : R) : outcome Z :=
  if Rle_dec a 0 then Ok 0%Z
  else if Rge_dec a 360 then Ok ((g_azimuth g - 1) mod 2 ^ 64)%Z
  else rounded a (g_azstep g).

(** ** What is kept *)
Definition date : Type := (Z * Z * Z * Z * Z * R)%type.
(** AXH AntexPhaseCenterData *)
Record phase : Type := mkPhase { ph_name : string; ph_offset : R * R * R; ph_grid : grid; ph_variation : list (list R) }.
(** AXH AntexSatelliteData; [None]: the time is as constructed, 0000/01/01 00:00:00 *)
Record satellite : Type := mkSatellite {
  sa_type : string; sa_serial : string; sa_from : option date; sa_until : option date; sa_frequencies : Z; sa_phases : list phase }.
(** AXH: the map from satellite index to the list of its data *)
Definition store : Type := list (Z * list satellite).
Fixpoint store_add (i : Z) (s : satellite) (m : store) : store :=
  match m with
  | [] => [(i, [s])]
  | (j, l) :: m' => if Z.eqb i j then (j, l ++ [s])%list :: m' else (j, l) :: store_add i s m'
  end.
(** GetAntexSatelliteData (map::at), GetNumberOfSatelliteData, GetPhaseCenterData *)
Fixpoint get_satellite (m : store) (i : Z) : outcome (list satellite) :=
  match m with [] => Throw | (j, l) :: m' => if Z.eqb i j then Ok l else get_satellite m' i end.
Definition number_of_satellites (m : store) : nat := List.length m.
Definition get_phase (s : satellite) (k : nat) : outcome phase :=
  match nth_error (sa_phases s) k with Some p => Ok p | None => UB end.

(** line.find(w) == ANTEX_LINE_TYPE_POSITION; line.find(w) != npos *)
Definition at60 (w line : string) : bool := match String.index 0 w line with Some p => Nat.eqb p 60 | None => false end.
Definition has (w line : string) : bool := match String.index 0 w line with Some _ => true | None => false end.
(** std::string::substr *)
Definition substr (s : string) (pos n : nat) : outcome string :=
  if Nat.ltb (String.length s) pos then Throw else Ok (String.substring pos n s).

Section reader.
Context (stod : string -> option R) (scan : string -> list R) (scan_date : string -> option date).
(** std::stod *)
Definition to_double (s : string) : outcome R := match stod s with Some x => Ok x | None => Throw end.
(** std::stoi, converted to size_t by SetNumberOfFrequency *)
Definition to_count (s : string) : outcome Z := let! z := stoi (list_ascii_of_string s) in Ok (z mod 2 ^ 64)%Z.
(** AX 194-199: the variables are uninitialised when not scanned *)
Definition read_date (s : string) : outcome date := match scan_date s with Some d => Ok d | None => UB end.
(** sscanf "%lf %lf %lf" of the grid: unread variables are uninitialised *)
Definition read_grid (s : string) : outcome grid :=
  match scan s with [a; b; c] => make_grid a b c 0 | _ => UB end.
(** sscanf "%lf %lf %lf" into a zero vector *)
Definition read_offset (s : string) : R * R * R := let l := scan s in (nth 0 l 0%R, nth 1 l 0%R, nth 2 l 0%R).
(** AX 178-181 *)
Fixpoint read_cells (line : string) (n i : nat) : outcome (list R) :=
  match n with
  | O => Ok []
  | S n' => let! t := substr line (8 + i * 8) 8 in let! x := to_double t in let! r := read_cells line n' (S i) in Ok (x :: r)
  end.
Definition default_grid : outcome grid := make_grid 0 90 10 0.

(** AX 156-192 (the default grid of a new object is always replaced at the end of the block) *)
Fixpoint read_phase (g : grid) (off : R * R * R) (var : list (list R)) (lines : list string) : outcome (phase * list string) :=
  match lines with
  | [] => Hang
  | line :: rest =>
      if at60 "END OF FREQUENCY" line then let! n := substr line 3 3 in Ok (mkPhase n off g var, rest)
      else
        let off' := if at60 "NORTH / EAST / UP" line then read_offset line else off in
        let! var' := (if has "NOAZI" line then let! r := read_cells line (Z.to_nat (g_zenith g)) 0 in Ok [r] else Ok var) in
        read_phase g off' var' rest
  end.
(** AX 114-154; [n] bounds the number of lines left *)
Fixpoint read_satellite (n : nat) (g : grid) (s : satellite) (lines : list string) : outcome (satellite * list string) :=
  match n, lines with
  | S n', line :: rest =>
      if at60 "END OF ANTENNA" line then Ok (s, rest)
      else
        let! g' := (if at60 "ZEN1 / ZEN2 / DZEN" line then let! t := substr line 0 60 in read_grid t else Ok g) in
        let! k := (if at60 "# OF FREQUENCIES" line then let! t := substr line 0 20 in to_count t else Ok (sa_frequencies s)) in
        let! from := (if at60 "VALID FROM" line then let! t := substr line 0 59 in let! d := read_date t in Ok (Some d) else Ok (sa_from s)) in
        let! until := (if at60 "VALID UNTIL" line then let! t := substr line 0 59 in let! d := read_date t in Ok (Some d) else Ok (sa_until s)) in
        let! (ps, rest') := (if at60 "START OF FREQUENCY" line then let! (p, r) := read_phase g' (0, 0, 0)%R [] rest in Ok ([p], r) else Ok ([], rest)) in
        read_satellite n' g' (mkSatellite (sa_type s) (sa_serial s) from until k (sa_phases s ++ ps)) rest'
  | _, _ => Hang
  end.
(** AX 87-112 *)
Fixpoint read_antenna (n : nat) (m : store) (lines : list string) : outcome (store * list string) :=
  match lines with
  | [] => Hang
  | line :: rest =>
      if at60 "TYPE / SERIAL NO" line then
        let! ty := substr line 0 20 in
        let! serial := substr line 20 20 in
        let! i := number_to_index (list_ascii_of_string serial) in
        if Z.eqb i 4294967295 then Ok (m, rest)
        else
          let! g := default_grid in
          let! (s, rest') := read_satellite n g (mkSatellite ty serial None None 1 []) rest in
          Ok (store_add i s m, rest')
      else read_antenna n m rest
  end.
(** AX 68-83 *)
Fixpoint read_lines (n : nat) (m : store) (lines : list string) : outcome store :=
  match n, lines with
  | _, [] => Ok m
  | O, _ => Hang
  | S n', line :: rest =>
      if Nat.ltb (String.length line) 60 then read_lines n' m rest
      else if at60 "COMMENT" line then read_lines n' m rest
      else if at60 "START OF ANTENNA" line then let! (m', rest') := read_antenna n' m rest in read_lines n' m' rest'
      else read_lines n' m rest
  end.
(** AX 60-85 and the constructor; None: the file cannot be opened *)
Definition antex_file (file : option (list string)) : outcome (bool * store) :=
  match file with
  | None => Ok (false, [])
  | Some lines => let! m := read_lines (List.length lines) [] lines in Ok (true, m)
  end.
End reader.
