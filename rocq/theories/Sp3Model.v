(** Model of the reading part of src/math_physics/gnss/sp3_file_reader.cpp (P), of the std::ifstream operations it uses and of
    std::string::substr.  Text is a list of characters.  std::stod is a parameter, and so is the way from the 28 characters of a date
    (sscanf, DateTime, EpochTime) to a time; both are arbitrary functions.  The console messages are left out. *)
From Coq Require Import String Reals List Bool Arith ZArith Ascii.
From Verif Require Import Base StringModel GnssSatModel.
Import ListNotations.
Open Scope nat_scope.

(** std::stod: a value, invalid_argument or out_of_range *)
Inductive dres : Type := Val (r : R) | Invalid | Range.
(** the date is None when sscanf does not fill all six variables, which are then read uninitialised (P 68-70, 162-165) *)
Record lib : Type := mkLib { l_stod : str -> dres; l_date : str -> option R }.
Definition nl : ascii := ascii_of_nat 10.

(** ** std::ifstream: what is left to read, eofbit, failbit *)
Record stream : Type := mkStream { s_rest : str; s_eof : bool; s_fail : bool }.
Fixpoint cut (s : str) : str * option str :=
  match s with
  | [] => ([], None)
  | c :: t => if Ascii.eqb c nl then ([], Some t) else let '(l, r) := cut t in (c :: l, r)
  end.
(** std::getline(stream, line): on a stream that is not good the line keeps its old contents; at the end of the file it is emptied *)
Definition getline (s : stream) (line : str) : stream * str :=
  if s_eof s || s_fail s then (mkStream (s_rest s) (s_eof s) true, line)
  else match s_rest s with
       | [] => (mkStream [] true true, [])
       | _ => let '(l, r) := cut (s_rest s) in
              match r with Some t => (mkStream t false false, l) | None => (mkStream [] true false, l) end
       end.
(** tellg: its sentry sets failbit when the stream is not good; None is the position -1 *)
Definition tellg (s : stream) : stream * option str :=
  if s_eof s || s_fail s then (mkStream (s_rest s) (s_eof s) true, None) else (s, Some (s_rest s)).
(** seekg: clears eofbit, does nothing more when failbit is set *)
Definition seekg (s : stream) (p : option str) : stream :=
  if s_fail s then mkStream (s_rest s) false true
  else match p with Some t => mkStream t false false | None => mkStream (s_rest s) false true end.

(** std::string::substr: out_of_range when the position is beyond the size *)
Definition substr (l : str) (pos n : nat) : outcome str := if length l <? pos then Throw else Ok (firstn n (skipn pos l)).
Definition stod (L : lib) (s : str) : outcome R := match l_stod L s with Val r => Ok r | _ => Throw end.
(** stod inside try ... catch (std::invalid_argument) *)
Definition stod_or_zero (L : lib) (s : str) : outcome R := match l_stod L s with Val r => Ok r | Invalid => Ok 0%R | Range => Throw end.
Definition stod_at (L : lib) (l : str) (pos n : nat) : outcome R := let! s := substr l pos n in stod L s.
Definition stod_at_or_zero (L : lib) (l : str) (pos n : nat) : outcome R := let! s := substr l pos n in stod_or_zero L s.
Definition stoi_at (l : str) (pos n : nat) : outcome Z := let! s := substr l pos n in stoi s.
(** conversion of an int to size_t *)
Definition size_of_int (z : Z) : nat := Z.to_nat (z mod 2 ^ 64).

(** ** DecodePositionClockData, P 311-358 *)
Record entry : Type := mkEntry { en_id : str; en_pc : pc; en_sd : list R; en_flags : list bool }.
Definition decode_position (L : lib) (line : str) : outcome entry :=
  let! id := substr line 1 3 in
  let! x := stod_at L line 4 14 in let! y := stod_at L line 18 14 in let! z := stod_at L line 32 14 in
  let! c := stod_at L line 46 14 in
  let! sd := (if 61 <? length line then
                let! sx := stod_at_or_zero L line 61 2 in let! sy := stod_at_or_zero L line 64 2 in let! sz := stod_at_or_zero L line 67 2 in
                let! sc := stod_at_or_zero L line 70 3 in Ok [sx; sy; sz; sc]
              else Ok [0%R; 0%R; 0%R; 0%R]) in
  let! flags := (if 73 <? length line then
                   let! a := substr line 74 1 in let! b := substr line 75 1 in let! c := substr line 78 1 in let! d := substr line 79 1 in
                   Ok [str_eqb a (lit "E"); str_eqb b (lit "P"); str_eqb c (lit "M"); str_eqb d (lit "P")]
                 else Ok [false; false; false; false]) in
  Ok (mkEntry id ((x, y, z), c) sd flags).
(** P 360-376 and 402-418; the values are stored in members nothing reads *)
Definition decode_correlation (line : str) : outcome unit :=
  let! _ := stoi_at line 4 4 in let! _ := stoi_at line 9 4 in let! _ := stoi_at line 14 4 in let! _ := stoi_at line 19 7 in
  let! _ := stoi_at line 27 8 in let! _ := stoi_at line 36 8 in let! _ := stoi_at line 45 8 in let! _ := stoi_at line 54 8 in
  let! _ := stoi_at line 63 8 in let! _ := stoi_at line 72 8 in Ok tt.
(** P 378-400; stored in members nothing reads *)
Definition decode_velocity (L : lib) (line : str) : outcome unit :=
  let! _ := substr line 1 3 in
  let! _ := stod_at L line 4 14 in let! _ := stod_at L line 18 14 in let! _ := stod_at L line 32 14 in let! _ := stod_at L line 46 14 in
  if 60 <? length line then
    let! _ := stod_at L line 61 2 in let! _ := stod_at L line 63 2 in let! _ := stod_at L line 65 2 in let! _ := stod_at L line 70 3 in Ok tt
  else Ok tt.

(** ** ReadHeader, P 147-309 *)
Inductive mode : Type := MPosition | MVelocity | MOther.
(** the header fields used outside, sp3_file_reader.hpp:52-85 with their initial values *)
Record header : Type := mkHeader { h_mode : mode; h_start : R; h_nepoch : nat; h_interval : R; h_nsat : nat; h_ids : list str; h_acc : list Z }.
(** operator[] of std::string: the terminating zero at the size, undefined beyond *)
Definition char_at (l : str) (i : nat) : outcome ascii :=
  match nth_error l i with Some c => Ok c | None => if i =? length l then Ok zero else UB end.
(** P 155-184; the used-data, coordinate-system, orbit-type and agency fields are only cut out *)
Definition first_line (L : lib) (line : str) : outcome (mode * R * nat) :=
  let! c2 := char_at line 2 in
  let! m := (if Ascii.eqb c2 "P" then Ok MPosition
             else let! c3 := char_at line 3 in Ok (if Ascii.eqb c3 "V" then MVelocity else MOther)) in
  let! date := substr line 3 28 in
  match l_date L date with
  | None => UB
  | Some start =>
    let! n := stoi_at line 32 7 in
    let! _ := substr line 40 5 in let! _ := substr line 46 5 in let! _ := substr line 52 3 in let! _ := substr line 56 4 in
    Ok (m, start, size_of_int n)
  end.
(** P 212-218 and P 237-242: up to 17 items of a line, from item i on *)
Fixpoint take_items {A} (f : str -> outcome A) (count i : nat) (line : str) (n : nat) (acc : list A) : outcome (list A) :=
  match count with
  | O => Ok acc
  | S c => if n <=? length acc then Ok acc
           else let! s := substr line (9 + i * 3) 3 in let! a := f s in take_items f c (S i) line n (acc ++ [a])
  end.
(** P 211-221 and P 236-245 *)
Fixpoint item_lines {A} (f : str -> outcome A) (fuel : nat) (p : str) (s : stream) (line : str) (n : nat) (acc : list A) : outcome (stream * str * list A) :=
  if prefix p line then
    match fuel with
    | O => Hang
    | S k => let! acc := take_items f 17 0 line n acc in let '(s, line) := getline s line in item_lines f k p s line n acc
    end
  else Ok (s, line, acc).
(** P 300-305 *)
Fixpoint skip_comments (fuel : nat) (s : stream) (line : str) : outcome stream :=
  match fuel with
  | O => Hang
  | S k => let '(s, pos) := tellg s in let '(s, line) := getline s line in
           if prefix (lit "/*") line then skip_comments k s line else Ok (seekg s pos)
  end.
(** the conversion to uint8_t of P 241 *)
Definition accuracy (s : str) : outcome Z := let! z := stoi s in Ok (z mod 256)%Z.
Definition no_header : header := mkHeader MOther 0 0 1 0 [] [].
(** the result is the header so far, and the stream when the header has been read to its end *)
Definition read_header (L : lib) (s : stream) : outcome (header * option stream) :=
  let fuel := S (S (length (s_rest s))) in
  let '(s, line) := getline s [] in
  let! (m, start, nep) := first_line L line in
  let h := mkHeader m start nep 1 0 [] [] in
  let '(s, line) := getline s line in
  if negb (prefix (lit "##") line) then Ok (h, None) else
  let! _ := stoi_at line 3 4 in let! _ := stod_at L line 8 15 in
  let! interval := stod_at L line 24 14 in
  let! _ := stoi_at line 39 5 in let! _ := stod_at L line 45 15 in
  let h := mkHeader m start nep interval 0 [] [] in
  let '(s, line) := getline s line in
  if negb (prefix (lit "+ ") line) then Ok (h, None) else
  let! k := stoi_at line 3 3 in
  let n := size_of_int k in
  let! (s, line, ids) := item_lines (fun x => Ok x) fuel (lit "+ ") s line n [] in
  let h := mkHeader m start nep interval n ids [] in
  if negb (length ids =? n) then Ok (h, None) else
  if negb (prefix (lit "++") line) then Ok (h, None) else
  let! (s, line, acc) := item_lines accuracy fuel (lit "++") s line n [] in
  let h := mkHeader m start nep interval n ids acc in
  if negb (length acc =? n) then Ok (h, None) else
  if negb (prefix (lit "%c") line) then Ok (h, None) else
  let! _ := substr line 3 2 in let! _ := substr line 9 3 in
  let '(s, line) := getline s line in
  if negb (prefix (lit "%c") line) then Ok (h, None) else
  let '(s, line) := getline s line in
  if negb (prefix (lit "%f") line) then Ok (h, None) else
  let! _ := stod_at L line 3 10 in let! _ := stod_at L line 14 12 in
  let '(s, line) := getline s line in
  if negb (prefix (lit "%f") line) then Ok (h, None) else
  let '(s, line) := getline s line in
  if negb (prefix (lit "%i") line) then Ok (h, None) else
  let '(s, line) := getline s line in
  if negb (prefix (lit "%i") line) then Ok (h, None) else
  let! s := skip_comments fuel s line in
  Ok (h, Some s).

(** ** ReadFile, P 48-121 *)
(** position_clock_[id].push_back: the satellites are visited in order, so a new key is the next one *)
Definition push_entry (t : list (list entry)) (id : nat) (e : entry) : list (list entry) :=
  if id <? length t then firstn id t ++ [nth id t [] ++ [e]] ++ skipn (S id) t else t ++ [[e]].
(** P 73-110: the satellites from id on; false: one of the early returns *)
Fixpoint read_sats (L : lib) (m : mode) (count id : nat) (s : stream) (line : str) (t : list (list entry)) : outcome (bool * stream * str * list (list entry)) :=
  match count with
  | O => Ok (true, s, line, t)
  | S c =>
    let '(s, line) := getline s line in
    if negb (prefix (lit "P") line) then Ok (false, s, line, t) else
    let! e := decode_position L line in
    let t := push_entry t id e in
    let '(s, pos) := tellg s in
    let '(s, line) := getline s line in
    let! s := (if negb (prefix (lit "EP") line) then Ok (seekg s pos) else let! _ := decode_correlation line in Ok s) in
    match m with
    | MVelocity =>
      let '(s, line) := getline s line in
      if negb (prefix (lit "V") line) then Ok (false, s, line, t) else
      let! _ := decode_velocity L line in
      let '(s, pos) := tellg s in
      let '(s, line) := getline s line in
      let! s := (if negb (prefix (lit "EV") line) then Ok (seekg s pos) else let! _ := decode_correlation line in Ok s) in
      read_sats L m c (S id) s line t
    | _ => read_sats L m c (S id) s line t
    end
  end.
(** P 60-111: the epochs; the variable line is new for each *)
Fixpoint read_epochs (L : lib) (m : mode) (nsat count : nat) (s : stream) (ep : list R) (t : list (list entry)) : outcome (bool * list R * list (list entry)) :=
  match count with
  | O => Ok (true, ep, t)
  | S c =>
    let '(s, line) := getline s [] in
    if negb (prefix (lit "* ") line) then Ok (false, ep, t) else
    let! date := substr line 3 28 in
    match l_date L date with
    | None => UB
    | Some e =>
      let ep := ep ++ [e] in
      let! (ok, s, _, t) := read_sats L m nsat 0 s line t in
      if negb ok then Ok (false, ep, t) else read_epochs L m nsat c s ep t
    end
  end.
(** P 113-117: epoch_[1] is read; position_clock_[0] and [1] come into being *)
Definition touch (t : list (list entry)) : list (list entry) := match t with [] => [[]; []] | [a] => [a; []] | _ => t end.
Record reader : Type := mkReader { rd_ok : bool; rd_header : header; rd_epochs : list R; rd_data : list (list entry) }.
(** P 16 and 48-121; None: the file cannot be opened *)
Definition read_file (L : lib) (file : option str) : outcome reader :=
  match file with
  | None => Ok (mkReader false no_header [] [])
  | Some text =>
    let! (h, s) := read_header L (mkStream text false false) in
    match s with
    | None => Ok (mkReader false h [] [])
    | Some s =>
      let! (ok, ep, t) := read_epochs L (h_mode h) (h_nsat h) (h_nepoch h) s [] [] in
      if negb ok then Ok (mkReader false h ep t) else
      match nth_error ep 1 with None => UB | Some _ => Ok (mkReader true h ep (touch t)) end
    end
  end.
(** what GnssSatellites uses of a reader *)
Definition sp3_of (r : reader) : sp3 :=
  mkSp3 (h_start (rd_header r)) (h_nepoch (rd_header r)) (h_interval (rd_header r)) (h_nsat (rd_header r)) (rd_epochs r) (map (map en_pc) (rd_data r)).
