(** Model of src/math_physics/gnss/bias_sinex_file_reader.cpp (BS) and .hpp.
    A file is its lines and whether the last one ends with a newline.  std::stod is an arbitrary partial function of the text ([None]: it
    throws).  std::getline at the end of the file: after a final newline it empties the string once and then leaves it alone; without one it
    leaves the string alone (the sentry fails before the string is erased).  Not modelled: text the reader cuts out and drops (times,
    satellite number, which has no getter). *)
From Coq Require Import Reals String List Bool Arith.
From Verif Require Import Base.
Import ListNotations.
Open Scope string_scope.

(** line.find(w) == 0 *)
Definition starts (w line : string) : bool := String.prefix w line.
(** std::string::substr *)
Definition substr (s : string) (pos n : nat) : outcome string :=
  if Nat.ltb (String.length s) pos then Throw else Ok (String.substring pos n s).

Inductive identifier : Type := KDsb | KIsb | KOsb | KIdError.
Inductive signal : Type := KP1P2 | KP1C1 | KP2C2 | KSignalError.
Inductive bias_unit : Type := KNs | KCycle | KUnitError.
(** BS 207-217 *)
Definition to_identifier (w : string) : identifier :=
  if String.eqb w "DSB " then KDsb else if String.eqb w "ISB " then KIsb else if String.eqb w "OSB " then KOsb else KIdError.
(** BS 219-227 *)
Definition to_unit (w : string) : bias_unit :=
  if String.eqb w "ns  " then KNs else if String.eqb w "cyc " then KCycle else KUnitError.
(** BS 229-242 *)
Definition to_signal (a b : string) : signal :=
  if (String.eqb a "C1W " && String.eqb b "C2W ")%bool then KP1P2 else
  if (String.eqb a "C1P " && String.eqb b "C2P ")%bool then KP1P2 else
  if (String.eqb a "C1P " && String.eqb b "C1C ")%bool then KP1C1 else
  if (String.eqb a "C2P " && String.eqb b "C2C ")%bool then KP2C2 else KSignalError.

(** hpp: BiasSolutionData (fields with a getter) *)
Record solution : Type := mkSolution {
  so_id : identifier; so_svn : string; so_station : string; so_signal : signal; so_unit : bias_unit;
  so_bias : R; so_sd : R; so_slope : R; so_slope_sd : R }.

Section reader.
Context (stod : string -> option R).
Definition to_double (s : string) : outcome R := match stod s with Some x => Ok x | None => Throw end.
(** BS 145-203: one data line *)
Definition read_row (line : string) : outcome solution :=
  let! id := substr line 1 4 in
  let! svn := substr line 6 4 in
  let! _ := substr line 11 3 in
  let! station := substr line 15 9 in
  let! obs1 := substr line 25 4 in
  let! obs2 := substr line 30 4 in
  let! _ := substr line 35 14 in
  let! _ := substr line 50 14 in
  let! u := substr line 65 4 in
  let! b := substr line 70 21 in
  let! bias := to_double b in
  let! s := substr line 92 12 in
  let! sd := to_double s in
  let len := String.length line in
  let! (slope, rp) :=
    (if Nat.ltb (105 + 21) len then let! t := substr line 105 21 in let! x := to_double t in Ok (x, 127%nat)
     else Ok (0%R, 105%nat)) in
  let! slope_sd :=
    (if Nat.ltb (rp + 12) len then let! t := substr line rp 12 in let! x := to_double t in Ok x
     else Ok 0%R) in
  Ok (mkSolution (to_identifier id) svn station (to_signal obs1 obs2) (to_unit u) bias sd slope slope_sd).

Context (newline_at_end : bool).
(** BS 131-205: [last] is the content of the variable line; the lines left and the data appended *)
Fixpoint read_solution (last : string) (lines : list string) : outcome (list solution * list string) :=
  match lines with
  | [] =>
      (* the end of the file: the same text for ever *)
      let l := if newline_at_end then "" else last in
      if starts "-BIAS/SOLUTION" l then Ok ([], []) else
      if starts "*" l then Hang else
      let! _ := read_row l in Hang
  | l :: rest =>
      if starts "-BIAS/SOLUTION" l then Ok ([], rest) else
      if starts "*" l then read_solution l rest else
      let! r := read_row l in
      let! (rs, rest') := read_solution l rest in
      Ok (r :: rs, rest')
  end.
(** BS 74-129: the five sections that are skipped; at the end of the file the loop never ends *)
Fixpoint skip_to (w : string) (lines : list string) : outcome (list string) :=
  match lines with
  | [] => Hang
  | l :: rest => if starts w l then Ok rest else skip_to w rest
  end.
(** BS 14-72 after opening; the fuel bounds the number of main loop rounds (each consumes a line) *)
Fixpoint read_lines (fuel : nat) (lines : list string) : outcome (list solution) :=
  match fuel with
  | O => Ok []
  | S f =>
    match lines with
    | [] => Ok []
    | l :: rest =>
      if starts "*" l then read_lines f rest else
      if starts "%=ENDBIA" l then Ok [] else
      if starts "%=BIA" l then read_lines f rest else
      if starts "+FILE/REFERENCE" l then (let! r := skip_to "-FILE/REFERENCE" rest in read_lines f r) else
      if starts "+FILE/COMMENT" l then (let! r := skip_to "-FILE/COMMENT" rest in read_lines f r) else
      if starts "+INPUT/ACKNOWLEDGMENTS" l then (let! r := skip_to "-INPUT/ACKNOWLEDGMENTS" rest in read_lines f r) else
      if starts "+BIAS/DESCRIPTION" l then (let! r := skip_to "-BIAS/DESCRIPTION" rest in read_lines f r) else
      if starts "+BIAS/RECEIVER_INFORMATION" l then (let! r := skip_to "-BIAS/RECEIVER_INFORMATION" rest in read_lines f r) else
      if starts "+BIAS/SOLUTION" l then
        (let! (rs, r) := read_solution "" rest in let! rs' := read_lines f r in Ok (rs ++ rs')%list)
      else read_lines f rest
    end
  end.
End reader.
(** hpp constructor and BS 14-20: [None]: the file cannot be opened.  The success flag and the data. *)
Definition bias_file (stod : string -> option R) (file : option (list string * bool)) : outcome (bool * list solution) :=
  match file with
  | None => Ok (false, [])
  | Some (lines, nl) => let! rs := read_lines stod nl (S (List.length lines)) lines in Ok (true, rs)
  end.
