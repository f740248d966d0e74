(** Model of src/math_physics/gnss/gnss_satellite_number.cpp, igs_product_name_handling.hpp and of
    the file loop of src/environment/global/gnss_satellites.cpp:211-228. *)
From Coq Require Import List ZArith Bool Ascii String.
From Verif Require Import Base StringModel.
Import ListNotations.
Open Scope Z_scope.

(** gnss_satellite_number.hpp:15-33 *)
Definition kGps : Z := 32.
Definition kGlonass : Z := 26.
Definition kGalileo : Z := 28.
Definition kBeidou : Z := 62.
Definition kQzss : Z := 5.
Definition kNavic : Z := 7.
Definition kTotal : Z := kGps + kGlonass + kGalileo + kBeidou + kQzss + kNavic.
Definition gps_begin : Z := 0.
Definition glonass_begin : Z := gps_begin + kGps.
Definition galileo_begin : Z := glonass_begin + kGlonass.
Definition beidou_begin : Z := galileo_begin + kGalileo.
Definition qzss_begin : Z := beidou_begin + kBeidou.
Definition navic_begin : Z := qzss_begin + kQzss.

(** stoi(...) + begin - 1: int + size_t is computed in size_t (64 bit, wrapping) *)
Definition sat_index (begin_ : Z) (number : str) : outcome Z :=
  let! n := stoi number in Ok ((n + begin_ - 1) mod 2 ^ 64).
(** gnss_satellite_number.cpp:10-28; front() of an empty string is undefined *)
Definition number_to_index (s : str) : outcome Z :=
  match s with
  | [] => UB
  | c :: t =>
      if Ascii.eqb c "G" then sat_index gps_begin t
      else if Ascii.eqb c "R" then sat_index glonass_begin t
      else if Ascii.eqb c "E" then sat_index galileo_begin t
      else if Ascii.eqb c "C" then sat_index beidou_begin t
      else if Ascii.eqb c "J" then sat_index qzss_begin t
      else if Ascii.eqb c "I" then sat_index navic_begin t
      else Ok 4294967295
  end.
(** 30-63, last lines *)
Definition print_number (letter : ascii) (prn : Z) : str :=
  letter :: (if prn <? 10 then lit "0" else []) ++ to_string prn.
(** 30-63 *)
Definition index_to_number (i : Z) : str :=
  if i <? glonass_begin then print_number "G" (i - gps_begin + 1)
  else if i <? galileo_begin then print_number "R" (i - glonass_begin + 1)
  else if i <? beidou_begin then print_number "E" (i - galileo_begin + 1)
  else if i <? qzss_begin then print_number "C" (i - beidou_begin + 1)
  else if i <? navic_begin then print_number "J" (i - qzss_begin + 1)
  else if i <? kTotal then print_number "I" (i - navic_begin + 1)
  else lit "err".

(** igs_product_name_handling.hpp:24-29, 38, 46, 54-57.  size_t values; the model ignores the
    64-bit wrap (years beyond 10^16). *)
Definition final_file_name (header : str) (year_doy : Z) (period file_type : str) : str :=
  header ++ lit "_" ++ to_string year_doy ++ lit "0000_01D_" ++ period ++ lit "_" ++ file_type.
Definition merge_year_doy (year doy : Z) : Z := year * 1000 + doy.
Definition year_of (year_doy : Z) : Z := year_doy / 1000.
Definition doy_of (year_doy : Z) : Z := year_doy - year_of year_doy * 1000.
(** 65-88 *)
Definition increment_year_doy (year_doy : Z) : Z :=
  let output := year_doy + 1 in
  let doy := doy_of output in
  if 365 <? doy then
    let year := year_of output in
    if year mod 4 =? 0 then
      if 366 <? doy then merge_year_doy (year + 1) 1 else merge_year_doy year doy
    else merge_year_doy (year + 1) 1
  else output.
(** gnss_satellites.cpp:210-228: the dates whose files are read *)
Fixpoint read_dates (fuel : nat) (date end_date : Z) : outcome (list Z) :=
  match fuel with
  | O => Hang
  | S f => if date <=? end_date
           then let! l := read_dates f (increment_year_doy date) end_date in Ok (date :: l)
           else Ok []
  end.
