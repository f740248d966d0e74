(** Models of the calendar routines of src/math_physics/orbit/sgp4/sgp4ext.cpp (S), of the date part of
    src/environment/global/simulation_time.cpp (T), and of the date part of src/math_physics/atmosphere/wrapper_nrlmsise00.cpp (N).
    Doubles are real numbers, decimal literals exactly; int is Z (no overflow: dates of any practical year are far inside). *)
From Coq Require Import Reals Lra Lia List Bool ZArith String.
From Verif Require Import Base RBase SensorModel.
Import ListNotations.
Open Scope R_scope.

(** the C function floor *)
Definition rfloor (x : R) : R := IZR (Int_part x).

(** ** sgp4ext *)
(** S 591-595 *)
Definition jday (year mon day hr minute : Z) (sec : R) : R :=
  367 * IZR year - rfloor (7 * (IZR year + rfloor (IZR (mon + 9) / 12)) * 0.25) + rfloor (IZR (275 * mon) / 9) + IZR day + 1721013.5 +
  ((sec / 60 + IZR minute) / 60 + IZR hr) / 24.
Record stamp : Type := mkStamp { s_year : Z; s_mon : Z; s_day : Z; s_hr : Z; s_min : Z; s_sec : R }.
(** S 640, 644: the month lengths; year % 4 is the C remainder *)
Definition lmonth (year : Z) : list Z :=
  [31; if (Z.rem year 4 =? 0)%Z then 29 else 28; 31; 30; 31; 30; 31; 31; 30; 31; 30; 31]%Z.
(** S 646-653: the loop, from month i with inttemp days in the months before; returns the month and the day *)
Fixpoint month_loop (dayofyr : Z) (rest : list Z) (i inttemp : Z) : Z * Z :=
  match rest with
  | l :: r => if ((inttemp + l <? dayofyr) && (i <? 12))%Z%bool then month_loop dayofyr r (i + 1) (inttemp + l) else (i, dayofyr - inttemp)%Z
  | [] => (i, dayofyr - inttemp)%Z
  end.
(** S 637-661 *)
Definition days2mdhms (year : Z) (days : R) : stamp :=
  let dayofyr := Int_part days in
  let '(mon, day) := month_loop dayofyr (lmonth year) 1 0 in
  let temp := (days - IZR dayofyr) * 24 in
  let hr := Int_part temp in
  let temp := (temp - IZR hr) * 60 in
  let minute := Int_part temp in
  mkStamp year mon day hr minute ((temp - IZR minute) * 60).
(** S 712-725, 738-751 (the same text twice): year and (nudged) day of the year *)
Definition year_and_days (jd : R) : Z * R :=
  let temp := jd - 2415019.5 in
  let tu := temp / 365.25 in
  let year := (1900 + Int_part tu)%Z in
  let leapyrs := Int_part ((IZR (year - 1901)) * 0.25) in
  let days := temp - (IZR (year - 1900) * 365 + IZR leapyrs) + 1 / 10 ^ 11 in
  if rlt days 1 then
    let year := (year - 1)%Z in
    let leapyrs := Int_part ((IZR (year - 1901)) * 0.25) in
    (year, temp - (IZR (year - 1900) * 365 + IZR leapyrs))
  else (year, days).
(** S 707-730 *)
Definition invjday (jd : R) : stamp :=
  let '(year, days) := year_and_days jd in
  let s := days2mdhms year days in
  mkStamp (s_year s) (s_mon s) (s_day s) (s_hr s) (s_min s) (s_sec s - 0.000000864).
(** S 733-754 *)
Definition jd_to_decyear (jd : R) : R := let '(year, days) := year_and_days jd in IZR year + days / 365.25.

(** ** simulation time *)
(** T 47-48 and 138: the Julian date at an elapsed time; 50-51, 140-141: the decimal year and the calendar date *)
Definition current_jd (start : stamp) (elapsed : R) : R :=
  jday (s_year start) (s_mon start) (s_day start) (s_hr start) (s_min start) (s_sec start) + elapsed / (60 * 60 * 24).
Definition current_utc (start : stamp) (elapsed : R) : stamp := invjday (current_jd start elapsed).
Definition current_decyear (start : stamp) (elapsed : R) : R := jd_to_decyear (current_jd start elapsed).
(** T 220: the seconds written to the log *)
Definition logged_second (start : stamp) (elapsed : R) : R := rfloor (s_sec (current_utc start elapsed) * 1000) / 1000.

(** ** the date part of the NRLMSISE-00 wrapper *)
(** N 34 *)
Definition leap_year (year : Z) : bool :=
  (((Z.rem year 4 =? 0) && negb (Z.rem year 100 =? 0)) || (Z.rem year 400 =? 0))%Z%bool.
Definition days_month (leap : bool) : list Z := [31; if leap then 29 else 28; 31; 30; 31; 30; 31; 31; 30; 31; 30; 31]%Z.
Definition acc (leap : bool) (k : nat) : Z := fold_left Z.add (firstn k (days_month leap)) 0%Z.
(** N 36-80: the chain of conditions, tested from month i on; [None]: the result array is left uninitialised *)
Fixpoint md_from (leap : bool) (days : Z) (i : nat) (fuel : nat) : option (Z * Z) :=
  match fuel with
  | O => None
  | S f => if ((acc leap (i - 1) <? days) && (days <=? acc leap i))%Z%bool then Some (Z.of_nat i, days - acc leap (i - 1))%Z else md_from leap days (i + 1) f
  end.
Definition days_to_month_day (days : Z) (leap : bool) : option (Z * Z) :=
  if (days <=? 31)%Z then Some (1, days)%Z else md_from leap days 2 11.
(** N 82-121 *)
Definition decyear_to_date (decyear : R) : outcome stamp :=
  let year := trunc decyear in
  let leap := leap_year year in
  let days_d := (decyear - IZR year) * (if leap then 366 else 365) in
  let days := if (trunc days_d =? 0)%Z then 1%Z else trunc days_d in
  let hours_d := (days_d - IZR (trunc days_d)) * 24 in
  let minutes_d := (hours_d - IZR (trunc hours_d)) * 60 in
  let seconds_d := (minutes_d - IZR (trunc minutes_d)) * 60 in
  match days_to_month_day days leap with
  | Some (m, d) => Ok (mkStamp year m d (trunc hours_d) (trunc minutes_d) (IZR (trunc seconds_d)))
  | None => UB
  end.
(** N 123-135: accumulate over a range ending before its begin or beyond the array is undefined *)
Definition date_to_decyear (year month day : Z) : outcome R :=
  let leap := leap_year year in
  if ((1 <=? month) && (month <=? 13))%Z%bool
  then Ok (IZR year + (IZR (acc leap (Z.to_nat (month - 1))) + IZR day) / (if leap then 366 else 365))
  else UB.
(** N 137-165 *)
Definition month_num (s : string) : Z := (
  if String.eqb s "Jan" then 1 else if String.eqb s "Feb" then 2 else if String.eqb s "Mar" then 3 else if String.eqb s "Apr" then 4
  else if String.eqb s "May" then 5 else if String.eqb s "Jun" then 6 else if String.eqb s "Jul" then 7 else if String.eqb s "Aug" then 8
  else if String.eqb s "Sep" then 9 else if String.eqb s "Oct" then 10 else if String.eqb s "Nov" then 11 else if String.eqb s "Dec" then 12 else 0)%Z.
(** wrapper_nrlmsise00.hpp:22-33, the fields used *)
Record weather : Type := mkWeather { w_year : Z; w_month : Z; w_day : Z; w_ap : R; w_f107 : R; w_ctr81 : R }.
(** N 188-190: day of year, seconds of the day given to the model *)
Definition nrl_doy (decyear : R) : Z := trunc ((decyear - IZR (trunc decyear)) * 365.25).
Definition nrl_sec (date : stamp) : R := IZR (s_hr date) * 60 * 60 + IZR (s_min date) * 60 + s_sec date.
(** N 186, 202-226: the row searched; index 0 if none matches *)
Definition row_matches (decyear monthly : R) (date : stamp) (w : weather) : bool :=
  if rlt decyear monthly then ((s_year date =? w_year w) && (s_mon date =? w_month w) && (s_day date =? w_day w))%Z%bool
  else ((s_year date =? w_year w) && (s_mon date =? w_month w))%Z%bool.
Definition weather_row (decyear monthly : R) (table : list weather) : outcome (option weather) :=
  let! date := decyear_to_date decyear in
  match table with
  | [] => Ok None
  | w0 :: _ => Ok (Some (match find (row_matches decyear monthly date) table with Some w => w | None => w0 end))
  end.
(** N 268-278: from when on the table is monthly, from the update date in its header; the index is the month number *)
Definition monthly_from (year : Z) (month : string) (day : Z) : outcome R :=
  let m := month_num month in
  let! d := date_to_decyear year m day in
  match nth_error (days_month false) (Z.to_nat m) with Some l => Ok (d + IZR (l + 14) / 365) | None => UB end.
(** N 249-255, 286-291: the rows kept (a line's date is not checked against the calendar) *)
Definition row_kept (date_ini date_end : stamp) (year month day : Z) : outcome bool :=
  let! line := date_to_decyear year month day in
  let! ini := date_to_decyear (s_year date_ini) (s_mon date_ini) (s_day date_ini) in
  let! fin := date_to_decyear (s_year date_end) (s_mon date_end) (s_day date_end) in
  Ok (negb (rlt line (ini - 31 / 365) || rlt fin line)).
