(** Model of src/math_physics/time_system/{epoch_time,date_time_format,gps_time}.{cpp,hpp}.
    [double] is R. Unsigned 64 bit integers (size_t, uint64_t; time_t is converted to and from
    uint64_t without change of the low 64 bits) are Z modulo 2^64; [int] conversions wrap at
    2^32 (what every supported compiler does). *)
From Coq Require Import List ZArith Bool Reals.
From Verif Require Import Base.
Import ListNotations.
Open Scope Z_scope.

Definition u64 (x : Z) : Z := x mod 2 ^ 64.
Definition int32 (x : Z) : Z := (x + 2 ^ 31) mod 2 ^ 32 - 2 ^ 31.

(** date_time_format.hpp 63-68 *)
Record date_time : Type := mkDT {
  year : Z; month : Z; day : Z; hour : Z; minute : Z; second : R }.

(** epoch_time.hpp 68-69 *)
Record epoch : Type := mkEpoch { time_s : Z; fraction : R }.

Definition Rltb (a b : R) : bool := if Rlt_dec a b then true else false.
Definition Reqb (a b : R) : bool := if Req_EM_T a b then true else false.

(** EpochTime::EpochTime(DateTime), epoch_time.cpp 12-33. [Ok None]: the constructor returned
    early and both members are uninitialised. The conversion of floor(second) to size_t (line
    22) is undefined behaviour for a negative or a huge value. *)
Definition doy_table : list Z := [1; 32; 60; 91; 121; 152; 182; 213; 244; 274; 305; 335].
Definition epoch_of_date (d : date_time) : outcome (option epoch) :=
  let fl := Int_part (second d) in
  if (fl <? 0) || (2 ^ 64 <=? fl) then UB else
  if (year d <? 1970) || (month d <? 1) || (12 <? month d) then Ok None else
  if (day d <? 1) || (32 <=? day d) then Ok None else
  if 60 <=? minute d then Ok None else
  if 60 <=? fl then Ok None else
  let days := u64 ((year d - 1970) * 365 + (year d - 1969) / 4
                   + nth (Z.to_nat (month d - 1)) doy_table 0 + day d - 2
                   + (if (year d mod 4 =? 0) && (3 <=? month d) then 1 else 0)) in
  Ok (Some (mkEpoch (u64 (days * 86400 + hour d * 3600 + minute d * 60 + fl))
                    (second d - IZR fl)%R)).

(** date_time_format.cpp 22-23 *)
Definition mday_table : list Z :=
  [31; 28; 31; 30; 31; 30; 31; 31; 30; 31; 30; 31; 31; 28; 31; 30; 31; 30; 31; 31; 30; 31; 30; 31;
   31; 29; 31; 30; 31; 30; 31; 31; 30; 31; 30; 31; 31; 28; 31; 30; 31; 30; 31; 31; 30; 31; 30; 31].

(** The loop of lines 30-35: (mon, day) at exit. *)
Fixpoint month_loop (tbl : list Z) (mon day : Z) : Z * Z :=
  match tbl with
  | [] => (mon, day)
  | m :: tbl' => if m <=? day then month_loop tbl' (mon + 1) (day - m) else (mon, day)
  end.

(** DateTime::DateTime(EpochTime), date_time_format.cpp 20-43. *)
Definition date_of_epoch (e : epoch) : date_time :=
  let days := int32 (time_s e / 86400) in
  let sec := int32 (u64 (time_s e - days * 86400)) in
  let (mon, day_) := month_loop mday_table 0 (Z.rem days 1461) in
  mkDT (u64 (1970 + Z.quot days 1461 * 4 + Z.quot mon 12))
       (u64 (Z.rem mon 12 + 1))
       (u64 (day_ + 1))
       (u64 (Z.quot sec 3600))
       (u64 (Z.quot (Z.rem sec 3600) 60))
       (IZR (Z.rem sec 60) + fraction e)%R.

(** epoch_time.cpp 35-39 *)
Definition epoch_eq (a b : epoch) : bool :=
  if negb (time_s a =? time_s b) then false else
  if negb (Reqb (fraction a) (fraction b)) then false else true.
(** epoch_time.cpp 41-47 *)
Definition epoch_gt (a b : epoch) : bool :=
  if epoch_eq a b then false else
  if time_s a <? time_s b then false else
  if time_s b <? time_s a then true else
  if Rltb (fraction a) (fraction b) then false else true.
(** epoch_time.cpp 49-55 *)
Definition epoch_lt (a b : epoch) : bool :=
  if epoch_eq a b then false else
  if time_s b <? time_s a then false else
  if time_s a <? time_s b then true else
  if Rltb (fraction b) (fraction a) then false else true.
(** epoch_time.hpp 55-59 *)
Definition epoch_ne a b := negb (epoch_eq a b).
Definition epoch_le a b := negb (epoch_gt a b).
Definition epoch_ge a b := negb (epoch_lt a b).

(** epoch_time.cpp 57-66 *)
Definition epoch_add (a b : epoch) : epoch :=
  let t := u64 (time_s a + time_s b) in
  let f := (fraction a + fraction b)%R in
  if Rltb 1 f then mkEpoch (u64 (t + 1)) (f - 1)%R else mkEpoch t f.

(** epoch_time.cpp 68-77 *)
Definition epoch_sub (a b : epoch) : epoch :=
  let t := u64 (time_s a - time_s b) in
  let f := (fraction a - fraction b)%R in
  if Rltb f 0 then mkEpoch (u64 (t - 1)) (f + 1)%R else mkEpoch t f.

(** gps_time.cpp 10-12: the epoch constants. kEpochOfGpsTimeInEpochTime_ is
    EpochTime(DateTime("1980/1/6 00:00:00.0")), see TimeProofs.gps_epoch_correct. *)
Definition gps_epoch_date : date_time := mkDT 1980 1 6 0 0 0%R.
Definition gps_epoch : epoch := mkEpoch 315964800 0%R.
Definition leap_seconds : epoch := mkEpoch 18 0%R.
Definition seconds_in_week : Z := 604800.   (* gps_time.hpp 91 *)

(** GpsTime::CalcGpsWeekTime, gps_time.cpp 14-18. *)
Definition calc_gps_week_time (e : epoch) : Z * R :=
  let d := epoch_sub e gps_epoch in
  let week := time_s d / seconds_in_week in
  (week, (IZR (u64 (time_s d - week * seconds_in_week)) + fraction d)%R).

(** GpsTime::CalcEpochTime, gps_time.cpp 20-27; negative or huge elapsed time is undefined. *)
Definition calc_epoch_time (week : Z) (elapsed : R) : outcome epoch :=
  let i := Int_part elapsed in
  if Rltb elapsed 0 || (2 ^ 64 <=? i) then UB else
  Ok (epoch_add gps_epoch (mkEpoch (u64 (week * seconds_in_week + i)) (elapsed - IZR i)%R)).

(** GpsTime objects: week, elapsed, date, epoch; constructors gps_time.hpp 27-42. *)
Record gps : Type := mkGps { g_week : Z; g_elapsed : R; g_date : date_time; g_epoch : epoch }.
Definition gps_of_week (w : Z) (el : R) : outcome gps :=
  let! e := calc_epoch_time w el in Ok (mkGps w el (date_of_epoch e) e).
Definition gps_of_epoch (e : epoch) : gps :=
  let (w, el) := calc_gps_week_time e in mkGps w el (date_of_epoch e) e.
Definition gps_of_date (d : date_time) : outcome (option gps) :=
  let! eo := epoch_of_date d in
  match eo with
  | None => Ok None
  | Some e => let (w, el) := calc_gps_week_time e in Ok (Some (mkGps w el d e))
  end.
(** GetDateTimeAsUtc, gps_time.hpp 78 *)
Definition gps_as_utc (g : gps) : date_time := date_of_epoch (epoch_sub (g_epoch g) leap_seconds).
