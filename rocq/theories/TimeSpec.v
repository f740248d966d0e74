(** Civil calendar specification: the proleptic Gregorian calendar counted month by month, and
    the represented instants. Independent of the formulas and tables of the code. *)
From Coq Require Import ZArith Reals Bool.
From Verif Require Import TimeModel.
Open Scope Z_scope.

Definition divides (a b : Z) : bool := b mod a =? 0.
Definition leap_gregorian (y : Z) : bool := divides 4 y && (negb (divides 100 y) || divides 400 y).
(** The rule of the code ("leap year if year%4==0 in 1901-2099"). *)
Definition leap_simple (y : Z) : bool := divides 4 y.

Definition month_length (leap : Z -> bool) (y m : Z) : Z :=
  if m =? 2 then (if leap y then 29 else 28)
  else if (m =? 4) || (m =? 6) || (m =? 9) || (m =? 11) then 30 else 31.

(** Days in the months 1..k of year y, and in the years 1970..1969+k. *)
Fixpoint days_of_months (leap : Z -> bool) (y : Z) (k : nat) : Z :=
  match k with O => 0 | S k' => days_of_months leap y k' + month_length leap y (Z.of_nat k) end.
Fixpoint days_of_years (leap : Z -> bool) (k : nat) : Z :=
  match k with O => 0 | S k' => days_of_years leap k' + days_of_months leap (1970 + Z.of_nat k') 12 end.

(** Days from 1970-01-01 to y-m-d. *)
Definition day_number (leap : Z -> bool) (y m d : Z) : Z :=
  days_of_years leap (Z.to_nat (y - 1970)) + days_of_months leap y (Z.to_nat (m - 1)) + (d - 1).

Definition valid_date (leap : Z -> bool) (y m d : Z) : Prop :=
  1970 <= y /\ 1 <= m <= 12 /\ 1 <= d <= month_length leap y m.
Definition valid_clock (h mi : Z) (s : R) : Prop :=
  0 <= h < 24 /\ 0 <= mi < 60 /\ (0 <= s < 60)%R.

(** Number of the years <= y that the simple rule wrongly takes as leap years, since 1970. *)
Fixpoint wrong_leaps (k : nat) : Z :=
  match k with
  | O => 0
  | S k' => wrong_leaps k' + (if leap_simple (1970 + Z.of_nat k') && negb (leap_gregorian (1970 + Z.of_nat k')) then 1 else 0)
  end.

(** Instants. *)
Definition instant (e : epoch) : R := (IZR (time_s e) + fraction e)%R.
Definition normalised (e : epoch) : Prop := 0 <= time_s e < 2 ^ 64 /\ (0 <= fraction e < 1)%R.
