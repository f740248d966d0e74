(** Satellite systems in RINEX 4 order and day-of-year calendar. *)
From Coq Require Import List ZArith Ascii String Bool.
From Verif Require Import StringModel TimeSpec.
Import ListNotations.
Open Scope Z_scope.

(** two decimal digits *)
Definition two_digits (n : nat) : str := [ascii_of_nat (48 + n / 10); ascii_of_nat (48 + n mod 10)].
Definition systems : list (ascii * nat) :=
  [("G"%char, 32%nat); ("R"%char, 26%nat); ("E"%char, 28%nat); ("C"%char, 62%nat); ("J"%char, 5%nat); ("I"%char, 7%nat)].
Definition satellites_of (sys : ascii * nat) : list str :=
  map (fun n => fst sys :: two_digits n) (seq 1 (snd sys)).
(** G01 ... G32, R01 ... R26, E01 ... *)
Definition all_satellites : list str := flat_map satellites_of systems.

(** a date written YYYYDDD *)
Definition year_length (leap : Z -> bool) (y : Z) : Z := if leap y then 366 else 365.
Definition is_date (leap : Z -> bool) (x y d : Z) : Prop :=
  x = y * 1000 + d /\ 0 <= y /\ 1 <= d <= year_length leap y.
(** days of the years 0 .. k-1 *)
Fixpoint days_before_year (leap : Z -> bool) (k : nat) : Z :=
  match k with O => 0 | S j => days_before_year leap j + year_length leap (Z.of_nat j) end.
Definition day_count (leap : Z -> bool) (y d : Z) : Z := days_before_year leap (Z.to_nat y) + d.
