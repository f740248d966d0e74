(** What C175 speaks about, in its own words: where the file of a log is and what it shows. *)
From Coq Require Import List ZArith Bool Ascii String.
From Verif Require Import Base StringModel LogFileModel.
Import ListNotations.
Open Scope Z_scope.

Definition two (n : Z) : str := [chr (48 + n / 10); chr (48 + n mod 10)].
(** yymmdd_hhmmss *)
Definition stamp (t : ltime) : str :=
  two (lt_year t mod 100) ++ two (lt_month t) ++ two (lt_day t) ++ lit "_" ++ two (lt_hour t) ++ two (lt_min t) ++ two (lt_sec t).
(** a directory's path up to and with the separator *)
Definition in_dir (d : str) : str := match d with [] => [] | _ => if Ascii.eqb (last d "."%char) "/"%char then d else d ++ lit "/" end.
(** the directory of a log: DATA/logs_STAMP/ *)
Definition log_dir (data : str) (t : ltime) : str := in_dir data ++ lit "logs_" ++ stamp t ++ lit "/".
(** DATA/logs_STAMP/STAMP_NAME *)
Definition log_path (data : str) (t : ltime) (name : str) : str := log_dir data t ++ stamp t ++ lit "_" ++ name.
Definition calendar (t : ltime) : Prop :=
  1 <= lt_month t <= 12 /\ 1 <= lt_day t <= 31 /\ 0 <= lt_hour t < 24 /\ 0 <= lt_min t < 60 /\ 0 <= lt_sec t <= 60.

(** how many loggers a history makes *)
Fixpoint made (cs : list call) : nat := match cs with [] => O | New _ _ _ _ _ _ :: r => S (made r) | _ :: r => made r end.
(** the texts given to logger n while it is switched on, one after the other *)
Fixpoint shown (n : nat) (on : bool) (cs : list call) : str :=
  match cs with
  | [] => []
  | Text i s :: r => (if (Nat.eqb i n && on)%bool then s else []) ++ shown n on r
  | Enable i b :: r => shown n (if Nat.eqb i n then b else on) r
  | _ :: r => shown n on r
  end.
(** no logger of a history that is made switched on has its file at p *)
Definition no_log_at (p : str) (cs : list call) : Prop :=
  forall t name data ini save, In (New t name data ini save true) cs -> log_path data t name <> p.
(** no logger is made that is switched on or saves settings files *)
Definition quiet (c : call) : Prop := match c with New _ _ _ _ save en => save = false /\ en = false | _ => True end.
