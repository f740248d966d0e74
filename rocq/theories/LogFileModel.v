(** Model of the files of a log: the constructor, destructor and CopyFileToLogDirectory of src/logger/logger.cpp (L) and
    src/logger/initialize_log.cpp (I).  A disk maps the path of a regular file to its text; whether a path can be opened for
    writing is an argument.  Simplifications: directories are not objects (create_directories succeeds), two different texts are
    two different paths (no links, no "." or doubled separators), paths are those of Linux, nothing else writes to the disk, and
    what a stream was given is in its file at once (the code writes it at the latest when the stream is closed). *)
From Coq Require Import List ZArith Bool Ascii String Lia.
From Verif Require Import Base StringModel.
From Verif Require CompInitModel.
Import ListNotations.
Open Scope Z_scope.

(** localtime (L 24-26): the calendar fields strftime prints *)
Record ltime : Type := mkTime { lt_year : Z; lt_month : Z; lt_day : Z; lt_hour : Z; lt_min : Z; lt_sec : Z }.
(** L 29, strftime's %y %m %d %H %M %S: two digits each *)
Definition pad2 (n : Z) : str := [digit_chr (n / 10); digit_chr (n mod 10)].
(** L 24-29: "%y%m%d_%H%M%S" *)
Definition start_time (t : ltime) : str :=
  pad2 (lt_year t mod 100) ++ pad2 (lt_month t) ++ pad2 (lt_day t) ++ lit "_" ++ pad2 (lt_hour t) ++ pad2 (lt_min t) ++ pad2 (lt_sec t).

(** std::filesystem::path as used in L 41, 88, 98: operator/ and append (an absolute right hand side replaces the left one), filename *)
Definition slash : ascii := "/"%char.
Definition ends_slash (a : str) : bool := match rev a with c :: _ => Ascii.eqb c slash | [] => false end.
Definition join (a b : str) : str :=
  match b with
  | c :: _ => if Ascii.eqb c slash then b else match a with [] => b | _ => if ends_slash a then a ++ b else a ++ slash :: b end
  | [] => match a with [] => b | _ => if ends_slash a then a ++ b else a ++ slash :: b end
  end.
Fixpoint filename_from (p cur : str) : str :=
  match p with [] => rev cur | c :: t => if Ascii.eqb c slash then filename_from t [] else filename_from t (c :: cur) end.
Definition filename (p : str) : str := filename_from p [].

(** the disk (the file system calls of L 44, 90, 100, 105) *)
Definition disk : Type := str -> option str.
Definition put (d : disk) (p s : str) : disk := fun q => if str_eqb q p then Some s else d q.
(** L 78, csv_file_ << s: writing s at offset k of a text c *)
Definition overwrite (c : str) (k : nat) (s : str) : str :=
  firstn k c ++ repeat (ascii_of_nat 0) (k - List.length c) ++ s ++ skipn (k + List.length s) c.

(** a Logger (logger.hpp 93-100): is_enabled_, is_ini_save_enabled_, directory_path_, is_file_opened_, the file and position of csv_file_ *)
Record flog : Type := mkFlog { fl_enabled : bool; fl_save : bool; fl_dir : str; fl_open : bool; fl_path : str; fl_pos : nat; fl_alive : bool }.
(** the loggers made so far, the disk, and Logger::is_directory_created_ (L 14: false, set nowhere) *)
Record world : Type := mkWorld { w_disk : disk; w_created : bool; w_logs : list flog }.

(** L 86-93 *)
Definition create_directory (data time : str) : str := join data (lit "logs_" ++ time).

(** L 95-107; exists and copy_file throw or fail as the file system says: a missing source or a place that cannot be written throws *)
Definition copy_file (writable : str -> bool) (lg : flog) (d : disk) (ini : str) : outcome disk :=
  if negb (fl_save lg) then Ok d else
  let to := join (fl_dir lg) (filename ini) in
  match d to with
  | Some _ => Ok d
  | None => match d ini with None => Throw | Some c => if writable to then Ok (put d to c) else Throw end
  end.

(** L 18-50 *)
Definition new_logger (writable : str -> bool) (w : world) (t : ltime) (name data ini : str) (save en : bool) : outcome world :=
  if negb en then Ok (mkWorld (w_disk w) (w_created w) (w_logs w ++ [mkFlog en save [] false [] 0 true])) else
  let time := start_time t in
  let prefix := time ++ lit "_" in
  let dir := if save || negb (w_created w) then create_directory data time else data in
  let path := join dir (prefix ++ name) in
  let opened := writable path in
  let d := if opened then put (w_disk w) path [] else w_disk w in
  let lg := mkFlog en save dir opened path 0 true in
  bind (copy_file writable lg d ini) (fun d' => Ok (mkWorld d' (w_created w) (w_logs w ++ [lg]))).

(** L 76-80 *)
Definition write_text (d : disk) (lg : flog) (s : str) : disk * flog :=
  if fl_enabled lg then
    if fl_open lg then
      match d (fl_path lg) with
      | Some c => (put d (fl_path lg) (overwrite c (fl_pos lg) s),
                   mkFlog (fl_enabled lg) (fl_save lg) (fl_dir lg) (fl_open lg) (fl_path lg) (fl_pos lg + List.length s) (fl_alive lg))
      | None => (d, lg)
      end
    else (d, lg)
  else (d, lg).

(** what a program does with its loggers (the public members of logger.hpp 27-90 that touch files), numbered in the order of their construction *)
Inductive call : Type :=
| New (t : ltime) (name data ini : str) (save en : bool)
| Text (i : nat) (s : str)
| Enable (i : nat) (b : bool)
| Copy (i : nat) (ini : str)
| Delete (i : nat).

Fixpoint set_nth (l : list flog) (i : nat) (x : flog) : list flog :=
  match l, i with [], _ => [] | _ :: r, O => x :: r | a :: r, S j => a :: set_nth r j x end.
(** the use (through a pointer) of a logger that does not exist (any more) is undefined *)
Definition with_logger (w : world) (i : nat) (f : flog -> outcome world) : outcome world :=
  match nth_error (w_logs w) i with Some lg => if fl_alive lg then f lg else UB | None => UB end.
Definition perform (writable : str -> bool) (w : world) (c : call) : outcome world :=
  match c with
  | New t name data ini save en => new_logger writable w t name data ini save en
  | Text i s => with_logger w i (fun lg =>
      let (d, lg') := write_text (w_disk w) lg s in Ok (mkWorld d (w_created w) (set_nth (w_logs w) i lg')))
  (* logger.hpp:72 *)
  | Enable i b => with_logger w i (fun lg => Ok (mkWorld (w_disk w) (w_created w) (set_nth (w_logs w) i
      (mkFlog b (fl_save lg) (fl_dir lg) (fl_open lg) (fl_path lg) (fl_pos lg) (fl_alive lg)))))
  | Copy i ini => with_logger w i (fun lg =>
      bind (copy_file writable lg (w_disk w) ini) (fun d => Ok (mkWorld d (w_created w) (w_logs w))))
  (* L 52-56 *)
  | Delete i => with_logger w i (fun lg => Ok (mkWorld (w_disk w) (w_created w) (set_nth (w_logs w) i
      (mkFlog (fl_enabled lg) (fl_save lg) (fl_dir lg) false (fl_path lg) (fl_pos lg) false))))
  end.
Fixpoint run (writable : str -> bool) (w : world) (cs : list call) : outcome world :=
  match cs with [] => Ok w | c :: r => bind (perform writable w c) (fun w' => run writable w' r) end.
Definition at_start (d : disk) : world := mkWorld d false [].

(** I 12-21 and 23-32 *)
Definition init_log (f : CompInitModel.ini) (t : ltime) (file_name : str) : call :=
  let sec := lit "SIMULATION_SETTINGS" in
  let log_file_path := CompInitModel.rd_string f sec (lit "log_file_save_directory") in
  let log_ini := CompInitModel.rd_enable f sec (lit "save_initialize_files") in
  New t (lit "default.csv") log_file_path file_name log_ini true.
Definition init_monte_carlo_log (f : CompInitModel.ini) (t : ltime) (file_name : str) (enable : bool) : call :=
  let sec := lit "SIMULATION_SETTINGS" in
  let log_file_path := CompInitModel.rd_string f sec (lit "log_file_save_directory") in
  let log_ini := CompInitModel.rd_enable f sec (lit "save_initialize_files") in
  New t (lit "monte_carlo.csv") log_file_path file_name log_ini enable.
