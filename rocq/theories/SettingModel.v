(** Model of src/setting_file_reader: c2a_command_database.cpp, wings_operation_file.cpp and the
    logic of initialize_file_access.cpp above the INI parser (library inih, seen as a table). *)
From Coq Require Import List ZArith Bool Ascii String Lia.
From Verif Require Import Base SlipModel StringModel.
Import ListNotations.
Open Scope Z_scope.

(** * C2A command database *)

(** c2a_command_database.hpp:21 *)
Inductive argtype : Type :=
| kUint8t | kUint16t | kUint32t | kUint64t | kInt8t | kInt16t | kInt32t | kInt64t
| kFloat | kDouble | kRaw | kError.

(** the object representation of an integer of n bytes on a little-endian host *)
Fixpoint le_bytes (n : nat) (v : Z) : list Z :=
  match n with O => [] | S n' => v mod 256 :: le_bytes n' (v / 256) end.

(** c2a_command_database.cpp:93-162.  [param] is the memory from the pointer argument on;
    result: the memory and size_param.  [fl] and [db] give the object bytes of std::stof /
    std::stod of a string (floating point representation not modelled). *)
Definition decode_argument (fl db : str -> outcome (list Z)) (t : argtype) (s : str) (param : list Z) (size : nat)
  : outcome (list Z * nat) :=
  let put n obj := let! p := endian_memcpy param obj n in Ok (p, n) in
  let unsigned n := let! v := stoul 10 s in put n (le_bytes n v) in
  let signed n := let! v := stoi s in put n (le_bytes n v) in
  match t with
  | kUint8t => unsigned 1%nat
  | kUint16t => unsigned 2%nat
  | kUint32t => unsigned 4%nat
  | kUint64t => unsigned 8%nat
  | kInt8t => signed 1%nat
  | kInt16t => signed 2%nat
  | kInt32t => signed 4%nat
  | kInt64t => let! v := stol s in put 8%nat (le_bytes 8 v)
  | kFloat => let! b := fl s in put 4%nat b
  | kDouble => let! b := db s in put 8%nat b
  | kRaw => Ok (param, size)
  | kError => Ok (param, size)
  end.

(** c2a_command_database.hpp:66-69 *)
Record command : Type := mkCommand { cname : str; cid : Z; ctypes : list argtype }.
Definition error_command : command := mkCommand (lit "Error") 0 [].

(** c2a_command_database.cpp:51-77 *)
Definition convert_type (s : str) : argtype :=
  if str_eqb s (lit "uint8_t") then kUint8t
  else if str_eqb s (lit "uint16_t") then kUint16t
  else if str_eqb s (lit "uint32_t") then kUint32t
  else if str_eqb s (lit "uint64_t") then kUint64t
  else if str_eqb s (lit "int8_t") then kInt8t
  else if str_eqb s (lit "int16_t") then kInt16t
  else if str_eqb s (lit "int32_t") then kInt32t
  else if str_eqb s (lit "int64_t") then kInt64t
  else if str_eqb s (lit "float") then kFloat
  else if str_eqb s (lit "double") then kDouble
  else if str_eqb s (lit "raw") then kRaw
  else kError.

(** tokens[i] of a std::vector *)
Definition at_ {A} (l : list A) (i : nat) : outcome A :=
  match nth_error l i with Some x => Ok x | None => UB end.

(** c2a_command_database.cpp:37-40; [n] arguments left, the next one is [arg_id].  The loop ends
    with undefined behaviour at the first missing token, so at most [length tokens] iterations
    happen and the fuel is never the reason to stop (lemma in SettingProofs.v). *)
Fixpoint read_types (fuel : nat) (tokens : list str) (arg_id : nat) (n : Z) : outcome (list argtype) :=
  match fuel with
  | O => Hang
  | S f =>
    if Z.of_nat arg_id <? n then
      let! t := at_ tokens (5 + 2 * arg_id) in
      let! r := read_types f tokens (S arg_id) n in
      Ok (convert_type t :: r)
    else Ok []
  end.

(** c2a_command_database.cpp:16-41 *)
Definition parse_command (line : str) : outcome command :=
  if prefix (lit "*") line then Ok error_command else
  if negb (prefix (lit ",") line) then Ok error_command else
  let tokens := getlines ","%char line in
  let! name := at_ tokens 1 in
  match name with
  | [] => Ok (mkCommand [] 0 [])
  | _ =>
    let! t3 := at_ tokens 3 in
    let! id := stoul 0 t3 in
    let! t4 := at_ tokens 4 in
    let! n := stoul 0 t4 in
    let! types := read_types (S (List.length tokens)) tokens 0 n in
    Ok (mkCommand name id types)
  end.

(** c2a_command_database.cpp:43-49 *)
Definition argument_type (c : command) (i : nat) : argtype := nth i (ctypes c) kError.

(** std::map<std::string, C2aCommandInformation>: [m[k] = v] and find *)
Definition cmap : Type := list (str * command).
Definition cmap_set (m : cmap) (k : str) (v : command) : cmap := (k, v) :: m.
Fixpoint cmap_get (m : cmap) (k : str) : option command :=
  match m with [] => None | (k', v) :: m' => if str_eqb k k' then Some v else cmap_get m' k end.

(** c2a_command_database.cpp:79-91; a file that cannot be opened has no lines *)
Fixpoint read_database (m : cmap) (lines : list str) : outcome cmap :=
  match lines with
  | [] => Ok m
  | l :: r =>
    let! c := parse_command l in
    if str_eqb (cname c) (lit "Error") then read_database m r
    else read_database (cmap_set m (cname c) c) r
  end.
Definition nl : ascii := "010"%char.
Definition database (file : str) : outcome cmap := read_database [] (getlines nl file).
(** c2a_command_database.hpp:95-102 *)
Definition command_information (m : cmap) (name : str) : command :=
  match cmap_get m name with Some c => c | None => error_command end.

(** * WINGS operation file *)

Definition starts (c : ascii) (s : str) : bool := match s with x :: _ => Ascii.eqb x c | [] => false end.
(** line.find('#'), substr(0, position) *)
Fixpoint cut_at (c : ascii) (s : str) : str :=
  match s with [] => [] | x :: t => if Ascii.eqb x c then [] else x :: cut_at c t end.

(** wings_operation_file.cpp:22-34 *)
Definition clean_line (line : str) : str :=
  let line := if starts "."%char line then tl line else line in
  let line := if starts " "%char line then tl line else line in
  cut_at "#"%char line.

(** wings_operation_file.hpp:36-38 *)
Record opsfile : Type := mkOps { lines : list str; pointer : nat }.
(** wings_operation_file.cpp:12-40 *)
Fixpoint keep_lines (ls : list str) : list str :=
  match ls with
  | [] => []
  | l :: r => let c := clean_line l in
              if (2 <? List.length c)%nat then c :: keep_lines r else keep_lines r
  end.
Definition ops_new (file : str) : opsfile := mkOps (keep_lines (getlines nl file)) 0.
(** wings_operation_file.cpp:42-49 *)
Definition latest_line (o : opsfile) : str * opsfile :=
  match nth_error (lines o) (pointer o) with
  | None => (lit "EOL", o)
  | Some l => (l, mkOps (lines o) (S (pointer o)))
  end.
(** n calls *)
Fixpoint read_lines (n : nat) (o : opsfile) : list str :=
  match n with O => [] | S m => let (l, o') := latest_line o in l :: read_lines m o' end.

(** * IniAccess *)

(** the INI file as the parser sees it: the entries of the section asked for; an absent key gives
    the default.  Keys are compared as the parser does (here: exactly). *)
Definition section : Type := list (str * str).
Fixpoint get (s : section) (k : str) : option str :=
  match s with [] => None | (k', v) :: r => if str_eqb k k' then Some v else get r k end.

(** the characters the regular expression . does not match *)
Definition is_eol (c : ascii) : bool := (code c =? 10) || (code c =? 13).
Definition slashes (s : str) : bool := prefix (lit "//") (skip_space s).
(** initialize_file_access.cpp:167-168: std::regex_replace(value, "\\s*//.*", "") *)
Fixpoint strip_comment (inside : bool) (s : str) : str :=
  match s with
  | [] => []
  | c :: t =>
    if inside && negb (is_eol c) then strip_comment true t
    else if slashes s then strip_comment (negb (is_space c)) t
    else c :: strip_comment false t
  end.
(** std::regex_replace(value, pattern, r) for a pattern and replacement without special
    characters *)
Fixpoint replace_all (p r : str) (skip : nat) (s : str) : str :=
  match s with
  | [] => []
  | c :: t =>
    match skip with
    | S k => replace_all p r k t
    | O => if prefix p s then r ++ replace_all p r (Nat.pred (List.length p)) t else c :: replace_all p r 0 t
    end
  end.

(** the three compile-time paths *)
Record dirs : Type := mkDirs { settings_dir : str; ext_lib_dir : str; core_dir : str }.
(** initialize_file_access.cpp:156-180 (not WIN32) *)
Definition read_string (d : dirs) (s : section) (key : str) : str :=
  let v := match get s key with Some v => v | None => lit "NULL" end in
  let v := strip_comment false v in
  let v := replace_all (lit "SETTINGS_DIR_FROM_EXE") (settings_dir d) 0 v in
  let v := replace_all (lit "EXT_LIB_DIR_FROM_EXE") (ext_lib_dir d) 0 v in
  replace_all (lit "CORE_DIR_FROM_EXE") (core_dir d) 0 v.

(** edited_key_name << key_name << "(" << i << ")" *)
Definition indexed (key : str) (i : Z) : str := key ++ lit "(" ++ to_string i ++ lit ")".

(** initialize_file_access.cpp:192-197 *)
Definition read_enable (d : dirs) (s : section) (key : str) : bool :=
  let e := read_string d s key in
  if str_eqb e (lit "ENABLE") then true else if str_eqb e (lit "1") then true else false.

(** initialize_file_access.cpp:199-219; the counter is an unsigned int *)
Fixpoint str_vector_loop (fuel : nat) (d : dirs) (s : section) (key : str) (i : Z) : outcome (list str) :=
  match fuel with
  | O => Hang
  | S f =>
    let temp := read_string d s (indexed key i) in
    if str_eqb temp (lit "NULL") then Ok []
    else let! r := str_vector_loop f d s key ((i + 1) mod 2 ^ 32) in Ok (temp :: r)
  end.
Definition read_str_vector (fuel : nat) (d : dirs) (s : section) (key : str) : outcome (list str) :=
  str_vector_loop fuel d s key 0.

(** initialize_file_access.cpp:41-49, 81-89, 113-121, 182-190: the four ReadVector* functions with
    their element reader *)
Fixpoint read_vector_from {A} (rd : str -> A) (key : str) (i : nat) (num : nat) : list A :=
  match num with
  | O => []
  | S n => rd (indexed key (Z.of_nat i)) :: read_vector_from rd key (S i) n
  end.
Definition read_vector {A} (rd : str -> A) (key : str) (num : nat) : list A := read_vector_from rd key 0 num.

(** initialize_file_access.cpp:221-229 *)
Definition split (input : str) (delimiter : ascii) : list str := getlines delimiter input.

(** initialize_file_access.cpp:244-248 and 264-268 *)
Fixpoint convert_cells {A} (stod : str -> outcome A) (i colh : nat) (cells : list str) : outcome (list A) :=
  match cells with
  | [] => Ok []
  | c :: r =>
    if (colh <=? i)%nat then let! x := stod c in let! xs := convert_cells stod (S i) colh r in Ok (x :: xs)
    else convert_cells stod (S i) colh r
  end.
(** initialize_file_access.cpp:250-273 *)
Fixpoint csv_rows {A} (stod : str -> outcome A) (rowh colh line_num : nat) (ls : list str) : outcome (list (list A)) :=
  match ls with
  | [] => Ok []
  | l :: r =>
    if (rowh <=? line_num)%nat then
      let! row := convert_cells stod 0 colh (split l ","%char) in
      let! rows := csv_rows stod rowh colh (S line_num) r in Ok (row :: rows)
    else csv_rows stod rowh colh (S line_num) r
  end.
Definition read_csv_with_header {A} (stod : str -> outcome A) (file : str) (rowh colh : nat) : outcome (list (list A)) :=
  csv_rows stod rowh colh 0 (getlines nl file).
(** initialize_file_access.cpp:231-248 *)
Fixpoint csv_rows_plain {A} (stod : str -> outcome A) (ls : list str) : outcome (list (list A)) :=
  match ls with
  | [] => Ok []
  | l :: r => let! row := convert_cells stod 0 0 (split l ","%char) in
              let! rows := csv_rows_plain stod r in Ok (row :: rows)
  end.
Definition read_csv {A} (stod : str -> outcome A) (file : str) : outcome (list (list A)) :=
  csv_rows_plain stod (getlines nl file).
(** initialize_file_access.cpp:275-287 *)
Definition read_csv_string (file : str) : list (list str) := map (fun l => split l ","%char) (getlines nl file).
