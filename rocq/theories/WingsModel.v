(** Model of src/components/real/communication/wings_command_sender_to_c2a.cpp, compiled with
    USE_C2A, and of IniAccess::ReadQuaternion.  Doubles are real numbers. *)
From Coq Require Import Reals List ZArith Bool Ascii String Lia.
From Verif Require Import Base RBase StringModel SettingModel.
Import ListNotations.
Open Scope Z_scope.

(** initialize_file_access.cpp:123-145; [rd] is ReadDouble in the section (0 for an absent key) *)
Definition underscored (key : str) (i : Z) : str := key ++ lit "_(" ++ to_string i ++ lit ")".
Definition read_quaternion (rd : str -> R) (key : str) : R * R * R * R :=
  let t i := rd (underscored key i) in
  let norm := (0 + t 0%Z * t 0%Z + t 1%Z * t 1%Z + t 2%Z * t 2%Z + t 3%Z * t 3%Z)%R in
  if req norm 0 then (rd (indexed key 0), rd (indexed key 1), rd (indexed key 2), rd (indexed key 3))
  else (t 0%Z, t 1%Z, t 2%Z, t 3%Z).

(** token_stream >> token until it fails *)
Fixpoint words_from (cur : str) (s : str) : list str :=
  match s with
  | [] => match cur with [] => [] | _ => [rev cur] end
  | c :: t => if is_space c then match cur with [] => words_from [] t | _ => rev cur :: words_from [] t end
              else words_from (c :: cur) t
  end.
Definition words (s : str) : list str := words_from [] s.

(** what reaches C2A: CCP_register_rtc / CCP_register_tlc *)
Inductive sent : Type :=
| RealTime (id : Z) (params : list Z)
| TimeLine (ti id : Z) (params : list Z).

(** the parts of the environment: byte images of floats, std::stod, CSP_MAX_LEN *)
Record env : Type := mkEnv {
  stof_bytes : str -> outcome (list Z); stod_bytes : str -> outcome (list Z);
  stod : str -> outcome R; csp_max_len : nat }.

(** wings_command_sender_to_c2a.cpp:112-119; [param] is the array, [len] is param_len *)
Fixpoint encode_args (e : env) (c : command) (arg_num : nat) (args : list str) (param : list Z) (len : nat)
  : outcome (list Z * nat) :=
  match args with
  | [] => Ok (param, len)
  | a :: r =>
    let! (rest, n) := decode_argument (stof_bytes e) (stod_bytes e) (argument_type c arg_num) a (skipn len param) 0 in
    encode_args e c (S arg_num) r (firstn len param ++ rest) (Z.to_nat (Z.of_nat (len + n) mod 2 ^ 16))
  end.

(** wings_command_sender_to_c2a.cpp:74-134; [unset] are the values the array param happens to have *)
Definition analyze (e : env) (db : cmap) (unset : list Z) (tokens : list str) : outcome (list sent) :=
  let! t0 := at_ tokens 0 in
  match find (lit "_") t0 with
  | None => Ok []
  | Some u =>
    let dot := find (lit ".") t0 in    (* line 80 tests first_underscore_position again *)
    let command_type := match dot with
                        | Some d => if (d <? S u)%nat then skipn (S u) t0 (* the count wraps to a huge size_t *)
                                    else firstn (d - S u) (skipn (S u) t0)
                        | None => skipn (S u) t0 end in
    let command_name := match dot with Some d => skipn (S d) t0 | None => t0 (* npos + 1 = 0 *) end in
    let c := command_information db command_name in
    let arguments := tl tokens in
    if existsb (fun a => prefix (lit "{") a) arguments then Ok [] else
    let! (ti, arguments) :=
      (if str_eqb command_type (lit "TL") || str_eqb command_type (lit "BL") then
         let! a0 := at_ arguments 0 in let! v := stoi a0 in Ok (v mod 2 ^ 32, tl arguments)
       else Ok (0, arguments)) in
    let! (param, len) := encode_args e c 0 arguments unset 0 in
    if str_eqb command_type (lit "RT") then Ok [RealTime (cid c) (firstn len param)]
    else if str_eqb command_type (lit "TL") then Ok [TimeLine ti (cid c) (firstn len param)]
    else Ok []
  end.

(** wings_command_sender_to_c2a.cpp:47-72; result: the new wait_s_ and what was sent *)
Definition execute_line (e : env) (db : cmap) (unset : list Z) (line : str) : outcome (R * list sent) :=
  let tokens := words line in
  let! t0 := at_ tokens 0 in
  if prefix (lit "wait_sec") t0 then
    let! t1 := at_ tokens 1 in let! w := stod e t1 in Ok (w, [])
  else if prefix (lit "check_value") t0 then Ok (0%R, [])
  else if prefix (lit "let") t0 then Ok (0%R, [])
  else let! out := analyze e db unset tokens in Ok (0%R, out).

(** wings_command_sender_to_c2a.hpp:42-49 *)
Record sender : Type := mkSender { sdb : cmap; ops : opsfile; enabled : bool; step_s : R; wait_s : R; at_end : bool }.
Definition sender_new (db : cmap) (o : opsfile) (en : bool) (step : R) : sender := mkSender db o en step 0%R false.

(** what one call of MainRoutine did *)
Inductive event : Type :=
| Idle
| Ran (line : str) (out : list sent).

(** wings_command_sender_to_c2a.cpp:31-45 *)
Definition main_routine (e : env) (unset : list Z) (s : sender) : outcome (sender * event) :=
  if negb (enabled s) then Ok (s, Idle) else
  if at_end s then Ok (s, Idle) else
  if rle (wait_s s) 0 then
    let (line, o) := latest_line (ops s) in
    if str_eqb line (lit "EOL") then Ok (mkSender (sdb s) o (enabled s) (step_s s) (wait_s s) true, Idle)
    else let! (w, out) := execute_line e (sdb s) unset line in
         Ok (mkSender (sdb s) o (enabled s) (step_s s) w (at_end s), Ran line out)
  else Ok (mkSender (sdb s) (ops s) (enabled s) (step_s s) (wait_s s - step_s s)%R (at_end s), Idle).

(** n calls *)
Fixpoint run (n : nat) (e : env) (unset : list Z) (s : sender) : outcome (sender * list event) :=
  match n with
  | O => Ok (s, [])
  | S m => let! (s', ev) := main_routine e unset s in
           let! (s'', evs) := run m e unset s' in Ok (s'', ev :: evs)
  end.

(** wings_command_sender_to_c2a.cpp:143-146 *)
Definition init_step (prescaler : Z) (compo_step : R) : Z * R :=
  let p := if prescaler <=? 1 then 1 else prescaler in (p, IZR p * compo_step)%R.
