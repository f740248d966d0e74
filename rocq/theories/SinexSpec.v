(** C136: Bias-SINEX files as the format describes them (SINEX_BIAS 1.00: columns of a BIAS/SOLUTION line). *)
From Coq Require Import Reals String List Bool Arith.
From Verif Require Import Base SinexModel.
Import ListNotations.
Open Scope string_scope.

(** a line: BIAS SVN PRN STATION OBS1 OBS2 START END UNIT VALUE STD (and SLOPE STD), each after one blank *)
Record fields : Type := mkFields {
  f_bias : string; f_svn : string; f_prn : string; f_station : string; f_obs1 : string; f_obs2 : string;
  f_start : string; f_end : string; f_unit : string; f_value : string; f_sd : string;
  f_slope : option (string * string) }.
Definition widths_ok (f : fields) : Prop :=
  String.length (f_bias f) = 4 /\ String.length (f_svn f) = 4 /\ String.length (f_prn f) = 3 /\ String.length (f_station f) = 9 /\ String.length (f_obs1 f) = 4 /\ String.length (f_obs2 f) = 4 /\
  String.length (f_start f) = 14 /\ String.length (f_end f) = 14 /\ String.length (f_unit f) = 4 /\ String.length (f_value f) = 21 /\ String.length (f_sd f) = 11 /\
  (forall s d, f_slope f = Some (s, d) -> String.length s = 21 /\ String.length d = 11).
Definition row_text (f : fields) : string :=
  " " ++ f_bias f ++ " " ++ f_svn f ++ " " ++ f_prn f ++ " " ++ f_station f ++ " " ++ f_obs1 f ++ " " ++ f_obs2 f ++ " " ++ f_start f ++ " " ++ f_end f ++ " " ++
  f_unit f ++ " " ++ f_value f ++ " " ++ f_sd f ++ match f_slope f with Some (s, d) => " " ++ s ++ " " ++ d | None => "" end.

(** the words of the format *)
Definition identifiers : list (string * identifier) := [("DSB ", KDsb); ("ISB ", KIsb); ("OSB ", KOsb)].
Definition units : list (string * bias_unit) := [("ns  ", KNs); ("cyc ", KCycle)].
Definition signals : list (string * string * signal) := [("C1W ", "C2W ", KP1P2); ("C1P ", "C2P ", KP1P2); ("C1P ", "C1C ", KP1C1); ("C2P ", "C2C ", KP2C2)].

(** a file: pieces *)
Inductive item : Type := Row (f : fields) | Remark (text : string).
Definition item_text (i : item) : string := match i with Row f => row_text f | Remark t => "*" ++ t end.
Definition skipped : list string := ["FILE/REFERENCE"; "FILE/COMMENT"; "INPUT/ACKNOWLEDGMENTS"; "BIAS/DESCRIPTION"; "BIAS/RECEIVER_INFORMATION"].
Inductive piece : Type :=
| Comment (text : string)              (* a comment line *)
| Header (text : string)               (* %=BIA ... *)
| Other (line : string)                (* any line that is neither a comment, nor a header or footer, nor begins a section *)
| Section_ (name : string) (body : list string)   (* a section without data *)
| Data (items : list item).            (* BIAS/SOLUTION *)
Definition piece_ok (p : piece) : Prop :=
  match p with
  | Comment _ => True
  | Header t => starts "%=ENDBIA" ("%=BIA" ++ t) = false
  | Other l => forall w, In w (["*"; "%=ENDBIA"; "%=BIA"; "+BIAS/SOLUTION"] ++ map (append "+") skipped)%list -> starts w l = false
  | Section_ n body => In n skipped /\ Forall (fun l => starts ("-" ++ n) l = false) body
  | Data items => Forall (fun i => match i with Row f => widths_ok f | Remark _ => True end) items
  end.
Definition lines_of (p : piece) : list string :=
  match p with
  | Comment t => ["*" ++ t]
  | Header t => ["%=BIA" ++ t]
  | Other l => [l]
  | Section_ n body => ("+" ++ n) :: (body ++ [("-" ++ n)%string])%list
  | Data items => "+BIAS/SOLUTION" :: (map item_text items ++ ["-BIAS/SOLUTION"])%list
  end.
Definition rows_of (p : piece) : list fields :=
  match p with Data items => flat_map (fun i => match i with Row f => [f] | Remark _ => [] end) items | _ => [] end.
Definition file_rows (ps : list piece) : list fields := flat_map rows_of ps.

(** the text of a number may be followed by a blank *)
Definition blank_ok (stod : string -> option R) : Prop := forall s, stod (s ++ " ") = stod s.
(** a row whose numbers can be read *)
Definition readable (stod : string -> option R) (f : fields) : Prop :=
  stod (f_value f) <> None /\ stod (f_sd f) <> None /\ forall c s d, f_slope f = Some (String c s, d) -> stod (s ++ " ") <> None.
(** what a row without slope must yield: every datum is the text of its columns *)
Definition reads_as (stod : string -> option R) (f : fields) (s : solution) : Prop :=
  so_id s = to_identifier (f_bias f) /\ so_svn s = f_svn f /\ so_station s = f_station f /\ so_signal s = to_signal (f_obs1 f) (f_obs2 f) /\
  so_unit s = to_unit (f_unit f) /\ stod (f_value f) = Some (so_bias s) /\ stod (f_sd f) = Some (so_sd s) /\
  (f_slope f = None -> so_slope s = 0%R /\ so_slope_sd s = 0%R).
