(** C137, C138: ANTEX 1.4 files as the format describes them, and grids. *)
From Coq Require Import Reals Ascii String List Bool Arith ZArith.
From Verif Require Import Base StringModel AntexModel.
Import ListNotations.
Open Scope nat_scope.
Open Scope string_scope.

(** ** Grids: points start, start + step, ... not beyond the end *)
Definition grid_points (zs ze step : R) (n : Z) : Prop :=
  (step <= 0 /\ n = 0%Z \/ 0 < step /\ (1 <= n)%Z /\ zs + IZR (n - 1) * step <= ze < zs + IZR n * step)%R.
Definition nearest (zs step : R) (n i : Z) (x : R) : Prop :=
  (0 <= i < n)%Z /\ forall j, (0 <= j < n)%Z -> (Rabs (x - (zs + IZR i * step)) <= Rabs (x - (zs + IZR j * step)))%R.

(** ** Lines: 60 columns and a label *)
Definition words : list string :=
  ["COMMENT"; "START OF ANTENNA"; "TYPE / SERIAL NO"; "END OF ANTENNA"; "ZEN1 / ZEN2 / DZEN"; "# OF FREQUENCIES"; "VALID FROM"; "VALID UNTIL";
   "START OF FREQUENCY"; "END OF FREQUENCY"; "NORTH / EAST / UP"].
(** the text w stands in column 60 and nowhere before *)
Definition labelled (w line : string) : Prop :=
  substring 60 (String.length w) line = w /\ forall p, p < 60 -> substring p (String.length w) line <> w.
(** no w anywhere *)
Definition without (w line : string) : Prop := forall p, substring p (String.length w) line <> w.
Definition good_line (content w rest : string) : Prop := String.length content = 60 /\ forall p, p < 60 -> substring p (String.length w) (content ++ w ++ rest) <> w.

(** ** Blocks of a frequency *)
Inductive fitem : Type :=
| Offset (content rest : string)
| Variation (cells : list string) (rest : string)
| FLine (line : string).
Definition fitem_text (i : fitem) : string :=
  match i with
  | Offset c r => c ++ "NORTH / EAST / UP" ++ r
  | Variation cells r => "   NOAZI" ++ String.concat "" cells ++ r
  | FLine l => l
  end.
Definition fitem_ok (i : fitem) : Prop :=
  match i with
  | Offset c r => good_line c "NORTH / EAST / UP" r /\ without "NOAZI" (fitem_text i)
  | Variation cells r => Forall (fun c => String.length c = 8) cells /\ ~ labelled "END OF FREQUENCY" (fitem_text i) /\ ~ labelled "NORTH / EAST / UP" (fitem_text i)
  | FLine l => ~ labelled "END OF FREQUENCY" l /\ ~ labelled "NORTH / EAST / UP" l /\ without "NOAZI" l
  end.
Record freq : Type := mkFreq { fr_start : string * string; fr_items : list fitem; fr_before : string; fr_name : string; fr_after : string; fr_rest : string }.
Definition freq_ok (f : freq) : Prop :=
  good_line (fst (fr_start f)) "START OF FREQUENCY" (snd (fr_start f)) /\ Forall fitem_ok (fr_items f) /\
  String.length (fr_before f) = 3 /\ String.length (fr_name f) = 3 /\ good_line (fr_before f ++ fr_name f ++ fr_after f) "END OF FREQUENCY" (fr_rest f).
Definition freq_lines (f : freq) : list string :=
  (fst (fr_start f) ++ "START OF FREQUENCY" ++ snd (fr_start f)) :: (map fitem_text (fr_items f) ++ [((fr_before f ++ fr_name f ++ fr_after f) ++ "END OF FREQUENCY" ++ fr_rest f)%string])%list.

(** ** Blocks of a satellite *)
Inductive sitem : Type :=
| Zenith (content rest : string)
| Count (content rest : string)
| From (content rest : string)
| Until (content rest : string)
| Frequency (f : freq)
| SLine (line : string).
Definition sitem_ok (i : sitem) : Prop :=
  match i with
  | Zenith c r => good_line c "ZEN1 / ZEN2 / DZEN" r
  | Count c r => good_line c "# OF FREQUENCIES" r
  | From c r => good_line c "VALID FROM" r
  | Until c r => good_line c "VALID UNTIL" r
  | Frequency f => freq_ok f
  | SLine l => forall w, In w ["END OF ANTENNA"; "ZEN1 / ZEN2 / DZEN"; "# OF FREQUENCIES"; "VALID FROM"; "VALID UNTIL"; "START OF FREQUENCY"] -> ~ labelled w l
  end.
Definition sitem_lines (i : sitem) : list string :=
  match i with
  | Zenith c r => [c ++ "ZEN1 / ZEN2 / DZEN" ++ r]
  | Count c r => [c ++ "# OF FREQUENCIES" ++ r]
  | From c r => [c ++ "VALID FROM" ++ r]
  | Until c r => [c ++ "VALID UNTIL" ++ r]
  | Frequency f => freq_lines f
  | SLine l => [l]
  end.

(** ** Files *)
(** the systems and the index of their first satellite *)
Definition first_index : list (Ascii.ascii * Z) := [("G"%char, 0); ("R"%char, 32); ("E"%char, 58); ("C"%char, 86); ("J"%char, 148); ("I"%char, 153)]%Z.
Definition digit (d : nat) : string := String (Ascii.ascii_of_nat (48 + d)) "".
(** satellite d e of a system, in 20 columns *)
Definition serial_text (system : Ascii.ascii) (d e : nat) : string := String system (digit d ++ digit e ++ "                 ").
Inductive piece : Type :=
| Plain (line : string)      (* any line that does not begin an antenna *)
| Receiver (start : string * string) (before : list string) (ty serial more rest : string)
| Satellite (start : string * string) (before : list string) (ty : string) (system : Ascii.ascii) (d e : nat) (more rest : string)
    (items : list sitem) (finish : string * string).
Definition head_ok (start : string * string) (before : list string) (ty serial more rest : string) : Prop :=
  good_line (fst start) "START OF ANTENNA" (snd start) /\
  Forall (fun l => ~ labelled "TYPE / SERIAL NO" l) before /\
  String.length ty = 20 /\ String.length serial = 20 /\ good_line (ty ++ serial ++ more) "TYPE / SERIAL NO" rest.
Definition piece_ok (p : piece) : Prop :=
  match p with
  | Plain l => ~ labelled "START OF ANTENNA" l
  | Receiver st b ty serial more r => head_ok st b ty serial more r /\ forall c t, serial = String c t -> ~ In c (map fst first_index)
  | Satellite st b ty sys d e more r items fin =>
      In sys (map fst first_index) /\ d < 10 /\ e < 10 /\ head_ok st b ty (serial_text sys d e) more r /\ Forall sitem_ok items /\ good_line (fst fin) "END OF ANTENNA" (snd fin)
  end.
Definition head_lines (start : string * string) (before : list string) (ty serial more rest : string) : list string :=
  (fst start ++ "START OF ANTENNA" ++ snd start) :: (before ++ [((ty ++ serial ++ more) ++ "TYPE / SERIAL NO" ++ rest)%string])%list.
Definition piece_lines (p : piece) : list string :=
  match p with
  | Plain l => [l]
  | Receiver st b ty serial more r => head_lines st b ty serial more r
  | Satellite st b ty sys d e more r items fin =>
      (head_lines st b ty (serial_text sys d e) more r ++ flat_map sitem_lines items ++ [(fst fin ++ "END OF ANTENNA" ++ snd fin)%string])%list
  end.

(** ** What must be kept of them *)
Definition last_of {A} (l : list A) : option A := hd_error (rev l).
Section meaning.
Context (stod : string -> option R) (scan : string -> list R) (scan_date : string -> option date).
Definition offsets (items : list fitem) : list string := flat_map (fun i => match i with Offset _ _ => [fitem_text i] | _ => [] end) items.
Definition variations (items : list fitem) : list (list string) := flat_map (fun i => match i with Variation cells _ => [cells] | _ => [] end) items.
(** the numbers at the start of a text, zero for those missing *)
Definition three (t : string) : R * R * R := (nth 0 (scan t) 0%R, nth 1 (scan t) 0%R, nth 2 (scan t) 0%R).
(** a frequency with a grid of n zenith points can be read: every variation line has n readable numbers *)
Definition freq_readable (n : Z) (f : freq) : Prop :=
  forall cells, In cells (variations (fr_items f)) -> (n <= Z.of_nat (List.length cells))%Z /\ Forall (fun t => stod t <> None) (firstn (Z.to_nat n) cells).
(** its offset is that of the last offset line, its variation that of the last line without azimuth *)
Definition freq_reads (g : grid) (f : freq) (p : phase) : Prop :=
  ph_name p = fr_name f /\ ph_grid p = g /\
  ph_offset p = match last_of (offsets (fr_items f)) with Some t => three t | None => (0, 0, 0)%R end /\
  match last_of (variations (fr_items f)) with
  | Some cells => exists r, ph_variation p = [r] /\ map stod (firstn (Z.to_nat (g_zenith g)) cells) = map Some r
  | None => ph_variation p = []
  end.
(** the frequencies of a satellite, each with the last grid line before it *)
Fixpoint frequencies (z : option string) (items : list sitem) : list (option string * freq) :=
  match items with
  | [] => []
  | Zenith c _ :: l => frequencies (Some c) l
  | Frequency f :: l => (z, f) :: frequencies z l
  | _ :: l => frequencies z l
  end.
(** the last grid line, or [z] *)
Fixpoint zenith_after (z : option string) (items : list sitem) : option string :=
  match items with [] => z | Zenith c _ :: l => zenith_after (Some c) l | _ :: l => zenith_after z l end.
Definition contents (k : nat) (items : list sitem) : list string :=
  flat_map (fun i => match i, k with Count c _, 0 => [c] | From c _, 1 => [c] | Until c _, 2 => [c] | _, _ => [] end) items.
(** the grid of a grid line; 0 to 90 by 10 when there is none.  Azimuth is not read. *)
Definition grid_is (z : option string) (g : grid) : Prop :=
  exists a b c, (match z with Some t => scan t = [a; b; c] | None => a = 0 /\ b = 90 /\ c = 10 end)%R /\
    g_start g = a /\ g_end g = b /\ g_step g = c /\ grid_points a b c (g_zenith g) /\ g_azstep g = 0%R /\ g_azimuth g = 0%Z.
Definition zenith_readable (t : string) : Prop :=
  exists a b c, (scan t = [a; b; c] /\ (c <= 0 \/ a <= b /\ b - a < c * IZR (2 ^ 64 - 1)))%R.
Definition item_readable (i : sitem) : Prop :=
  match i with
  | Zenith c _ => zenith_readable c
  | Count c _ => exists n, stoi (list_ascii_of_string (substring 0 20 c)) = Ok n
  | From c _ | Until c _ => scan_date (substring 0 59 c) <> None
  | _ => True
  end.
Definition satellite_readable (items : list sitem) : Prop :=
  Forall item_readable items /\ forall z f g, In (z, f) (frequencies None items) -> grid_is z g -> freq_readable (g_zenith g) f.
Definition satellite_reads (ty serial : string) (items : list sitem) (s : satellite) : Prop :=
  sa_type s = ty /\ sa_serial s = serial /\
  sa_from s = match last_of (contents 1 items) with Some c => scan_date (substring 0 59 c) | None => None end /\
  sa_until s = match last_of (contents 2 items) with Some c => scan_date (substring 0 59 c) | None => None end /\
  match last_of (contents 0 items) with
  | Some c => exists n, stoi (list_ascii_of_string (substring 0 20 c)) = Ok n /\ sa_frequencies s = (n mod 2 ^ 64)%Z
  | None => sa_frequencies s = 1%Z
  end /\
  Forall2 (fun zf p => exists g, grid_is (fst zf) g /\ freq_reads g (snd zf) p) (frequencies None items) (sa_phases s).
(** the satellites of a file with their indices *)
Definition satellites (ps : list piece) : list (Z * (string * string * list sitem)) :=
  flat_map (fun p => match p with
    | Satellite _ _ ty sys d e _ _ items _ =>
        match List.find (fun x => Ascii.eqb (fst x) sys) first_index with
        | Some (_, b) => [((b + Z.of_nat (10 * d + e) - 1) mod 2 ^ 64, (ty, serial_text sys d e, items))%Z]
        | None => []
        end
    | _ => [] end) ps.
End meaning.
