(** SP3 files as lines of text, the fields of a line by their columns, and what reading such a file has to give. *)
From Coq Require Import String Reals List Bool Arith ZArith Ascii.
From Verif Require Import Base StringModel GnssSatModel GnssSatSpec Sp3Model.
Import ListNotations.
Open Scope nat_scope.

(** the [len] characters of a line from column [pos] on (columns count from 0; fewer when the line is shorter) *)
Definition field (l : str) (pos len : nat) : str := firstn len (skipn pos l).
Definition starts (p : string) (l : str) : Prop := exists r, l = lit p ++ r.
Definition number (L : lib) (s : str) (r : R) : Prop := l_stod L s = Val r.
Definition numeric (L : lib) (s : str) : Prop := exists r, number L s r.
Definition integral (s : str) : Prop := exists z, stoi s = Ok z.
(** a standard deviation field: a number, or blank *)
Definition deviation (L : lib) (s : str) (r : R) : Prop := number L s r \/ (l_stod L s = Invalid /\ r = 0%R).
(** what a position and clock line says *)
Definition says (L : lib) (l : str) (e : entry) : Prop :=
  exists x y z c, en_pc e = ((x, y, z), c) /\ en_id e = field l 1 3 /\ 46 <= length l /\
  number L (field l 4 14) x /\ number L (field l 18 14) y /\ number L (field l 32 14) z /\ number L (field l 46 14) c /\
  ((length l <= 61 /\ en_sd e = [0%R; 0%R; 0%R; 0%R]) \/
   (70 <= length l /\ exists sx sy sz sc, en_sd e = [sx; sy; sz; sc] /\ deviation L (field l 61 2) sx /\ deviation L (field l 64 2) sy /\
    deviation L (field l 67 2) sz /\ deviation L (field l 70 3) sc)) /\
  ((length l <= 73 /\ en_flags e = [false; false; false; false]) \/
   (79 <= length l /\ exists a b c d, en_flags e = [a; b; c; d] /\
    (a = true <-> nth_error l 74 = Some "E"%char) /\ (b = true <-> nth_error l 75 = Some "P"%char) /\
    (c = true <-> nth_error l 78 = Some "M"%char) /\ (d = true <-> nth_error l 79 = Some "P"%char))).
(** an optional correlation line: ten integers *)
Definition correlation_fields : list (nat * nat) := [(4, 4); (9, 4); (14, 4); (19, 7); (27, 8); (36, 8); (45, 8); (54, 8); (63, 8); (72, 8)].
Definition correlation (l : str) : Prop := starts "EP" l /\ 72 <= length l /\ Forall (fun f => integral (field l (fst f) (snd f))) correlation_fields.

(** ** the lines of a file *)
Record block : Type := mkBlock { b_epoch : str; b_sats : list (str * option str) }.
Record sp3text : Type := mkText
  { x_first : str; x_second : str; x_ids : list str; x_acc : list str; x_c1 : str; x_c2 : str; x_f1 : str; x_f2 : str; x_i1 : str; x_i2 : str;
    x_comments : list str; x_blocks : list block; x_tail : str }.
Definition sat_lines (p : str * option str) : list str := fst p :: match snd p with Some e => [e] | None => [] end.
Definition block_lines (b : block) : list str := b_epoch b :: flat_map sat_lines (b_sats b).
Definition header_lines (t : sp3text) : list str :=
  x_first t :: x_second t :: x_ids t ++ x_acc t ++ [x_c1 t; x_c2 t; x_f1 t; x_f2 t; x_i1 t; x_i2 t] ++ x_comments t.
(** every line ends with a newline *)
Definition text_of (ls : list str) : str := flat_map (fun l => l ++ [nl]) ls.
Definition file (t : sp3text) : str := text_of (header_lines t) ++ text_of (flat_map block_lines (x_blocks t)) ++ x_tail t.

(** the 17 items of a satellite id or accuracy line *)
Definition items (l : str) : list str := map (fun i => field l (9 + 3 * i) 3) (seq 0 17).
Definition plain (l : str) : Prop := ~ In nl l.
Definition good_header (L : lib) (t : sp3text) (n : nat) : Prop :=
  Forall plain (header_lines t) /\
  56 <= length (x_first t) /\ (exists d, l_date L (field (x_first t) 3 28) = Some d) /\
  stoi (field (x_first t) 32 7) = Ok (Z.of_nat (length (x_blocks t))) /\
  starts "##" (x_second t) /\ 45 <= length (x_second t) /\ integral (field (x_second t) 3 4) /\ numeric L (field (x_second t) 8 15) /\
  numeric L (field (x_second t) 24 14) /\ integral (field (x_second t) 39 5) /\ numeric L (field (x_second t) 45 15) /\
  x_ids t <> [] /\ Forall (fun l => starts "+ " l /\ 60 <= length l) (x_ids t) /\ stoi (field (hd [] (x_ids t)) 3 3) = Ok (Z.of_nat n) /\
  n <= 17 * length (x_ids t) /\
  x_acc t <> [] /\ Forall (fun l => starts "++" l /\ 60 <= length l) (x_acc t) /\ n <= 17 * length (x_acc t) /\
  Forall integral (firstn n (flat_map items (x_acc t))) /\
  starts "%c" (x_c1 t) /\ 9 <= length (x_c1 t) /\ starts "%c" (x_c2 t) /\
  starts "%f" (x_f1 t) /\ 14 <= length (x_f1 t) /\ numeric L (field (x_f1 t) 3 10) /\ numeric L (field (x_f1 t) 14 12) /\ starts "%f" (x_f2 t) /\
  starts "%i" (x_i1 t) /\ starts "%i" (x_i2 t) /\ Forall (starts "/*") (x_comments t).
Definition good_epoch (L : lib) (l : str) : Prop := plain l /\ starts "* " l /\ 3 <= length l /\ exists d, l_date L (field l 3 28) = Some d.
Definition good_sat (L : lib) (p : str * option str) : Prop :=
  Forall plain (sat_lines p) /\ starts "P" (fst p) /\ (exists e, says L (fst p) e) /\ (forall c, snd p = Some c -> correlation c).
Definition good_block (L : lib) (n : nat) (b : block) : Prop := good_epoch L (b_epoch b) /\ length (b_sats b) = n /\ Forall (good_sat L) (b_sats b).
(** a complete position file of n satellites *)
Definition position_file (L : lib) (t : sp3text) (n : nat) : Prop :=
  good_header L t n /\ nth_error (x_first t) 2 = Some "P"%char /\ 2 <= length (x_blocks t) /\ Forall (good_block L n) (x_blocks t) /\ ~ starts "EP" (x_tail t).

(** the header that was read *)
Definition header_read (L : lib) (t : sp3text) (n : nat) (h : header) : Prop :=
  l_date L (field (x_first t) 3 28) = Some (h_start h) /\ h_nepoch h = length (x_blocks t) /\ number L (field (x_second t) 24 14) (h_interval h) /\
  h_nsat h = n /\ h_ids h = firstn n (flat_map items (x_ids t)) /\
  Forall2 (fun s a => exists z, stoi s = Ok z /\ a = (z mod 256)%Z) (firstn n (flat_map items (x_acc t))) (h_acc h).
(** the epochs and, for each satellite, its entry at each epoch *)
Definition data_read (L : lib) (bs : list block) (n : nat) (ep : list R) (data : list (list entry)) : Prop :=
  Forall2 (fun b e => l_date L (field (b_epoch b) 3 28) = Some e) bs ep /\
  forall sat, sat < n -> Forall2 (fun b e => exists l c, nth_error (b_sats b) sat = Some (l, c) /\ says L l e) bs (nth sat data []).
(** the file was read as the text t of n satellites, and is usable by the GNSS satellites *)
Definition read_as (L : lib) (t : sp3text) (n : nat) (r : reader) : Prop :=
  rd_ok r = true /\ header_read L t n (rd_header r) /\ data_read L (x_blocks t) n (rd_epochs r) (rd_data r) /\ length (rd_data r) = Nat.max 2 n /\
  complete n (sp3_of r).
