(** C37, C38, C45, C52: command arguments, operation files, settings files, command database. *)
From Coq Require Import List ZArith Bool Ascii String Lia.
From Verif Require Import Base StringModel SettingModel SettingSpec SettingProofs.
Import ListNotations.
Open Scope Z_scope.

(** * C37 *)

(** a number in the range of its type is stored in exactly its width, most significant byte first,
    two's complement; the memory behind it is untouched *)
Theorem C37_integer_argument : forall fl db t w signed v param size,
  integer_type t = Some (w, signed) -> (w <= List.length param)%nat -> in_range w signed v ->
  exists bs, decode_argument fl db t (to_string v) param size = Ok (bs ++ skipn w param, w) /\
    List.length bs = w /\ Forall is_byte bs /\
    (if signed then twos_complement w (big_endian bs) else big_endian bs) = v.
Proof. exact decode_in_range. Qed.
Print Assumptions C37_integer_argument.

(** any other text: an exception exactly when std::stoul / stoi / stol throws, otherwise the parsed
    number modulo 2^(8 w); for unsigned types a negative number has already wrapped modulo 2^64 *)
Theorem C37_any_text : forall fl db t w signed s param size,
  integer_type t = Some (w, signed) -> (w <= List.length param)%nat ->
  let parsed := if signed then (if Nat.eqb w 8 then stol s else stoi s) else stoul 10 s in
  match parsed with
  | Ok v => exists bs, decode_argument fl db t s param size = Ok (bs ++ skipn w param, w) /\
              List.length bs = w /\ Forall is_byte bs /\ big_endian bs = v mod 2 ^ (8 * Z.of_nat w)
  | _ => decode_argument fl db t s param size = Throw
  end.
Proof.
  intros fl db t w sg s param size I L. cbv zeta. rewrite (decode_integer fl db t w sg s param size I L).
  assert (P : parse t s = if sg then (if Nat.eqb w 8 then stol s else stoi s) else stoul 10 s)
    by (destruct t; cbn in I; try discriminate; injection I as <- <-; reflexivity).
  rewrite <- P.
  assert (NU : parse t s <> UB /\ parse t s <> Hang).
  { unfold parse, stoi, stol, stoul. destruct t; destruct (strto 10 s) as [[n m]|]; cbv zeta;
      repeat (match goal with |- context [if ?b then _ else _] => destruct b; cbn [bind] end; try (split; discriminate));
      cbn [bind]; split; discriminate. }
  destruct (parse t s) as [v| | |]; cbn [bind]; try reflexivity; [|now destruct NU|now destruct NU].
  exists (rev (le_bytes w v)). pose proof (bytes_mod w v) as B. cbv zeta in B. tauto.
Qed.
Print Assumptions C37_any_text.

(** refuted: numbers outside the range of the type are rejected *)
Theorem C37_out_of_range_rejected_refuted : forall fl db,
  decode_argument fl db kUint8t (to_string 256) [7] 0 = Ok ([0], 1%nat) /\
  decode_argument fl db kUint8t (to_string (-1)) [7] 0 = Ok ([255], 1%nat) /\
  decode_argument fl db kInt16t (to_string 40000) [7; 7] 0 = decode_argument fl db kInt16t (to_string (-25536)) [7; 7] 0.
Proof. intros fl db. repeat split; reflexivity. Qed.
Print Assumptions C37_out_of_range_rejected_refuted.

(** raw and unknown argument types write nothing and leave the size as it was *)
Theorem C37_raw_writes_nothing : forall fl db t s param size, t = kRaw \/ t = kError ->
  decode_argument fl db t s param size = Ok (param, size).
Proof. intros fl db t s param size [->| ->]; reflexivity. Qed.
Print Assumptions C37_raw_writes_nothing.

(** * C38 *)

(** GetLatestLine called n times: the kept lines in file order, then "EOL" forever *)
Theorem C38_lines_then_EOL : forall file n, exists cs,
  Forall2 cleaned (getlines nl file) cs /\
  read_lines n (ops_new file) = firstn n (filter (fun c => (2 <? List.length c)%nat) cs ++ repeat (lit "EOL") n).
Proof.
  intros file n. exists (map clean_line (getlines nl file)). split; [|apply read_lines_new].
  induction (getlines nl file) as [|l ls IH]; constructor; [apply clean_line_cleaned|exact IH].
Qed.
Print Assumptions C38_lines_then_EOL.

(** what remains of a line is determined by the description *)
Theorem C38_cleaning_unambiguous : forall line c1 c2, cleaned line c1 -> cleaned line c2 -> c1 = c2.
Proof. exact cleaned_unique. Qed.
Print Assumptions C38_cleaning_unambiguous.

(** refuted: a result "EOL" means that the file is exhausted *)
Theorem C38_EOL_means_end_refuted : exists file,
  read_lines 2 (ops_new file) = [lit "EOL"; lit "OBC_RT.NOP"].
Proof. exists (lit "EOL" ++ [nl] ++ lit "OBC_RT.NOP"). reflexivity. Qed.
Print Assumptions C38_EOL_means_end_refuted.

(** * C45 *)

(** ReadStrVector ends for every file with fewer than 2^32 entries and returns the values of
    key(0) ... key(n-1), where key(n) is the first that reads as NULL *)
Theorem C45_str_vector : forall d s key, Z.of_nat (List.length s) < 2 ^ 32 ->
  exists values, (forall fuel, (List.length s < fuel)%nat -> read_str_vector fuel d s key = Ok values) /\
    (forall i v, nth_error values i = Some v ->
       v = read_string d s (indexed key (Z.of_nat i)) /\ v <> lit "NULL") /\
    read_string d s (indexed key (Z.of_nat (List.length values))) = lit "NULL".
Proof.
  intros d s key B. destruct (read_str_vector_ok d s key B) as (n & H1 & H2 & H3 & H4).
  exists (value_list d s key 0 n). split; [exact H4|]. split.
  - intros i v E. assert (Li : (i < n)%nat).
    { rewrite <- (value_list_length d s key n 0). apply nth_error_Some. congruence. }
    rewrite value_list_nth in E by exact Li. rewrite Z.add_0_l in E. injection E as <-. split; [reflexivity|]. now apply H2.
  - now rewrite value_list_length.
Qed.
Print Assumptions C45_str_vector.

(** an absent key reads as NULL; so without literal NULL values the vector ends at the first gap *)
Theorem C45_absent_key : forall d s key, get s key = None -> read_string d s key = lit "NULL".
Proof. exact read_string_absent. Qed.
Print Assumptions C45_absent_key.
Theorem C45_indexed_keys_distinct : forall key i j, 0 <= i -> 0 <= j -> indexed key i = indexed key j -> i = j.
Proof. exact indexed_inj. Qed.
Print Assumptions C45_indexed_keys_distinct.

(** ReadString: a value without comment and macros is returned as it is *)
Theorem C45_plain_value : forall d s key v, get s key = Some v -> free_of (lit "//") v ->
  free_of (lit "SETTINGS_DIR_FROM_EXE") v -> free_of (lit "EXT_LIB_DIR_FROM_EXE") v -> free_of (lit "CORE_DIR_FROM_EXE") v ->
  read_string d s key = v.
Proof.
  intros d s key v G F1 F2 F3 F4. unfold read_string. rewrite G, strip_free by exact F1.
  rewrite (replace_free _ _ _ F2), (replace_free _ _ _ F3). exact (replace_free _ _ _ F4).
Qed.
Print Assumptions C45_plain_value.
(** a comment on the line is removed with the blanks before it *)
Theorem C45_inline_comment : forall d s key v blanks comment,
  get s key = Some (v ++ blanks ++ lit "//" ++ comment) ->
  (forall c, In c blanks -> is_space c = true) -> (forall c, In c comment -> c <> "010"%char /\ c <> "013"%char) ->
  (v = [] \/ is_space (last v " "%char) = false) -> free_of (lit "//") (v ++ lit "/") ->
  free_of (lit "SETTINGS_DIR_FROM_EXE") v -> free_of (lit "EXT_LIB_DIR_FROM_EXE") v -> free_of (lit "CORE_DIR_FROM_EXE") v ->
  read_string d s key = v.
Proof.
  intros d s key v b t G B T0 L F1 F2 F3 F4. assert (T : forall c, In c t -> is_eol c = false).
  { intros c Hc. destruct (T0 c Hc) as (N1 & N2). destruct (is_eol c) eqn:E; [|reflexivity]. exfalso. unfold is_eol in E. apply orb_true_iff in E.
    destruct E as [E|E]; apply Z.eqb_eq in E; unfold code in E; [apply N1|apply N2]; rewrite <- (ascii_nat_embedding c), <- (Nat2Z.id (nat_of_ascii c)), E; reflexivity. }
  unfold read_string. rewrite G, strip_comment_spec by assumption.
  rewrite (replace_free _ _ _ F2), (replace_free _ _ _ F3). exact (replace_free _ _ _ F4).
Qed.
Print Assumptions C45_inline_comment.
(** the settings directory macro is replaced *)
Theorem C45_settings_macro : forall d s key a b,
  get s key = Some (a ++ lit "SETTINGS_DIR_FROM_EXE" ++ b) ->
  let v := a ++ settings_dir d ++ b in
  free_of (lit "//") (a ++ lit "SETTINGS_DIR_FROM_EXE" ++ b) ->
  (forall i, (i < List.length a)%nat -> ~ occurs (lit "SETTINGS_DIR_FROM_EXE") (a ++ lit "SETTINGS_DIR_FROM_EXE" ++ b) i) ->
  free_of (lit "SETTINGS_DIR_FROM_EXE") b -> free_of (lit "EXT_LIB_DIR_FROM_EXE") v -> free_of (lit "CORE_DIR_FROM_EXE") v ->
  read_string d s key = v.
Proof.
  intros d s key a b G v F1 F2 F3 F4 F5. unfold read_string. rewrite G, strip_free by exact F1.
  rewrite (replace_at (lit "SETTINGS_DIR_FROM_EXE") _ a b) by (try discriminate; exact F2). rewrite (replace_free _ _ b) by exact F3.
  fold v. rewrite (replace_free _ _ _ F4). exact (replace_free _ _ _ F5).
Qed.
Print Assumptions C45_settings_macro.

(** refuted: every value survives (a URL or a doubled path separator is cut) *)
Theorem C45_value_with_slashes_refuted : forall d,
  read_string d [(lit "url", lit "http://example.org")] (lit "url") = lit "http:".
Proof. intros d. reflexivity. Qed.
Print Assumptions C45_value_with_slashes_refuted.

Theorem C45_enable : forall d s key,
  read_enable d s key = true <-> read_string d s key = lit "ENABLE" \/ read_string d s key = lit "1".
Proof.
  intros d s key. unfold read_enable. cbv zeta.
  destruct (str_eqb_spec (read_string d s key) (lit "ENABLE")) as [E|N]; [tauto|].
  destruct (str_eqb_spec (read_string d s key) (lit "1")) as [E|N2]; [tauto|]. split; [discriminate|tauto].
Qed.
Print Assumptions C45_enable.

(** ReadVectorInt / Double / String / UnsignedChar *)
Theorem C45_vectors : forall (A : Type) (rd : str -> A) key num,
  List.length (read_vector rd key num) = num /\
  forall i, (i < num)%nat -> nth_error (read_vector rd key num) i = Some (rd (indexed key (Z.of_nat i))).
Proof.
  intros A rd key num. split; [apply read_vector_from_length|]. intros i H. unfold read_vector.
  rewrite read_vector_from_nth by exact H. reflexivity.
Qed.
Print Assumptions C45_vectors.

(** Split: no field contains the delimiter, and joining the fields gives back the input, except
    that one delimiter at the very end leaves no trace *)
Theorem C45_split : forall (s : str) d,
  Forall (fun f => ~ In d f) (split s d) /\
  join d (split s d) = (match rev s with x :: r => if Ascii.eqb x d then rev r else s | [] => [] end).
Proof.
  intros s d. split; [apply getlines_no_delim|].
  pose proof (split_join d s) as J. destruct (rev s) as [|x r] eqn:E.
  - apply (f_equal (@rev _)) in E. rewrite rev_involutive in E. cbn in E. subst s. reflexivity.
  - apply (f_equal (@rev _)) in E. rewrite rev_involutive in E. cbn in E.
    assert (La : last s d = x) by (rewrite E; apply last_last).
    assert (NE : s <> []) by (rewrite E; now destruct (rev r)).
    assert (J' : join d (split s d) ++ (if Ascii.eqb x d then [d] else []) = s).
    { destruct s as [|c t]; [congruence|]. rewrite La in J. exact J. }
    destruct (Ascii.eqb_spec x d) as [Ex|N].
    + apply (app_inv_tail [d]). rewrite J', E, Ex. reflexivity.
    + now rewrite app_nil_r in J'.
Qed.
Print Assumptions C45_split.
Theorem C45_split_of_joined : forall d fs, Forall (fun f => ~ In d f) fs -> fs <> [] -> last fs [] <> [] ->
  split (join d fs) d = fs.
Proof. exact getlines_join. Qed.
Print Assumptions C45_split_of_joined.

(** CSV with header: row i, column j of the result is cell (row_header + i, column_header + j) *)
Theorem C45_csv_with_header : forall (A : Type) (stod : str -> outcome A) file rowh colh,
  read_csv_with_header stod file rowh colh =
  mapM (mapM stod) (map (skipn colh) (skipn rowh (read_csv_string file))).
Proof. exact @read_csv_with_header_spec. Qed.
Print Assumptions C45_csv_with_header.
Theorem C45_csv_cells : forall (A : Type) (stod : str -> outcome A) file rowh colh rows i j row x,
  read_csv_with_header stod file rowh colh = Ok rows ->
  nth_error rows i = Some row -> nth_error row j = Some x ->
  exists cells cell, nth_error (read_csv_string file) (rowh + i) = Some cells /\
    nth_error cells (colh + j) = Some cell /\ stod cell = Ok x.
Proof.
  intros A f file rowh colh rows i j row x E R X. rewrite read_csv_with_header_spec in E.
  apply mapM_ok in E.
  assert (G : forall (B C : Type) (P : B -> C -> Prop) l1 l2 k y, Forall2 P l1 l2 -> nth_error l2 k = Some y ->
    exists z, nth_error l1 k = Some z /\ P z y).
  { intros B C P l1 l2 k y F. revert k; induction F as [|b c l1 l2 H F IH]; intros k K; [now destruct k|].
    destruct k as [|k]; cbn in *; [injection K as <-; eauto|now apply IH]. }
  destruct (G _ _ _ _ _ _ _ E R) as (cs & C1 & C2). apply mapM_ok in C2.
  destruct (G _ _ _ _ _ _ _ C2 X) as (c & D1 & D2).
  rewrite nth_error_map in C1. rewrite nth_error_skipn in C1.
  destruct (nth_error (read_csv_string file) (rowh + i)) as [cells|] eqn:N; [|discriminate]. cbn in C1. injection C1 as <-.
  exists cells, c. rewrite nth_error_skipn in D1. auto.
Qed.
Print Assumptions C45_csv_cells.
Theorem C45_csv : forall (A : Type) (stod : str -> outcome A) file,
  read_csv stod file = mapM (mapM stod) (read_csv_string file).
Proof. intros A f file. unfold read_csv, read_csv_string. apply csv_rows_plain_spec. Qed.
Print Assumptions C45_csv.

(** * C52 *)

(** a line of the database: the second column is the name, the fourth the id, the fifth the
    number of arguments, the columns 6, 8, 10, ... their types *)
Theorem C52_command_line : forall fields name idtext id ntext n,
  Forall (fun f => ~ In ","%char f) fields -> last fields [] <> [] ->
  nth_error fields 0 = Some [] -> nth_error fields 1 = Some name -> name <> [] ->
  nth_error fields 3 = Some idtext -> stoul 0 idtext = Ok id ->
  nth_error fields 4 = Some ntext -> stoul 0 ntext = Ok (Z.of_nat n) ->
  (forall i, (i < n)%nat -> nth_error fields (5 + 2 * i) <> None) ->
  exists c, parse_command (join ","%char fields) = Ok c /\ cname c = name /\ cid c = id /\ List.length (ctypes c) = n /\
    (forall i f, (i < n)%nat -> nth_error fields (5 + 2 * i) = Some f -> argument_type c i = convert_type f) /\
    (forall i, (n <= i)%nat -> argument_type c i = kError).
Proof.
  intros fields name idtext id ntext n F L N0 N1 NN N3 I3 N4 I4 A.
  destruct fields as [|f0 [|f1 fields]]; try discriminate. injection N0 as ->.
  assert (P : prefix (lit ",") (join "," ([] :: f1 :: fields)) = true) by reflexivity.
  assert (G : getlines "," (join "," ([] :: f1 :: fields)) = [] :: f1 :: fields)
    by (apply getlines_join; [exact F|discriminate|exact L]).
  pose proof (parse_command_ok _ _ name id n P G N1 NN (ex_intro _ _ (conj N3 I3)) (ex_intro _ _ (conj N4 I4)) A) as E.
  eexists. split; [exact E|]. cbn [cname cid ctypes]. split; [reflexivity|]. split; [reflexivity|].
  split; [now rewrite map_length, seq_length|]. split.
  - intros i f Hi Ei. unfold argument_type. cbn [ctypes].
    rewrite (nth_indep _ kError (convert_type (nth (5 + 2 * 0) ([] :: f1 :: fields) [])))
      by (rewrite map_length, seq_length; exact Hi).
    rewrite (map_nth (fun j => convert_type (nth (5 + 2 * j) ([] :: f1 :: fields) []))).
    rewrite seq_nth by exact Hi. cbn [Nat.add]. f_equal. apply nth_error_nth with (d := []) in Ei. exact Ei.
  - intros i Hi. unfold argument_type. apply nth_overflow. cbn [ctypes]. rewrite map_length, seq_length. exact Hi.
Qed.
Print Assumptions C52_command_line.

(** comment lines and lines not starting with a comma define no command *)
Theorem C52_comment_lines : forall line, (forall t, line <> ","%char :: t) -> parse_command line = Ok error_command.
Proof.
  intros line N. unfold parse_command. destruct (prefix (lit "*") line); [reflexivity|].
  destruct (prefix (lit ",") line) eqn:P; [|reflexivity]. apply prefix_spec in P as (t & ->). now destruct (N t).
Qed.
Print Assumptions C52_comment_lines.

(** the database: the last line of the file with the name asked for; an unknown name (and the
    name "Error") gives the command "Error" with code 0 and no arguments *)
Theorem C52_database : forall file cs, mapM parse_command (getlines nl file) = Ok cs ->
  exists m, database file = Ok m /\
    (forall name, name <> lit "Error" ->
       command_information m name = match last_named cs name with Some c => c | None => error_command end) /\
    command_information m (lit "Error") = error_command.
Proof.
  intros file cs M. destruct (read_database_spec _ [] cs M) as (m & R & G). exists m. split; [exact R|]. split.
  - intros name N. unfold command_information. rewrite (G name N). now destruct (last_named cs name).
  - unfold command_information. rewrite (read_database_error_key _ [] m R eq_refl). reflexivity.
Qed.
Print Assumptions C52_database.

(** refuted: reading a malformed database is safe.  A line with fewer type columns than its
    argument count, and the line ",", read outside the token vector *)
Theorem C52_malformed_line_safe_refuted :
  parse_command (lit ",") = UB /\ parse_command (lit ",NOP,comment,0x1234,2,uint8_t,x") = UB.
Proof. split; reflexivity. Qed.
Print Assumptions C52_malformed_line_safe_refuted.

(** * examples *)
Example ex_decode : decode_argument (fun _ => Throw) (fun _ => Throw) kInt32t (lit "-2") [9; 9; 9; 9; 9] 0 = Ok ([255; 255; 255; 254; 9], 4%nat).
Proof. reflexivity. Qed.
Example ex_ops : read_lines 4 (ops_new (lit ".OBC_RT.A 1 # note" ++ [nl] ++ lit "# only a comment" ++ [nl] ++ lit ". wait_sec 5"))
  = [lit "OBC_RT.A 1 "; lit "wait_sec 5"; lit "EOL"; lit "EOL"].
Proof. reflexivity. Qed.
Example ex_strvec : read_str_vector 10 (mkDirs [] [] []) [(lit "log(1)", lit "b // x"); (lit "log(0)", lit "a"); (lit "log(3)", lit "c")] (lit "log")
  = Ok [lit "a"; lit "b"].
Proof. reflexivity. Qed.
Example ex_cmd : parse_command (lit ",TLCD_SET,note,0x10,2,uint8_t,a,int32_t,b") =
  Ok (mkCommand (lit "TLCD_SET") 16 [kUint8t; kInt32t]).
Proof. reflexivity. Qed.
Example ex_csv : read_csv_with_header stoi (lit "h,x,y" ++ [nl] ++ lit "r,1,2" ++ [nl] ++ lit "s,3,4") 1 1 = Ok [[1; 2]; [3; 4]].
Proof. reflexivity. Qed.
