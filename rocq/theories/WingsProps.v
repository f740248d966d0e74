(** C53: the WINGS command sender; C45: ReadQuaternion. *)
From Coq Require Import Reals Lra List ZArith Bool Ascii String Lia.
From Verif Require Import Base RBase StringModel SettingModel SettingSpec SettingProofs WingsModel WingsSpec WingsProofs.
Import ListNotations.
Open Scope R_scope.

(** ReadQuaternion uses the entries key_(i) if any of them is non-zero, else key(i) *)
Theorem C45_quaternion : forall rd key,
  (read_quaternion rd key = (rd (underscored key 0), rd (underscored key 1), rd (underscored key 2), rd (underscored key 3)) /\
   exists i, (0 <= i <= 3)%Z /\ rd (underscored key i) <> 0) \/
  (read_quaternion rd key = (rd (indexed key 0), rd (indexed key 1), rd (indexed key 2), rd (indexed key 3)) /\
   forall i, (0 <= i <= 3)%Z -> rd (underscored key i) = 0).
Proof.
  intros rd key. unfold read_quaternion. cbv zeta.
  set (a := rd (underscored key 0)). set (b := rd (underscored key 1)).
  set (c := rd (underscored key 2)). set (d := rd (underscored key 3)).
  destruct (req_spec (0 + a * a + b * b + c * c + d * d) 0) as [E|N].
  - right. split; [reflexivity|].
    assert (a = 0 /\ b = 0 /\ c = 0 /\ d = 0) as (Ha & Hb & Hc & Hd).
    { pose proof (Rle_0_sqr a). pose proof (Rle_0_sqr b). pose proof (Rle_0_sqr c). pose proof (Rle_0_sqr d).
      unfold Rsqr in *. repeat split; apply Rsqr_0_uniq; unfold Rsqr; lra. }
    intros i Hi. assert (C : (i = 0 \/ i = 1 \/ i = 2 \/ i = 3)%Z) by lia.
    destruct C as [->|[->|[->| ->]]]; assumption.
  - left. split; [reflexivity|].
    destruct (Req_dec a 0) as [Ea|Ea]; [|exists 0%Z; split; [lia|exact Ea]].
    destruct (Req_dec b 0) as [Eb|Eb]; [|exists 1%Z; split; [lia|exact Eb]].
    destruct (Req_dec c 0) as [Ec|Ec]; [|exists 2%Z; split; [lia|exact Ec]].
    destruct (Req_dec d 0) as [Ed|Ed]; [|exists 3%Z; split; [lia|exact Ed]].
    exfalso. apply N. rewrite Ea, Eb, Ec, Ed. lra.
Qed.
Print Assumptions C45_quaternion.

(** * C53 *)

(** Schedule.  If every kept line of the operation file can be executed, then in any number n of
    calls the lines are executed once each, in order, one per call; a line that sets a wait of w
    seconds is followed by exactly max(0, ceil(w / step)) idle calls; after the last line nothing
    happens any more. *)
Theorem C53_schedule : forall e unset db step file runs n,
  0 < step ->
  lines (ops_new file) = map (fun r => fst (fst r)) runs ->
  Forall (fun r => fst (fst r) <> lit "EOL") runs ->
  Forall (fun r => exists w, execute_line e db unset (fst (fst r)) = Ok (w, snd (fst r)) /\ wait_calls step w (snd r)) runs ->
  exists s', run n e unset (sender_new db (ops_new file) true step) = Ok (s', firstn n (history runs ++ repeat Idle n)).
Proof.
  intros e u db step file runs n S L NE EX.
  destruct (run_schedule e u db step runs n S NE EX) as (s' & R). exists s'. rewrite <- R. f_equal. f_equal.
  unfold ops_new in *. cbn [lines] in L. now rewrite L.
Qed.
Print Assumptions C53_schedule.
(** the number of idle calls exists and is unique *)
Theorem C53_wait_calls_defined : forall step w, 0 < step ->
  exists k, wait_calls step w k /\ forall k', wait_calls step w k' -> k' = k.
Proof.
  intros step w S. destruct (wait_calls_exists step w S) as (k & K). exists k. split; [exact K|].
  intros k' K'. now apply (wait_calls_unique step w).
Qed.
Print Assumptions C53_wait_calls_defined.
(** disabled: nothing is ever executed and the file position does not move *)
Theorem C53_disabled : forall e unset s n, enabled s = false -> run n e unset s = Ok (s, repeat Idle n).
Proof. intros e u s n E. now apply run_disabled. Qed.
Print Assumptions C53_disabled.

(** what the lines do *)
Theorem C53_wait_line : forall e db unset a b rest w,
  Forall (fun x => x <> [] /\ forall c, In c x -> is_space c = false) ((lit "wait_sec" ++ a) :: b :: rest) ->
  stod e b = Ok w ->
  execute_line e db unset (join " "%char ((lit "wait_sec" ++ a) :: b :: rest)) = Ok (w, []).
Proof.
  intros e db u a b rest w F E. unfold execute_line. cbv zeta. rewrite words_join by exact F.
  cbn [at_ nth_error bind]. 
  assert (P : prefix (lit "wait_sec") (lit "wait_sec" ++ a) = true) by (apply prefix_spec; now exists a).
  rewrite P. cbn [at_ nth_error bind]. rewrite E. reflexivity.
Qed.
Print Assumptions C53_wait_line.

(** a real-time command: target_RT.NAME v1 ... vn, where NAME is in the database with integer
    argument types t1 ... tn and every vi fits its type: it is sent with the code of the database
    and the parameters are the encodings of v1 ... vn at consecutive offsets *)
Theorem C53_real_time_command : forall e db unset target name c vs,
  ~ In "_"%char target -> ~ In "."%char target -> command_information db name = c ->
  Forall2 fits (ctypes c) vs -> List.length unset = csp_max_len e -> (csp_max_len e < 2 ^ 16)%nat ->
  (total_width (ctypes c) <= csp_max_len e)%nat ->
  exists bss, Forall2 (fun tv bs => encodes (fst tv) (snd tv) bs) (combine (ctypes c) vs) bss /\
    analyze e db unset ((target ++ lit "_RT." ++ name) :: map to_string vs) = Ok [RealTime (cid c) (List.concat bss)].
Proof.
  intros e db u target name c vs N1 N2 C F L M T.
  destruct (encode_args_ok e c vs (ctypes c) 0 u 0) as (bss & p & E & FC & LP & FE).
  - reflexivity.
  - exact F.
  - lia.
  - lia.
  - exists bss. split; [exact FE|].
    change (target ++ lit "_RT." ++ name) with (head_token target (lit "RT") name).
    rewrite analyze_head; [|exact N1|exact N2|intros [X|[X|[]]]; discriminate].
    rewrite args_no_brace. cbn [str_eqb orb]. 
    assert (B1 : (str_eqb (lit "RT") (lit "TL") || str_eqb (lit "RT") (lit "BL"))%bool = false) by reflexivity.
    rewrite B1. cbn [bind]. rewrite C, E. cbn [bind]. cbn [Nat.add] in FC |- *.
    assert (B2 : str_eqb (lit "RT") (lit "RT") = true) by reflexivity. rewrite B2. rewrite FC. reflexivity.
Qed.
Print Assumptions C53_real_time_command.
(** a time-line command has its execution time as first argument *)
Theorem C53_time_line_command : forall e db unset target name c ti vs,
  ~ In "_"%char target -> ~ In "."%char target -> command_information db name = c ->
  (0 <= ti < 2 ^ 31)%Z ->
  Forall2 fits (ctypes c) vs -> List.length unset = csp_max_len e -> (csp_max_len e < 2 ^ 16)%nat ->
  (total_width (ctypes c) <= csp_max_len e)%nat ->
  exists bss, Forall2 (fun tv bs => encodes (fst tv) (snd tv) bs) (combine (ctypes c) vs) bss /\
    analyze e db unset ((target ++ lit "_TL." ++ name) :: to_string ti :: map to_string vs)
    = Ok [TimeLine ti (cid c) (List.concat bss)].
Proof.
  intros e db u target name c ti vs N1 N2 C Ti F L M T.
  destruct (encode_args_ok e c vs (ctypes c) 0 u 0) as (bss & p & E & FC & LP & FE).
  - reflexivity.
  - exact F.
  - lia.
  - lia.
  - exists bss. split; [exact FE|].
    change (target ++ lit "_TL." ++ name) with (head_token target (lit "TL") name).
    rewrite analyze_head; [|exact N1|exact N2|intros [X|[X|[]]]; discriminate].
    change (to_string ti :: map to_string vs) with (map to_string (ti :: vs)). rewrite args_no_brace.
    assert (B1 : (str_eqb (lit "TL") (lit "TL") || str_eqb (lit "TL") (lit "BL"))%bool = true) by reflexivity.
    rewrite B1. cbn [map at_ nth_error bind tl]. rewrite stoi_to_string by lia. cbn [bind].
    rewrite C, E. cbn [bind]. cbn [Nat.add] in FC |- *.
    assert (B2 : str_eqb (lit "TL") (lit "RT") = false) by reflexivity. rewrite B2.
    assert (B3 : str_eqb (lit "TL") (lit "TL") = true) by reflexivity. rewrite B3. rewrite FC.
    rewrite Z.mod_small by lia. reflexivity.
Qed.
Print Assumptions C53_time_line_command.

(** refuted: a command name that is not in the database is not sent.  Whatever its arguments, it
    goes out as command code 0 without parameters. *)
Theorem C53_unknown_command_not_sent_refuted : forall e db unset target name args,
  ~ In "_"%char target -> ~ In "."%char target -> command_information db name = error_command ->
  existsb (fun a => prefix (lit "{") a) args = false ->
  analyze e db unset ((target ++ lit "_RT." ++ name) :: args) = Ok [RealTime 0 []].
Proof.
  intros e db u target name args N1 N2 C NB.
  change (target ++ lit "_RT." ++ name) with (head_token target (lit "RT") name).
  rewrite analyze_head; [|exact N1|exact N2|intros [X|[X|[]]]; discriminate].
  rewrite NB. assert (B1 : (str_eqb (lit "RT") (lit "TL") || str_eqb (lit "RT") (lit "BL"))%bool = false) by reflexivity.
  rewrite B1. cbn [bind]. rewrite C. rewrite encode_args_error; [reflexivity| |apply Nat.neq_0_lt_0, Nat.pow_nonzero; lia].
  intros i _. unfold argument_type, error_command. cbn [ctypes]. now destruct i.
Qed.
Print Assumptions C53_unknown_command_not_sent_refuted.
(** refuted: a blank line (which the file reader keeps if it is longer than two characters) is
    harmless.  It reads outside the empty token vector. *)
Theorem C53_blank_line_safe_refuted : forall e db unset line,
  (forall c, In c line -> is_space c = true) -> execute_line e db unset line = UB.
Proof. intros e db u line H. unfold execute_line. cbv zeta. rewrite words_blank by exact H. reflexivity. Qed.
Print Assumptions C53_blank_line_safe_refuted.
(** refuted: long argument lists are safe *)
Theorem C53_long_arguments_safe_refuted : forall fl db' sd,
  analyze (mkEnv fl db' sd 2) [(lit "A", mkCommand (lit "A") 7 [kUint16t; kUint8t])] [0; 0]%Z
    [lit "OBC_RT.A"; lit "1"; lit "2"] = UB.
Proof. intros fl db' sd. reflexivity. Qed.
Print Assumptions C53_long_arguments_safe_refuted.

(** The sender made by InitWingsCommandSenderToC2a is called every p-th component tick (p the prescaler, at
    least 1); the step it counts waiting time with is exactly the time between two of its calls. *)
Theorem C53_wait_unit : forall prescaler tick, let (p, step) := init_step prescaler tick in
  (1 <= p)%Z /\ ((1 <= prescaler)%Z -> p = prescaler) /\ step = IZR p * tick.
Proof.
  intros prescaler tick. unfold init_step. destruct (Z.leb_spec prescaler 1) as [L|L]; (split; [lia|]; split; [lia|reflexivity]).
Qed.
Print Assumptions C53_wait_unit.

(** examples *)
Example ex_send : forall fl db' sd,
  analyze (mkEnv fl db' sd 8) [(lit "A", mkCommand (lit "A") 7 [kUint16t; kInt8t])] [9; 9; 9; 9; 9; 9; 9; 9]%Z
    [lit "OBC_RT.A"; lit "258"; lit "-1"] = Ok [RealTime 7 [1; 2; 255]%Z].
Proof. intros fl db' sd. reflexivity. Qed.
Example ex_schedule_hyp : let e := mkEnv (fun _ => Throw) (fun _ => Throw) (fun _ => Ok 1) 8 in
  exists runs, lines (ops_new (lit "wait_sec 1")) = map (fun r => fst (fst r)) runs /\
  Forall (fun r => exists w, execute_line e [] [] (fst (fst r)) = Ok (w, snd (fst r)) /\ wait_calls (1/4) w (snd r)) runs.
Proof.
  cbv zeta. exists [(lit "wait_sec 1", [], 4%nat)]. split; [reflexivity|]. constructor; [|constructor]. cbn [fst snd].
  exists 1. split; [reflexivity|]. right. cbn [INR]. split; [lra|]. split; [lia|]. split; lra.
Qed.
