(** C136: reading Bias-SINEX files. *)
From Coq Require Import Reals String List Bool Arith Lia.
From Verif Require Import Base SinexModel SinexSpec SinexProofs.
Import ListNotations.
Open Scope string_scope.

Lemma rows_readable stod fs : blank_ok stod -> Forall widths_ok fs -> Forall (readable stod) fs ->
  exists rs, rows_read stod fs = Ok rs /\ Forall2 (reads_as stod) fs rs.
Proof.
  intros B. induction fs as [|f fs IH]; intros W F; [exists []; split; [reflexivity|constructor]|].
  inversion W; subst. inversion F; subst. destruct IH as (rs & E & FA); try assumption. destruct H3 as (R1 & R2 & R3).
  assert (X : exists s, read_row stod (row_text f) = Ok s /\ reads_as stod f s).
  { destruct (f_slope f) as [([|c s] & d)|] eqn:ES.
    - destruct H1 as (_ & _ & _ & _ & _ & _ & _ & _ & _ & _ & _ & W12). destruct (W12 _ _ ES) as (X & _). discriminate.
    - rewrite (read_row_slope stod f c s d) by assumption. unfold to_double. rewrite B. specialize (R3 c s d eq_refl).
      destruct (stod (f_value f)) as [v|] eqn:E1; [|now elim R1]. destruct (stod (f_sd f)) as [w|] eqn:E2; [|now elim R2]. destruct (stod (s ++ " ")) as [x|] eqn:E3; [|now elim R3]. cbn [bind].
      eexists. split; [reflexivity|]. unfold reads_as, parsed. cbn [so_id so_svn so_station so_signal so_unit so_bias so_sd so_slope so_slope_sd]. rewrite ES. repeat split; try assumption; discriminate.
    - rewrite (read_row_plain stod f) by assumption. unfold to_double.
      destruct (stod (f_value f)) as [v|] eqn:E1; [|now elim R1]. destruct (stod (f_sd f)) as [w|] eqn:E2; [|now elim R2]. cbn [bind].
      eexists. split; [reflexivity|]. unfold reads_as, parsed. cbn [so_id so_svn so_station so_signal so_unit so_bias so_sd so_slope so_slope_sd]. rewrite ES. repeat split; assumption. }
  destruct X as (s & E1 & R). exists (s :: rs). cbn [rows_read]. rewrite E1. cbn [bind]. rewrite E. cbn [bind]. split; [reflexivity|]. constructor; assumption.
Qed.
Lemma rows_widths ps : Forall piece_ok ps -> Forall widths_ok (file_rows ps).
Proof.
  unfold file_rows. induction ps as [|p ps IH]; intros F; [constructor|]. inversion F; subst. cbn [flat_map]. apply Forall_app. split; [|now apply IH].
  destruct p; cbn [rows_of]; try constructor. cbn [piece_ok] in H1. clear F IH H2. induction H1 as [|i is X Y Z]; [constructor|]. cbn [flat_map]. apply Forall_app. split; [|exact Z]. destruct i; [constructor; [exact X|constructor]|constructor].
Qed.

(** A file in the format, with any sections in any order and any comments, up to the footer or to its end: exactly the rows of its data
    sections are kept, in order, each with the text of its columns; if a number in a row cannot be read there is an exception. *)
Theorem C136_file : forall stod ps tail nl, blank_ok stod -> Forall piece_ok ps ->
  (tail = [] \/ exists t rest, tail = ("%=ENDBIA" ++ t) :: rest) ->
  (Forall (readable stod) (file_rows ps) ->
     exists rs, bias_file stod (Some ((flat_map lines_of ps ++ tail)%list, nl)) = Ok (true, rs) /\ Forall2 (reads_as stod) (file_rows ps) rs) /\
  (Exists (fun f => stod (f_value f) = None \/ stod (f_sd f) = None) (file_rows ps) -> bias_file stod (Some ((flat_map lines_of ps ++ tail)%list, nl)) = Throw).
Proof.
  intros stod ps tail nl B F T. unfold bias_file.
  destruct (pieces_read stod nl ps F (S (List.length (flat_map lines_of ps ++ tail))) tail ltac:(lia)) as (f' & L & E). rewrite E.
  assert (ET : read_lines stod nl f' tail = Ok []).
  { destruct T as [->|(t & rest & ->)]; [destruct f'; reflexivity|]. destruct f'; [cbn [List.length] in L; lia|]. cbn [read_lines]. change (starts "*" ("%=ENDBIA" ++ t)) with false. rewrite starts_app. reflexivity. }
  rewrite ET. split.
  - intros R. destruct (rows_readable stod (file_rows ps) B (rows_widths ps F) R) as (rs & E1 & FA). rewrite E1. cbn [bind]. rewrite app_nil_r. exists rs. split; [reflexivity|exact FA].
  - intros X. assert (E1 : rows_read stod (file_rows ps) = Throw); [|rewrite E1; reflexivity]. pose proof (rows_widths ps F) as W. clear - X W B. induction X as [f fs U|f fs X IH].
    + inversion W; subst. cbn [rows_read]. replace (read_row stod (row_text f)) with (@Throw solution); [reflexivity|]. symmetry.
      destruct (f_slope f) as [([|c s] & d)|] eqn:ES.
      * destruct H1 as (_ & _ & _ & _ & _ & _ & _ & _ & _ & _ & _ & W12). destruct (W12 _ _ ES) as (X & _). discriminate.
      * rewrite (read_row_slope stod f c s d) by assumption. unfold to_double. rewrite B. destruct (stod (f_value f)); cbn [bind]; [|reflexivity]. destruct U as [U|U]; [discriminate|]. rewrite U. reflexivity.
      * rewrite (read_row_plain stod f) by assumption. unfold to_double. destruct (stod (f_value f)); cbn [bind]; [|reflexivity]. destruct U as [U|U]; [discriminate|]. rewrite U. reflexivity.
    + inversion W; subst. cbn [rows_read]. rewrite IH by assumption.
      assert (RT : forall l, match read_row stod l with Ok _ => True | Throw => True | _ => False end).
      { intros l. unfold read_row. cbv zeta. unfold substr, to_double. repeat (match goal with |- context [if ?b then _ else _] => destruct b | |- context [match stod ?x with _ => _ end] => destruct (stod x) end; cbn [bind]; try exact I). }
      specialize (RT (row_text f)). destruct (read_row stod (row_text f)); try reflexivity; contradiction.
Qed.
Print Assumptions C136_file.

(** The words of the format; anything else is marked as an error. *)
Theorem C136_words :
  (forall w i, In (w, i) identifiers -> to_identifier w = i) /\ (forall w, ~ In w (map fst identifiers) -> to_identifier w = KIdError) /\
  (forall w u, In (w, u) units -> to_unit w = u) /\ (forall w, ~ In w (map fst units) -> to_unit w = KUnitError) /\
  (forall a b s, In (a, b, s) signals -> to_signal a b = s) /\ (forall a b, ~ In (a, b) (map fst signals) -> to_signal a b = KSignalError).
Proof.
  unfold identifiers, units, signals. cbn [map fst In]. repeat split.
  - intros w i [H|[H|[H|[]]]]; injection H as <- <-; reflexivity.
  - intros w N. unfold to_identifier. destruct (String.eqb_spec w "DSB "); [subst; tauto|]. destruct (String.eqb_spec w "ISB "); [subst; tauto|]. destruct (String.eqb_spec w "OSB "); [subst; tauto|]. reflexivity.
  - intros w i [H|[H|[]]]; injection H as <- <-; reflexivity.
  - intros w N. unfold to_unit. destruct (String.eqb_spec w "ns  "); [subst; tauto|]. destruct (String.eqb_spec w "cyc "); [subst; tauto|]. reflexivity.
  - intros a b s [H|[H|[H|[H|[]]]]]; injection H as <- <- <-; reflexivity.
  - intros a b N. unfold to_signal.
    repeat match goal with |- context [if (String.eqb a ?x && String.eqb b ?y)%bool then _ else _] =>
      destruct (String.eqb a x && String.eqb b y)%bool eqn:?E; [apply andb_true_iff in E; destruct E as (E1 & E2); apply String.eqb_eq in E1, E2; subst; tauto|clear E] end. reflexivity.
Qed.
Print Assumptions C136_words.

(** Slopes are not read as the format has them: the first character (the sign, or a digit of a full field) is lost, whatever it is ... *)
Theorem C136_slope_refuted : forall stod f g c c' s d, widths_ok f -> widths_ok g ->
  f_slope f = Some (String c s, d) -> f_slope g = Some (String c' s, d) ->
  f_bias f = f_bias g -> f_svn f = f_svn g -> f_station f = f_station g -> f_obs1 f = f_obs1 g -> f_obs2 f = f_obs2 g -> f_unit f = f_unit g -> f_value f = f_value g -> f_sd f = f_sd g ->
  read_row stod (row_text f) = read_row stod (row_text g).
Proof.
  intros stod f g c c' s d W W' E E' E1 E2 E3 E4 E5 E6 E7 E8. rewrite (read_row_slope stod f c s d W E), (read_row_slope stod g c' s d W' E'). unfold parsed. rewrite E1, E2, E3, E4, E5, E6, E7, E8. reflexivity.
Qed.
Print Assumptions C136_slope_refuted.
(** ... and the standard deviation of the slope is never read: 0 for every line in the format. *)
Theorem C136_slope_sd_refuted : forall stod f r, widths_ok f -> read_row stod (row_text f) = Ok r -> so_slope_sd r = 0%R.
Proof.
  intros stod f r W H. destruct (f_slope f) as [([|c s] & d)|] eqn:ES.
  - destruct W as (_ & _ & _ & _ & _ & _ & _ & _ & _ & _ & _ & W12). destruct (W12 _ _ ES) as (X & _). discriminate.
  - rewrite (read_row_slope stod f c s d W ES) in H. destruct (to_double stod (f_value f)); cbn [bind] in H; try discriminate. destruct (to_double stod (f_sd f ++ " ")); cbn [bind] in H; try discriminate. destruct (to_double stod (s ++ " ")); cbn [bind] in H; try discriminate. injection H as <-. reflexivity.
  - rewrite (read_row_plain stod f W ES) in H. destruct (to_double stod (f_value f)); cbn [bind] in H; try discriminate. destruct (to_double stod (f_sd f)); cbn [bind] in H; try discriminate. injection H as <-. reflexivity.
Qed.
Print Assumptions C136_slope_sd_refuted.

(** Damaged files.  A section that is not ended makes the reader run for ever; a data section that is not ended ends in an exception if
    the file ends with a newline and runs for ever (collecting the last row again and again) if it does not; a data line too short for its
    columns, an empty one for instance, is an exception.  A file that cannot be opened yields no data and says so. *)
Theorem C136_unended_section : forall stod ps n body nl, blank_ok stod -> Forall piece_ok ps -> Forall (readable stod) (file_rows ps) ->
  In n skipped -> Forall (fun l => starts ("-" ++ n) l = false) body ->
  bias_file stod (Some ((flat_map lines_of ps ++ ("+" ++ n)%string :: body)%list, nl)) = Hang.
Proof.
  intros stod ps n body nl B F R I NB. unfold bias_file.
  destruct (pieces_read stod nl ps F (S (List.length (flat_map lines_of ps ++ ("+" ++ n)%string :: body))) (("+" ++ n)%string :: body) ltac:(lia)) as (f' & L & E). rewrite E.
  destruct (rows_readable stod (file_rows ps) B (rows_widths ps F) R) as (rs & E1 & _). rewrite E1. cbn [bind].
  destruct f' as [|f']; [cbn [List.length] in L; lia|].
  assert (SK : skip_to ("-" ++ n) body = Hang) by (clear - NB; induction NB as [|l b X Y IH]; [reflexivity|]; cbn [skip_to]; rewrite X; exact IH).
  assert (EL : read_lines stod nl (S f') (("+" ++ n)%string :: body) = Hang); [|rewrite EL; reflexivity].
  unfold skipped in I. cbn [In] in I. cbn [read_lines].
  destruct I as [<-|[<-|[<-|[<-|[<-|[]]]]]]; cbn [append] in SK |- *;
    repeat match goal with |- context [starts ?a (String ?c ?b)] => let v := eval vm_compute in (starts a (String c b)) in change (starts a (String c b)) with v end; cbv iota; rewrite SK; reflexivity.
Qed.
Print Assumptions C136_unended_section.
Theorem C136_unended_data : forall stod ps items nl, blank_ok stod -> Forall piece_ok (ps ++ [Data items]) -> Forall (readable stod) (file_rows (ps ++ [Data items])) -> items <> [] ->
  bias_file stod (Some ((flat_map lines_of ps ++ "+BIAS/SOLUTION" :: map item_text items)%list, nl)) = if nl then Throw else Hang.
Proof.
  intros stod ps items nl B F R NE. unfold bias_file.
  apply Forall_app in F. destruct F as (F & FD). inversion FD; subst. unfold file_rows in R. rewrite flat_map_app in R. apply Forall_app in R. destruct R as (R & RD). cbn [flat_map rows_of] in RD. rewrite app_nil_r in RD.
  destruct (pieces_read stod nl ps F (S (List.length (flat_map lines_of ps ++ "+BIAS/SOLUTION" :: map item_text items))) ("+BIAS/SOLUTION" :: map item_text items)%list ltac:(lia)) as (f' & L & E). rewrite E.
  destruct (rows_readable stod (file_rows ps) B (rows_widths ps F) R) as (rs & E1 & _). rewrite E1. cbn [bind]. destruct f' as [|f']; [cbn [List.length] in L; lia|].
  assert (EL : read_solution stod nl "" (map item_text items) = if nl then Throw else Hang).
  { cbn [piece_ok] in H1. clear - H1 RD NE B. enough (G : forall last, read_solution stod nl last (map item_text items) = if nl then Throw else Hang) by apply G. revert NE H1 RD.
    induction items as [|i items IH]; intros NE H1 RD last; [now elim NE|]. inversion H1; subst. cbn [map read_solution flat_map] in *. apply Forall_app in RD. destruct RD as (RI & RD).
    assert (REST : forall l : string, (items = [] -> (if nl then True else l = item_text i)) -> read_solution stod nl l (map item_text items) = if nl then Throw else Hang).
    { intros l HL. destruct items as [|i' items']; [|apply IH; [discriminate|assumption|exact RD]]. specialize (HL eq_refl). cbn [map read_solution]. destruct nl; [reflexivity|]. subst l.
      destruct i as [f|t]; cbn [item_text].
      - unfold row_text at 1 2. rewrite !starts_space by (eexists _, _; split; [reflexivity|discriminate]). destruct (rows_readable stod [f] B ltac:(constructor; [assumption|constructor]) RI) as (rs & ER & _). cbn [rows_read] in ER.
        destruct (read_row stod (row_text f)); cbn [bind] in *; try discriminate. reflexivity.
      - change (starts "-BIAS/SOLUTION" ("*" ++ t)) with false. rewrite (starts_app "*" t). reflexivity. }
    destruct i as [f|t]; cbn [item_text] in *.
    - unfold row_text at 1 2. rewrite !starts_space by (eexists _, _; split; [reflexivity|discriminate]). fold (row_text f). destruct (rows_readable stod [f] B ltac:(constructor; [assumption|constructor]) RI) as (rs & ER & _). cbn [rows_read] in ER.
      destruct (read_row stod (row_text f)); cbn [bind] in *; try discriminate. rewrite REST by (intros _; destruct nl; auto). destruct nl; reflexivity.
    - change (starts "-BIAS/SOLUTION" ("*" ++ t)) with false. rewrite (starts_app "*" t). apply REST. intros _. destruct nl; auto. }
  cbn [read_lines]. repeat match goal with |- context [starts ?a "+BIAS/SOLUTION"] => let v := eval vm_compute in (starts a "+BIAS/SOLUTION") in change (starts a "+BIAS/SOLUTION") with v end. cbv iota.
  rewrite EL. destruct nl; reflexivity.
Qed.
Print Assumptions C136_unended_data.
Theorem C136_short_row : forall stod line, String.length line < 92 -> read_row stod line = Throw.
Proof.
  intros stod line L. unfold read_row. cbv zeta.
  assert (S92 : substr line 92 12 = Throw) by (unfold substr; destruct (Nat.ltb_spec (String.length line) 92); [reflexivity|lia]).
  assert (SB : forall p n, substr line p n = Throw \/ exists x, substr line p n = Ok x) by (intros p n; unfold substr; destruct (Nat.ltb (String.length line) p); eauto).
  repeat match goal with |- bind (substr line ?p ?n) _ = _ => first [rewrite S92; reflexivity | destruct (SB p n) as [-> |(? & ->)]; cbn [bind]; [reflexivity|]] end.
  unfold to_double at 1. destruct (stod _); cbn [bind]; [|reflexivity]. rewrite S92. reflexivity.
Qed.
Theorem C136_unopened : forall stod, bias_file stod None = Ok (false, []).
Proof. reflexivity. Qed.
Print Assumptions C136_short_row.
Print Assumptions C136_unopened.

(** Cases that meet the hypotheses *)
Definition ex_row (slope : option (string * string)) : fields :=
  mkFields "DSB " "G063" "G01" "         " "C1W " "C2W " "2016:296:00000" "2016:333:00000" "ns  " "      -10.22000000000" "     0.0070" slope.
Definition ex_stod (s : string) : option R := Some 1%R.
Example C136_example_row : widths_ok (ex_row None) /\ widths_ok (ex_row (Some ("   -0.000000000000100", "     0.0001"))) /\ readable ex_stod (ex_row None) /\ blank_ok ex_stod /\
  row_text (ex_row None) = " DSB  G063 G01           C1W  C2W  2016:296:00000 2016:333:00000 ns         -10.22000000000      0.0070".
Proof.
  split; [|split; [|split; [|split]]].
  - unfold widths_ok. repeat split; discriminate.
  - unfold widths_ok. repeat split; match goal with H : f_slope _ = Some _ |- _ => injection H as <- <-; reflexivity end.
  - unfold readable, ex_stod. split; [discriminate|]. split; [discriminate|]. intros; discriminate.
  - intros s. reflexivity.
  - reflexivity.
Qed.
Example C136_example_file : Forall piece_ok [Header " 1.00"; Comment " x"; Section_ "FILE/REFERENCE" [" DESCRIPTION       x"]; Other ""; Data [Remark "BIAS"; Row (ex_row None)]].
Proof.
  repeat constructor; cbn; try tauto; try discriminate. intros w H. repeat (destruct H as [<-|H]; [reflexivity|]). contradiction.
Qed.
