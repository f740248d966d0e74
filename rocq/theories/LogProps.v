(** C21, C60: the CSV log. *)
From Coq Require Import List ZArith Bool Ascii String Lia.
From Verif Require Import Base StringModel LogModel LogSpec LogProofs.
Import ListNotations.
Open Scope Z_scope.

(** the registered objects whose flag is on, in registration order *)
Definition logged (store : nat -> loggable) (lg : logger) : list nat := filter (fun o => log_enabled (store o)) (log_list lg).

(** ** C21 *)
Lemma concat_row_texts (f : nat -> list str) (g : nat -> str) l :
  (forall o, In o l -> g o = row_text (f o)) -> List.concat (map g l) = row_text (flat_map f l).
Proof.
  intro H. rewrite flat_map_concat_map, row_text_concat, map_map. f_equal. apply map_ext_in. exact H.
Qed.
Lemma headers_file lg store names nl : enabled lg = true ->
  (forall o, In o (logged store lg) -> has_names (store o) (names o)) ->
  write_headers lg store nl = appended lg (row_text (flat_map names (logged store lg)) ++ if nl then newline else []).
Proof.
  intros E H. unfold write_headers. cbv zeta. rewrite write_loop by exact E. fold (logged store lg).
  change (active store (log_list lg)) with (logged store lg).
  rewrite (concat_row_texts names) by (intros o Ho; apply (H o Ho)).
  destruct nl; [|now rewrite app_nil_r]. unfold write_new_line. rewrite write_appended by exact E. now rewrite appended_appended.
Qed.
Lemma values_file lg store values nl : enabled lg = true ->
  (forall o, In o (logged store lg) -> has_values (store o) (values o)) ->
  write_values lg store nl = appended lg (row_text (flat_map values (logged store lg)) ++ if nl then newline else []).
Proof.
  intros E H. unfold write_values. cbv zeta. rewrite write_loop by exact E.
  change (active store (log_list lg)) with (logged store lg).
  rewrite (concat_row_texts values) by (intros o Ho; apply (H o Ho)).
  destruct nl; [|now rewrite app_nil_r]. unfold write_new_line. rewrite write_appended by exact E. now rewrite appended_appended.
Qed.
Lemma combine_flat_map {A B C} (f : A -> list B) (g : A -> list C) l t u :
  (forall o, In o l -> List.length (f o) = List.length (g o)) ->
  combine (flat_map f l ++ t) (flat_map g l ++ u) = flat_map (fun o => combine (f o) (g o)) l ++ combine t u.
Proof.
  induction l as [|a l IH]; intro H; [reflexivity|]. cbn [flat_map]. rewrite <- !app_assoc.
  assert (X : forall (x : list B) (y : list C) p q, List.length x = List.length y -> combine (x ++ p) (y ++ q) = combine x y ++ combine p q).
  { induction x as [|b x IHx]; intros [|c y] p q L; cbn in L |- *; try lia; [reflexivity|]. f_equal. apply IHx. lia. }
  rewrite X by (apply H; now left). f_equal. apply IH. intros o Ho. apply H. now right.
Qed.
Lemma Forall_plain_flat (f : nat -> list str) l : (forall o, In o l -> Forall plain (f o)) -> Forall plain (flat_map f l).
Proof. apply Forall_flat_map. Qed.

(** The header row and a value row, written at different times (stores [s0] and [s1]): if the enable flags
    are the same at both times and each enabled object has as many values as names, then both rows parse to
    equally many cells and the pairs (name, value) standing in the same column are exactly the objects' own
    pairs, in registration order; objects whose flag is off appear nowhere. *)
Theorem C21_columns_aligned : forall lg s0 s1 names values,
  enabled lg = true ->
  (forall o, In o (log_list lg) -> log_enabled (s1 o) = log_enabled (s0 o)) ->
  (forall o, In o (log_list lg) -> log_enabled (s0 o) = true ->
     has_names (s0 o) (names o) /\ has_values (s1 o) (values o) /\ List.length (names o) = List.length (values o)) ->
  exists h v, file (write_headers lg s0 true) = file lg ++ h ++ newline /\
              file (write_values lg s1 true) = file lg ++ v ++ newline /\
              List.length (cells h) = List.length (cells v) /\
              cells h = flat_map names (logged s0 lg) ++ [[]] /\
              cells v = flat_map values (logged s0 lg) ++ [[]] /\
              combine (cells h) (cells v) = flat_map (fun o => combine (names o) (values o)) (logged s0 lg) ++ [([], [])].
Proof.
  intros lg s0 s1 names values E F H.
  assert (L : logged s1 lg = logged s0 lg) by (unfold logged; apply filter_ext_in; exact F).
  assert (H' : forall o, In o (logged s0 lg) -> has_names (s0 o) (names o) /\ has_values (s1 o) (values o) /\ List.length (names o) = List.length (values o)).
  { intros o Ho. unfold logged in Ho. apply filter_In in Ho. now apply H. }
  exists (row_text (flat_map names (logged s0 lg))), (row_text (flat_map values (logged s0 lg))).
  assert (CH : cells (row_text (flat_map names (logged s0 lg))) = flat_map names (logged s0 lg) ++ [[]]).
  { rewrite <- (app_nil_r (row_text _)). rewrite cells_row; [reflexivity|]. apply Forall_plain_flat. intros o Ho. apply (H' o Ho). }
  assert (CV : cells (row_text (flat_map values (logged s0 lg))) = flat_map values (logged s0 lg) ++ [[]]).
  { rewrite <- (app_nil_r (row_text _)). rewrite cells_row; [reflexivity|]. apply Forall_plain_flat. intros o Ho. apply (H' o Ho). }
  split; [|split; [|split; [|split; [|split]]]].
  - rewrite (headers_file lg s0 names true E); [reflexivity|]. intros o Ho. apply (H' o Ho).
  - rewrite (values_file lg s1 values true E).
    + rewrite L. reflexivity.
    + intros o Ho. rewrite L in Ho. apply (H' o Ho).
  - rewrite CH, CV, !app_length. f_equal. rewrite !flat_map_concat_map.
    assert (X : forall l, (forall o, In o l -> In o (logged s0 lg)) -> List.length (List.concat (map names l)) = List.length (List.concat (map values l))).
    { induction l as [|o l IH]; intro I; [reflexivity|]. cbn [map List.concat]. rewrite !app_length, IH by (intros; apply I; now right).
      f_equal. apply (H' o). apply I. now left. }
    apply X. auto.
  - exact CH.
  - exact CV.
  - rewrite CH, CV. rewrite combine_flat_map; [reflexivity|]. intros o Ho. apply (H' o Ho).
Qed.
Print Assumptions C21_columns_aligned.

(** A whole run: one header row, then one value row per output step.  Every row parses to the same number of
    cells, whatever happens to the values. *)
Definition run_log (lg : logger) (s0 : nat -> loggable) (steps : list (nat -> loggable)) : logger :=
  fold_left (fun l s => write_values l s true) steps (write_headers lg s0 true).
Theorem C21_whole_run : forall lg s0 steps n,
  enabled lg = true ->
  (forall o, In o (log_list lg) -> log_enabled (s0 o) = true -> exists names, has_names (s0 o) names /\ List.length names = n o) ->
  (forall s, In s steps -> forall o, In o (log_list lg) -> log_enabled (s o) = log_enabled (s0 o) /\
     (log_enabled (s0 o) = true -> exists values, has_values (s o) values /\ List.length values = n o)) ->
  exists rows, List.length rows = S (List.length steps) /\
    file (run_log lg s0 steps) = file lg ++ List.concat (map (fun r => r ++ newline) rows) /\
    forall r, In r rows -> List.length (cells r) = S (list_sum (map n (logged s0 lg))).
Proof.
  intros lg s0 steps n E H0 H1.
  assert (CH : forall (P : nat -> list str -> Prop) l, (forall o, In o l -> exists x, P o x) -> exists f, forall o, In o l -> P o (f o)).
  { intros P l. induction l as [|a l IH]; intro H.
    - exists (fun _ => []). intros o [].
    - destruct IH as (f & Hf); [intros o Ho; apply H; now right|]. destruct (H a (or_introl eq_refl)) as (x & Hx).
      exists (fun o => if Nat.eqb o a then x else f o). intros o Ho. destruct (Nat.eqb_spec o a) as [->|N]; [exact Hx|].
      apply Hf. destruct Ho as [X|X]; [congruence|exact X]. }
  assert (CELLS : forall f l, (forall o, In o l -> Forall plain (f o) /\ List.length (f o) = n o) ->
     List.length (cells (row_text (flat_map f l))) = S (list_sum (map n l))).
  { intros f l H. rewrite <- (app_nil_r (row_text _)). rewrite cells_row.
    - rewrite app_length. cbn [cells cells_from List.length rev]. rewrite Nat.add_1_r. f_equal.
      clear - H. induction l as [|o l IH]; [reflexivity|]. cbn [flat_map map list_sum fold_right]. rewrite app_length, IH by (intros; apply H; now right).
      unfold list_sum. rewrite (proj2 (H o (or_introl eq_refl))). reflexivity.
    - apply Forall_plain_flat. intros o Ho. apply (H o Ho). }
  destruct (CH (fun o x => has_names (s0 o) x /\ List.length x = n o) (logged s0 lg)) as (names & N).
  { intros o Ho. unfold logged in Ho. apply filter_In in Ho. now apply H0. }
  assert (G : forall steps lg', log_list lg' = log_list lg -> enabled lg' = true ->
    (forall s, In s steps -> forall o, In o (log_list lg) -> log_enabled (s o) = log_enabled (s0 o) /\
     (log_enabled (s0 o) = true -> exists values, has_values (s o) values /\ List.length values = n o)) ->
    exists rows, List.length rows = List.length steps /\
    file (fold_left (fun l s => write_values l s true) steps lg') = file lg' ++ List.concat (map (fun r => r ++ newline) rows) /\
    forall r, In r rows -> List.length (cells r) = S (list_sum (map n (logged s0 lg)))).
  { clear H1 steps. induction steps as [|s steps IH]; intros lg' LL E' H.
    - exists []. split; [reflexivity|]. split; [cbn; now rewrite app_nil_r|]. intros r [].
    - cbn [fold_left].
      assert (L : logged s lg' = logged s0 lg).
      { unfold logged. rewrite LL. apply filter_ext_in. intros o Ho. apply (H s (or_introl eq_refl) o Ho). }
      destruct (CH (fun o x => has_values (s o) x /\ List.length x = n o) (logged s0 lg)) as (vals & V).
      { intros o Ho. unfold logged in Ho. apply filter_In in Ho. apply (H s (or_introl eq_refl) o); apply Ho. }
      rewrite (values_file lg' s vals true E') by (intros o Ho; rewrite L in Ho; apply (V o Ho)).
      destruct (IH (appended lg' (row_text (flat_map vals (logged s lg')) ++ newline))) as (rows & R1 & R2 & R3).
      + exact LL.
      + exact E'.
      + intros s' Hs'. apply H. now right.
      + exists (row_text (flat_map vals (logged s lg')) :: rows). split; [cbn; now rewrite R1|]. split.
        * rewrite R2. cbn [map List.concat file appended]. now rewrite <- !app_assoc.
        * intros r [<-|Hr]; [|now apply R3]. rewrite L. apply CELLS. intros o Ho. split; apply (V o Ho). }
  unfold run_log. rewrite (headers_file lg s0 names true E) by (intros o Ho; apply (N o Ho)).
  destruct (G steps (appended lg (row_text (flat_map names (logged s0 lg)) ++ newline)) eq_refl E H1) as (rows & R1 & R2 & R3).
  exists (row_text (flat_map names (logged s0 lg)) :: rows). split; [cbn; now rewrite R1|]. split.
  - rewrite R2. cbn [map List.concat file appended]. now rewrite <- !app_assoc.
  - intros r [<-|Hr]; [|now apply R3]. apply CELLS. intros o Ho. split; apply (N o Ho).
Qed.
Print Assumptions C21_whole_run.

(** A logger created with is_enabled = false never writes, whatever is registered. *)
Theorem C21_disabled_logger_silent : forall lg store nl,
  enabled lg = false -> write_headers lg store nl = lg /\ write_values lg store nl = lg.
Proof.
  intros lg store nl E. unfold write_headers, write_values. cbv zeta. rewrite !write_loop_off by exact E.
  unfold write_new_line, write. rewrite E. now destruct nl.
Qed.
Print Assumptions C21_disabled_logger_silent.
(** Registration: AddLogList puts the object at the end of every later row, ClearLogList empties the rows; the
    file is not touched. *)
Theorem C21_registration : forall lg store o,
  file (add_log_list lg o) = file lg /\ file (clear_log_list lg) = file lg /\
  logged store (add_log_list lg o) = logged store lg ++ (if log_enabled (store o) then [o] else []) /\
  logged store (clear_log_list lg) = [] /\
  file (write_headers (clear_log_list lg) store false) = file lg.
Proof.
  intros lg store o. split; [reflexivity|]. split; [reflexivity|]. split.
  - unfold logged, add_log_list. cbn [log_list]. now rewrite filter_app.
  - split; reflexivity.
Qed.
Print Assumptions C21_registration.

(** refuted: the claim without the hypothesis that the flags stay the same.  The flag is a public member; a
    component that changes it after the header was written shifts all later columns. *)
Theorem C21_flag_change_aligned_refuted :
  let o1 b := mkLoggable b (lit "a[m],") (lit "1,") in let o2 := mkLoggable true (lit "b[s],") (lit "2,") in
  let s b := fun k : nat => match k with O => o1 b | _ => o2 end in
  let lg := mkLogger true [0; 1]%nat [] in
  let h := file (write_headers lg (s true) false) in let v := file (write_values lg (s false) false) in
  cells h = [lit "a[m]"; lit "b[s]"; []] /\ cells v = [lit "2"; []].
Proof. cbv zeta. split; reflexivity. Qed.
Print Assumptions C21_flag_change_aligned_refuted.

Lemma nth_map_seq {A} (f : nat -> A) (d : A) n k : (k < n)%nat -> nth k (map f (seq 0 n)) d = f k.
Proof.
  intro H. rewrite (nth_indep _ d (f 0%nat)) by (now rewrite map_length, seq_length). rewrite map_nth, seq_nth by exact H. reflexivity.
Qed.
(** the header functions produce the documented names, all different *)
Lemma num_inj i j : num i = num j -> i = j.
Proof. intro H. apply Nat2Z.inj. apply to_string_inj in H; lia. Qed.
Lemma num_digits i c : In c (num i) -> exists k, 0 <= k < 10 /\ c = digit_chr k.
Proof. intro H. destruct (to_string_nonneg (Z.of_nat i)) as (_ & A & _); [lia|]. now apply A. Qed.
(** digits ++ non-digit ++ .. determine the digits *)
Lemma digits_then a : forall b s t, (forall c, In c a -> exists k, 0 <= k < 10 /\ c = digit_chr k) ->
  (forall c, In c b -> exists k, 0 <= k < 10 /\ c = digit_chr k) -> a ++ ")"%char :: s = b ++ ")"%char :: t -> a = b.
Proof.
  assert (ND : forall c, (exists k, 0 <= k < 10 /\ c = digit_chr k) -> c <> ")"%char).
  { intros c (k & K & ->) X. assert (Y : code (digit_chr k) = 48 + k) by (apply code_chr; lia). rewrite X in Y. change (code ")"%char) with 41 in Y. lia. }
  induction a as [|x a IH]; intros [|y b] s t A B E; cbn [app] in E.
  - reflexivity.
  - injection E as E1 E2. exfalso. apply (ND y); [apply B; now left|congruence].
  - injection E as E1 E2. exfalso. apply (ND x); [apply A; now left|congruence].
  - injection E as E1 E2. subst y. f_equal. apply (IH b s t); [intros; apply A; now right|intros; apply B; now right|exact E2].
Qed.
Theorem C21_vector_header : forall name frame unit n, plain name -> plain frame -> plain unit ->
  let names := removelast (cells (write_vector_header name frame unit n)) in
  List.length names = n /\ NoDup names /\
  (n = 3%nat -> names = map (fun a => name ++ lit "_" ++ frame ++ lit a ++ lit "[" ++ unit ++ lit "]") ["_x"; "_y"; "_z"]%string) /\
  (n <> 3%nat -> forall i, (i < n)%nat -> nth i names [] = name ++ lit "_" ++ frame ++ lit "(" ++ num i ++ lit ")[" ++ unit ++ lit "]").
Proof.
  intros name frame unit n P1 P2 P3 names.
  assert (N : names = names_h (HVector name frame unit n)).
  { unfold names. change (write_vector_header name frame unit n) with (header_text (HVector name frame unit n)).
    rewrite header_text_names, <- (app_nil_r (row_text _)), cells_row by (apply names_h_plain; cbn [plain_h]; tauto).
    apply removelast_last. }
  clearbody names. subst names. split; [apply names_h_length|]. cbn [names_h]. split; [|split].
  - destruct (Nat.eqb_spec n 3) as [->|D].
    + cbn [map]. assert (X : forall a b : str, a <> b -> a ++ lit "[" ++ unit ++ lit "]" <> b ++ lit "[" ++ unit ++ lit "]")
        by (intros a b NE H; apply NE; now apply app_inv_tail in H).
      repeat constructor; cbn [In]; intro H; repeat (destruct H as [H|H]; [apply app_inv_head, app_inv_head, app_inv_head in H; revert H; apply X; discriminate|]); exact H.
    + apply (NoDup_nth _ ([] : str)). rewrite map_length, seq_length. intros i j Hi Hj H.
      rewrite !nth_map_seq in H by assumption. apply app_inv_head, app_inv_head, app_inv_head, app_inv_head in H.
      apply num_inj. change (lit ")[") with (")"%char :: lit "[") in H. cbn [app] in H.
      apply digits_then in H; [exact H|apply num_digits|apply num_digits].
  - intros ->. reflexivity.
  - intros D i Hi. destruct (Nat.eqb_spec n 3); [contradiction|].
    now rewrite nth_map_seq by exact Hi.
Qed.
Print Assumptions C21_vector_header.
(** the matrix header: row-major, entry (i, j) under "name_frame(ij)[unit]" *)
Theorem C21_matrix_header : forall name frame unit r c texts, plain name -> plain frame -> plain unit ->
  List.length texts = r -> (forall row, In row texts -> List.length row = c /\ Forall plain row) ->
  let names := removelast (cells (write_matrix_header name frame unit r c)) in
  let values := removelast (cells (write_matrix texts)) in
  List.length names = (r * c)%nat /\ List.length values = (r * c)%nat /\
  forall i j, (i < r)%nat -> (j < c)%nat ->
    nth (i * c + j) names [] = name ++ lit "_" ++ frame ++ lit "(" ++ num i ++ num j ++ lit ")[" ++ unit ++ lit "]" /\
    nth (i * c + j) values [] = nth j (nth i texts []) [].
Proof.
  intros name frame unit r c texts P1 P2 P3 LT HT names values.
  set (nm := fun i j => name ++ lit "_" ++ frame ++ lit "(" ++ num i ++ num j ++ lit ")[" ++ unit ++ lit "]").
  assert (N : names = flat_map (fun i => map (nm i) (seq 0 c)) (seq 0 r)).
  { unfold names.
    assert (T : write_matrix_header name frame unit r c = row_text (flat_map (fun i => map (nm i) (seq 0 c)) (seq 0 r))).
    { unfold write_matrix_header. rewrite flat_map_concat_map, row_text_concat, map_map. f_equal. apply map_ext. intro i.
      unfold row_text. rewrite map_map. f_equal. apply map_ext. intro j. unfold nm. rewrite <- !app_assoc. reflexivity. }
    rewrite T, <- (app_nil_r (row_text _)), cells_row.
    - apply removelast_last.
    - apply Forall_flat_map. intros i _. apply Forall_map_all. intros j _. unfold nm. plain_tac. }
  assert (V : values = List.concat texts).
  { unfold values. assert (T : write_matrix texts = row_text (List.concat texts)) by (rewrite row_text_concat; reflexivity).
    rewrite T, <- (app_nil_r (row_text _)), cells_row.
    - apply removelast_last.
    - rewrite <- (map_id texts), <- flat_map_concat_map. apply Forall_flat_map. intros row Hrow. now apply HT. }
  clearbody names values. subst names values.
  assert (K : forall (A : Type) (d : A) (rows : list (list A)), (forall row, In row rows -> List.length row = c) ->
     List.length (List.concat rows) = (List.length rows * c)%nat /\
     forall i j, (i < List.length rows)%nat -> (j < c)%nat -> nth (i * c + j) (List.concat rows) d = nth j (nth i rows []) d).
  { intros A d rows. induction rows as [|row rows IH]; intro H.
    - split; [reflexivity|]. intros i j Hi. cbn in Hi. lia.
    - destruct IH as (IH1 & IH2); [intros; apply H; now right|]. assert (LR : List.length row = c) by (apply H; now left). cbn [List.concat List.length].
      split; [rewrite app_length; lia|]. intros [|i] j Hi Hj.
      + cbn [Nat.mul Nat.add nth]. apply app_nth1. lia.
      + cbn [nth]. rewrite app_nth2 by (rewrite LR; cbn [Nat.mul]; lia). rewrite <- IH2 by lia. f_equal. rewrite LR. cbn [Nat.mul]. lia. }
  destruct (K str [] (map (fun i => map (nm i) (seq 0 c)) (seq 0 r))) as (K1 & K2).
  { intros row Hrow. apply in_map_iff in Hrow. destruct Hrow as (i & <- & _). now rewrite map_length, seq_length. }
  destruct (K str [] texts) as (K3 & K4); [intros row Hrow; now apply HT|].
  rewrite flat_map_concat_map. rewrite map_length, seq_length in K1, K2. split; [exact K1|]. split; [now rewrite K3, LT|].
  intros i j Hi Hj. split; [|apply K4; lia]. rewrite K2 by assumption.
  now rewrite !nth_map_seq by assumption.
Qed.
Print Assumptions C21_matrix_header.
(** with at most ten columns the index text "ij" determines i and j *)
Theorem C21_matrix_index_unambiguous : forall i j i' j',
  (j < 10)%nat -> (j' < 10)%nat -> num i ++ num j = num i' ++ num j' -> i = i' /\ j = j'.
Proof.
  intros i j i' j' Hj Hj' H.
  assert (D : forall k, (k < 10)%nat -> num k = [digit_chr (Z.of_nat k)]).
  { intros k Hk. unfold num, to_string. destruct (Z.ltb_spec (Z.of_nat k) 0); [lia|]. cbn [dec_loop].
    destruct (Z.ltb_spec (Z.of_nat k) 10); [reflexivity|lia]. }
  rewrite (D j Hj), (D j' Hj') in H. apply app_inj_tail in H. destruct H as (H1 & H2). split; [now apply num_inj|].
  apply num_inj. now rewrite (D j Hj), (D j' Hj'), H2.
Qed.
Print Assumptions C21_matrix_index_unambiguous.
(** refuted: for every size.  From 12 x 12 on two different entries carry the same name. *)
Theorem C21_matrix_names_distinct_refuted : forall name frame unit r c,
  plain name -> plain frame -> plain unit -> (12 <= r)%nat -> (12 <= c)%nat ->
  ~ NoDup (removelast (cells (write_matrix_header name frame unit r c))).
Proof.
  intros name frame unit r c P1 P2 P3 R C H.
  destruct (C21_matrix_header name frame unit r c (repeat (repeat [] c) r) P1 P2 P3) as (L & _ & E).
  - apply repeat_length.
  - intros row Hrow. apply repeat_spec in Hrow. subst row. split; [apply repeat_length|]. apply Forall_forall.
    intros x Hx. apply repeat_spec in Hx. subst x. intros [].
  - cbv zeta in L, E. destruct (E 1%nat 11%nat) as (E1 & _); [lia|lia|]. destruct (E 11%nat 1%nat) as (E2 & _); [lia|lia|].
    assert (X : (1 * c + 11 = 11 * c + 1)%nat).
    { apply (proj1 (NoDup_nth _ ([] : str)) H); [rewrite L; nia|rewrite L; nia|]. rewrite E1, E2. reflexivity. }
    lia.
Qed.
Print Assumptions C21_matrix_names_distinct_refuted.

(** ** C60: every loggable class of the repository *)
(** The header and the value text of an object of class c parse to the columns of the table: the same number
    on both sides, the k-th value being the quantity that the table puts under the k-th name. *)
Theorem C60_class_columns : forall c on show, plain_cls c -> (forall e i, plain (show e i)) ->
  let o := object_of c on show in
  cells (log_header o) = map fst (columns show c) ++ [[]] /\ cells (log_value o) = map snd (columns show c) ++ [[]].
Proof.
  intros c on show PC PS o. destruct (object_has_columns show c on PC PS) as (H & V & F). fold o in H, V.
  rewrite row_text_fst in H. rewrite row_text_snd in V. rewrite H, V.
  assert (F1 : Forall plain (map fst (columns show c))) by (rewrite Forall_forall in *; intros x Hx; apply in_map_iff in Hx; destruct Hx as (y & <- & Hy); now apply F).
  assert (F2 : Forall plain (map snd (columns show c))) by (rewrite Forall_forall in *; intros x Hx; apply in_map_iff in Hx; destruct Hx as (y & <- & Hy); now apply F).
  split; (rewrite <- (app_nil_r (row_text _)) at 1; rewrite cells_row by assumption; reflexivity).
Qed.
Print Assumptions C60_class_columns.

(** Any collection of such objects in one log, with the values changing between the rows: name and value in
    every column belong together. *)
Theorem C60_any_log_aligned : forall (kinds : nat -> cls) (flags : nat -> bool) (now later : str -> nat -> str) lg,
  enabled lg = true -> (forall o, In o (log_list lg) -> plain_cls (kinds o)) ->
  (forall e i, plain (now e i)) -> (forall e i, plain (later e i)) ->
  exists h v,
    file (write_headers lg (fun o => object_of (kinds o) (flags o) now) true) = file lg ++ h ++ newline /\
    file (write_values lg (fun o => object_of (kinds o) (flags o) later) true) = file lg ++ v ++ newline /\
    List.length (cells h) = List.length (cells v) /\
    combine (cells h) (cells v) = flat_map (fun o => columns later (kinds o)) (filter flags (log_list lg)) ++ [([], [])].
Proof.
  intros kinds flags now later lg E PC P0 P1.
  destruct (C21_columns_aligned lg (fun o => object_of (kinds o) (flags o) now) (fun o => object_of (kinds o) (flags o) later)
    (fun o => map fst (columns later (kinds o))) (fun o => map snd (columns later (kinds o))) E) as (h & v & H1 & H2 & H3 & _ & _ & H4).
  - intros o _. reflexivity.
  - intros o Ho _. destruct (object_has_columns now (kinds o) (flags o) (PC o Ho) P0) as (A1 & _ & A3).
    destruct (object_has_columns later (kinds o) (flags o) (PC o Ho) P1) as (_ & B2 & B3).
    rewrite row_text_fst in A1. rewrite row_text_snd in B2. split; [|split; [|now rewrite !map_length]].
    + split; [|rewrite Forall_forall in *; intros x Hx; apply in_map_iff in Hx; destruct Hx as (y & <- & Hy); now apply B3].
      rewrite A1. fold (row_text (map fst (columns later (kinds o)))). now rewrite !columns_fst.
    + split; [exact B2|]. rewrite Forall_forall in *; intros x Hx; apply in_map_iff in Hx; destruct Hx as (y & <- & Hy); now apply B3.
  - exists h, v. split; [exact H1|]. split; [exact H2|]. split; [exact H3|]. rewrite H4. f_equal.
    unfold logged. cbn [log_enabled object_of]. rewrite !flat_map_concat_map. f_equal.
    rewrite (filter_ext (fun o => log_enabled (object_of (kinds o) (flags o) now)) flags) by reflexivity.
    apply map_ext. intro o. generalize (columns later (kinds o)) as l. induction l as [|(a, b) l IH]; [reflexivity|]. cbn [map combine fst snd]. now rewrite IH.
Qed.
Print Assumptions C60_any_log_aligned.

(** refuted: column names identify the object.  The position columns of every ground station have the same
    names (the visible flags do carry the id). *)
Theorem C60_ground_station_names_distinct_refuted : forall show id1 id2 n m,
  let l1 := map fst (columns show (GroundStation id1 n)) in let l2 := map fst (columns show (GroundStation id2 m)) in
  skipn n l1 = skipn m l2 /\ List.length (skipn n l1) = 3%nat.
Proof.
  intros show id1 id2 n m l1 l2.
  assert (G : forall id k, skipn k (map fst (columns show (GroundStation id k))) = names_h (HVector (lit "ground_station_position") (lit "eci") (lit "m") 3)).
  { intros id k. rewrite columns_fst. cbn [header_of]. rewrite map_app, concat_app, map_map. cbn [names_h].
    rewrite skipn_app. rewrite (skipn_all2 (List.concat _)).
    - rewrite <- flat_map_concat_map, flat_map_single, map_length, seq_length, Nat.sub_diag. reflexivity.
    - rewrite <- flat_map_concat_map, flat_map_single, map_length, seq_length. apply le_n. }
  unfold l1, l2. rewrite !G. split; reflexivity.
Qed.
Print Assumptions C60_ground_station_names_distinct_refuted.

(** examples *)
Definition ex_show (e : str) (i : nat) : str := num i.
Example ex_log_hyp : plain_cls (CelestialInformation [lit "sun"; lit "moon"]) /\ plain_cls (Temperature [(false, 0%Z, lit "bus"); (true, 1%Z, lit "space")]) /\
  (forall e i, plain (ex_show e i)).
Proof. split; [|split]; [repeat constructor; now apply plainb_plain|repeat constructor; now apply plainb_plain|]. intros e i. apply plain_num. Qed.
Example ex_log_rows :
  let lg := mkLogger true [0; 1]%nat [] in
  let s := fun k : nat => match k with O => object_of (SunSensor 3) true ex_show | _ => object_of Battery true ex_show end in
  cells (file (write_headers lg s false)) =
    map lit ["sun_sensor3_measured_sun_direction_c_x[-]"; "sun_sensor3_measured_sun_direction_c_y[-]"; "sun_sensor3_measured_sun_direction_c_z[-]";
             "sun_sensor3_sun_detected_flag[-]"; "battery_voltage[V]"; "battery_dod[%]"; ""]%string /\
  cells (file (write_values lg s false)) = map lit ["0"; "1"; "2"; "0"; "0"; "0"; ""]%string.
Proof. cbv zeta. split; reflexivity. Qed.
