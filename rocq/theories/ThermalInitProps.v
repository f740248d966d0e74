(** C148, C149: the thermal model built from its CSV files, and the thermal model in use. *)
From Coq Require Import Reals Lra Lia List Bool ZArith Ascii String.
From Verif Require Import Base RBase VecModel VecProofs StringModel SettingModel SettingProofs ThermalModel ThermalSpec ThermalProofs ThermalProps NodeModel
  ThermalInitModel ThermalInitSpec ThermalInitProofs.
Import ListNotations.
Open Scope list_scope.
Open Scope R_scope.

(** C148: a thermal model is built exactly from files that describe one, and it is the one they describe: node i is row
    i + 1 of node.csv, its heat load row i + 1 of heatload.csv over the times of the first row, heater and controller k row
    k + 1 of heaters.csv, the matrices the numbers of cij.csv and rij.csv. *)
Theorem C148_built_iff_described : forall stoi stod solar step heatload node heaters cij rij t,
  init_temperature stoi stod true solar step heatload node heaters cij rij = Ok (Some t) <->
  described stoi stod (read_csv_string heatload) (read_csv_string node) (read_csv_string heaters) (read_csv_string cij) (read_csv_string rij) t /\
  th_step t = step /\ th_solar t = solar.
Proof.
  intros. rewrite <- init_thermal_iff. unfold init_temperature.
  destruct (init_thermal stoi stod solar step heatload node heaters cij rij); cbn [bind]; split; intros E; try discriminate; congruence.
Qed.
Print Assumptions C148_built_iff_described.

(** C148: with the calculation disabled no file is read and there are no nodes. *)
Theorem C148_disabled : forall stoi stod solar step heatload node heaters cij rij,
  init_temperature stoi stod false solar step heatload node heaters cij rij = Ok None.
Proof. reflexivity. Qed.
Print Assumptions C148_disabled.

(** C148: what happens with files that describe no thermal model.  If the conversions give a number or throw, then an
    assertion or a conversion stops the program, unless one of the first three files is missing or empty (or node.csv
    has only its header): then the behaviour is undefined. *)
Theorem C148_failure : forall stoi stod solar step heatload node heaters cij rij,
  (forall s, (exists z, stoi s = Ok z) \/ stoi s = Throw) -> (forall s, (exists x, stod s = Ok x) \/ stod s = Throw) ->
  read_csv_string heatload <> [] -> (2 <= List.length (read_csv_string node))%nat -> read_csv_string heaters <> [] ->
  ~ (exists t, described stoi stod (read_csv_string heatload) (read_csv_string node) (read_csv_string heaters) (read_csv_string cij) (read_csv_string rij) t) ->
  init_temperature stoi stod true solar step heatload node heaters cij rij = Throw.
Proof.
  intros stoi stod solar step hl nd ht c r P Q A B C N.
  pose proof (init_thermal_failure stoi stod P Q solar step hl nd ht c r A B C) as G. unfold init_temperature.
  destruct (init_thermal stoi stod solar step hl nd ht c r) as [t| | |] eqn:E; cbn [bind]; try destruct G; [|reflexivity].
  exfalso. apply N. exists t. now apply init_thermal_iff in E.
Qed.
Print Assumptions C148_failure.
Theorem C148_missing_file_is_ub : forall stoi stod solar step heatload node heaters cij rij,
  let build := init_temperature stoi stod true solar step in
  build [] node heaters cij rij = UB /\
  (forall times rest loads, read_csv_string heatload = times :: rest -> each_row (init_heatload stoi stod times) rest = Ok loads ->
     build heatload [] heaters cij rij = UB) /\
  (forall times header, read_csv_string heatload = [times] -> read_csv_string node = [header] ->
     build heatload node [] cij rij = UB /\
     (heaters <> [] -> (forall row, In row (tl (read_csv_string heaters)) -> exists h, init_heater_row stoi stod row = Ok h) ->
      tl (read_csv_string cij) = [] -> tl (read_csv_string rij) = [] -> build heatload node heaters cij rij = UB)).
Proof.
  intros stoi stod solar step hl nd ht cij rij build. unfold build, init_temperature, init_thermal. split; [reflexivity|]. split.
  - intros times rest loads E L. rewrite E, L. reflexivity.
  - intros times header E1 E2. rewrite E1, E2. cbn [each_row bind List.length Nat.eqb negb]. split; [reflexivity|].
    intros N H C R. destruct (read_csv_string ht) as [|h0 hr] eqn:E3.
    { exfalso. destruct ht as [|a ht]; [congruence|]. unfold read_csv_string, getlines in E3. cbn [map split_from] in E3.
      destruct (Ascii.eqb a nl); [discriminate|]. revert E3. generalize [a]. clear. induction ht as [|b ht IH]; intros cur; cbn [split_from map]; [discriminate|].
      destruct (Ascii.eqb b nl); [discriminate|apply IH]. }
    cbn [tl] in H.
    assert (X : exists hs, each_row (init_heater_row stoi stod) hr = Ok hs).
    { clear - H. induction hr as [|r hr IH]; [eexists; reflexivity|]. destruct (H r (or_introl eq_refl)) as (x & E).
      destruct IH as (l & L); [intros; apply H; now right|]. exists (x :: l). cbn [each_row]. now rewrite E, L. }
    destruct X as (hs & X). rewrite X. cbn [bind].
    rewrite !read_csv_with_header_spec, !tl_skipn, C, R. reflexivity.
Qed.
Print Assumptions C148_missing_file_is_ub.

(** two rows that differ at most in their first cell, which is a number in both *)
Definition same_but_id (stoi : str -> outcome Z) (row row' : list str) : Prop :=
  List.length row = List.length row' /\ tl row = tl row' /\ exists id, stoi (nth 0 row' []) = Ok id.
Definition same_but_ids (stoi : str -> outcome Z) (rows rows' : list (list str)) : Prop :=
  List.length rows = List.length rows' /\ nth_error rows 0 = nth_error rows' 0 /\
  forall i row row', nth_error rows (S i) = Some row -> nth_error rows' (S i) = Some row' -> same_but_id stoi row row'.
(** C148: rows count by their position: the ids in the first column of the files are converted and otherwise ignored. *)
Theorem C148_ids_ignored : forall stoi stod L N H C Rr L' N' H' t,
  same_but_ids stoi L L' -> same_but_ids stoi N N' -> same_but_ids stoi H H' ->
  described stoi stod L N H C Rr t -> described stoi stod L' N' H' C Rr t.
Proof.
  assert (K : forall stoi row row' c, same_but_id stoi row row' -> cell row (S c) = cell row' (S c)).
  { intros stoi [|a row] [|b row'] c (A & B & _); cbn in A, B; try discriminate; [reflexivity|]. unfold cell. cbn. now rewrite B. }
  assert (P : forall stoi rows rows' i row', same_but_ids stoi rows rows' -> nth_error rows' (S i) = Some row' ->
    exists row, nth_error rows (S i) = Some row /\ same_but_id stoi row row').
  { intros stoi rows rows' i row' (A & _ & B) E. destruct (nth_error rows (S i)) as [row|] eqn:E2.
    - exists row. split; [reflexivity|]. eapply B; eassumption.
    - exfalso. apply nth_error_None in E2. assert (nth_error rows' (S i) <> None) by congruence. apply nth_error_Some in H. lia. }
  intros stoi stod L N H C Rr L' N' H' t SL SN SH (P1 & P2 & P3 & P4 & P5 & P6 & P7 & P8 & P9 & P10 & P11 & P12 & D1 & D2 & D3 & D4 & D5).
  pose proof (proj1 SL). pose proof (proj1 SN). pose proof (proj1 SH).
  unfold described. repeat (split; [lia|]). split; [|split; [|split; [|split; assumption]]].
  - intros i row' node E F. destruct (P _ _ _ _ _ SN E) as (row & E' & Q). specialize (D1 i row node E' F).
    destruct D1 as (l & id & ty & he & cap & al & ep & ar & nx & ny & nz & te & G). split; [destruct Q; lia|].
    pose proof Q as (_ & _ & id' & I). exists id', ty, he, cap, al, ep, ar, nx, ny, nz, te. unfold int_cell, num_cell in *.
    rewrite <- !(K _ _ _ _ Q). split; [exact I|]. tauto.
  - intros i times row' ld E F Z. destruct (P _ _ _ _ _ SL F) as (row & E' & Q). destruct SL as (_ & S0 & _). rewrite <- S0 in E.
    destruct (D2 i times row ld E E' Z) as (A1 & A2 & A3 & A4 & A5 & A6). destruct Q as (Q1 & Q2 & id & I).
    unfold load_row. rewrite <- Q1, <- Q2. repeat (split; [assumption|]). split; [|tauto]. exists id. exact I.
  - intros k row' h c E F Z. destruct (P _ _ _ _ _ SH E) as (row & E' & Q). destruct (D3 k row h c E' F Z) as (l & id & po & lo & up & G).
    split; [destruct Q; lia|]. pose proof Q as (_ & _ & id' & I). exists id', po, lo, up. unfold int_cell, num_cell in *.
    rewrite <- !(K _ _ _ _ Q). split; [exact I|]. tauto.
Qed.
Print Assumptions C148_ids_ignored.

(** * C149 *)

Lemma input_loop_ok c r T i js con rad :
  (forall j, In j js -> (j < List.length c)%nat /\ (j < List.length r)%nat) ->
  input_loop c r T i js con rad = Ok (fold_left (fun a j => a + nth j c 0 * (T j - T i)) js con
    + fold_left (fun a j => a + stefan_boltzmann * nth j r 0 * (T j ^ 4 - T i ^ 4)) js rad).
Proof.
  revert con rad. induction js as [|j js IH]; intros con rad H; [reflexivity|]. cbn [input_loop fold_left].
  destruct (H j (or_introl eq_refl)) as [A B]. rewrite (nth_error_nth' c 0 A), (nth_error_nth' r 0 B). apply IH. intros; apply H; now right.
Qed.
Lemma fold_sumn (f : nat -> R) n a : fold_left (fun a j => a + f j) (seq 0 n) a = a + sumn n f.
Proof.
  induction n as [|n IH]; [cbn; lra|]. rewrite seq_S, fold_left_app, IH. cbn [fold_left plus sumn]. lra.
Qed.
Lemma input_loop_ub c r T i js con rad : (exists j, In j js /\ (List.length c <= j \/ List.length r <= j)%nat) -> input_loop c r T i js con rad = UB.
Proof.
  revert con rad. induction js as [|j js IH]; intros con rad (k & K & B); [destruct K|]. cbn [input_loop].
  destruct (nth_error c j) eqn:E1; [|reflexivity]. destruct (nth_error r j) eqn:E2; [|reflexivity].
  apply IH. destruct K as [->|K]; [|eauto]. exfalso.
  assert (k < List.length c)%nat by (apply nth_error_Some; congruence). assert (k < List.length r)%nat by (apply nth_error_Some; congruence). lia.
Qed.

(** C149: the heat that node i takes from the other nodes is that of the conductances and exchange areas in row i of the
    two files, if those rows have a number for every node; otherwise the table is read out of bounds.  (Only the length
    of the first row is checked when the model is built.) *)
Theorem C149_heat_input : forall stoi stod solar step heatload node heaters cij rij t T i ci ri,
  init_temperature stoi stod true solar step heatload node heaters cij rij = Ok (Some t) ->
  nth_error (th_cij t) i = Some ci -> nth_error (th_rij t) i = Some ri ->
  let n := List.length (th_nodes t) in
  (i < n)%nat /\
  ((n <= List.length ci)%nat -> (n <= List.length ri)%nat ->
     heat_input t T i = Ok (heat_flow n (fun i j => nth j (nth i (th_cij t) []) 0) (fun i j => nth j (nth i (th_rij t) []) 0) stefan_boltzmann T i) /\
     exists row row', nth_error (read_csv_string cij) (S i) = Some row /\ matrix_row stod row ci /\
       nth_error (read_csv_string rij) (S i) = Some row' /\ matrix_row stod row' ri) /\
  ((List.length ci < n)%nat \/ (List.length ri < n)%nat -> heat_input t T i = UB).
Proof.
  intros stoi stod solar step hl nd ht c r t T i ci ri E Ci Ri n. apply C148_built_iff_described in E as [D _].
  destruct D as (P1 & P2 & P3 & P4 & P5 & P6 & P7 & P8 & P9 & P10 & P11 & P12 & D1 & D2 & D3 & D4 & D5). fold n in P1, P9, P10, P7, P8.
  assert (Hi : (i < n)%nat) by (rewrite <- P9; apply nth_error_Some; congruence). split; [exact Hi|]. split.
  - intros A B. split.
    + unfold heat_input. rewrite Ci, Ri. fold n. rewrite input_loop_ok by (intros j J; apply in_seq in J; lia).
      rewrite !fold_sumn. f_equal. unfold heat_flow. rewrite sumn_plus.
      rewrite (nth_error_nth _ _ [] Ci), (nth_error_nth _ _ [] Ri). lra.
    + assert (X : exists row, nth_error (read_csv_string c) (S i) = Some row).
      { destruct (nth_error (read_csv_string c) (S i)) eqn:X; [eauto|]. apply nth_error_None in X. destruct (read_csv_string c); cbn in *; lia. }
      assert (Y : exists row, nth_error (read_csv_string r) (S i) = Some row).
      { destruct (nth_error (read_csv_string r) (S i)) eqn:Y; [eauto|]. apply nth_error_None in Y. destruct (read_csv_string r); cbn in *; lia. }
      destruct X as (row & X). destruct Y as (row' & Y). exists row, row'. repeat split; eauto.
  - intros S0. unfold heat_input. rewrite Ci, Ri. fold n. apply input_loop_ub.
    destruct S0; [exists (List.length ci)|exists (List.length ri)]; (split; [apply in_seq; lia|lia]).
Qed.
Print Assumptions C149_heat_input.

(** C149: with complete, symmetric matrix files heat is moved between the nodes, never created *)
Theorem C149_symmetric_files_conserve_energy : forall stoi stod solar step heatload node heaters cij rij t T,
  init_temperature stoi stod true solar step heatload node heaters cij rij = Ok (Some t) ->
  let n := List.length (th_nodes t) in
  Forall (fun row => (n <= List.length row)%nat) (th_cij t) -> Forall (fun row => (n <= List.length row)%nat) (th_rij t) ->
  symmetric n (fun i j => nth j (nth i (th_cij t) []) 0) -> symmetric n (fun i j => nth j (nth i (th_rij t) []) 0) ->
  exists q, (forall i, (i < n)%nat -> heat_input t T i = Ok (q i)) /\ sumn n q = 0.
Proof.
  intros stoi stod solar step hl nd ht c r t T E n FC FR SC SR.
  exists (heat_flow n (fun i j => nth j (nth i (th_cij t) []) 0) (fun i j => nth j (nth i (th_rij t) []) 0) stefan_boltzmann T). split.
  - intros i Hi. pose proof E as E'. apply C148_built_iff_described in E' as [(_ & _ & _ & _ & _ & _ & _ & _ & P9 & P10 & _) _]. fold n in P9, P10.
    assert (X : exists ci, nth_error (th_cij t) i = Some ci) by (destruct (nth_error (th_cij t) i) eqn:X; [eauto|apply nth_error_None in X; lia]).
    assert (Y : exists ri, nth_error (th_rij t) i = Some ri) by (destruct (nth_error (th_rij t) i) eqn:Y; [eauto|apply nth_error_None in Y; lia]).
    destruct X as (ci & X). destruct Y as (ri & Y).
    destruct (C149_heat_input _ _ _ _ _ _ _ _ _ _ T i ci ri E X Y) as (_ & A & _). apply A.
    + rewrite Forall_forall in FC. apply FC. eapply nth_error_In; eassumption.
    + rewrite Forall_forall in FR. apply FR. eapply nth_error_In; eassumption.
  - now apply C51_exchange_conserves_energy.
Qed.
Print Assumptions C149_symmetric_files_conserve_energy.

(** C149: the internal heat load of node i is the piecewise linear interpolation of row i + 1 of heatload.csv; with a single
    time column the model is built and the first use reads out of bounds *)
Theorem C149_internal_load : forall stoi stod solar step heatload node heaters cij rij t i l times_row row,
  init_temperature stoi stod true solar step heatload node heaters cij rij = Ok (Some t) ->
  nth_error (th_loads t) i = Some l ->
  nth_error (read_csv_string heatload) 0 = Some times_row -> nth_error (read_csv_string heatload) (S i) = Some row ->
  Forall2 (fun c x => stod c = Ok x) (tl times_row) (times l) /\ Forall2 (fun c x => stod c = Ok x) (tl row) (watts l) /\
  (forall history s r, profile (times l) (watts l) -> Forall (fun x => 0 <= x) history -> 0 <= s ->
     time_in_period (last (times l) 0) s r ->
     (forall x, In x history -> exists r', time_in_period (last (times l) 0) x r' /\ r' <= r) ->
     exists h w, elapsed_run l (history ++ [s]) = Ok h /\ internal_load h = Ok (Some w) /\ interpolates (times l) (watts l) r w) /\
  (List.length times_row = 2%nat -> forall s, elapsed_run l [s] = UB).
Proof.
  intros stoi stod solar step hl nd ht c r t i l tr row E L T0 Ti. apply C148_built_iff_described in E as [D _].
  destruct D as (_ & _ & _ & _ & _ & _ & _ & _ & _ & _ & _ & _ & _ & D2 & _).
  destruct (D2 i tr row l T0 Ti L) as (A1 & A2 & A3 & A4 & A5 & A6).
  split; [exact A4|]. split; [exact A5|]. split.
  - intros history s x P F Hs Pr Hi. destruct (C34_interpolation _ _ history s x P F Hs Pr Hi) as (h0 & h & w & N & G).
    rewrite A6 in N. injection N as <-. eauto.
  - intros Q s. destruct tr as [|a [|b [|]]]; try discriminate. destruct row as [|d [|e [|]]]; try discriminate A2.
    cbn [tl] in A4, A5. inversion A4 as [|? x ? xs X1 X2 X3 X4]; subst. inversion X2; subst.
    inversion A5 as [|? y ? ys Y1 Y2 Y3 Y4]; subst. inversion Y2; subst.
    cbn [elapsed_run]. unfold set_elapsed. rewrite <- X4. cbn [List.length index_loop nth_error].
    rewrite <- X4, <- Y4 in A6. unfold heatload_new in A6. cbn [List.length Nat.eqb] in A6. injection A6 as <-. reflexivity.
Qed.
Print Assumptions C149_internal_load.

(** C149: a node whose heater column says 0 has no heater, k >= 1 means the heater in row k of heaters.csv (its position, not
    its id); any other number, negative ones included, makes the heater table be read out of bounds *)
Theorem C149_heater_of_node : forall stoi stod solar step heatload node heaters cij rij t i row z hs,
  init_temperature stoi stod true solar step heatload node heaters cij rij = Ok (Some t) ->
  nth_error (read_csv_string node) (S i) = Some row -> stoi (nth 3 row []) = Ok z -> (- 2 ^ 31 <= z < 2 ^ 31)%Z ->
  List.length hs = List.length (th_heaters t) -> (Z.of_nat (List.length hs) < 2 ^ 63)%Z ->
  let power := heater_power (network_of t) hs i in
  (z = 0%Z -> power = Ok 0) /\
  (forall k h, z = Z.of_nat (S k) -> nth_error hs k = Some h -> power = Ok (output h)) /\
  ((z < 0)%Z \/ (Z.of_nat (List.length hs) < z)%Z -> power = UB).
Proof.
  intros stoi stod solar step hl nd ht c r t i row z hs E N Z R L B. apply C148_built_iff_described in E as [D _].
  destruct D as (P1 & P2 & _ & _ & _ & _ & _ & _ & _ & _ & _ & _ & D1 & _).
  assert (X : exists n, nth_error (th_nodes t) i = Some n).
  { destruct (nth_error (th_nodes t) i) eqn:X; [eauto|]. apply nth_error_None in X.
    assert (S i < List.length (read_csv_string nd))%nat by (apply nth_error_Some; congruence). lia. }
  destruct X as (n & X). destruct (D1 i row n N X) as (_ & id & ty & he & cap & al & ep & ar & nx & ny & nz & te & _ & _ & H3 & G).
  unfold int_cell, cell in H3. assert (he = z) by congruence. subst he. destruct G as (_ & _ & _ & _ & _ & _ & _ & _ & _ & _ & H & _).
  assert (Q : heater_id (network_of t) i = tn_heater n) by (unfold network_of; cbn [heater_id]; now rewrite (nth_error_nth _ _ node_default X)).
  cbv zeta. unfold heater_power. rewrite Q.
  split; [|split].
  - intros ->. change (0 mod 18446744073709551616)%Z with 0%Z in H. replace (tn_heater n) with 0%nat by lia. reflexivity.
  - intros k h -> K. rewrite Z.mod_small in H by lia. replace (tn_heater n) with (S k) by lia. now rewrite K.
  - intros O. assert (T : (List.length hs < tn_heater n)%nat).
    { destruct O as [O|O]; [|rewrite Z.mod_small in H by lia; lia].
      rewrite <- (Z.mod_add z 1) in H by lia. rewrite Z.mod_small in H by lia. lia. }
    destruct (tn_heater n) as [|k]; [lia|]. assert (M : nth_error hs k = None) by (apply nth_error_None; lia). now rewrite M.
Qed.
Print Assumptions C149_heater_of_node.

(** C149: the normal vector of a node of type 0 is the unit vector in the direction of the three numbers (NaN if they are 0) *)
Theorem C149_unit_normal : forall stoi stod row n, node_row stoi stod row n -> stoi (nth 2 row []) = Ok 0%Z ->
  (exists x y z v, stod (nth 8 row []) = Ok x /\ stod (nth 9 row []) = Ok y /\ stod (nth 10 row []) = Ok z /\ tn_normal n = Some v /\
     norm 3 v = 1 /\ exists k, 0 < k /\ v3 x y z 0%nat = k * v 0%nat /\ v3 x y z 1%nat = k * v 1%nat /\ v3 x y z 2%nat = k * v 2%nat) \/
  (tn_normal n = None /\ stod (nth 8 row []) = Ok 0 /\ stod (nth 9 row []) = Ok 0 /\ stod (nth 10 row []) = Ok 0).
Proof.
  intros stoi stod row n (_ & id & ty & he & cap & al & ep & ar & nx & ny & nz & te & _ & Ty & _ & _ & _ & _ & _ & X & Y & Z & _ & _ & _ & _ & _ & _ & _ & _ & _ & N) T.
  unfold int_cell, num_cell, cell in *. assert (ty = 0%Z) by congruence. subst ty. destruct (Z.eq_dec 0 0); [|congruence].
  set (s := nx * nx + ny * ny + nz * nz) in *. assert (S0 : 0 <= s) by (unfold s; nra).
  destruct (Req_EM_T (sqrt s) 0) as [Q|Q].
  - right. split; [exact N|]. apply sqrt_eq_0 in Q; [|exact S0]. unfold s in Q.
    assert (nx = 0 /\ ny = 0 /\ nz = 0) as (-> & -> & ->) by (repeat split; nra). auto.
  - left. assert (P : 0 < sqrt s) by (pose proof (sqrt_pos s); lra).
    exists nx, ny, nz, (fun i => v3 nx ny nz i / sqrt s). repeat (split; [assumption|]). split.
    + unfold norm. rewrite sumn3. cbn [v3].
      assert (A : forall k, k <> 0 -> nx / k * (nx / k) + ny / k * (ny / k) + nz / k * (nz / k) = s / (k * k)) by (intros k K; unfold s; field; exact K).
      rewrite A by exact Q.
      rewrite sqrt_sqrt by exact S0. unfold Rdiv. rewrite Rinv_r; [apply sqrt_1|]. intros Z0. rewrite Z0, sqrt_0 in P. lra.
    + exists (sqrt s). split; [exact P|]. cbn [v3]. repeat split; field; exact Q.
Qed.
Print Assumptions C149_unit_normal.

(** * Concrete cases *)
(** one-digit cells *)
Definition digit_z (s : str) : outcome Z := match s with [c] => Ok (code c - 48)%Z | _ => Throw end.
Definition digit_r (s : str) : outcome R := let! z := digit_z s in Ok (IZR z).
Definition text (lines : list string) : str := List.concat (map (fun l => lit l ++ [nl]) lines).
Definition ex_loads := text ["t,0,8"; "0,1,1"; "1,5,7"]%string.
Definition ex_loads_swapped := text ["t,0,8"; "1,1,1"; "0,5,7"]%string.
Definition ex_nodes := text ["id,label,type,heater,c,alpha,eps,area,x,y,z,T"; "0,BUS,0,1,8,0,0,1,2,0,0,3"; "1,SAP,3,0,1,0,0,1,3,0,4,2"]%string.
Definition ex_heaters := text ["id,p,lo,up"; "1,9,2,6"]%string.
Definition ex_cij := text [",a,b"; "a,0,2"; "b,2,0"]%string.
Definition ex_rij := text [",a,b"; "a,0,1"; "b,1,0"]%string.
Definition ex_cij_ragged := text [",a,b"; "a,0,2"; "b,2"]%string.
Example C148_ex_built : exists t, init_temperature digit_z digit_r true true 1 ex_loads ex_nodes ex_heaters ex_cij ex_rij = Ok (Some t) /\
  List.length (th_nodes t) = 2%nat /\ nth_error (th_cij t) 1 = Some [2; 0].
Proof. eexists. split; [reflexivity|]. split; reflexivity. Qed.
Example C148_ex_throw : init_temperature digit_z digit_r true true 1 ex_loads ex_nodes ex_heaters (text [",a,b"; "a,0,2"]%string) ex_rij = Throw.
Proof. reflexivity. Qed.
Example C148_ex_profile : profile [0; 8] [5; 7].
Proof. split; [cbn; lia|]. split; [reflexivity|]. split; [reflexivity|]. intros [|[|i]] [|[|j]] H; cbn in *; try lia; lra. Qed.

(** C148 (refuted): "a heat load belongs to the node whose id is in its first column".  With the ids of the two rows of
    heatload.csv exchanged, exactly the same model is built. *)
Theorem C148_loads_belong_to_the_named_node_refuted : exists t l,
  nth_error (read_csv_string ex_loads_swapped) 2 = Some [lit "0"; lit "5"; lit "7"] /\
  init_temperature digit_z digit_r true true 1 ex_loads_swapped ex_nodes ex_heaters ex_cij ex_rij = Ok (Some t) /\
  init_temperature digit_z digit_r true true 1 ex_loads ex_nodes ex_heaters ex_cij ex_rij = Ok (Some t) /\
  (** the row that names node 0 is the load of node 1 *)
  nth_error (th_loads t) 1 = Some l /\ watts l = [5; 7] /\ (forall l', nth_error (th_loads t) 0 = Some l' -> watts l' = [1; 1]).
Proof.
  eexists. eexists. split; [reflexivity|]. split; [reflexivity|]. split; [reflexivity|]. split; [reflexivity|]. split; [reflexivity|].
  intros l' E. injection E as <-. reflexivity.
Qed.
Print Assumptions C148_loads_belong_to_the_named_node_refuted.

(** C149 (refuted): "a thermal model that was accepted never reads outside its tables" *)
Theorem C149_accepted_model_is_safe_refuted : exists t,
  init_temperature digit_z digit_r true true 1 ex_loads ex_nodes ex_heaters ex_cij_ragged ex_rij = Ok (Some t) /\
  forall T, heat_input t T 1 = UB.
Proof. eexists. split; [reflexivity|]. intros T. reflexivity. Qed.
Print Assumptions C149_accepted_model_is_safe_refuted.

(** C149 (refuted): "every diffusive node has a unit normal": a type other than 0, 1, 2 is taken as diffusive but its normal
    is kept as written, here of length 5, so that its solar load is five times too large *)
Theorem C149_diffusive_unit_normal_refuted : exists t n v,
  init_temperature digit_z digit_r true true 1 ex_loads ex_nodes ex_heaters ex_cij ex_rij = Ok (Some t) /\
  nth_error (th_nodes t) 1 = Some n /\ tn_type n = Diffusive /\ tn_normal n = Some v /\ norm 3 v = 5.
Proof.
  do 3 eexists. split; [reflexivity|]. split; [reflexivity|]. split; [reflexivity|]. split; [reflexivity|].
  unfold norm. rewrite sumn3. cbn [VecModel.v3]. replace (_ + _ + _) with (5 * 5); [apply sqrt_square; lra|]. change (5 * 5 = 3 * 3 + 0 * 0 + 4 * 4). lra.
Qed.
Print Assumptions C149_diffusive_unit_normal_refuted.
