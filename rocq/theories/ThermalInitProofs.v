From Coq Require Import Reals Lra Lia List Bool ZArith Ascii String.
From Verif Require Import Base RBase VecModel VecProofs StringModel SettingModel SettingSpec SettingProofs ThermalModel NodeModel ThermalInitModel ThermalInitSpec.
Import ListNotations.
Open Scope list_scope.
Open Scope R_scope.

Lemma bind_ok {A B} (m : outcome A) (k : A -> outcome B) b : bind m k = Ok b <-> exists a, m = Ok a /\ k a = Ok b.
Proof.
  destruct m; cbn [bind]; split; intros H; try discriminate; try (destruct H as (x & E & _); discriminate).
  - eauto.
  - destruct H as (x & E & K). injection E as <-. exact K.
Qed.
Lemma pos_max x : (if rlt x 0 then 0 else x) = Rmax x 0.
Proof. unfold Rmax, rlt. destruct (Rle_dec x 0); destruct (Rlt_dec x 0); lra. Qed.
Lemma unit_max x : (if rlt x 0 || rlt 1 x then 0 else x) = (if Rlt_dec 1 x then 0 else Rmax x 0).
Proof. unfold Rmax, rlt. destruct (Rle_dec x 0); destruct (Rlt_dec x 0); destruct (Rlt_dec 1 x); cbn [orb]; lra. Qed.
Lemma norm_v3 x y z : norm 3 (v3 x y z) = sqrt (x * x + y * y + z * z).
Proof. unfold norm. rewrite sumn3. reflexivity. Qed.
Lemma node_type_match t : node_type_of t = match t with 1%Z => Boundary | 2%Z => Arithmetic | _ => Diffusive end.
Proof.
  unfold node_type_of. destruct (Z.eqb_spec t 1); [subst; reflexivity|]. destruct (Z.eqb_spec t 2); [subst; reflexivity|].
  destruct t as [|q|q]; [reflexivity| |reflexivity]. destruct q as [q|q|]; try lia; try reflexivity.
  destruct q; try lia; reflexivity.
Qed.
Lemma size_of_int_spec z : Z.of_nat (size_of_int z) = (z mod 18446744073709551616)%Z.
Proof. unfold size_of_int. change (2 ^ 64)%Z with 18446744073709551616%Z. pose proof (Z.mod_pos_bound z 18446744073709551616). lia. Qed.
Lemma normal_spec ty nx ny nz : node_normal ty (v3 nx ny nz) =
  if Z.eq_dec ty 0 then
    if Req_EM_T (sqrt (nx * nx + ny * ny + nz * nz)) 0 then None else Some (fun i => v3 nx ny nz i / sqrt (nx * nx + ny * ny + nz * nz))
  else Some (v3 nx ny nz).
Proof.
  unfold node_normal. rewrite norm_v3. unfold req.
  destruct (Z.eqb_spec ty 0); destruct (Z.eq_dec ty 0); try contradiction; try reflexivity.
  destruct (Req_EM_T _ _); reflexivity.
Qed.

Section rows.
Variable stoi : str -> outcome Z.
Variable stod : str -> outcome R.
Local Ltac peel H := apply bind_ok in H; let v := fresh "v" in let E := fresh "E" in destruct H as (v & E & H).

Lemma init_node_iff row n : init_node stoi stod row = Ok n <-> node_row stoi stod row n.
Proof.
  unfold init_node, node_row. split.
  - do 13 (destruct row as [|? row]; try discriminate). intros H. do 11 peel H.
    injection H as <-. split; [reflexivity|].
    exists v, v0, v1, v2, v3, v4, v5, v6, v7, v8, v9.
    unfold int_cell, num_cell, cell. cbn [nth tn_label tn_type tn_heater tn_params tn_normal].
    repeat (split; [assumption || reflexivity|]).
    unfold assert_params. cbn [n_temperature n_capacity n_alpha n_epsilon n_area].
    rewrite !pos_max, !unit_max, node_type_match, size_of_int_spec, normal_spec. repeat split; reflexivity.
  - intros (L & id & ty & heater & cap & alpha & eps & area & nx & ny & nz & temp & H).
    do 13 (destruct row as [|? row]; try discriminate). clear L.
    unfold int_cell, num_cell, cell in H. cbn [nth] in H.
    destruct H as (E0 & E1 & E2 & E3 & E4 & E5 & E6 & E7 & E8 & E9 & E10 & F1 & F2 & F3 & F4 & F5 & F6 & F7 & F8 & F9).
    rewrite E0, E1, E2, E3, E4, E5, E6, E7, E8, E9, E10. cbn [bind]. f_equal.
    destruct n as [lab tt hh pp nn]. destruct pp as [p1 p2 p3 p4 p5].
    cbn [tn_label tn_type tn_heater tn_params tn_normal n_temperature n_capacity n_alpha n_epsilon n_area] in *.
    subst. f_equal.
    + apply node_type_match.
    + apply Nat2Z.inj. now rewrite size_of_int_spec.
    + unfold assert_params. cbn [n_temperature n_capacity n_alpha n_epsilon n_area]. now rewrite !pos_max, !unit_max.
    + apply normal_spec.
Qed.

Lemma init_heater_row_iff row h c : init_heater_row stoi stod row = Ok (h, c) <-> heater_row stoi stod row h c.
Proof.
  unfold init_heater_row, init_heater, init_controller, heater_row. split.
  - do 5 (destruct row as [|? row]; try discriminate). intros H. cbn [bind] in H.
    destruct (stoi s) eqn:E0; try discriminate. cbn [bind] in H. destruct (stod s0) eqn:E1; try discriminate. cbn [bind] in H.
    destruct (stod s1) eqn:E2; try discriminate. cbn [bind] in H. destruct (stod s2) eqn:E3; try discriminate. cbn [bind] in H.
    injection H as <- <-. split; [reflexivity|]. exists a, a0, a1, a2. unfold int_cell, num_cell, cell. cbn [nth].
    unfold heater_new, controller_new. cbn [rating is_on output lower upper]. rewrite pos_max.
    repeat (split; [assumption || reflexivity|]). unfold rlt. now destruct (Rlt_dec a2 a1).
  - intros (L & id & p & lo & up & E0 & E1 & E2 & E3 & F1 & F2 & F3 & F4 & F5).
    do 5 (destruct row as [|? row]; try discriminate). unfold int_cell, num_cell, cell in *. cbn [nth] in *.
    rewrite E0, E1, E2, E3. cbn [bind]. destruct h as [a b c']. destruct c as [l u]. cbn [rating is_on output lower upper] in *.
    subst. unfold heater_new, controller_new. rewrite pos_max. unfold rlt. now destruct (Rlt_dec up lo).
Qed.

Lemma read_profile_iff ts ws a b : List.length ts = List.length ws ->
  read_profile stod ts ws = Ok (a, b) <-> Forall2 (fun c t => stod c = Ok t) ts a /\ Forall2 (fun c t => stod c = Ok t) ws b.
Proof.
  revert ws a b. induction ts as [|t ts IH]; intros [|w ws] a b L; try discriminate; cbn [read_profile].
  - split; [intros E; injection E as <- <-; split; constructor|intros [A B]; inversion A; inversion B; reflexivity].
  - injection L as L. split.
    + intros H. peel H. peel H. peel H. destruct v1 as [x y]. injection H as <- <-.
      apply IH in E1 as [A B]; [|exact L]. split; constructor; assumption.
    + intros [A B]. inversion A as [|? t' ? a' T1 T2]; inversion B as [|? w' ? b' W1 W2]; subst.
      rewrite T1, W1. cbn [bind]. assert (Q : read_profile stod ts ws = Ok (a', b')) by (apply IH; [exact L|split; assumption]).
      now rewrite Q.
Qed.
Lemma heatload_new_tables a b l : heatload_new a b = Ok l -> times l = a /\ watts l = b.
Proof. unfold heatload_new. destruct a; [discriminate|]. destruct b; [discriminate|]. destruct (Nat.eqb _ _); [|discriminate]. intros E. now injection E as <-. Qed.
Lemma init_heatload_iff tr row l : init_heatload stoi stod tr row = Ok l <-> load_row stoi stod tr row l.
Proof.
  unfold init_heatload, load_row.
  destruct (Nat.ltb_spec (List.length tr) 2); cbn [orb]; [split; [discriminate|intros (A & B & _); lia]|].
  destruct (Nat.ltb_spec (List.length row) 2); cbn [orb]; [split; [discriminate|intros (A & B & _); lia]|].
  destruct (Nat.eqb_spec (List.length tr) (List.length row)) as [Q|Q]; cbn [negb orb]; [|split; [discriminate|intros (A & B & _); lia]].
  destruct tr as [|t0 ts]; [cbn in H; lia|]. destruct row as [|id ws]; [cbn in H0; lia|].
  injection Q as Q. cbn [tl]. unfold int_cell, cell. cbn [nth]. split.
  - intros E. peel E. peel E. destruct v0 as [a b]. apply read_profile_iff in E1; [|exact Q]. destruct (heatload_new_tables _ _ _ E) as [-> ->].
    repeat split; try assumption; try (cbn; lia); [eauto|apply E1|apply E1].
  - intros (_ & _ & (z & Z) & A & B & C). rewrite Z. cbn [bind].
    assert (P : read_profile stod ts ws = Ok (times l, watts l)) by (apply read_profile_iff; [exact Q|split; assumption]).
    rewrite P. exact C.
Qed.
End rows.

Lemma each_row_iff {A B} (f : A -> outcome B) rows l : each_row f rows = Ok l <-> Forall2 (fun r x => f r = Ok x) rows l.
Proof.
  revert l. induction rows as [|r rows IH]; intros l; cbn [each_row].
  - split; [intros E; injection E as <-; constructor|intros E; now inversion E].
  - split.
    + intros H. apply bind_ok in H as (x & E & H). apply bind_ok in H as (k & E2 & H). injection H as <-. constructor; [exact E|now apply IH].
    + intros H. inversion H as [|? x ? k H1 H2]; subst. rewrite H1. cbn [bind]. apply IH in H2. now rewrite H2.
Qed.
Lemma Forall2_nth_iff {A B} (P : A -> B -> Prop) l m :
  Forall2 P l m <-> List.length l = List.length m /\ forall i x y, nth_error l i = Some x -> nth_error m i = Some y -> P x y.
Proof.
  revert m. induction l as [|a l IH]; intros [|b m]; split; intros H.
  - split; [reflexivity|intros [|i] x y; discriminate].
  - constructor.
  - inversion H.
  - destruct H; discriminate.
  - inversion H.
  - destruct H; discriminate.
  - inversion H as [|? ? ? ? H1 H2]; subst. apply IH in H2 as [L N]. split; [cbn; now f_equal|].
    intros [|i] x y E F; cbn in *; [injection E as <-; injection F as <-; exact H1|eapply N; eassumption].
  - destruct H as [L N]. constructor; [apply (N 0%nat); reflexivity|]. apply IH. split; [now injection L|].
    intros i x y E F. apply (N (S i)); assumption.
Qed.

Section build.
Variable stoi : str -> outcome Z.
Variable stod : str -> outcome R.
Lemma tl_skipn {A} (l : list A) : skipn 1 l = tl l.
Proof. now destruct l. Qed.
Lemma mapM_iff {A B} (f : A -> outcome B) l m : mapM f l = Ok m <-> Forall2 (fun x y => f x = Ok y) l m.
Proof.
  revert m. induction l as [|a l IH]; intros m; cbn [mapM].
  - split; [intros E; injection E as <-; constructor|intros E; now inversion E].
  - split.
    + intros H. apply bind_ok in H as (x & E & H). apply bind_ok in H as (k & E2 & H). injection H as <-. constructor; [exact E|now apply IH].
    + intros H. inversion H as [|? x ? k H1 H2]; subst. rewrite H1. cbn [bind]. apply IH in H2. now rewrite H2.
Qed.
Lemma matrix_iff file rows : read_csv_with_header stod file 1 1 = Ok rows <-> Forall2 (matrix_row stod) (tl (read_csv_string file)) rows.
Proof.
  rewrite read_csv_with_header_spec, mapM_iff. rewrite tl_skipn. generalize (tl (read_csv_string file)). intros l. revert rows.
  induction l as [|r l IH]; intros rows; cbn [map].
  - split; intros H; inversion H; constructor.
  - split; intros H; inversion H as [|? x ? k H1 H2]; subst; (constructor; [|now apply IH]).
    + apply mapM_iff in H1. unfold matrix_row. now rewrite <- tl_skipn.
    + apply mapM_iff. unfold matrix_row in H1. now rewrite tl_skipn.
Qed.
Lemma nth_error_tl {A} (a : A) (l : list A) i : nth_error (a :: l) (S i) = nth_error l i.
Proof. reflexivity. Qed.

Lemma init_thermal_iff solar step hl nd ht cij rij t :
  init_thermal stoi stod solar step hl nd ht cij rij = Ok t <->
  described stoi stod (read_csv_string hl) (read_csv_string nd) (read_csv_string ht) (read_csv_string cij) (read_csv_string rij) t /\
  th_step t = step /\ th_solar t = solar.
Proof.
  unfold init_thermal. split.
  - intros H. apply bind_ok in H as (loads & E1 & H). apply bind_ok in H as (nodes & E2 & H).
    destruct (Nat.eqb_spec (List.length nodes) (List.length loads)) as [Q1|]; cbn [negb] in H; [|discriminate].
    apply bind_ok in H as (hs & E3 & H). apply bind_ok in H as (c & E4 & H). apply bind_ok in H as (r & E5 & H).
    destruct (Nat.eqb_spec (List.length c) (List.length nodes)) as [Q2|]; cbn [negb] in H; [|discriminate].
    destruct (Nat.eqb_spec (List.length r) (List.length nodes)) as [Q3|]; cbn [negb] in H; [|discriminate].
    destruct c as [|c0 c]; [discriminate|]. destruct r as [|r0 r]; [discriminate|].
    destruct (Nat.eqb_spec (List.length (c0 :: c)) (List.length c0)) as [Q4|]; cbn [negb] in H; [|discriminate].
    destruct (Nat.eqb_spec (List.length (r0 :: r)) (List.length r0)) as [Q5|]; cbn [negb] in H; [|discriminate].
    injection H as <-. split; [|split; reflexivity].
    apply matrix_iff in E4, E5. apply Forall2_nth_iff in E4 as [M1 M2]. apply Forall2_nth_iff in E5 as [N1 N2].
    destruct (read_csv_string hl) as [|tr lrows]; [discriminate|]. destruct (read_csv_string nd) as [|nr nrows]; [discriminate|].
    destruct (read_csv_string ht) as [|hr hrows]; [discriminate|].
    apply each_row_iff, Forall2_nth_iff in E1 as [L1 L2]. apply each_row_iff, Forall2_nth_iff in E2 as [K1 K2].
    apply each_row_iff, Forall2_nth_iff in E3 as [J1 J2].
    unfold described. cbn [th_nodes th_loads th_heaters th_controllers th_cij th_rij nth].
    rewrite !map_length. cbn [List.length] in *.
    repeat (split; [lia|]). split; [|split; [|split; [|split]]].
    + intros i row node A B. apply init_node_iff. apply (K2 i); assumption.
    + intros i ts row ld A B C. injection A as <-. apply init_heatload_iff. apply (L2 i); assumption.
    + intros k row h cc A B C. apply init_heater_row_iff.
      rewrite nth_error_map in B, C. destruct (nth_error hs k) as [[x y]|] eqn:D; [|discriminate]. cbn in B, C. injection B as <-. injection C as <-.
      apply (J2 k); assumption.
    + intros i row xs A B. apply (M2 i); [|exact B]. destruct (read_csv_string cij); [destruct i; discriminate|exact A].
    + intros i row xs A B. apply (N2 i); [|exact B]. destruct (read_csv_string rij); [destruct i; discriminate|exact A].
  - intros [(P1 & P2 & P3 & P4 & P5 & P6 & P7 & P8 & P9 & P10 & P11 & P12 & D1 & D2 & D3 & D4 & D5) [<- <-]].
    destruct (read_csv_string hl) as [|tr lrows]; [discriminate|]. destruct (read_csv_string nd) as [|nr nrows]; [discriminate|].
    destruct (read_csv_string ht) as [|hr hrows]; [discriminate|]. cbn [List.length] in *.
    assert (A1 : each_row (init_heatload stoi stod tr) lrows = Ok (th_loads t)).
    { apply each_row_iff, Forall2_nth_iff. split; [lia|]. intros i row l A B. apply init_heatload_iff. apply (D2 i); [reflexivity|exact A|exact B]. }
    assert (A2 : each_row (init_node stoi stod) nrows = Ok (th_nodes t)).
    { apply each_row_iff, Forall2_nth_iff. split; [lia|]. intros i row l A B. apply init_node_iff. apply (D1 i); assumption. }
    assert (A3 : each_row (init_heater_row stoi stod) hrows = Ok (combine (th_heaters t) (th_controllers t))).
    { apply each_row_iff, Forall2_nth_iff. rewrite combine_length. split; [lia|]. intros i row [h c] A B. apply init_heater_row_iff.
      assert (X : nth_error (map fst (combine (th_heaters t) (th_controllers t))) i = Some h) by (rewrite nth_error_map, B; reflexivity).
      assert (Y : nth_error (map snd (combine (th_heaters t) (th_controllers t))) i = Some c) by (rewrite nth_error_map, B; reflexivity).
      assert (Z1 : map fst (combine (th_heaters t) (th_controllers t)) = th_heaters t).
      { clear - P6. revert P6. generalize (th_controllers t). induction (th_heaters t) as [|a l IH]; intros [|b m] E; try discriminate; [reflexivity|]. cbn. f_equal. apply IH. now injection E. }
      assert (Z2 : map snd (combine (th_heaters t) (th_controllers t)) = th_controllers t).
      { clear - P6. revert P6. generalize (th_controllers t). induction (th_heaters t) as [|a l IH]; intros [|b m] E; try discriminate; [reflexivity|]. cbn. f_equal. apply IH. now injection E. }
      rewrite Z1 in X. rewrite Z2 in Y. apply (D3 i); assumption. }
    assert (A4 : read_csv_with_header stod cij 1 1 = Ok (th_cij t)).
    { apply matrix_iff, Forall2_nth_iff. split; [lia|]. intros i row xs A B. apply (D4 i); [|exact B]. destruct (read_csv_string cij); [destruct i; discriminate|exact A]. }
    assert (A5 : read_csv_with_header stod rij 1 1 = Ok (th_rij t)).
    { apply matrix_iff, Forall2_nth_iff. split; [lia|]. intros i row xs A B. apply (D5 i); [|exact B]. destruct (read_csv_string rij); [destruct i; discriminate|exact A]. }
    rewrite A1, A2. cbn [bind]. rewrite (proj2 (Nat.eqb_eq _ _)) by lia. cbn [negb]. rewrite A3. cbn [bind]. rewrite A4, A5. cbn [bind].
    rewrite (proj2 (Nat.eqb_eq (List.length (th_cij t)) _)) by lia. rewrite (proj2 (Nat.eqb_eq (List.length (th_rij t)) _)) by lia. cbn [negb].
    destruct t as [no lo he co ci ri st so]. cbn [th_nodes th_loads th_heaters th_controllers th_cij th_rij th_step th_solar] in *.
    destruct ci as [|c0 c]; [cbn in P9; lia|]. destruct ri as [|r0 r]; [cbn in P10; lia|]. cbn [nth] in P11, P12.
    rewrite (proj2 (Nat.eqb_eq (List.length (c0 :: c)) _)) by congruence. rewrite (proj2 (Nat.eqb_eq (List.length (r0 :: r)) _)) by congruence. cbn [negb].
    do 2 f_equal.
    + clear - P6. revert P6. generalize co. induction he as [|a l IH]; intros [|b m] E; try discriminate; [reflexivity|]. cbn. f_equal. apply IH. now injection E.
    + clear - P6. revert P6. generalize co. induction he as [|a l IH]; intros [|b m] E; try discriminate; [reflexivity|]. cbn. f_equal. apply IH. now injection E.
Qed.

(** failures *)
Hypothesis stoi_plain : forall s, (exists z, stoi s = Ok z) \/ stoi s = Throw.
Hypothesis stod_plain : forall s, (exists x, stod s = Ok x) \/ stod s = Throw.
Definition plain {A} (o : outcome A) : Prop := match o with Ok _ | Throw => True | _ => False end.
Lemma plain_bind {A B} (m : outcome A) (k : A -> outcome B) : plain m -> (forall a, m = Ok a -> plain (k a)) -> plain (bind m k).
Proof. destruct m; cbn; intros P Q; try exact P. now apply Q. Qed.
Lemma plain_stoi s : plain (stoi s). Proof. destruct (stoi_plain s) as [(z & ->)| ->]; exact I. Qed.
Lemma plain_stod s : plain (stod s). Proof. destruct (stod_plain s) as [(z & ->)| ->]; exact I. Qed.
Local Ltac pl := repeat (first [exact I | apply plain_stoi | apply plain_stod | apply plain_bind; [|intros ? ?]]).
Lemma plain_node row : plain (init_node stoi stod row).
Proof. unfold init_node. do 13 (destruct row as [|? row]; try exact I). pl. Qed.
Lemma plain_heater row : plain (init_heater_row stoi stod row).
Proof. unfold init_heater_row, init_heater, init_controller. do 5 (destruct row as [|? row]; try exact I). pl. Qed.
Lemma plain_profile ts ws : plain (read_profile stod ts ws).
Proof. revert ws. induction ts as [|t ts IH]; intros [|w ws]; try exact I. cbn [read_profile]. pl; [apply IH|destruct a1; exact I]. Qed.
Lemma plain_new a b : plain (heatload_new a b).
Proof. unfold heatload_new. destruct a; [exact I|]. destruct b; [exact I|]. destruct (Nat.eqb _ _); exact I. Qed.
Lemma plain_load tr row : plain (init_heatload stoi stod tr row).
Proof.
  unfold init_heatload. destruct (_ || _)%bool; [exact I|]. destruct tr; [exact I|]. destruct row; [exact I|].
  pl; [apply plain_profile|destruct a0; apply plain_new].
Qed.
Lemma plain_each {A B} (f : A -> outcome B) rows : (forall r, plain (f r)) -> plain (each_row f rows).
Proof. intros F. induction rows as [|r rows IH]; [exact I|]. cbn [each_row]. apply plain_bind; [apply F|]. intros x _. apply plain_bind; [exact IH|]. intros; exact I. Qed.
Lemma plain_mapM {A B} (f : A -> outcome B) l : (forall x, plain (f x)) -> plain (mapM f l).
Proof. intros F. induction l as [|r rows IH]; [exact I|]. cbn [mapM]. apply plain_bind; [apply F|]. intros x _. apply plain_bind; [exact IH|]. intros; exact I. Qed.
Lemma plain_matrix file : plain (read_csv_with_header stod file 1 1).
Proof. rewrite read_csv_with_header_spec. apply plain_mapM. intros x. apply plain_mapM. intros y. apply plain_stod. Qed.

Lemma init_thermal_failure solar step hl nd ht cij rij :
  read_csv_string hl <> [] -> (2 <= List.length (read_csv_string nd))%nat -> read_csv_string ht <> [] ->
  plain (init_thermal stoi stod solar step hl nd ht cij rij).
Proof.
  intros A B C. unfold init_thermal. destruct (read_csv_string hl) as [|tr lr]; [congruence|]. clear A.
  apply plain_bind; [apply plain_each; intros; apply plain_load|]. intros loads _.
  destruct (read_csv_string nd) as [|n0 nr] eqn:E; [cbn in B; lia|]. apply plain_bind; [apply plain_each; intros; apply plain_node|]. intros nodes En.
  destruct (negb _); [exact I|]. destruct (read_csv_string ht) as [|h0 hr]; [congruence|].
  apply plain_bind; [apply plain_each; intros; apply plain_heater|]. intros hs _.
  apply plain_bind; [apply plain_matrix|]. intros c _. apply plain_bind; [apply plain_matrix|]. intros r _.
  apply each_row_iff, Forall2_nth_iff in En as [L _].
  destruct (Nat.eqb_spec (List.length c) (List.length nodes)); cbn [negb]; [|exact I].
  destruct (Nat.eqb_spec (List.length r) (List.length nodes)); cbn [negb]; [|exact I].
  destruct c; [cbn in *; lia|]. destruct r; [cbn in *; lia|]. destruct (negb _); [exact I|]. destruct (negb _); exact I.
Qed.
End build.
