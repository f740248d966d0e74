From Coq Require Import List ZArith Bool Ascii String Lia.
From Verif Require Import Base StringModel LogModel LogSpec.
Import ListNotations.
Open Scope Z_scope.

Definition row_text (l : list str) : str := List.concat (map (fun c => c ++ [comma]) l).
Lemma row_text_app a b : row_text (a ++ b) = row_text a ++ row_text b.
Proof. unfold row_text. now rewrite map_app, concat_app. Qed.
Lemma row_text_concat l : row_text (List.concat l) = List.concat (map row_text l).
Proof. induction l as [|a l IH]; [reflexivity|]. cbn [List.concat map]. now rewrite row_text_app, IH. Qed.

Lemma cells_from_plain f : forall cur t, plain f -> cells_from cur (f ++ comma :: t) = (rev cur ++ f) :: cells t.
Proof.
  induction f as [|c f IH]; intros cur t P.
  - cbn [app cells_from]. rewrite Ascii.eqb_refl. now rewrite app_nil_r.
  - cbn [app cells_from]. destruct (Ascii.eqb_spec c comma) as [E|E]; [exfalso; apply P; now left|].
    rewrite IH by (intro H; apply P; now right). cbn [rev]. now rewrite <- app_assoc.
Qed.
Lemma cells_row l t : Forall plain l -> cells (row_text l ++ t) = l ++ cells t.
Proof.
  induction 1 as [|a l Ha Hl IH]; [reflexivity|].
  unfold row_text. cbn [map List.concat]. fold (row_text l). rewrite <- !app_assoc. cbn [app].
  unfold cells at 1. rewrite cells_from_plain by exact Ha. cbn [rev app]. now rewrite IH.
Qed.
Lemma cells_nil : cells [] = [[]].
Proof. reflexivity. Qed.
Lemma cells_newline : cells newline = [newline].
Proof. reflexivity. Qed.

(** ** The logger *)
Definition appended (lg : logger) (s : str) : logger := mkLogger (enabled lg) (log_list lg) (file lg ++ s).
Lemma appended_nil lg : appended lg [] = lg.
Proof. destruct lg as [e l f]. unfold appended. cbn [enabled log_list file]. now rewrite app_nil_r. Qed.
Lemma appended_appended lg a b : appended (appended lg a) b = appended lg (a ++ b).
Proof. unfold appended. cbn [enabled log_list file]. now rewrite <- app_assoc. Qed.
Lemma write_appended lg s : enabled lg = true -> write lg s = appended lg s.
Proof. intro E. unfold write, appended. now rewrite E. Qed.
Definition active (store : nat -> loggable) (l : list nat) : list nat := filter (fun o => log_enabled (store o)) l.
Lemma write_loop (text : loggable -> str) store l : forall lg, enabled lg = true ->
  fold_left (fun l o => if negb (log_enabled (store o)) then l else write l (text (store o))) l lg
  = appended lg (List.concat (map (fun o => text (store o)) (active store l))).
Proof.
  induction l as [|o l IH]; intros lg E; cbn [fold_left active filter map List.concat].
  - now rewrite appended_nil.
  - destruct (log_enabled (store o)) eqn:L; cbn [negb].
    + rewrite write_appended by exact E. rewrite IH by exact E. now rewrite appended_appended.
    + now apply IH.
Qed.
Lemma write_loop_off (text : loggable -> str) (store : nat -> loggable) l : forall lg, enabled lg = false ->
  fold_left (fun l o => if negb (log_enabled (store o)) then l else write l (text (store o))) l lg = lg.
Proof.
  induction l as [|o l IH]; intros lg E; cbn [fold_left]; [reflexivity|].
  assert (W : write lg (text (store o)) = lg) by (unfold write; now rewrite E).
  destruct (log_enabled (store o)); cbn [negb]; rewrite ?W; now apply IH.
Qed.

(** ** Names of the header functions *)
Lemma plain_app a b : plain a -> plain b -> plain (a ++ b).
Proof. unfold plain. intros A B H. apply in_app_or in H. tauto. Qed.
Definition plainb (s : str) : bool := forallb (fun c => negb (Ascii.eqb c comma)) s.
Lemma plainb_plain s : plainb s = true -> plain s.
Proof.
  unfold plainb, plain. rewrite forallb_forall. intros H I. specialize (H _ I).
  rewrite Ascii.eqb_refl in H. discriminate.
Qed.
Lemma plain_to_string n : plain (to_string n).
Proof.
  assert (P : forall k, 0 <= k -> plain (to_string k)).
  { intros k K H. destruct (to_string_nonneg k K) as (_ & A & _). destruct (A _ H) as (d & D & E).
    assert (X : code comma = 48 + d) by (rewrite E; unfold digit_chr; apply code_chr; lia).
    change (code comma) with 44 in X. lia. }
  destruct (Z.ltb_spec n 0) as [L|L].
  - rewrite to_string_neg by exact L. apply plain_app; [now apply plainb_plain|]. apply P. lia.
  - now apply P.
Qed.
Lemma plain_num n : plain (num n).
Proof. apply plain_to_string. Qed.

Lemma header_text_names h : header_text h = row_text (names_h h).
Proof.
  destruct h as [n u|n|n f u k|n f]; cbn [header_text names_h].
  - unfold write_scalar_header, row_text. cbn [map List.concat]. rewrite app_nil_r, <- !app_assoc. reflexivity.
  - unfold write_scalar, row_text. cbn [map List.concat]. now rewrite app_nil_r.
  - unfold write_vector_header, row_text. destruct (Nat.eqb_spec k 3) as [E|E].
    + subst k. cbn [seq map List.concat nth axis3]. rewrite <- !app_assoc. reflexivity.
    + f_equal. rewrite map_map. apply map_ext. intro i. rewrite <- !app_assoc. reflexivity.
  - unfold write_quaternion_header, row_text. cbn [seq map List.concat nth axis4]. rewrite <- !app_assoc. reflexivity.
Qed.
Lemma value_text_values show v : value_text show v = row_text (values_v show v).
Proof.
  destruct v as [e|n e|e]; cbn [value_text values_v].
  - unfold write_scalar, row_text. cbn [map List.concat]. now rewrite app_nil_r.
  - reflexivity.
  - reflexivity.
Qed.
Ltac plain_tac := repeat first [assumption | apply plain_app | apply plain_num | apply plain_to_string | (apply plainb_plain; reflexivity)].
Lemma names_h_plain h : plain_h h -> Forall plain (names_h h).
Proof.
  destruct h as [n u|n|n f u k|n f]; cbn [plain_h names_h].
  - intros (A & B). constructor; [plain_tac|constructor].
  - intro A. constructor; [plain_tac|constructor].
  - intros (A & B & C). destruct (Nat.eqb k 3).
    + cbn [map]. repeat (constructor; [plain_tac|]). constructor.
    + apply Forall_forall. intros x Hx. apply in_map_iff in Hx. destruct Hx as (i & <- & _). plain_tac.
  - intros (A & B). cbn [map]. repeat (constructor; [plain_tac|]). constructor.
Qed.
Lemma names_h_length h : List.length (names_h h) = width_h h.
Proof.
  destruct h as [n u|n|n f u k|n f]; cbn [names_h width_h]; try reflexivity.
  destruct (Nat.eqb_spec k 3) as [->|E]; [reflexivity|]. now rewrite map_length, seq_length.
Qed.
Lemma values_v_length show v : List.length (values_v show v) = width_v v.
Proof. destruct v as [e|n e|e]; cbn [values_v width_v]; try reflexivity. now rewrite map_length, seq_length. Qed.
Lemma values_v_plain show v : (forall e i, plain (show e i)) -> Forall plain (values_v show v).
Proof.
  intro P. destruct v as [e|n e|e]; cbn [values_v].
  - now constructor.
  - apply Forall_forall. intros x Hx. apply in_map_iff in Hx. destruct Hx as (i & <- & _). apply P.
  - apply Forall_forall. intros x Hx. apply in_map_iff in Hx. destruct Hx as (i & <- & _). apply P.
Qed.

(** ** The table is what the code writes *)
Lemma thermal_header prefix unit e nodes :
  map (fun n => HScalar n (lit unit)) (thermal_names prefix nodes) = map fst (node_rows prefix unit e nodes).
Proof.
  unfold thermal_names, node_rows, logged_nodes. generalize 0%nat as k.
  induction nodes as [|((b, id), name) nodes IH]; intro k; [reflexivity|].
  cbn [flat_map List.length seq combine filter fst snd]. destruct b; cbn [app map negb]; [apply IH|].
  f_equal. apply IH.
Qed.
Lemma thermal_value prefix unit e nodes : thermal_values e nodes = flat_map snd (node_rows prefix unit e nodes).
Proof.
  unfold thermal_values, node_rows, logged_nodes. generalize 0%nat as k.
  induction nodes as [|((b, id), name) nodes IH]; intro k; [reflexivity|].
  cbn [flat_map List.length seq combine filter fst snd]. destruct b; cbn [app map negb flat_map snd]; [apply IH|].
  cbn [fst]. unfold element. f_equal. apply IH.
Qed.
Lemma flat_map_map {A B C} (f : B -> list C) (g : A -> B) l : flat_map f (map g l) = flat_map (fun x => f (g x)) l.
Proof. induction l as [|a l IH]; [reflexivity|]. cbn [map flat_map]. now rewrite IH. Qed.
Lemma flat_map_flat_map {A B C} (f : B -> list C) (g : A -> list B) l : flat_map f (flat_map g l) = flat_map (fun x => flat_map f (g x)) l.
Proof. induction l as [|a l IH]; [reflexivity|]. cbn [flat_map]. now rewrite flat_map_app, IH. Qed.
Lemma map_flat_map {A B C} (f : B -> C) (g : A -> list B) l : map f (flat_map g l) = flat_map (fun x => map f (g x)) l.
Proof. induction l as [|a l IH]; [reflexivity|]. cbn [flat_map]. now rewrite map_app, IH. Qed.
Lemma flat_map_single {A B} (f : A -> B) l : flat_map (fun x => [f x]) l = map f l.
Proof. induction l as [|a l IH]; [reflexivity|]. cbn [flat_map map app]. now rewrite IH. Qed.
Lemma flat_map_combine_snd {A B} (f : A -> list B) l : forall k, flat_map (fun ix : nat * A => f (snd ix)) (combine (seq k (List.length l)) l) = flat_map f l.
Proof. induction l as [|a l IH]; intro k; [reflexivity|]. cbn [List.length seq combine flat_map snd]. now rewrite IH. Qed.
Lemma flat_map_combine_fst {A B} (f : nat -> list B) (l : list A) : forall k, flat_map (fun ix : nat * A => f (fst ix)) (combine (seq k (List.length l)) l) = flat_map f (seq k (List.length l)).
Proof. induction l as [|a l IH]; intro k; [reflexivity|]. cbn [List.length seq combine flat_map fst]. now rewrite IH. Qed.

Lemma indexed_three e i : indexed_scalars e (i * 3) 3 = three e i.
Proof. unfold indexed_scalars, three, element. cbn [seq map]. now rewrite Nat.add_0_r. Qed.

Lemma header_table c : header_of c = map fst (table c).
Proof.
  destruct c; try reflexivity; cbn [header_of table].
  - destruct (logged && calculated); reflexivity.
  - destruct catalogue; [|reflexivity]. rewrite map_app, map_flat_map. reflexivity.
  - rewrite map_flat_map. cbn [map fst]. symmetry.
    exact (flat_map_combine_snd (fun b => [HVector (b ++ lit "_position") (lit "i") (lit "m") 3; HVector (b ++ lit "_velocity") (lit "i") (lit "m/s") 3]) bodies 0).
  - rewrite map_flat_map. cbn [map fst]. symmetry.
    exact (flat_map_combine_snd (fun b => [HVector (b ++ lit "_position_from_spacecraft") (lit "b") (lit "m") 3; HVector (b ++ lit "_velocity_from_spacecraft") (lit "b") (lit "m/s") 3]) bodies 0).
  - rewrite !map_app. rewrite <- !thermal_header. reflexivity.
  - rewrite map_app, map_map. reflexivity.
  - rewrite !map_app, !map_map. reflexivity.
Qed.
Lemma values_table c : values_of c = flat_map snd (table c).
Proof.
  destruct c; try reflexivity; cbn [values_of table].
  - destruct (logged && calculated); reflexivity.
  - destruct catalogue; [|reflexivity]. rewrite flat_map_app, flat_map_flat_map. reflexivity.
  - rewrite flat_map_flat_map. symmetry. etransitivity; [|exact (flat_map_combine_fst (fun i => indexed_scalars "celestial_body_position_from_center_i_m_" (i * 3) 3 ++ indexed_scalars "celestial_body_velocity_from_center_i_m_s_" (i * 3) 3) bodies 0)].
    apply flat_map_ext. intros ib. rewrite !indexed_three. cbn [flat_map snd]. now rewrite app_nil_r.
  - rewrite flat_map_flat_map. symmetry. etransitivity; [|exact (flat_map_combine_fst (fun i => indexed_scalars "celestial_body_position_from_spacecraft_b_m_" (i * 3) 3 ++ indexed_scalars "celestial_body_velocity_from_spacecraft_b_m_s_" (i * 3) 3) bodies 0)].
    apply flat_map_ext. intros ib. rewrite !indexed_three. cbn [flat_map snd]. now rewrite app_nil_r.
  - rewrite !flat_map_app. rewrite <- !thermal_value. reflexivity.
  - rewrite flat_map_app, flat_map_map. cbn [snd]. rewrite flat_map_single. reflexivity.
  - rewrite !flat_map_app, !flat_map_map. cbn [snd]. rewrite !flat_map_single. reflexivity.
Qed.
(** the rows of the table have the same width on both sides *)
Definition matched (r : row) : Prop := list_sum (map width_v (snd r)) = width_h (fst r).
Ltac matched_tac := repeat (constructor; [reflexivity|]); try constructor.
Lemma Forall_flat_map {A B} (P : B -> Prop) (f : A -> list B) l : (forall a, In a l -> Forall P (f a)) -> Forall P (flat_map f l).
Proof.
  intro H. induction l as [|a l IH]; [constructor|]. cbn [flat_map]. apply Forall_app. split; [apply H; now left|].
  apply IH. intros b Hb. apply H. now right.
Qed.
Lemma Forall_map_all {A B} (P : B -> Prop) (f : A -> B) l : (forall a, In a l -> P (f a)) -> Forall P (map f l).
Proof. intro H. apply Forall_forall. intros x Hx. apply in_map_iff in Hx. destruct Hx as (a & <- & Ha). now apply H. Qed.
Lemma table_matched c : Forall matched (table c).
Proof.
  destruct c; cbn [table].
  all: try solve [matched_tac].
  - apply Forall_app. split; [matched_tac|]. destruct (logged && calculated); matched_tac.
  - apply Forall_app. split; [matched_tac|]. destruct catalogue; [|constructor]. apply Forall_flat_map. intros i _. matched_tac.
  - apply Forall_flat_map. intros i _. matched_tac.
  - apply Forall_flat_map. intros i _. matched_tac.
  - repeat (apply Forall_app; split); apply Forall_map_all; intros ix _; reflexivity.
  - apply Forall_app. split; [|matched_tac]. apply Forall_map_all. intros i _. reflexivity.
  - repeat (apply Forall_app; split); apply Forall_map_all; intros ix _; reflexivity.
Qed.
Ltac plainh_tac := unfold V3, S1, N1, V3i, S1i, N1i, numbered, seen_from; cbn [fst plain_h]; repeat split; plain_tac.
Lemma in_combine_body {A} (P : A -> Prop) l (k : nat) ib : Forall P l -> In ib (combine (seq k (List.length l)) l) -> P (snd ib).
Proof. intros F H. rewrite Forall_forall in F. apply F. destruct ib as (i, b). apply (in_combine_r _ _ _ _ H). Qed.
Lemma table_plain c : plain_cls c -> Forall (fun r => plain_h (fst r)) (table c).
Proof.
  intro PC. destruct c; cbn [table plain_cls] in *.
  all: try solve [repeat (constructor; [plainh_tac|]); constructor].
  - apply Forall_app. split; [repeat (constructor; [plainh_tac|]); constructor|].
    destruct (logged && calculated); [repeat (constructor; [plainh_tac|]); constructor|constructor].
  - apply Forall_app. split; [repeat (constructor; [plainh_tac|]); constructor|]. destruct catalogue; [|constructor].
    apply Forall_flat_map. intros i _. repeat (constructor; [plainh_tac|]); constructor.
  - apply Forall_flat_map. intros ib Hib. assert (PB := in_combine_body plain _ _ _ PC Hib). repeat (constructor; [plainh_tac|]); constructor.
  - apply Forall_flat_map. intros ib Hib. assert (PB := in_combine_body plain _ _ _ PC Hib). repeat (constructor; [plainh_tac|]); constructor.
  - assert (PN : forall ix, In ix (logged_nodes nodes) -> plain (snd (snd ix))).
    { intros ix Hix. unfold logged_nodes in Hix. apply filter_In in Hix. destruct Hix as (Hix & _).
      exact (in_combine_body (fun x : bool * Z * str => plain (snd x)) _ _ _ PC Hix). }
    repeat (apply Forall_app; split); apply Forall_map_all; intros ix Hix; assert (PB := PN ix Hix); plainh_tac.
  - apply Forall_app. split; [|repeat (constructor; [plainh_tac|]); constructor]. apply Forall_map_all. intros i _. plainh_tac.
  - repeat (apply Forall_app; split); apply Forall_map_all; intros ix _; plainh_tac.
Qed.

Lemma values_length show l : List.length (flat_map (values_v show) l) = list_sum (map width_v l).
Proof. induction l as [|a l IH]; [reflexivity|]. cbn [flat_map map list_sum fold_right]. rewrite app_length, values_v_length. unfold list_sum in IH. lia. Qed.
Lemma combine_fst {A B} (a : list A) (b : list B) : List.length a = List.length b -> map fst (combine a b) = a.
Proof. revert b. induction a as [|x a IH]; intros [|y b] L; cbn in L |- *; try lia; [reflexivity|]. f_equal. apply IH. lia. Qed.
Lemma combine_snd {A B} (a : list A) (b : list B) : List.length a = List.length b -> map snd (combine a b) = b.
Proof. revert b. induction a as [|x a IH]; intros [|y b] L; cbn in L |- *; try lia; [reflexivity|]. f_equal. apply IH. lia. Qed.
Lemma row_length show (r : row) : matched r -> List.length (names_h (fst r)) = List.length (flat_map (values_v show) (snd r)).
Proof. intro M. rewrite names_h_length, values_length. symmetry. exact M. Qed.
Lemma columns_fst show c : map fst (columns show c) = List.concat (map names_h (header_of c)).
Proof.
  unfold columns. rewrite header_table. rewrite concat_map, !map_map. f_equal. apply map_ext_in. intros r Hr.
  apply combine_fst. apply row_length. pose proof (table_matched c) as F. rewrite Forall_forall in F. now apply F.
Qed.
Lemma columns_snd show c : map snd (columns show c) = flat_map (values_v show) (values_of c).
Proof.
  unfold columns. rewrite values_table. rewrite flat_map_flat_map, concat_map, map_map, <- flat_map_concat_map.
  apply (fun H => eq_trans (eq_trans (flat_map_concat_map _ _) H) (eq_sym (flat_map_concat_map _ _))). f_equal. apply map_ext_in. intros r Hr.
  apply combine_snd. apply row_length. pose proof (table_matched c) as F. rewrite Forall_forall in F. now apply F.
Qed.
Lemma row_text_fst (l : list (str * str)) : List.concat (map (fun c => fst c ++ [comma]) l) = row_text (map fst l).
Proof. unfold row_text. now rewrite map_map. Qed.
Lemma row_text_snd (l : list (str * str)) : List.concat (map (fun c => snd c ++ [comma]) l) = row_text (map snd l).
Proof. unfold row_text. now rewrite map_map. Qed.
Lemma object_has_columns show c on : plain_cls c -> (forall e i, plain (show e i)) -> has_columns (object_of c on show) (columns show c).
Proof.
  intros PC PS. unfold has_columns, object_of. cbn [log_header log_value]. split; [|split].
  - rewrite row_text_fst, columns_fst, row_text_concat, map_map. f_equal. apply map_ext. exact header_text_names.
  - rewrite row_text_snd, columns_snd, flat_map_concat_map, row_text_concat, map_map. f_equal. apply map_ext. apply value_text_values.
  - assert (F1 : Forall plain (map fst (columns show c))).
    { rewrite columns_fst, header_table, map_map, <- flat_map_concat_map. apply Forall_flat_map. intros r Hr. apply names_h_plain.
      pose proof (table_plain c PC) as F. rewrite Forall_forall in F. now apply F. }
    assert (F2 : Forall plain (map snd (columns show c))).
    { rewrite columns_snd. apply Forall_flat_map. intros v _. now apply values_v_plain. }
    rewrite Forall_forall in *. intros x Hx. split; [apply F1|apply F2]; now apply in_map.
Qed.
