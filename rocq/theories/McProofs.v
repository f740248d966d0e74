From Coq Require Import Reals List ZArith Bool Ascii String Lia Lra Permutation.
From Verif Require Import Base RBase StringModel VecModel VecProofs QuatModel QuatSpec QuatProofs McModel McSpec.
Import ListNotations.
Open Scope R_scope.

(** ** the map *)
Lemma find_insert {A} (k j : str) (a : A) m : find k m = None ->
  find j (insert k a m) = if str_eqb j k then Some a else find j m.
Proof.
  induction m as [|(i, b) m IH]; intro N.
  - cbn [insert find]. reflexivity.
  - cbn [insert]. cbn [find] in N. destruct (str_eqb_spec k i) as [E|E]; [discriminate|].
    destruct (str_ltb k i); cbn [find].
    + destruct (str_eqb_spec j k) as [->|]; reflexivity.
    + destruct (str_eqb_spec j i) as [->|D].
      * destruct (str_eqb_spec i k); [congruence|reflexivity].
      * apply IH. exact N.
Qed.
Lemma insert_in {A} (k : str) (a : A) m : Permutation (insert k a m) ((k, a) :: m).
Proof.
  induction m as [|(j, b) m IH]; [reflexivity|]. cbn [insert]. destruct (str_ltb k j); [reflexivity|].
  rewrite IH. apply perm_swap.
Qed.
Lemma find_erase {A} (k j : str) (m : list (str * A)) : find j (erase k m) = if str_eqb j k then None else find j m.
Proof.
  induction m as [|(i, b) m IH]; [cbn; now destruct (str_eqb j k)|]. unfold erase in *. cbn [filter fst find].
  destruct (str_eqb_spec k i) as [E|E]; cbn [negb].
  - rewrite IH. destruct (str_eqb_spec j k) as [|D]; [reflexivity|]. destruct (str_eqb_spec j i); [congruence|reflexivity].
  - cbn [find]. rewrite IH. destruct (str_eqb_spec j i) as [->|D]; [|reflexivity].
    destruct (str_eqb_spec i k); [congruence|reflexivity].
Qed.
Lemma find_none_notin {A} (k : str) (m : list (str * A)) : find k m = None -> ~ In k (map fst m).
Proof.
  induction m as [|(i, b) m IH]; intro H; [intros []|]. cbn [find map fst] in *. destruct (str_eqb_spec k i) as [E|E]; [discriminate|].
  intros [X|X]; [congruence|]. now apply IH.
Qed.
Lemma find_some_in {A} (k : str) (a : A) (m : list (str * A)) : find k m = Some a -> In (k, a) m.
Proof.
  induction m as [|(i, b) m IH]; intro H; [discriminate|]. cbn [find] in H. destruct (str_eqb_spec k i) as [->|E].
  - injection H as ->. now left.
  - right. now apply IH.
Qed.
Lemma in_find {A} (k : str) (a : A) (m : list (str * A)) : NoDup (map fst m) -> In (k, a) m -> find k m = Some a.
Proof.
  induction m as [|(i, b) m IH]; intros N H; [destruct H|]. cbn [map fst] in N. inversion N as [|? ? N1 N2]; subst.
  cbn [find]. destruct (str_eqb_spec k i) as [->|E].
  - destruct H as [H|H]; [congruence|]. exfalso. apply N1. apply (in_map fst) in H. exact H.
  - destruct H as [H|H]; [congruence|]. now apply IH.
Qed.
Lemma insert_nodup {A} (k : str) (a : A) m : NoDup (map fst m) -> find k m = None -> NoDup (map fst (insert k a m)).
Proof.
  intros N F. apply (Permutation_NoDup (l := k :: map fst m)).
  - symmetry. apply (Permutation_map fst (insert_in k a m)).
  - constructor; [now apply find_none_notin|exact N].
Qed.
Lemma erase_nodup {A} (k : str) (m : list (str * A)) : NoDup (map fst m) -> NoDup (map fst (erase k m)).
Proof.
  induction m as [|(i, b) m IH]; intro N; [constructor|]. cbn [map fst] in N. inversion N as [|? ? N1 N2]; subst.
  unfold erase in *. cbn [filter fst]. destruct (str_eqb k i); cbn [negb]; [now apply IH|]. cbn [map fst]. constructor; [|now apply IH].
  intro H. apply N1. apply in_map_iff in H. destruct H as (x & E & H). apply filter_In in H. apply in_map_iff. exists x. tauto.
Qed.

Lemma key_inj so ip so' ip' : dot_free so -> dot_free so' -> key so ip = key so' ip' -> so = so' /\ ip = ip'.
Proof.
  unfold key. cbn [lit list_ascii_of_string app]. revert so'. induction so as [|c so IH]; intros so' D D' H.
  - destruct so' as [|c' so']; cbn [app] in H; [now injection H as ->|]. injection H as H1 H2. exfalso. apply D'. now left.
  - destruct so' as [|c' so']; cbn [app] in H.
    + injection H as H1 H2. exfalso. apply D. now left.
    + injection H as H1 H2. destruct (IH so') as (E1 & E2); [intro X; apply D; now right|intro X; apply D'; now right|exact H2|].
      subst. split; reflexivity.
Qed.

(** ** randomization *)
Lemma cartesian_ok draw mean : forall n sigma, (List.length mean <= List.length sigma)%nat ->
  exists r, cartesian draw n mean sigma = Ok (r, (n + List.length mean)%nat) /\ List.length r = List.length mean /\
  forall i, (i < List.length mean)%nat -> nth i r 0 = draw (n + i)%nat (nth i mean 0) (nth i sigma 0).
Proof.
  induction mean as [|m ms IH]; intros n sigma L.
  - exists []. cbn. rewrite Nat.add_0_r. split; [now destruct sigma|]. split; [reflexivity|]. intros i Hi. lia.
  - destruct sigma as [|s ss]; cbn [List.length] in L; [lia|]. destruct (IH (S n) ss) as (r & E & LR & N); [lia|].
    exists (draw n m s :: r). cbn [cartesian]. rewrite E. cbn [bind List.length]. split; [f_equal; f_equal; lia|]. split; [now rewrite LR|].
    intros [|i] Hi; cbn [nth]; [now rewrite Nat.add_0_r|]. rewrite N by lia. f_equal. lia.
Qed.
Lemma cartesian_len draw mean : forall n sigma r n', cartesian draw n mean sigma = Ok (r, n') -> List.length r = List.length mean.
Proof.
  induction mean as [|m ms IH]; intros n sigma r n' E.
  - cbn in E. injection E as <- <-. reflexivity.
  - destruct sigma as [|s ss]; [discriminate|]. cbn [cartesian] in E. destruct (cartesian draw (S n) ms ss) as [(r1, n1)| | |] eqn:E1; try discriminate.
    cbn [bind] in E. injection E as <- <-. cbn [List.length]. f_equal. now apply (IH _ _ _ _ E1).
Qed.
Lemma randomize_spec o n p p' n' : randomize o n p = Ok (p', n') ->
  config_of p' = config_of p /\ List.length (randomized_value p') = value_count (config_of p).
Proof.
  unfold randomize, config_of, value_count. destruct (randomization_type p) eqn:T; intro E.
  - injection E as <- <-. cbn. rewrite ?T. split; reflexivity.
  - destruct (cartesian (uniform_1d o) n (mean_or_min p) (sigma_or_max p)) as [(v, k)| | |] eqn:C; try discriminate.
    cbn [bind] in E. injection E as <- <-. cbn [mean_or_min sigma_or_max randomization_type randomized_value]. rewrite ?T.
    split; [reflexivity|]. now apply (cartesian_len _ _ _ _ _ _ C).
  - destruct (cartesian (normal_1d o) n (mean_or_min p) (sigma_or_max p)) as [(v, k)| | |] eqn:C; try discriminate.
    cbn [bind] in E. injection E as <- <-. cbn [mean_or_min sigma_or_max randomization_type randomized_value]. rewrite ?T.
    split; [reflexivity|]. now apply (cartesian_len _ _ _ _ _ _ C).
  - destruct (Nat.ltb _ 2 || Nat.ltb _ 2)%bool; [discriminate|]. injection E as <- <-. cbn. rewrite ?T. split; reflexivity.
  - destruct (Nat.ltb _ 2 || Nat.ltb _ 2)%bool; [discriminate|]. injection E as <- <-. cbn. rewrite ?T. split; reflexivity.
  - destruct (Nat.ltb _ 3 || Nat.ltb _ 3)%bool; [discriminate|]. injection E as <- <-. cbn [mean_or_min sigma_or_max randomization_type randomized_value]. rewrite ?T. split; reflexivity.
  - destruct (Nat.ltb _ 3 || Nat.ltb _ 2)%bool; [discriminate|]. injection E as <- <-. cbn [mean_or_min sigma_or_max randomization_type randomized_value]. rewrite ?T. split; reflexivity.
  - injection E as <- <-. cbn [mean_or_min sigma_or_max randomization_type randomized_value]. rewrite ?T. split; reflexivity.
  - destruct (Nat.ltb _ 1); [discriminate|]. injection E as <- <-. cbn [mean_or_min sigma_or_max randomization_type randomized_value]. rewrite ?T. split; reflexivity.
Qed.
Lemma randomize_ok o n p : List.length (mean_or_min p) = 3%nat -> List.length (sigma_or_max p) = 3%nat ->
  exists p' n', randomize o n p = Ok (p', n').
Proof.
  intros L1 L2. unfold randomize. destruct (randomization_type p); rewrite ?L1, ?L2; cbn [Nat.ltb Nat.leb orb]; try (eexists; eexists; reflexivity).
  - destruct (cartesian_ok (uniform_1d o) (mean_or_min p) n (sigma_or_max p)) as (r & E & _); [lia|]. rewrite E. eexists; eexists; reflexivity.
  - destruct (cartesian_ok (normal_1d o) (mean_or_min p) n (sigma_or_max p)) as (r & E & _); [lia|]. rewrite E. eexists; eexists; reflexivity.
Qed.

(** ** the vectors *)
Lemma frame_axis_angle axis a v i : (i < 3)%nat ->
  frame_conversion (q_axis_angle axis (- a)) v i = inverse_frame_conversion (q_axis_angle axis a) v i.
Proof.
  intro Hi. unfold frame_conversion, inverse_frame_conversion, q_axis_angle. cbv zeta.
  replace (- a * (1 / 2)) with (- (a * (1 / 2))) by ring. rewrite sin_neg, cos_neg.
  i3 i Hi; qunf; ring.
Qed.
Lemma turn axis a v : unit 3 axis -> veq 3 (frame_conversion (q_axis_angle axis (- a)) v) (rodrigues axis a v).
Proof. intros U i Hi. rewrite frame_axis_angle by exact Hi. now apply axis_angle_rodrigues. Qed.
Lemma rodrigues_perp axis a v : dot 3 axis v = 0 -> veq 3 (rodrigues axis a v) (vadd (vscal (cos a) v) (vscal (sin a) (cross axis v))).
Proof. intros D i Hi. unfold rodrigues. rewrite D. unfold vadd, vscal. ring. Qed.
Lemma rodrigues_unit_dot axis a v : unit 3 axis -> unit 3 v -> dot 3 axis v = 0 ->
  let u := rodrigues axis a v in unit 3 u /\ dot 3 v u = cos a /\ dot 3 axis u = 0.
Proof.
  intros Ua Uv D u.
  assert (E : veq 3 u (vadd (vscal (cos a) v) (vscal (sin a) (cross axis v)))) by (apply rodrigues_perp; exact D).
  assert (C1 : dot 3 v (cross axis v) = 0) by (qunf; ring).
  assert (C2 : dot 3 axis (cross axis v) = 0) by (qunf; ring).
  assert (C3 : dot 3 (cross axis v) (cross axis v) = 1).
  { rewrite lagrange. unfold unit in *. rewrite Ua, Uv, D. ring. }
  assert (X : forall w, dot 3 w u = cos a * dot 3 w v + sin a * dot 3 w (cross axis v)).
  { intro w. unfold dot. rewrite (sumn_ext 3 _ (fun i => cos a * (w i * v i) + sin a * (w i * cross axis v i))).
    - rewrite !sumn3. ring.
    - intros i Hi. rewrite (E i Hi). unfold vadd, vscal. ring. }
  clearbody u. pose proof (sc a) as S1. unfold unit in *. split; [|split].
  - rewrite X. 
    assert (Y1 : dot 3 u v = cos a) by (transitivity (dot 3 v u); [unfold dot; apply sumn_ext; intros; ring|rewrite X, Uv, C1; ring]).
    assert (Y2 : dot 3 u (cross axis v) = sin a).
    { transitivity (dot 3 (cross axis v) u); [unfold dot; apply sumn_ext; intros; ring|]. rewrite X, C3.
      replace (dot 3 (cross axis v) v) with (dot 3 v (cross axis v)) by (unfold dot; apply sumn_ext; intros; ring). rewrite C1. ring. }
    rewrite Y1, Y2. lra.
  - rewrite X, Uv, C1. ring.
  - rewrite X, D, C2. ring.
Qed.
Lemma dot_ext n (u u' v v' : vec) : veq n u u' -> veq n v v' -> dot n u v = dot n u' v'.
Proof. intros A B. unfold dot. apply sumn_ext. intros i Hi. now rewrite A, B. Qed.
Lemma unit_ext (u v : vec) : veq 3 u v -> unit 3 v -> unit 3 u.
Proof. intros E U. unfold unit in *. rewrite (dot_ext 3 u v u v E E). exact U. Qed.
Lemma sphere_unit o n : unit 3 (sphere_direction o n).
Proof.
  unfold unit, sphere_direction. cbv zeta. set (t := acos _). set (p := uniform_1d _ _ _ _). qunf.
  pose proof (sc t) as S1. pose proof (sc p) as S2. 
  transitivity (sin t * sin t * (sin p * sin p + cos p * cos p) + cos t * cos t); [ring|]. rewrite S2. lra.
Qed.
(** the mean direction, and the perpendicular the code starts from *)
Lemma nonzero_norm (v : vec) : (exists i, (i < 3)%nat /\ v i <> 0) -> 0 < norm 3 v.
Proof.
  intros (i & Hi & N). pose proof (norm_nonneg 3 v) as P. destruct (Req_dec (norm 3 v) 0) as [E|E]; [|lra].
  exfalso. apply N. now apply (norm_0 3 v E i Hi).
Qed.
Lemma normalize_perp (d u : vec) : norm 3 u <> 0 -> dot 3 d u = 0 -> unit 3 (normalize 3 u) /\ dot 3 d (normalize 3 u) = 0.
Proof.
  intros Hu D. unfold normalize. rewrite req_false by exact Hu. unfold vdiv. split.
  - apply normalized_unit. pose proof (norm_nonneg 3 u). lra.
  - unfold dot, vscal in *. rewrite (sumn_ext 3 _ (fun i => 1 / norm 3 u * (d i * u i))) by (intros; ring).
    rewrite sumn_scal, D. ring.
Qed.
Lemma start_perp (d : vec) : unit 3 d ->
  let op_x := cross d (v3 1 0 0) in let op_y := cross d (v3 0 1 0) in
  let nu := if rlt (norm 3 op_y) (norm 3 op_x) then normalize 3 op_x else normalize 3 op_y in
  unit 3 nu /\ dot 3 d nu = 0.
Proof.
  intros U op_x op_y nu.
  assert (Dx : dot 3 d op_x = 0) by (unfold op_x; qunf; ring).
  assert (Dy : dot 3 d op_y = 0) by (unfold op_y; qunf; ring).
  pose proof (norm_nonneg 3 op_x) as Px. pose proof (norm_nonneg 3 op_y) as Py.
  unfold nu. destruct (rlt_spec (norm 3 op_y) (norm 3 op_x)) as [L|L].
  - apply normalize_perp; [lra|exact Dx].
  - apply normalize_perp; [|exact Dy]. intro Z. assert (X : norm 3 op_x = 0) by lra.
    assert (Z0 := norm_0 3 op_y Z 0%nat ltac:(lia)). assert (Z2 := norm_0 3 op_y Z 2%nat ltac:(lia)).
    assert (X1 := norm_0 3 op_x X 1%nat ltac:(lia)). assert (X2 := norm_0 3 op_x X 2%nat ltac:(lia)).
    unfold op_x, op_y in *. revert Z0 Z2 X1 X2. apply unit3 in U. qunf. intros. nra.
Qed.
Lemma spherical_normal_spec o n mean s0 s1 : (exists i, (i < 3)%nat /\ mean i <> 0) ->
  let r := normal_1d o (S (S n)) (norm 3 mean) s0 in let b := normal_1d o (S n) 0 s1 in
  let v := calc_spherical_normal o n mean s0 s1 in
  dot 3 v v = r * r /\ dot 3 mean v = norm 3 mean * r * cos b.
Proof.
  intros NZ r b v. pose proof (nonzero_norm mean NZ) as P.
  set (d := vscal (1 / norm 3 mean) mean). assert (Ud : unit 3 d) by (apply normalized_unit; exact P).
  destruct (start_perp d Ud) as (Un & Dn).
  set (nu := if rlt (norm 3 (cross d (v3 0 1 0))) (norm 3 (cross d (v3 1 0 0))) then normalize 3 (cross d (v3 1 0 0)) else normalize 3 (cross d (v3 0 1 0))) in *.
  cbv zeta in Un, Dn. fold nu in Un, Dn.
  set (a := uniform_1d o n 0 tau).
  set (axis := frame_conversion (q_axis_angle d (- a)) nu).
  assert (EA : veq 3 axis (rodrigues d a nu)) by (apply turn; exact Ud).
  destruct (rodrigues_unit_dot d a nu Ud Un Dn) as (Ua & _ & Da). cbv zeta in Ua, Da.
  assert (Uax : unit 3 axis) by (apply (unit_ext _ _ EA Ua)).
  assert (Dax : dot 3 axis d = 0).
  { rewrite (dot_ext 3 axis (rodrigues d a nu) d d EA (fun i _ => eq_refl)).
    transitivity (dot 3 d (rodrigues d a nu)); [unfold dot; apply sumn_ext; intros; ring|exact Da]. }
  set (ret := frame_conversion (q_axis_angle axis (- b)) d).
  assert (ER : veq 3 ret (rodrigues axis b d)) by (apply turn; exact Uax).
  destruct (rodrigues_unit_dot axis b d Uax Ud Dax) as (Ur & Dr & _). cbv zeta in Ur, Dr.
  assert (UR : dot 3 ret ret = 1) by (apply (unit_ext _ _ ER Ur)).
  assert (DR : dot 3 d ret = cos b) by (rewrite (dot_ext 3 d d ret (rodrigues axis b d) (fun i _ => eq_refl) ER); exact Dr).
  assert (EV : v = vscal r ret) by reflexivity.
  clearbody ret. rewrite EV. split.
  - unfold dot, vscal in *. rewrite (sumn_ext 3 _ (fun i => r * r * (ret i * ret i))) by (intros; ring).
    rewrite sumn_scal, UR. ring.
  - unfold dot, vscal in *. rewrite (sumn_ext 3 _ (fun i => norm 3 mean * r * (d i * ret i))).
    + rewrite sumn_scal. unfold d at 1. unfold vscal. unfold d, vscal in DR. rewrite DR. ring.
    + intros i Hi. unfold d, vscal. field. lra.
Qed.
