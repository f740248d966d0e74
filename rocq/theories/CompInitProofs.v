(** Proofs about the building of components from settings. *)
From Coq Require Import Reals Lra Lia List Bool ZArith Ascii String FunctionalExtensionality.
From Verif Require Import Base RBase VecModel QuatModel SensorModel StringModel PowerPortModel CompInitModel CompInitSpec.
Import ListNotations.
Open Scope list_scope.
Open Scope R_scope.

(** ** Names of sections *)
Lemma to_string_injective n m : to_string n = to_string m -> n = m.
Proof.
  intros E. pose proof (strto_to_string n) as A. pose proof (strto_to_string m) as B. rewrite E in A. rewrite A in B.
  injection B as B1 B2. destruct (Z.ltb_spec n 0), (Z.ltb_spec m 0); try discriminate; lia.
Qed.
Lemma to_string_first n : exists c s, to_string n = c :: s /\ (c = "-"%char \/ exists k, (0 <= k < 10)%Z /\ c = digit_chr k).
Proof.
  destruct (Z.ltb_spec n 0) as [L|L].
  - rewrite to_string_neg by exact L. exists "-"%char, (to_string (- n)). split; [reflexivity|now left].
  - destruct (to_string_nonneg n L) as (_ & B & C). cbn zeta in *. destruct (to_string n) as [|c s] eqn:E; [congruence|].
    exists c, s. split; [reflexivity|]. right. apply B. now left.
Qed.
Definition number_start (c : ascii) : bool := Ascii.eqb c "-" || existsb (fun k => Ascii.eqb c (digit_chr k)) [0; 1; 2; 3; 4; 5; 6; 7; 8; 9]%Z.
Lemma to_string_start n : exists c s, to_string n = c :: s /\ number_start c = true.
Proof.
  destruct (to_string_first n) as (c & s & E & H). exists c, s. split; [exact E|]. destruct H as [-> | (k & K & ->)]; [reflexivity|].
  assert (k = 0 \/ k = 1 \/ k = 2 \/ k = 3 \/ k = 4 \/ k = 5 \/ k = 6 \/ k = 7 \/ k = 8 \/ k = 9)%Z as D by lia.
  repeat (destruct D as [-> |D]; [reflexivity|]). subst. reflexivity.
Qed.
(** [a] and [b] differ before their ends, or one goes on with a character no number starts with *)
Fixpoint differ (a b : str) : bool :=
  match a, b with
  | x :: a', y :: b' => if Ascii.eqb x y then differ a' b' else true
  | [], y :: _ => negb (number_start y)
  | x :: _, [] => negb (number_start x)
  | [], [] => false
  end.
Lemma differ_spec a b i j : differ a b = true -> a ++ to_string i <> b ++ to_string j.
Proof.
  revert b. induction a as [|x a IH]; intros [|y b] D E; cbn [differ app] in *.
  - discriminate.
  - destruct (to_string_start i) as (c & s & Es & N). rewrite Es in E. injection E as -> _. now rewrite N in D.
  - destruct (to_string_start j) as (c & s & Es & N). rewrite Es in E. injection E as -> _. now rewrite N in D.
  - injection E as -> E. rewrite Ascii.eqb_refl in D. exact (IH b D E).
Qed.
Lemma own_disjoint k id k' id' s : (k, id) <> (k', id') -> In s (own_sections k id) -> ~ In s (own_sections k' id').
Proof.
  intros N H H'. destruct k, k'; cbn [own_sections In] in H, H';
    repeat match goal with H : _ \/ _ |- _ => destruct H as [H|H] | H : False |- _ => destruct H end; subst s;
    unfold text in *;
    first [ apply app_inv_head in H'; apply to_string_injective in H'; subst; exact (N eq_refl)
          | revert H'; apply differ_spec; reflexivity ].
Qed.
Lemma own_not_shared k id : ~ In (lit "POWER_PORT") (own_sections k id) /\ ~ In (lit "COMPONENT_BASE") (own_sections k id).
Proof.
  split; intros H; destruct k; cbn [own_sections In] in H;
    repeat match goal with H : _ \/ _ |- _ => destruct H as [H|H] | H : False |- _ => destruct H end;
    unfold text, lit in H; cbn [list_ascii_of_string app] in H; discriminate.
Qed.

(** ** The readers on files that agree in a section *)
Section Agree.
Variables (f g : ini) (sec : str).
Hypothesis A : same_in sec f g.
Lemma ag_string key : rd_string f sec key = rd_string g sec key. Proof. apply A. Qed.
Lemma ag_double key : rd_double f sec key = rd_double g sec key. Proof. apply A. Qed.
Lemma ag_int key : rd_int f sec key = rd_int g sec key. Proof. apply A. Qed.
Lemma ag_bool key : rd_bool f sec key = rd_bool g sec key. Proof. apply A. Qed.
Lemma ag_enable key : rd_enable f sec key = rd_enable g sec key. Proof. unfold rd_enable. now rewrite ag_string. Qed.
Lemma ag_vector key : rd_vector f sec key = rd_vector g sec key.
Proof. apply functional_extensionality. intros i. apply ag_double. Qed.
Lemma ag_matrix key : rd_matrix3 f sec key = rd_matrix3 g sec key.
Proof. unfold rd_matrix3. now rewrite ag_vector. Qed.
Lemma ag_vector_double key n : rd_vector_double f sec key n = rd_vector_double g sec key n.
Proof. unfold rd_vector_double. now rewrite ag_vector. Qed.
Lemma ag_quaternion key : rd_quaternion f sec key = rd_quaternion g sec key.
Proof. unfold rd_quaternion. now rewrite !ag_vector. Qed.
Lemma ag_prescaler_key key : read_prescaler_key f sec key = read_prescaler_key g sec key.
Proof. unfold read_prescaler_key. now rewrite ag_int. Qed.
Lemma ag_prescaler : read_prescaler f sec = read_prescaler g sec.
Proof. apply ag_prescaler_key. Qed.
End Agree.

Lemma ag_sensor f g step c unit zw zn : same_in (lit "SENSOR_BASE_" ++ c) f g ->
  read_sensor f step c unit zw zn = read_sensor g step c unit zw zn.
Proof.
  intros A. unfold read_sensor. cbv zeta. now rewrite !(ag_vector f g _ A), !(ag_double f g _ A), !(ag_matrix f g _ A).
Qed.
Ltac agree A := rewrite ?(ag_vector _ _ _ A), ?(ag_double _ _ _ A), ?(ag_matrix _ _ _ A), ?(ag_quaternion _ _ _ A), ?(ag_prescaler _ _ _ A),
  ?(ag_int _ _ _ A), ?(ag_string _ _ _ A), ?(ag_bool _ _ _ A), ?(ag_enable _ _ _ A), ?(ag_prescaler_key _ _ _ A), ?(ag_vector_double _ _ _ A).

Lemma build_agree k e f g id : (forall s, In s (own_sections k id) -> same_in s f g) -> build k e f id = build k e g id.
Proof.
  intros H. destruct k; cbn [own_sections In] in H; cbn [build]; f_equal;
    (assert (A := H _ (or_introl eq_refl)));
    try (assert (B := H _ (or_intror (or_introl eq_refl)))); unfold text in *; clear H.
  - unfold init_gyro, init_three_axis, numbered. cbv zeta. agree A. f_equal. now apply ag_sensor.
  - unfold init_magnetometer, init_three_axis, numbered. cbv zeta. agree A. f_equal. now apply ag_sensor.
  - unfold init_mtq, numbered. cbv zeta. now agree A.
  - unfold init_interference, numbered. cbv zeta. agree A. destruct (_ <? 0)%Z; [reflexivity|]. f_equal. apply map_ext. intros d. now agree A.
  - unfold init_sun, numbered. cbv zeta. now agree A.
  - unfold init_star, numbered. cbv zeta. now agree A.
  - unfold init_gnss, numbered. cbv zeta. now agree A.
  - unfold init_battery, numbered. cbv zeta. now agree A.
  - unfold init_panel, numbered. cbv zeta. now agree A.
  - unfold init_pcu, numbered. now agree A.
  - unfold init_thruster, numbered. cbv zeta. now agree A.
  - unfold init_wheel, init_params, wheel_mounting, wheel_response, wheel_jitter, wheel_specification, wheel_timing, numbered. cbv zeta. 
    agree A. agree B. reflexivity.
  - unfold init_antenna, init_ant_params, numbered. cbv zeta. now agree A.
  - unfold init_telescope, numbered. cbv zeta. now agree A.
Qed.

(** ** The wheel's variables at file scope *)
Lemma params_fresh csv f id step s s' : init_params csv f id step s = init_params csv f id step s'.
Proof.
  unfold init_params, wheel_mounting, wheel_response, rd_vector_double. cbv zeta.
  destruct (str_eqb _ _); cbn [bind].
  - destruct (_ <? 0)%Z; reflexivity.
  - destruct (q_two_vectors _ _); cbn [bind]; try reflexivity. destruct (_ <? 0)%Z; reflexivity.
Qed.

(** ** Sensors *)
Lemma norm9_zero (v : vec) : norm 9 v = 0 <-> forall i, (i < 9)%nat -> v i = 0.
Proof.
  unfold norm. split.
  - intros H. apply sqrt_eq_0 in H; [|cbn [sumn]; nra].
    intros i Hi. cbn [sumn] in H.
    do 9 (destruct i as [|i]; [nra|]). lia.
  - intros H. rewrite <- sqrt_0. f_equal. cbn [sumn]. rewrite !H by lia. ring.
Qed.
Lemma nine i : (i < 9)%nat -> exists a b, (a < 3)%nat /\ (b < 3)%nat /\ i = (3 * a + b)%nat.
Proof. intros H. exists (i / 3)%nat, (i mod 3)%nat. pose proof (Nat.div_mod i 3 ltac:(lia)). pose proof (Nat.mod_upper_bound i 3 ltac:(lia)). repeat split; lia. Qed.
Lemma read_scale f step c unit zw zn : scale_matrix f (lit "SENSOR_BASE_" ++ c) (scale (read_sensor f step c unit zw zn)).
Proof.
  unfold read_sensor. cbv zeta. cbn [sensor_new scale]. set (sec := lit "SENSOR_BASE_" ++ c). split.
  - intros (a & b & Ha & Hb & N). rewrite req_false.
    + intros i j Hi Hj. unfold rd_matrix3. rewrite (proj2 (Nat.ltb_lt i 3) Hi), (proj2 (Nat.ltb_lt j 3) Hj). cbn [andb]. unfold scale_entry, entry, rd_vector, element. now replace (i * 3 + j)%nat with (3 * i + j)%nat by lia.
    + rewrite norm9_zero. intros Z. apply N. apply (Z (3 * a + b)%nat). lia.
  - intros Z. rewrite req_true; [reflexivity|]. apply norm9_zero. intros i Hi. destruct (nine i Hi) as (a & b & Ha & Hb & ->). exact (Z a b Ha Hb).
Qed.
