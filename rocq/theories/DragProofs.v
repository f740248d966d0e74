(** Air drag, third bodies, magnetic moment, surfaces of the structure: proofs. *)
From Coq Require Import Reals Lra Lia List Bool Arith String Permutation FunctionalExtensionality.
From Verif Require Import Base RBase VecModel VecProofs QuatModel QuatSpec QuatProofs OrbitSpec OrbitProofs HillProofs AttitudeProofs PointingProofs OdeModel ErfProofs DisturbanceModel DisturbanceSpec DisturbanceProofs.
Import ListNotations.
Open Scope R_scope.

Lemma chi_pos s : 0 <= s -> 0 < func_chi s.
Proof. intro H. unfold func_chi. pose proof (erf_nonneg s H). pose proof sqrt_pi_pos. pose proof (exp_pos (- s * s)). assert (0 <= sqrt PI * s * (1 + erf s)) by (apply Rmult_le_pos; [apply Rmult_le_pos|]; lra). lra. Qed.
Lemma pi_pos s : 0 <= s -> 0 < func_pi s.
Proof.
  intro H. unfold func_pi. pose proof (erf_nonneg s H). pose proof sqrt_pi_pos. pose proof (exp_pos (- s * s)).
  assert (0 <= s * exp (- s * s)) by (apply Rmult_le_pos; lra). assert (0 < sqrt PI * (s * s + 1 / 2) * (1 + erf s)) by (apply Rmult_lt_0_compat; [apply Rmult_lt_0_compat|]; nra). lra.
Qed.
Definition gas (a : air_drag) : Prop := 0 < wall_K a /\ 0 < molecular_K a /\ 0 < molecular_weight a.
Lemma boltzmann_pos : 0 < boltzmann. Proof. unfold boltzmann. apply Rdiv_lt_0_compat; [lra|apply pow_lt; lra]. Qed.
Lemma speed_ratio_pos a v : gas a -> 0 < norm 3 v -> 0 < speed_ratio a v.
Proof.
  intros (W & M & MW) V. unfold speed_ratio. apply sqrt_lt_R0. pose proof boltzmann_pos. apply Rdiv_lt_0_compat.
  - apply Rmult_lt_0_compat; [apply Rmult_lt_0_compat|]; assumption.
  - apply Rmult_lt_0_compat; [apply Rmult_lt_0_compat|]; lra.
Qed.
Lemma cn_textbook a v s : gas a -> 0 < norm 3 v ->
  fst (cn_ct a v s) = pressure_coefficient (1 - s_air_specularity s) (wall_K a / molecular_K a) (speed_ratio a v) (speed_ratio a v * cos_theta v s).
Proof.
  intros G V. pose proof (speed_ratio_pos a v G V) as SP. destruct G as (W & M & _). unfold cn_ct. cbv zeta. cbn [fst]. unfold pressure_coefficient, func_pi, func_chi.
  set (sp := speed_ratio a v) in *. set (sn := sp * cos_theta v s). set (d := 1 - s_air_specularity s). replace (- sn * sn) with (- (sn * sn)) by ring.
  rewrite sqrt_mult; [|apply Rlt_le, PI_RGT_0|apply Rlt_le, Rdiv_lt_0_compat; assumption]. set (w := sqrt (wall_K a / molecular_K a)). pose proof sqrt_pi_pos as SP2.
  set (e := exp _). set (q := sqrt PI) in *. field. lra.
Qed.
Lemma ct_textbook a v s : gas a -> 0 < norm 3 v ->
  snd (cn_ct a v s) = shear_coefficient (1 - s_air_specularity s) (speed_ratio a v) (speed_ratio a v * cos_theta v s) * sin_theta v s.
Proof.
  intros G V. pose proof (speed_ratio_pos a v G V) as SP. unfold cn_ct. cbv zeta. cbn [snd]. unfold shear_coefficient, func_chi.
  set (sp := speed_ratio a v) in *. set (sn := sp * cos_theta v s). set (d := 1 - s_air_specularity s). replace (- sn * sn) with (- (sn * sn)) by ring. pose proof sqrt_pi_pos as SP2.
  set (e := exp _). set (q := sqrt PI) in *. field. lra.
Qed.
Definition dynamic_pressure (density : R) (v : vec) : R := 1 / 2 * density * (norm 3 v * norm 3 v).
Lemma drag_surface a density v s : gas a -> 0 < norm 3 v -> unit 3 (s_normal s) ->
  veq 3 (force_per_surface v (fst (drag_coefficients a density v s)) (snd (drag_coefficients a density v s)) s)
    (flow_force (dynamic_pressure density v) (1 - s_air_specularity s) (wall_K a / molecular_K a) (speed_ratio a v) (direction v) (s_normal s) (s_area s)).
Proof.
  intros G V N i Hi. unfold drag_coefficients. cbn [fst snd]. rewrite cn_textbook, ct_textbook by assumption.
  set (k := 1 / 2 * density * norm 3 v * norm 3 v * s_area s). set (p := pressure_coefficient _ _ _ _). set (t := shear_coefficient _ _ _).
  rewrite <- Rmult_assoc. rewrite surface_force_spec by assumption. unfold flow_force. cbv zeta. rewrite <- (c_dir v s V). fold p t. unfold k, dynamic_pressure. ring.
Qed.
Lemma pressure_coefficient_pos sigma tw s sn : 0 <= sigma <= 1 -> 0 <= tw -> 0 < s -> 0 <= sn -> 0 < pressure_coefficient sigma tw s sn.
Proof.
  intros SG TW SP SN. unfold pressure_coefficient. apply Rdiv_lt_0_compat; [|nra]. pose proof (exp_pos (- (sn * sn))). pose proof sqrt_pi_pos. pose proof (erf_nonneg sn SN). pose proof (sqrt_pos tw). pose proof (sqrt_pos (PI * tw)).
  assert (A : 0 <= (2 - sigma) / sqrt PI * sn + sigma / 2 * sqrt tw).
  { apply Rplus_le_le_0_compat; [apply Rmult_le_pos; [apply Rlt_le, Rdiv_lt_0_compat; lra|exact SN]|apply Rmult_le_pos; lra]. }
  assert (B : 0 < (2 - sigma) * (sn * sn + 1 / 2) + sigma / 2 * sqrt (PI * tw) * sn).
  { apply Rplus_lt_le_0_compat; [apply Rmult_lt_0_compat; nra|apply Rmult_le_pos; [apply Rmult_le_pos; lra|exact SN]]. }
  assert (0 <= ((2 - sigma) / sqrt PI * sn + sigma / 2 * sqrt tw) * exp (- (sn * sn))) by (apply Rmult_le_pos; lra).
  assert (0 < ((2 - sigma) * (sn * sn + 1 / 2) + sigma / 2 * sqrt (PI * tw) * sn) * (1 + erf sn)) by (apply Rmult_lt_0_compat; lra). lra.
Qed.
Lemma shear_coefficient_nonneg sigma s sn : 0 <= sigma -> 0 < s -> 0 <= sn -> 0 <= shear_coefficient sigma s sn.
Proof.
  intros SG SP SN. unfold shear_coefficient. pose proof (chi_pos sn SN) as CP. unfold func_chi in CP. replace (- sn * sn) with (- (sn * sn)) in CP by ring. pose proof sqrt_pi_pos.
  apply Rmult_le_pos; [|lra]. apply Rmult_le_pos; [exact SG|]. apply Rlt_le, Rinv_0_lt_compat. apply Rmult_lt_0_compat; lra.
Qed.
Lemma flow_along q sigma tw s v sf : 0 < norm 3 v -> unit 3 (s_normal sf) -> let c := dot 3 (s_normal sf) (direction v) in
  dot 3 (flow_force q sigma tw s (direction v) (s_normal sf) (s_area sf)) (direction v) =
  - (q * s_area sf) * (pressure_coefficient sigma tw s (s * c) * c + shear_coefficient sigma s (s * c) * (1 - c * c)).
Proof.
  intros V N c. assert (DD : dot 3 (direction v) (direction v) = 1). { rewrite <- (dot_ext 3 (normalize 3 v) (normalize 3 v)) by (apply u_dir; assumption). apply u_unit. exact V. }
  unfold flow_force. cbv zeta. fold c. set (p := pressure_coefficient _ _ _ _). set (t := shear_coefficient _ _ _). assert (CD : c = dot 3 (s_normal sf) (direction v)) by reflexivity. clearbody c p t.
  set (d := direction v) in *. clearbody d. revert DD CD. unfold dot. rewrite !sumn3. intros DD CD. set (n := s_normal sf) in *.
  transitivity (- (q * s_area sf) * (p * (n 0%nat * d 0%nat + n 1%nat * d 1%nat + n 2%nat * d 2%nat) + t * ((d 0%nat * d 0%nat + d 1%nat * d 1%nat + d 2%nat * d 2%nat) - c * (n 0%nat * d 0%nat + n 1%nat * d 1%nat + n 2%nat * d 2%nat)))); [ring|].
  rewrite DD, <- CD. ring.
Qed.
Lemma dir_cos_range v sf : 0 < norm 3 v -> unit 3 (s_normal sf) -> dot 3 (s_normal sf) (direction v) * dot 3 (s_normal sf) (direction v) <= 1.
Proof. intros V N. rewrite <- (c_dir v sf V). now apply c_range. Qed.
Lemma flow_resists density sigma_s a v sf : gas a -> 0 < norm 3 v -> unit 3 (s_normal sf) -> 0 <= s_area sf -> 0 <= density -> 0 <= sigma_s <= 1 -> facing v sf ->
  dot 3 (flow_force (dynamic_pressure density v) (1 - sigma_s) (wall_K a / molecular_K a) (speed_ratio a v) (direction v) (s_normal sf) (s_area sf)) (direction v) <= 0 /\
  (0 < density -> 0 < s_area sf ->
   dot 3 (flow_force (dynamic_pressure density v) (1 - sigma_s) (wall_K a / molecular_K a) (speed_ratio a v) (direction v) (s_normal sf) (s_area sf)) (direction v) < 0).
Proof.
  intros G V N A D SG F. rewrite flow_along by assumption. pose proof (facing_cos v sf V F) as C0. pose proof (dir_cos_range v sf V N) as C1. set (c := dot 3 (s_normal sf) (direction v)) in *. clearbody c.
  pose proof (speed_ratio_pos a v G V) as SP. destruct G as (W & M & _). assert (TW : 0 <= wall_K a / molecular_K a) by (apply Rlt_le, Rdiv_lt_0_compat; assumption).
  assert (SN : 0 <= speed_ratio a v * c) by (apply Rmult_le_pos; lra).
  pose proof (pressure_coefficient_pos (1 - sigma_s) (wall_K a / molecular_K a) (speed_ratio a v) (speed_ratio a v * c) ltac:(lra) TW SP SN) as PP.
  pose proof (shear_coefficient_nonneg (1 - sigma_s) (speed_ratio a v) (speed_ratio a v * c) ltac:(lra) SP SN) as TT.
  set (p := pressure_coefficient _ _ _ _) in *. set (t := shear_coefficient _ _ _) in *. clearbody p t.
  assert (Q : 0 < p * c + t * (1 - c * c)). { assert (0 < p * c) by (now apply Rmult_lt_0_compat). assert (0 <= t * (1 - c * c)) by (apply Rmult_le_pos; lra). lra. }
  assert (V2 : 0 < norm 3 v * norm 3 v) by (now apply Rmult_lt_0_compat).
  assert (DP : 0 <= dynamic_pressure density v). { unfold dynamic_pressure. apply Rmult_le_pos; lra. }
  split.
  - assert (0 <= dynamic_pressure density v * s_area sf) by (now apply Rmult_le_pos).
    assert (0 <= dynamic_pressure density v * s_area sf * (p * c + t * (1 - c * c))) by (apply Rmult_le_pos; lra). lra.
  - intros D1 A1. assert (0 < dynamic_pressure density v). { unfold dynamic_pressure. apply Rmult_lt_0_compat; lra. }
    assert (0 < dynamic_pressure density v * s_area sf) by (now apply Rmult_lt_0_compat).
    assert (0 < dynamic_pressure density v * s_area sf * (p * c + t * (1 - c * c))) by (now apply Rmult_lt_0_compat). lra.
Qed.
Lemma fold_neg {A} (f : A -> R) l : (forall a, In a l -> f a <= 0) -> (exists a, In a l /\ f a < 0) -> fold_right (fun a r => f a + r) 0 l < 0.
Proof.
  induction l as [|a l IH]; intros H [b [I B]]; [contradiction|]. cbn. pose proof (H a (or_introl eq_refl)) as HA.
  assert (HT : fold_right (fun a r => f a + r) 0 l <= 0) by (apply fold_nonpos; intros c Hc; apply H; now right).
  destruct I as [->|I]; [lra|]. assert (fold_right (fun a r => f a + r) 0 l < 0); [|lra]. apply IH; [intros c Hc; apply H; now right|now exists b].
Qed.
Lemma lit_zero v l : norm 3 v = 0 -> lit v l = [].
Proof.
  intro Z. assert (V0 : forall s, rlt 0 (dot 3 (s_normal s) v) = false). { intro s. apply rlt_false. unfold dot. rewrite sumn3. pose proof (norm_0 3 v Z) as N0. rewrite !N0 by lia. lra. }
  unfold lit. induction l as [|s l IH]; [reflexivity|]. cbn [filter]. now rewrite V0.
Qed.

(** ** Third bodies *)
Lemma norm_neg3 x : norm 3 (vsub (vconst 0) x) = norm 3 x.
Proof. unfold norm. f_equal. rewrite !sumn3. unfold vsub, vconst. ring. Qed.
Lemma norm3_ext u v : veq 3 u v -> norm 3 u = norm 3 v.
Proof. intro E. unfold norm. f_equal. rewrite !sumn3. now rewrite !E by lia. Qed.
Lemma third_body_tidal sc sr mu : 0 < norm 3 sr -> 0 < norm 3 (vadd sc sr) ->
  let b := vadd sc sr in
  veq 3 (third_body_acceleration (vadd sc sr) sr mu) (vsub (attraction mu b sc) (attraction mu b (vconst 0))).
Proof.
  intros P Q b i Hi. unfold third_body_acceleration. cbv zeta. unfold attraction, gravity, vscal.
  change (mu * (1 / (norm 3 sr * norm 3 sr * norm 3 sr) * sr i - 1 / (norm 3 b * norm 3 b * norm 3 b) * b i) =
    - mu / (norm 3 (vsub sc b) * norm 3 (vsub sc b) * norm 3 (vsub sc b)) * vsub sc b i - - mu / (norm 3 (vsub (vconst 0) b) * norm 3 (vsub (vconst 0) b) * norm 3 (vsub (vconst 0) b)) * vsub (vconst 0) b i).
  assert (N1 : norm 3 (vsub sc b) = norm 3 sr). { transitivity (norm 3 (vsub (vconst 0) sr)); [|apply norm_neg3]. apply norm3_ext. intros j Hj. unfold vsub, b, vadd, vconst. ring. }
  rewrite N1, norm_neg3. fold b in Q |- *. unfold vsub, vconst. set (x := norm 3 sr) in *. set (y := norm 3 b) in *.
  assert (B : b i = sc i + sr i) by reflexivity. rewrite B. clearbody x y. field. split; lra.
Qed.
Lemma third_body_sum bodies from_sc gm sc : veq 3 (third_body_update bodies from_sc gm sc)
  (vsum (map (fun b => third_body_acceleration (vadd sc (from_sc b)) (from_sc b) (gm b)) bodies)).
Proof.
  unfold third_body_update. assert (G : forall l a, veq 3 (fold_left (fun acc b => vadd acc (third_body_acceleration (vadd sc (from_sc b)) (from_sc b) (gm b))) l a)
    (vadd a (vsum (map (fun b => third_body_acceleration (vadd sc (from_sc b)) (from_sc b) (gm b)) l)))).
  { induction l as [|b l IH]; intros a i Hi; cbn [fold_left map]. - unfold vadd, vsum. cbn. ring. - rewrite IH by exact Hi. now rewrite vadd_assoc_sum. }
  intros i Hi. rewrite G by exact Hi. now rewrite vadd_zero_l.
Qed.
Lemma existsb_string b l : existsb (String.eqb b) l = true <-> In b l.
Proof. rewrite existsb_exists. split; [intros [x [I E]]; apply String.eqb_eq in E; now subst|intro I; exists b; split; [exact I|apply String.eqb_refl]]. Qed.
Lemma NoDup_snoc {A} (l : list A) x : NoDup l -> ~ In x l -> NoDup (l ++ [x]).
Proof. intros N H. apply (Permutation.Permutation_NoDup (Permutation.Permutation_cons_append l x)). now constructor. Qed.
Definition names_step (center : string) (selected : list string) (acc : outcome (list string)) (b : string) : outcome (list string) :=
  let! l := acc in if String.eqb b center then Throw else if negb (existsb (String.eqb b) selected) then Throw else Ok (set_insert b l).
Lemma names_throw center selected l : fold_left (names_step center selected) l Throw = Throw.
Proof. induction l as [|b l IH]; [reflexivity|exact IH]. Qed.
Lemma names_run center selected : forall l acc, NoDup acc ->
  ((forall b, In b l -> b <> center /\ In b selected) /\
   exists r, fold_left (names_step center selected) l (Ok acc) = Ok r /\ NoDup r /\ forall b, In b r <-> In b acc \/ In b l) \/
  ((exists b, In b l /\ (b = center \/ ~ In b selected)) /\ fold_left (names_step center selected) l (Ok acc) = Throw).
Proof.
  induction l as [|b l IH]; intros acc ND.
  - left. split; [contradiction|]. exists acc. split; [reflexivity|]. split; [exact ND|]. intro b. cbn. tauto.
  - cbn [fold_left]. unfold names_step at 2 4. cbn [bind]. destruct (String.eqb_spec b center) as [E|NE].
    { right. split; [exists b; cbn; tauto|]. apply names_throw. }
    destruct (existsb (String.eqb b) selected) eqn:EX; cbn [negb].
    2:{ right. split; [exists b; split; [left; reflexivity|right]; intro I; apply existsb_string in I; congruence|]. apply names_throw. }
    apply existsb_string in EX. unfold set_insert. destruct (existsb (String.eqb b) acc) eqn:EA.
    + apply existsb_string in EA. destruct (IH acc ND) as [[H [r [R1 [R2 R3]]]]|[[b' [I B]] T]].
      * left. split; [intros b' [<-|I]; [now split|now apply H]|]. exists r. split; [exact R1|]. split; [exact R2|]. intro b'. rewrite R3. cbn. intuition congruence.
      * right. split; [exists b'; split; [now right|exact B]|exact T].
    + assert (NA : ~ In b acc) by (intro I; apply existsb_string in I; congruence).
      assert (ND2 : NoDup (acc ++ [b])). { apply NoDup_snoc; assumption. }
      destruct (IH _ ND2) as [[H [r [R1 [R2 R3]]]]|[[b' [I B]] T]].
      * left. split; [intros b' [<-|I]; [now split|now apply H]|]. exists r. split; [exact R1|]. split; [exact R2|]. intro b'. rewrite R3, in_app_iff. cbn. intuition congruence.
      * right. split; [exists b'; split; [now right|exact B]|exact T].
Qed.
