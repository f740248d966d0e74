(** C106-C107: what the telescope sees, and the star catalogue it looks at. *)
From Coq Require Import Reals Lra Lia List Bool ZArith Psatz Sorted.
From Verif Require Import Base RBase VecModel VecProofs QuatModel QuatSpec QuatProofs Trig SunSensorProofs HillProofs GeoProofs WheelJitterProofs ActuatorProofs GnssRxProofs TelescopeModel TelescopeProofs.
Import ListNotations.
Open Scope R_scope.

(** * C106 *)
(** The line of sight in the body frame is the camera's x axis. *)
Definition boresight (t : tele) : vec := mvec 3 (mtrans (to_dcm (tl_q_b2c t))) (v3 1 0 0).
(** A target seen from the camera axes. *)
Definition in_camera (t : tele) (target_b : vec) : vec := mvec 3 (to_dcm (tl_q_b2c t)) target_b.

(** A field of view of 90 degrees or more is rejected at construction. *)
Theorem C106_construction : forall t : tele,
  (tele_new t = Ok t <-> IZR (tl_nx t) * tl_fx_pix t < PI / 2 /\ IZR (tl_ny t) * tl_fy_pix t < PI / 2) /\
  (tele_new t = Throw <-> PI / 2 <= IZR (tl_nx t) * tl_fx_pix t \/ PI / 2 <= IZR (tl_ny t) * tl_fy_pix t).
Proof.
  intros t. unfold tele_new, fov_x, fov_y. destruct (rlt_spec (IZR (tl_nx t) * tl_fx_pix t) (PI / 2)), (rlt_spec (IZR (tl_ny t) * tl_fy_pix t) (PI / 2)); cbn [negb];
  (split; split; intros H; try discriminate; try reflexivity; try lra).
Qed.
Print Assumptions C106_construction.

(** The forbidden flag of a body is raised exactly when the angle between it and the line of sight is below its limit. *)
Theorem C106_forbidden : forall (t : tele) (target_b : vec) (limit : R), unit 4 (tl_q_b2c t) -> norm 3 target_b <> 0 ->
  (judge_forbidden t target_b limit = true <-> acos (dot 3 target_b (boresight t) / norm 3 target_b) < limit) /\
  (0 <= limit <= PI -> (judge_forbidden t target_b limit = true <-> norm 3 target_b * cos limit < dot 3 target_b (boresight t))).
Proof.
  intros t v l U N.
  assert (S1 : veq 3 (sight_b t) (boresight t)).
  { intros i Hi. unfold sight_b, boresight. rewrite frame_dcm by exact Hi. apply mvec_ext3; [apply conj_dcm_trans|intros ? ?; reflexivity|exact Hi]. }
  assert (NB : norm 3 (boresight t) = 1).
  { apply unit_norm. unfold unit, boresight. rewrite (rotation_dot _ _ _ (trans_rotation _ (dcm_rotation _ U))). unfold dot. rewrite sumn3. cbn. ring. }
  assert (A : angle_two_vectors 3 v (sight_b t) = acos (dot 3 v (boresight t) / norm 3 v)).
  { unfold angle_two_vectors. rewrite (GnssRxProofs.norm_ext _ _ S1), NB, Rmult_1_r. f_equal. f_equal. apply dot_ext; [intros ? ?; reflexivity|exact S1]. }
  assert (H1 : judge_forbidden t v l = true <-> acos (dot 3 v (boresight t) / norm 3 v) < l).
  { unfold judge_forbidden. rewrite A. destruct (rlt_spec (acos (dot 3 v (boresight t) / norm 3 v)) l); split; intros; try assumption; try discriminate; try reflexivity; contradiction. }
  split; [exact H1|]. intros L. rewrite H1. pose proof (norm_nonneg 3 v) as P. assert (P' : 0 < norm 3 v) by lra.
  set (k := dot 3 v (boresight t)) in *. assert (B : Rabs k <= norm 3 v) by (unfold k; rewrite <- (Rmult_1_r (norm 3 v)), <- NB; apply dot_le_norms).
  assert (B1 := Rle_abs k). assert (B2 := Rle_abs (- k)). rewrite Rabs_Ropp in B2.
  assert (R1 : -1 <= k / norm 3 v <= 1) by (split; apply (Rmult_le_reg_r (norm 3 v)); try lra; unfold Rdiv; rewrite Rmult_assoc, Rinv_l by lra; lra).
  pose proof (acos_bound (k / norm 3 v)) as AB. replace k with (norm 3 v * (k / norm 3 v)) at 2 by (field; lra).
  rewrite <- (cos_acos _ R1) at 2. split; intros H.
  - apply Rmult_lt_compat_l; [exact P'|]. apply cos_decreasing_1; lra.
  - apply Rmult_lt_reg_l in H; [|exact P']. apply cos_decreasing_0 in H; lra.
Qed.
Print Assumptions C106_forbidden.

Lemma both_within c f g : 0 < f < PI / 2 -> 0 < g < PI / 2 -> norm 3 c <> 0 ->
  (Rabs (atan2 (c 2%nat) (c 0%nat)) < f /\ Rabs (atan2 (c 1%nat) (c 0%nat)) < g <-> 0 < c 0%nat /\ Rabs (c 2%nat) < c 0%nat * tan f /\ Rabs (c 1%nat) < c 0%nat * tan g).
Proof.
  intros F G N. destruct (Req_dec (c 0%nat) 0) as [Z|Z].
  - rewrite !Z. split; [|intros (C & _); lra]. intros [H1 H2]. exfalso. apply N.
    assert (Z2 : c 2%nat = 0). { destruct (Req_dec (c 2%nat) 0) as [E|E]; [exact E|]. rewrite atan2_within in H1 by (try assumption; right; exact E). lra. }
    assert (Z1 : c 1%nat = 0). { destruct (Req_dec (c 1%nat) 0) as [E|E]; [exact E|]. rewrite atan2_within in H2 by (try assumption; right; exact E). lra. }
    unfold norm. rewrite sumn3, Z, Z1, Z2. replace (0 * 0 + 0 * 0 + 0 * 0) with 0 by ring. apply sqrt_0.
  - rewrite !atan2_within by (try assumption; left; exact Z). tauto.
Qed.
Lemma both_within_eq c f g : 0 < f < PI / 2 -> 0 < g < PI / 2 -> norm 3 c <> 0 ->
  (Rabs (atan2 (c 2%nat) (c 0%nat)) <= f /\ Rabs (atan2 (c 1%nat) (c 0%nat)) <= g <-> 0 < c 0%nat /\ Rabs (c 2%nat) <= c 0%nat * tan f /\ Rabs (c 1%nat) <= c 0%nat * tan g).
Proof.
  intros F G N. destruct (Req_dec (c 0%nat) 0) as [Z|Z].
  - rewrite !Z. split; [|intros (C & _); lra]. intros [H1 H2]. exfalso. apply N.
    assert (Z2 : c 2%nat = 0). { destruct (Req_dec (c 2%nat) 0) as [E|E]; [exact E|]. rewrite atan2_within_eq in H1 by (try assumption; right; exact E). lra. }
    assert (Z1 : c 1%nat = 0). { destruct (Req_dec (c 1%nat) 0) as [E|E]; [exact E|]. rewrite atan2_within_eq in H2 by (try assumption; right; exact E). lra. }
    unfold norm. rewrite sumn3, Z, Z1, Z2. replace (0 * 0 + 0 * 0 + 0 * 0) with 0 by ring. apply sqrt_0.
  - rewrite !atan2_within_eq by (try assumption; left; exact Z). tauto.
Qed.
Lemma camera_norm t v : unit 4 (tl_q_b2c t) -> norm 3 (in_camera t v) = norm 3 v.
Proof. intros U. pose proof (rotation_dot (to_dcm (tl_q_b2c t)) v v (dcm_rotation _ U)) as H. unfold norm. unfold dot in H. unfold in_camera. rewrite H. reflexivity. Qed.

(** A body is put on the image exactly when it lies within one field of view on either side of the line of sight, in both
    directions; its position is the pinhole projection with the edge of the image one field of view off axis, strictly
    inside the image.  Otherwise the position is (-1, -1). *)
Theorem C106_position : forall (t : tele) (target_b : vec),
  unit 4 (tl_q_b2c t) -> norm 3 target_b <> 0 -> 0 < fov_x t < PI / 2 -> 0 < fov_y t < PI / 2 ->
  let c := in_camera t target_b in
  let cx := IZR (Z.quot (tl_nx t) 2) in let cy := IZR (Z.quot (tl_ny t) 2) in
  let sees := 0 < c 0%nat /\ Rabs (c 2%nat) < c 0%nat * tan (fov_x t) /\ Rabs (c 1%nat) < c 0%nat * tan (fov_y t) in
  (sees -> observe t target_b = (cx + cx / tan (fov_x t) * (c 2%nat / c 0%nat), cy + cy / tan (fov_y t) * (c 1%nat / c 0%nat)) /\
           (0 < cx -> 0 < fst (observe t target_b) < 2 * cx) /\ (0 < cy -> 0 < snd (observe t target_b) < 2 * cy)) /\
  (~ sees -> observe t target_b = (-1, -1)).
Proof.
  intros t v U N F G. cbv zeta. set (c := in_camera t v). set (cx := IZR (Z.quot (tl_nx t) 2)). set (cy := IZR (Z.quot (tl_ny t) 2)).
  assert (NC : norm 3 c <> 0) by (unfold c; rewrite camera_norm by exact U; exact N).
  assert (C : veq 3 (frame_conversion (tl_q_b2c t) v) c) by (intros i Hi; unfold c, in_camera; apply frame_dcm; exact Hi).
  pose proof (tan_pos _ F) as TF. pose proof (tan_pos _ G) as TG.
  unfold observe. rewrite !C by lia. fold cx cy. pose proof (both_within c _ _ F G NC) as BW.
  split.
  - intros Hs. destruct (proj2 BW Hs) as [W1 W2]. rewrite !rlt_true by assumption. cbn [andb fst snd]. destruct Hs as (X & X1 & X2).
    rewrite !tan_atan2 by exact X. 
    assert (K : forall y T, 0 < T -> Rabs y < c 0%nat * T -> -1 < y / c 0%nat / T < 1).
    { intros y T P H. apply Rabs_def2 in H. destruct H as [H1 H2]. assert (0 < c 0%nat * T) by (apply Rmult_lt_0_compat; assumption).
      split; apply (Rmult_lt_reg_r (c 0%nat * T)); try assumption; replace (y / c 0%nat / T * (c 0%nat * T)) with y by (field; split; lra); lra. }
    pose proof (K _ _ TF X1) as K1. pose proof (K _ _ TG X2) as K2. split; [|split].
    + f_equal; unfold Rdiv; ring.
    + intros P. replace (cx * (c 2%nat / c 0%nat) / tan (fov_x t) + cx) with (cx * (1 + c 2%nat / c 0%nat / tan (fov_x t))) by (unfold Rdiv; ring). split; [apply Rmult_lt_0_compat; lra|].
      rewrite (Rmult_comm 2). apply Rmult_lt_compat_l; lra.
    + intros P. replace (cy * (c 1%nat / c 0%nat) / tan (fov_y t) + cy) with (cy * (1 + c 1%nat / c 0%nat / tan (fov_y t))) by (unfold Rdiv; ring). split; [apply Rmult_lt_0_compat; lra|].
      rewrite (Rmult_comm 2). apply Rmult_lt_compat_l; lra.
  - intros Hs. destruct (rlt_spec (Rabs (atan2 (c 2%nat) (c 0%nat))) (fov_x t)) as [W1|W1]; [|reflexivity].
    destruct (rlt_spec (Rabs (atan2 (c 1%nat) (c 0%nat))) (fov_y t)) as [W2|W2]; [|reflexivity]. contradiction Hs. apply BW. split; assumption.
Qed.
Print Assumptions C106_position.

(** It is not true that what is on the image lies within the field of view (number of pixels times the angle of a pixel,
    i.e. half of it on each side): the image covers twice that angle. *)
Theorem C106_within_field_of_view_refuted :
  ~ (forall (t : tele) (target_b : vec), tele_new t = Ok t -> unit 4 (tl_q_b2c t) -> (0 < tl_nx t)%Z -> (0 < tl_ny t)%Z -> 0 < tl_fx_pix t -> 0 < tl_fy_pix t ->
       norm 3 target_b <> 0 -> observe t target_b <> (-1, -1) ->
       let c := in_camera t target_b in Rabs (atan2 (c 2%nat) (c 0%nat)) <= IZR (tl_nx t) * tl_fx_pix t / 2).
Proof.
  intros H. set (t := mkTele (fun k => if Nat.eqb k 3 then 1 else 0) 0 0 0 2 2 (PI / 6) (PI / 6) 0).
  assert (U : unit 4 (tl_q_b2c t)) by (unfold unit, dot; cbn; ring).
  pose proof PI_RGT_0 as P. pose proof (PI_4) as P4.
  set (v := v3 1 0 1).
  assert (C : veq 3 (in_camera t v) v) by (intros i Hi; unfold in_camera, t; cbn [tl_q_b2c]; i3 i Hi; qunf; cbn; ring).
  assert (A2 : atan2 (in_camera t v 2%nat) (in_camera t v 0%nat) = PI / 4).
  { rewrite !C by lia. unfold v, atan2. cbn. rewrite rlt_true by lra. replace (1 / 1) with 1 by field. apply atan_1. }
  assert (A1 : atan2 (in_camera t v 1%nat) (in_camera t v 0%nat) = 0).
  { rewrite !C by lia. unfold v, atan2. cbn. rewrite rlt_true by lra. replace (0 / 1) with 0 by field. apply atan_0. }
  assert (FX : fov_x t = PI / 3) by (unfold fov_x; cbn; field). assert (FY : fov_y t = PI / 3) by (unfold fov_y; cbn; field).
  specialize (H t v). cbv zeta in H. rewrite A2 in H. cbn [t tl_nx tl_ny tl_fx_pix tl_fy_pix] in H.
  assert (B : Rabs (PI / 4) <= 2 * (PI / 6) / 2).
  { apply H; try lia; try lra; try exact U.
    - unfold tele_new. rewrite FX, FY, !rlt_true by lra. reflexivity.
    - unfold norm. rewrite sumn3. cbn. intros E. apply sqrt_eq_0 in E; lra.
    - unfold observe. intros E. assert (CF : veq 3 (frame_conversion (tl_q_b2c t) v) (in_camera t v)) by (intros i Hi; apply frame_dcm; exact Hi).
      rewrite !CF in E by lia. rewrite A1, A2, FX, FY in E.
      rewrite Rabs_R0, (Rabs_right (PI / 4)) in E by lra. rewrite !rlt_true in E by lra. cbn [andb] in E.
      assert (E2 := f_equal snd E). cbn [snd] in E2. rewrite tan_0 in E2. cbn in E2. lra. }
  rewrite Rabs_right in B by lra. lra.
Qed.
Print Assumptions C106_within_field_of_view_refuted.

(** The star list: always the configured number of entries, the first catalogue stars in sight in catalogue order, then the
    "no star" mark; an empty catalogue is read out of bounds (unless no star is asked for). *)
Theorem C106_star_list : forall (t : tele) (q_i2b : quat) (catalogue : list hip),
  (catalogue <> [] \/ tl_logged t = 0%nat ->
   exists stars, observe_stars t q_i2b catalogue = Ok stars /\ length stars = tl_logged t /\
     stars = firstn (tl_logged t) (flat_map (fun s => match observe_star t q_i2b s with Some o => [o] | None => [] end) catalogue ++ repeat no_star (tl_logged t))) /\
  (catalogue = [] -> tl_logged t <> 0%nat -> observe_stars t q_i2b catalogue = UB).
Proof.
  intros t q cat. assert (SE : flat_map (fun s => match observe_star t q s with Some o => [o] | None => [] end) cat = seen t q cat).
  { induction cat as [|s r IH]; [reflexivity|]. cbn [flat_map seen]. rewrite IH. destruct (observe_star t q s); reflexivity. }
  rewrite SE. split.
  - intros H. unfold observe_stars. rewrite stars_loop_spec by (cbn [length]; lia || (destruct H as [H|H]; [left; exact H|right; symmetry; exact H])).
    cbn [app]. eexists. split; [reflexivity|]. set (n := tl_logged t). split.
    + rewrite app_length, firstn_length, repeat_length. lia.
    + rewrite firstn_app. f_equal. set (k := (n - length (seen t q cat))%nat). assert (L : (k <= n)%nat) by lia. clearbody k. clearbody n. clear - L. revert L. revert n.
      induction k as [|k IH]; intros m Hm; [reflexivity|]. destruct m as [|m]; [lia|]. cbn [repeat firstn]. f_equal. apply IH. lia.
  - intros -> H. unfold observe_stars. cbn [stars_loop length]. destruct (tl_logged t); [contradiction H; reflexivity|reflexivity].
Qed.
Print Assumptions C106_star_list.

(** When a catalogue star is in sight, and where: as for the other bodies, but with the edge included and the image centre not
    rounded to whole pixels. *)
Theorem C106_star_position : forall (t : tele) (q_i2b : quat) (s : hip),
  unit 4 (tl_q_b2c t) -> unit 4 q_i2b -> 0 < fov_x t < PI / 2 -> 0 < fov_y t < PI / 2 ->
  let c := in_camera t (mvec 3 (to_dcm q_i2b) (star_direction_i s)) in
  let cx := IZR (tl_nx t) / 2 in let cy := IZR (tl_ny t) / 2 in
  let sees := 0 < c 0%nat /\ Rabs (c 2%nat) <= c 0%nat * tan (fov_x t) /\ Rabs (c 1%nat) <= c 0%nat * tan (fov_y t) in
  (sees -> observe_star t q_i2b s = Some (mkStar s (cx + cx / tan (fov_x t) * (c 2%nat / c 0%nat), cy + cy / tan (fov_y t) * (c 1%nat / c 0%nat)))) /\
  (~ sees -> observe_star t q_i2b s = None).
Proof.
  intros t q s U V F G. cbv zeta. set (d := mvec 3 (to_dcm q) (star_direction_i s)). set (c := in_camera t d). set (cx := IZR (tl_nx t) / 2). set (cy := IZR (tl_ny t) / 2).
  assert (ND : norm 3 d = 1).
  { apply unit_norm. unfold unit, d. rewrite (rotation_dot _ _ _ (dcm_rotation _ V)). unfold dot. rewrite sumn3. unfold star_direction_i, v3.
    set (ra := hp_ra_deg s * (PI / 180)). set (de := hp_de_deg s * (PI / 180)). pose proof (sin2_cos2 ra). pose proof (sin2_cos2 de). unfold Rsqr in *. nra. }
  assert (NC : norm 3 c <> 0) by (unfold c; rewrite camera_norm by exact U; lra).
  assert (C : veq 3 (frame_conversion (tl_q_b2c t) (star_direction_b s q)) c).
  { intros i Hi. rewrite frame_dcm by exact Hi. unfold c, in_camera. apply mvec_ext3; [intros ? ? ? ?; reflexivity| |exact Hi]. intros j Hj. unfold star_direction_b, d. apply frame_dcm. exact Hj. }
  pose proof (tan_pos _ F) as TF. pose proof (tan_pos _ G) as TG.
  unfold observe_star. rewrite !C by lia. fold cx cy. pose proof (both_within_eq c _ _ F G NC) as BW. split.
  - intros Hs. destruct (proj2 BW Hs) as [W1 W2]. rewrite !rle_true by assumption. cbn [andb]. destruct Hs as (X & _ & _).
    rewrite !tan_atan2 by exact X. do 3 f_equal; unfold Rdiv; ring.
  - intros Hs. destruct (rle_spec (Rabs (atan2 (c 2%nat) (c 0%nat))) (fov_x t)) as [W1|W1]; [|reflexivity].
    destruct (rle_spec (Rabs (atan2 (c 1%nat) (c 0%nat))) (fov_y t)) as [W2|W2]; [|reflexivity]. contradiction Hs. apply BW. split; assumption.
Qed.
Print Assumptions C106_star_position.

(** The reported image position of the ground point depends on the previous report: angles over pixel angle while the
    previous report was not beyond the pixel count, (-1, -1) for one step once it was. *)
Theorem C106_ground_position : forall (t : tele) (q_i2b : quat) (target_i : vec) (p : R * R),
  let c := in_camera t (mvec 3 (to_dcm q_i2b) target_i) in
  let fresh := (atan2 (c 2%nat) (c 0%nat) / tl_fx_pix t, atan2 (c 1%nat) (c 0%nat) / tl_fy_pix t) in
  ground_step t q_i2b target_i p = (if (rlt (IZR (tl_nx t)) (fst p) || rlt (IZR (tl_ny t)) (snd p))%bool then (-1, -1) else fresh) /\
  ((0 <= tl_nx t)%Z -> (0 <= tl_ny t)%Z -> ground_step t q_i2b target_i (-1, -1) = fresh).
Proof.
  intros t q v p. cbv zeta. set (c := in_camera t _).
  assert (C : veq 3 (frame_conversion (tl_q_b2c t) (frame_conversion q v)) c).
  { intros i Hi. rewrite frame_dcm by exact Hi. unfold c, in_camera. apply mvec_ext3; [intros ? ? ? ?; reflexivity| |exact Hi]. intros j Hj. apply frame_dcm. exact Hj. }
  unfold ground_step. rewrite !C by lia. split; [reflexivity|]. intros X Y. apply IZR_le in X, Y. cbn [fst snd].
  rewrite !rlt_false by lra. reflexivity.
Qed.
Print Assumptions C106_ground_position.
(** So with the ground point steadily off the image on the positive side, the report alternates between the off-image angle
    and (-1, -1); the (-1, -1) mark does not tell whether the point is on the image. *)
Theorem C106_ground_mark_refuted :
  ~ (forall (t : tele) (q_i2b : quat) (target_i : vec) (p : R * R), unit 4 (tl_q_b2c t) -> unit 4 q_i2b -> tele_new t = Ok t -> (0 < tl_nx t)%Z -> (0 < tl_ny t)%Z -> 0 < tl_fx_pix t -> 0 < tl_fy_pix t ->
       norm 3 target_i <> 0 ->
       ground_step t q_i2b target_i p <> (-1, -1) ->
       0 <= fst (ground_step t q_i2b target_i p) <= IZR (tl_nx t)).
Proof.
  intros H. set (e := fun k : nat => if Nat.eqb k 3 then 1 else 0 : R). set (t := mkTele e 0 0 0 2 2 (PI / 16) (PI / 16) 0).
  assert (U : unit 4 e) by (unfold unit, dot, e; cbn; ring). pose proof PI_RGT_0 as P. set (v := v3 1 0 1).
  assert (C : veq 3 (in_camera t (mvec 3 (to_dcm e) v)) v) by (intros i Hi; unfold in_camera, t, e; cbn [tl_q_b2c]; i3 i Hi; qunf; cbn; ring).
  destruct (C106_ground_position t e v (0, 0)) as [E _]. rewrite !C in E by lia.
  assert (A2 : atan2 (v 2%nat) (v 0%nat) = PI / 4) by (unfold v, atan2; cbn; rewrite rlt_true by lra; replace (1 / 1) with 1 by field; apply atan_1).
  rewrite A2 in E. cbn [fst snd tl_nx tl_ny tl_fx_pix tl_fy_pix t] in E. rewrite !rlt_false in E by lra. cbn [orb] in E.
  assert (Q : PI / 4 / (PI / 16) = 4) by (field; lra). rewrite Q in E.
  specialize (H t e v (0, 0) U U).
  assert (X : 0 <= fst (ground_step t e v (0, 0)) <= IZR (tl_nx t)).
  { apply H; cbn [tl_nx tl_ny tl_fx_pix tl_fy_pix t]; try lia; try lra.
    - unfold tele_new, fov_x, fov_y. cbn [tl_nx tl_ny tl_fx_pix tl_fy_pix t]. rewrite !rlt_true by lra. reflexivity.
    - unfold norm. rewrite sumn3. cbn. intros Z. apply sqrt_eq_0 in Z; lra.
    - fold t. rewrite E. intros Z. injection Z. intros _ Z1. lra. }
  rewrite E in X. cbn in X. lra.
Qed.
Print Assumptions C106_ground_mark_refuted.

(** The ground point is on the ray through the initial position; when the altitude is the height above the equatorial sphere it lies
    on that sphere.  The direction to it is the unit vector from the spacecraft to the point, in the inertial frame: turned into the
    Earth-fixed frame it points from the spacecraft to the ground point. *)
Theorem C106_ground_point : forall (radius altitude : R) (initial sc : vec) (dcm : mat), 0 < radius -> 0 < norm 3 initial ->
  norm 3 initial = radius + altitude ->
  let g := ground_point radius initial altitude in
  (forall k, norm 3 initial * g k = radius * initial k) /\ norm 3 g = radius /\ (rotation dcm -> norm 3 (vsub g sc) <> 0 ->
   norm 3 (ground_direction_i dcm g sc) = 1 /\ forall k, (k < 3)%nat -> norm 3 (vsub g sc) * mvec 3 dcm (ground_direction_i dcm g sc) k = g k - sc k).
Proof.
  intros radius altitude initial sc dcm HR HI HN g.
  assert (GK : forall k, norm 3 initial * g k = radius * initial k).
  { intros k. unfold g, ground_point, vdiv, vscal. rewrite HN. field. lra. }
  split; [exact GK|]. split.
  { assert (0 <= norm 3 g) by apply norm_nonneg.
    assert (Q : norm 3 initial * norm 3 initial * (norm 3 g * norm 3 g) = norm 3 initial * norm 3 initial * (radius * radius)).
    { rewrite (norm_sq 3 g). unfold sq, dot. rewrite sumn3.
      replace (norm 3 initial * norm 3 initial * (g 0%nat * g 0%nat + g 1%nat * g 1%nat + g 2%nat * g 2%nat)) with
        ((norm 3 initial * g 0%nat) * (norm 3 initial * g 0%nat) + (norm 3 initial * g 1%nat) * (norm 3 initial * g 1%nat) + (norm 3 initial * g 2%nat) * (norm 3 initial * g 2%nat)) by ring.
      rewrite !GK. rewrite norm_sq. unfold sq, dot. rewrite sumn3. ring. }
    apply Rmult_eq_reg_l in Q; [|nra]. assert ((norm 3 g - radius) * (norm 3 g + radius) = 0) as Z by lra. apply Rmult_integral in Z. destruct Z; lra. }
  intros RD ND. set (d := vsub g sc) in *. set (n := norm 3 d) in *. assert (NP : 0 < n) by (pose proof (norm_nonneg 3 d); unfold n in *; lra).
  assert (E1 : forall k, normalize 3 d k = d k / n).
  { intros k. unfold normalize. fold n. unfold req. destruct (Req_EM_T n 0); [lra|]. unfold vdiv, vscal. field. lra. }
  set (u := mvec 3 (mtrans dcm) (normalize 3 d)).
  assert (RT : rotation (mtrans dcm)).
  { destruct RD as (A & B & C). split; [exact B|]. split; [exact A|]. rewrite <- C. unfold det3, mtrans. ring. }
  assert (NU : norm 3 u = 1).
  { change (norm 3 u) with (sqrt (dot 3 u u)). unfold u. rewrite (rotation_dot _ _ _ RT). change (sqrt (dot 3 (normalize 3 d) (normalize 3 d))) with (norm 3 (normalize 3 d)). apply normalize_norm. exact ND. }
  assert (GD : forall k, ground_direction_i dcm g sc k = u k).
  { intros k. unfold ground_direction_i. fold d. fold u. unfold normalize. rewrite NU. unfold req. destruct (Req_EM_T 1 0); [lra|]. unfold vdiv, vscal. field. }
  split.
  { assert (EN : norm 3 (ground_direction_i dcm g sc) = norm 3 u) by (unfold norm, dot; rewrite !sumn3; rewrite !GD; reflexivity). rewrite EN. exact NU. }
  intros k Hk. assert (E2 : mvec 3 dcm (ground_direction_i dcm g sc) k = mvec 3 dcm u k) by (unfold mvec; rewrite !sumn3; rewrite !GD; reflexivity). rewrite E2.
  destruct RD as (A & _ & _).
  assert (E3 : mvec 3 dcm u k = mvec 3 (mmul 3 dcm (mtrans dcm)) (normalize 3 d) k).
  { unfold u, mvec, mmul. rewrite !sumn3. ring. }
  rewrite E3. assert (E4 : mvec 3 (mmul 3 dcm (mtrans dcm)) (normalize 3 d) k = normalize 3 d k).
  { unfold mvec. rewrite sumn3. rewrite !(A k) by lia. destruct k as [|[|[|k]]]; [| | |lia]; unfold mident; cbn [Nat.eqb]; ring. }
  rewrite E4, E1. unfold d, vsub. field. lra.
Qed.
Print Assumptions C106_ground_point.

(** * C107 *)
(** Reading the catalogue: the rows up to the first one darker than the limit, unless none is and the file ends in white space. *)
Theorem C107_catalogue : forall (max : R) (rows : list hip) (trailing : bool),
  (exists dark pre post, rows = pre ++ dark :: post /\ Forall (fun s => hp_mag s <= max) pre /\ max < hp_mag dark /\ hip_read max rows trailing [] = Ok pre) \/
  (Forall (fun s => hp_mag s <= max) rows /\ hip_read max rows trailing [] = if trailing then UB else Ok rows).
Proof.
  intros max rows tr. rewrite hip_read_spec. cbn [app].
  assert (K : (exists dark pre post, rows = pre ++ dark :: post /\ Forall (fun s => hp_mag s <= max) pre /\ max < hp_mag dark /\ bright max rows = pre) \/
              (Forall (fun s => hp_mag s <= max) rows /\ bright max rows = rows)).
  { induction rows as [|s r IH]; [right; split; [constructor|reflexivity]|]. cbn [bright]. destruct (rlt_spec max (hp_mag s)) as [L|L].
    - left. exists s, [], r. repeat split; [constructor|exact L].
    - destruct IH as [(d & pre & post & E & F & D & B)|(F & B)].
      + left. exists d, (s :: pre), post. repeat split; [rewrite E; reflexivity|constructor; [lra|exact F]|exact D|rewrite B; reflexivity].
      + right. split; [constructor; [lra|exact F]|rewrite B; reflexivity]. }
  destruct K as [(d & pre & post & E & F & D & B)|(F & B)].
  - left. exists d, pre, post. repeat split; try assumption. rewrite B. replace (Nat.eqb (length pre) (length rows)) with false; [rewrite andb_false_r; reflexivity|].
    symmetry. apply Nat.eqb_neq. rewrite E, app_length. cbn [length]. lia.
  - right. split; [exact F|]. rewrite B, Nat.eqb_refl. destruct tr; reflexivity.
Qed.
Print Assumptions C107_catalogue.

(** For a file sorted by magnitude this is every star not darker than the limit and no other. *)
Theorem C107_sorted : forall (max : R) (rows : list hip) (trailing : bool) (stars : list hip),
  StronglySorted (fun a b => hp_mag a <= hp_mag b) rows -> hip_read max rows trailing [] = Ok stars ->
  (forall s, In s stars <-> In s rows /\ hp_mag s <= max) /\ exists rest, rows = stars ++ rest.
Proof.
  intros max rows tr stars SO E. destruct (C107_catalogue max rows tr) as [(d & pre & post & R & F & D & B)|(F & B)]; rewrite B in E.
  - injection E as <-. split; [|exists (d :: post); exact R]. intros s. subst rows. split.
    + intros I. split; [apply in_or_app; left; exact I|]. rewrite Forall_forall in F. apply F. exact I.
    + intros [I L]. apply in_app_or in I. destruct I as [I|I]; [exact I|]. exfalso.
      assert (G : StronglySorted (fun a b => hp_mag a <= hp_mag b) (d :: post)).
      { clear -SO. induction pre as [|x pre IH]; [exact SO|]. apply IH. inversion SO. assumption. }
      destruct I as [<-|I]; [lra|]. apply StronglySorted_inv in G. destruct G as [_ G]. rewrite Forall_forall in G. specialize (G _ I). lra.
  - destruct tr; [discriminate|]. injection E as <-. split; [|exists []; symmetry; apply app_nil_r]. intros s. rewrite Forall_forall in F. split; [intros I; split; [exact I|apply F; exact I]|tauto].
Qed.
Print Assumptions C107_sorted.

(** Star directions are unit vectors, at the right ascension and declination of the star, and the body-frame direction is the
    rotation of the inertial one, again a unit vector, with the angles between stars preserved. *)
Theorem C107_directions : forall (s s' : hip) (q_i2b : quat), unit 4 q_i2b ->
  let d := star_direction_i s in
  let ra := hp_ra_deg s * (PI / 180) in let de := hp_de_deg s * (PI / 180) in
  unit 3 d /\
  (-90 < hp_de_deg s < 90 -> asin (d 2%nat) = de /\ congruent (atan2 (d 1%nat) (d 0%nat)) ra) /\
  veq 3 (star_direction_b s q_i2b) (mvec 3 (to_dcm q_i2b) d) /\ unit 3 (star_direction_b s q_i2b) /\
  dot 3 (star_direction_b s q_i2b) (star_direction_b s' q_i2b) = dot 3 d (star_direction_i s').
Proof.
  intros s s' q U. cbv zeta. set (d := star_direction_i s).
  assert (D : forall s, unit 3 (star_direction_i s)).
  { intros x. unfold unit, dot. rewrite sumn3. unfold star_direction_i, v3.
    set (ra := hp_ra_deg x * (PI / 180)). set (de := hp_de_deg x * (PI / 180)). pose proof (sin2_cos2 ra). pose proof (sin2_cos2 de). unfold Rsqr in *. nra. }
  assert (V : forall x, veq 3 (star_direction_b x q) (mvec 3 (to_dcm q) (star_direction_i x))) by (intros x i Hi; apply frame_dcm; exact Hi).
  assert (DD : forall x y, dot 3 (star_direction_b x q) (star_direction_b y q) = dot 3 (star_direction_i x) (star_direction_i y)).
  { intros x y. rewrite (dot_ext _ _ _ _ (V x) (V y)). apply rotation_dot. apply dcm_rotation. exact U. }
  split; [apply D|]. split; [|split; [apply V|split; [unfold unit; rewrite DD; apply D|apply DD]]].
  intros B. pose proof PI_RGT_0 as P. set (ra := hp_ra_deg s * (PI / 180)). set (de := hp_de_deg s * (PI / 180)).
  assert (BD : - (PI / 2) < de < PI / 2) by (unfold de; split; nra). split.
  - unfold d, star_direction_i, v3. fold de. apply asin_sin. lra.
  - assert (CP : 0 < cos de) by (apply cos_gt_0; lra). unfold d, star_direction_i, v3. fold ra de.
    set (m := up ((- ra - PI) / (2 * PI))). destruct (archimed ((- ra - PI) / (2 * PI))) as [A1 A2]. fold m in A1, A2.
    assert (T : - ra - PI = (- ra - PI) / (2 * PI) * (2 * PI)) by (field; lra).
    set (x := (- ra - PI) / (2 * PI)) in *. assert (M : - PI < ra + IZR m * (2 * PI) <= PI) by (split; nra).
    exists (- m)%Z. rewrite opp_IZR. rewrite <- (sin_turns ra m), <- (cos_turns ra m), !(Rmult_comm _ (cos de)). rewrite atan2_polar by assumption. ring.
Qed.
Print Assumptions C107_directions.

(** Concrete cases: a camera looking along the body x axis sees a body straight ahead in the centre of the image. *)
Example tele_example :
  let t := mkTele (fun k => if Nat.eqb k 3 then 1 else 0) 1 1 1 10 10 0.1 0.1 1 in
  tele_new t = Ok t /\ unit 4 (tl_q_b2c t) /\ observe t (v3 5 0 0) = (5, 5).
Proof.
  cbv zeta. set (t := mkTele _ 1 1 1 10 10 0.1 0.1 1). pose proof PI2_3_2 as P.
  assert (U : unit 4 (tl_q_b2c t)) by (unfold unit, dot; cbn; ring).
  assert (FX : fov_x t = 1) by (unfold fov_x; cbn; lra). assert (FY : fov_y t = 1) by (unfold fov_y; cbn; lra).
  split; [unfold tele_new; rewrite FX, FY, !rlt_true by lra; reflexivity|]. split; [exact U|].
  assert (C : veq 3 (in_camera t (v3 5 0 0)) (v3 5 0 0)) by (intros i Hi; unfold in_camera, t; cbn [tl_q_b2c]; i3 i Hi; qunf; cbn; ring).
  destruct (C106_position t (v3 5 0 0) U) as [H _].
  - unfold norm. rewrite sumn3. cbn. intros E. apply sqrt_eq_0 in E; lra.
  - rewrite FX. lra.
  - rewrite FY. lra.
  - destruct H as [H _].
    + rewrite !C by lia. cbn [v3]. rewrite FX, FY, Rabs_R0. assert (0 < tan 1) by (apply tan_pos; lra). lra.
    + rewrite H, !C by lia. cbn [v3 t tl_nx tl_ny]. change (10 ÷ 2)%Z with 5%Z. f_equal; unfold Rdiv; ring.
Qed.
Example catalogue_example : hip_read 5 [mkHip 1 2 0 0; mkHip 2 4 0 0; mkHip 3 6 0 0] true [] = Ok [mkHip 1 2 0 0; mkHip 2 4 0 0].
Proof. cbn [hip_read hp_mag]. rewrite !rlt_false by lra. rewrite rlt_true by lra. reflexivity. Qed.
