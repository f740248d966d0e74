(** Lemmas for the ground station, antenna and link budget. *)
From Coq Require Import Reals Lra Lia List Bool ZArith Psatz.
From Verif Require Import Base RBase VecModel VecProofs QuatModel QuatSpec QuatProofs Trig SensorModel SensorProofs ThermalProofs SunSensorProofs
  HillProofs GeoModel GeoSpec GeoProofs GeoProps GnssRxProofs LinkModel.
Import ListNotations.
Open Scope R_scope.

(** * Ground station *)
Lemma gs_new_ok lat lon h l n s : gs_new lat lon h l n = Ok s ->
  gs_geo s = geodetic_new (lat * (PI / 180)) (lon * (PI / 180)) h /\ gs_limit_deg s = l /\
  geodetic_of (gs_ecef s) (lat * (PI / 180)) (lon * (PI / 180)) h /\
  (forall i, gs_visible s i = if Nat.ltb i n then Some false else None).
Proof.
  unfold gs_new. intros E. destruct (ecef_position _) as [e| | |] eqn:EP; try discriminate. cbn [bind] in E. injection E as <-.
  cbn [gs_geo gs_limit_deg gs_ecef gs_visible]. repeat split; [].
  unfold ecef_position in EP. cbn [geodetic_new geo_lon geo_lat geo_alt] in EP. unfold fmod2p, int_of_double in EP.
  destruct (_ && _)%bool; try discriminate. cbn [bind] in EP. injection EP as <-. apply geodetic_of_iff. cbn [v3].
  set (lo := lon * (PI / 180)). set (k := trunc (lo / (2 * PI))).
  assert (T : exists j, (if rlt (lo - IZR k * (2 * PI)) 0 then lo - IZR k * (2 * PI) + 2 * PI else lo - IZR k * (2 * PI)) = lo + IZR j * (2 * PI)).
  { destruct (rlt_spec (lo - IZR k * (2 * PI)) 0); [exists (1 - k)%Z|exists (- k)%Z]; rewrite ?minus_IZR, ?opp_IZR; lra. }
  destruct T as [j ->]. rewrite cos_turns, sin_turns. repeat split; ring.
Qed.

Lemma up_unit lat lon : dot 3 (GeoSpec.up lat lon) (GeoSpec.up lat lon) = 1.
Proof.
  pose proof (sc lat) as A. pose proof (sc lon) as B. unfold dot. rewrite sumn3. unfold GeoSpec.up. cbn [v3].
  transitivity (cos lat * cos lat * (sin lon * sin lon + cos lon * cos lon) + sin lat * sin lat); [ring|]. rewrite B. lra.
Qed.
Lemma normalize_dir2 (q : quat) (v : vec) : unit 4 q -> norm 3 v <> 0 ->
  normalize 3 (frame_conversion q v) 2%nat = frame_conversion q v 2%nat / norm 3 v.
Proof.
  intros U N. assert (E : norm 3 (frame_conversion q v) = norm 3 v).
  { unfold norm. f_equal. change (dot 3 (frame_conversion q v) (frame_conversion q v) = dot 3 v v).
    rewrite <- (rotation_dot (to_dcm q) v v (dcm_rotation q U)). unfold dot. rewrite !sumn3. rewrite !frame_dcm by lia. reflexivity. }
  rewrite normalize_pos by (rewrite E; exact N). rewrite E. reflexivity.
Qed.
Lemma visible_dot s lat lon h sat : gs_geo s = geodetic_new lat lon h -> norm 3 (vsub sat (gs_ecef s)) <> 0 ->
  (calc_visible s sat = true <->
   sin (gs_limit_deg s * (PI / 180)) < dot 3 (vsub sat (gs_ecef s)) (GeoSpec.up lat lon) / norm 3 (vsub sat (gs_ecef s))).
Proof.
  intros G N. unfold calc_visible. rewrite G. set (d := vsub sat (gs_ecef s)) in *.
  destruct (C96_local_frame lat lon h d) as (U & _ & _ & Z). set (q := geo_q (geodetic_new lat lon h)) in *.
  assert (E : dot 3 (normalize 3 (frame_conversion q d)) (v3 0 0 1) = dot 3 d (GeoSpec.up lat lon) / norm 3 d).
  { unfold dot at 1. rewrite sumn3. cbn [v3]. rewrite normalize_dir2 by assumption. rewrite Z. unfold dot. rewrite !sumn3. field. exact N. }
  rewrite E. destruct (rlt_spec (sin (gs_limit_deg s * (PI / 180))) (dot 3 d (GeoSpec.up lat lon) / norm 3 d)); split; intros; try assumption; try discriminate; try reflexivity; contradiction.
Qed.
Lemma sin_asin_lt a x : - (PI / 2) <= a <= PI / 2 -> -1 <= x <= 1 -> (sin a < x <-> a < asin x).
Proof.
  intros A X. pose proof (asin_bound x) as B. split; intros H.
  - apply Rnot_le_lt. intros C. apply (Rlt_not_le _ _ H). rewrite <- (sin_asin x X). apply sin_incr_1; lra.
  - rewrite <- (sin_asin x X) at 1. apply sin_increasing_1; lra.
Qed.
(** A half-line going up from a point above the ellipsoid does not enter the ellipsoid. *)
Lemma above_tangent p lat lon h (d : vec) t : geodetic_of p lat lon h -> 0 <= h -> 0 < dot 3 d (GeoSpec.up lat lon) -> 0 < t ->
  1 < ((p 0%nat + t * d 0%nat) / 6378136.6) ^ 2 + ((p 1%nat + t * d 1%nat) / 6378136.6) ^ 2
      + ((p 2%nat + t * d 2%nat) / (6378136.6 * (1 - 0.003352797))) ^ 2.
Proof.
  intros (f & On & (k & K & N0 & N1 & N2) & P) H D T. unfold on_ellipsoid in On. rewrite !P by lia.
  set (u := GeoSpec.up lat lon) in *. pose proof (up_unit lat lon) as UU. fold u in UU.
  set (a := 6378136.6) in *. assert (A0 : 0 < a) by (unfold a; lra). set (b := a * (1 - 0.003352797)) in *. assert (B0 : 0 < b) by (unfold b; lra).
  set (e0 := h * u 0%nat + t * d 0%nat). set (e1 := h * u 1%nat + t * d 1%nat). set (e2 := h * u 2%nat + t * d 2%nat).
  assert (S0 : 0 < u 0%nat * e0 + u 1%nat * e1 + u 2%nat * e2).
  { unfold dot in UU, D. rewrite sumn3 in UU, D. assert (E : u 0%nat * e0 + u 1%nat * e1 + u 2%nat * e2 = h * (u 0%nat * u 0%nat + u 1%nat * u 1%nat + u 2%nat * u 2%nat) + t * (d 0%nat * u 0%nat + d 1%nat * u 1%nat + d 2%nat * u 2%nat)) by (unfold e0, e1, e2; ring).
    rewrite E, UU. pose proof (Rmult_lt_0_compat _ _ T D). lra. }
  rewrite N0, N1, N2 in S0. replace (f 0%nat + h * u 0%nat + t * d 0%nat) with (f 0%nat + e0) by (unfold e0; ring).
  replace (f 1%nat + h * u 1%nat + t * d 1%nat) with (f 1%nat + e1) by (unfold e1; ring). replace (f 2%nat + h * u 2%nat + t * d 2%nat) with (f 2%nat + e2) by (unfold e2; ring).
  clearbody e0 e1 e2 a b. set (g := f 0%nat * e0 / a ^ 2 + f 1%nat * e1 / a ^ 2 + f 2%nat * e2 / b ^ 2).
  assert (G : 0 < g). { apply (Rmult_lt_reg_l k); [exact K|]. rewrite Rmult_0_r. eapply Rlt_le_trans; [exact S0|]. right. unfold g. field. split; lra. }
  assert (E : ((f 0%nat + e0) / a) ^ 2 + ((f 1%nat + e1) / a) ^ 2 + ((f 2%nat + e2) / b) ^ 2 = ((f 0%nat / a) ^ 2 + (f 1%nat / a) ^ 2 + (f 2%nat / b) ^ 2) + 2 * g + ((e0 / a) ^ 2 + (e1 / a) ^ 2 + (e2 / b) ^ 2)).
  { unfold g. field. split; lra. }
  rewrite E, On. pose proof (pow2_ge_0 (e0 / a)). pose proof (pow2_ge_0 (e1 / a)). pose proof (pow2_ge_0 (e2 / b)). lra.
Qed.

(** * Radiation pattern *)
Lemma clip_range max x : 0 < max -> 0 <= clip max x <= max.
Proof. intros M. unfold clip. destruct (rlt_spec x 0); [rewrite rlt_false by lra; lra|]. destruct (rlt_spec max x); lra. Qed.
Lemma clip_id max x : 0 <= x <= max -> clip max x = x.
Proof. intros H. unfold clip. cbv zeta. rewrite (rlt_false x 0) by lra. rewrite (rlt_false max x) by lra. reflexivity. Qed.
Lemma clip_neg max x : 0 < max -> x <= 0 -> clip max x = clip max 0.
Proof. intros M H. unfold clip. rewrite (rlt_false 0 0) by lra. destruct (rlt_spec x 0); [reflexivity|]. replace x with 0 by lra. reflexivity. Qed.
Lemma grid_index_spec n max x : 0 < max -> (0 < n)%nat ->
  exists i, grid_index n max x = Ok i /\ (i < n)%nat /\
    (((INR i - 1 / 2) * (max / INR n) <= clip max x /\ clip max x < (INR i + 1 / 2) * (max / INR n)) \/
     (i = (n - 1)%nat /\ (INR n - 1 / 2) * (max / INR n) <= clip max x)).
Proof.
  intros M N. unfold grid_index. rewrite req_false by lra. pose proof (clip_range max x M) as C. set (c := clip max x) in *.
  assert (NP : 0 < INR n) by (apply (lt_INR 0); lia). set (w := max / INR n).
  assert (W : 0 < w) by (unfold w; apply Rdiv_lt_0_compat; lra).
  assert (E : INR n * c / max + 0.5 = c / w + 0.5) by (unfold w; field; split; lra). rewrite E.
  assert (Q : 0 <= c / w) by (apply Rmult_le_pos; [lra|left; apply Rinv_0_lt_compat; exact W]).
  pose proof (trunc_nonneg (c / w + 0.5) ltac:(lra)) as T. set (z := trunc (c / w + 0.5)) in *.
  assert (Z0 : (0 <= z)%Z) by (apply le_IZR; apply Rnot_lt_le; intros X; assert (IZR z + 1 <= 0) by (rewrite <- plus_IZR; apply IZR_le; apply lt_IZR in X; lia); lra).
  assert (ZN : INR (Z.to_nat z) = IZR z) by (rewrite INR_IZR_INZ, Z2Nat.id by exact Z0; reflexivity).
  assert (CW : c = c / w * w) by (field; lra).
  destruct (Nat.leb n (Z.to_nat z)) eqn:L.
  - apply Nat.leb_le in L. destruct n as [|m]; [lia|]. exists m. split; [reflexivity|]. split; [lia|]. right. split; [lia|].
    assert (INR (S m) <= IZR z) by (rewrite <- ZN; apply le_INR; exact L). rewrite CW. apply Rmult_le_compat_r; lra.
  - apply Nat.leb_gt in L. exists (Z.to_nat z). split; [reflexivity|]. split; [exact L|]. left. rewrite ZN, CW. split.
    + apply Rmult_le_compat_r; lra.
    + apply Rmult_lt_compat_r; lra.
Qed.

(** * dB *)
Lemma ln10_pos : 0 < ln 10. Proof. rewrite <- ln_1. apply ln_increasing; lra. Qed.
Lemma db_plus a b : Rpower 10 ((a + b) / 10) = Rpower 10 (a / 10) * Rpower 10 (b / 10).
Proof. rewrite <- Rpower_plus. f_equal. field. Qed.
Lemma db_minus a b : Rpower 10 ((a - b) / 10) = Rpower 10 (a / 10) / Rpower 10 (b / 10).
Proof. replace ((a - b) / 10) with (a / 10 + - (b / 10)) by field. rewrite Rpower_plus, Rpower_Ropp. reflexivity. Qed.
Lemma db_log x : 0 < x -> Rpower 10 (10 * log10 x / 10) = x.
Proof. intros X. unfold Rpower, log10. pose proof ln10_pos. replace (10 * (ln x / ln 10) / 10 * ln 10) with (ln x) by (field; lra). apply exp_ln. exact X. Qed.
Lemma db_log20 x : 0 < x -> Rpower 10 (-20 * log10 x / 10) = / (x * x).
Proof.
  intros X. unfold Rpower, log10. pose proof ln10_pos. replace (-20 * (ln x / ln 10) / 10 * ln 10) with (- ln (x * x)) by (rewrite ln_mult by exact X; field; lra).
  rewrite exp_Ropp, exp_ln by (apply Rmult_lt_0_compat; exact X). reflexivity.
Qed.
Lemma log10_power x : log10 (Rpower 10 x) = x.
Proof. unfold log10, Rpower. rewrite ln_exp. pose proof ln10_pos. field. lra. Qed.
Lemma log10_lt x y : 0 < x -> 0 < y -> (log10 x < log10 y <-> x < y).
Proof.
  intros X Y. pose proof ln10_pos as P. unfold log10. split; intros H.
  - apply ln_lt_inv; [exact X|exact Y|]. apply (Rmult_lt_reg_r (/ ln 10)); [apply Rinv_0_lt_compat; exact P|exact H].
  - apply Rmult_lt_compat_r; [apply Rinv_0_lt_compat; exact P|]. apply ln_increasing; assumption.
Qed.
