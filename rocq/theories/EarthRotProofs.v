(** Proofs about the rotation of the Earth and the Moon. *)
From Coq Require Import Reals Lra Lia List Bool ZArith String.
From Verif Require Import Base RBase VecModel VecProofs QuatModel QuatSpec QuatProofs OrbitProofs HillProofs AttitudeProofs KeplerProofs SensorModel SensorProofs GeoProofs CelestialModel EarthRotModel EarthRotSpec.
Import ListNotations.
Open Scope R_scope.

(** ** Sidereal time *)
Lemma gst_gmst jd : gst_angle jd = gmst jd.
Proof.
  unfold gst_angle, gmst, gst_seconds, gmst_seconds, deg. set (t := (jd - 2451545) / 36525). unfold Q2R. cbn [QArith_base.Qnum QArith_base.Qden]. field.
Qed.
Lemma gstime_spec jd : 0 <= gstime jd < 2 * PI /\ congruent (gmst jd) (gstime jd).
Proof.
  pose proof PI_RGT_0 as P. unfold gstime. rewrite <- (gst_gmst jd). set (x := gst_angle jd). cbv zeta.
  destruct (trunc_bounds (x / (2 * PI))) as (A & B & C & D). set (i := trunc (x / (2 * PI))) in *. clearbody i.
  apply Rabs_def2 in B.
  assert (X : x = x / (2 * PI) * (2 * PI)) by (field; lra). set (t := x / (2 * PI)) in *. clearbody t.
  destruct (rlt_spec (x - 2 * PI * IZR i) 0) as [L|L].
  - split; [split; nra|]. exists (1 - i)%Z. rewrite minus_IZR. ring.
  - split; [split; nra|]. exists (- i)%Z. rewrite opp_IZR. ring.
Qed.
Lemma gmst_rate d1 d2 : Rabs (d1 - 2451545) <= 36525 -> Rabs (d2 - 2451545) <= 36525 ->
  exists w, gmst d2 - gmst d1 = 2 * PI * w * (d2 - d1) /\ Rabs (w - 10027379093 / 10 ^ 10) <= 2 / 10 ^ 10.
Proof.
  intros H1 H2. unfold gmst, gmst_seconds. set (a := (d1 - 2451545) / 36525). set (b := (d2 - 2451545) / 36525).
  assert (A : -1 <= a <= 1) by (unfold a; revert H1; unfold Rabs; destruct (Rcase_abs _); lra).
  assert (B : -1 <= b <= 1) by (unfold b; revert H2; unfold Rabs; destruct (Rcase_abs _); lra).
  exists ((876600 * 3600 + 8640184.812866 + 0.093104 * (a + b) - 62 / 10 ^ 7 * (a * a + a * b + b * b)) / (36525 * 86400)).
  split.
  - replace (d2 - d1) with ((b - a) * 36525) by (unfold a, b; field). unfold Q2R. cbn [QArith_base.Qnum QArith_base.Qden]. field.
  - assert (0 <= a * a <= 1) by nra. assert (0 <= b * b <= 1) by nra. assert (-1 <= a * b <= 1) by nra.
    set (u := a * a) in *. set (v := b * b) in *. set (w := a * b) in *. clearbody a b u v w.
    apply Rabs_le. split; lra.
Qed.
Lemma congruent_sin a b : congruent a b -> sin b = sin a. Proof. intros [k ->]. apply sin_turns. Qed.
Lemma congruent_cos a b : congruent a b -> cos b = cos a. Proof. intros [k ->]. apply cos_turns. Qed.

(** ** Rotations *)
Lemma polar_ident : meq3 (polar_motion 0 0) mident.
Proof. intros i j Hi Hj. i3 i Hi; i3 j Hj; cbv [polar_motion m3 v3 mident Nat.eqb]; lra. Qed.
Lemma mident_rotation : rotation mident.
Proof. apply (rotation_ext (rot_z 0)); [|apply rot_z_rotation]. intros i j Hi Hj. i3 i Hi; i3 j Hj; cbv [rot_z m3 v3 mident Nat.eqb]; rewrite ?sin_0, ?cos_0; lra. Qed.
Lemma nutation_rotation t : rotation (nutation t).
Proof. unfold nutation. apply rotation_mul; [apply rotation_mul|]; auto using rot_x_rotation, rot_z_rotation. Qed.
Lemma precession_rotation t : rotation (precession t).
Proof. unfold precession. apply rotation_mul; [apply rotation_mul|]; auto using rot_y_rotation, rot_z_rotation. Qed.
Lemma full_rotation jd : rotation (full_dcm jd).
Proof.
  assert (I : rotation (polar_motion 0 0)).
  2:{ unfold full_dcm. cbv zeta. apply rotation_mul; [apply rotation_mul; [apply rotation_mul|]|]; auto using rot_z_rotation, nutation_rotation, precession_rotation. }
  apply (rotation_ext mident); [apply meq3_sym, polar_ident|apply mident_rotation].
Qed.
Definition dcm_at (m : earth_mode) (jd : R) : mat :=
  match m with EarthIdle => mident | EarthSimple => rot_z (gstime jd) | EarthFull => full_dcm jd end.
Lemma dcm_at_rotation m jd : rotation (dcm_at m jd).
Proof. destruct m; [apply mident_rotation|apply rot_z_rotation|apply full_rotation]. Qed.
Lemma earth_run m ds jd : fold_left earth_update (ds ++ [jd]) (earth_new m) = mkEarth m (dcm_at m jd) mident.
Proof.
  assert (G : forall l, er_mode (fold_left earth_update l (earth_new m)) = m /\ er_teme (fold_left earth_update l (earth_new m)) = mident /\
                        (m = EarthIdle -> er_ecef (fold_left earth_update l (earth_new m)) = mident)).
  { intros l. induction l as [|x l IH] using rev_ind; [repeat split|]. rewrite fold_left_app. cbn [fold_left]. destruct IH as (I1 & I2 & I3).
    set (e := fold_left earth_update l (earth_new m)) in *. clearbody e. unfold earth_update. rewrite I1. destruct m; cbn [er_mode er_teme er_ecef]; repeat split; auto; discriminate. }
  rewrite fold_left_app. cbn [fold_left]. destruct (G ds) as (I1 & I2 & I3). set (e := fold_left earth_update ds (earth_new m)) in *. clearbody e.
  unfold earth_update. rewrite I1, I2. destruct m; try reflexivity. specialize (I3 eq_refl). destruct e. cbn in *. subst. reflexivity.
Qed.

(** ** How far two matrices are apart *)
Definition near (a b : mat) (k : R) : Prop := forall v, norm 3 (vsub (mvec 3 a v) (mvec 3 b v)) <= k * norm 3 v.
Lemma near_le a b k l : near a b k -> k <= l -> near a b l.
Proof. intros H L v. eapply Rle_trans; [apply H|]. apply Rmult_le_compat_r; [apply norm_nonneg|exact L]. Qed.
Lemma near_ext a a' b b' k : meq3 a a' -> meq3 b b' -> near a b k -> near a' b' k.
Proof.
  intros A B H v. rewrite <- (norm_ext 3 (vsub (mvec 3 a v) (mvec 3 b v))); [apply H|].
  intros i Hi. unfold vsub. f_equal; apply mvec_ext3; auto; intros j _; reflexivity.
Qed.
Lemma mvec_mul a b v : veq 3 (mvec 3 (mmul 3 a b) v) (mvec 3 a (mvec 3 b v)).
Proof. intros i Hi. i3 i Hi; cbv [mvec mmul sumn]; ring. Qed.
Lemma near_trans a b c k l : near a b k -> near b c l -> near a c (k + l).
Proof.
  intros H1 H2 v. rewrite (norm_ext 3 _ (vadd (vsub (mvec 3 a v) (mvec 3 b v)) (vsub (mvec 3 b v) (mvec 3 c v)))) by (intros i _; unfold vadd, vsub; ring).
  eapply Rle_trans; [apply triangle|]. rewrite Rmult_plus_distr_r. apply Rplus_le_compat; auto.
Qed.
Lemma near_refl a : near a a 0.
Proof. intros v. rewrite Rmult_0_l. apply Req_le. apply norm_zero_vec. intros i _. unfold vsub. ring. Qed.
Lemma near_sym a b k : near a b k -> near b a k.
Proof.
  intros H v. rewrite (norm_ext 3 _ (vscal (-1) (vsub (mvec 3 a v) (mvec 3 b v)))) by (intros i _; unfold vscal, vsub; ring).
  rewrite norm_scal. replace (Rabs (-1)) with 1 by (rewrite Rabs_left; lra). rewrite Rmult_1_l. apply H.
Qed.
Lemma near_mul a a' b b' k l : rotation a' -> rotation b -> near a a' k -> near b b' l -> near (mmul 3 a b) (mmul 3 a' b') (k + l).
Proof.
  intros RA RB H1 H2 v.
  rewrite (norm_ext 3 _ (vadd (vsub (mvec 3 a (mvec 3 b v)) (mvec 3 a' (mvec 3 b v))) (mvec 3 a' (vsub (mvec 3 b v) (mvec 3 b' v))))).
  2:{ intros i Hi. unfold vadd, vsub at 1 2. rewrite !mvec_mul by exact Hi. i3 i Hi; cbv [mvec vsub sumn]; ring. }
  eapply Rle_trans; [apply triangle|]. rewrite rotation_norm by exact RA. rewrite Rmult_plus_distr_r. apply Rplus_le_compat; [|apply H2].
  eapply Rle_trans; [apply H1|]. rewrite rotation_norm by exact RB. apply Rle_refl.
Qed.
Lemma chord2 a : 2 - 2 * cos a <= a * a.
Proof.
  replace a with (2 * (a / 2)) at 1 by field. rewrite cos_2a. pose proof (sc (a / 2)) as S1.
  pose proof (sin_lipschitz 0 (a / 2)) as L. rewrite sin_0, !Rminus_0_r in L.
  assert (Q : sin (a / 2) * sin (a / 2) <= a / 2 * (a / 2)).
  { pose proof (Rsqr_abs (sin (a / 2))) as Q1. pose proof (Rsqr_abs (a / 2)) as Q2. unfold Rsqr in Q1, Q2. rewrite Q1, Q2.
    apply Rmult_le_compat; auto using Rabs_pos. }
  nra.
Qed.

Lemma sq_abs a : Rabs a * Rabs a = a * a.
Proof. pose proof (Rsqr_abs a) as Q. unfold Rsqr in Q. lra. Qed.
Lemma norm_bound u k (v : vec) : 0 <= k -> sq 3 u <= k * k * sq 3 v -> norm 3 u <= k * norm 3 v.
Proof.
  intros K H. pose proof (norm_nonneg 3 u). pose proof (norm_nonneg 3 v). assert (0 <= k * norm 3 v) by (apply Rmult_le_pos; assumption).
  apply Rsqr_incr_0_var; [|assumption]. unfold Rsqr. rewrite norm_sq. replace (k * norm 3 v * (k * norm 3 v)) with (k * k * (norm 3 v * norm 3 v)) by ring.
  rewrite norm_sq. exact H.
Qed.
Lemma chord_plane a b y z : 
  (cos a * y + sin a * z - (cos b * y + sin b * z)) * (cos a * y + sin a * z - (cos b * y + sin b * z)) +
  (- sin a * y + cos a * z - (- sin b * y + cos b * z)) * (- sin a * y + cos a * z - (- sin b * y + cos b * z))
  <= (a - b) * (a - b) * (y * y + z * z).
Proof.
  pose proof (chord2 (a - b)) as C. rewrite cos_minus in C.
  pose proof (sc a) as S1. pose proof (sc b) as S2.
  set (p := cos a) in *. set (q := sin a) in *. set (u := cos b) in *. set (w := sin b) in *.
  replace ((p * y + q * z - (u * y + w * z)) * (p * y + q * z - (u * y + w * z)) + (- q * y + p * z - (- w * y + u * z)) * (- q * y + p * z - (- w * y + u * z)))
    with ((2 - 2 * (p * u + q * w)) * (y * y + z * z)).
  2:{ transitivity (((q * q + p * p) + (w * w + u * u) - 2 * (p * u + q * w)) * (y * y + z * z)); [rewrite S1, S2; ring|ring]. }
  apply Rmult_le_compat_r; [nra|exact C].
Qed.
Lemma sq3e u : sq 3 u = u 0%nat * u 0%nat + u 1%nat * u 1%nat + u 2%nat * u 2%nat.
Proof. unfold sq. rewrite sumn3. ring. Qed.
Lemma near_rot_x a b : near (rot_x a) (rot_x b) (Rabs (a - b)).
Proof.
  intros v. apply norm_bound; [apply Rabs_pos|]. rewrite sq_abs, !sq3e. cbv [vsub mvec sumn rot_x m3 v3].
  pose proof (chord_plane a b (v 1%nat) (v 2%nat)) as C. pose proof (Rle_0_sqr (a - b)) as Q. pose proof (Rle_0_sqr (v 0%nat)) as Q0. unfold Rsqr in Q, Q0.
  assert (0 <= (a - b) * (a - b) * (v 0%nat * v 0%nat)) by (apply Rmult_le_pos; assumption).
  eapply Rle_trans; [|eapply Rle_trans; [apply C|lra]]. apply Req_le. ring.
Qed.
Lemma near_rot_y a b : near (rot_y a) (rot_y b) (Rabs (a - b)).
Proof.
  intros v. apply norm_bound; [apply Rabs_pos|]. rewrite sq_abs, !sq3e. cbv [vsub mvec sumn rot_y m3 v3].
  pose proof (chord_plane a b (v 2%nat) (v 0%nat)) as C. pose proof (Rle_0_sqr (a - b)) as Q. pose proof (Rle_0_sqr (v 1%nat)) as Q0. unfold Rsqr in Q, Q0.
  assert (0 <= (a - b) * (a - b) * (v 1%nat * v 1%nat)) by (apply Rmult_le_pos; assumption).
  eapply Rle_trans; [|eapply Rle_trans; [apply C|lra]]. apply Req_le. ring.
Qed.
Lemma near_rot_z a b : near (rot_z a) (rot_z b) (Rabs (a - b)).
Proof.
  intros v. apply norm_bound; [apply Rabs_pos|]. rewrite sq_abs, !sq3e. cbv [vsub mvec sumn rot_z m3 v3].
  pose proof (chord_plane a b (v 0%nat) (v 1%nat)) as C. pose proof (Rle_0_sqr (a - b)) as Q. pose proof (Rle_0_sqr (v 2%nat)) as Q0. unfold Rsqr in Q, Q0.
  assert (0 <= (a - b) * (a - b) * (v 2%nat * v 2%nat)) by (apply Rmult_le_pos; assumption).
  eapply Rle_trans; [|eapply Rle_trans; [apply C|lra]]. apply Req_le. ring.
Qed.
Lemma rot_zero_x : meq3 (rot_x 0) mident. Proof. intros i j Hi Hj. i3 i Hi; i3 j Hj; cbv [rot_x m3 v3 mident Nat.eqb]; rewrite ?sin_0, ?cos_0; lra. Qed.
Lemma rot_zero_y : meq3 (rot_y 0) mident. Proof. intros i j Hi Hj. i3 i Hi; i3 j Hj; cbv [rot_y m3 v3 mident Nat.eqb]; rewrite ?sin_0, ?cos_0; lra. Qed.
Lemma rot_zero_z : meq3 (rot_z 0) mident. Proof. intros i j Hi Hj. i3 i Hi; i3 j Hj; cbv [rot_z m3 v3 mident Nat.eqb]; rewrite ?sin_0, ?cos_0; lra. Qed.
Lemma near_id_x a : near (rot_x a) mident (Rabs a).
Proof. apply (near_ext (rot_x a) _ (rot_x 0)); [apply meq3_refl|apply rot_zero_x|]. replace (Rabs a) with (Rabs (a - 0)) by (f_equal; ring). apply near_rot_x. Qed.
Lemma near_id_y a : near (rot_y a) mident (Rabs a).
Proof. apply (near_ext (rot_y a) _ (rot_y 0)); [apply meq3_refl|apply rot_zero_y|]. replace (Rabs a) with (Rabs (a - 0)) by (f_equal; ring). apply near_rot_y. Qed.
Lemma near_id_z a : near (rot_z a) mident (Rabs a).
Proof. apply (near_ext (rot_z a) _ (rot_z 0)); [apply meq3_refl|apply rot_zero_z|]. replace (Rabs a) with (Rabs (a - 0)) by (f_equal; ring). apply near_rot_z. Qed.
Lemma ident_l a : meq3 (mmul 3 mident a) a. Proof. apply mmul_ident_l. Qed.
Lemma ident_r a : meq3 (mmul 3 a mident) a.
Proof. intros i j Hi Hj. i3 i Hi; i3 j Hj; cbv [mmul sumn mident Nat.eqb]; ring. Qed.
Lemma near_mul_id a b k l : rotation b -> near a mident k -> near b mident l -> near (mmul 3 a b) mident (k + l).
Proof. intros RB H1 H2. apply (near_ext (mmul 3 a b) _ (mmul 3 mident mident)); [apply meq3_refl|apply ident_l|]. apply near_mul; auto using mident_rotation. Qed.
Lemma precession_near t : near (precession t) mident (Rabs (z_angle t) + Rabs (theta_angle t) + Rabs (zeta_angle t)).
Proof.
  unfold precession. rewrite <- (Rabs_Ropp (z_angle t)), <- (Rabs_Ropp (zeta_angle t)).
  apply near_mul_id; [apply rot_z_rotation| |apply near_id_z]. apply near_mul_id; [apply rot_y_rotation|apply near_id_z|apply near_id_y].
Qed.
Lemma rot_x_back e : meq3 (mmul 3 (mmul 3 (rot_x (- e)) mident) (rot_x e)) mident.
Proof.
  eapply meq3_trans; [apply mmul_ext3; [apply ident_r|apply meq3_refl]|].
  pose proof (sc e) as S1. intros i j Hi Hj. i3 i Hi; i3 j Hj; cbv [mmul sumn rot_x m3 v3 mident Nat.eqb]; rewrite ?sin_neg, ?cos_neg; lra.
Qed.
Lemma nutation_near t : near (nutation t) mident (Rabs (d_eps t) + Rabs (d_psi t)).
Proof.
  unfold nutation. set (e := eps_angle t). set (de := d_eps t). set (dp := d_psi t).
  apply (near_ext (mmul 3 (mmul 3 (rot_x (- (e + de))) (rot_z (- dp))) (rot_x e)) _ (mmul 3 (mmul 3 (rot_x (- e)) mident) (rot_x e)));
    [apply meq3_refl|apply rot_x_back|].
  replace (Rabs de + Rabs dp) with (Rabs de + Rabs dp + 0) by ring.
  apply near_mul; [apply rotation_mul; [apply rot_x_rotation|apply mident_rotation]|apply rot_x_rotation| |apply near_refl].
  apply near_mul; [apply rot_x_rotation|apply rot_z_rotation| |rewrite <- (Rabs_Ropp dp); apply near_id_z].
  replace (Rabs de) with (Rabs (- (e + de) - - e)) by (rewrite <- (Rabs_Ropp de); f_equal; ring). apply near_rot_x.
Qed.
Lemma arcsec_pos : 0 < arcsec. Proof. unfold arcsec, deg. pose proof PI_RGT_0. lra. Qed.
Lemma arcsec_is : arcsec = second_of_arc. Proof. unfold arcsec, deg, second_of_arc. field. Qed.

(** ** Bounds on the angles *)
Lemma tt_powers t : Rabs t <= 1 -> Rabs (t * t) <= Rabs t /\ Rabs (t * t * t) <= Rabs t.
Proof. intros H. pose proof (Rabs_pos t). rewrite !Rabs_mult. split; nra. Qed.
Lemma series3_bound a b c t k : Rabs t <= 1 -> Rabs a + Rabs b + Rabs c <= k ->
  Rabs (series 0 [a * arcsec; b * arcsec; c * arcsec] t t) <= k * Rabs t * arcsec.
Proof.
  intros H K. pose proof arcsec_pos as P. pose proof (Rabs_pos t) as T0. destruct (tt_powers t H) as [T2 T3]. cbn [series].
  replace (0 + a * arcsec * t + b * arcsec * (t * t) + c * arcsec * (t * t * t)) with ((a * t + b * (t * t) + c * (t * t * t)) * arcsec) by ring.
  rewrite Rabs_mult, (Rabs_right arcsec) by lra. apply Rmult_le_compat_r; [lra|].
  eapply Rle_trans; [apply Rabs_triang|]. eapply Rle_trans; [apply Rplus_le_compat_r, Rabs_triang|]. rewrite (Rabs_mult a), (Rabs_mult b), (Rabs_mult c).
  pose proof (Rabs_pos a). pose proof (Rabs_pos b). pose proof (Rabs_pos c).
  apply Rle_trans with ((Rabs a + Rabs b + Rabs c) * Rabs t); [|apply Rmult_le_compat_r; assumption].
  rewrite !Rmult_plus_distr_r. apply Rplus_le_compat; [apply Rplus_le_compat|]; [lra| |]; apply Rmult_le_compat_l; assumption.
Qed.
Ltac absnum := unfold Rabs; repeat (destruct (Rcase_abs _)); lra.
Lemma zeta_bound t : Rabs t <= 1 -> Rabs (zeta_angle t) <= 2307 * Rabs t * arcsec. Proof. intros H. apply series3_bound; [exact H|absnum]. Qed.
Lemma z_bound t : Rabs t <= 1 -> Rabs (z_angle t) <= 2308 * Rabs t * arcsec. Proof. intros H. apply series3_bound; [exact H|absnum]. Qed.
Lemma theta_bound t : Rabs t <= 1 -> Rabs (theta_angle t) <= 2005 * Rabs t * arcsec. Proof. intros H. apply series3_bound; [exact H|absnum]. Qed.
Lemma term_bound (f : R -> R) c x : (forall y, -1 <= f y <= 1) -> - Rabs c * arcsec <= c * arcsec * f x <= Rabs c * arcsec.
Proof.
  intros F. specialize (F x). pose proof arcsec_pos as P. assert (Q : - Rabs c <= c * f x <= Rabs c).
  { assert (Z : Rabs (c * f x) <= Rabs c). { rewrite Rabs_mult. assert (Rabs (f x) <= 1) by (apply Rabs_le; exact F). pose proof (Rabs_pos c). nra. }
    pose proof (Rle_abs (c * f x)). pose proof (Rle_abs (- (c * f x))) as Y. rewrite Rabs_Ropp in Y. lra. }
  replace (c * arcsec * f x) with (c * f x * arcsec) by ring. split; apply Rmult_le_compat_r; lra.
Qed.
Lemma nutation_bound (f : R -> R) a b c d e g h i j t k : (forall y, -1 <= f y <= 1) ->
  Rabs a + Rabs b + Rabs c + Rabs d + Rabs e + Rabs g + Rabs h + Rabs i + Rabs j <= k -> Rabs (nutation_terms f [a; b; c; d; e; g; h; i; j] t) <= k * arcsec.
Proof.
  intros F K. pose proof arcsec_pos as P. unfold nutation_terms. cbn [nth]. cbv zeta.
  set (x0 := o_angle t). set (x1 := 2 * (f_angle t + x0 - d_angle t)). set (x2 := 2 * x0). set (x3 := 2 * (f_angle t + x0)). 
  pose proof (term_bound f a x0 F). pose proof (term_bound f b x1 F). pose proof (term_bound f c x2 F). pose proof (term_bound f d x3 F).
  pose proof (term_bound f e (ls_angle t) F). pose proof (term_bound f g (lm_angle t) F). pose proof (term_bound f h (x1 + ls_angle t) F).
  pose proof (term_bound f i (x3 + lm_angle t) F). pose proof (term_bound f j (x1 - ls_angle t) F).
  apply Rle_trans with ((Rabs a + Rabs b + Rabs c + Rabs d + Rabs e + Rabs g + Rabs h + Rabs i + Rabs j) * arcsec); [|apply Rmult_le_compat_r; lra].
  apply Rabs_le. lra.
Qed.
Lemma d_psi_bound t : Rabs (d_psi t) <= 19.3 * arcsec.
Proof. apply nutation_bound; [apply SIN_bound|absnum]. Qed.
Lemma d_eps_bound t : Rabs (d_eps t) <= 10.1 * arcsec.
Proof. apply nutation_bound; [apply COS_bound|absnum]. Qed.

Lemma full_near_simple jd : Rabs (tt_century jd) <= 1 -> near (full_dcm jd) (rot_z (gstime jd)) ((6620 * Rabs (tt_century jd) + 50) * second_of_arc).
Proof.
  intros H. rewrite <- arcsec_is. unfold full_dcm. cbv zeta. set (t := tt_century jd) in *. set (g := gstime jd). set (q := d_psi t * cos (eps_angle t + d_eps t)).
  pose proof (d_psi_bound t) as B1. pose proof (d_eps_bound t) as B2. pose proof (zeta_bound t H) as B3. pose proof (z_bound t H) as B4. pose proof (theta_bound t H) as B5.
  assert (Q : Rabs q <= 19.3 * arcsec).
  { unfold q. rewrite Rabs_mult. assert (Rabs (cos (eps_angle t + d_eps t)) <= 1) by (apply Rabs_le, COS_bound).
    eapply Rle_trans; [|exact B1]. rewrite <- (Rmult_1_r (Rabs (d_psi t))) at 2. apply Rmult_le_compat_l; [apply Rabs_pos|assumption]. }
  apply (near_ext (mmul 3 (mmul 3 (mmul 3 (polar_motion 0 0) (rot_z (g + q))) (nutation t)) (precession t)) _ (mmul 3 (mmul 3 (mmul 3 mident (rot_z g)) mident) mident)).
  - apply meq3_refl.
  - eapply meq3_trans; [apply ident_r|]. eapply meq3_trans; [apply ident_r|]. apply ident_l.
  - apply near_le with (0 + Rabs (g + q - g) + (Rabs (d_eps t) + Rabs (d_psi t)) + (Rabs (z_angle t) + Rabs (theta_angle t) + Rabs (zeta_angle t))).
    + apply near_mul; [apply rotation_mul; [apply rotation_mul; [apply mident_rotation|apply rot_z_rotation]|apply mident_rotation]|apply precession_rotation| |apply precession_near].
      apply near_mul; [apply rotation_mul; auto using mident_rotation, rot_z_rotation|apply nutation_rotation| |apply nutation_near].
      apply near_mul; [apply mident_rotation|apply rot_z_rotation| |apply near_rot_z].
      apply (near_ext mident _ mident); [apply meq3_sym, polar_ident|apply meq3_refl|apply near_refl].
    + replace (g + q - g) with q by ring. pose proof arcsec_pos. pose proof (Rabs_pos t).
      set (at_ := Rabs t * arcsec). replace ((6620 * Rabs t + 50) * arcsec) with (6620 * at_ + 50 * arcsec) by (unfold at_; ring).
      replace (2307 * Rabs t * arcsec) with (2307 * at_) in B3 by (unfold at_; ring). replace (2308 * Rabs t * arcsec) with (2308 * at_) in B4 by (unfold at_; ring).
      replace (2005 * Rabs t * arcsec) with (2005 * at_) in B5 by (unfold at_; ring).
      lra.
Qed.

(** ** The pole of date *)
Definition row3 (m : mat) : vec := fun j => m 2%nat j.
Lemma row3_mul a b : veq 3 (row3 (mmul 3 a b)) (mvec 3 (mtrans b) (row3 a)).
Proof. intros i Hi. i3 i Hi; cbv [row3 mmul mvec mtrans sumn]; ring. Qed.
Lemma trans_near m k : rotation m -> near m mident k -> near (mtrans m) mident k.
Proof.
  intros RM H v. pose proof (rotation_norm m (vsub (mvec 3 (mtrans m) v) (mvec 3 mident v)) RM) as N. rewrite <- N.
  pose proof (near_sym _ _ _ H v) as G. rewrite <- (norm_ext 3 (vsub (mvec 3 mident v) (mvec 3 m v))); [exact G|].
  pose proof (rotation_back m v RM) as B. intros i Hi. specialize (B i Hi). revert B. i3 i Hi; cbv [vsub mvec mident sumn Nat.eqb mtrans]; intros B; lra.
Qed.
Lemma precession_pole t : norm 3 (vsub (row3 (precession t)) (v3 0 0 1)) <= Rabs (theta_angle t).
Proof.
  rewrite <- (Rmult_1_r (Rabs (theta_angle t))). assert (N1 : norm 3 (v3 0 0 1) = 1).
  { unfold norm, sq. rewrite sumn3. cbn [v3]. replace (0 * 0 + 0 * 0 + 1 * 1) with 1 by ring. apply sqrt_1. }
  rewrite <- N1 at 2. apply norm_bound; [apply Rabs_pos|]. rewrite sq_abs, !sq3e. cbn [v3].
  pose proof (chord2 (theta_angle t)) as C. pose proof (sc (theta_angle t)) as S1. pose proof (sc (zeta_angle t)) as S2.
  cbv [vsub row3 precession mmul sumn rot_z rot_y m3 v3]. rewrite ?sin_neg, ?cos_neg.
  set (p := sin (theta_angle t)) in *. set (q := cos (theta_angle t)) in *. set (u := sin (zeta_angle t)) in *. set (w := cos (zeta_angle t)) in *.
  set (th := theta_angle t) in *. clearbody th p q u w.
  replace (th * th * (0 * 0 + 0 * 0 + 1 * 1)) with (th * th) by ring. eapply Rle_trans; [|exact C]. apply Req_le.
  match goal with |- ?l = _ => replace l with (p * p * (u * u + w * w) + (q * q - 2 * q + 1)) by ring end. rewrite S2. lra.
Qed.
Lemma full_pole jd : Rabs (tt_century jd) <= 1 ->
  norm 3 (vsub (row3 (full_dcm jd)) (v3 0 0 1)) <= (2005 * Rabs (tt_century jd) + 30) * second_of_arc.
Proof.
  intros H. rewrite <- arcsec_is. unfold full_dcm. cbv zeta. set (t := tt_century jd) in *.
  set (a := mmul 3 (polar_motion 0 0) (rot_z (gstime jd + d_psi t * cos (eps_angle t + d_eps t)))).
  assert (A : veq 3 (row3 a) (v3 0 0 1)) by (intros i Hi; i3 i Hi; cbv [a row3 mmul sumn polar_motion rot_z m3 v3]; ring).
  set (n := mvec 3 (mtrans (nutation t)) (v3 0 0 1)).
  assert (E : veq 3 (row3 (mmul 3 (mmul 3 a (nutation t)) (precession t))) (mvec 3 (mtrans (precession t)) n)).
  { intros i Hi. rewrite row3_mul by exact Hi. apply mvec_ext3; [apply meq3_refl| |exact Hi]. intros j Hj. rewrite row3_mul by exact Hj. apply mvec_ext3; [apply meq3_refl|exact A|exact Hj]. }
  assert (P : veq 3 (mvec 3 (mtrans (precession t)) (v3 0 0 1)) (row3 (precession t))).
  { intros i Hi. cbv [mvec mtrans sumn row3 v3]. ring. }
  rewrite (norm_ext 3 _ (vadd (mvec 3 (mtrans (precession t)) (vsub n (v3 0 0 1))) (vsub (row3 (precession t)) (v3 0 0 1)))).
  2:{ intros i Hi. unfold vadd, vsub at 1 3. rewrite E by exact Hi. rewrite <- (P i Hi). i3 i Hi; cbv [mvec sumn vsub]; ring. }
  eapply Rle_trans; [apply triangle|]. rewrite rotation_norm by (apply rotation_trans, precession_rotation).
  pose proof (precession_pole t) as B1. pose proof (theta_bound t H) as B2.
  pose proof (trans_near _ _ (nutation_rotation t) (nutation_near t) (v3 0 0 1)) as B3. fold n in B3.
  assert (N1 : norm 3 (v3 0 0 1) = 1).
  { unfold norm, sq. rewrite sumn3. cbn [v3]. replace (0 * 0 + 0 * 0 + 1 * 1) with 1 by ring. apply sqrt_1. }
  rewrite N1, Rmult_1_r in B3. rewrite (norm_ext 3 _ (vsub n (v3 0 0 1))) in B3 by (intros i Hi; i3 i Hi; cbv [vsub mvec mident sumn Nat.eqb v3]; ring).
  pose proof (d_psi_bound t). pose proof (d_eps_bound t). pose proof arcsec_pos.
  replace ((2005 * Rabs t + 30) * arcsec) with (2005 * Rabs t * arcsec + 30 * arcsec) by ring. lra.
Qed.

(** ** Moon *)
Lemma me_rows (r v : vec) : 0 < norm 3 (cross r v) ->
  let x := vscal (-1) (normalize 3 r) in let z := normalize 3 (cross r v) in
  0 < norm 3 r /\ unit 3 x /\ unit 3 z /\ dot 3 x z = 0.
Proof.
  intros H. cbv zeta. assert (P : 0 < norm 3 r).
  { destruct (Rle_lt_or_eq_dec 0 _ (norm_nonneg 3 r)) as [L|E]; [exact L|]. exfalso. symmetry in E. pose proof (norm_0 3 r E) as Z.
    rewrite (norm_zero_vec 3 (cross r v)) in H; [lra|]. intros i Hi. i3 i Hi; cbn [cross]; rewrite ?(Z 0%nat), ?(Z 1%nat), ?(Z 2%nat) by lia; ring. }
  split; [exact P|]. pose proof (normalized_unit r P) as U1. pose proof (normalized_unit _ H) as U2. unfold unit, dot in *. rewrite !sumn3. rewrite !sumn3 in U1, U2.
  unfold vscal in *. rewrite !normalize_scal by assumption. set (a := norm 3 r) in *. set (b := norm 3 (cross r v)) in *. unfold Rdiv in *.
  split; [|split].
  - lra.
  - lra.
  - cbn [cross]. ring.
Qed.
Lemma mean_earth_rotation r v : 0 < norm 3 (cross r v) -> rotation (mean_earth_dcm r v).
Proof.
  intros H. destruct (me_rows r v H) as (P & U1 & U2 & O). apply (triple_rotation _ (vscal (-1) (normalize 3 r)) (normalize 3 (cross r v))); auto; intros i Hi; reflexivity.
Qed.
Lemma mean_earth_directions r v : 0 < norm 3 (cross r v) ->
  veq 3 (mvec 3 (mean_earth_dcm r v) (vscal (-1) r)) (v3 (norm 3 r) 0 0) /\
  veq 3 (mvec 3 (mean_earth_dcm r v) (cross r v)) (v3 0 0 (norm 3 (cross r v))).
Proof.
  intros H. destruct (me_rows r v H) as (P & _). pose proof (norm3 r) as N1. pose proof (norm3 (cross r v)) as N2. cbn [cross] in N2.
  set (a := norm 3 r) in *. set (b := norm 3 (cross r v)) in *.
  split; intros i Hi; cbv [mvec sumn]; i3 i Hi; cbn [mean_earth_dcm v3 vscal cross]; unfold vscal; cbn [cross];
    rewrite ?normalize_scal by assumption; fold a b; cbn [cross]; unfold Rdiv.
  - transitivity (/ a * (r 0%nat * r 0%nat + r 1%nat * r 1%nat + r 2%nat * r 2%nat)); [ring|]. rewrite <- N1. field. lra.
  - ring.
  - ring.
  - ring.
  - ring.
  - match type of N2 with _ = ?x => transitivity (/ b * x) end; [ring|]. rewrite <- N2. field. lra.
Qed.
Lemma me_to_pa_rotation : rotation me_to_pa.
Proof. unfold me_to_pa. apply rotation_mul; [apply rotation_mul|]; auto using rot_x_rotation, rot_y_rotation, rot_z_rotation. Qed.
Lemma me_to_pa_near : near me_to_pa mident (147 * second_of_arc).
Proof.
  rewrite <- arcsec_is. pose proof arcsec_pos as P. unfold me_to_pa.
  apply near_le with (Rabs (67.573 * arcsec) + Rabs (78.58 * arcsec) + Rabs (0.285 * arcsec)).
  - apply near_mul_id; [apply rot_x_rotation| |apply near_id_x]. apply near_mul_id; [apply rot_y_rotation|apply near_id_z|apply near_id_y].
  - rewrite !Rabs_right by lra. lra.
Qed.
Lemma principal_rotation r v : 0 < norm 3 (cross r v) -> rotation (principal_axis_dcm r v).
Proof. intros H. apply rotation_mul; [apply me_to_pa_rotation|now apply mean_earth_rotation]. Qed.
Lemma principal_near r v u : 0 < norm 3 (cross r v) ->
  norm 3 (vsub (mvec 3 (principal_axis_dcm r v) u) (mvec 3 (mean_earth_dcm r v) u)) <= 147 * second_of_arc * norm 3 u.
Proof.
  intros H. unfold principal_axis_dcm. pose proof (me_to_pa_near (mvec 3 (mean_earth_dcm r v) u)) as N. rewrite rotation_norm in N by (now apply mean_earth_rotation).
  rewrite (norm_ext 3 _ (vsub (mvec 3 me_to_pa (mvec 3 (mean_earth_dcm r v) u)) (mvec 3 mident (mvec 3 (mean_earth_dcm r v) u)))); [exact N|].
  intros i Hi. unfold vsub. rewrite mvec_mul by exact Hi. f_equal. i3 i Hi; cbv [mvec sumn mident Nat.eqb]; ring.
Qed.
Lemma index_of_absent p ids : ~ In p ids -> index_of p ids = None.
Proof. induction ids as [|z l IH]; intros H; [reflexivity|]. cbn [index_of]. destruct (Z.eqb_spec z p) as [->|N]; [exfalso; apply H; left; reflexivity|]. rewrite IH; [reflexivity|]. intros I. apply H. right. exact I. Qed.
Lemma normalize_zero (u : vec) : (forall i, (i < 3)%nat -> u i = 0) -> forall i, (i < 3)%nat -> normalize 3 u i = 0.
Proof. intros H i Hi. unfold normalize. cbv zeta. rewrite (norm_zero_vec 3 u H). destruct (req_spec 0 0); [|lra]. cbn. apply H. exact Hi. Qed.
Lemma principal_degenerate r v : (forall i, (i < 3)%nat -> r i = 0) -> forall i j, (i < 3)%nat -> (j < 3)%nat -> principal_axis_dcm r v i j = 0.
Proof.
  intros H i j Hi Hj. assert (Z : forall k, (k < 3)%nat -> mean_earth_dcm r v k j = 0).
  { assert (C : forall n, (n < 3)%nat -> normalize 3 (cross r v) n = 0).
    { apply normalize_zero. intros n Hn. i3 n Hn; cbn [cross]; rewrite ?(H 0%nat), ?(H 1%nat), ?(H 2%nat) by lia; ring. }
    intros k Hk. i3 k Hk; cbn [mean_earth_dcm].
    - unfold vscal. rewrite normalize_zero by assumption. ring.
    - i3 j Hj; cbn [cross]; rewrite ?(C 0%nat), ?(C 1%nat), ?(C 2%nat) by lia; ring.
    - apply C. exact Hj. }
  unfold principal_axis_dcm, mmul. rewrite sumn3, !Z by lia. ring.
Qed.
