(** Lemmas for the geodetic position. *)
From Coq Require Import Reals Lra Lia List Bool ZArith Psatz Nsatz.
From Verif Require Import Base RBase VecModel VecProofs QuatModel QuatSpec QuatProofs Trig SensorModel SensorProofs KeplerProofs GeoModel GeoSpec.
Import ListNotations.
Open Scope R_scope.

(** * Constants *)
Lemma e2_bounds : 66 / 10 ^ 4 < geo_e2 < 67 / 10 ^ 4.
Proof. unfold geo_e2, geo_flattening. split; lra. Qed.
Lemma radius_pos : 0 < geo_radius. Proof. unfold geo_radius. lra. Qed.

(** * The curvature factor *)
Definition wx (s : R) : R := sqrt (1 - geo_e2 * s * s).
Lemma wx_arg s : -1 <= s <= 1 -> 0.9801 <= 1 - geo_e2 * s * s <= 1.
Proof. intros H. pose proof e2_bounds. assert (0 <= s * s <= 1) by nra. rewrite Rmult_assoc. split; nra. Qed.
Lemma wx_bounds s : -1 <= s <= 1 -> 0.99 <= wx s <= 1.
Proof.
  intros H. pose proof (wx_arg s H). unfold wx. split.
  - pose proof (sqrt_square 0.99 ltac:(lra)) as E. rewrite <- E. apply sqrt_le_1_alt. lra.
  - pose proof (sqrt_le_1_alt (1 - geo_e2 * s * s) 1 ltac:(lra)) as E. rewrite sqrt_1 in E. exact E.
Qed.
Lemma wx_sq s : -1 <= s <= 1 -> wx s * wx s = 1 - geo_e2 * s * s.
Proof. intros H. apply sqrt_sqrt. pose proof (wx_arg s H). lra. Qed.
Lemma geo_c_wx phi : geo_c phi = / wx (sin phi).
Proof. unfold geo_c, wx. unfold Rdiv. ring. Qed.
Lemma wx_pos s : -1 <= s <= 1 -> 0 < wx s. Proof. intros H. pose proof (wx_bounds s H). lra. Qed.
Lemma geo_c_bounds phi : 1 <= geo_c phi <= 1.011.
Proof.
  rewrite geo_c_wx. pose proof (wx_bounds _ (SIN_bound phi)) as [A B]. set (w := wx (sin phi)) in *. clearbody w.
  split.
  - rewrite <- Rinv_1. apply Rinv_le_contravar; lra.
  - apply (Rmult_le_reg_l w); [lra|]. rewrite Rinv_r by lra. nra.
Qed.
Lemma wx_diff s t : -1 <= s <= 1 -> -1 <= t <= 1 -> (wx t - wx s) * (wx s + wx t) = geo_e2 * (s - t) * (s + t).
Proof. intros A B. pose proof (wx_sq s A). pose proof (wx_sq t B). nra. Qed.

(** s / w(s) is increasing with slope at most 1.04 *)
Lemma k_diff s t : -1 <= s <= 1 -> -1 <= t <= 1 ->
  exists m, 0 < m <= 1.04 /\ / wx s * s - / wx t * t = m * (s - t).
Proof.
  intros A B. pose proof (wx_bounds s A) as Ws. pose proof (wx_bounds t B) as Wt. pose proof (wx_diff s t A B) as D.
  pose proof e2_bounds as E.
  set (X := wx s) in *. set (Y := wx t) in *. set (e := geo_e2) in *. clearbody X Y e.
  set (q := / (X + Y)). assert (Q : q * (X + Y) = 1) by (unfold q; apply Rinv_l; lra).
  assert (Qb : 0 < q < 0.52). { split; [apply Rinv_0_lt_compat; lra|]. nra. }
  set (p := / (X * Y)). assert (P : p * (X * Y) = 1) by (unfold p; apply Rinv_l; nra).
  assert (XY : 0.98 <= X * Y <= 1) by (split; nra).
  assert (Pb : 0 < p <= 1.0205). { split; [apply Rinv_0_lt_compat; lra|]. apply (Rmult_le_reg_r (X * Y)); [lra|]. rewrite P. lra. }
  exists (p * (Y + t * e * (s + t) * q)).
  assert (ST : -2 <= t * (s + t) <= 2) by (split; nra).
  assert (EQ : 0 < e * q < 0.0036) by (split; nra).
  assert (Bb : -0.0072 <= t * e * (s + t) * q <= 0.0072).
  { replace (t * e * (s + t) * q) with (e * q * (t * (s + t))) by ring. split; nra. }
  split; [split; nra|].
  assert (DY : Y - X = e * (s - t) * (s + t) * q). { rewrite <- D. rewrite Rmult_assoc, (Rmult_comm (X + Y)), Q. ring. }
  replace (/ X * s - / Y * t) with (p * ((s - t) * Y + t * (Y - X))) by (unfold p; field; lra).
  rewrite DY. ring.
Qed.
Lemma k_strict s t : -1 <= s <= 1 -> -1 <= t <= 1 -> s <= t -> / wx s * s <= / wx t * t.
Proof. intros A B H. destruct (k_diff t s B A) as (m & M & E). nra. Qed.

Definition geo_u (phi : R) : R := geo_radius * geo_c phi * geo_e2 * sin phi.
Lemma geo_u_k phi : geo_u phi = geo_radius * geo_e2 * (/ wx (sin phi) * sin phi).
Proof. unfold geo_u. rewrite geo_c_wx. ring. Qed.
Lemma ru_bounds : 42000 < geo_radius * geo_e2 < 42800.
Proof. pose proof e2_bounds. unfold geo_radius. split; lra. Qed.
Lemma geo_u_lip a b : Rabs (geo_u a - geo_u b) <= 44600 * Rabs (a - b).
Proof.
  rewrite !geo_u_k, <- Rmult_minus_distr_l. destruct (k_diff _ _ (SIN_bound a) (SIN_bound b)) as (m & M & ->).
  pose proof ru_bounds as U. pose proof (sin_lipschitz b a) as L. rewrite !Rabs_mult.
  rewrite <- Rabs_mult. rewrite (Rabs_right (geo_radius * geo_e2)) by lra. rewrite (Rabs_right m) by lra.
  set (x := Rabs (sin a - sin b)) in *. set (y := Rabs (a - b)) in *.
  assert (0 <= x) by apply Rabs_pos. set (u := geo_radius * geo_e2) in *. clearbody x y u.
  assert (u * m <= 44600) by nra. assert (0 <= u * m) by nra. rewrite <- Rmult_assoc. nra.
Qed.
Lemma geo_u_mono a b : - (PI / 2) <= a -> a <= b -> b <= PI / 2 -> geo_u a <= geo_u b.
Proof.
  intros A H B. rewrite !geo_u_k. pose proof ru_bounds. apply Rmult_le_compat_l; [lra|].
  apply k_strict; try apply SIN_bound. apply sin_incr_1; lra.
Qed.
Lemma geo_u_neg a : geo_u (- a) = - geo_u a.
Proof. unfold geo_u, geo_c. rewrite sin_neg. replace (geo_e2 * - sin a * - sin a) with (geo_e2 * sin a * sin a) by ring. ring. Qed.
Lemma geo_u_0 : geo_u 0 = 0. Proof. unfold geo_u. rewrite sin_0. ring. Qed.
Lemma geo_u_sign a : 0 <= a <= PI / 2 -> 0 <= geo_u a.
Proof. intros H. rewrite <- geo_u_0. apply geo_u_mono; lra. Qed.
Lemma geo_c_period a : geo_c (a + 2 * PI) = geo_c a.
Proof. unfold geo_c. rewrite sin_plus, sin_2PI, cos_2PI. f_equal. f_equal. ring. Qed.
Lemma geo_u_period a : geo_u (a + 2 * PI) = geo_u a.
Proof. unfold geo_u. rewrite geo_c_period, sin_plus, sin_2PI, cos_2PI. ring. Qed.
Lemma geo_c_lip a b : Rabs (geo_c a - geo_c b) <= 0.0036 * Rabs (a - b).
Proof.
  rewrite !geo_c_wx. pose proof (wx_diff _ _ (SIN_bound a) (SIN_bound b)) as D.
  pose proof (wx_bounds _ (SIN_bound a)) as A. pose proof (wx_bounds _ (SIN_bound b)) as B. pose proof e2_bounds as E.
  assert (S : (sin a - sin b) * (sin a + sin b) = sin (a - b) * sin (a + b)).
  { rewrite sin_minus, sin_plus. pose proof (sin2_cos2 a) as P. pose proof (sin2_cos2 b) as Q. unfold Rsqr in *. nra. }
  rewrite Rmult_assoc, S in D. pose proof (sin_lipschitz 0 (a - b)) as L. rewrite sin_0, !Rminus_0_r in L.
  set (X := wx (sin a)) in *. set (Y := wx (sin b)) in *. clearbody X Y. clear S.
  assert (T : Rabs (sin (a - b) * sin (a + b)) <= Rabs (a - b)).
  { rewrite Rabs_mult. pose proof (SIN_bound (a + b)). assert (Rabs (sin (a + b)) <= 1) by (apply Rabs_le; lra).
    pose proof (Rabs_pos (sin (a - b))). pose proof (Rabs_pos (sin (a + b))). nra. }
  set (k := sin (a - b) * sin (a + b)) in *. clearbody k. set (y := Rabs (a - b)) in *. clearbody y. clear L.
  set (q := / (X * Y * (X + Y))). assert (Q : q * (X * Y * (X + Y)) = 1). { unfold q. apply Rinv_l. nra. }
  assert (XY : 0.98 <= X * Y <= 1) by (split; nra). assert (W : 1.94 <= X * Y * (X + Y)) by nra.
  assert (Qb : 0 < q <= 0.52). { split; [apply Rinv_0_lt_compat; lra|]. assert (0 < q) by (apply Rinv_0_lt_compat; lra). nra. }
  replace (/ X - / Y) with (q * geo_e2 * k).
  2:{ rewrite Rmult_assoc, <- D. unfold q. field. lra. }
  rewrite !Rabs_mult, (Rabs_right q), (Rabs_right geo_e2) by lra. assert (0 <= Rabs k) by apply Rabs_pos.
  assert (0 <= q * geo_e2 <= 0.0036) by (split; nra). nra.
Qed.

(** * Angles *)
Lemma sin_half_lower x : 0 <= x <= PI / 2 -> x / 2 <= sin x.
Proof.
  intros H. destruct (Req_dec x 0) as [->|N]; [rewrite sin_0; lra|].
  destruct (Rle_dec x (PI / 3)) as [L|L].
  - destruct (MVT_cor2 sin cos 0 x) as (c & E & C); [lra|intros; apply derivable_pt_lim_sin|].
    rewrite sin_0, !Rminus_0_r in E. rewrite E.
    assert (1 / 2 <= cos c). { rewrite <- cos_PI3. pose proof PI_RGT_0. apply cos_decr_1; lra. }
    nra.
  - assert (sin (PI / 3) <= sin x). { pose proof PI_RGT_0. apply sin_incr_1; lra. }
    rewrite sin_PI3 in H0. pose proof pi_upper. assert (1.7 <= sqrt 3).
    { replace 1.7 with (sqrt (1.7 * 1.7)) by (apply sqrt_square; lra). apply sqrt_le_1_alt. lra. }
    lra.
Qed.
Lemma abs_le_sin x : - (PI / 2) <= x <= PI / 2 -> Rabs x <= 2 * Rabs (sin x).
Proof.
  intros H. destruct (Rle_dec 0 x) as [L|L].
  - pose proof (sin_half_lower x). rewrite !Rabs_right by lra. lra.
  - pose proof (sin_half_lower (- x)). rewrite sin_neg in H0. rewrite !Rabs_left by lra. lra.
Qed.
Lemma cos_pos_open x : - (PI / 2) < x < PI / 2 -> 0 < cos x. Proof. intros H. apply cos_gt_0; lra. Qed.
Lemma atan_open x : - (PI / 2) < atan x < PI / 2. Proof. pose proof (atan_bound x). lra. Qed.
Lemma atan_tan_form y r : 0 < r -> r * sin (atan (y / r)) = y * cos (atan (y / r)).
Proof.
  intros H. pose proof (atan_open (y / r)) as B. pose proof (cos_pos_open _ B) as C.
  pose proof (tan_atan (y / r)) as T. unfold tan in T.
  assert (E : sin (atan (y / r)) = y / r * cos (atan (y / r))). { rewrite <- T at 2. field. lra. }
  rewrite E. field. lra.
Qed.
Lemma atan_mono x y : x <= y -> atan x <= atan y.
Proof. intros [H| ->]; [left; apply atan_increasing; exact H|right; reflexivity]. Qed.
Lemma div_mono x y r : 0 < r -> x <= y -> x / r <= y / r.
Proof. intros H L. apply Rmult_le_compat_r; [left; apply Rinv_0_lt_compat; exact H|exact L]. Qed.
Lemma atan_pos x : 0 < x -> 0 < atan x. Proof. intros H. rewrite <- atan_0. apply atan_increasing. exact H. Qed.
Lemma atan_nonneg x : 0 <= x -> 0 <= atan x. Proof. intros H. rewrite <- atan_0. apply atan_mono. exact H. Qed.
Lemma atan_nonpos x : x <= 0 -> atan x <= 0. Proof. intros H. rewrite <- atan_0. apply atan_mono. exact H. Qed.
Lemma atan_neg x : x < 0 -> atan x < 0. Proof. intros H. rewrite <- atan_0. apply atan_increasing. exact H. Qed.

Lemma actan_right s r : 0 < r -> actan s r = atan (s / r) + (if rlt 0 s then 0 else 2 * PI).
Proof.
  intros H. unfold actan. rewrite req_false by lra. rewrite rlt_true by lra. destruct (rlt_spec 0 s); ring.
Qed.
Lemma actan_axis s : actan s 0 = if rlt 0 s then PI / 2 else 3 * (PI / 2).
Proof. unfold actan. rewrite req_true by reflexivity. reflexivity. Qed.

(** [actan y x] is an angle of the point (x, y) in (0, 2 pi] *)
Lemma actan_range s c : 0 < actan s c <= 2 * PI.
Proof.
  pose proof PI_RGT_0. unfold actan. destruct (req_spec c 0) as [E|E].
  - destruct (rlt_spec 0 s); lra.
  - pose proof (atan_open (s / c)). destruct (rlt_spec 0 c) as [P|P].
    + destruct (rlt_spec 0 s) as [Q|Q].
      * assert (0 < atan (s / c)) by (apply atan_pos; apply Rdiv_lt_0_compat; lra). lra.
      * assert (atan (s / c) <= 0); [|lra]. apply atan_nonpos. unfold Rdiv. assert (0 < / c) by (apply Rinv_0_lt_compat; lra). nra.
    + lra.
Qed.
Lemma actan_polar s c : (c <> 0 \/ s <> 0) ->
  sqrt (c * c + s * s) * cos (actan s c) = c /\ sqrt (c * c + s * s) * sin (actan s c) = s.
Proof.
  intros NZ. set (h := sqrt (c * c + s * s)).
  unfold actan. destruct (req_spec c 0) as [->|E].
  - assert (N : s <> 0) by (destruct NZ; lra). destruct (rlt_spec 0 s) as [P|P].
    + unfold h. replace (0 * 0 + s * s) with (s * s) by ring. rewrite sqrt_square by lra. rewrite cos_PI2, sin_PI2. split; ring.
    + unfold h. replace (0 * 0 + s * s) with ((- s) * (- s)) by ring. rewrite sqrt_square by lra.
      replace (3 * (PI / 2)) with (PI / 2 + PI) by lra. rewrite neg_cos, neg_sin, cos_PI2, sin_PI2. split; ring.
  - assert (A : cos (atan (s / c)) * h = Rabs c /\ sin (atan (s / c)) * h = s * (Rabs c / c)).
    { pose proof (sqrt_hyp c s E) as Q. fold h in Q. pose proof (hyp_pos c s NZ) as HP. fold h in HP.
      assert (AP : 0 < Rabs c) by (apply Rabs_pos_lt; exact E).
      rewrite cos_atan, sin_atan. unfold Rsqr. rewrite Q. split; field; repeat split; lra. }
    destruct A as [A B]. destruct (rlt_spec 0 c) as [P|P].
    + rewrite Rabs_right in A, B by lra. replace (s * (c / c)) with s in B by (field; exact E).
      destruct (rlt_spec 0 s); [split; lra|]. rewrite cos_plus, sin_plus, cos_2PI, sin_2PI. split; lra.
    + rewrite Rabs_left in A, B by lra. replace (s * (- c / c)) with (- s) in B by (field; exact E).
      rewrite (Rplus_comm PI), neg_cos, neg_sin. split; lra.
Qed.

Lemma fmod2p_spec x : Rabs (x / (2 * PI)) < 2 ^ 31 -> exists y k, fmod2p x = Ok y /\ y = x + IZR k * (2 * PI) /\ 0 <= y < 2 * PI.
Proof.
  intros H. pose proof PI_RGT_0 as P. apply Rabs_def2 in H.
  unfold fmod2p. rewrite (proj1 (int_of_double_ok (x / (2 * PI)))) by lra. cbn [bind].
  destruct (trunc_bounds (x / (2 * PI))) as (A & B & C & D). set (i := trunc (x / (2 * PI))) in *. clearbody i.
  apply Rabs_def2 in B.
  assert (X : x = x / (2 * PI) * (2 * PI)) by (field; lra). set (t := x / (2 * PI)) in *. clearbody t.
  destruct (rlt_spec (x - IZR i * (2 * PI)) 0) as [L|L].
  - exists (x - IZR i * (2 * PI) + 2 * PI), (1 - i)%Z. split; [reflexivity|]. rewrite minus_IZR. split; [ring|]. split; nra.
  - exists (x - IZR i * (2 * PI)), (- i)%Z. split; [reflexivity|]. rewrite opp_IZR. split; [ring|]. split; nra.
Qed.
Lemma sin_turns x k : sin (x + IZR k * (2 * PI)) = sin x.
Proof.
  assert (G : forall n y, sin (y + INR n * (2 * PI)) = sin y).
  { intros n y. replace (y + INR n * (2 * PI)) with (y + 2 * INR n * PI) by ring. apply sin_period. }
  destruct (Z_le_gt_dec 0 k) as [H|H].
  - rewrite <- (Z2Nat.id k H), <- INR_IZR_INZ. apply G.
  - rewrite <- (G (Z.to_nat (- k)) (x + IZR k * (2 * PI))). f_equal. rewrite INR_IZR_INZ, Z2Nat.id by lia. rewrite opp_IZR. ring.
Qed.
Lemma cos_turns x k : cos (x + IZR k * (2 * PI)) = cos x.
Proof.
  assert (G : forall n y, cos (y + INR n * (2 * PI)) = cos y).
  { intros n y. replace (y + INR n * (2 * PI)) with (y + 2 * INR n * PI) by ring. apply cos_period. }
  destruct (Z_le_gt_dec 0 k) as [H|H].
  - rewrite <- (Z2Nat.id k H), <- INR_IZR_INZ. apply G.
  - rewrite <- (G (Z.to_nat (- k)) (x + IZR k * (2 * PI))). f_equal. rewrite INR_IZR_INZ, Z2Nat.id by lia. rewrite opp_IZR. ring.
Qed.
Lemma fmod2p_actan s c : exists y, fmod2p (actan s c) = Ok y /\ cos y = cos (actan s c) /\ sin y = sin (actan s c) /\ 0 <= y < 2 * PI.
Proof.
  pose proof (actan_range s c) as A. pose proof PI_RGT_0 as P. destruct (fmod2p_spec (actan s c)) as (y & k & E & Y & B).
  - assert (0 < actan s c / (2 * PI) <= 1).
    { split; [apply Rdiv_lt_0_compat; lra|]. apply (Rmult_le_reg_r (2 * PI)); [lra|]. unfold Rdiv. rewrite Rmult_assoc, Rinv_l by lra. lra. }
    rewrite Rabs_right by lra. lra.
  - exists y. rewrite Y, cos_turns, sin_turns. rewrite <- Y. auto.
Qed.

(** * The iteration *)
Definition clean (z r phi : R) : R := atan ((z + geo_u phi) / r).
Definition offset (z : R) : R := if rlt 0 z then 0 else 2 * PI.
(** latitudes on the side of z *)
Definition side (z phi : R) : Prop := - (PI / 2) < phi < PI / 2 /\ (0 < z -> 0 < phi) /\ (z < 0 -> phi < 0) /\ (z = 0 -> phi = 0).

Lemma side_u z phi : side z phi -> (0 < z -> 0 < z + geo_u phi) /\ (z <= 0 -> z + geo_u phi <= 0) /\ (z = 0 -> geo_u phi = 0) /\ (z < 0 -> z + geo_u phi < 0).
Proof.
  intros (B & P & N & Z). repeat split; intros H.
  - specialize (P H). assert (0 <= geo_u phi) by (apply geo_u_sign; lra). lra.
  - destruct H as [H| ->]; [|rewrite (Z eq_refl), geo_u_0; lra]. specialize (N H).
    assert (0 <= geo_u (- phi)) by (apply geo_u_sign; lra). rewrite geo_u_neg in *. lra.
  - rewrite (Z H). apply geo_u_0.
  - specialize (N H). assert (0 <= geo_u (- phi)) by (apply geo_u_sign; lra). rewrite geo_u_neg in *. lra.
Qed.
Lemma clean_side z r phi : 0 < r -> side z phi -> side z (clean z r phi).
Proof.
  intros R S'. destruct (side_u _ _ S') as (P & N & Z & M). unfold side, clean. split; [apply atan_open|].
  assert (0 < / r) by (apply Rinv_0_lt_compat; exact R).
  repeat split; intros H0.
  - apply atan_pos. apply Rdiv_lt_0_compat; [apply P; exact H0|exact R].
  - apply atan_neg. specialize (M H0). unfold Rdiv. nra.
  - rewrite (Z H0), H0. unfold Rdiv. rewrite Rplus_0_l, Rmult_0_l. apply atan_0.
Qed.
Lemma start_side z r : 0 < r -> side z (atan (z / r)).
Proof.
  intros R. unfold side. split; [apply atan_open|]. assert (0 < / r) by (apply Rinv_0_lt_compat; exact R). repeat split; intros H0.
  - apply atan_pos. apply Rdiv_lt_0_compat; assumption.
  - apply atan_neg. unfold Rdiv. nra.
  - rewrite H0. unfold Rdiv. rewrite Rmult_0_l. apply atan_0.
Qed.
Lemma off_u z phi : geo_u (phi + offset z) = geo_u phi.
Proof. unfold offset. destruct (rlt 0 z); [rewrite Rplus_0_r; reflexivity|apply geo_u_period]. Qed.
Lemma off_c z phi : geo_c (phi + offset z) = geo_c phi.
Proof. unfold offset. destruct (rlt 0 z); [rewrite Rplus_0_r; reflexivity|apply geo_c_period]. Qed.
Lemma off_cos z phi : cos (phi + offset z) = cos phi.
Proof. unfold offset. destruct (rlt 0 z); [rewrite Rplus_0_r; reflexivity|]. rewrite cos_plus, cos_2PI, sin_2PI. ring. Qed.
Lemma next_clean z r phi : 0 < r -> side z phi -> geo_next z r (phi + offset z) = clean z r phi + offset z.
Proof.
  intros R S'. unfold geo_next. fold (geo_u (phi + offset z)). rewrite off_u, actan_right by exact R.
  destruct (side_u _ _ S') as (P & N & _). unfold clean. f_equal. unfold offset.
  destruct (rlt_spec 0 z) as [H|H]; [rewrite rlt_true by auto; reflexivity|rewrite rlt_false; [reflexivity|]]. specialize (N ltac:(lra)). lra.
Qed.
Lemma start_clean z r : 0 < r -> actan z r = atan (z / r) + offset z.
Proof. intros R. rewrite actan_right by exact R. reflexivity. Qed.

Fixpoint cl_loop (fuel : nat) (z r lat : R) : outcome (R * R) :=
  match fuel with
  | O => Hang
  | S k => let lat' := clean z r lat in
           if rle (1 / 10 ^ 10) (Rabs (lat' - lat)) then cl_loop k z r lat' else Ok (lat, lat')
  end.
Lemma loop_clean fuel z r : 0 < r -> forall phi, side z phi ->
  geo_loop fuel z r (phi + offset z) = let! pl := cl_loop fuel z r phi in Ok (fst pl + offset z, snd pl + offset z).
Proof.
  intros R. induction fuel as [|k IH]; intros phi S'; [reflexivity|].
  cbn [geo_loop cl_loop]. rewrite next_clean by assumption.
  replace (clean z r phi + offset z - (phi + offset z)) with (clean z r phi - phi) by ring.
  destruct (rle (1 / 10 ^ 10) (Rabs (clean z r phi - phi))); [|reflexivity]. apply IH. apply clean_side; assumption.
Qed.
Lemma clean_neg z r phi : clean (- z) r (- phi) = - clean z r phi.
Proof. unfold clean. rewrite geo_u_neg, <- atan_opp. f_equal. unfold Rdiv. ring. Qed.
Lemma cl_mirror fuel z r : forall phi,
  cl_loop fuel (- z) r (- phi) = let! pl := cl_loop fuel z r phi in Ok (- fst pl, - snd pl).
Proof.
  induction fuel as [|k IH]; intros phi; [reflexivity|].
  cbn [cl_loop]. rewrite clean_neg. replace (- clean z r phi - - phi) with (- (clean z r phi - phi)) by ring. rewrite Rabs_Ropp.
  destruct (rle (1 / 10 ^ 10) (Rabs (clean z r phi - phi))); [apply IH|reflexivity].
Qed.
Lemma clean_mono z r a b : 0 < r -> - (PI / 2) <= a -> a <= b -> b <= PI / 2 -> clean z r a <= clean z r b.
Proof. intros R A H B. apply atan_mono, div_mono; [exact R|]. pose proof (geo_u_mono a b A H B). lra. Qed.
Lemma cl_terminates z r : 0 < r -> 0 <= z ->
  forall n phi, 0 <= phi < PI / 2 -> phi <= clean z r phi -> (PI / 2 - phi) * 10 ^ 10 < INR n -> exists pl, cl_loop n z r phi = Ok pl.
Proof.
  intros R Z. induction n as [|n IH]; intros phi B M F; [cbn [INR] in F; lra|].
  cbn [cl_loop]. destruct (rle_spec (1 / 10 ^ 10) (Rabs (clean z r phi - phi))) as [H|H]; [|eexists; reflexivity].
  rewrite Rabs_right in H by lra. pose proof (atan_open ((z + geo_u phi) / r)) as T. fold (clean z r phi) in T.
  apply IH; [lra|apply clean_mono; lra|]. rewrite S_INR in F. lra.
Qed.
Lemma cl_result fuel z r : forall phi a b, 0 < r -> side z phi -> cl_loop fuel z r phi = Ok (a, b) ->
  side z a /\ b = clean z r a /\ Rabs (b - a) < 1 / 10 ^ 10.
Proof.
  induction fuel as [|k IH]; intros phi a b R S' E; [discriminate|]. cbn [cl_loop] in E.
  destruct (rle_spec (1 / 10 ^ 10) (Rabs (clean z r phi - phi))) as [H|H].
  - apply (IH (clean z r phi)); [exact R|apply clean_side; assumption|exact E].
  - injection E as <- <-. split; [exact S'|split; [reflexivity|lra]].
Qed.
Lemma cl_more fuel fuel' z r : forall phi pl, (fuel <= fuel')%nat -> cl_loop fuel z r phi = Ok pl -> cl_loop fuel' z r phi = Ok pl.
Proof.
  revert fuel'. induction fuel as [|k IH]; intros fuel' phi pl L E; [discriminate|]. destruct fuel' as [|k']; [lia|].
  cbn [cl_loop] in *. destruct (rle (1 / 10 ^ 10) (Rabs (clean z r phi - phi))); [|exact E]. apply IH; [lia|exact E].
Qed.
(** number of rounds that always suffices *)
Definition rounds : nat := Z.to_nat (Rdefinitions.up (PI / 2 * 10 ^ 10)).
Lemma rounds_enough : PI / 2 * 10 ^ 10 < INR rounds.
Proof.
  unfold rounds. pose proof (archimed (PI / 2 * 10 ^ 10)) as [A _]. rewrite INR_IZR_INZ, Z2Nat.id; [lra|].
  pose proof PI_RGT_0. apply le_IZR. lra.
Qed.
Lemma loop_total z r fuel : 0 < r -> (rounds <= fuel)%nat ->
  exists a b, geo_loop fuel z r (actan z r) = Ok (a + offset z, b + offset z) /\
    (forall fuel', (rounds <= fuel')%nat -> geo_loop fuel' z r (actan z r) = Ok (a + offset z, b + offset z)) /\
    side z a /\ b = clean z r a /\ Rabs (b - a) < 1 / 10 ^ 10.
Proof.
  intros R F.
  assert (T : exists pl, cl_loop rounds z r (atan (z / r)) = Ok pl).
  { pose proof rounds_enough as N. destruct (Rle_dec 0 z) as [Z|Z].
    - apply cl_terminates; [exact R|exact Z| | |].
      + split; [apply atan_nonneg; unfold Rdiv; assert (0 < / r) by (apply Rinv_0_lt_compat; exact R); nra|apply atan_open].
      + pose proof (start_side z r R) as S'. destruct (side_u _ _ S') as (P & _ & Q & _). unfold clean. apply atan_mono, div_mono; [exact R|].
        destruct (Req_dec z 0) as [E|E]; [rewrite (Q E); lra|]. destruct S' as (B & S1 & _). pose proof (geo_u_sign (atan (z / r))). specialize (S1 ltac:(lra)). lra.
      + assert (0 <= atan (z / r)) by (apply atan_nonneg; unfold Rdiv; assert (0 < / r) by (apply Rinv_0_lt_compat; exact R); nra). nra.
    - pose proof (cl_mirror rounds (- z) r (atan (- z / r))) as M. rewrite Ropp_involutive, <- atan_opp in M.
      replace (- (- z / r)) with (z / r) in M by (unfold Rdiv; ring). rewrite M.
      assert (Q : 0 < - z / r) by (apply Rdiv_lt_0_compat; lra). pose proof (atan_pos _ Q) as Q'. pose proof (atan_open (- z / r)) as Q2.
      destruct (cl_terminates (- z) r R ltac:(lra) rounds (atan (- z / r))) as [pl E]; [lra| |nra|rewrite E; cbn [bind]; eexists; reflexivity].
      unfold clean. apply atan_mono, div_mono; [exact R|]. pose proof (geo_u_sign (atan (- z / r))). lra. }
  destruct T as [[a b] T]. exists a, b.
  assert (G : forall fuel', (rounds <= fuel')%nat -> geo_loop fuel' z r (actan z r) = Ok (a + offset z, b + offset z)).
  { intros f' Hf. rewrite start_clean, loop_clean by (try apply start_side; exact R). rewrite (cl_more _ _ _ _ _ _ Hf T). reflexivity. }
  split; [apply G; exact F|split; [exact G|]]. apply (cl_result rounds _ _ _ _ _ R (start_side z r R) T).
Qed.
Lemma geo_more fuel fuel' z r : forall phi pl, (fuel <= fuel')%nat -> geo_loop fuel z r phi = Ok pl -> geo_loop fuel' z r phi = Ok pl.
Proof.
  revert fuel'. induction fuel as [|k IH]; intros fuel' phi pl L E; [discriminate|]. destruct fuel' as [|k']; [lia|].
  cbn [geo_loop] in *. destruct (rle (1 / 10 ^ 10) (Rabs (geo_next z r phi - phi))); [|exact E]. apply IH; [lia|exact E].
Qed.
Definition rho (p : vec) : R := sqrt (p 0%nat * p 0%nat + p 1%nat * p 1%nat).
Lemma rho_pos p : (p 0%nat <> 0 \/ p 1%nat <> 0) -> 0 < rho p. Proof. apply hyp_pos. Qed.

Lemma update_off_axis p : (p 0%nat <> 0 \/ p 1%nat <> 0) ->
  exists a b lon, side (p 2%nat) a /\ b = clean (p 2%nat) (rho p) a /\ Rabs (b - a) < 1 / 10 ^ 10 /\
    rho p * cos lon = p 0%nat /\ rho p * sin lon = p 1%nat /\ 0 <= lon < 2 * PI /\
    let g := mkGeodetic b lon (rho p / cos b - geo_c a * geo_radius) (from_dcm (ltc_dcm b lon)) in
    (forall fuel, (rounds <= fuel)%nat -> update_from_ecef fuel p = Ok g) /\
    (forall fuel g', update_from_ecef fuel p = Ok g' -> g' = g).
Proof.
  intros N. pose proof (rho_pos p N) as R.
  destruct (loop_total (p 2%nat) (rho p) rounds R ltac:(lia)) as (a & b & _ & G & SA & B & D).
  destruct (fmod2p_actan (p 1%nat) (p 0%nat)) as (lon & EL & CL & SL & RL).
  destruct (actan_polar (p 1%nat) (p 0%nat) N) as [PC PS]. fold (rho p) in PC, PS.
  exists a, b, lon. split; [exact SA|]. split; [exact B|]. split; [exact D|].
  rewrite CL, SL. split; [exact PC|]. split; [exact PS|]. split; [exact RL|]. cbv zeta.
  assert (U : forall fuel, (rounds <= fuel)%nat -> update_from_ecef fuel p =
     Ok (mkGeodetic b lon (rho p / cos b - geo_c a * geo_radius) (from_dcm (ltc_dcm b lon)))).
  { intros fuel F. unfold update_from_ecef. rewrite EL. cbn [bind]. fold (rho p). rewrite (G fuel F). cbn [bind].
    assert (W : (if rlt (PI / 2) (b + offset (p 2%nat)) then b + offset (p 2%nat) - 2 * PI else b + offset (p 2%nat)) = b).
    { pose proof (clean_side _ _ _ R SA) as SB. rewrite <- B in SB. destruct SB as (BB & _). pose proof PI_RGT_0. unfold offset.
      destruct (rlt_spec 0 (p 2%nat)); [rewrite rlt_false by lra; ring|rewrite rlt_true by lra; ring]. }
    rewrite W, off_cos, off_c. reflexivity. }
  split; [exact U|]. intros fuel g' E.
  assert (E' : update_from_ecef (max fuel rounds) p = Ok g').
  { unfold update_from_ecef in *. rewrite EL in *. cbn [bind] in *.
    destruct (geo_loop fuel (p 2%nat) (sqrt (p 0%nat * p 0%nat + p 1%nat * p 1%nat)) (actan (p 2%nat) (sqrt (p 0%nat * p 0%nat + p 1%nat * p 1%nat)))) as [pl| | |] eqn:L; try discriminate.
    rewrite (geo_more fuel (max fuel rounds) _ _ _ _ ltac:(lia) L). exact E. }
  rewrite U in E' by lia. injection E' as <-. reflexivity.
Qed.
Lemma update_axis p fuel : p 0%nat = 0 -> p 1%nat = 0 -> 
  exists lon, 0 <= lon < 2 * PI /\
  update_from_ecef (S fuel) p =
    Ok (mkGeodetic (if rlt 0 (p 2%nat) then PI / 2 else - (PI / 2)) lon (0 - geo_c (PI / 2) * geo_radius)
                   (from_dcm (ltc_dcm (if rlt 0 (p 2%nat) then PI / 2 else - (PI / 2)) lon))).
Proof.
  intros X Y. destruct (fmod2p_actan (p 1%nat) (p 0%nat)) as (lon & EL & _ & _ & RL). exists lon. split; [exact RL|].
  unfold update_from_ecef. rewrite EL. cbn [bind]. rewrite X, Y. replace (0 * 0 + 0 * 0) with 0 by ring. rewrite sqrt_0, actan_axis.
  pose proof PI_RGT_0 as P. pose proof ru_bounds as U.
  assert (U1 : 0 < geo_u (PI / 2)). { unfold geo_u. rewrite sin_PI2. pose proof (geo_c_bounds (PI / 2)). replace (geo_radius * geo_c (PI / 2) * geo_e2 * 1) with (geo_radius * geo_e2 * geo_c (PI / 2)) by ring. nra. }
  assert (U2 : geo_u (3 * (PI / 2)) = - geo_u (PI / 2)).
  { rewrite <- geo_u_neg, <- (geo_u_period (- (PI / 2))). f_equal. lra. }
  assert (C2 : geo_c (3 * (PI / 2)) = geo_c (PI / 2)).
  { replace (3 * (PI / 2)) with (- (PI / 2) + 2 * PI) by lra. rewrite geo_c_period. unfold geo_c. rewrite sin_neg. f_equal. f_equal. ring. }
  cbn [geo_loop]. unfold geo_next. destruct (rlt_spec 0 (p 2%nat)) as [Z|Z].
  - fold (geo_u (PI / 2)). rewrite actan_axis, rlt_true by lra. rewrite rle_false by (rewrite Rminus_diag_eq, Rabs_R0 by reflexivity; lra).
    cbn [bind]. rewrite rlt_false by lra. rewrite cos_PI2. replace (0 / 0) with 0 by (unfold Rdiv; ring). reflexivity.
  - fold (geo_u (3 * (PI / 2))). rewrite U2, actan_axis, rlt_false by lra. rewrite rle_false by (rewrite Rminus_diag_eq, Rabs_R0 by reflexivity; lra).
    cbn [bind]. rewrite rlt_true by lra. rewrite C2. replace (0 / cos (3 * (PI / 2))) with 0 by (unfold Rdiv; ring).
    replace (3 * (PI / 2) - 2 * PI) with (- (PI / 2)) by lra. reflexivity.
Qed.

(** * Geometry *)
Lemma ltc_rotation lat lon : rotation (ltc_dcm lat lon).
Proof.
  pose proof (sc lat) as A. pose proof (sc lon) as B. unfold rotation, meq3, det3, ltc_dcm.
  set (s := sin lat) in *. set (c := cos lat) in *. set (t := sin lon) in *. set (d := cos lon) in *. clearbody s c t d.
  assert (T : t * t = 1 - d * d) by lra. assert (Q : s * s = 1 - c * c) by lra.
  split; [|split].
  - intros i j Hi Hj. unfold mmul, mtrans, mident. rewrite sumn3. i3 i Hi; i3 j Hj; cbn [m3 v3 Nat.eqb]; nsatz.
  - intros i j Hi Hj. unfold mmul, mtrans, mident. rewrite sumn3. i3 i Hi; i3 j Hj; cbn [m3 v3 Nat.eqb]; nsatz.
  - cbn [m3 v3]. nsatz.
Qed.
(** foot of the normal *)
Definition foot (lat lon : R) : vec :=
  v3 (geo_c lat * geo_radius * cos lat * cos lon) (geo_c lat * geo_radius * cos lat * sin lon)
     (geo_c lat * geo_radius * (1 - geo_e2) * sin lat).
Lemma geo_c_sq lat : geo_c lat * geo_c lat * (1 - geo_e2 * sin lat * sin lat) = 1.
Proof. rewrite geo_c_wx, <- wx_sq by apply SIN_bound. pose proof (wx_pos _ (SIN_bound lat)). field. lra. Qed.
Lemma one_minus_e2 : 1 - geo_e2 = (1 - 0.003352797) * (1 - 0.003352797).
Proof. unfold geo_e2, geo_flattening. lra. Qed.
Lemma foot_on lat lon : on_ellipsoid (foot lat lon) /\ outward_normal (foot lat lon) (GeoSpec.up lat lon).
Proof.
  pose proof (geo_c_sq lat) as C. pose proof (sc lat) as A. pose proof (sc lon) as B. pose proof (geo_c_bounds lat) as CB.
  unfold on_ellipsoid, outward_normal, foot, GeoSpec.up. cbn [v3]. unfold geo_radius. rewrite one_minus_e2.
  set (c := geo_c lat) in *. clearbody c. set (f := 0.003352797) in *.
  assert (F : 0 < 1 - f) by (unfold f; lra). set (a := 6378136.6) in *. assert (Ha : 0 < a) by (unfold a; lra).
  assert (E : geo_e2 = 1 - (1 - f) * (1 - f)) by (pose proof one_minus_e2; unfold f; lra). rewrite E in C. clearbody f a.
  split.
  - replace ((c * a * cos lat * cos lon / a) ^ 2 + (c * a * cos lat * sin lon / a) ^ 2 + (c * a * ((1 - f) * (1 - f)) * sin lat / (a * (1 - f))) ^ 2)
      with (c * c * (cos lat * cos lat * (sin lon * sin lon + cos lon * cos lon) + (1 - f) * (1 - f) * (sin lat * sin lat))) by (field; lra).
    rewrite B. apply (fun H => eq_trans H C). replace (cos lat * cos lat) with (1 - sin lat * sin lat) by lra. ring.
  - exists (a / c). split; [apply Rdiv_lt_0_compat; lra|]. repeat split; field; lra.
Qed.
Lemma foot_unique q lat lon : on_ellipsoid q -> outward_normal q (GeoSpec.up lat lon) -> forall i, (i < 3)%nat -> q i = foot lat lon i.
Proof.
  intros On (k & K & X & Y & Z) i Hi.
  destruct (foot_on lat lon) as [Fo (k' & K' & X' & Y' & Z')].
  unfold on_ellipsoid in *. set (a := 6378136.6) in *. set (b := a * (1 - 0.003352797)) in *.
  assert (Ha : 0 < a) by (unfold a; lra). assert (Hb : 0 < b) by (unfold b, a; lra). clearbody a b.
  set (q0 := q 0%nat) in *. set (q1 := q 1%nat) in *. set (q2 := q 2%nat) in *.
  set (f0 := foot lat lon 0%nat) in *. set (f1 := foot lat lon 1%nat) in *. set (f2 := foot lat lon 2%nat) in *.
  assert (E0 : k * q0 = k' * f0). { apply (Rmult_eq_reg_r (/ a ^ 2)); [|apply Rinv_neq_0_compat, pow_nonzero; lra]. unfold Rdiv in *. lra. }
  assert (E1 : k * q1 = k' * f1). { apply (Rmult_eq_reg_r (/ a ^ 2)); [|apply Rinv_neq_0_compat, pow_nonzero; lra]. unfold Rdiv in *. lra. }
  assert (E2 : k * q2 = k' * f2). { apply (Rmult_eq_reg_r (/ b ^ 2)); [|apply Rinv_neq_0_compat, pow_nonzero; lra]. unfold Rdiv in *. lra. }
  assert (KK : k * k = k' * k').
  { transitivity (k * k * ((q0 / a) ^ 2 + (q1 / a) ^ 2 + (q2 / b) ^ 2)); [rewrite On; ring|].
    transitivity (k' * k' * ((f0 / a) ^ 2 + (f1 / a) ^ 2 + (f2 / b) ^ 2)); [|rewrite Fo; ring].
    replace (k * k * ((q0 / a) ^ 2 + (q1 / a) ^ 2 + (q2 / b) ^ 2)) with ((k * q0 / a) ^ 2 + (k * q1 / a) ^ 2 + (k * q2 / b) ^ 2) by (field; lra).
    rewrite E0, E1, E2. field; lra. }
  assert (KE : k = k') by nra. subst k'.
  i3 i Hi; fold q0 q1 q2 f0 f1 f2; apply (Rmult_eq_reg_l k); lra.
Qed.
Lemma geodetic_of_iff p lat lon alt :
  geodetic_of p lat lon alt <->
  p 0%nat = (geo_c lat * geo_radius + alt) * cos lat * cos lon /\ p 1%nat = (geo_c lat * geo_radius + alt) * cos lat * sin lon /\
  p 2%nat = (geo_c lat * geo_radius * (1 - geo_e2) + alt) * sin lat.
Proof.
  split.
  - intros (q & On & Nn & P). pose proof (foot_unique _ _ _ On Nn) as F.
    rewrite !P by lia. rewrite !F by lia. unfold foot, GeoSpec.up. cbn [v3]. repeat split; ring.
  - intros (X & Y & Z). destruct (foot_on lat lon) as [On Nn]. exists (foot lat lon). split; [exact On|]. split; [exact Nn|].
    intros i Hi. i3 i Hi; rewrite ?X, ?Y, ?Z; unfold foot, GeoSpec.up; cbn [v3]; ring.
Qed.
