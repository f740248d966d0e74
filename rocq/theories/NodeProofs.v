(** The view factor of a plate and a sphere. *)
From Coq Require Import Reals Lra Lia List Bool Nsatz.
From Coquelicot Require Import Coquelicot.
From Verif Require Import RBase NodeModel.
Open Scope R_scope.

(** F' = S^3 C^2 sin (t - sin t cos t) / W^3 with W = sqrt (1 - S^2 sin^2) *)
Definition wfun (S t : R) : R := sqrt (1 - S * S * (sin t * sin t)).
Definition ffun (S t : R) : R := asin (S * sin t) - S * S * S * cos t * t / wfun S t - S * (1 - S * S) * sin t / wfun S t.
Lemma asin_derive x : -1 < x < 1 -> is_derive asin x (1 / sqrt (1 - x * x)).
Proof.
  intro H. apply is_derive_Reals. pose proof (derive_pt_asin x H) as D.
  assert (E : 1 / sqrt (1 - x * x) = derive_pt asin x (derivable_pt_asin x H)). { rewrite D. unfold Rsqr. reflexivity. }
  rewrite E. apply (derive_pt_eq_1 asin x _ (derivable_pt_asin x H)). reflexivity.
Qed.
Lemma asin_increasing x y : -1 <= x -> x < y -> y <= 1 -> asin x < asin y.
Proof.
  intros A B C. pose proof (asin_bound x). pose proof (asin_bound y). apply Rnot_le_lt. intro L. assert (sin (asin y) <= sin (asin x)) by (apply sin_incr_1; lra). rewrite !sin_asin in H1 by lra. lra.
Qed.
Lemma acos_decreasing x y : -1 <= x -> x < y -> y <= 1 -> acos y < acos x.
Proof. intros A B C. rewrite !acos_asin by lra. pose proof (asin_increasing x y A B C). lra. Qed.
Section deriv.
Context (S t : R).
Hypothesis S0 : 0 < S < 1.
Lemma sin_sq_le : 0 <= sin t * sin t <= 1.
Proof. pose proof (sin2_cos2 t) as T. unfold Rsqr in T. nra. Qed.
Lemma arg_range : -1 < S * sin t < 1.
Proof. pose proof (SIN_bound t). split; nra. Qed.
Lemma w_arg : 0 < 1 - S * S * (sin t * sin t).
Proof. pose proof sin_sq_le. assert (S * S < 1) by nra. nra. Qed.
Lemma w_pos : 0 < wfun S t. Proof. apply sqrt_lt_R0, w_arg. Qed.
Lemma w_sq : wfun S t * wfun S t = 1 - S * S * (sin t * sin t).
Proof. apply sqrt_sqrt. pose proof w_arg. lra. Qed.
Lemma ffun_derivative : derivable_pt_lim (ffun S) t (S * S * S * (1 - S * S) * sin t * (t - sin t * cos t) / (wfun S t * wfun S t * wfun S t)).
Proof.
  pose proof (asin_derive (S * sin t) arg_range) as DA. pose proof w_arg as WA. pose proof w_pos as WP. pose proof w_sq as WS.
  apply is_derive_Reals. unfold ffun, wfun in *. auto_derive.
  - replace (1 + - (S * S * (sin t * sin t))) with (1 - S * S * (sin t * sin t)) by ring. repeat split; try lra. now exists (1 / sqrt (1 - S * sin t * (S * sin t))).
  - replace (Derive (fun x => asin x) (S * sin t)) with (1 / sqrt (1 - S * sin t * (S * sin t))). 2:{ symmetry. now apply is_derive_unique. }
    replace (1 + - (S * S * (sin t * sin t))) with (1 - S * S * (sin t * sin t)) by ring.
    replace (1 - S * sin t * (S * sin t)) with (1 - S * S * (sin t * sin t)) by ring. set (w := sqrt (1 - S * S * (sin t * sin t))) in *.
    pose proof (sin2_cos2 t) as T. unfold Rsqr in T. set (s := sin t) in *. set (c := cos t) in *. assert (C2 : c * c = 1 - s * s) by lra.
    clearbody w s c. clear DA T. field_simplify_eq; [|lra].
    replace (w ^ 2) with (1 - S * S * (s * s)) by (rewrite <- WS; ring). replace (c ^ 2) with (1 - s * s) by (rewrite <- C2; ring). ring.
Qed.
End deriv.
Lemma sin_cos_le t : 0 <= t -> sin t * cos t <= t.
Proof.
  intro H. pose proof (sin_2a t) as D. destruct (Req_dec t 0) as [->|N]; [rewrite sin_0; lra|]. pose proof (sin_lt_x (2 * t)). lra.
Qed.
Lemma ffun_mono S a b : 0 < S < 1 -> 0 <= a -> a <= b -> b <= PI -> ffun S a <= ffun S b.
Proof.
  intros S0 A AB B. destruct (Req_dec a b) as [->|N]; [lra|].
  destruct (MVT_cor2 (ffun S) (fun t => S * S * S * (1 - S * S) * sin t * (t - sin t * cos t) / (wfun S t * wfun S t * wfun S t)) a b) as (c & E & C); [lra|intros; now apply ffun_derivative|].
  assert (0 <= S * S * S * (1 - S * S) * sin c * (c - sin c * cos c) / (wfun S c * wfun S c * wfun S c)).
  { apply Rmult_le_pos.
    - apply Rmult_le_pos; [apply Rmult_le_pos|].
      + apply Rmult_le_pos; [repeat apply Rmult_le_pos; lra|]. nra.
      + apply sin_ge_0; lra.
      + pose proof (sin_cos_le c). lra.
    - apply Rlt_le, Rinv_0_lt_compat. pose proof (w_pos S c S0). repeat apply Rmult_lt_0_compat; assumption. }
  nra.
Qed.
Lemma ffun_0 S : ffun S 0 = 0.
Proof. unfold ffun. rewrite sin_0, cos_0, !Rmult_0_r, asin_0. unfold Rdiv. ring. Qed.
Lemma ffun_PI S : ffun S PI = PI * (S * S * S).
Proof. unfold ffun, wfun. rewrite sin_PI, cos_PI, !Rmult_0_r, asin_0, Rminus_0_r, sqrt_1. field. Qed.

Section closed.
Context (H lam : R).
Hypothesis H1 : 1 < H.
Hypothesis L0 : PI / 2 - asin (1 / H) <= lam.
Hypothesis L1 : lam <= PI / 2 + asin (1 / H).
Let S := 1 / H.
Let C := sqrt (1 - S * S).
Let b := sqrt (H * H - 1).
Lemma S_range : 0 < S < 1.
Proof. unfold S. split; [apply Rdiv_lt_0_compat; lra|]. apply (Rmult_lt_reg_r H); [lra|]. field_simplify; lra. Qed.
Lemma HS : H * S = 1. Proof. unfold S. field. lra. Qed.
Lemma C_sq : C * C = 1 - S * S. Proof. apply sqrt_sqrt. pose proof S_range. nra. Qed.
Lemma C_pos : 0 < C. Proof. apply sqrt_lt_R0. pose proof S_range. nra. Qed.
Lemma b_HC : b = H * C.
Proof.
  unfold b. apply Rsqr_inj; [apply sqrt_pos|pose proof C_pos; nra|]. rewrite Rsqr_sqrt by nra. unfold Rsqr. pose proof C_sq. pose proof HS. 
  transitivity (H * H * (C * C)); [|ring]. rewrite H0. transitivity (H * H - (H * S) * (H * S)); [rewrite H2; ring|ring].
Qed.
Lemma phi_range : 0 < asin S < PI / 2.
Proof.
  pose proof S_range. split.
  - rewrite <- asin_0. apply asin_increasing; lra.
  - rewrite <- asin_1. apply asin_increasing; lra.
Qed.
Lemma sin_lam : C <= sin lam.
Proof.
  pose proof phi_range as P. pose proof S_range. unfold S in P. assert (CC : cos (asin S) = C). { rewrite cos_asin by lra. unfold Rsqr. reflexivity. }
  rewrite <- cos_shift, <- CC. destruct (Rle_dec lam (PI / 2)).
  - apply cos_decr_1; unfold S; lra.
  - rewrite <- (cos_neg (PI / 2 - lam)). apply cos_decr_1; unfold S; lra.
Qed.
Lemma sin_lam_pos : 0 < sin lam. Proof. pose proof sin_lam. pose proof C_pos. lra. Qed.
Lemma cos_lam : cos lam * cos lam <= S * S.
Proof. pose proof sin_lam. pose proof C_pos. pose proof C_sq. pose proof (sin2_cos2 lam) as T. unfold Rsqr in T. nra. Qed.
Lemma arg_theta : - b / tan lam = - (b * cos lam / sin lam).
Proof. unfold tan, Rdiv. rewrite Rinv_mult, Rinv_inv. ring. Qed.
Let x := - (b * cos lam / sin lam).
Lemma x_sq : x * x * (sin lam * sin lam) = (H * H - 1) * (cos lam * cos lam).
Proof. unfold x. pose proof sin_lam_pos. transitivity (b * b * (cos lam * cos lam)); [field; lra|]. f_equal. apply sqrt_sqrt. nra. Qed.
Lemma HHSS : H * H * (S * S) = 1. Proof. transitivity ((H * S) * (H * S)); [ring|rewrite HS; ring]. Qed.
Lemma x_range : -1 <= x <= 1.
Proof.
  pose proof x_sq as X. pose proof sin_lam_pos as P. pose proof cos_lam as CL. pose proof (sin2_cos2 lam) as T. unfold Rsqr in T. pose proof HHSS.
  assert (Q : x * x <= 1). { apply (Rmult_le_reg_r (sin lam * sin lam)); [nra|]. rewrite X. assert (H * H * (cos lam * cos lam) <= H * H * (S * S)) by (apply Rmult_le_compat_l; nra). lra. }
  split; nra.
Qed.
Lemma root : sqrt (1 - (H * cos lam) * (H * cos lam)) = sin lam * sin (acos x).
Proof.
  rewrite sin_acos by exact x_range. pose proof sin_lam_pos as P. rewrite <- (sqrt_square (sin lam)) at 1 by lra. rewrite <- sqrt_mult_alt by nra. f_equal. unfold Rsqr.
  pose proof x_sq as X. pose proof (sin2_cos2 lam) as T. unfold Rsqr in T. transitivity (sin lam * sin lam - x * x * (sin lam * sin lam)); [rewrite X; nra|ring].
Qed.
Lemma w_closed : wfun S (acos x) = C / sin lam.
Proof.
  pose proof sin_lam_pos as P. pose proof C_pos as CP. unfold wfun. apply Rsqr_inj; [apply sqrt_pos|apply Rmult_le_pos; [lra|now apply Rlt_le, Rinv_0_lt_compat]|].
  rewrite Rsqr_sqrt by (pose proof (w_arg S (acos x) S_range); lra). unfold Rsqr. rewrite sin_acos by exact x_range.
  assert (Q : 0 <= 1 - Rsqr x) by (pose proof x_range; unfold Rsqr; nra). rewrite sqrt_sqrt by exact Q. unfold Rsqr.
  apply (Rmult_eq_reg_r (sin lam * sin lam)); [|nra]. transitivity (C * C); [|field; lra]. rewrite C_sq.
  pose proof x_sq as X. pose proof (sin2_cos2 lam) as T. unfold Rsqr in T. pose proof HHSS as HH.
  transitivity (sin lam * sin lam - S * S * (sin lam * sin lam) + S * S * (x * x * (sin lam * sin lam))); [ring|]. rewrite X.
  transitivity (sin lam * sin lam - S * S * (sin lam * sin lam) + (H * H * (S * S)) * (cos lam * cos lam) - S * S * (cos lam * cos lam)); [ring|]. rewrite HH. nra.
Qed.
Lemma first_term : PI / 2 - asin (b / (H * sin lam)) = asin (S * sin (acos x)).
Proof.
  pose proof sin_lam_pos as P. pose proof sin_lam as PC. pose proof C_pos as CP. assert (E : b / (H * sin lam) = C / sin lam) by (rewrite b_HC; field; lra). rewrite E.
  assert (R : 0 < C / sin lam <= 1). { split; [now apply Rdiv_lt_0_compat|]. apply (Rmult_le_reg_r (sin lam)); [lra|]. field_simplify; lra. }
  rewrite <- acos_asin by lra. rewrite <- w_closed in *. pose proof (arg_range S (acos x) S_range) as A. pose proof (asin_bound (S * sin (acos x))) as AB.
  rewrite <- (acos_cos (asin (S * sin (acos x)))).
  - f_equal. rewrite cos_asin by lra. unfold wfun, Rsqr. f_equal. ring.
  - split; [|pose proof PI_RGT_0; lra]. rewrite <- asin_0. assert (0 <= S * sin (acos x)). { pose proof S_range. apply Rmult_le_pos; [lra|]. pose proof (acos_bound x). apply sin_ge_0; lra. }
    destruct H0 as [H0|H0]; [left; apply asin_increasing; lra|right; now rewrite <- H0].
Qed.
Lemma closed_form : 1 / 2 - 1 / PI * asin (b / (H * sin lam)) + 1 / (PI * (H * H)) * (cos lam * acos (- b / tan lam) - b * sqrt (1 - (H * cos lam) * (H * cos lam)))
  = ffun S (acos x) / PI.
Proof.
  pose proof PI_RGT_0 as PP. pose proof sin_lam_pos as P. pose proof C_pos as CP. rewrite arg_theta. fold x. unfold ffun. rewrite <- first_term, w_closed, root. rewrite cos_acos by exact x_range.
  assert (C2 := C_sq). set (th := acos x). set (A := asin _). unfold x. rewrite b_HC. rewrite <- C2. unfold S. field. repeat split; lra.
Qed.
End closed.

Lemma theta_mono H l1 l2 : 1 < H -> PI / 2 - asin (1 / H) <= l1 -> l1 <= l2 -> l2 <= PI / 2 + asin (1 / H) ->
  acos (- (sqrt (H * H - 1) * cos l2 / sin l2)) <= acos (- (sqrt (H * H - 1) * cos l1 / sin l1)).
Proof.
  intros H1 A B C. pose proof (x_range H l1 H1 A ltac:(lra)) as X1. pose proof (x_range H l2 H1 ltac:(lra) C) as X2.
  pose proof (sin_lam_pos H l1 H1 A ltac:(lra)) as P1. pose proof (sin_lam_pos H l2 H1 ltac:(lra) C) as P2.
  set (b := sqrt (H * H - 1)) in *. assert (B0 : 0 <= b) by apply sqrt_pos.
  assert (PH : asin (1 / H) < PI / 2). { apply (phi_range H H1). }
  assert (M : - (b * cos l1 / sin l1) <= - (b * cos l2 / sin l2)).
  { assert (SD : 0 <= sin (l2 - l1)) by (apply sin_ge_0; lra). rewrite sin_minus in SD.
    assert (Q : cos l2 / sin l2 <= cos l1 / sin l1). { apply (Rmult_le_reg_r (sin l1 * sin l2)); [nra|]. field_simplify; [lra|lra|lra]. }
    unfold Rdiv in *. rewrite !Rmult_assoc. apply Ropp_le_contravar. now apply Rmult_le_compat_l. }
  destruct M as [M|M]; [|rewrite M; lra]. left. apply acos_decreasing; lra.
Qed.

(** the view factor at low altitude *)
Lemma vf_low_front h H lam : h < 1732 * 10 ^ 3 -> lam <= PI / 2 - asin (1 / H) -> view_factor h H lam = cos lam / H / H.
Proof. intros A B. unfold view_factor. rewrite rlt_true by exact A. rewrite rle_true by exact B. reflexivity. Qed.
Lemma vf_low_behind h H lam : h < 1732 * 10 ^ 3 -> 0 <= asin (1 / H) -> PI / 2 + asin (1 / H) < lam -> view_factor h H lam = 0.
Proof. intros A Z B. unfold view_factor. rewrite rlt_true by exact A. rewrite !rle_false by lra. reflexivity. Qed.
Lemma vf_low_mid h H lam : h < 1732 * 10 ^ 3 -> 1 < H -> PI / 2 - asin (1 / H) <= lam -> lam <= PI / 2 + asin (1 / H) ->
  view_factor h H lam = ffun (1 / H) (acos (- (sqrt (H * H - 1) * cos lam / sin lam))) / PI.
Proof.
  intros A H1 B C. pose proof PI_RGT_0 as PP. destruct (Rle_lt_dec lam (PI / 2 - asin (1 / H))) as [L|L].
  - assert (E : lam = PI / 2 - asin (1 / H)) by lra. rewrite vf_low_front by assumption. pose proof (S_range H H1) as SR. pose proof (C_pos H H1) as CP. pose proof (b_HC H H1) as BH.
    rewrite BH. rewrite E at 2 3. rewrite <- (cos_shift (PI / 2 - asin (1 / H))). replace (PI / 2 - (PI / 2 - asin (1 / H))) with (asin (1 / H)) by ring.
    rewrite cos_asin by lra. assert (CE : cos lam = 1 / H). { rewrite E, cos_shift. apply sin_asin. lra. } rewrite <- E, CE. unfold Rsqr.
    replace (- (H * sqrt (1 - 1 / H * (1 / H)) * (1 / H) / sqrt (1 - 1 / H * (1 / H)))) with (Ropp 1) by (field; split; lra).
    rewrite acos_opp, acos_1. replace (PI - 0) with PI by ring. rewrite ffun_PI. field. split; lra.
  - unfold view_factor. rewrite rlt_true by exact A. rewrite rle_false by exact L. rewrite rle_true by exact C. now apply closed_form.
Qed.
Lemma vf_mid_range h H lam : h < 1732 * 10 ^ 3 -> 1 < H -> PI / 2 - asin (1 / H) <= lam -> lam <= PI / 2 + asin (1 / H) ->
  0 <= view_factor h H lam <= 1 / H / H / H.
Proof.
  intros A H1 B C. pose proof PI_RGT_0 as PP. rewrite vf_low_mid by assumption. pose proof (S_range H H1) as SR. set (th := acos _). pose proof (acos_bound (- (sqrt (H * H - 1) * cos lam / sin lam))) as TB. fold th in TB.
  pose proof (ffun_mono (1 / H) 0 th SR) as M0. rewrite ffun_0 in M0. pose proof (ffun_mono (1 / H) th PI SR) as M1. rewrite ffun_PI in M1.
  assert (F0 : 0 <= ffun (1 / H) th) by (apply M0; lra). assert (F1 : ffun (1 / H) th <= PI * (1 / H * (1 / H) * (1 / H))) by (apply M1; lra). split.
  - apply Rmult_le_pos; [exact F0|]. apply Rlt_le. now apply Rinv_0_lt_compat.
  - apply (Rmult_le_reg_r PI); [exact PP|]. unfold Rdiv at 1. rewrite Rmult_assoc, Rinv_l, Rmult_1_r by lra. apply (Rle_trans _ _ _ F1). right. field. lra.
Qed.
Lemma vf_low_mono h H l1 l2 : h < 1732 * 10 ^ 3 -> 1 < H -> 0 <= l1 -> l1 <= l2 -> l2 <= PI -> view_factor h H l2 <= view_factor h H l1.
Proof.
  intros A H1 Z L LP. pose proof PI_RGT_0 as PP. pose proof (S_range H H1) as SR. pose proof (phi_range H H1) as PH. assert (HP : 0 < / H) by (apply Rinv_0_lt_compat; lra).
  destruct (Rle_lt_dec l2 (PI / 2 - asin (1 / H))) as [C|C].
  - rewrite !vf_low_front by lra. unfold Rdiv. repeat apply Rmult_le_compat_r; try lra. apply cos_decr_1; lra.
  - destruct (Rle_lt_dec l2 (PI / 2 + asin (1 / H))) as [D|D].
    + destruct (Rle_lt_dec l1 (PI / 2 - asin (1 / H))) as [E|E].
      * apply (Rle_trans _ (1 / H / H / H)); [apply vf_mid_range; lra|]. rewrite vf_low_front by assumption. unfold Rdiv. repeat apply Rmult_le_compat_r; try lra.
        replace (1 * / H) with (cos (PI / 2 - asin (1 / H))). 2:{ rewrite cos_shift, sin_asin by lra. unfold Rdiv. reflexivity. } apply cos_decr_1; lra.
      * rewrite !vf_low_mid by lra. unfold Rdiv at 1 3. apply Rmult_le_compat_r; [apply Rlt_le; now apply Rinv_0_lt_compat|]. apply ffun_mono; [exact SR|apply acos_bound|now apply theta_mono; try lra|apply acos_bound].
    + rewrite (vf_low_behind h H l2) by lra. destruct (Rle_lt_dec l1 (PI / 2 + asin (1 / H))) as [E|E]; [|rewrite vf_low_behind by lra; lra].
      destruct (Rle_lt_dec l1 (PI / 2 - asin (1 / H))) as [G|G]; [|apply vf_mid_range; lra]. rewrite vf_low_front by assumption. unfold Rdiv. repeat apply Rmult_le_pos; try lra. apply cos_ge_0; lra.
Qed.
Lemma vf_range h H lam : 1 < H -> 0 <= lam <= PI -> 0 <= view_factor h H lam <= 1 / (H * H).
Proof.
  intros H1 L. assert (HP : 0 < / H) by (apply Rinv_0_lt_compat; lra). assert (HH : 0 < / (H * H)) by (apply Rinv_0_lt_compat; nra).
  destruct (Rlt_le_dec h (1732 * 10 ^ 3)) as [A|A].
  - pose proof (phi_range H H1) as PH. split.
    + apply (Rle_trans _ (view_factor h H PI)); [rewrite vf_low_behind by lra; lra|apply vf_low_mono; lra].
    + apply (Rle_trans _ (view_factor h H 0)); [apply vf_low_mono; lra|]. rewrite vf_low_front by lra. rewrite cos_0. right. field. lra.
  - unfold view_factor. rewrite rlt_false by lra. assert (1 / 4 / H / H = 1 / 4 * / (H * H)) as E by (field; lra). destruct (rlt lam (PI / 2)); [rewrite E|]; lra.
Qed.
