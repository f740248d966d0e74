(** Disturbances: proofs. *)
From Coq Require Import Reals Lra Lia List Bool Arith String FunctionalExtensionality.
From Verif Require Import Base RBase VecModel VecProofs QuatModel QuatSpec QuatProofs OrbitSpec OrbitProofs HillProofs AttitudeProofs PointingProofs OdeModel Calc DisturbanceModel DisturbanceSpec.
Import ListNotations.
Open Scope R_scope.

(** ** The list *)
Section list.
Context {E X : Type}.
Implicit Types (d : disturbance E X) (s : stepin E) (h : list (stepin E)).

(** the same object with the members it has after the history *)
Definition at_history d h : disturbance E X :=
  mkDist (enabled d) (attitude_dependent d) (update d) (fst (held d h)) (snd (held d h)).
Lemma times_zero_zero : times_zero zero_values = zero_values.
Proof. unfold times_zero, zero_values, vscal, vconst. cbn. assert (E0 : (fun _ : nat => 0 * 0) = (fun _ => 0)) by (extensionality i; ring). now rewrite E0. Qed.
Lemma held_start d : fresh d -> at_history d [] = d.
Proof. intro F. unfold at_history, held. destruct d as [en at_ up x v]. unfold fresh in F. cbn in *. subst v. destruct en; reflexivity. Qed.
Lemma step_history d h s : fresh d -> update_one (orbit_flag s) (attitude_flag s) (inputs s) (at_history d h) = at_history d (h ++ [s]).
Proof.
  intro F. assert (REF : refreshed (attitude_dependent d) s = true -> update_if_enabled (inputs s) (at_history d h) = at_history d (h ++ [s])).
  { intro HR. unfold update_if_enabled, at_history, held. cbn [enabled update extra vals attitude_dependent]. rewrite filter_app. cbn [filter]. rewrite HR.
    rewrite fold_left_app. cbn [fold_left]. destruct (enabled d); [|cbn [fst snd]; now rewrite times_zero_zero].
    rewrite <- surjective_pairing. destruct (update d (inputs s) _) as [x v]. reflexivity. }
  assert (NREF : refreshed (attitude_dependent d) s = false -> at_history d h = at_history d (h ++ [s])).
  { intro HR. unfold at_history, held. rewrite filter_app. cbn [filter]. rewrite HR. now rewrite app_nil_r. }
  unfold update_one. cbn [at_history attitude_dependent] in *. unfold refreshed in *.
  destruct (orbit_flag s); [now apply REF|]. destruct (attitude_flag s); [|now apply NREF]. destruct (attitude_dependent d) eqn:A; cbn [orb andb] in *; auto.
Qed.

Definition total_of (l : list values) : totals := mkTotals (vsum (map torque_b l)) (vsum (map force_b l)) (vsum (map acc_i l)).
Lemma vadd_assoc_sum a v l : vadd a (vsum (v :: l)) = vadd (vadd a v) (vsum l).
Proof. extensionality i. unfold vadd, vsum. cbn. ring. Qed.
Lemma loop_spec h s : forall l t, Forall fresh l ->
  update_loop (orbit_flag s) (attitude_flag s) (inputs s) (map (fun d => at_history d h) l) t =
  (map (fun d => at_history d (h ++ [s])) l,
   mkTotals (vadd (tot_torque t) (vsum (map (fun d => torque_b (snd (held d (h ++ [s])))) l)))
            (vadd (tot_force t) (vsum (map (fun d => force_b (snd (held d (h ++ [s])))) l)))
            (vadd (tot_acc t) (vsum (map (fun d => acc_i (snd (held d (h ++ [s])))) l)))).
Proof.
  induction l as [|d l IH]; intros t F.
  - cbn. f_equal. destruct t as [a b c]. cbn. f_equal; extensionality i; unfold vadd, vsum; cbn; ring.
  - inversion F as [|d' l' F1 F2]; subst. cbn [map update_loop]. rewrite step_history by exact F1. rewrite IH by exact F2. cbn [tot_torque tot_force tot_acc add_values map].
    rewrite !vadd_assoc_sum. reflexivity.
Qed.
Lemma vadd_zero_l v : vadd (vconst 0) v = v.
Proof. extensionality i. unfold vadd, vconst. ring. Qed.
Lemma run_state l : Forall fresh l -> forall h, fst (run_updates l h) = map (fun d => at_history d h) l.
Proof.
  intros F h. unfold run_updates. induction h as [|s h IH] using rev_ind.
  - cbn. rewrite <- (map_id l) at 1. apply map_ext_in. intros d Hd. rewrite Forall_forall in F. symmetry. apply held_start. now apply F.
  - rewrite fold_left_app. cbn [fold_left]. rewrite IH. unfold update_all. rewrite loop_spec by exact F. reflexivity.
Qed.
Lemma run_totals l h s : Forall fresh l -> snd (run_updates l (h ++ [s])) =
  mkTotals (vsum (map (fun d => torque_b (snd (held d (h ++ [s])))) l)) (vsum (map (fun d => force_b (snd (held d (h ++ [s])))) l))
           (vsum (map (fun d => acc_i (snd (held d (h ++ [s])))) l)).
Proof.
  intro F. unfold run_updates. rewrite fold_left_app. cbn [fold_left]. change (fold_left _ h (l, zero_totals)) with (run_updates l h).
  rewrite run_state by exact F. unfold update_all. rewrite loop_spec by exact F. cbn [snd zero_totals tot_torque tot_force tot_acc]. now rewrite !vadd_zero_l.
Qed.
Lemma held_no_refresh d h h' : (forall s, In s h' -> refreshed (attitude_dependent d) s = false) -> held d (h ++ h') = held d h.
Proof.
  intro N. unfold held. destruct (enabled d); [|reflexivity]. rewrite filter_app. assert (F0 : filter (refreshed (attitude_dependent d)) h' = []).
  { induction h' as [|s h' IH]; [reflexivity|]. cbn. rewrite N by (left; reflexivity). apply IH. intros s' Hs. apply N. now right. }
  now rewrite F0, app_nil_r.
Qed.
End list.

(** ** Gravity gradient *)
Lemma norm_pos_ne r : 0 < norm 3 r -> norm 3 r <> 0. Proof. lra. Qed.
Lemma gg_closed mu r inertia : 0 < norm 3 r ->
  veq 3 (gravity_gradient_torque mu r inertia) (vscal (3 * mu / norm 3 r ^ 5) (cross r (mvec 3 inertia r))).
Proof.
  intros P i Hi. unfold gravity_gradient_torque. cbv zeta. set (n := norm 3 r) in *. unfold vscal at 1 2.
  assert (C : cross (vdiv r n) (mvec 3 inertia (vdiv r n)) i = 1 / n * (1 / n) * cross r (mvec 3 inertia r) i).
  { unfold vdiv, vscal, mvec, cross. rewrite !sumn3. i3 i Hi; field; lra. }
  rewrite C. field. lra.
Qed.
Lemma gravity_vec mu x i : gravity mu x i = - mu / (norm 3 x * norm 3 x * norm 3 x) * x i. Proof. reflexivity. Qed.
Definition sq3 (x : vec) : R := x 0%nat * x 0%nat + x 1%nat * x 1%nat + x 2%nat * x 2%nat.
Lemma norm_sq3 x : norm 3 x = sqrt (sq3 x). Proof. unfold norm. now rewrite sumn3. Qed.
Lemma sq3_pos x : 0 < norm 3 x -> 0 < sq3 x.
Proof. intro P. pose proof (norm3 x) as N. unfold sq3. nra. Qed.

Lemma gradient_formula mu x rho : 0 < norm 3 x ->
  gravity_gradient mu x rho (fun i => mu / norm 3 x ^ 3 * (3 * (dot 3 x rho / norm 3 x ^ 2) * x i - rho i)).
Proof.
  intros P i Hi. pose proof (sq3_pos x P) as A. pose proof (norm_sq3 x) as NS. pose proof (norm3 x) as NN.
  set (b := 2 * dot 3 x rho). pose proof (d_inv_cube (sq3 x) b (sq3 rho) A) as D.
  assert (DX : derivable_pt_lim (fun t => x i + t * rho i) 0 (rho i)).
  { apply d_affine. }
  pose proof (dpl_mult _ _ _ _ _ (dpl_mult _ _ _ _ _ (dpl_const (- mu) 0) D) DX) as DD. cbv beta in DD.
  assert (EQ : (fun t => gravity mu (vadd x (vscal t rho)) i) =
    (fun s => - mu * (1 / (sqrt (sq3 x + b * s + sq3 rho * (s * s)) * sqrt (sq3 x + b * s + sq3 rho * (s * s)) * sqrt (sq3 x + b * s + sq3 rho * (s * s)))) * (x i + s * rho i))).
  { extensionality t. unfold gravity. rewrite norm_sq3. assert (Q : sq3 (vadd x (vscal t rho)) = sq3 x + b * t + sq3 rho * (t * t)).
    { unfold sq3, b, vadd, vscal, dot. rewrite sumn3. ring. } rewrite Q. unfold vadd, vscal, Rdiv. ring. }
  rewrite EQ. eapply dpl_eq; [exact DD|]. clear EQ DD D DX.
  replace (sq3 x + b * 0 + sq3 rho * (0 * 0)) with (sq3 x) by ring. rewrite <- NS. set (n := norm 3 x) in *.
  assert (A2 : sq3 x = n * n). { rewrite NN. reflexivity. } rewrite A2. unfold b. field. lra.
Qed.
Lemma inertia_cons m b i j : inertia_of_masses (m :: b) i j = fst m * ((if Nat.eqb i j then dot 3 (snd m) (snd m) else 0) - snd m i * snd m j) + inertia_of_masses b i j.
Proof. reflexivity. Qed.
Lemma vsum_cons v l i : vsum (v :: l) i = v i + vsum l i. Proof. reflexivity. Qed.
Lemma differential_torque_spec mu x (g : vec -> vec) b : 0 < norm 3 x ->
  (forall rho, veq 3 (g rho) (fun i => mu / norm 3 x ^ 3 * (3 * (dot 3 x rho / norm 3 x ^ 2) * x i - rho i))) ->
  veq 3 (differential_torque g b) (vscal (3 * mu / norm 3 x ^ 5) (cross x (mvec 3 (inertia_of_masses b) x))).
Proof.
  intros P G. unfold differential_torque. induction b as [|[m rho] b IH]; intros i Hi.
  - cbn [map]. unfold vsum, vscal. cbn [fold_right]. unfold mvec, inertia_of_masses. cbn [fold_right]. unfold cross. rewrite !sumn3. i3 i Hi; ring.
  - cbn [map]. rewrite vsum_cons. rewrite IH by exact Hi. cbn [fst snd]. pose proof (G rho) as G'. set (gr := g rho) in *.
    assert (C0 : cross rho (vscal m gr) i = vscal (3 * mu / norm 3 x ^ 5) (cross x (mvec 3 (inertia_of_masses [(m, rho)]) x)) i).
    { pose proof (G' 0%nat ltac:(lia)) as G0. pose proof (G' 1%nat ltac:(lia)) as G1. pose proof (G' 2%nat ltac:(lia)) as G2.
      unfold cross, vscal, mvec. rewrite !sumn3. unfold inertia_of_masses. cbn [fold_right fst snd Nat.eqb]. unfold dot in *. rewrite sumn3 in *.
      set (n := norm 3 x) in *. i3 i Hi; rewrite ?G0, ?G1, ?G2; field; lra. }
    rewrite C0. unfold vscal, cross, mvec. rewrite !sumn3. rewrite !(inertia_cons (m, rho) b), !(inertia_cons (m, rho) []). unfold inertia_of_masses at 10 11 12 13 14 15 16 17 18. cbn [fold_right].
    assert (NIL : forall i j, inertia_of_masses [] i j = 0) by reflexivity. rewrite ?NIL. i3 i Hi; ring.
Qed.

(** ** Surfaces *)
Lemma cos_facing v s : rlt 0 (cos_theta v s) = rlt 0 (dot 3 (s_normal s) v).
Proof.
  unfold cos_theta, normalize. destruct (req_spec (norm 3 v) 0) as [Z|NZ]; [reflexivity|]. pose proof (norm_nonneg 3 v) as NN.
  assert (D : dot 3 (s_normal s) (vdiv v (norm 3 v)) = dot 3 (s_normal s) v / norm 3 v). { unfold dot, vdiv, vscal. rewrite !sumn3. field. lra. }
  rewrite D. assert (P : 0 < norm 3 v) by lra. pose proof (Rinv_0_lt_compat _ P) as IP.
  destruct (Rlt_dec 0 (dot 3 (s_normal s) v)) as [L|L].
  - rewrite !rlt_true; [reflexivity|lra|]. unfold Rdiv. now apply Rmult_lt_0_compat.
  - rewrite !rlt_false; [reflexivity|lra|]. apply Rnot_lt_le in L. unfold Rdiv. nra.
Qed.
Lemma fold_surfaces cg v coef : forall l acc,
  fold_left (surface_step cg v coef) l acc =
  (vadd (fst acc) (vsum (map (fun s => force_per_surface v (fst (coef s)) (snd (coef s)) s) (lit v l))),
   vadd (snd acc) (vsum (map (fun s => cross (vsub (s_pos s) cg) (force_per_surface v (fst (coef s)) (snd (coef s)) s)) (lit v l)))).
Proof.
  induction l as [|s l IH]; intro acc.
  - cbn. destruct acc as [a b]. cbn. f_equal; extensionality i; unfold vadd, vsum; cbn; ring.
  - cbn [fold_left]. rewrite IH. unfold surface_step. change (lit v (s :: l)) with (if rlt 0 (dot 3 (s_normal s) v) then s :: lit v l else lit v l). rewrite cos_facing. destruct (rlt 0 (dot 3 (s_normal s) v)).
    + cbn [map]. rewrite !vadd_assoc_sum. destruct (coef s) as [cn ct]. reflexivity.
    + reflexivity.
Qed.
Lemma torque_force_sum cg v coef l : torque_force cg v coef l =
  (vsum (map (fun s => force_per_surface v (fst (coef s)) (snd (coef s)) s) (lit v l)),
   vsum (map (fun s => cross (vsub (s_pos s) cg) (force_per_surface v (fst (coef s)) (snd (coef s)) s)) (lit v l))).
Proof. unfold torque_force. rewrite fold_surfaces. cbn [fst snd]. now rewrite !vadd_zero_l. Qed.
Lemma vsum_ext {A} (f g : A -> vec) l : (forall a, In a l -> veq 3 (f a) (g a)) -> veq 3 (vsum (map f l)) (vsum (map g l)).
Proof. induction l as [|a l IH]; intros H i Hi; [reflexivity|]. cbn [map]. rewrite !vsum_cons. rewrite (H a (or_introl eq_refl)) by exact Hi. rewrite IH; [reflexivity| |exact Hi]. intros b Hb. apply H. now right. Qed.

Section one_surface.
Context (v : vec) (s : surface).
Hypothesis V : 0 < norm 3 v.
Hypothesis N : unit 3 (s_normal s).
Notation u := (normalize 3 v).
Notation n := (s_normal s).
Notation c := (cos_theta v s).
Lemma u_dir : veq 3 u (direction v).
Proof. intros i Hi. unfold direction. now apply normalize_scal. Qed.
Lemma u_unit : dot 3 u u = 1.
Proof. rewrite dot_norm. rewrite normalize_norm by lra. ring. Qed.
Lemma c_dir : c = dot 3 n (direction v).
Proof. unfold cos_theta. apply dot_ext; [intros ? ?; reflexivity|exact u_dir]. Qed.
Lemma c_range : c * c <= 1.
Proof. unfold cos_theta. pose proof (cauchy_schwarz 3 n u) as CS. change (sq 3 n) with (dot 3 n n) in CS. change (sq 3 u) with (dot 3 u u) in CS. rewrite u_unit, N in CS. lra. Qed.
Lemma sin_sq : sin_theta v s * sin_theta v s = 1 - c * c.
Proof. unfold sin_theta. apply sqrt_sqrt. pose proof c_range. lra. Qed.
Lemma sin_nonneg : 0 <= sin_theta v s. Proof. apply sqrt_pos. Qed.
Lemma sin_norm : norm 3 (cross u n) = sin_theta v s.
Proof.
  apply Rsqr_inj; [apply norm_nonneg|apply sin_nonneg|]. unfold Rsqr. rewrite sin_sq. rewrite <- dot_norm. pose proof u_unit as UU. pose proof N as NN. unfold unit in NN.
  unfold cos_theta. pose proof (lagrange u n) as LG. rewrite LG, UU, NN. unfold dot. rewrite !sumn3. ring.
Qed.
Lemma in_plane_spec i : (i < 3)%nat -> sin_theta v s * cross (normalize 3 (cross u n)) n i = c * n i - u i.
Proof.
  intro Hi. pose proof N as NN. unfold unit in NN.
  assert (BAC : cross (cross u n) n i = c * n i - u i).
  { transitivity (c * n i - dot 3 n n * u i); [|rewrite NN; ring]. unfold cos_theta, dot, cross. rewrite !sumn3. i3 i Hi; ring. }
  destruct (Req_dec (sin_theta v s) 0) as [Z|NZ].
  - rewrite Z. rewrite Rmult_0_l. rewrite <- BAC. assert (Z3 : forall j, (j < 3)%nat -> cross u n j = 0). { apply norm_0. now rewrite sin_norm. }
    unfold cross at 1. rewrite !Z3 by lia. i3 i Hi; ring.
  - rewrite <- BAC. pose proof sin_nonneg as SN. assert (P : 0 < norm 3 (cross u n)) by (rewrite sin_norm; lra).
    assert (SC : forall j, normalize 3 (cross u n) j = cross u n j / sin_theta v s). { intro j. rewrite <- sin_norm. now apply normalize_scal. }
    unfold cross at 1 3. rewrite !SC. i3 i Hi; field; exact NZ.
Qed.
Lemma surface_force_spec cn k : veq 3 (force_per_surface v cn (k * sin_theta v s) s) (fun i => - cn * n i - k * (direction v i - c * n i)).
Proof.
  intros i Hi. unfold force_per_surface. cbv zeta. unfold vadd. unfold vscal at 1 2. rewrite Rmult_assoc. rewrite Rmult_assoc, in_plane_spec by exact Hi. rewrite u_dir by exact Hi. ring.
Qed.
(** the component of the force along the direction of the source *)
Lemma surface_along cn k : dot 3 (force_per_surface v cn (k * sin_theta v s) s) (direction v) = - (cn * c + k * (1 - c * c)).
Proof.
  assert (DD : dot 3 (direction v) (direction v) = 1). { rewrite <- (dot_ext 3 u u) by exact u_dir. apply u_unit. }
  rewrite (dot_ext 3 _ (direction v) (fun i => - cn * n i - k * (direction v i - c * n i)) (direction v)); [|apply surface_force_spec|intros ? ?; reflexivity].
  pose proof c_dir as CD. set (d := direction v) in *. set (cc := cos_theta v s) in *. clearbody cc d. revert DD CD. unfold dot. rewrite !sumn3. intros DD CD.
  transitivity (- cn * (n 0%nat * d 0%nat + n 1%nat * d 1%nat + n 2%nat * d 2%nat) - k * ((d 0%nat * d 0%nat + d 1%nat * d 1%nat + d 2%nat * d 2%nat) - cc * (n 0%nat * d 0%nat + n 1%nat * d 1%nat + n 2%nat * d 2%nat))); [ring|].
  rewrite DD, <- CD. ring.
Qed.
End one_surface.

Lemma srp_surface v p s : 0 < norm 3 v -> unit 3 (s_normal s) ->
  veq 3 (force_per_surface v (fst (srp_coefficients v p s)) (snd (srp_coefficients v p s)) s) (pressure_on p (direction v) s).
Proof.
  intros V N i Hi. unfold srp_coefficients. cbn [fst snd]. rewrite surface_force_spec by assumption. unfold pressure_on. rewrite <- (c_dir v s V). cbv zeta. field.
Qed.
Lemma pressure_along v p s : 0 < norm 3 v -> unit 3 (s_normal s) ->
  let c := dot 3 (s_normal s) (direction v) in
  dot 3 (pressure_on p (direction v) s) (direction v) =
  - (p * s_area s * c) * ((1 - s_reflectivity s * s_specularity s) + 2 * (s_reflectivity s * s_specularity s * c + s_reflectivity s * (1 - s_specularity s) / 3) * c).
Proof.
  intros V N c. rewrite <- (dot_ext 3 _ (direction v) _ (direction v) (srp_surface v p s V N)); [|intros ? ?; reflexivity].
  unfold srp_coefficients. cbn [fst snd]. rewrite surface_along by assumption. rewrite (c_dir v s V). fold c. field.
Qed.
Lemma vsum_dot {A} (f : A -> vec) w l : dot 3 (vsum (map f l)) w = fold_right (fun a r => dot 3 (f a) w + r) 0 l.
Proof. induction l as [|a l IH]; cbn [map fold_right]. { unfold dot, vsum. rewrite sumn3. cbn. ring. } rewrite <- IH. unfold dot. rewrite !sumn3. rewrite !vsum_cons. ring. Qed.
Lemma fold_nonpos {A} (f : A -> R) l : (forall a, In a l -> f a <= 0) -> fold_right (fun a r => f a + r) 0 l <= 0.
Proof. induction l as [|a l IH]; intro H; cbn; [lra|]. pose proof (H a (or_introl eq_refl)). assert (fold_right (fun a r => f a + r) 0 l <= 0) by (apply IH; intros b Hb; apply H; now right). lra. Qed.
Lemma lit_in v l s : In s (lit v l) <-> In s l /\ facing v s.
Proof. unfold lit, facing. rewrite filter_In. destruct (rlt_spec 0 (dot 3 (s_normal s) v)); intuition congruence. Qed.
Lemma facing_cos v s : 0 < norm 3 v -> facing v s -> 0 < dot 3 (s_normal s) (direction v).
Proof.
  unfold facing. intros V F. assert (E : dot 3 (s_normal s) (direction v) = dot 3 (s_normal s) v / norm 3 v). { unfold dot, direction. rewrite !sumn3. field. lra. }
  rewrite E. now apply Rdiv_lt_0_compat.
Qed.
