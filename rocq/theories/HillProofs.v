(** Hill's equations, the LVLH frame and the relative orbit. *)
From Coq Require Import Reals Lra Lia List Bool Arith Nsatz.
From Verif Require Import Base RBase VecModel VecProofs Trig QuatModel QuatSpec QuatProofs OdeModel OrbitModel OrbitSpec Calc KeplerProofs OrbitProofs.
Open Scope R_scope.

Ltac i6 i H := destruct i as [|[|[|[|[|[|i]]]]]]; [| | | | | |exfalso; lia]; clear H.
Ltac hunf := cbv [mvec mmul sumn hcw_stm hill_matrix rows List.nth mident Nat.eqb v3 v6 pos6 vel6].
Lemma stm_apply n t s : let c := cos (n * t) in let k := sin (n * t) in
  veq 6 (mvec 6 (hcw_stm n t) s)
   (v6 (v3 ((4 - 3 * c) * s 0%nat + k / n * s 3%nat + (2 / n - 2 * c / n) * s 4%nat)
           ((-6 * n * t + 6 * k) * s 0%nat + s 1%nat + (-2 / n + 2 * c / n) * s 3%nat + (4 * k / n - 3 * t) * s 4%nat)
           (c * s 2%nat + k / n * s 5%nat))
       (v3 (3 * n * k * s 0%nat + c * s 3%nat + 2 * k * s 4%nat)
           ((-6 * n + 6 * n * c) * s 0%nat + -2 * k * s 3%nat + (-3 + 4 * c) * s 4%nat)
           (- n * k * s 2%nat + c * s 5%nat))).
Proof. intros c k i Hi. i6 i Hi; hunf; fold c k; ring. Qed.
Lemma hill_apply n s : veq 6 (mvec 6 (hill_matrix n) s)
   (v6 (v3 (s 3%nat) (s 4%nat) (s 5%nat)) (v3 (3 * n * n * s 0%nat + 2 * n * s 4%nat) (-2 * n * s 3%nat) (- n * n * s 2%nat))).
Proof. intros i Hi. i6 i Hi; hunf; ring. Qed.
Lemma stm_zero n s : n <> 0 -> veq 6 (mvec 6 (hcw_stm n 0) s) s.
Proof. intros N i Hi. rewrite stm_apply by exact Hi. rewrite Rmult_0_r, cos_0, sin_0. i6 i Hi; hunf; field; exact N. Qed.
Lemma dpl_ext f g x l : (forall y, f y = g y) -> derivable_pt_lim f x l -> derivable_pt_lim g x l.
Proof. intros E H eps P. destruct (H eps P) as (d & Q). exists d. intros h A B. rewrite <- !E. now apply Q. Qed.
Lemma stm_hill n s0 : n <> 0 -> hill_motion n (fun t => mvec 6 (hcw_stm n t) s0).
Proof.
  intros N t. cbv zeta.
  assert (E : forall i, (i < 6)%nat -> forall y, _) by (intros i Hi y; exact (eq_sym (stm_apply n y s0 i Hi))).
  rewrite !(stm_apply n t s0) by lia. cbn [v6 v3].
  repeat split; (eapply dpl_ext; [apply E; lia|cbn [v6 v3]]).
  - apply d_hcw_x. exact N.
  - apply d_hcw_y. exact N.
  - apply d_hcw_z. exact N.
  - match goal with |- derivable_pt_lim _ _ ?l => replace l with (3 * n * n * cos (n * t) * s0 0%nat + - n * sin (n * t) * s0 3%nat + 2 * n * cos (n * t) * s0 4%nat) end; [apply d_hcw_vx|field; exact N].
  - match goal with |- derivable_pt_lim _ _ ?l => replace l with (- 6 * n * n * sin (n * t) * s0 0%nat + -2 * n * cos (n * t) * s0 3%nat + - 4 * n * sin (n * t) * s0 4%nat) end; [apply d_hcw_vy|field].
  - match goal with |- derivable_pt_lim _ _ ?l => replace l with (- n * n * cos (n * t) * s0 2%nat + - n * sin (n * t) * s0 5%nat) end; [apply d_hcw_vz|field; exact N].
Qed.
(** the only motion *)
Lemma hill_unique n s : n <> 0 -> hill_motion n s -> forall t, veq 6 (s t) (mvec 6 (hcw_stm n t) (s 0)).
Proof.
  intros N H t. 
  assert (Dx : forall t, derivable_pt_lim (fun q => s q 0%nat) t (s t 3%nat)) by (intro u; apply (H u)).
  assert (Dy : forall t, derivable_pt_lim (fun q => s q 1%nat) t (s t 4%nat)) by (intro u; apply (H u)).
  assert (Dz : forall t, derivable_pt_lim (fun q => s q 2%nat) t (s t 5%nat)) by (intro u; apply (H u)).
  assert (Dp : forall t, derivable_pt_lim (fun q => s q 3%nat) t (3 * n * n * s t 0%nat + 2 * n * s t 4%nat)) by (intro u; apply (H u)).
  assert (Dq : forall t, derivable_pt_lim (fun q => s q 4%nat) t (- 2 * n * s t 3%nat)) by (intro u; apply (H u)).
  assert (Dr : forall t, derivable_pt_lim (fun q => s q 5%nat) t (- n * n * s t 2%nat)) by (intro u; apply (H u)).
  pose proof (back_x n _ _ _ N Dx Dp Dq t) as B0. pose proof (back_y n _ _ _ _ N Dx Dy Dp Dq t) as B1. pose proof (back_z n _ _ N Dz Dr t) as B2.
  pose proof (back_p n _ _ _ Dx Dp Dq t) as B3. pose proof (back_q n _ _ _ Dx Dp Dq t) as B4. pose proof (back_r n _ _ Dz Dr t) as B5.
  cbv beta in *. assert (Z : n * 0 = 0) by ring.
  rewrite Z, cos_0, sin_0 in B0. rewrite Z, cos_0, sin_0 in B1. rewrite Z, cos_0, sin_0 in B2. rewrite Z, cos_0, sin_0 in B3. rewrite Z, cos_0, sin_0 in B4. rewrite Z, cos_0, sin_0 in B5.
  assert (E0 : s 0 0%nat = (4 - 3 * cos (n * t)) * s t 0%nat - sin (n * t) / n * s t 3%nat + (2 / n - 2 * cos (n * t) / n) * s t 4%nat) by (rewrite B0; field; exact N).
  assert (E1 : s 0 1%nat = (6 * n * t - 6 * sin (n * t)) * s t 0%nat + s t 1%nat + (-2 / n + 2 * cos (n * t) / n) * s t 3%nat + (-4 * sin (n * t) / n + 3 * t) * s t 4%nat) by (rewrite B1; field; exact N).
  assert (E2 : s 0 2%nat = cos (n * t) * s t 2%nat - sin (n * t) / n * s t 5%nat) by (rewrite B2; field; exact N).
  assert (E3 : s 0 3%nat = -3 * n * sin (n * t) * s t 0%nat + cos (n * t) * s t 3%nat - 2 * sin (n * t) * s t 4%nat) by (rewrite B3; field; exact N).
  assert (E4 : s 0 4%nat = (-6 * n + 6 * n * cos (n * t)) * s t 0%nat + 2 * sin (n * t) * s t 3%nat + (-3 + 4 * cos (n * t)) * s t 4%nat) by (rewrite B4; field; exact N).
  assert (E5 : s 0 5%nat = n * sin (n * t) * s t 2%nat + cos (n * t) * s t 5%nat) by (rewrite B5; field; exact N).
  clear B0 B1 B2 B3 B4 B5 Dx Dy Dz Dp Dq Dr H.
  intros i Hi. rewrite stm_apply by exact Hi. pose proof (sc (n * t)) as T. set (c := cos (n * t)) in *. set (k := sin (n * t)) in *. clearbody c k.
  assert (K2 : k ^ 2 = 1 - c ^ 2) by lra.
  i6 i Hi; cbn [v6 v3]; rewrite ?E0, ?E1, ?E2, ?E3, ?E4, ?E5; field_simplify_eq; try exact N; rewrite ?K2; try ring.
  all: replace (k ^ 2) with (1 - c ^ 2) by lra; ring.
Qed.
Lemma stm_compose n s t x : n <> 0 -> veq 6 (mvec 6 (hcw_stm n (s + t)) x) (mvec 6 (hcw_stm n s) (mvec 6 (hcw_stm n t) x)).
Proof.
  intros N i Hi. rewrite !(stm_apply n (s + t)), !(stm_apply n s) by exact Hi. rewrite !(stm_apply n t) by lia.
  replace (n * (s + t)) with (n * s + n * t) by ring. rewrite cos_plus, sin_plus.
  i6 i Hi; cbn [v6 v3]; field; exact N.
Qed.

(** ** The RK4 step on a linear system is its Taylor polynomial of degree four *)
Lemma linear_step m (A : mat) o i :
  let h := step_width o in let x := state o in
  let A1 := mvec m A x in let A2 := mvec m A A1 in let A3 := mvec m A A2 in let A4 := mvec m A A3 in
  state (step_of (fun _ s => mvec m A s) o) i = x i + h * A1 i + h ^ 2 / 2 * A2 i + h ^ 3 / 6 * A3 i + h ^ 4 / 24 * A4 i.
Proof.
  intros h x A1 A2 A3 A4. unfold step_of. cbn [ode_update fst state]. fold h x.
  assert (L : forall (u w : vec) c j, mvec m A (vadd u (vscal c w)) j = mvec m A u j + c * mvec m A w j).
  { intros u w c j. unfold mvec. rewrite <- sumn_scal, <- sumn_plus. apply sumn_ext. intros. unfold vadd, vscal. ring. }
  assert (L1 : forall (u w : vec) j, mvec m A (vadd u w) j = mvec m A u j + mvec m A w j).
  { intros u w j. unfold mvec. rewrite <- sumn_plus. apply sumn_ext. intros. unfold vadd. ring. }
  assert (LS : forall (w : vec) c j, mvec m A (vscal c w) j = c * mvec m A w j).
  { intros w c j. unfold mvec. rewrite <- sumn_scal. apply sumn_ext. intros. unfold vscal. ring. }
  assert (X : forall (u w : vec) j, (forall k, u k = w k) -> mvec m A u j = mvec m A w j).
  { intros u w j E. unfold mvec. apply sumn_ext. intros. now rewrite E. }
  unfold step_of. set (k1 := vscal h (mvec m A x)). set (k2 := vscal h (mvec m A (vadd x (vscal (5 / 10) k1)))).
  set (k3 := vscal h (mvec m A (vadd x (vscal (5 / 10) k2)))). set (k4 := vscal h (mvec m A (vadd x k3))).
  assert (K1 : forall j, k1 j = h * A1 j) by (intro; reflexivity).
  assert (M1 : forall j, mvec m A k1 j = h * A2 j) by (intro; unfold k1; apply LS).
  assert (K2 : forall j, k2 j = h * A1 j + h * h / 2 * A2 j) by (intro j; unfold k2, vscal at 1; rewrite L, M1; fold (A1 j); unfold A1; lra).
  assert (M2 : forall j, mvec m A k2 j = h * A2 j + h * h / 2 * A3 j).
  { intro j. rewrite (X k2 (vadd (vscal h A1) (vscal (h * h / 2) A2)) j) by (intro; rewrite K2; reflexivity). rewrite L, LS. reflexivity. }
  assert (K3 : forall j, k3 j = h * A1 j + h * h / 2 * A2 j + h * h * h / 4 * A3 j).
  { intro j. unfold k3, vscal at 1. rewrite L, M2. fold (A1 j). unfold A1. lra. }
  assert (M3 : forall j, mvec m A k3 j = h * A2 j + h * h / 2 * A3 j + h * h * h / 4 * A4 j).
  { intro j. rewrite (X k3 (vadd (vadd (vscal h A1) (vscal (h * h / 2) A2)) (vscal (h * h * h / 4) A3)) j) by (intro; rewrite K3; reflexivity). rewrite L, L, LS. reflexivity. }
  assert (K4 : forall j, k4 j = h * A1 j + h * h * A2 j + h * h * h / 2 * A3 j + h * h * h * h / 4 * A4 j).
  { intro j. unfold k4, vscal at 1. rewrite L1, M3. fold (A1 j). unfold A1. lra. }
  unfold vadd, vscal. fold (vscal h). rewrite (K1 i), K2, K3, K4. field.
Qed.

(** ** The LVLH frame *)
Lemma normalize_scal v i : 0 < norm 3 v -> normalize 3 v i = v i / norm 3 v.
Proof. intro P. unfold normalize. rewrite req_false by lra. unfold vdiv, vscal. field. lra. Qed.
Lemma norm3 v : norm 3 v * norm 3 v = v 0%nat * v 0%nat + v 1%nat * v 1%nat + v 2%nat * v 2%nat.
Proof. rewrite norm_sq. unfold sq. apply sumn3. Qed.
(** the third axis is along h x r, of length |h| |r| *)
Lemma cross_cross_norm r v : norm 3 (cross (cross r v) r) = norm 3 (cross r v) * norm 3 r.
Proof.
  apply sq_eq; [apply norm_nonneg|apply Rmult_le_pos; apply norm_nonneg|].
  transitivity ((norm 3 (cross r v) * norm 3 (cross r v)) * (norm 3 r * norm 3 r)); [|ring]. rewrite !norm3. cbn [cross]. ring.
Qed.
Lemma lvlh_apply r v p : 0 < norm 3 r -> 0 < norm 3 (cross r v) ->
  mvec 3 (lvlh_dcm r v) p 0%nat = dot 3 r p / norm 3 r /\
  mvec 3 (lvlh_dcm r v) p 1%nat = dot 3 (cross (cross r v) r) p / (norm 3 (cross r v) * norm 3 r) /\
  mvec 3 (lvlh_dcm r v) p 2%nat = dot 3 (cross r v) p / norm 3 (cross r v).
Proof.
  intros P Q. assert (PQ : 0 < norm 3 (cross (cross r v) r)) by (rewrite cross_cross_norm; apply Rmult_lt_0_compat; assumption).
  unfold mvec, lvlh_dcm, dot. rewrite !sumn3. rewrite !normalize_scal by assumption. rewrite cross_cross_norm.
  split; [|split]; field; lra.
Qed.
(** a right-handed orthonormal triple of rows *)
Lemma triple_rotation (m : mat) (x z : vec) : unit 3 x -> unit 3 z -> dot 3 x z = 0 ->
  veq 3 (m 0%nat) x -> veq 3 (m 1%nat) (cross z x) -> veq 3 (m 2%nat) z -> rotation m.
Proof.
  intros U1 U2 O R0 R1 R2. apply unit3 in U1. apply unit3 in U2. unfold dot in O. rewrite sumn3 in O.
  assert (E : meq3 (fun i => match i with 0%nat => x | 1%nat => cross z x | _ => z end) m).
  { intros i j Hi Hj. i3 i Hi; symmetry; [apply R0|apply R1|apply R2]; exact Hj. }
  apply (rotation_ext _ _ E). clear - U1 U2 O.
  set (a := x 0%nat) in *. set (b := x 1%nat) in *. set (c := x 2%nat) in *. set (g := z 0%nat) in *. set (h := z 1%nat) in *. set (k := z 2%nat) in *.
  assert (YY : (h * c - k * b) * (h * c - k * b) + (k * a - g * c) * (k * a - g * c) + (g * b - h * a) * (g * b - h * a) = 1).
  { transitivity ((a * a + b * b + c * c) * (g * g + h * h + k * k) - (a * g + b * h + c * k) * (a * g + b * h + c * k)); [ring|]. rewrite U1, U2, O. ring. }
  split; [|split].
  - intros i j Hi Hj. i3 i Hi; i3 j Hj; cbv [mmul mtrans sumn mident Nat.eqb cross]; fold a b c g h k; try lra; ring_simplify; try lra.
  - intros i j Hi Hj. i3 i Hi; i3 j Hj; cbv [mmul mtrans sumn mident Nat.eqb cross]; fold a b c g h k; clearbody a b c g h k; clear YY; nsatz.
  - cbv [det3 cross]. fold a b c g h k. rewrite <- YY. ring.
Qed.
Lemma lvlh_rotation r v : 0 < norm 3 r -> 0 < norm 3 (cross r v) -> rotation (lvlh_dcm r v).
Proof.
  intros P Q. assert (PQ : 0 < norm 3 (cross (cross r v) r)) by (rewrite cross_cross_norm; apply Rmult_lt_0_compat; assumption).
  apply (triple_rotation _ (vscal (1 / norm 3 r) r) (vscal (1 / norm 3 (cross r v)) (cross r v))).
  - now apply normalized_unit.
  - now apply normalized_unit.
  - unfold dot, vscal. rewrite sumn3. cbn [cross]. field. lra.
  - intros i Hi. cbn [lvlh_dcm]. rewrite normalize_scal by assumption. unfold vscal. field. lra.
  - intros i Hi. cbn [lvlh_dcm]. rewrite normalize_scal by assumption. rewrite cross_cross_norm. i3 i Hi; cbn [cross]; unfold vscal; cbn [cross]; field; lra.
  - intros i Hi. cbn [lvlh_dcm]. rewrite normalize_scal by assumption. unfold vscal. field. lra.
Qed.
Lemma qnormalize_unit q : unit 4 q -> veq 4 (qnormalize q) q.
Proof.
  intro U. apply unit4 in U. intros i Hi. unfold qnormalize. replace (0 + q 0%nat * q 0%nat + q 1%nat * q 1%nat + q 2%nat * q 2%nat + q 3%nat * q 3%nat) with 1 by lra.
  rewrite req_false by lra. rewrite sqrt_1. field.
Qed.
Lemma to_dcm_ext p q : veq 4 p q -> to_dcm p = to_dcm q.
Proof. intro E. unfold to_dcm. rewrite !E by lia. reflexivity. Qed.
Lemma unit4_ext p q : veq 4 p q -> unit 4 q -> unit 4 p.
Proof. intros E U. unfold unit, dot in *. rewrite <- U. apply sumn_ext. intros i Hi. now rewrite E. Qed.
Lemma lvlh_quaternion r v : 0 < norm 3 r -> 0 < norm 3 (cross r v) ->
  unit 4 (quaternion_i2lvlh r v) /\ meq3 (to_dcm (quaternion_i2lvlh r v)) (lvlh_dcm r v).
Proof.
  intros P Q. destruct (from_dcm_spec _ (lvlh_rotation r v P Q)) as (U & E). pose proof (qnormalize_unit _ U) as N. unfold quaternion_i2lvlh. split.
  - eapply unit4_ext; [exact N|exact U].
  - now rewrite (to_dcm_ext _ _ N).
Qed.
Lemma mvec_ext3 (a b : mat) u w : meq3 a b -> veq 3 u w -> veq 3 (mvec 3 a u) (mvec 3 b w).
Proof. intros E V i Hi. unfold mvec. apply sumn_ext. intros j Hj. rewrite E, V by assumption. reflexivity. Qed.
Lemma conj_dcm_trans q : meq3 (to_dcm (qconj q)) (mtrans (to_dcm q)).
Proof. intros i j Hi Hj. i3 i Hi; i3 j Hj; qunf; ring. Qed.
Lemma rotation_back m p : rotation m -> veq 3 (mvec 3 m (mvec 3 (mtrans m) p)) p.
Proof.
  intros (A & _ & _) i Hi.
  assert (E : mvec 3 m (mvec 3 (mtrans m) p) i = mvec 3 (mmul 3 m (mtrans m)) p i) by (unfold mvec, mmul; rewrite !sumn3; ring).
  rewrite E. rewrite (mvec_ext3 _ mident p p A) by (exact Hi || (intros ? ?; reflexivity)). unfold mvec. rewrite sumn3. i3 i Hi; cbv [mident Nat.eqb]; ring.
Qed.
Lemma lvlh_to_i_spec r v p : 0 < norm 3 r -> 0 < norm 3 (cross r v) -> veq 3 (lvlh_to_i r v p) (mvec 3 (mtrans (lvlh_dcm r v)) p).
Proof.
  intros P Q i Hi. unfold lvlh_to_i. rewrite frame_dcm by exact Hi. destruct (lvlh_quaternion r v P Q) as (_ & E).
  apply mvec_ext3; [|intros ? ?; reflexivity|exact Hi]. eapply meq3_trans; [apply conj_dcm_trans|]. intros a b Ha Hb. unfold mtrans. now apply E.
Qed.
Lemma lvlh_there_and_back r v p : 0 < norm 3 r -> 0 < norm 3 (cross r v) -> veq 3 (mvec 3 (lvlh_dcm r v) (lvlh_to_i r v p)) p.
Proof.
  intros P Q i Hi. rewrite (mvec_ext3 _ (lvlh_dcm r v) _ (mvec 3 (mtrans (lvlh_dcm r v)) p) (meq3_refl _)) by (exact Hi || now apply lvlh_to_i_spec).
  now apply rotation_back; [apply lvlh_rotation|].
Qed.
