(** Proofs for C162-C163: averages of the tidal potential, Lagrange's equations in closed form, periodic terms. *)
From Coq Require Import Reals Lra Lia Psatz List Bool ZArith.
From Coquelicot Require Import Coquelicot.
From Verif Require Import RBase VecModel Sgp4Spec Sgp4DeepSpec.
Import ListNotations.
Open Scope R_scope.

(** ** Means of trigonometric polynomials *)
Definition trig (k : R * R * R * R * R * R * R * R * R) (x : R) : R :=
  let '(k0, k1, k2, k3, k4, k5, k6, k7, k8) := k in
  k0 + k1 * cos x + k2 * cos x ^ 2 + k3 * cos x ^ 3 + k4 * (sin x * cos x) + k5 * sin x ^ 2 + k6 * (sin x ^ 2 * cos x) + k7 * (sin x * cos x ^ 2) + k8 * sin x.
Lemma cs2 x : cos x ^ 2 = 1 - sin x ^ 2. Proof. pose proof (sin2_cos2 x) as H. unfold Rsqr in H. lra. Qed.
Lemma trig_mean k0 k1 k2 k3 k4 k5 k6 k7 k8 : is_mean (trig (k0, k1, k2, k3, k4, k5, k6, k7, k8)) (k0 + k2 / 2 + k5 / 2).
Proof.
  exists (fun x => k0 * x + k1 * sin x + k2 * (x / 2 + sin x * cos x / 2) + k3 * (sin x - sin x ^ 3 / 3) + k4 * (sin x ^ 2 / 2) +
    k5 * (x / 2 - sin x * cos x / 2) + k6 * (sin x ^ 3 / 3) - k7 * (cos x ^ 3 / 3) - k8 * cos x). split.
  - intros x. apply is_derive_Reals. auto_derive; [exact I|]. unfold trig. pose proof (cs2 x) as H. set (c := cos x) in *. set (s := sin x) in *. clearbody c s.
    apply Rminus_diag_uniq. transitivity ((k2 / 2 + k3 * c + k5 / 2) * (1 - s ^ 2 - c ^ 2)); [field|rewrite H; ring].
  - rewrite sin_2PI, cos_2PI, sin_0, cos_0. field.
Qed.

Lemma mean_ext f g m m' : (forall x, f x = g x) -> m = m' -> is_mean g m' -> is_mean f m.
Proof. intros E -> (F & D & T). exists F. split; [|exact T]. intros x. rewrite E. apply D. Qed.
Lemma mean_unique f m m' : is_mean f m -> is_mean f m' -> m = m'.
Proof.
  intros (F & D & T) (G & D' & T'). assert (P := PI_RGT_0).
  assert (K : (F - G)%F (2 * PI) - (F - G)%F 0 = 0 * (2 * PI - 0)).
  { destruct (MVT_cor2 (F - G)%F (fun _ => 0) 0 (2 * PI) ltac:(lra)) as (c & E & _); [|exact E].
    intros c _. replace 0 with (f c - f c) by ring. now apply derivable_pt_lim_minus. }
  unfold minus_fct in K. nra.
Qed.

(** ** The orbit frame *)
Definition vW (node i : R) : vec := v3 (sin node * sin i) (- cos node * sin i) (cos i).
Lemma dot_U b w n i : dot3 b (vU w n i) = b 0%nat * (- sin n * cos i * sin w + cos n * cos w) + b 1%nat * (cos n * cos i * sin w + sin n * cos w) + b 2%nat * (sin i * sin w).
Proof. unfold dot3, vU, vM, vN, v3. ring. Qed.
Lemma dot_V b w n i : dot3 b (vV w n i) = b 0%nat * (- sin n * cos i * cos w - cos n * sin w) + b 1%nat * (cos n * cos i * cos w - sin n * sin w) + b 2%nat * (sin i * cos w).
Proof. unfold dot3, vV, vM, vN, v3. ring. Qed.
Lemma dot_W b n i : dot3 b (vW n i) = b 0%nat * (sin n * sin i) - b 1%nat * (cos n * sin i) + b 2%nat * cos i.
Proof. unfold dot3, vW, v3. ring. Qed.
Lemma frame_unit w n i : dot3 (vU w n i) (vU w n i) = 1 /\ dot3 (vV w n i) (vV w n i) = 1 /\ dot3 (vU w n i) (vV w n i) = 0.
Proof.
  unfold dot3, vU, vV, vM, vN, v3. pose proof (cs2 w) as A. pose proof (cs2 n) as B. pose proof (cs2 i) as C.
  set (sw := sin w) in *. set (cw := cos w) in *. set (sn := sin n) in *. set (cn := cos n) in *. set (si := sin i) in *. set (ci := cos i) in *.
  repeat split.
  - transitivity ((sn ^ 2 + cn ^ 2) * (ci ^ 2 * sw ^ 2 + cw ^ 2) + si ^ 2 * sw ^ 2); [ring|rewrite B, C, A; ring].
  - transitivity ((sn ^ 2 + cn ^ 2) * (ci ^ 2 * cw ^ 2 + sw ^ 2) + si ^ 2 * cw ^ 2); [ring|rewrite B, C, A; ring].
  - transitivity ((sn ^ 2 + cn ^ 2) * (ci ^ 2 * sw * cw - sw * cw) + si ^ 2 * sw * cw); [ring|rewrite B, C; ring].
Qed.

(** ** The averages *)
Lemma single_average k b q : 0 <= q_e q < 1 -> is_mean (fun x => tide k b (orbit_pos q x) * (1 - q_e q * cos x)) (averaged k b q).
Proof.
  intros E. set (a := q_a q). set (e := q_e q) in *. set (U := vU (q_w q) (q_node q) (q_i q)). set (V := vV (q_w q) (q_node q) (q_i q)).
  set (be := sqrt (1 - e ^ 2)). assert (BE : be ^ 2 = 1 - e ^ 2) by (unfold be; apply pow2_sqrt; nra).
  set (X := dot3 b U). set (Y := dot3 b V).
  assert (P : forall x, dot3 (orbit_pos q x) b = a * ((cos x - e) * X + be * sin x * Y)).
  { intros x. unfold orbit_pos, X, Y, dot3. fold a e U V be. ring. }
  assert (N : forall x, dot3 (orbit_pos q x) (orbit_pos q x) = a ^ 2 * ((cos x - e) ^ 2 + be ^ 2 * sin x ^ 2)).
  { intros x. destruct (frame_unit (q_w q) (q_node q) (q_i q)) as (A & B & C). fold U V in A, B, C.
    transitivity (a ^ 2 * ((cos x - e) ^ 2 * dot3 U U + be ^ 2 * sin x ^ 2 * dot3 V V + 2 * (cos x - e) * be * sin x * dot3 U V)).
    - unfold orbit_pos, dot3. fold a e U V be. ring. - rewrite A, B, C. ring. }
  eapply mean_ext; [|
    |exact (trig_mean (k * a ^ 2 * (3 / 2 * X ^ 2 - 1 / 2) * e ^ 2) (k * a ^ 2 * (3 / 2 * X ^ 2 - 1 / 2) * (- 2 * e - e ^ 3))
       (k * a ^ 2 * (3 / 2 * X ^ 2 - 1 / 2) * (1 + 2 * e ^ 2)) (- (k * a ^ 2 * (3 / 2 * X ^ 2 - 1 / 2) * e))
       (k * a ^ 2 * (3 * X * Y * be) * (1 + e ^ 2)) (k * a ^ 2 * (1 - e ^ 2) * (3 / 2 * Y ^ 2 - 1 / 2))
       (- (k * a ^ 2 * (1 - e ^ 2) * (3 / 2 * Y ^ 2 - 1 / 2) * e)) (- (k * a ^ 2 * (3 * X * Y * be) * e)) (- (k * a ^ 2 * (3 * X * Y * be) * e)))].
  - intros x. unfold tide. rewrite P, N. unfold trig. rewrite <- BE. clearbody be X Y a e. field.
  - unfold averaged, isotropic. fold a e U V X Y. field.
Qed.
Lemma toward_dot b f v : dot3 (toward b f) v = cos f * dot3 (b_A b) v + sin f * dot3 (b_B b) v.
Proof. unfold dot3, toward. ring. Qed.
Lemma double_average b q : is_mean (fun f => averaged (b_k b) (toward b f) q) (averaged2 b q).
Proof.
  set (XA := dot3 (b_A b) (vU (q_w q) (q_node q) (q_i q))). set (YA := dot3 (b_A b) (vV (q_w q) (q_node q) (q_i q))).
  set (XB := dot3 (b_B b) (vU (q_w q) (q_node q) (q_i q))). set (YB := dot3 (b_B b) (vV (q_w q) (q_node q) (q_i q))).
  set (c := 3 / 4 * b_k b * q_a q ^ 2). set (p := 1 + 4 * q_e q ^ 2). set (m := 1 - q_e q ^ 2).
  eapply mean_ext; [| |exact (trig_mean (isotropic (b_k b) q) 0 (c * (p * XA ^ 2 + m * YA ^ 2)) 0 (c * (2 * p * XA * XB + 2 * m * YA * YB)) (c * (p * XB ^ 2 + m * YB ^ 2)) 0 0 0)].
  - intros f. unfold averaged. rewrite !toward_dot. fold XA YA XB YB c p m. unfold trig. ring.
  - unfold averaged2, averaged. fold XA YA XB YB c p m. field.
Qed.

(** ** Lagrange's equations *)
Definition rates_at (k n e i w : R) (X Y Z : R) : rates :=
  let be := sqrt (1 - e ^ 2) in
  let node := 3 / 2 * k / (n * be * sin i) * ((1 + 4 * e ^ 2) * X * sin w + (1 - e ^ 2) * Y * cos w) * Z in
  let g := k / n * (3 / 4 * (8 * X ^ 2 - 2 * Y ^ 2) - 3 / 2) in
  mkRates (- (15 / 2) * k * be * e * (X * Y) / n) (3 / 2 * k / (n * be) * ((1 + 4 * e ^ 2) * X * cos w - (1 - e ^ 2) * Y * sin w) * Z)
    (be * g - cos i * node) node (- be ^ 2 * g - 4 * k / n * (3 / 4 * ((1 + 4 * e ^ 2) * X ^ 2 + (1 - e ^ 2) * Y ^ 2) - 1 / 2 * (1 + 3 / 2 * e ^ 2))).
Lemma partials k b a e i w nd : let X := dot3 b (vU w nd i) in let Y := dot3 b (vV w nd i) in let Z := dot3 b (vW nd i) in
  derivable_pt_lim (fun z => averaged k b (mkOrbE z e i w nd)) a (2 * k * a * (3 / 4 * ((1 + 4 * e ^ 2) * X ^ 2 + (1 - e ^ 2) * Y ^ 2) - 1 / 2 * (1 + 3 / 2 * e ^ 2))) /\
  derivable_pt_lim (fun z => averaged k b (mkOrbE a z i w nd)) e (k * a ^ 2 * e * (3 / 4 * (8 * X ^ 2 - 2 * Y ^ 2) - 3 / 2)) /\
  derivable_pt_lim (fun z => averaged k b (mkOrbE a e z w nd)) i (3 / 2 * k * a ^ 2 * ((1 + 4 * e ^ 2) * X * sin w + (1 - e ^ 2) * Y * cos w) * Z) /\
  derivable_pt_lim (fun z => averaged k b (mkOrbE a e i z nd)) w (15 / 2 * k * a ^ 2 * e ^ 2 * (X * Y)) /\
  derivable_pt_lim (fun z => averaged k b (mkOrbE a e i w z)) nd
    (3 / 2 * k * a ^ 2 * ((1 + 4 * e ^ 2) * X * (cos i * Y - sin i * cos w * Z) + (1 - e ^ 2) * Y * (- cos i * X + sin i * sin w * Z))).
Proof.
  intros X Y Z.
  split; [|split; [|split; [|split]]].
  - apply is_derive_Reals. unfold averaged, isotropic. cbn [q_a q_e q_i q_w q_node]. fold X Y. auto_derive; [exact Logic.I|]. field.
  - apply is_derive_Reals. unfold averaged, isotropic. cbn [q_a q_e q_i q_w q_node]. fold X Y. auto_derive; [exact Logic.I|]. field.
  - apply is_derive_Reals. unfold averaged, isotropic. cbn [q_a q_e q_i q_w q_node]. unfold X, Y, Z.
    apply (is_derive_ext (fun z => 3 / 4 * k * a ^ 2 * ((1 + 4 * e ^ 2) * (b 0%nat * (- sin nd * cos z * sin w + cos nd * cos w) + b 1%nat * (cos nd * cos z * sin w + sin nd * cos w) + b 2%nat * (sin z * sin w)) ^ 2 +
       (1 - e ^ 2) * (b 0%nat * (- sin nd * cos z * cos w - cos nd * sin w) + b 1%nat * (cos nd * cos z * cos w - sin nd * sin w) + b 2%nat * (sin z * cos w)) ^ 2) + - (k / 2) * a ^ 2 * (1 + 3 / 2 * e ^ 2))).
    { intros z. now rewrite dot_U, dot_V. }
    rewrite dot_U, dot_V, dot_W. auto_derive; [exact Logic.I|]. field.
  - apply is_derive_Reals. unfold averaged, isotropic. cbn [q_a q_e q_i q_w q_node]. unfold X, Y, Z.
    apply (is_derive_ext (fun z => 3 / 4 * k * a ^ 2 * ((1 + 4 * e ^ 2) * (b 0%nat * (- sin nd * cos i * sin z + cos nd * cos z) + b 1%nat * (cos nd * cos i * sin z + sin nd * cos z) + b 2%nat * (sin i * sin z)) ^ 2 +
       (1 - e ^ 2) * (b 0%nat * (- sin nd * cos i * cos z - cos nd * sin z) + b 1%nat * (cos nd * cos i * cos z - sin nd * sin z) + b 2%nat * (sin i * cos z)) ^ 2) + - (k / 2) * a ^ 2 * (1 + 3 / 2 * e ^ 2))).
    { intros z. now rewrite dot_U, dot_V. }
    rewrite dot_U, dot_V. auto_derive; [exact Logic.I|]. field.
  - apply is_derive_Reals. unfold averaged, isotropic. cbn [q_a q_e q_i q_w q_node]. unfold X, Y, Z.
    apply (is_derive_ext (fun z => 3 / 4 * k * a ^ 2 * ((1 + 4 * e ^ 2) * (b 0%nat * (- sin z * cos i * sin w + cos z * cos w) + b 1%nat * (cos z * cos i * sin w + sin z * cos w) + b 2%nat * (sin i * sin w)) ^ 2 +
       (1 - e ^ 2) * (b 0%nat * (- sin z * cos i * cos w - cos z * sin w) + b 1%nat * (cos z * cos i * cos w - sin z * sin w) + b 2%nat * (sin i * cos w)) ^ 2) + - (k / 2) * a ^ 2 * (1 + 3 / 2 * e ^ 2))).
    { intros z. now rewrite dot_U, dot_V. }
    rewrite dot_U, dot_V, dot_W. auto_derive; [exact Logic.I|].
    pose proof (cs2 i) as C. pose proof (cs2 w) as D. set (ci := cos i) in *. set (si := sin i) in *. set (cw := cos w) in *. set (sw := sin w) in *.
    set (cn := cos nd). set (sn := sin nd). set (b0 := b 0%nat). set (b1 := b 1%nat). set (b2 := b 2%nat).
    assert (U1 : b0 * (- cn * ci * sw - sn * cw) + b1 * (- sn * ci * sw + cn * cw) =
      ci * (b0 * (- sn * ci * cw - cn * sw) + b1 * (cn * ci * cw - sn * sw) + b2 * (si * cw)) - si * cw * (b0 * (sn * si) - b1 * (cn * si) + b2 * ci)).
    { transitivity (b0 * (- cn * ci * sw - sn * cw * (ci ^ 2 + si ^ 2)) + b1 * (- sn * ci * sw + cn * cw * (ci ^ 2 + si ^ 2))); [rewrite C; ring|ring]. }
    assert (V1 : b0 * (- cn * ci * cw + sn * sw) + b1 * (- sn * ci * cw - cn * sw) =
      - ci * (b0 * (- sn * ci * sw + cn * cw) + b1 * (cn * ci * sw + sn * cw) + b2 * (si * sw)) + si * sw * (b0 * (sn * si) - b1 * (cn * si) + b2 * ci)).
    { transitivity (b0 * (- cn * ci * cw + sn * sw * (ci ^ 2 + si ^ 2)) + b1 * (- sn * ci * cw - cn * sw * (ci ^ 2 + si ^ 2))); [rewrite C; ring|ring]. }
    rewrite <- U1, <- V1. field.
Qed.
Lemma lagrange_averaged k b n q : 0 < q_a q -> 0 < q_e q < 1 -> n <> 0 -> sin (q_i q) <> 0 ->
  lagrange (averaged k b) n q (rates_at k n (q_e q) (q_i q) (q_w q)
    (dot3 b (vU (q_w q) (q_node q) (q_i q))) (dot3 b (vV (q_w q) (q_node q) (q_i q))) (dot3 b (vW (q_node q) (q_i q)))).
Proof.
  destruct q as [a e i w nd]. cbn [q_a q_e q_i q_w q_node]. intros A E N I. destruct (partials k b a e i w nd) as (D1 & D2 & D3 & D4 & D5).
  eexists _, _, _, _, _. split; [exact D1|]. split; [exact D2|]. split; [exact D3|]. split; [exact D4|]. split; [exact D5|].
  cbn [q_a q_e q_i q_w q_node]. cbn zeta. unfold rates_at. cbn [r_e r_i r_w r_node r_M].
  assert (BE : 0 < sqrt (1 - e ^ 2)) by (apply sqrt_lt_R0; nra).
  repeat split; field; repeat split; try assumption; lra.
Qed.
Lemma plane_averaged k b n q : 0 < q_a q -> 0 <= q_e q < 1 -> n <> 0 -> sin (q_i q) <> 0 ->
  let x := rates_at k n (q_e q) (q_i q) (q_w q)
    (dot3 b (vU (q_w q) (q_node q) (q_i q))) (dot3 b (vV (q_w q) (q_node q) (q_i q))) (dot3 b (vW (q_node q) (q_i q))) in
  plane_rates (averaged k b) n q (r_i x) (r_node x).
Proof.
  destruct q as [a e i w nd]. cbn [q_a q_e q_i q_w q_node]. intros A E N I. destruct (partials k b a e i w nd) as (D1 & D2 & D3 & D4 & D5).
  eexists _, _, _. split; [exact D3|]. split; [exact D4|]. split; [exact D5|].
  cbn [q_a q_e q_i q_w q_node]. cbn zeta. unfold rates_at. cbn [r_e r_i r_w r_node r_M].
  assert (BE : 0 < sqrt (1 - e ^ 2)) by (apply sqrt_lt_R0; nra).
  repeat split; field; repeat split; try assumption; lra.
Qed.
Lemma plane_lin c V V' n q x y x' y' : plane_rates V n q x y -> plane_rates V' n q x' y' -> plane_rates (fun q => c * (V q + V' q)) n q (c * (x + x')) (c * (y + y')).
Proof.
  intros (Vi & Vw & Vn & D3 & D4 & D5 & E1 & E2) (Vi' & Vw' & Vn' & D3' & D4' & D5' & E1' & E2').
  exists (c * (Vi + Vi')), (c * (Vw + Vw')), (c * (Vn + Vn')).
  split; [exact (derivable_pt_lim_scal _ c _ _ (derivable_pt_lim_plus _ _ _ _ _ D3 D3'))|].
  split; [exact (derivable_pt_lim_scal _ c _ _ (derivable_pt_lim_plus _ _ _ _ _ D4 D4'))|].
  split; [exact (derivable_pt_lim_scal _ c _ _ (derivable_pt_lim_plus _ _ _ _ _ D5 D5'))|].
  cbn zeta. rewrite E1, E2, E1', E2'. unfold Rdiv. repeat split; ring.
Qed.
Lemma lagrange_lin c V V' n q x y : lagrange V n q x -> lagrange V' n q y ->
  lagrange (fun q => c * (V q + V' q)) n q (mkRates (c * (r_e x + r_e y)) (c * (r_i x + r_i y)) (c * (r_w x + r_w y)) (c * (r_node x + r_node y)) (c * (r_M x + r_M y))).
Proof.
  intros (Va & Ve & Vi & Vw & Vn & D1 & D2 & D3 & D4 & D5 & E1 & E2 & E3 & E4 & E5) (Va' & Ve' & Vi' & Vw' & Vn' & D1' & D2' & D3' & D4' & D5' & E1' & E2' & E3' & E4' & E5').
  exists (c * (Va + Va')), (c * (Ve + Ve')), (c * (Vi + Vi')), (c * (Vw + Vw')), (c * (Vn + Vn')).
  split; [exact (derivable_pt_lim_scal _ c _ _ (derivable_pt_lim_plus _ _ _ _ _ D1 D1'))|].
  split; [exact (derivable_pt_lim_scal _ c _ _ (derivable_pt_lim_plus _ _ _ _ _ D2 D2'))|].
  split; [exact (derivable_pt_lim_scal _ c _ _ (derivable_pt_lim_plus _ _ _ _ _ D3 D3'))|].
  split; [exact (derivable_pt_lim_scal _ c _ _ (derivable_pt_lim_plus _ _ _ _ _ D4 D4'))|].
  split; [exact (derivable_pt_lim_scal _ c _ _ (derivable_pt_lim_plus _ _ _ _ _ D5 D5'))|].
  cbn zeta. cbn [r_e r_i r_w r_node r_M]. rewrite E1, E2, E3, E4, E5, E1', E2', E3', E4', E5'. unfold Rdiv. repeat split; ring.
Qed.
Lemma deriv_ext f g x l : (forall z, f z = g z) -> derivable_pt_lim g x l -> derivable_pt_lim f x l.
Proof. intros E D. apply is_derive_Reals. apply is_derive_Reals in D. eapply is_derive_ext; [|exact D]. intros z. now rewrite E. Qed.
Lemma lagrange_ext V V' n q x y : (forall q, V q = V' q) -> x = y -> lagrange V' n q y -> lagrange V n q x.
Proof.
  intros E -> (Va & Ve & Vi & Vw & Vn & D1 & D2 & D3 & D4 & D5 & R). exists Va, Ve, Vi, Vw, Vn.
  split; [eapply deriv_ext; [|exact D1]; intros z; apply E|]. split; [eapply deriv_ext; [|exact D2]; intros z; apply E|]. split; [eapply deriv_ext; [|exact D3]; intros z; apply E|].
  split; [eapply deriv_ext; [|exact D4]; intros z; apply E|]. split; [eapply deriv_ext; [|exact D5]; intros z; apply E|exact R].
Qed.
Lemma lagrange_unique V n q x y : lagrange V n q x -> lagrange V n q y -> x = y.
Proof.
  intros (Va & Ve & Vi & Vw & Vn & D1 & D2 & D3 & D4 & D5 & E1 & E2 & E3 & E4 & E5) (Va' & Ve' & Vi' & Vw' & Vn' & D1' & D2' & D3' & D4' & D5' & E1' & E2' & E3' & E4' & E5').
  rewrite <- (uniqueness_limite _ _ _ _ D1 D1') in *. rewrite <- (uniqueness_limite _ _ _ _ D2 D2') in *. rewrite <- (uniqueness_limite _ _ _ _ D3 D3') in *.
  rewrite <- (uniqueness_limite _ _ _ _ D4 D4') in *. rewrite <- (uniqueness_limite _ _ _ _ D5 D5') in *. destruct x as [x1 x2 x3 x4 x5], y as [y1 y2 y3 y4 y5]. cbn [r_e r_i r_w r_node r_M] in *. congruence.
Qed.
Lemma plane_ext V V' n q x y x' y' : (forall q, V q = V' q) -> x = x' -> y = y' -> plane_rates V' n q x' y' -> plane_rates V n q x y.
Proof.
  intros E -> -> (Vi & Vw & Vn & D3 & D4 & D5 & R). exists Vi, Vw, Vn.
  split; [eapply deriv_ext; [|exact D3]; intros z; apply E|]. split; [eapply deriv_ext; [|exact D4]; intros z; apply E|]. split; [eapply deriv_ext; [|exact D5]; intros z; apply E|exact R].
Qed.
(** the isotropic part is the potential of a body in no direction *)
Lemma isotropic_averaged k q : isotropic k q = averaged k (fun _ => 0) q.
Proof. unfold averaged, dot3. ring. Qed.

(** ** Periodic terms *)
Lemma periodic_intro b rate mean iso al ga de : b_n b <> 0 ->
  (forall f, rate f - mean = b_n b * (al * (sin f * cos f) - ga / 2 * (cos f ^ 2 - sin f ^ 2))) -> iso * (3 * b_ecc b) = b_n b * de ->
  periodic b rate mean iso (fun f => al * (0.5 * sin f * sin f - 0.25) + ga * (- 0.5 * sin f * cos f) + de * sin f).
Proof.
  intros N Q D. split.
  - intros f. rewrite Q. replace (iso * (3 * b_ecc b * cos f)) with (b_n b * de * cos f) by (rewrite <- D; ring).
    apply is_derive_Reals. auto_derive; [exact I|]. replace 0.5 with (1 / 2) by lra. replace (- 0.5) with (- (1 / 2)) by lra. field. exact N.
  - eapply mean_ext; [| |exact (trig_mean (- (al / 4)) 0 0 0 (- (ga / 2)) (al / 2) 0 0 de)]; [intros x; unfold trig; replace 0.5 with (1 / 2) by lra; replace (- 0.5) with (- (1 / 2)) by lra; replace 0.25 with (1 / 4) by lra; field|field].
Qed.
