(** Proofs about the convergence of the RK4 attitude. *)
From Coq Require Import Reals Lra Lia List Bool Arith FunctionalExtensionality QArith Qreals.
From Verif Require Import Base RBase VecModel VecProofs LuModel LuSpec QuatModel QuatSpec QuatProofs RkModel RkSpec RkProofs AttitudeModel AttitudeSpec AttitudeProofs AttitudeRunProofs ConvSpec ConvProofs ConvProps SpinSpec AttConvSpec.
Import ListNotations.
Open Scope R_scope.
Ltac i3 i H := destruct i as [|[|[|i]]]; [| | |lia]; try clear H.
Ltac i4 i H := destruct i as [|[|[|[|i]]]]; [| | | |lia]; try clear H.

Lemma product_near a b c d x y A B : Rabs (a - c) <= x -> Rabs (b - d) <= y -> Rabs b <= B -> Rabs c <= A -> Rabs (a * b - c * d) <= x * B + A * y.
Proof.
  intros X Y HB HA. replace (a * b - c * d) with ((a - c) * b + c * (b - d)) by ring. eapply Rle_trans; [apply Rabs_triang|]. rewrite !Rabs_mult.
  apply Rplus_le_compat; apply Rmult_le_compat; try assumption; apply Rabs_pos.
Qed.
Definition msum (m : mat) : R := sumn 3 (fun i => sumn 3 (fun j => Rabs (m i j))).
Lemma msum_nonneg m : 0 <= msum m.
Proof. apply sumn_nonneg. intros. apply sumn_nonneg. intros. apply Rabs_pos. Qed.
Lemma mvec_bound m v d : (forall j, (j < 3)%nat -> Rabs (v j) <= d) -> forall i, (i < 3)%nat -> Rabs (mvec 3 m v i) <= msum m * d.
Proof.
  intros H i Hi. unfold mvec. eapply Rle_trans; [apply (sumn_weighted 3 (m i) v d H)|]. apply Rmult_le_compat_r; [eapply Rle_trans; [apply Rabs_pos|apply (H 0%nat); lia]|].
  unfold msum. assert (P : forall k, 0 <= sumn 3 (fun j => Rabs (m k j))) by (intros; apply sumn_nonneg; intros; apply Rabs_pos).
  rewrite (sumn3 (fun k => sumn 3 (fun j => Rabs (m k j)))). pose proof (P 0%nat). pose proof (P 1%nat). pose proof (P 2%nat). i3 i Hi; lra.
Qed.
Lemma mvec_near m d u v : near 3 d u v -> near 3 (msum m * d) (mvec 3 m u) (mvec 3 m v).
Proof.
  intros N i Hi. replace (mvec 3 m u i - mvec 3 m v i) with (mvec 3 m (vsub u v) i) by (unfold mvec, vsub; rewrite !sumn3; ring).
  apply mvec_bound; [|exact Hi]. intros j Hj. apply N. exact Hj.
Qed.
Lemma cross_near u v u' v' d1 d2 U V : near 3 d1 u u' -> near 3 d2 v v' -> (forall i, (i < 3)%nat -> Rabs (v i) <= V) -> (forall i, (i < 3)%nat -> Rabs (u' i) <= U) ->
  near 3 (2 * (d1 * V + U * d2)) (cross u v) (cross u' v').
Proof.
  intros N1 N2 BV BU. assert (P : forall i j, (i < 3)%nat -> (j < 3)%nat -> Rabs (u i * v j - u' i * v' j) <= d1 * V + U * d2) by (intros i j Hi Hj; apply product_near; auto).
  assert (Q : forall a b c d x, Rabs (a - c) <= x -> Rabs (b - d) <= x -> Rabs ((a - b) - (c - d)) <= 2 * x).
  { intros a b c d x X Y. replace (a - b - (c - d)) with ((a - c) + - (b - d)) by ring. eapply Rle_trans; [apply Rabs_triang|]. rewrite Rabs_Ropp. lra. }
  intros i Hi. i3 i Hi; cbn [cross]; apply Q; apply P; lia.
Qed.
Lemma near7 d x z : near 7 d x z <-> near 3 d x z /\ near 4 d (quat7 x) (quat7 z).
Proof.
  split.
  - intros N. split; intros i Hi; [apply N; lia|unfold quat7; apply N; lia].
  - intros (A & B) i Hi. destruct (le_lt_dec 3 i) as [L|L]; [|now apply A]. specialize (B (i - 3)%nat ltac:(lia)). unfold quat7 in B. now replace (i - 3 + 3)%nat with i in B by lia.
Qed.


Lemma mvec_congr m u v i : veq 3 u v -> mvec 3 m u i = mvec 3 m v i.
Proof. intros E. unfold mvec. rewrite !sumn3, !E by lia. reflexivity. Qed.
Lemma same_inverse inertia inv inv' v : is_inverse 3 inertia inv -> is_inverse 3 inertia inv' -> veq 3 (mvec 3 inv' v) (mvec 3 inv v).
Proof.
  intros I I' i Hi. rewrite <- (mvec_congr inv (mvec 3 inertia (mvec 3 inv' v)) v i (inverse_cancel inertia inv' v I')). symmetry. now apply (inverse_cancel2 inertia inv).
Qed.

Section rigid.
Context (inertia inv : mat) (torque h : vec) (INV : is_inverse 3 inertia inv).
Notation F := (att_deriv inertia inv torque h (vconst 0)).
Lemma deriv_agree inv' d x : is_inverse 3 inertia inv' -> veq 3 d (vconst 0) -> forall i, (i < 7)%nat -> att_deriv inertia inv' torque h d x i = F x i.
Proof.
  intros I D i Hi. unfold att_deriv, v7. destruct (Nat.ltb_spec i 3); [|reflexivity]. rewrite (same_inverse inertia inv inv' _ INV I i) by lia.
  apply mvec_congr. intros j Hj. unfold net_torque, vsub. now rewrite D.
Qed.
Definition lip (Y : R) : R := msum inv * (2 * ((msum inertia * Y + sumn 3 (fun i => Rabs (h i))) + Y * msum inertia)) + 3 * Y.
Lemma wheels i : (i < 3)%nat -> Rabs (h i) <= sumn 3 (fun i => Rabs (h i)).
Proof. intros Hi. rewrite sumn3. pose proof (Rabs_pos (h 0%nat)). pose proof (Rabs_pos (h 1%nat)). pose proof (Rabs_pos (h 2%nat)). i3 i Hi; lra. Qed.
Lemma lip_nonneg Y : 0 <= Y -> 0 <= lip Y.
Proof.
  intros HY. unfold lip. pose proof (msum_nonneg inv). pose proof (msum_nonneg inertia). assert (0 <= sumn 3 (fun i => Rabs (h i))) by (apply sumn_nonneg; intros; apply Rabs_pos).
  assert (0 <= msum inertia * Y) by (now apply Rmult_le_pos). assert (0 <= msum inv * (2 * ((msum inertia * Y + sumn 3 (fun i => Rabs (h i))) + Y * msum inertia))) by (apply Rmult_le_pos; lra). lra.
Qed.
Lemma deriv_lipschitz Y d x z : (forall i, (i < 7)%nat -> Rabs (x i) <= Y) -> (forall i, (i < 7)%nat -> Rabs (z i) <= Y) -> near 7 d x z -> near 7 (lip Y * d) (F x) (F z).
Proof.
  intros BX BZ N. assert (Y0 : 0 <= Y) by (eapply Rle_trans; [apply Rabs_pos|apply (BX 0%nat); lia]). assert (D0 : 0 <= d) by (eapply Rle_trans; [apply Rabs_pos|apply (N 0%nat); lia]).
  set (H := sumn 3 (fun i => Rabs (h i))). assert (H0 : 0 <= H) by (apply sumn_nonneg; intros; apply Rabs_pos). pose proof (msum_nonneg inv) as IV0. pose proof (msum_nonneg inertia) as II0.
  assert (NW : near 3 d x z) by (intros i Hi; apply N; lia).
  assert (L1 : 0 <= msum inv * (2 * ((msum inertia * Y + H) + Y * msum inertia))).
  { assert (0 <= msum inertia * Y) by (now apply Rmult_le_pos). apply Rmult_le_pos; lra. }
  assert (E : lip Y * d = msum inv * (2 * (d * (msum inertia * Y + H) + Y * (msum inertia * d))) + 3 * (Y * d)) by (unfold lip; fold H; ring).
  assert (E1 : 0 <= msum inv * (2 * (d * (msum inertia * Y + H) + Y * (msum inertia * d)))).
  { replace (msum inv * (2 * (d * (msum inertia * Y + H) + Y * (msum inertia * d)))) with (msum inv * (2 * ((msum inertia * Y + H) + Y * msum inertia)) * d) by ring. now apply Rmult_le_pos. }
  assert (E2 : 0 <= Y * d) by (now apply Rmult_le_pos). rewrite E.
  apply near7. split.
  - eapply near_le; [|intros i Hi; unfold att_deriv; rewrite !v7_omega by exact Hi; revert i Hi; apply mvec_near]; [apply Rplus_le_reg_l with (- (msum inv * (2 * (d * (msum inertia * Y + H) + Y * (msum inertia * d))))); rewrite <- Rplus_assoc, Rplus_opp_l, Rplus_0_l; lra|].
    intros i Hi. unfold net_torque, vsub.
    replace (torque i - cross (omega7 x) (vadd (mvec 3 inertia (omega7 x)) h) i - vconst 0 i - (torque i - cross (omega7 z) (vadd (mvec 3 inertia (omega7 z)) h) i - vconst 0 i))
      with (- (cross x (vadd (mvec 3 inertia x) h) i - cross z (vadd (mvec 3 inertia z) h) i)) by (unfold omega7; ring).
    rewrite Rabs_Ropp. revert i Hi. apply cross_near; [exact NW| | |intros i Hi; apply BZ; lia].
    + intros i Hi. unfold vadd. replace (mvec 3 inertia x i + h i - (mvec 3 inertia z i + h i)) with (mvec 3 inertia x i - mvec 3 inertia z i) by ring. now apply mvec_near.
    + intros i Hi. unfold vadd. eapply Rle_trans; [apply Rabs_triang|]. apply Rplus_le_compat; [apply mvec_bound; [intros j Hj; apply BX; lia|exact Hi]|now apply wheels].
  - apply (near_le 4 (3 * (Y * d))); [lra|]. intros i Hi. unfold quat7. unfold att_deriv. rewrite !v7_quat.
    assert (P : forall a b, (a < 3)%nat -> (b < 4)%nat -> Rabs (x a * x (b + 3)%nat - z a * z (b + 3)%nat) <= 2 * (Y * d)).
    { intros a b Ha Hb. replace (2 * (Y * d)) with (d * Y + Y * d) by ring. apply product_near; [apply N; lia|apply N; lia|apply BX; lia|apply BZ; lia]. }
    assert (Q : forall a b c a' b' c' e, Rabs (a - a') <= e -> Rabs (b - b') <= e -> Rabs (c - c') <= e -> Rabs (1 / 2 * (a + b + c) - 1 / 2 * (a' + b' + c')) <= 3 / 2 * e).
    { intros a b c a' b' c' e A B C. unfold Rabs in *. repeat destruct (Rcase_abs _); lra. }
    assert (QN : forall a a' e, Rabs (a - a') <= e -> Rabs (- a - - a') <= e) by (intros a a' e A; replace (- a - - a') with (- (a - a')) by ring; now rewrite Rabs_Ropp).
    replace (3 * (Y * d)) with (3 / 2 * (2 * (Y * d))) by field.
    assert (R0 : forall u, quaternion_rate (omega7 u) (quat7 u) 0%nat = 1 / 2 * (u 2%nat * u 4%nat + - (u 1%nat * u 5%nat) + u 0%nat * u 6%nat)) by (intros u; cbv [quaternion_rate mvec mscal omega_matrix q4 sumn omega7 quat7 Nat.add]; field).
    assert (R1 : forall u, quaternion_rate (omega7 u) (quat7 u) 1%nat = 1 / 2 * (- (u 2%nat * u 3%nat) + u 0%nat * u 5%nat + u 1%nat * u 6%nat)) by (intros u; cbv [quaternion_rate mvec mscal omega_matrix q4 sumn omega7 quat7 Nat.add]; field).
    assert (R2 : forall u, quaternion_rate (omega7 u) (quat7 u) 2%nat = 1 / 2 * (u 1%nat * u 3%nat + - (u 0%nat * u 4%nat) + u 2%nat * u 6%nat)) by (intros u; cbv [quaternion_rate mvec mscal omega_matrix q4 sumn omega7 quat7 Nat.add]; field).
    assert (R3 : forall u, quaternion_rate (omega7 u) (quat7 u) 3%nat = 1 / 2 * (- (u 0%nat * u 3%nat) + - (u 1%nat * u 4%nat) + - (u 2%nat * u 5%nat))) by (intros u; cbv [quaternion_rate mvec mscal omega_matrix q4 sumn omega7 quat7 Nat.add]; field).
    i4 i Hi; [rewrite !R0|rewrite !R1|rewrite !R2|rewrite !R3]; apply Q; try apply QN;
      [apply (P 2 1)%nat|apply (P 1 2)%nat|apply (P 0 3)%nat|apply (P 2 0)%nat|apply (P 0 2)%nat|apply (P 1 3)%nat|apply (P 1 0)%nat|apply (P 0 1)%nat|apply (P 2 3)%nat|apply (P 0 0)%nat|apply (P 1 1)%nat|apply (P 2 2)%nat]; lia.
Qed.
End rigid.

(** one step: normalising changes little *)
Lemma dot4_bound a b M : (forall i, (i < 4)%nat -> Rabs (a i) <= M) -> (forall i, (i < 4)%nat -> Rabs (b i) <= M) -> Rabs (dot 4 a b) <= 4 * (M * M).
Proof.
  intros A B. unfold dot. eapply Rle_trans; [apply (sumn_weighted 4 a b M B)|]. assert (M0 : 0 <= M) by (eapply Rle_trans; [apply Rabs_pos|apply (A 0%nat); lia]).
  replace (4 * (M * M)) with (4 * M * M) by ring. apply Rmult_le_compat_r; [exact M0|]. cbn [sumn]. pose proof (A 0%nat ltac:(lia)). pose proof (A 1%nat ltac:(lia)). pose proof (A 2%nat ltac:(lia)). pose proof (A 3%nat ltac:(lia)). lra.
Qed.
Lemma orthogonal_rate f x : att_kin f -> dot 4 (quat7 x) (quat7 (f x)) = 0.
Proof. intros K. rewrite <- (rate_orthogonal (omega7 x) (quat7 x)). unfold dot. apply sumn_ext. intros i Hi. now rewrite K. Qed.
Lemma norm_of_square p e : Rabs (dot 4 p p - 1) <= e -> e < 1 -> norm 4 p <> 0 /\ near 4 e (qnormalize p) p.
Proof.
  intros H E. set (s := dot 4 p p) in *. assert (S0 : 0 < s) by (unfold Rabs in H; destruct (Rcase_abs _) in H; lra).
  pose proof (sqrt_lt_R0 s S0) as R0. pose proof (sqrt_sqrt s (Rlt_le _ _ S0)) as RR. unfold norm. fold (dot 4 p p). fold s. split; [change (sqrt s <> 0); lra|].
  intros i Hi. assert (SE : 0 + p 0%nat * p 0%nat + p 1%nat * p 1%nat + p 2%nat * p 2%nat + p 3%nat * p 3%nat = s) by reflexivity. unfold qnormalize. rewrite SE, req_false by lra.
  set (r := sqrt s) in *. assert (PI : Rabs (p i) <= r).
  { apply Rsqr_incr_0_var; [|lra]. rewrite <- Rsqr_abs. unfold Rsqr. rewrite RR, <- SE. pose proof (Rle_0_sqr (p 0%nat)). pose proof (Rle_0_sqr (p 1%nat)). pose proof (Rle_0_sqr (p 2%nat)). pose proof (Rle_0_sqr (p 3%nat)). unfold Rsqr in *. i4 i Hi; lra. }
  replace (p i * (1 / r) - p i) with (p i * / r * (1 - r)) by (field; lra). rewrite !Rabs_mult, (Rabs_pos_eq (/ r)) by (left; now apply Rinv_0_lt_compat).
  assert (X : Rabs (p i) * / r <= 1). { replace 1 with (r * / r) by (field; lra). apply Rmult_le_compat_r; [left; now apply Rinv_0_lt_compat|exact PI]. }
  assert (Y : Rabs (1 - r) <= e).
  { eapply Rle_trans; [|exact H]. replace (s - 1) with ((r - 1) * (r + 1)) by lra. rewrite Rabs_mult, (Rabs_minus_sym 1 r), (Rabs_pos_eq (r + 1)) by lra.
    rewrite <- (Rmult_1_r (Rabs (r - 1))) at 1. apply Rmult_le_compat_l; [apply Rabs_pos|lra]. }
  rewrite <- (Rmult_1_l e). apply Rmult_le_compat; try assumption; try apply Rabs_pos. apply Rmult_le_pos; [apply Rabs_pos|left; now apply Rinv_0_lt_compat].
Qed.
Section rkstep.
Context (f : vec -> vec) (dt : R) (x : vec) (M : R).
Definition k1 : vec := f x.
Definition k2 : vec := f (vadd x (vscal (dt / 2) k1)).
Definition k3 : vec := f (vadd x (vscal (dt / 2) k2)).
Definition k4 : vec := f (vadd x (vscal dt k3)).
Lemma stages_inside c d rho : 0 <= dt -> 0 <= M -> (forall z, near 7 rho z c -> forall i, (i < 7)%nat -> Rabs (f z i) <= M) -> near 7 d x c -> d + dt * (6 * M) <= rho ->
  forall i, (i < 7)%nat -> Rabs (k1 i) <= M /\ Rabs (k2 i) <= M /\ Rabs (k3 i) <= M /\ Rabs (k4 i) <= M.
Proof.
  intros T M0 MB N R. assert (TM : 0 <= dt * M) by (now apply Rmult_le_pos).
  assert (ST : forall k c', 0 <= c' <= dt -> (forall i, (i < 7)%nat -> Rabs (k i) <= M) -> near 7 rho (vadd x (vscal c' k)) c).
  { intros k c' C K. apply (near_le _ (dt * M + d)); [lra|]. apply (near_trans _ _ _ _ x); [|exact N]. intros i Hi. unfold vadd, vscal. replace (x i + c' * k i - x i) with (c' * k i) by ring.
    rewrite Rabs_mult, (Rabs_pos_eq c') by lra. apply Rmult_le_compat; try lra; [apply Rabs_pos|now apply K]. }
  assert (K1 : forall i, (i < 7)%nat -> Rabs (k1 i) <= M) by (apply MB, (near_le _ d); [lra|exact N]).
  assert (K2 : forall i, (i < 7)%nat -> Rabs (k2 i) <= M) by (apply MB, ST; [lra|exact K1]).
  assert (K3 : forall i, (i < 7)%nat -> Rabs (k3 i) <= M) by (apply MB, ST; [lra|exact K2]).
  assert (K4 : forall i, (i < 7)%nat -> Rabs (k4 i) <= M) by (apply MB, ST; [lra|exact K3]).
  intros i Hi. auto.
Qed.
Lemma step_norm : att_kin f -> 0 <= dt -> dot 4 (quat7 x) (quat7 x) = 1 -> (forall i, (i < 7)%nat -> Rabs (k1 i) <= M /\ Rabs (k2 i) <= M /\ Rabs (k3 i) <= M /\ Rabs (k4 i) <= M) ->
  Rabs (dot 4 (quat7 (rk_increment f dt x)) (quat7 (rk_increment f dt x)) - 1) <= 12 * (dt * dt) * (M * M).
Proof.
  intros K T U B. assert (M0 : 0 <= M) by (eapply Rle_trans; [apply Rabs_pos|apply (B 0%nat); lia]).
  set (q := quat7 x) in *. set (a := quat7 k1). set (b := quat7 k2). set (c := quat7 k3). set (e := quat7 k4).
  assert (BA : forall i, (i < 4)%nat -> Rabs (a i) <= M) by (intros i Hi; apply (B (i + 3)%nat); lia). assert (BB : forall i, (i < 4)%nat -> Rabs (b i) <= M) by (intros i Hi; apply (B (i + 3)%nat); lia).
  assert (BC : forall i, (i < 4)%nat -> Rabs (c i) <= M) by (intros i Hi; apply (B (i + 3)%nat); lia). assert (BE : forall i, (i < 4)%nat -> Rabs (e i) <= M) by (intros i Hi; apply (B (i + 3)%nat); lia).
  assert (O1 : dot 4 q a = 0) by (apply (orthogonal_rate f x K)).
  assert (LQ : forall (u v : vec) r, dot 4 (vadd u (vscal r v)) = fun z => dot 4 u z + r * dot 4 v z) by (intros; apply functional_extensionality; intros z; unfold dot, vadd, vscal; cbn [sumn]; ring).
  assert (O2 : dot 4 q b = - (dt / 2) * dot 4 a b).
  { pose proof (orthogonal_rate f (vadd x (vscal (dt / 2) k1)) K) as Z. change (dot 4 (vadd q (vscal (dt / 2) a)) b = 0) in Z. rewrite LQ in Z. lra. }
  assert (O3 : dot 4 q c = - (dt / 2) * dot 4 b c).
  { pose proof (orthogonal_rate f (vadd x (vscal (dt / 2) k2)) K) as Z. change (dot 4 (vadd q (vscal (dt / 2) b)) c = 0) in Z. rewrite LQ in Z. lra. }
  assert (O4 : dot 4 q e = - dt * dot 4 c e).
  { pose proof (orthogonal_rate f (vadd x (vscal dt k3)) K) as Z. change (dot 4 (vadd q (vscal dt c)) e = 0) in Z. rewrite LQ in Z. lra. }
  set (g := vscal (1 / 6) (vadd (vadd (vadd a (vscal 2 b)) (vscal 2 c)) e)).
  assert (BG : forall i, (i < 4)%nat -> Rabs (g i) <= M).
  { intros i Hi. unfold g, vscal, vadd. specialize (BA i Hi). specialize (BB i Hi). specialize (BC i Hi). specialize (BE i Hi). apply Rabs_le. unfold Rabs in *. repeat destruct (Rcase_abs _); lra. }
  assert (QG : dot 4 q g = - (dt / 6) * (dot 4 a b + dot 4 b c + dot 4 c e)).
  { transitivity (1 / 6 * (dot 4 q a + 2 * dot 4 q b + 2 * dot 4 q c + dot 4 q e)); [unfold dot, g, vscal, vadd; cbn [sumn]; field|rewrite O1, O2, O3, O4; field]. }
  assert (P : dot 4 (quat7 (rk_increment f dt x)) (quat7 (rk_increment f dt x)) = dot 4 q q + 2 * dt * dot 4 q g + dt * dt * dot 4 g g).
  { transitivity (dot 4 (vadd q (vscal dt g)) (vadd q (vscal dt g))).
    - unfold dot. apply sumn_ext. intros i _. assert (Z : quat7 (rk_increment f dt x) i = vadd q (vscal dt g) i); [|now rewrite Z]. change (rk_increment f dt x) with (vadd x (vscal (dt / 6) (vadd (vadd (vadd k1 (vscal 2 k2)) (vscal 2 k3)) k4))). unfold g, q, a, b, c, e. unfold vadd, vscal, quat7. field.
    - unfold dot, vadd, vscal. cbn [sumn]. ring. }
  rewrite P, U, QG. pose proof (dot4_bound a b M BA BB) as D1. pose proof (dot4_bound b c M BB BC) as D2. pose proof (dot4_bound c e M BC BE) as D3. pose proof (dot4_bound g g M BG BG) as D4.
  replace (1 + 2 * dt * (- (dt / 6) * (dot 4 a b + dot 4 b c + dot 4 c e)) + dt * dt * dot 4 g g - 1) with (dt * dt * (dot 4 g g - / 3 * (dot 4 a b + dot 4 b c + dot 4 c e))) by field.
  assert (TT : 0 <= dt * dt) by (now apply Rmult_le_pos). rewrite Rabs_mult, (Rabs_pos_eq (dt * dt)) by exact TT. replace (12 * (dt * dt) * (M * M)) with (dt * dt * (12 * (M * M))) by ring. apply Rmult_le_compat_l; [exact TT|].
  assert (0 <= M * M) by (now apply Rmult_le_pos). apply Rabs_le. unfold Rabs in D1, D2, D3, D4. repeat destruct (Rcase_abs _); lra.
Qed.
(** the step as a Runge-Kutta step *)
Lemma step_tableau t : rk_step_to 7 (fun _ => f) 4 (am rk4) (bw rk4) (cn rk4) t dt x (rk_increment f dt x).
Proof.
  remember k1 as d1 eqn:E1. remember k2 as d2 eqn:E2. remember k3 as d3 eqn:E3. remember k4 as d4 eqn:E4.
  exists (fun i => match i with 0%nat => d1 | 1%nat => d2 | 2%nat => d3 | _ => d4 end). split.
  - intros [|[|[|[|i]]]] Hi; [rewrite E1; unfold k1|rewrite E2; unfold k2; rewrite <- E1|rewrite E3; unfold k3; rewrite <- E2|rewrite E4; unfold k4; rewrite <- E3|lia]; cbn [sumn]; unfold am, Q2R; cbn [matrix rk4 nth Qnum Qden];
      (f_equal; apply functional_extensionality; intros m; unfold vadd, vscal; idtac; field).
  - intros m _. change (rk_increment f dt x) with (vadd x (vscal (dt / 6) (vadd (vadd (vadd k1 (vscal 2 k2)) (vscal 2 k3)) k4))). rewrite <- E1, <- E2, <- E3, <- E4. unfold vadd, vscal. cbn [sumn]. unfold bw, Q2R. cbn [nth weights rk4 Qnum Qden]. field.
Qed.
End rkstep.
(** ** runs *)
Inductive reach (inertia : mat) (torque h : vec) (st0 : vec * quat) : list R -> vec * quat -> Prop :=
| reach_nil : reach inertia torque h st0 [] st0
| reach_snoc ws w st inv d : reach inertia torque h st0 ws st -> is_inverse 3 inertia inv -> veq 3 d (vconst 0) ->
    reach inertia torque h st0 (ws ++ [w]) (att_step (att_deriv inertia inv torque h d) w st).
Lemma total_app a b : total (a ++ b) = total a + total b.
Proof. unfold total. induction a as [|x a IH]; cbn [app fold_right]; [ring|rewrite IH; ring]. Qed.
Lemma total_repeat x k : total (repeat x k) = INR k * x.
Proof. induction k as [|k IH]; [cbn; ring|]. cbn [repeat]. unfold total in *. cbn [fold_right]. rewrite IH, S_INR. ring. Qed.
Lemma last_cons (x : R) l d : last (x :: l) d = last l x.
Proof. revert x d. induction l as [|y l IH]; intros x d; [reflexivity|]. change (last (x :: y :: l) d) with (last (y :: l) d). now rewrite (IH y d), (IH y x). Qed.
Lemma reach_steps inertia torque h st0 inv d : is_inverse 3 inertia inv -> veq 3 d (vconst 0) -> forall us ws st, reach inertia torque h st0 ws st ->
  reach inertia torque h st0 (ws ++ us) (run_steps (att_deriv inertia inv torque h d) us st).
Proof.
  intros I D. induction us as [|u us IH]; intros ws st X; [rewrite app_nil_r; exact X|]. cbn [run_steps fold_left].
  replace (ws ++ u :: us) with ((ws ++ [u]) ++ us) by (rewrite <- app_assoc; reflexivity). apply IH. now constructor.
Qed.
Lemma run_reach coef0 index0 inverse0 fuel inertia torque h st0 eta : forall tends a a' ws0, at_prev a = inertia -> at_torque a = torque -> at_h a = h ->
  att_run coef0 index0 inverse0 fuel inertia a tends = Ok a' -> reach inertia torque h st0 ws0 (at_omega a, at_q a) ->
  0 <= at_step a -> in_order (at_time a) tends -> (at_step a + 1 / 10 ^ 6 <= eta \/ advances eta (at_time a) tends) ->
  exists ws, reach inertia torque h st0 (ws0 ++ ws) (at_omega a', at_q a') /\ total ws = last tends (at_time a) - at_time a /\ at_time a' = last tends (at_time a) /\
    List.Forall (fun w => 0 <= w <= eta) ws.
Proof.
  induction tends as [|t l IH]; intros a a' ws0 P T HH E X S0 IO A; cbn [att_run] in E.
  - injection E as <-. exists []. rewrite app_nil_r. unfold total. cbn [last fold_right]. split; [exact X|]. split; [ring|]. split; [reflexivity|constructor].
  - destruct (att_propagate coef0 index0 inverse0 fuel true inertia a t) as [b| | |] eqn:Q; cbn [bind] in E; try discriminate.
    apply propagate_spec in Q. destruct Q as (inv & k & INV & W & K & NE & RUN & BT & BS & BTI & BH & BP & _). rewrite P, T, HH in RUN.
    set (d := mvec 3 (mscal _ _) _) in RUN.
    assert (D0 : veq 3 d (vconst 0)). { intros i Hi. unfold d, mvec, mscal, msub, vconst. apply sumn_0. intros; ring. }
    pose proof (reach_steps inertia torque h st0 inv d INV D0 (widths k (at_step a) (at_time a) t) ws0 _ X) as Y. rewrite <- RUN in Y. destruct IO as (O1 & O2).
    apply (IH b a' (ws0 ++ widths k (at_step a) (at_time a) t)) in E; [|exact BP|congruence|congruence|exact Y|congruence|rewrite BTI; exact O2|rewrite BS, BTI; destruct A as [A|(_ & A)]; [now left|now right]].
    destruct E as (ws & Z & TW & TT & F). exists (widths k (at_step a) (at_time a) t ++ ws). rewrite app_assoc. split; [exact Z|].
    rewrite last_cons. rewrite BTI in *.
    split. { rewrite total_app, TW. unfold widths. rewrite total_app, total_repeat. unfold total. cbn [fold_right]. ring. }
    split; [exact TT|]. apply Forall_app. split; [|exact F]. assert (P6 : 0 < 1 / 10 ^ 6) by (apply Rdiv_lt_0_compat; [lra|apply pow_lt; lra]). unfold widths.
    assert (W0 : 0 <= t - at_time a - INR k * at_step a) by (destruct K as [->|K]; [cbn [INR]; lra|lra]).
    assert (KS : 0 <= INR k * at_step a) by (apply Rmult_le_pos; [apply pos_INR|exact S0]).
    apply Forall_app. split.
    + apply List.Forall_forall. intros x I0. apply repeat_spec in I0 as I1. subst x. split; [exact S0|]. destruct A as [A|(A & _)]; [lra|].
      destruct k as [|k]; [destruct I0|]. rewrite S_INR in *. pose proof (pos_INR k). assert (0 <= INR k * at_step a) by (apply Rmult_le_pos; lra). lra.
    + constructor; [|constructor]. split; [exact W0|]. destruct A as [A|(A & _)]; lra.
Qed.

(** ** along the motion *)
Section motion.
Context (inertia inv : mat) (torque h : vec) (INV : is_inverse 3 inertia inv) (T : R) (w : R -> vec) (q : R -> quat) (T0 : 0 <= T) (RM : rigid_motion inertia torque h T w q).
Notation y := (fun t => v7 (w t) (q t)).
Lemma motion_exact inv' d : is_inverse 3 inertia inv' -> veq 3 d (vconst 0) -> exact 7 (fun _ => att_deriv inertia inv' torque h d) y 0 T.
Proof.
  intros I D t Ht i Hi. destruct (RM t Ht) as (EW & EQ). destruct (le_lt_dec 3 i) as [L|L].
  - assert (E : exists j, (j < 4)%nat /\ i = (j + 3)%nat) by (exists (i - 3)%nat; lia). destruct E as (j & Hj & ->). unfold att_deriv. rewrite v7_quat.
    apply (derivable_pt_lim_locally_ext (fun u => q u j) _ t (t - 1) (t + 1)); [lra|intros u _; symmetry; apply v7_quat|]. eapply dpl_eq; [now apply EQ|].
    rewrite rate_half by exact Hj. clear - Hj. i4 j Hj; cbv [qmul q4 half omega7 quat7 v7 Nat.ltb Nat.leb Nat.add Nat.sub]; field.
  - unfold att_deriv. rewrite v7_omega by exact L. set (n := net_torque _ _ _ _ _).
    apply (derivable_pt_lim_locally_ext (fun u => mvec 3 inv' (mvec 3 inertia (w u)) i) _ t (t - 1) (t + 1)); [lra|intros u _; rewrite v7_omega by exact L; now apply (inverse_cancel2 inertia inv')|].
    assert (DN : forall j, (j < 3)%nat -> derivable_pt_lim (fun u => mvec 3 inertia (w u) j) t (n j)).
    { intros j Hj. eapply dpl_eq; [now apply EW|]. unfold n, net_torque, vsub. rewrite D by exact Hj. unfold vconst. rewrite Rminus_0_r. apply (f_equal (Rminus (torque j))).
      apply cross_ext; [|intros m Hm; unfold vadd; f_equal; apply mvec_congr|exact Hj]; try (intros k Hk; unfold omega7; now rewrite v7_omega). }
    apply dpl_mvec_const. exact DN.
Qed.
Lemma near_agree dim d a b a' b' : veq dim a a' -> veq dim b b' -> near dim d a b -> near dim d a' b'.
Proof. intros A B N i Hi. rewrite <- A, <- B by exact Hi. now apply N. Qed.
Lemma motion_bounded : exists L M, 0 <= L /\ 0 <= M /\ forall inv' d, is_inverse 3 inertia inv' -> veq 3 d (vconst 0) ->
  lipschitz_near 7 (fun _ => att_deriv inertia inv' torque h d) y 0 T 1 L /\
  forall t x, 0 <= t <= T -> near 7 1 x (y t) -> forall i, (i < 7)%nat -> Rabs (att_deriv inertia inv' torque h d x i) <= M.
Proof.
  set (F := fun _ : R => att_deriv inertia inv torque h (vconst 0)).
  assert (EX : exact 7 F y 0 T) by (apply motion_exact; [exact INV|intros i _; reflexivity]).
  destruct (solution_bounded 7 F y 0 T T0 EX) as (D & D0 & DB). set (Y := D + sumn 7 (fun i => Rabs (y 0 i)) + 1).
  assert (YB : forall t x, 0 <= t <= T -> near 7 1 x (y t) -> forall i, (i < 7)%nat -> Rabs (x i) <= Y).
  { intros t x Ht N i Hi. specialize (N i Hi). pose proof (DB t Ht i Hi) as B. assert (Z : Rabs (y 0 i) <= sumn 7 (fun i => Rabs (y 0 i))).
    { clear - Hi. assert (G : forall n, (i < n)%nat -> Rabs (y 0 i) <= sumn n (fun i => Rabs (y 0 i))); [|now apply G]. induction n as [|n IH]; intros H; [lia|]. cbn [sumn]. destruct (Nat.eq_dec i n) as [->|NE].
      - assert (0 <= sumn n (fun i => Rabs (y 0 i))) by (apply sumn_nonneg; intros; apply Rabs_pos). lra.
      - specialize (IH ltac:(lia)). pose proof (Rabs_pos (y 0 n)). lra. }
    unfold Y. replace (x i) with ((x i - y t i) + (y t i - y 0 i) + y 0 i) by ring. pose proof (Rabs_triang (x i - y t i + (y t i - y 0 i)) (y 0 i)). pose proof (Rabs_triang (x i - y t i) (y t i - y 0 i)). cbv beta in *. lra. }
  assert (Y0 : 0 <= Y) by (eapply Rle_trans; [apply Rabs_pos|apply (YB 0 (y 0) ltac:(lra) (near_refl _ _ _ Rle_0_1) 0%nat); lia]).
  pose proof (lip_nonneg inertia inv h Y Y0) as L0.
  assert (LF : lipschitz_near 7 F y 0 T 1 (lip inertia inv h Y)).
  { intros t s x z d Ht Hs X Z N. apply (near_le _ (lip inertia inv h Y * d)); [apply Rmult_le_compat_l; [exact L0|pose proof (Rabs_pos (t - s)); lra]|].
    apply deriv_lipschitz; [apply (YB t); assumption|apply (YB s); assumption|exact N]. }
  destruct (slope_bounded 7 F y 0 T 1 _ T0 Rlt_0_1 L0 EX LF) as (M & M0 & MB).
  exists (lip inertia inv h Y), M. split; [exact L0|]. split; [exact M0|]. intros inv' d I D'. split.
  - intros t s x z e Ht Hs X Z N. eapply near_agree; [| |apply (LF t s x z e Ht Hs X Z N)]; intros i Hi; symmetry; now apply deriv_agree.
  - intros t x Ht N i Hi. rewrite (deriv_agree inertia inv torque h INV inv' d x I D' i Hi). now apply (MB t x).
Qed.
Lemma tableau_sums : (forall i, (i < 4)%nat -> sumn i (fun j => Rabs (am rk4 i j)) <= 1) /\ sumn 4 (fun i => Rabs (bw rk4 i)) <= 1 /\ sumn 4 (bw rk4) = 1 /\ (forall i, (i < 4)%nat -> 0 <= cn rk4 i <= 1).
Proof.
  split; [|split; [|split]].
  - intros i Hi. i4 i Hi; cbn [sumn]; unfold am, Q2R; cbn [matrix rk4 nth Qnum Qden]; unfold Rabs; repeat destruct (Rcase_abs _); lra.
  - cbn [sumn]; unfold bw, Q2R; cbn [weights rk4 nth Qnum Qden]; unfold Rabs; repeat destruct (Rcase_abs _); lra.
  - exact (proj1 weights_sum).
  - exact (proj1 nodes_unit).
Qed.
Lemma attitude_converges : exists h0 K, 0 < h0 /\ 0 <= K /\ forall d0 eta ws st0 st, 0 <= d0 <= h0 -> 0 <= eta <= h0 -> List.Forall (fun x => 0 <= x <= eta) ws -> total ws <= T ->
  unit 4 (snd st0) -> near 7 d0 (v7 (fst st0) (snd st0)) (y 0) -> reach inertia torque h st0 ws st ->
  unit 4 (snd st) /\ near 7 (K * (d0 + eta)) (v7 (fst st) (snd st)) (y (total ws)).
Proof.
  destruct motion_bounded as (L & M & L0 & M0 & P). destruct tableau_sums as (TA & TB & TB1 & TC).
  set (K1 := L * (1 * (1 * M + 1) + M + 1) + 12 * (M * M)). assert (MM : 0 <= M * M) by (now apply Rmult_le_pos).
  assert (K1P : 0 <= K1) by (unfold K1; assert (0 <= L * (1 * (1 * M + 1) + M + 1)) by (apply Rmult_le_pos; lra); lra).
  assert (BB : sumn 0 (fun i => Rabs ((fun _ : nat => 0) i)) <= L) by (cbn [sumn]; exact L0).
  assert (KG : K0 1 K1 0 L = L + K1 + 1) by (unfold K0; ring).
  set (gr := growth 0 1 K1 0 L).
  set (G := exp (L * 1 * (T - 0))). assert (G0 : 0 < G) by apply exp_pos. set (k0 := K0 1 K1 0 L). assert (k0P : 0 <= k0) by (unfold k0; rewrite KG; lra).
  assert (TK : 0 <= T * k0) by (now apply Rmult_le_pos). set (Q := G * (1 + T * k0)). assert (Q0 : 0 <= Q) by (apply Rmult_le_pos; lra). set (q0 := Q + 6 * M + 1).
  assert (q1 : 1 <= q0) by (unfold q0; lra). exists (/ q0), Q. split; [apply Rinv_0_lt_compat; lra|]. split; [exact Q0|].
  intros d0 eta ws st0 st D E F TT U N R. assert (HQ : / q0 * q0 = 1) by (field; lra).
  assert (GT : gr d0 eta T <= / q0 * Q).
  { unfold gr, growth. fold G k0. unfold Q. replace (/ q0 * (G * (1 + T * k0))) with (G * (/ q0 + / q0 * (T * k0))) by ring. apply Rmult_le_compat_l; [lra|].
    replace ((T - 0) * eta * k0) with (eta * (T * k0)) by ring. assert (eta * (T * k0) <= / q0 * (T * k0)) by (apply Rmult_le_compat_r; lra). lra. }
  assert (IN : gr d0 eta T + eta * (6 * M) <= 1).
  { assert (eta * (6 * M) <= / q0 * (6 * M)) by (apply Rmult_le_compat_r; lra). assert (0 < / q0) by (apply Rinv_0_lt_compat; lra). unfold q0 in HQ at 2. lra. }
  assert (ACC : unit 4 (snd st) /\ near 7 (gr d0 eta (total ws)) (v7 (fst st) (snd st)) (y (total ws))).
  { clear GT. induction R as [|ws x st inv' d R IH I D'].
    - split; [exact U|]. unfold total. cbn [fold_right]. unfold gr, growth. rewrite Rminus_eq_0, Rmult_0_r, exp_0. apply (near_le _ d0); [lra|exact N].
    - apply Forall_app in F as (F1 & F2). inversion F2 as [|? ? X _]; subst. clear F2. rewrite total_app in *. assert (TX : total [x] = x) by (unfold total; cbn [fold_right]; ring). rewrite TX in *.
      destruct (IH F1 ltac:(lra)) as (U1 & N1). clear IH.
      assert (TP : 0 <= total ws) by (clear - F1; unfold total; induction F1; cbn [fold_right]; lra).
      destruct (P inv' d I D') as (LN & MB). set (f := att_deriv inertia inv' torque h d) in *. pose proof (motion_exact inv' d I D') as EX. fold f in EX.
      set (t := total ws) in *. set (v := v7 (fst st) (snd st)) in *.
      pose proof (growth_mono 0 1 K1 Rle_0_1 K1P 0 (fun _ => 0) 0 L (Rle_refl 0) BB d0 eta t T ltac:(lra) ltac:(lra) ltac:(lra)) as GM. fold (gr d0 eta t) (gr d0 eta T) in GM.
      assert (XM : x * (6 * M) <= eta * (6 * M)) by (apply Rmult_le_compat_r; lra). assert (XM0 : 0 <= x * M) by (apply Rmult_le_pos; lra).
      pose proof (one_step 7 (fun _ => f) y 0 T 1 L M EX LN Rlt_0_1 L0 M0 MB 4 (am rk4) (bw rk4) (cn rk4) 1 1 TA Rle_0_1 TB TB1 TC t x v (rk_increment f x v) (gr d0 eta t)
        ltac:(lra) ltac:(lra) ltac:(lra) ltac:(lra) N1 ltac:(lra) (step_tableau f x v t)) as OS. unfold K0 in OS.
      pose proof (stages_inside f x v M (y t) (gr d0 eta t) 1 ltac:(lra) M0 (fun z Z => MB t z ltac:(lra) Z) N1 ltac:(lra)) as SI.
      assert (QV : quat7 v = snd st) by (apply functional_extensionality; intros i; unfold quat7, v; apply v7_quat).
      pose proof (step_norm f x v M (att_deriv_kin _ _ _ _ _) ltac:(lra) ltac:(rewrite QV; exact U1) SI) as SN.
      assert (SM : 12 * (x * x) * (M * M) < 1).
      { assert (A1 : x * M <= 1 / 6) by lra. assert (x * M * (x * M) <= 1 / 6 * (1 / 6)) by (apply Rmult_le_compat; lra). lra. }
      destruct (norm_of_square _ _ SN SM) as (NZ & NQ). unfold att_step. cbn [fst snd]. fold v.
      split; [exact (proj1 (qnormalize_nonzero _ NZ))|].
      eapply near_le; [apply (growth_step 0 1 K1 Rle_0_1 K1P 0 (fun _ => 0) 0 L (Rle_refl 0) BB d0 eta t x); lra|].
      fold (gr d0 eta t). fold k0. apply (near_le _ (12 * (x * x) * (M * M) + (gr d0 eta t * (1 + x * (1 * L)) + x * x * (L * (1 * (1 * M + 1) + M + 1))))).
      { unfold k0. rewrite KG. assert (XX : 0 <= x * x) by (apply Rmult_le_pos; lra). unfold K1. assert (0 <= x * x * (L + 1)) by (apply Rmult_le_pos; lra). lra. }
      apply (near_trans _ _ _ _ (rk_increment f x v)); [|exact OS].
      assert (0 <= 12 * (x * x) * (M * M)) by (apply Rmult_le_pos; [|exact MM]; assert (0 <= x * x) by (apply Rmult_le_pos; lra); lra).
      apply near7. split; intros i Hi.
      + rewrite v7_omega by exact Hi. unfold omega7. rewrite Rminus_eq_0, Rabs_R0. assumption.
      + unfold quat7 at 1. rewrite v7_quat. now apply NQ. }
  destruct ACC as (A1 & A2). split; [exact A1|]. eapply near_le; [|exact A2].
  assert (SN : 0 <= total ws) by (clear - F; unfold total; induction F; cbn [fold_right]; lra).
  pose proof (growth_mono 0 1 K1 Rle_0_1 K1P 0 (fun _ => 0) 0 L (Rle_refl 0) BB d0 eta (total ws) T ltac:(lra) ltac:(lra) ltac:(lra)) as GM. fold (gr d0 eta (total ws)) (gr d0 eta T) in GM.
  eapply Rle_trans; [apply GM|]. unfold gr, growth. fold G k0. unfold Q. rewrite (Rmult_assoc G (1 + T * k0) (d0 + eta)). apply Rmult_le_compat_l; [lra|].
  replace ((T - 0) * eta * k0) with (eta * (T * k0)) by ring. assert (0 <= d0 * (T * k0)) by (apply Rmult_le_pos; lra). lra.
Qed.
End motion.
