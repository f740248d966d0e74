(** Proofs about free rotation propagated by Runge-Kutta. *)
From Coq Require Import Reals Lra Lia List Bool Arith.
From Coquelicot Require Import Coquelicot.
From Verif Require Import Base RBase VecModel VecProofs LuModel LuSpec LuProps QuatModel QuatSpec QuatProofs HillProofs AttitudeModel AttitudeSpec AttitudeProofs AttitudeRunProofs
  PropagateProofs RkOrbitProofs RelRkProofs SpinSpec.
Import ListNotations.
Open Scope R_scope.

(** ** Histories *)
Lemma total_app a b : total (a ++ b) = total a + total b.
Proof. unfold total. induction a as [|x a IH]; cbn [app fold_right]; [ring|rewrite IH; ring]. Qed.
Lemma total_repeat x k : total (repeat x k) = INR k * x.
Proof. induction k as [|k IH]; [cbn; ring|]. cbn [repeat]. unfold total in *. cbn [fold_right]. rewrite IH, S_INR. ring. Qed.
Lemma last_cons (x : R) l d : last (x :: l) d = last l x.
Proof. revert x d. induction l as [|y l IH]; intros x d; [reflexivity|]. change (last (x :: y :: l) d) with (last (y :: l) d). now rewrite (IH y d), (IH y x). Qed.
Lemma run_collect (f : vec -> vec) (I : list R -> vec * quat -> Prop) : (forall ws w st, I ws st -> I (ws ++ [w]) (att_step f w st)) ->
  forall us ws st, I ws st -> I (ws ++ us) (run_steps f us st).
Proof.
  intros H. induction us as [|u us IH]; intros ws st X; [rewrite app_nil_r; exact X|]. cbn [run_steps fold_left].
  replace (ws ++ u :: us) with ((ws ++ [u]) ++ us) by (rewrite <- app_assoc; reflexivity). apply IH, H, X.
Qed.
Lemma att_run_collect coef0 index0 inverse0 fuel inertia torque h (I : list R -> vec * quat -> Prop) :
  (forall inv d, is_inverse 3 inertia inv -> veq 3 d (vconst 0) -> forall ws w st, I ws st -> I (ws ++ [w]) (att_step (att_deriv inertia inv torque h d) w st)) ->
  forall tends a a' ws0, at_prev a = inertia -> at_torque a = torque -> at_h a = h -> att_run coef0 index0 inverse0 fuel inertia a tends = Ok a' ->
  I ws0 (at_omega a, at_q a) ->
  exists ws, I (ws0 ++ ws) (at_omega a', at_q a') /\ total ws = last_time (at_time a) tends - at_time a /\ at_time a' = last_time (at_time a) tends /\
    (0 <= at_step a -> in_order (at_time a) tends -> List.Forall (fun w => 0 <= w <= at_step a + 1 / 10 ^ 6) ws).
Proof.
  intros H. induction tends as [|t l IH]; intros a a' ws0 P T HH E X; cbn [att_run] in E.
  - injection E as <-. exists []. rewrite app_nil_r. unfold last_time, total. cbn [last fold_right]. split; [exact X|]. split; [ring|]. split; [reflexivity|constructor].
  - destruct (att_propagate coef0 index0 inverse0 fuel true inertia a t) as [b| | |] eqn:Q; cbn [bind] in E; try discriminate.
    apply propagate_spec in Q. destruct Q as (inv & k & INV & W & K & NE & RUN & BT & BS & BTI & BH & BP & _). rewrite P, T, HH in RUN.
    set (d := mvec 3 (mscal _ _) _) in RUN.
    assert (D0 : veq 3 d (vconst 0)). { intros i Hi. unfold d, mvec, mscal, msub, vconst. apply sumn_0. intros; ring. }
    pose proof (run_collect _ I (H inv d INV D0) (widths k (at_step a) (at_time a) t) ws0 _ X) as Y. rewrite <- RUN in Y.
    apply (IH b a' (ws0 ++ widths k (at_step a) (at_time a) t)) in E; [|exact BP|congruence|congruence|exact Y].
    destruct E as (ws & Z & TW & TT & F). exists (widths k (at_step a) (at_time a) t ++ ws). rewrite app_assoc. split; [exact Z|].
    unfold last_time in *. rewrite last_cons. rewrite BTI in *.
    split. { rewrite total_app, TW. unfold widths. rewrite total_app, total_repeat. unfold total. cbn [fold_right]. ring. }
    split; [exact TT|]. intros S0 (O1 & O2). rewrite BS in F. apply Forall_app. split; [|now apply F]. unfold widths. apply Forall_app. split.
    + apply List.Forall_forall. intros x I0. apply repeat_spec in I0. subst x. lra.
    + constructor; [|constructor]. split; [|exact W]. destruct K as [->|K]; [cbn [INR]; lra|lra].
Qed.
Lemma factors_snoc l x : factors (l ++ [x]) = Cmult (factors l) (rk_factor x).
Proof. induction l as [|y l IH]; cbn [app factors]; [ring|rewrite IH; ring]. Qed.
Lemma error_sum0 n h ws : 0 <= n -> 0 <= h -> (n * h) ^ 2 <= 8 -> List.Forall (fun w => 0 <= w <= h) ws ->
  small (map (Rmult n) ws) /\ Cmod (Cminus (factors (map (Rmult n) ws)) (turn (n * total ws))) <= (n * h) ^ 4 / 80 * (n * total ws).
Proof.
  intros N H0 B F. destruct (Req_dec n 0) as [->|NZ].
  - assert (G : small (map (Rmult 0) ws) /\ factors (map (Rmult 0) ws) = RtoC 1).
    { clear F. induction ws as [|w l (A & E)]; [split; [constructor|reflexivity]|]. split.
      - constructor; [|exact A]. rewrite Rmult_0_l. split; lra.
      - cbn [map factors]. rewrite E. unfold rk_factor, Cmult, RtoC. cbn [fst snd]. f_equal; field. }
    destruct G as (A & ->). split; [exact A|]. rewrite !Rmult_0_l. replace (Cminus (RtoC 1) (turn 0)) with (RtoC 0); [rewrite Cmod_0; lra|].
    unfold turn, Cminus, Cplus, Copp, RtoC. cbn [fst snd]. rewrite cos_0, sin_0. f_equal; ring.
  - destruct (error_sum n h ws ltac:(lra) H0 B F) as (S1 & S2 & S3). split; [exact S1|]. eapply Rle_trans; [|exact S3]. rewrite <- S2. now apply factors_error.
Qed.

(** ** Quaternions of turns about one axis *)
Definition cq (e : vec) (z : C) : quat := q4 (- snd z * e 0%nat) (- snd z * e 1%nat) (- snd z * e 2%nat) (fst z).
Lemma unit_sq e : dot 3 e e = 1 -> e 0%nat * e 0%nat = 1 - e 1%nat * e 1%nat - e 2%nat * e 2%nat.
Proof. unfold dot. rewrite sumn3. intros <-. ring. Qed.
Lemma cq_mul e z z' : dot 3 e e = 1 -> veq 4 (qmul (cq e z) (cq e z')) (cq e (Cmult z z')).
Proof. intros E i Hi. apply unit_sq in E. i4 i Hi; cbv [qmul cq q4 Cmult fst snd]; ring [E]. Qed.
Lemma cq_norm e z : dot 3 e e = 1 -> norm 4 (cq e z) = Cmod z.
Proof. intro E. unfold norm, Cmod. f_equal. apply unit_sq in E. unfold cq. cbn [sumn q4]. cbn [pow]. ring [E]. Qed.
Lemma cq_spin e s w dt : dot 3 e e = 1 -> veq 3 w (vscal (2 * s) e) -> veq 4 (spin_increment dt w) (cq e (rk_factor (s * dt))).
Proof.
  intros E W i Hi. assert (D : dot 3 w w = 4 * (s * s)).
  { transitivity (4 * (s * s) * dot 3 e e); [|rewrite E; ring]. unfold dot. rewrite !sumn3, !W by lia. unfold vscal. ring. }
  unfold spin_increment. rewrite D. unfold cq, rk_factor. cbn [fst snd]. i4 i Hi; cbn [q4]; rewrite ?W by lia; unfold vscal; field.
Qed.
Lemma spin_form f dt w q w0 : att_kin f -> steady f w0 -> veq 3 w w0 -> unit 4 q ->
  let st := att_step f dt (w, q) in veq 3 (fst st) w0 /\ unit 4 (snd st) /\ exists c, 0 < c /\ veq 4 (snd st) (qscal c (qmul q (spin_increment dt w0))).
Proof.
  intros K S0 X U st. destruct (spin_step f dt w q w0 K S0 X U) as (A & B & _). split; [exact A|]. split; [exact B|]. subst st. unfold att_step in *. cbn [fst snd] in *.
  assert (X7 : veq 3 (v7 w q) w0) by (intros i Hi; rewrite v7_omega by exact Hi; now apply X).
  destruct (steady_rates f dt w0 (v7 w q) S0 X7) as (BB & OM).
  destruct (step_product f dt w q K) as (w1 & w2 & w3 & w4 & E & P). rewrite E in BB.
  pose proof (Forall_inv BB) as B1. apply Forall_inv_tail in BB. pose proof (Forall_inv BB) as B2. apply Forall_inv_tail in BB.
  pose proof (Forall_inv BB) as B3. apply Forall_inv_tail in BB. pose proof (Forall_inv BB) as B4. clear BB E.
  assert (EQ : veq 4 (quat7 (rk_increment f dt (v7 w q))) (qmul q (spin_increment dt w0))).
  { eapply veq_trans; [exact P|]. apply qmul_ext; [apply veq_refl|]. eapply veq_trans; [|apply increment_spin].
    unfold increment, stage4, stage3, stage2. rewrite (half_ext w1 w0 B1), (half_ext w2 w0 B2), (half_ext w3 w0 B3), (half_ext w4 w0 B4). apply veq_refl. }
  assert (NZ : norm 4 (quat7 (rk_increment f dt (v7 w q))) <> 0).
  { rewrite (AttitudeProofs.norm_ext 4 _ _ EQ), qmul_norm4. apply norm_unit in U. rewrite U, Rmult_1_l. unfold norm. apply Rgt_not_eq. apply sqrt_lt_R0. apply spin_increment_norm. }
  destruct (qnormalize_nonzero _ NZ) as (_ & c & C0 & CE). exists c. split; [exact C0|]. intros i Hi. rewrite CE by exact Hi. unfold qscal. now rewrite EQ.
Qed.
(** every angular velocity has an axis *)
Lemma axis_of w : exists e s, 0 <= s /\ dot 3 e e = 1 /\ veq 3 w (vscal (2 * s) e) /\ s = norm 3 w / 2.
Proof.
  destruct (Req_dec (norm 3 w) 0) as [Z|Z].
  - exists (v3 1 0 0), 0. split; [lra|]. split; [unfold dot; rewrite sumn3; cbn [v3]; ring|]. split; [|lra]. intros i Hi. unfold vscal. rewrite Rmult_0_r, Rmult_0_l.
    assert (Q : w 0%nat * w 0%nat + w 1%nat * w 1%nat + w 2%nat * w 2%nat = 0).
    { pose proof (norm_sq 3 w) as N. rewrite Z in N. unfold sq in N. rewrite sumn3 in N. lra. }
    i3 i Hi; nra.
  - assert (P : 0 < norm 3 w). { pose proof (sqrt_pos (sumn 3 (fun i => w i * w i))) as Q. unfold norm in *. lra. }
    exists (vscal (/ norm 3 w) w), (norm 3 w / 2). split; [lra|]. split.
    + transitivity (/ norm 3 w * / norm 3 w * (norm 3 w * norm 3 w)); [|field; exact Z]. rewrite norm_sq. unfold dot, vscal, sq. rewrite !sumn3. ring.
    + split; [|reflexivity]. intros i Hi. unfold vscal. field. exact Z.
Qed.
Lemma qmul_scal c a b : veq 4 (qmul (qscal c a) b) (qscal c (qmul a b)).
Proof. intros i Hi. i4 i Hi; cbv [qmul qscal q4]; ring. Qed.
Lemma qscal_qscal c d a : veq 4 (qscal c (qscal d a)) (qscal (c * d) a).
Proof. intros i Hi. unfold qscal. ring. Qed.
Lemma qscal_ext c a b : veq 4 a b -> veq 4 (qscal c a) (qscal c b).
Proof. intros E i Hi. unfold qscal. now rewrite E. Qed.
Lemma norm_qscal c a : norm 4 (qscal c a) = Rabs c * norm 4 a.
Proof. rewrite <- norm_scal. apply AttitudeProofs.norm_ext. intros i Hi. unfold qscal, vscal. ring. Qed.
Section spin.
Context (e : vec) (s : R) (q0 : quat) (E : dot 3 e e = 1) (U0 : unit 4 q0).
Let w0 : vec := vscal (2 * s) e.
Definition spinning (ws : list R) (st : vec * quat) : Prop :=
  veq 3 (fst st) w0 /\ unit 4 (snd st) /\ exists c, 0 < c /\ veq 4 (snd st) (qscal c (qmul q0 (cq e (factors (map (Rmult s) ws))))).
Lemma spinning_step f ws w st : att_kin f -> steady f w0 -> spinning ws st -> spinning (ws ++ [w]) (att_step f w st).
Proof.
  intros K S0 (A & B & c & C0 & Q). destruct st as [om q]. cbn [fst snd] in *. destruct (spin_form f w om q w0 K S0 A B) as (A' & B' & d & D0 & Q').
  split; [exact A'|]. split; [exact B'|]. exists (d * c). split; [now apply Rmult_lt_0_compat|].
  eapply veq_trans; [exact Q'|]. eapply veq_trans; [|apply qscal_qscal]. apply qscal_ext.
  eapply veq_trans; [apply qmul_ext; [exact Q|apply (cq_spin e s); [exact E|apply veq_refl]]|]. eapply veq_trans; [apply qmul_scal|]. apply qscal_ext.
  eapply veq_trans; [apply qmul_assoc|]. apply qmul_ext; [apply veq_refl|]. rewrite map_app; cbn [map]; rewrite factors_snoc. now apply cq_mul.
Qed.
(** the exact turn *)
Lemma exact_turn t i : (i < 4)%nat -> derivable_pt_lim (fun x => qmul q0 (cq e (turn (s * x))) i) t (quaternion_rate w0 (qmul q0 (cq e (turn (s * t)))) i).
Proof.
  intros Hi. rewrite (rate_half w0 _ i Hi). pose proof (unit_sq e E) as E1. apply is_derive_Reals.
  i4 i Hi; cbv [qmul cq turn q4 fst snd half w0 vscal]; (auto_derive; [trivial|]); set (C := cos (s * t)); set (Sn := sin (s * t)); field_simplify; try (field_simplify [E1]; ring [E1]).
Qed.
End spin.
Lemma comp4 (v : vec) i : (i < 4)%nat -> Rabs (v i) <= norm 4 v.
Proof.
  intros Hi. unfold norm. rewrite <- sqrt_Rsqr_abs. apply sqrt_le_1_alt. cbn [sumn]. unfold Rsqr.
  pose proof (Rle_0_sqr (v 0%nat)). pose proof (Rle_0_sqr (v 1%nat)). pose proof (Rle_0_sqr (v 2%nat)). pose proof (Rle_0_sqr (v 3%nat)). unfold Rsqr in *. i4 i Hi; lra.
Qed.
Lemma spin_error e s q0 ws st h : dot 3 e e = 1 -> unit 4 q0 -> 0 <= s -> 0 <= h -> (s * h) ^ 2 <= 8 -> List.Forall (fun w => 0 <= w <= h) ws -> spinning e s q0 ws st ->
  forall i, (i < 4)%nat -> Rabs (snd st i - qmul q0 (cq e (turn (s * total ws))) i) <= (s * h) ^ 4 / 40 * (s * total ws).
Proof.
  intros E U S0 H0 B F (_ & US & c & C0 & Q) i Hi. destruct (error_sum0 s h ws S0 H0 B F) as (_ & ER).
  set (Z := factors (map (Rmult s) ws)) in *. set (u := turn (s * total ws)) in *.
  assert (N1 : c * Cmod Z = 1).
  { apply norm_unit in US. rewrite (AttitudeProofs.norm_ext 4 _ _ Q), norm_qscal, qmul_norm4, (cq_norm e Z E) in US. apply norm_unit in U. rewrite U, Rabs_pos_eq in US by lra. lra. }
  rewrite Q by exact Hi.
  replace (qscal c (qmul q0 (cq e Z)) i - qmul q0 (cq e u) i) with (qmul q0 (cq e (Cminus (Cmult (RtoC c) Z) u)) i)
    by (i4 i Hi; cbv [qmul qscal cq q4 Cminus Cplus Copp Cmult RtoC fst snd]; ring).
  eapply Rle_trans; [now apply comp4|]. rewrite qmul_norm4, (cq_norm e _ E). apply norm_unit in U. rewrite U, Rmult_1_l.
  replace (Cminus (Cmult (RtoC c) Z) u) with (Cplus (Cmult (RtoC (c - 1)) Z) (Cminus Z u)) by (unfold Cminus; rewrite RtoC_minus; ring).
  eapply Rle_trans; [apply Cmod_triangle|]. rewrite Cmod_mult, Cmod_R.
  assert (UM : Cmod u = 1) by apply turn_mod.
  assert (D : Rabs (c - 1) * Cmod Z <= Cmod (Cminus Z u)).
  { replace (Rabs (c - 1) * Cmod Z) with (Rabs (1 - Cmod Z)).
    - pose proof (Cmod_triangle (Cminus u Z) Z) as T1. replace (Cplus (Cminus u Z) Z) with u in T1 by ring. pose proof (Cmod_triangle (Cminus Z u) u) as T2. replace (Cplus (Cminus Z u) u) with Z in T2 by ring.
      rewrite <- (Cmod_opp (Cminus u Z)) in T1. replace (Copp (Cminus u Z)) with (Cminus Z u) in T1 by ring. apply Rabs_le. lra.
    - rewrite <- (Rabs_pos_eq (Cmod Z)) at 2 by apply Cmod_ge_0. rewrite <- Rabs_mult. f_equal. rewrite Rmult_minus_distr_r, N1. ring. }
  lra.
Qed.
(** the kinematic equation has one solution *)
Lemma turn_unique e s q0 (f : R -> quat) : dot 3 e e = 1 -> (forall t i, (i < 4)%nat -> derivable_pt_lim (fun x => f x i) t (quaternion_rate (vscal (2 * s) e) (f t) i)) ->
  veq 4 (f 0) q0 -> forall T, veq 4 (f T) (qmul q0 (cq e (turn (s * T)))).
Proof.
  intros E D F0 T. set (g := fun t : R => (fun i => f t i - qmul q0 (cq e (turn (s * t))) i) : vec).
  assert (DG : forall t i, (i < 4)%nat -> derivable_pt_lim (fun x => g x i) t (quaternion_rate (vscal (2 * s) e) (g t) i)).
  { intros t i Hi. eapply dpl_eq; [apply dpl_minus; [apply D|apply exact_turn]; assumption|]. unfold quaternion_rate, mvec, g. cbn [sumn]. ring. }
  pose proof (kinematics_norm (fun _ => vscal (2 * s) e) g DG T 0) as K.
  assert (G0 : forall i, (i < 4)%nat -> g 0 i = 0).
  { intros i Hi. unfold g. rewrite F0 by exact Hi. unfold turn. rewrite Rmult_0_r, cos_0, sin_0. i4 i Hi; cbv [qmul cq q4 fst snd]; ring. }
  assert (Z : dot 4 (g T) (g T) = 0). { rewrite K. unfold dot. cbn [sumn]. rewrite !G0 by lia. ring. }
  unfold dot in Z. cbn [sumn] in Z. pose proof (Rle_0_sqr (g T 0%nat)). pose proof (Rle_0_sqr (g T 1%nat)). pose proof (Rle_0_sqr (g T 2%nat)). pose proof (Rle_0_sqr (g T 3%nat)). unfold Rsqr in *.
  intros i Hi. apply Rminus_diag_uniq. change (g T i = 0). i4 i Hi; nra.
Qed.

(** ** Nutation *)
Lemma cross_cross e p i : (i < 3)%nat -> cross e (cross e p) i = dot 3 p e * e i - dot 3 e e * p i.
Proof. intros Hi. unfold dot. rewrite !sumn3. i3 i Hi; cbn [cross]; ring. Qed.
Lemma mvec_lin (m : mat) (a b : R) (u v : vec) i : mvec 3 m (fun j => a * u j + b * v j) i = a * mvec 3 m u i + b * mvec 3 m v i.
Proof. unfold mvec. rewrite !sumn3. ring. Qed.
Lemma mvec_ext m u v i : veq 3 u v -> mvec 3 m u i = mvec 3 m v i.
Proof. intros E. unfold mvec. rewrite !sumn3, !E by lia. reflexivity. Qed.
Lemma revolve inertia e Is It v : of_revolution inertia e Is It -> forall i, (i < 3)%nat -> mvec 3 inertia v i = It * v i + (Is - It) * dot 3 v e * e i.
Proof.
  intros (E & _ & _ & AE & AV) i Hi. set (p := transverse e v).
  assert (P : dot 3 p e = 0). { unfold p, transverse, vsub, vscal. transitivity (dot 3 v e * (1 - dot 3 e e)); [unfold dot; rewrite !sumn3; ring|rewrite E; ring]. }
  rewrite (mvec_ext inertia v (fun j => 1 * p j + dot 3 v e * e j)) by (intros j Hj; unfold p, transverse, vsub, vscal; ring).
  rewrite mvec_lin, AV, AE by assumption. unfold p, transverse, vscal, vsub. ring.
Qed.
Lemma field_nutates inertia inv e Is It torque h d s hw : of_revolution inertia e Is It -> is_inverse 3 inertia inv ->
  veq 3 torque (vconst 0) -> veq 3 d (vconst 0) -> veq 3 h (vscal hw e) ->
  forall y, dot 3 y e = s -> veq 3 (att_deriv inertia inv torque h d y) (vscal (((Is - It) * s + hw) / It) (cross e y)).
Proof.
  intros RV IV T D HH y Y i Hi. unfold att_deriv. rewrite v7_omega by exact Hi. unfold omega7. set (k := (Is - It) * s + hw).
  assert (It0 : 0 < It) by apply RV. assert (E : dot 3 e e = 1) by apply RV.
  assert (N : veq 3 (net_torque inertia torque h d y) (mvec 3 inertia (vscal (k / It) (cross e y)))).
  { intros j Hj. rewrite (revolve inertia e Is It _ RV j Hj).
    assert (Z : dot 3 (vscal (k / It) (cross e y)) e = 0) by (unfold dot, vscal; rewrite sumn3; cbn [cross]; ring). rewrite Z.
    unfold net_torque, vsub. rewrite T, D by exact Hj.
    rewrite (cross_ext y (vadd (mvec 3 inertia y) h) y (fun m => It * y m + k * e m) (veq_refl 3 y)) by (first [exact Hj | intros m Hm; unfold vadd; rewrite (revolve inertia e Is It _ RV m Hm), HH, Y by exact Hm; unfold vscal, k; ring]).
    unfold vscal, vconst. i3 j Hj; cbn [cross]; field; lra. }
  rewrite (mvec_ext inv _ _ i N). exact (inverse_cancel2 inertia inv _ IV i Hi).
Qed.
Section nutation.
Context (e p : vec) (s L : R) (E : dot 3 e e = 1) (P : dot 3 p e = 0).
Definition mix (a b : R) : vec := fun i => s * e i + a * p i + b * cross e p i.
Lemma mix_axis a b : dot 3 (mix a b) e = s.
Proof. unfold mix. transitivity (s * dot 3 e e + a * dot 3 p e); [unfold dot; rewrite !sumn3; cbn [cross]; ring|rewrite E, P; ring]. Qed.
Lemma mix_cross a b i : (i < 3)%nat -> cross e (mix a b) i = a * cross e p i - b * p i.
Proof.
  intros Hi. transitivity (a * cross e p i + b * cross e (cross e p) i); [|rewrite cross_cross, E, P by exact Hi; ring].
  i3 i Hi; unfold mix; cbn [cross]; ring.
Qed.
Lemma dot_ext3 u v w : veq 3 u v -> dot 3 u w = dot 3 v w.
Proof. intro X. unfold dot. rewrite !sumn3, !X by lia. reflexivity. Qed.
Lemma mix_step f dt x a b : (forall y, dot 3 y e = s -> veq 3 (f y) (vscal L (cross e y))) -> veq 3 x (mix a b) ->
  let z := Cmult (a, - b) (rk_factor (L * dt)) in veq 3 (rk_increment f dt x) (mix (fst z) (- snd z)).
Proof.
  intros F X z.
  assert (FM : forall y u v, veq 3 y (mix u v) -> veq 3 (f y) (fun i => L * (u * cross e p i - v * p i))).
  { intros y u v Y i Hi. rewrite F by (try exact Hi; rewrite (dot_ext3 _ _ e Y); apply mix_axis). unfold vscal. rewrite (cross_ext e y e (mix u v) (veq_refl 3 e) Y i Hi), mix_cross by exact Hi. reflexivity. }
  assert (ST : forall k c u v, veq 3 k (fun i => L * (u * cross e p i - v * p i)) -> veq 3 (vadd x (vscal c k)) (mix (a - c * L * v) (b + c * L * u))).
  { intros k c u v K i Hi. unfold vadd, vscal. rewrite X, K by exact Hi. unfold mix. ring. }
  unfold rk_increment. pose proof (FM x a b X) as K1. pose proof (ST _ (dt / 2) _ _ K1) as X2. pose proof (FM _ _ _ X2) as K2.
  pose proof (ST _ (dt / 2) _ _ K2) as X3. pose proof (FM _ _ _ X3) as K3. pose proof (ST _ dt _ _ K3) as X4. pose proof (FM _ _ _ X4) as K4.
  clear X2 X3 X4 FM ST. generalize dependent (f (vadd x (vscal dt (f (vadd x (vscal (dt / 2) (f (vadd x (vscal (dt / 2) (f x)))))))))). intros k4 K4.
  generalize dependent (f (vadd x (vscal (dt / 2) (f (vadd x (vscal (dt / 2) (f x))))))). intros k3 K3. generalize dependent (f (vadd x (vscal (dt / 2) (f x)))). intros k2 K2.
  generalize dependent (f x). intros k1 K1. intros i Hi. unfold vadd, vscal. rewrite X, K1, K2, K3, K4 by exact Hi.
  subst z. unfold Cmult, rk_factor. cbn [fst snd]. unfold mix. field.
Qed.
Definition nutating (ws : list R) (st : vec * quat) : Prop := let z := factors (map (Rmult L) ws) in veq 3 (fst st) (mix (fst z) (- snd z)).
Lemma nutating_step f ws w st : (forall y, dot 3 y e = s -> veq 3 (f y) (vscal L (cross e y))) -> nutating ws st -> nutating (ws ++ [w]) (att_step f w st).
Proof.
  intros F I. unfold nutating in *. cbv zeta in *. rewrite map_app. cbn [map]. rewrite factors_snoc. unfold att_step. cbn [fst]. unfold omega7.
  set (z := factors (map (Rmult L) ws)) in *.
  assert (X : veq 3 (v7 (fst st) (snd st)) (mix (fst z) (- snd z))) by (intros i Hi; rewrite v7_omega by exact Hi; now apply I).
  pose proof (mix_step f w _ _ _ F X) as Y. cbv zeta in Y. replace (fst z, - - snd z) with z in Y by (destruct z; cbn [fst snd]; f_equal; ring). exact Y.
Qed.
Lemma mix_norm a b : norm 3 (fun i => a * p i + b * cross e p i) = sqrt (a ^ 2 + b ^ 2) * norm 3 p.
Proof.
  unfold norm. rewrite <- sqrt_mult_alt by (pose proof (pow2_ge_0 a); pose proof (pow2_ge_0 b); lra). f_equal.
  transitivity (a ^ 2 * dot 3 p p + b ^ 2 * (dot 3 e e * dot 3 p p - dot 3 p e * dot 3 p e)); [unfold dot; rewrite !sumn3; cbn [cross]; ring|]. rewrite E, P. unfold dot. ring.
Qed.
Lemma mix_transverse a b w : veq 3 w (mix a b) -> dot 3 w e = s /\ norm 3 (transverse e w) = sqrt (a ^ 2 + b ^ 2) * norm 3 p.
Proof.
  intros W. assert (A : dot 3 w e = s) by (rewrite (dot_ext3 _ _ e W); apply mix_axis). split; [exact A|]. rewrite <- mix_norm. apply AttitudeProofs.norm_ext.
  intros i Hi. unfold transverse, vsub, vscal. rewrite A, W by exact Hi. unfold mix. ring.
Qed.
Lemma mix_diff a b c d u v : veq 3 u (mix a b) -> veq 3 v (mix c d) -> norm 3 (vsub u v) = sqrt ((a - c) ^ 2 + (b - d) ^ 2) * norm 3 p.
Proof. intros X Y. rewrite <- mix_norm. apply AttitudeProofs.norm_ext. intros i Hi. unfold vsub. rewrite X, Y by exact Hi. unfold mix. ring. Qed.
(** the exact nutation *)
Lemma nutation_unique (f : R -> vec) : (forall t i, (i < 3)%nat -> derivable_pt_lim (fun x => f x i) t (L * cross e (f t) i)) -> veq 3 (f 0) (mix 1 0) ->
  forall T, veq 3 (f T) (mix (cos (L * T)) (sin (L * T))).
Proof.
  intros D F0 T. set (x := fun t => mix (cos (L * t)) (sin (L * t))).
  assert (DX : forall t i, (i < 3)%nat -> derivable_pt_lim (fun r => x r i) t (L * cross e (x t) i)).
  { intros t i Hi. unfold x at 2. rewrite mix_cross by exact Hi. apply is_derive_Reals. unfold x, mix. auto_derive; [trivial|ring]. }
  assert (DG : forall t i, (i < 3)%nat -> derivable_pt_lim (fun r => f r i - x r i) t (L * cross e (fun j => f t j - x t j) i)).
  { intros t i Hi. eapply dpl_eq; [apply dpl_minus; [apply D|apply DX]; exact Hi|]. i3 i Hi; cbn [cross]; ring. }
  assert (K : forall a b, dot 3 (fun j => f a j - x a j) (fun j => f a j - x a j) = dot 3 (fun j => f b j - x b j) (fun j => f b j - x b j)).
  { apply (dpl_constant (fun t => dot 3 (fun j => f t j - x t j) (fun j => f t j - x t j))). intros t. unfold dot.
    eapply dpl_eq; [apply (dpl_sumn 3 (fun r j => (f r j - x r j) * (f r j - x r j)) t (fun j => L * cross e (fun m => f t m - x t m) j * (f t j - x t j) + (f t j - x t j) * (L * cross e (fun m => f t m - x t m) j)))|].
    - intros j Hj. exact (dpl_mult (fun r => f r j - x r j) (fun r => f r j - x r j) t _ _ (DG t j Hj) (DG t j Hj)).
    - rewrite sumn3. cbn [cross]. ring. }
  assert (Z : dot 3 (fun j => f T j - x T j) (fun j => f T j - x T j) = 0).
  { rewrite (K T 0). unfold dot. rewrite sumn3. rewrite !F0 by lia. unfold x. rewrite Rmult_0_r, cos_0, sin_0. ring. }
  unfold dot in Z. rewrite sumn3 in Z. pose proof (Rle_0_sqr (f T 0%nat - x T 0%nat)). pose proof (Rle_0_sqr (f T 1%nat - x T 1%nat)). pose proof (Rle_0_sqr (f T 2%nat - x T 2%nat)). unfold Rsqr in *.
  intros i Hi. apply Rminus_diag_uniq. change (f T i - x T i = 0). i3 i Hi; nra.
Qed.
End nutation.
(** Euler's equations of a body of revolution *)
Lemma euler_nutates inertia e Is It h hw f : of_revolution inertia e Is It -> veq 3 h (vscal hw e) -> euler_motion inertia h f ->
  let s := dot 3 (f 0) e in (forall t, dot 3 (f t) e = s) /\
  forall t i, (i < 3)%nat -> derivable_pt_lim (fun x => f x i) t (((Is - It) * s + hw) / It * cross e (f t) i).
Proof.
  intros RV HH EM s. assert (Is0 : 0 < Is) by apply RV. assert (It0 : 0 < It) by apply RV. assert (E : dot 3 e e = 1) by apply RV.
  assert (CR : forall t i, (i < 3)%nat -> cross (f t) (vadd (mvec 3 inertia (f t)) h) i = ((Is - It) * dot 3 (f t) e + hw) * cross (f t) e i).
  { intros t i Hi. rewrite (cross_ext (f t) (vadd (mvec 3 inertia (f t)) h) (f t) (fun m => It * f t m + ((Is - It) * dot 3 (f t) e + hw) * e m) (veq_refl 3 _)) by (first [exact Hi | intros m Hm; unfold vadd; rewrite (revolve inertia e Is It _ RV m Hm), HH by exact Hm; unfold vscal; ring]).
    i3 i Hi; cbn [cross]; ring. }
  assert (AX : forall t, dot 3 (f t) e = s).
  { intro t. apply Rmult_eq_reg_l with Is; [|lra]. unfold s.
    assert (M : forall r, Is * dot 3 (f r) e = sumn 3 (fun i => mvec 3 inertia (f r) i * e i)).
    { intro r. rewrite sumn3, !(revolve inertia e Is It _ RV) by lia. transitivity (It * dot 3 (f r) e + (Is - It) * dot 3 (f r) e * dot 3 e e); [rewrite E; ring|]. unfold dot at 1 3. rewrite !sumn3. ring. }
    rewrite !M. apply (dpl_constant (fun r => sumn 3 (fun i => mvec 3 inertia (f r) i * e i))). intro r.
    eapply dpl_eq; [apply (dpl_sumn 3 (fun x i => mvec 3 inertia (f x) i * e i) r (fun i => - cross (f r) (vadd (mvec 3 inertia (f r)) h) i * e i))|].
    - intros i Hi. eapply dpl_eq; [apply dpl_mult; [apply EM; exact Hi|apply dpl_const]|cbv beta; ring].
    - rewrite sumn3, !CR by lia. cbn [cross]. ring. }
  split; [exact AX|]. intros t i Hi.
  assert (FE : forall x, f x i = / It * (mvec 3 inertia (f x) i - (Is - It) * s * e i)) by (intro x; rewrite (revolve inertia e Is It _ RV i Hi), AX; field; lra).
  apply is_derive_Reals. apply (is_derive_ext (fun x => / It * (mvec 3 inertia (f x) i - (Is - It) * s * e i))); [intro x; symmetry; apply FE|]. apply is_derive_Reals.
  eapply dpl_eq; [apply (dpl_mult (fun _ => / It)); [apply dpl_const|apply dpl_minus; [apply EM; exact Hi|apply dpl_const]]|].
  cbv beta. rewrite CR, AX by exact Hi. i3 i Hi; cbn [cross]; field; lra.
Qed.
