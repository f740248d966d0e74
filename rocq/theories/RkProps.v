(** Theorems about the numerical integrators (C30, C59). *)
From Coq Require Import Reals Lra Lia List Bool Arith QArith Qreals FunctionalExtensionality.
From Verif Require Import Base RBase VecModel VecProofs LuModel LuProofs InterpSpec OdeModel RkModel RkSpec RkProofs.
Import ListNotations.
Open Scope R_scope.

(** ** C30: order *)
(** every order condition up to the order holds, and the order is not higher *)
Theorem C30_order_conditions :
  (has_order 4 (am rk4) (bw rk4) 4 /\ ~ has_order 4 (am rk4) (bw rk4) 5) /\
  (has_order 6 (am rkf) (bw rkf) 4 /\ ~ has_order 6 (am rkf) (bw rkf) 5 /\ has_order 6 (am rkf) (bh rkf) 5) /\
  (has_order 7 (am dp5) (bw dp5) 4 /\ ~ has_order 7 (am dp5) (bw dp5) 5 /\ has_order 7 (am dp5) (bh dp5) 5).
Proof.
  assert (N : forall s (a : nat -> nat -> Q) (b : nat -> Q), Qeq_bool (sumq s (fun i => b i * swq s a (tall 4) i)%Q) (1 # 120) = false ->
    ~ has_order s (fun i j => Q2R (a i j)) (fun i => Q2R (b i)) 5).
  { intros s a b H O. destruct (tall_order 4) as [A B]. pose proof (O (tall 4) ltac:(lia)) as E. unfold density in E. rewrite A, B in E.
    assert (EQ : Q2R (sumq s (fun i => b i * swq s a (tall 4) i)%Q) = Q2R (1 # 120)).
    { rewrite sumq_R. unfold elementary_weight in E. rewrite (sumn_ext s _ (fun i => Q2R (b i) * stage_weight s (fun i j => Q2R (a i j)) (tall 4) i)).
      - rewrite E. change (5 * fact 4)%nat with 120%nat. unfold Q2R. cbn [Qnum Qden]. rewrite INR_IZR_INZ. cbn [Z.of_nat]. reflexivity.
      - intros i _. now rewrite Q2R_mult, swq_R. }
    apply eqR_Qeq, Qeq_bool_iff in EQ. congruence. }
  destruct rkf_order as [F1 F2]. destruct dp5_order as [D1 D2].
  repeat split; try assumption; try apply rk4_order.
  - apply (N 4%nat (amq rk4) (fun i => nth i (weights rk4) 0%Q)). vm_compute. reflexivity.
  - apply (N 6%nat (amq rkf) (fun i => nth i (weights rkf) 0%Q)). vm_compute. reflexivity.
  - apply (N 7%nat (amq dp5) (fun i => nth i (weights dp5) 0%Q)). vm_compute. reflexivity.
Qed.
Print Assumptions C30_order_conditions.

Lemma row_sums_q s (a : nat -> nat -> Q) (c : nat -> Q) :
  forallb (fun i => Qeq_bool (c i) (sumq s (a i))) (seq 0 s) = true -> row_sums s (fun i j => Q2R (a i j)) (fun i => Q2R (c i)).
Proof.
  intros H i Hi. rewrite forallb_forall in H. specialize (H i ltac:(apply in_seq; lia)). apply Qeq_bool_iff, Qeq_eqR in H.
  rewrite H. apply sumq_R.
Qed.
Lemma rows_rk4 : row_sums 4 (am rk4) (cn rk4).
Proof. apply (row_sums_q 4 (amq rk4) (fun i => nth i (nodes rk4) 0%Q)). vm_compute. reflexivity. Qed.
Lemma rows_rkf : row_sums 6 (am rkf) (cn rkf).
Proof. apply (row_sums_q 6 (amq rkf) (fun i => nth i (nodes rkf) 0%Q)). vm_compute. reflexivity. Qed.
Lemma rows_dp5 : row_sums 7 (am dp5) (cn dp5).
Proof. apply (row_sums_q 7 (amq dp5) (fun i => nth i (nodes dp5) 0%Q)). vm_compute. reflexivity. Qed.
Lemma lower_q (tb : tableau) : forallb (fun i => length (nth i (matrix tb) []) <=? i)%nat (seq 0 (stages tb)) = true -> lower_triangular (stages tb) (am tb).
Proof.
  intros H i j Hi Hj. rewrite forallb_forall in H. specialize (H i ltac:(apply in_seq; lia)). apply Nat.leb_le in H.
  unfold am. rewrite nth_overflow by lia. unfold Q2R. cbn. lra.
Qed.
Lemma lower_rk4 : lower_triangular 4 (am rk4).
Proof. apply (lower_q rk4). reflexivity. Qed.
Lemma lower_rkf : lower_triangular 6 (am rkf).
Proof. apply (lower_q rkf). reflexivity. Qed.
Lemma lower_dp5 : lower_triangular 7 (am dp5).
Proof. apply (lower_q dp5). reflexivity. Qed.
(** the nodes are the row sums and the matrix is strictly lower triangular, so that the order
    conditions apply to equations that depend on the independent variable and the method is explicit *)
Theorem C30_consistent :
  (row_sums 4 (am rk4) (cn rk4) /\ lower_triangular 4 (am rk4)) /\
  (row_sums 6 (am rkf) (cn rkf) /\ lower_triangular 6 (am rkf)) /\
  (row_sums 7 (am dp5) (cn dp5) /\ lower_triangular 7 (am dp5)).
Proof.
  split; [split; [apply rows_rk4|apply lower_rk4]|]. split; [split; [apply rows_rkf|apply lower_rkf]|split; [apply rows_dp5|apply lower_dp5]].
Qed.

(** one step of any of the integrators is a step of the explicit Runge-Kutta method of its table: there
    are slopes k_i with k_i = f(t + c_i h, x + h sum_{j<i} a_ij k_j), the new state is x + h sum_i b_i k_i
    with the weights b (RungeKutta4) or the higher-order weights (the embedded ones), the step is taken
    from the current time by h, the old state is remembered, and the embedded error estimate is the norm
    of the difference of the two results *)
Theorem C30_step : forall (tb : tableau) dim (f : R -> vec -> vec) (st : integrator),
  exists k : nat -> vec,
    (forall i, (i < stages tb)%nat ->
       k i = f (t_cur st + cn tb i * h st) (fun d => x_cur st d + h st * sumn i (fun j => am tb i j * k j d))) /\
    (forall d, x_cur (integrate tb f st) d = x_cur st d + h st * sumn (stages tb) (fun i => bw tb i * k i d)) /\
    (forall d, x_cur (integrate_embedded tb dim f st) d = x_cur st d + h st * sumn (stages tb) (fun i => bh tb i * k i d)) /\
    error (integrate_embedded tb dim f st) = norm dim (fun d => h st * sumn (stages tb) (fun i => (bw tb i - bh tb i) * k i d)) /\
    slope (integrate tb f st) = k /\ slope (integrate_embedded tb dim f st) = k /\
    t_cur (integrate tb f st) = t_cur st + h st /\ t_cur (integrate_embedded tb dim f st) = t_cur st + h st /\
    x_prev (integrate tb f st) = x_cur st /\ x_prev (integrate_embedded tb dim f st) = x_cur st /\
    h (integrate tb f st) = h st /\ h (integrate_embedded tb dim f st) = h st.
Proof.
  intros tb dim f st. exists (calc_slope tb f (h st) (t_cur st) (x_cur st)).
  split; [intros i Hi; now apply slope_eq|]. split; [intros d; apply weighted_eq|]. split; [intros d; apply weighted_eq|].
  split; [|repeat split].
  cbn [error integrate_embedded]. f_equal. apply functional_extensionality. intros d. unfold vsub. rewrite !weighted_eq.
  rewrite (sumn_ext _ (fun i => (bw tb i - bh tb i) * _) (fun i => bw tb i * calc_slope tb f (h st) (t_cur st) (x_cur st) i d - bh tb i * calc_slope tb f (h st) (t_cur st) (x_cur st) i d)) by (intros; ring).
  rewrite sumn_minus. ring.
Qed.
Print Assumptions C30_step.

Lemma INR_step t n h : t + INR n * h + h = t + INR (S n) * h.
Proof. rewrite S_INR. ring. Qed.
Theorem C30_time : forall tb dim f st n,
  t_cur (Nat.iter n (integrate tb f) st) = t_cur st + INR n * h st /\
  t_cur (Nat.iter n (integrate_embedded tb dim f) st) = t_cur st + INR n * h st.
Proof.
  intros tb dim f st n.
  assert (A : forall g : integrator -> integrator, (forall s, t_cur (g s) = t_cur s + h s /\ h (g s) = h s) ->
    t_cur (Nat.iter n g st) = t_cur st + INR n * h st /\ h (Nat.iter n g st) = h st).
  { intros g G. induction n as [|m [I1 I2]]; [split; [cbn; ring|reflexivity]|]. change (Nat.iter (S m) g st) with (g (Nat.iter m g st)). destruct (G (Nat.iter m g st)) as [G1 G2].
    rewrite G1, G2, I1, I2. split; [apply INR_step|reflexivity]. }
  split; apply A; intros s; split; reflexivity.
Qed.

(** when the right-hand side depends on the independent variable only and the solution P is a
    polynomial of degree at most p in every component, p steps (any number n of them, any step width)
    follow it exactly: p = 4 for RungeKutta4, 5 for the embedded methods *)
Lemma exact_iter tb dim p f (P : nat -> list R) (g : integrator -> integrator) (b : nat -> R) :
  has_order (stages tb) (am tb) b p -> row_sums (stages tb) (am tb) (cn tb) ->
  (forall s, t_cur (g s) = t_cur s + h s /\ h (g s) = h s /\ x_cur (g s) = weighted tb b (h s) (x_cur s) (calc_slope tb f (h s) (t_cur s) (x_cur s))) ->
  (forall d, (d < dim)%nat -> (length (P d) <= S p)%nat) ->
  (forall t x d, (d < dim)%nat -> derivable_pt_lim (peval (P d)) t (f t x d)) ->
  forall st n, (forall d, (d < dim)%nat -> x_cur st d = peval (P d) (t_cur st)) ->
  forall d, (d < dim)%nat -> x_cur (Nat.iter n g st) d = peval (P d) (t_cur st + INR n * h st).
Proof.
  intros O RS G L D st n X d Hd.
  assert (I : t_cur (Nat.iter n g st) = t_cur st + INR n * h st /\ h (Nat.iter n g st) = h st /\
    x_cur (Nat.iter n g st) d = peval (P d) (t_cur st + INR n * h st)); [|tauto].
  induction n as [|m (I1 & I2 & I3)]; [change (Nat.iter 0 g st) with st|change (Nat.iter (S m) g st) with (g (Nat.iter m g st))].
  - cbn [INR]. replace (t_cur st + 0 * h st) with (t_cur st) by ring. auto.
  - destruct (G (Nat.iter m g st)) as (G1 & G2 & G3). rewrite G1, G2, G3, I1, I2. split; [apply INR_step|]. split; [reflexivity|].
    rewrite weighted_eq. rewrite (sumn_ext _ _ (fun i => b i * pder (P d) (t_cur st + INR m * h st + cn tb i * h st))).
    + rewrite (quadrature (stages tb) b (cn tb) p (moment _ _ _ _ _ O RS)) by (now apply L). rewrite I3, <- INR_step. ring.
    + intros i Hi. f_equal. rewrite slope_eq by exact Hi. eapply uniqueness_limite; [apply D; exact Hd|apply pder_derivative].
Qed.
Theorem C30_exact_on_polynomial_solutions : forall dim f (P : nat -> list R) st n,
  (forall t x d, (d < dim)%nat -> derivable_pt_lim (peval (P d)) t (f t x d)) ->
  (forall d, (d < dim)%nat -> x_cur st d = peval (P d) (t_cur st)) ->
  ((forall d, (d < dim)%nat -> (length (P d) <= 5)%nat) ->
     forall d, (d < dim)%nat -> x_cur (Nat.iter n (integrate rk4 f) st) d = peval (P d) (t_cur st + INR n * h st)) /\
  ((forall d, (d < dim)%nat -> (length (P d) <= 6)%nat) ->
     forall d, (d < dim)%nat ->
       x_cur (Nat.iter n (integrate_embedded rkf dim f) st) d = peval (P d) (t_cur st + INR n * h st) /\
       x_cur (Nat.iter n (integrate_embedded dp5 dim f) st) d = peval (P d) (t_cur st + INR n * h st)).
Proof.
  intros dim f P st n D X. split; [intros L d Hd|intros L d Hd; split].
  - apply (exact_iter rk4 dim 4 f P _ (bw rk4)); auto; [apply rk4_order|apply rows_rk4].
  - apply (exact_iter rkf dim 5 f P _ (bh rkf)); auto; [apply rkf_order|apply rows_rkf].
  - apply (exact_iter dp5 dim 5 f P _ (bh dp5)); auto; [apply dp5_order|apply rows_dp5].
Qed.
Print Assumptions C30_exact_on_polynomial_solutions.

(** on x' = A x, of any dimension, the step is the polynomial of h A whose coefficients agree with
    those of the exponential up to the order; the remaining coefficients are constants of the table *)
Lemma linear_step tb b p : has_order (stages tb) (am tb) b p -> lower_triangular (stages tb) (am tb) ->
  exists c : nat -> R, (forall k, (k <= p)%nat -> c k = 1 / INR (fact k)) /\
    forall n (A : mat) hh t (x : vec) d,
      weighted tb b hh x (calc_slope tb (fun _ y => mvec n A y) hh t x) d = sumn (S (stages tb)) (fun k => c k * hh ^ k * mpow_vec n A k x d).
Proof.
  intros O LT. exists (fun k => match k with O => 1 | S m => elementary_weight (stages tb) (am tb) b (tall m) end). split.
  - intros [|m] Hk; [cbn; lra|]. apply (tall_sum _ _ _ _ O). lia.
  - intros n A hh t x d. rewrite weighted_linear by exact LT.
    change (S (stages tb)) with (1 + stages tb)%nat. rewrite sumn_app. f_equal; [cbn; ring|]. apply sumn_ext. intros m _. cbn [Nat.add]. ring.
Qed.
Theorem C30_linear_equations :
  (forall n (A : mat) st d, x_cur (integrate rk4 (fun _ y => mvec n A y) st) d = taylor n A (h st) 4 (x_cur st) d) /\
  (exists c, (forall k, (k <= 5)%nat -> c k = 1 / INR (fact k)) /\
     forall n (A : mat) st d, x_cur (integrate_embedded rkf n (fun _ y => mvec n A y) st) d =
       sumn 7 (fun k => c k * h st ^ k * mpow_vec n A k (x_cur st) d)) /\
  (exists c, (forall k, (k <= 5)%nat -> c k = 1 / INR (fact k)) /\
     forall n (A : mat) st d, x_cur (integrate_embedded dp5 n (fun _ y => mvec n A y) st) d =
       sumn 8 (fun k => c k * h st ^ k * mpow_vec n A k (x_cur st) d)).
Proof.
  split; [|split].
  - intros n A st d. destruct (linear_step rk4 (bw rk4) 4 rk4_order lower_rk4) as (c & C & E). cbn [integrate x_cur]. rewrite E. unfold taylor.
    apply sumn_ext. intros k Hk. rewrite C by (cbn in Hk; lia). unfold Rdiv. ring.
  - destruct (linear_step rkf (bh rkf) 5 (proj2 rkf_order) lower_rkf) as (c & C & E). exists c. split; [exact C|]. intros n A st d. apply E.
  - destruct (linear_step dp5 (bh dp5) 5 (proj2 dp5_order) lower_dp5) as (c & C & E). exists c. split; [exact C|]. intros n A st d. apply E.
Qed.
Print Assumptions C30_linear_equations.

(** OrdinaryDifferentialEquation::Update is the same method as RungeKutta4::Integrate *)
Theorem C30_two_implementations_agree : forall (f : R -> vec -> vec) st dv,
  let o := fst (ode_update (S := unit) (fun w t x => (f t x, w)) tt (mkOde (t_cur st) (x_cur st) dv (h st))) in
  indep o = t_cur (integrate rk4 f st) /\ forall d, state o d = x_cur (integrate rk4 f st) d.
Proof.
  intros f st dv. cbn [ode_update fst step_width OdeModel.state indep]. split; [reflexivity|]. intros d.
  cbn [integrate x_cur]. rewrite weighted_eq. cbn [stages rk4 sumn].
  assert (V : bw rk4 0 = 1 / 6 /\ bw rk4 1 = 1 / 3 /\ bw rk4 2 = 1 / 3 /\ bw rk4 3 = 1 / 6) by (unfold bw, Q2R; cbn; lra).
  destruct V as (-> & -> & -> & ->).
  set (hh := h st). set (t := t_cur st). set (x := x_cur st).
  assert (K0 : calc_slope rk4 f hh t x 0 = f t x).
  { rewrite slope_eq by (cbn; lia). f_equal; [unfold cn, Q2R; cbn; lra|]. apply functional_extensionality. intros e. cbn [sumn]. ring. }
  assert (K1 : calc_slope rk4 f hh t x 1 = f (t + 5 / 10 * hh) (vadd x (vscal (5 / 10) (vscal hh (f t x))))).
  { rewrite slope_eq by (cbn; lia). f_equal; [unfold cn, Q2R; cbn; lra|]. apply functional_extensionality. intros e. cbn [sumn]. rewrite K0.
    unfold am, Q2R, vadd, vscal. cbn [nth matrix rk4 Qnum Qden]. field. }
  assert (K2 : calc_slope rk4 f hh t x 2 = f (t + 5 / 10 * hh) (vadd x (vscal (5 / 10) (vscal hh (calc_slope rk4 f hh t x 1))))).
  { rewrite slope_eq by (cbn; lia). f_equal; [unfold cn, Q2R; cbn; lra|]. apply functional_extensionality. intros e. cbn [sumn].
    unfold am, Q2R, vadd, vscal. cbn [nth matrix rk4 Qnum Qden]. field. }
  assert (K3 : calc_slope rk4 f hh t x 3 = f (t + hh) (vadd x (vscal hh (calc_slope rk4 f hh t x 2)))).
  { rewrite slope_eq by (cbn; lia). f_equal; [unfold cn, Q2R; cbn; lra|]. apply functional_extensionality. intros e. cbn [sumn].
    unfold am, Q2R, vadd, vscal. cbn [nth matrix rk4 Qnum Qden]. field. }
  rewrite K3, K2, K1, K0. cbv beta delta [vadd vscal]. field.
Qed.
Print Assumptions C30_two_implementations_agree.

(** ** C59: dense output and step width control *)
(** the table of RungeKuttaFehlberg with the stage added for interpolation: state_7 is
    x + h (k_0/6 + k_4/6 + 2/3 k_5), evaluated at t + h *)
Definition rkf7 : tableau := mkTableau 7 4 (nodes rkf ++ [1%Q]) [] [] (matrix rkf ++ [[1 # 6; 0; 0; 0; 1 # 6; 2 # 3]%Q]).

Ltac dense_case am_q :=
  unfold elementary_weight;
  match goal with |- sumn 7 (fun i => ?w i * stage_weight 7 ?a ?t i) = _ =>
    let sw := fresh "sw" in let E := fresh "E" in
    pose (sw := swq 7 am_q t);
    assert (E : forall i, stage_weight 7 a t i = Q2R (sw i)) by (intros i; symmetry; apply (swq_R 7 am_q t i));
    rewrite (sumn_ext 7 _ (fun i => w i * Q2R (sw i))) by (intros i _; now rewrite E);
    clear E; cbn [sumn];
    let q0 := eval vm_compute in (sw 0%nat) in change (sw 0%nat) with q0;
    let q1 := eval vm_compute in (sw 1%nat) in change (sw 1%nat) with q1;
    let q2 := eval vm_compute in (sw 2%nat) in change (sw 2%nat) with q2;
    let q3 := eval vm_compute in (sw 3%nat) in change (sw 3%nat) with q3;
    let q4 := eval vm_compute in (sw 4%nat) in change (sw 4%nat) with q4;
    let q5 := eval vm_compute in (sw 5%nat) in change (sw 5%nat) with q5;
    let q6 := eval vm_compute in (sw 6%nat) in change (sw 6%nat) with q6;
    clear sw
  end.
Lemma rkf_dense : has_dense_order 7 (am rkf7) rkf_weight 4.
Proof.
  intros sigma t L. apply trees_all in L. cbn [trees flat_map app order Nat.leb Nat.add] in L.
  repeat (destruct L as [<-|L]; [(dense_case (amq rkf7); unfold rkf_weight, Q2R; cbn [Qnum Qden order density branches Nat.mul Nat.add Nat.sub INR pow]; field)|]). 
  destruct L.
Qed.
Definition dp5_red : list (list Q) := Eval vm_compute in map (map Qred) dp5_coefficients.
Lemma dp5_weight_red sigma i : dp5_weight sigma i =
  if (i <? 6)%nat then for_ 5 0 (fun j w => w + sigma ^ j * Q2R (nth j (nth i dp5_red []) 0%Q)) 0
  else sigma * (1 - sigma) * (8293050 * sigma ^ 2 - 82437520 * sigma + 44764047) / 29380423.
Proof.
  unfold dp5_weight. destruct (i <? 6)%nat; [|reflexivity]. apply for_ext. intros j w _. f_equal. f_equal.
  change dp5_red with (map (map Qred) dp5_coefficients).
  change ([] : list Q) with (map Qred []) at 2. rewrite map_nth. change 0%Q with (Qred 0) at 2. rewrite map_nth.
  symmetry. apply Qeq_eqR, Qred_correct.
Qed.
Lemma dp5_dense : has_dense_order 7 (am dp5) dp5_weight 4.
Proof.
  intros sigma t L. apply trees_all in L. cbn [trees flat_map app order Nat.leb Nat.add] in L.
  repeat (destruct L as [<-|L]; [(dense_case (amq dp5); rewrite !dp5_weight_red; unfold dp5_red, Q2R; cbn [Nat.ltb Nat.leb for_ nth Qnum Qden order density branches Nat.mul Nat.add Nat.sub INR pow];
     field)|]). 
  destruct L.
Qed.
Lemma k7_slopes f hh t x : forall i, (i < 6)%nat -> calc_slope rkf7 f hh t x i = calc_slope rkf f hh t x i.
Proof.
  intros i. induction i as [i IH] using lt_wf_ind. intros Hi.
  rewrite (slope_eq rkf7) by (cbn; lia). rewrite (slope_eq rkf) by (cbn; lia).
  assert (C : cn rkf7 i = cn rkf i). { unfold cn, rkf7. cbn [nodes]. rewrite app_nth1; [reflexivity|cbn; lia]. }
  rewrite C. f_equal. apply functional_extensionality. intros d. f_equal. f_equal. apply sumn_ext. intros j Hj. rewrite IH by lia. f_equal.
  unfold am, rkf7. cbn [matrix]. rewrite (app_nth1 (matrix rkf)); [reflexivity|cbn; lia].
Qed.
(** the state interpolated at the fraction sigma of the last step is x + sigma h sum_i b_i(sigma) k_i
    with the slopes of that step (for Fehlberg's method with one more stage), and these weights satisfy
    all order conditions of order 4 for every sigma *)
Theorem C59_dense_output : forall dim (f : R -> vec -> vec) st,
  (has_dense_order 7 (am rkf7) rkf_weight 4 /\ row_sums 7 (am rkf7) (cn rkf7) /\
   exists k : nat -> vec,
     (forall i, (i < 7)%nat -> k i = f (t_cur st + cn rkf7 i * h st) (fun d => x_cur st d + h st * sumn i (fun j => am rkf7 i j * k j d))) /\
     forall sigma d, rkf_interpolate rkf f (integrate_embedded rkf dim f st) sigma d =
       x_cur st d + sigma * h st * sumn 7 (fun i => rkf_weight sigma i * k i d)) /\
  (has_dense_order 7 (am dp5) dp5_weight 4 /\
   exists k : nat -> vec,
     (forall i, (i < 7)%nat -> k i = f (t_cur st + cn dp5 i * h st) (fun d => x_cur st d + h st * sumn i (fun j => am dp5 i j * k j d))) /\
     forall sigma d, dp5_interpolate dp5 (integrate_embedded dp5 dim f st) sigma d =
       x_cur st d + sigma * h st * sumn 7 (fun i => dp5_weight sigma i * k i d)).
Proof.
  intros dim f st. split.
  - split; [apply rkf_dense|]. split.
    { apply (row_sums_q 7 (amq rkf7) (fun i => nth i (nodes rkf7) 0%Q)). vm_compute. reflexivity. }
    exists (calc_slope rkf7 f (h st) (t_cur st) (x_cur st)). split; [intros i Hi; now apply slope_eq|]. intros sigma d.
    unfold rkf_interpolate. cbn [integrate_embedded x_prev slope h t_cur].
    set (k := calc_slope rkf f (h st) (t_cur st) (x_cur st)).
    assert (K7 : calc_slope rkf7 f (h st) (t_cur st) (x_cur st) 6 =
      f (t_cur st + h st) (vadd (x_cur st) (vscal (h st) (vadd (vadd (vscal (1 / 6) (k 0%nat)) (vscal (1 / 6) (k 4%nat))) (vscal (2 / 3) (k 5%nat)))))).
    { rewrite slope_eq by (cbn; lia). f_equal; [unfold cn, Q2R; cbn; lra|]. apply functional_extensionality. intros e.
      cbn [sumn]. rewrite !k7_slopes by lia. fold k. unfold am, rkf7, Q2R. cbn [matrix rkf app nth Qnum Qden]. unfold vadd, vscal. field. }
    rewrite <- K7.
    match goal with |- vadd ?u (vscal ?c (vscal ?e ?w)) d = _ => change (vadd u (vscal c (vscal e w)) d) with (u d + c * (e * w d)) end. rewrite for_vadd. cbn [stages rkf Nat.add]. cbn [sumn].
    rewrite (k7_slopes f _ _ _ 0), (k7_slopes f _ _ _ 1), (k7_slopes f _ _ _ 2), (k7_slopes f _ _ _ 3), (k7_slopes f _ _ _ 4), (k7_slopes f _ _ _ 5) by lia. fold k. ring.
  - split; [apply dp5_dense|]. exists (calc_slope dp5 f (h st) (t_cur st) (x_cur st)). split; [intros i Hi; now apply slope_eq|]. intros sigma d.
    unfold dp5_interpolate. cbn [integrate_embedded x_prev slope h t_cur]. rewrite for_vadd. cbn [Nat.add]. rewrite <- sumn_scal. f_equal. apply sumn_ext. intros; ring.
Qed.
Print Assumptions C59_dense_output.

Lemma rkf_at_1 i : (i < 6)%nat -> rkf_weight 1 i = bh rkf i.
Proof. intros Hi. do 6 (destruct i as [|i]; [unfold rkf_weight, bh, Q2R; cbn [nth higher rkf Qnum Qden]; field|]). lia. Qed.
Lemma dp5_at_1 i : (i < 7)%nat -> dp5_weight 1 i = bh dp5 i.
Proof.
  intros Hi. do 7 (destruct i as [|i]; [rewrite dp5_weight_red; unfold dp5_red, bh, Q2R;
   cbn [Nat.ltb Nat.leb for_ nth higher dp5 Qnum Qden pow]; field|]). lia.
Qed.
(** the interpolation starts at the old state and ends at the new one *)
Definition with_step (w : R) (s : integrator) : integrator := mkInt w (t_cur s) (x_cur s) (x_prev s) (slope s) (error s).
Lemma interpolation_ends dim f st w d :
  h st * (rkf_interpolate rkf f (with_step w (integrate_embedded rkf dim f st)) 1 d - x_cur st d) =
    w * (x_cur (integrate_embedded rkf dim f st) d - x_cur st d) /\
  h st * (dp5_interpolate dp5 (with_step w (integrate_embedded dp5 dim f st)) 1 d - x_cur st d) =
    w * (x_cur (integrate_embedded dp5 dim f st) d - x_cur st d).
Proof.
  split.
  - unfold rkf_interpolate. cbn [integrate_embedded with_step x_prev slope h t_cur x_cur]. 
    match goal with |- context [vadd ?u (vscal ?c (vscal ?e ?w)) d] => change (vadd u (vscal c (vscal e w)) d) with (u d + c * (e * w d)) end.
    rewrite for_vadd, weighted_eq. cbn [Nat.add].
    rewrite (sumn_ext (stages rkf) (fun i => 1 * w * rkf_weight 1 i * _) (fun i => w * (bh rkf i * calc_slope rkf f (h st) (t_cur st) (x_cur st) i d))).
    + rewrite sumn_scal. replace (rkf_weight 1 6) with 0 by (unfold rkf_weight; field). ring.
    + intros i Hi. rewrite rkf_at_1 by exact Hi. ring.
  - unfold dp5_interpolate. cbn [integrate_embedded with_step x_prev slope h t_cur x_cur]. rewrite for_vadd, weighted_eq. cbn [Nat.add].
    rewrite (sumn_ext (stages dp5) (fun i => 1 * w * dp5_weight 1 i * _) (fun i => w * (bh dp5 i * calc_slope dp5 f (h st) (t_cur st) (x_cur st) i d))).
    + rewrite sumn_scal. ring.
    + intros i Hi. rewrite dp5_at_1 by exact Hi. ring.
Qed.
Theorem C59_interpolation_ends : forall dim f st d, h st <> 0 ->
  rkf_interpolate rkf f (integrate_embedded rkf dim f st) 0 d = x_cur st d /\
  rkf_interpolate rkf f (integrate_embedded rkf dim f st) 1 d = x_cur (integrate_embedded rkf dim f st) d /\
  dp5_interpolate dp5 (integrate_embedded dp5 dim f st) 0 d = x_cur st d /\
  dp5_interpolate dp5 (integrate_embedded dp5 dim f st) 1 d = x_cur (integrate_embedded dp5 dim f st) d.
Proof.
  intros dim f st d NZ. destruct (interpolation_ends dim f st (h st) d) as [A B].
  change (with_step (h st) (integrate_embedded rkf dim f st)) with (integrate_embedded rkf dim f st) in A.
  change (with_step (h st) (integrate_embedded dp5 dim f st)) with (integrate_embedded dp5 dim f st) in B.
  apply Rmult_eq_reg_l in A; [|exact NZ]. apply Rmult_eq_reg_l in B; [|exact NZ].
  destruct (C59_dense_output dim f st) as ((_ & _ & k & _ & E) & (_ & k' & _ & E')).
  split; [rewrite E; ring|]. split; [lra|]. split; [rewrite E'; ring|lra].
Qed.
(** once ControlStepWidth has changed the step width, interpolating the last step scales it by the ratio
    of the widths: it no longer ends at the current state *)
Theorem C59_interpolation_after_control_refuted : forall dim f st w d, h st <> 0 -> w <> h st ->
  (x_cur (integrate_embedded rkf dim f st) d <> x_cur st d ->
   rkf_interpolate rkf f (with_step w (integrate_embedded rkf dim f st)) 1 d <> x_cur (integrate_embedded rkf dim f st) d) /\
  (x_cur (integrate_embedded dp5 dim f st) d <> x_cur st d ->
   dp5_interpolate dp5 (with_step w (integrate_embedded dp5 dim f st)) 1 d <> x_cur (integrate_embedded dp5 dim f st) d).
Proof.
  intros dim f st w d NZ NW. destruct (interpolation_ends dim f st w d) as [A B].
  split; intros NE E; [rewrite E in A|rewrite E in B];
  match goal with H : h st * ?a = w * ?a |- _ => assert ((h st - w) * a = 0) as M by lra; apply Rmult_integral in M; destruct M; lra end.
Qed.
(** RungeKutta4 ignores sigma *)
Theorem C59_rk4_does_not_interpolate : forall f st sigma, rk4_interpolate (integrate rk4 f st) sigma = x_cur (integrate rk4 f st).
Proof. reflexivity. Qed.
Print Assumptions C59_interpolation_ends. Print Assumptions C59_interpolation_after_control_refuted.

(** ControlStepWidth *)
Lemma Rpower_inv_pow x n : 0 < x -> Rpower x (1 / INR (S n)) ^ S n = x.
Proof.
  intros Hx. rewrite <- Rpower_pow by (unfold Rpower; apply exp_pos). rewrite Rpower_mult.
  replace (1 / INR (S n) * INR (S n)) with 1 by (field; apply not_0_INR; lia). now apply Rpower_1.
Qed.
Theorem C59_step_width : forall tb s tol, 0 < h s -> 0 < error s -> 0 < tol ->
  exists w, control_step_width tb s tol = Some (with_step w s) /\ 0 < w /\
    error s * w ^ (order_p tb + 1) = tol * h s ^ (order_p tb + 1).
Proof.
  intros tb s tol Hh He Ht. unfold control_step_width. assert (Q : 0 < tol / error s) by (apply Rdiv_lt_0_compat; assumption).
  rewrite (req_false (error s)) by lra. rewrite rlt_false by lra. rewrite req_false by lra.
  set (w := Rpower (tol / error s) (1 / INR (order_p tb + 1)) * h s).
  assert (W : 0 < w) by (apply Rmult_lt_0_compat; [unfold Rpower; apply exp_pos|assumption]).
  rewrite rle_false by exact W. exists w. split; [reflexivity|]. split; [exact W|]. unfold w. rewrite Rpow_mult_distr.
  replace (order_p tb + 1)%nat with (S (order_p tb)) by lia. rewrite Rpower_inv_pow by exact Q. field. lra.
Qed.
(** a zero error (met whenever both solutions are exact, for example on a constant right-hand side) or a
    negative tolerance makes the step width infinite or not a number *)
Theorem C59_zero_error_refuted : forall tol s v, let f := (fun _ _ => v) : R -> vec -> vec in
  control_step_width rkf (integrate_embedded rkf 1 f s) tol = None /\ control_step_width dp5 (integrate_embedded dp5 1 f s) tol = None.
Proof.
  intros tol s v f.
  assert (Z : forall tb, sumn (stages tb) (fun i => bw tb i - bh tb i) = 0 -> error (integrate_embedded tb 1 f s) = 0).
  { intros tb Z. destruct (C30_step tb 1 f s) as (k & K & _ & _ & E & _). rewrite E. apply norm_zero_vec. intros d _.
    rewrite (sumn_ext _ _ (fun i => (bw tb i - bh tb i) * v d)) by (intros i Hi; now rewrite K). rewrite sumn_scal_r, Z. ring. }
  split; unfold control_step_width; rewrite Z; try (rewrite req_true; reflexivity).
  - cbn [sumn stages rkf]. unfold bw, bh, Q2R. cbn [nth weights higher rkf Qnum Qden]. field.
  - cbn [sumn stages dp5]. unfold bw, bh, Q2R. cbn [nth weights higher dp5 Qnum Qden]. field.
Qed.
(** x' = t^4 from t = 0 has an estimated error of exactly c h^5, c a constant of the method.  For
    RungeKuttaFehlberg, repeating the step with the controlled width gives exactly the tolerance.
    DormandPrince5 controls with the exponent of order 5 although its estimate is of order 4 too: a step
    whose error exceeded the tolerance exceeds it again with the controlled width *)
Definition quartic : R -> vec -> vec := fun t _ => vconst (t ^ 4).
Lemma quartic_error tb w x y k e : 0 < w ->
  error (integrate_embedded tb 1 quartic (mkInt w 0 x y k e)) =
  Rabs (sumn (stages tb) (fun i => (bw tb i - bh tb i) * cn tb i ^ 4)) * w ^ 5.
Proof.
  intros W. destruct (C30_step tb 1 quartic (mkInt w 0 x y k e)) as (sl & K & _ & _ & E & _). rewrite E. cbn [h t_cur] in *.
  unfold norm. cbn [sumn]. rewrite Rplus_0_l.
  rewrite (sumn_ext _ _ (fun i => (bw tb i - bh tb i) * cn tb i ^ 4 * w ^ 4)).
  - rewrite sumn_scal_r. set (C := sumn _ _). fold (Rsqr (w * (C * w ^ 4))). rewrite sqrt_Rsqr_abs.
    replace (w * (C * w ^ 4)) with (C * w ^ 5) by ring. rewrite Rabs_mult. f_equal. apply Rabs_pos_eq. apply pow_le. lra.
  - intros i Hi. rewrite K by exact Hi. unfold quartic, vconst. ring.
Qed.
Lemma pow_lt_reg n a b : 0 <= b -> a ^ S n < b ^ S n -> a < b.
Proof. intros Hb H. destruct (Rlt_dec a b); [assumption|]. exfalso. assert (b ^ S n <= a ^ S n) by (apply pow_incr; lra). lra. Qed.
Theorem C59_controlled_error : forall w x tol, 0 < w -> 0 < tol ->
  let s := mkInt w 0 x x (fun _ => vconst 0) 0 in
  (exists s', control_step_width rkf (integrate_embedded rkf 1 quartic s) tol = Some s' /\
     error (integrate_embedded rkf 1 quartic (set_state s' 0 x)) = tol) /\
  (exists s', control_step_width dp5 (integrate_embedded dp5 1 quartic s) tol = Some s' /\
     let e := error (integrate_embedded dp5 1 quartic s) in let e' := error (integrate_embedded dp5 1 quartic (set_state s' 0 x)) in
     e' ^ 6 = e * tol ^ 5 /\ (tol < e -> tol < e' < e)).
Proof.
  intros w x tol W T s.
  assert (CF : 0 < Rabs (sumn (stages rkf) (fun i => (bw rkf i - bh rkf i) * cn rkf i ^ 4))).
  { apply Rabs_pos_lt. cbn [sumn stages rkf]. unfold bw, bh, cn, Q2R. cbn [nth weights higher nodes rkf Qnum Qden]. lra. }
  assert (CD : 0 < Rabs (sumn (stages dp5) (fun i => (bw dp5 i - bh dp5 i) * cn dp5 i ^ 4))).
  { apply Rabs_pos_lt. cbn [sumn stages dp5]. unfold bw, bh, cn, Q2R. cbn [nth weights higher nodes dp5 Qnum Qden]. lra. }
  assert (P5 : 0 < w ^ 5) by (apply pow_lt; exact W). split.
  - pose proof (quartic_error rkf w x x (fun _ => vconst 0) 0 W) as E. fold s in E.
    destruct (C59_step_width rkf (integrate_embedded rkf 1 quartic s) tol) as (v & EV & V & F); [exact W|rewrite E; now apply Rmult_lt_0_compat|exact T|].
    eexists. split; [exact EV|]. unfold set_state. cbn [with_step h slope error]. rewrite quartic_error by exact V.
    rewrite E in F. cbn [order_p rkf Nat.add] in F. change (h (integrate_embedded rkf 1 quartic s)) with w in F. nra.
  - pose proof (quartic_error dp5 w x x (fun _ => vconst 0) 0 W) as E. fold s in E. clear CF. set (C := Rabs (sumn (stages dp5) (fun i => (bw dp5 i - bh dp5 i) * cn dp5 i ^ 4))) in *.
    destruct (C59_step_width dp5 (integrate_embedded dp5 1 quartic s) tol) as (v & EV & V & F); [exact W|rewrite E; now apply Rmult_lt_0_compat|exact T|].
    eexists. split; [exact EV|]. unfold set_state. cbn [with_step h slope error]. rewrite quartic_error by exact V. fold C. cbv zeta. rewrite E in *.
    cbn [order_p dp5 Nat.add] in F. change (h (integrate_embedded dp5 1 quartic s)) with w in F. fold C in F. fold C.
    assert (K : (C * v ^ 5) ^ 6 = C * w ^ 5 * tol ^ 5).
    { assert (w <> 0) by lra. assert (F' : C * v ^ 6 = tol * w). { apply (Rmult_eq_reg_r (w ^ 5)); [|lra]. transitivity (C * w ^ 5 * v ^ 6); [ring|]. rewrite F. ring. }
      replace ((C * v ^ 5) ^ 6) with (C * (C * v ^ 6) ^ 5) by ring. rewrite F'. ring. }
    split; [exact K|]. intros L. assert (EP : 0 < C * w ^ 5) by (now apply Rmult_lt_0_compat). assert (T5 : 0 < tol ^ 5) by (now apply pow_lt).
    split; apply (pow_lt_reg 5); try (apply Rlt_le, Rmult_lt_0_compat; [assumption|now apply pow_lt]); rewrite K.
    + replace (tol ^ 6) with (tol * tol ^ 5) by ring. now apply Rmult_lt_compat_r.
    + replace ((C * w ^ 5) ^ 6) with ((C * w ^ 5) * (C * w ^ 5) ^ 5) by ring. apply Rmult_lt_compat_l; [exact EP|].
      assert (M : forall n, tol ^ S n < (C * w ^ 5) ^ S n).
      { induction n as [|n IH]; [rewrite !pow_1; exact L|]. cbn [pow] in *. apply Rmult_gt_0_lt_compat; try lra. apply Rmult_lt_0_compat; [exact T|apply pow_lt; exact T]. }
      apply (M 4%nat).
Qed.
Print Assumptions C59_step_width. Print Assumptions C59_zero_error_refuted. Print Assumptions C59_controlled_error.

(** the hypotheses are met: three steps of width 1/2 on x' = (4 t^3, 1) *)
Example ex_exact : let f : R -> vec -> vec := fun t _ => v3 (4 * t ^ 3) 1 0 in
  x_cur (Nat.iter 3 (integrate rk4 f) (mkInt (1 / 2) 0 (vconst 0) (vconst 0) (fun _ => vconst 0) 0)) 0%nat = 81 / 16.
Proof.
  intros f. set (st := mkInt _ _ _ _ _ _). set (P := fun d : nat => match d with 0%nat => [0; 0; 0; 0; 1] | 1%nat => [0; 1] | _ => [] end).
  destruct (C30_exact_on_polynomial_solutions 3 f P st 3) as [A _].
  - intros t x d Hd. replace (f t x d) with (pder (P d) t); [apply pder_derivative|].
    destruct d as [|[|[|d]]]; try lia; unfold f, P; cbn [v3 pder peval]; ring.
  - intros d Hd. destruct d as [|[|[|d]]]; try lia; unfold st, P, vconst; cbn [x_cur t_cur peval]; ring.
  - rewrite A; [|intros d Hd; destruct d as [|[|[|d]]]; cbn; lia|lia]. cbn [P peval st t_cur h INR]. field.
Qed.
