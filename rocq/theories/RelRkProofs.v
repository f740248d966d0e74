(** Proofs about the relative orbit integrated by Runge-Kutta. *)
From Coq Require Import Reals Lra Lia List Bool Arith.
From Coquelicot Require Import Coquelicot.
From Verif Require Import Base RBase VecModel VecProofs QuatModel QuatSpec QuatProofs OdeModel OrbitModel OrbitSpec OrbitRunSpec
  HillProofs PropagateProofs RkOrbitProofs RelRkSpec.
Import ListNotations.
Open Scope R_scope.

(** ** Taylor bounds of sine and cosine *)
Lemma grow f f' : 0 <= f 0 -> (forall t, is_derive f t (f' t)) -> (forall t, 0 <= t -> 0 <= f' t) -> forall x, 0 <= x -> 0 <= f x.
Proof.
  intros Z D P x X. destruct (Req_dec x 0) as [->|N]; [exact Z|].
  destruct (MVT_cor2 f f' 0 x) as (c & E & C); [lra|intros t _; now apply is_derive_Reals|].
  pose proof (P c ltac:(lra)). assert (0 <= f' c * (x - 0)) by (apply Rmult_le_pos; lra). lra.
Qed.
Lemma sin_le x : 0 <= x -> 0 <= x - sin x.
Proof. intro X. refine (grow (fun t => t - sin t) (fun t => 1 - cos t) _ _ _ x X); [rewrite sin_0; lra|intro t; auto_derive; [trivial|ring]|intros t _; pose proof (COS_bound t); lra]. Qed.
Lemma cos_ge x : 0 <= x -> 0 <= cos x - 1 + x ^ 2 / 2.
Proof. intro X. refine (grow (fun t => cos t - 1 + t ^ 2 / 2) (fun t => t - sin t) _ _ _ x X); [rewrite cos_0; lra|intro t; auto_derive; [trivial|field]|exact sin_le]. Qed.
Lemma sin_ge3 x : 0 <= x -> 0 <= sin x - x + x ^ 3 / 6.
Proof. intro X. refine (grow (fun t => sin t - t + t ^ 3 / 6) (fun t => cos t - 1 + t ^ 2 / 2) _ _ _ x X); [rewrite sin_0; lra|intro t; auto_derive; [trivial|field]|exact cos_ge]. Qed.
Lemma cos_le4 x : 0 <= x -> 0 <= 1 - x ^ 2 / 2 + x ^ 4 / 24 - cos x.
Proof. intro X. refine (grow (fun t => 1 - t ^ 2 / 2 + t ^ 4 / 24 - cos t) (fun t => sin t - t + t ^ 3 / 6) _ _ _ x X); [rewrite cos_0; lra|intro t; auto_derive; [trivial|field]|exact sin_ge3]. Qed.
Lemma sin_le5 x : 0 <= x -> 0 <= x - x ^ 3 / 6 + x ^ 5 / 120 - sin x.
Proof. intro X. refine (grow (fun t => t - t ^ 3 / 6 + t ^ 5 / 120 - sin t) (fun t => 1 - t ^ 2 / 2 + t ^ 4 / 24 - cos t) _ _ _ x X); [rewrite sin_0; lra|intro t; auto_derive; [trivial|field]|exact cos_le4]. Qed.
Lemma cos_ge6 x : 0 <= x -> 0 <= cos x - 1 + x ^ 2 / 2 - x ^ 4 / 24 + x ^ 6 / 720.
Proof. intro X. refine (grow (fun t => cos t - 1 + t ^ 2 / 2 - t ^ 4 / 24 + t ^ 6 / 720) (fun t => t - t ^ 3 / 6 + t ^ 5 / 120 - sin t) _ _ _ x X); [rewrite cos_0; lra|intro t; auto_derive; [trivial|field]|exact sin_le5]. Qed.

(** ** One step of the oscillator, as a complex factor *)
Definition rk_factor (x : R) : C := (1 - x ^ 2 / 2 + x ^ 4 / 24, - (x - x ^ 3 / 6)).
Definition turn (x : R) : C := (cos x, - sin x).
Lemma turn_add x y : turn (x + y) = Cmult (turn x) (turn y).
Proof. unfold turn, Cmult. cbn [fst snd]. rewrite cos_plus, sin_plus. f_equal; ring. Qed.
Lemma turn_mod x : Cmod (turn x) = 1.
Proof. unfold Cmod, turn. cbn [fst snd]. replace (cos x ^ 2 + (- sin x) ^ 2) with (Rsqr (sin x) + Rsqr (cos x)) by (unfold Rsqr; ring). rewrite sin2_cos2. apply sqrt_1. Qed.
Lemma factor_mod2 x : Cmod (rk_factor x) ^ 2 = 1 - x ^ 6 / 72 + x ^ 8 / 576.
Proof. unfold Cmod, rk_factor. cbn [fst snd]. rewrite pow2_sqrt by (apply Rplus_le_le_0_compat; apply pow2_ge_0). field. Qed.
Lemma factor_le_1 x : 0 <= x -> x ^ 2 <= 8 -> Cmod (rk_factor x) <= 1.
Proof.
  intros X B. pose proof (Cmod_ge_0 (rk_factor x)) as P. pose proof (factor_mod2 x) as E.
  assert (Q : 0 <= x ^ 6 * (8 - x ^ 2)) by (apply Rmult_le_pos; [apply pow_le; exact X|lra]).
  assert (Cmod (rk_factor x) ^ 2 <= 1) by (rewrite E; nra). nra.
Qed.
Lemma mod_le_sum (z : C) : Cmod z <= Rabs (fst z) + Rabs (snd z).
Proof.
  unfold Cmod. pose proof (Rabs_pos (fst z)) as A. pose proof (Rabs_pos (snd z)) as B.
  rewrite <- (sqrt_pow2 (Rabs (fst z) + Rabs (snd z))) by lra. apply sqrt_le_1_alt.
  rewrite <- (pow2_abs (fst z)), <- (pow2_abs (snd z)). nra.
Qed.
Lemma factor_error x : 0 <= x -> x ^ 2 <= 8 -> Cmod (Cminus (rk_factor x) (turn x)) <= x ^ 5 / 80.
Proof.
  intros X B. eapply Rle_trans; [apply mod_le_sum|]. unfold rk_factor, turn, Cminus, Cplus, Copp. cbn [fst snd].
  pose proof (cos_le4 x X). pose proof (cos_ge6 x X). pose proof (sin_ge3 x X). pose proof (sin_le5 x X).
  rewrite (Rabs_right (1 - x ^ 2 / 2 + x ^ 4 / 24 + - cos x)) by lra. rewrite (Rabs_right (- (x - x ^ 3 / 6) + - - sin x)) by lra.
  assert (X3 : x <= 3) by nra. assert (P : 0 <= x ^ 5 * (3 - x)) by (apply Rmult_le_pos; [now apply pow_le|lra]).
  replace (x ^ 6) with (x ^ 5 * x) in * by ring. lra.
Qed.
Fixpoint factors (xs : list R) : C := match xs with [] => RtoC 1 | x :: l => Cmult (factors l) (rk_factor x) end.
Definition total (l : list R) : R := fold_right Rplus 0 l.
Definition small (xs : list R) : Prop := List.Forall (fun x => 0 <= x /\ x ^ 2 <= 8) xs.
Lemma factors_mod xs : small xs -> Cmod (factors xs) <= 1.
Proof.
  induction xs as [|x l IH]; intro F; cbn [factors]; [rewrite Cmod_1; lra|]. inversion F as [|? ? (X & B) F']; subst. rewrite Cmod_mult.
  pose proof (IH F'). pose proof (factor_le_1 x X B). pose proof (Cmod_ge_0 (factors l)). pose proof (Cmod_ge_0 (rk_factor x)). nra.
Qed.
Lemma factors_error xs : small xs -> Cmod (Cminus (factors xs) (turn (total xs))) <= total (map (fun x => x ^ 5 / 80) xs).
Proof.
  induction xs as [|x l IH]; intro F; cbn [factors map]; unfold total in *; cbn [fold_right].
  - replace (Cminus (RtoC 1) (turn 0)) with (RtoC 0); [rewrite Cmod_0; lra|]. unfold turn, Cminus, Cplus, Copp, RtoC. cbn [fst snd]. rewrite cos_0, sin_0. f_equal; ring.
  - inversion F as [|? ? (X & B) F']; subst. rewrite Rplus_comm, turn_add.
    replace (Cminus (Cmult (factors l) (rk_factor x)) (Cmult (turn (fold_right Rplus 0 l)) (turn x)))
      with (Cplus (Cmult (factors l) (Cminus (rk_factor x) (turn x))) (Cmult (Cminus (factors l) (turn (fold_right Rplus 0 l))) (turn x))) by ring.
    eapply Rle_trans; [apply Cmod_triangle|]. rewrite !Cmod_mult, turn_mod. pose proof (factors_mod l F') as M. pose proof (factor_error x X B) as E. specialize (IH F').
    pose proof (Cmod_ge_0 (factors l)). pose proof (Cmod_ge_0 (Cminus (rk_factor x) (turn x))). nra.
Qed.

(** ** One step of the relative orbit *)
Section hill.
Context (n : R) (N : n <> 0).
Definition hderiv (_ : R) (s : vec) : vec := mvec 6 (hill_matrix n) s.
Definition osc (s : vec) : C := (s 0%nat - centre_x n (pos6 s) (vel6 s), s 3%nat / n).
Definition wave (s : vec) : C := (s 2%nat, s 5%nat / n).
Lemma step_hill o : let h := step_width o in let s := state o in let s' := state (step_of hderiv o) in
  centre_x n (pos6 s') (vel6 s') = centre_x n (pos6 s) (vel6 s) /\
  centre_y n (pos6 s') (vel6 s') = centre_y n (pos6 s) (vel6 s) - 3 / 2 * n * h * centre_x n (pos6 s) (vel6 s) /\
  osc s' = Cmult (rk_factor (n * h)) (osc s) /\ wave s' = Cmult (rk_factor (n * h)) (wave s).
Proof.
  intros h s s'.
  assert (Z : forall i, s' i = s i + h * mvec 6 (hill_matrix n) s i + h ^ 2 / 2 * mvec 6 (hill_matrix n) (mvec 6 (hill_matrix n) s) i +
    h ^ 3 / 6 * mvec 6 (hill_matrix n) (mvec 6 (hill_matrix n) (mvec 6 (hill_matrix n) s)) i +
    h ^ 4 / 24 * mvec 6 (hill_matrix n) (mvec 6 (hill_matrix n) (mvec 6 (hill_matrix n) (mvec 6 (hill_matrix n) s))) i) by (intro i; apply (linear_step 6 (hill_matrix n) o i)).
  assert (H0 : forall x, mvec 6 (hill_matrix n) x 0%nat = x 3%nat) by (intro x; rewrite hill_apply by lia; reflexivity).
  assert (H1 : forall x, mvec 6 (hill_matrix n) x 1%nat = x 4%nat) by (intro x; rewrite hill_apply by lia; reflexivity).
  assert (H2 : forall x, mvec 6 (hill_matrix n) x 2%nat = x 5%nat) by (intro x; rewrite hill_apply by lia; reflexivity).
  assert (H3 : forall x, mvec 6 (hill_matrix n) x 3%nat = 3 * n * n * x 0%nat + 2 * n * x 4%nat) by (intro x; rewrite hill_apply by lia; reflexivity).
  assert (H4 : forall x, mvec 6 (hill_matrix n) x 4%nat = -2 * n * x 3%nat) by (intro x; rewrite hill_apply by lia; reflexivity).
  assert (H5 : forall x, mvec 6 (hill_matrix n) x 5%nat = - n * n * x 2%nat) by (intro x; rewrite hill_apply by lia; reflexivity).
  clearbody s'. unfold centre_x, centre_y, osc, wave, centre_x, Cmult, rk_factor. cbn [pos6 vel6 v3 fst snd].
  rewrite !Z. repeat (rewrite ?H0, ?H1, ?H2, ?H3, ?H4, ?H5).
  split; [field; exact N|]. split; [field; exact N|]. split; f_equal; field; exact N.
Qed.
Lemma integrate_hill : forall ws o, let s := state o in let s' := state (integrate hderiv ws o) in
  centre_x n (pos6 s') (vel6 s') = centre_x n (pos6 s) (vel6 s) /\
  centre_y n (pos6 s') (vel6 s') = centre_y n (pos6 s) (vel6 s) - 3 / 2 * n * total ws * centre_x n (pos6 s) (vel6 s) /\
  osc s' = Cmult (factors (map (Rmult n) ws)) (osc s) /\ wave s' = Cmult (factors (map (Rmult n) ws)) (wave s).
Proof.
  induction ws as [|w l IH]; intros o; cbn [integrate fold_left map factors]; unfold total; cbn [fold_right].
  - split; [reflexivity|]. split; [ring|]. split; ring.
  - fold (integrate hderiv l (step_of hderiv (set_step o w))). destruct (IH (step_of hderiv (set_step o w))) as (A & B & D & E).
    destruct (step_hill (set_step o w)) as (A' & B' & D' & E'). cbn [set_step step_width state] in *. unfold total in B.
    rewrite A, A', B, A', B', D, D', E, E'. split; [reflexivity|]. split; [ring|]. split; ring.
Qed.
(** the exact motion *)
Lemma exact_hill f T : hill_motion n f ->
  centre_x n (pos6 (f T)) (vel6 (f T)) = centre_x n (pos6 (f 0)) (vel6 (f 0)) /\
  centre_y n (pos6 (f T)) (vel6 (f T)) = centre_y n (pos6 (f 0)) (vel6 (f 0)) - 3 / 2 * n * T * centre_x n (pos6 (f 0)) (vel6 (f 0)) /\
  osc (f T) = Cmult (turn (n * T)) (osc (f 0)) /\ wave (f T) = Cmult (turn (n * T)) (wave (f 0)).
Proof.
  intro H. pose proof (hill_unique n f N H T) as U.
  assert (E : forall i, (i < 6)%nat -> f T i = _) by (intros i Hi; rewrite (U i Hi); exact (stm_apply n T (f 0) i Hi)).
  unfold centre_x, centre_y, osc, wave, centre_x, Cmult, turn. cbn [pos6 vel6 v3 fst snd]. rewrite !E by lia. cbn [v6 v3].
  split; [field; exact N|]. split; [field; exact N|]. split; f_equal; field; exact N.
Qed.
End hill.

(** ** Histories *)
Lemma rel_run_widths n fuel : forall calls o o', ro_method o = URk4 -> ro_matrix o = hill_matrix n ->
  veq 3 (ro_rel_pos o) (pos6 (state (ro_ode o))) -> veq 3 (ro_rel_vel o) (vel6 (state (ro_ode o))) -> rel_run fuel o calls = Ok o' ->
  exists ws, state (ro_ode o') = state (integrate (hderiv n) ws (ro_ode o)) /\ total ws = last_time (ro_time o) calls - ro_time o /\
    veq 3 (ro_rel_pos o') (pos6 (state (ro_ode o'))) /\ veq 3 (ro_rel_vel o') (vel6 (state (ro_ode o'))) /\ ro_time o' = last_time (ro_time o) calls /\
    (0 <= ro_step o -> in_order (ro_time o) calls -> List.Forall (fun w => 0 <= w <= ro_step o + 1 / 10 ^ 6) ws).
Proof.
  induction calls as [|[tend [r v]] l IH]; intros o o' Me Ma P V E; cbn [rel_run] in E.
  - injection E as <-. exists []. cbn [integrate fold_left last_time]. unfold total. cbn [fold_right]. repeat split; try assumption; [ring|constructor].
  - unfold rel_propagate in E. cbn [negb] in E. rewrite Me, Ma in E.
    destruct (prop (fun (_ : R) (s : vec) => mvec 6 (hill_matrix n) s) fuel (ro_step o) tend (ro_ode o) (ro_time o)) as [[d t]| | |] eqn:Q; cbn [bind] in E; try discriminate.
    apply prop_spec in Q. destruct Q as (k & w & -> & X & W & B & K).
    apply IH in E; [|reflexivity|reflexivity|intros i Hi; reflexivity|intros i Hi; reflexivity]. cbn [ro_ode ro_time ro_step] in E.
    destruct E as (ws & S1 & T1 & P1 & V1 & T2 & F). exists ((repeat (ro_step o) k ++ [w]) ++ ws). split.
    { change (fun (_ : R) (s : vec) => mvec 6 (hill_matrix n) s) with (hderiv n) in X. rewrite S1, X, (integrate_app (hderiv n) (repeat (ro_step o) k ++ [w]) ws). reflexivity. }
    split. { unfold total in *. rewrite fold_right_app. rewrite T1.
      assert (G : forall a c, fold_right Rplus c a = fold_right Rplus 0 a + c) by (clear; induction a as [|x a IH]; intro c; cbn [fold_right]; [ring|rewrite IH; ring]).
      rewrite G, sum_snoc, sum_repeat. cbn [last_time]. lra. }
    split; [exact P1|]. split; [exact V1|]. split; [exact T2|]. intros S0 (O1 & O2). cbn [fst] in *.
    apply Forall_app. split; [|now apply F]. apply Forall_app. split.
    + apply List.Forall_forall. intros x I. apply repeat_spec in I. subst x. lra.
    + constructor; [|constructor]. split; [|exact B]. destruct K as [->|K]; [cbn [INR] in W; lra|lra].
Qed.
Lemma osc_mod n s : Cmod (osc n s) = ellipse n (pos6 s) (vel6 s).
Proof. reflexivity. Qed.
Lemma wave_mod n s : Cmod (wave n s) = across n (pos6 s) (vel6 s).
Proof. reflexivity. Qed.
Lemma error_sum n h ws : 0 < n -> 0 <= h -> (n * h) ^ 2 <= 8 -> List.Forall (fun w => 0 <= w <= h) ws ->
  small (map (Rmult n) ws) /\ total (map (Rmult n) ws) = n * total ws /\ total (map (fun x => x ^ 5 / 80) (map (Rmult n) ws)) <= (n * h) ^ 4 / 80 * (n * total ws).
Proof.
  intros N H0 B. unfold total, small. induction ws as [|w l IH]; intro F; cbn [map fold_right].
  - split; [constructor|]. split; lra.
  - inversion F as [|? ? (W & W') F']; subst. destruct (IH F') as (S1 & S2 & S3).
    assert (P : 0 <= n * w) by (apply Rmult_le_pos; lra). assert (L : n * w <= n * h) by (apply Rmult_le_compat_l; lra).
    split; [constructor; [split; [exact P|]|exact S1]|]. { pose proof (pow_incr (n * w) (n * h) 2 (conj P L)). lra. }
    split; [rewrite S2; ring|].
    pose proof (pow_incr (n * w) (n * h) 4 (conj P L)) as Q. assert (Q5 : (n * w) ^ 5 <= (n * h) ^ 4 * (n * w)).
    { replace ((n * w) ^ 5) with ((n * w) ^ 4 * (n * w)) by ring. apply Rmult_le_compat_r; [exact P|exact Q]. }
    lra.
Qed.
Lemma fst_le (z : C) : Rabs (fst z) <= Cmod z. Proof. eapply Rle_trans; [apply Rmax_l|apply Rmax_Cmod]. Qed.
Lemma snd_le (z : C) : Rabs (snd z) <= Cmod z. Proof. eapply Rle_trans; [apply Rmax_r|apply Rmax_Cmod]. Qed.
(** error of the whole run *)
Lemma run_error n h ws s : 0 < n -> 0 <= h -> (n * h) ^ 2 <= 8 -> List.Forall (fun w => 0 <= w <= h) ws -> forall z : C,
  Cmod (Cminus (Cmult (factors (map (Rmult n) ws)) z) (Cmult (turn (n * total ws)) z)) <= (n * h) ^ 4 / 80 * (n * total ws) * Cmod z /\
  Cmod (Cmult (factors (map (Rmult n) ws)) s) <= Cmod s.
Proof.
  intros N H0 B F z. destruct (error_sum n h ws N H0 B F) as (S1 & S2 & S3). split.
  - replace (Cminus (Cmult (factors (map (Rmult n) ws)) z) (Cmult (turn (n * total ws)) z)) with (Cmult (Cminus (factors (map (Rmult n) ws)) (turn (n * total ws))) z) by ring.
    rewrite Cmod_mult. apply Rmult_le_compat_r; [apply Cmod_ge_0|]. eapply Rle_trans; [|exact S3]. rewrite <- S2. now apply factors_error.
  - rewrite Cmod_mult. pose proof (factors_mod _ S1). pose proof (Cmod_ge_0 s). pose proof (Cmod_ge_0 (factors (map (Rmult n) ws))). nra.
Qed.
