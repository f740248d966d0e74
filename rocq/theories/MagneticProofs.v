From Coq Require Import Reals Lra Lia List Bool ZArith.
From Verif Require Import RBase VecModel VecProofs QuatModel QuatSpec QuatProofs OdeModel SensorModel WheelJitterProofs
  MagneticModel MagneticSpec.
Import ListNotations.
Open Scope R_scope.

Lemma limit_restrict hi lo x : lo <= hi -> limit_moment hi lo x = restrict lo hi x.
Proof.
  intros H. unfold limit_moment, restrict. destruct (rlt_spec hi x).
  - rewrite Rmin_left; [reflexivity|]. eapply Rle_trans; [|apply Rmax_r]. lra.
  - destruct (rlt_spec x lo).
    + rewrite Rmax_left by lra. rewrite Rmin_right by lra. reflexivity.
    + rewrite Rmax_right by lra. rewrite Rmin_right by lra. reflexivity.
Qed.
Lemma restrict_id lo hi x : lo <= x <= hi -> restrict lo hi x = x.
Proof. intros H. unfold restrict. rewrite Rmax_right by lra. apply Rmin_right. lra. Qed.
Lemma restrict_in lo hi x : lo <= hi -> lo <= restrict lo hi x <= hi.
Proof.
  intros H. unfold restrict. split; [|apply Rmin_l]. apply Rmin_glb; [exact H|apply Rmax_l].
Qed.

Lemma walk_zero_run limit draws n : forall k o i,
  (forall i k, draws i k = 0) -> state o i = 0 ->
  state (fst (ode_run (walk_deriv limit draws) n k o)) i = 0.
Proof.
  induction n as [|n IH]; intros k o i HD Hs; cbn [ode_run]; [exact Hs|].
  unfold ode_update, walk_deriv at 1 2 3 4. cbv zeta beta iota. apply IH; auto. cbn [state].
  unfold vadd, vscal. rewrite !HD, Rabs_R0, Ropp_0, Hs.
  repeat match goal with |- context [if ?b then 0 else _] => destruct b end; ring.
Qed.
Lemma walk_zero limit draws h n i : (forall i k, draws i k = 0) -> walk_after limit draws h n i = 0.
Proof. intros H. apply walk_zero_run; [exact H|reflexivity]. Qed.

Lemma mtq_run_app c m a b : mtq_run c m (a ++ b) = mtq_run c (mtq_run c m a) b.
Proof. apply fold_left_app. Qed.
Lemma mtq_run_calls c es : forall m, mq_calls (mtq_run c m es) = (mq_calls m + mtq_steps es)%nat.
Proof.
  induction es as [|e es IH]; intros m; [cbn; lia|].
  unfold mtq_run in *. cbn [fold_left]. rewrite IH. destruct e; cbn; lia.
Qed.

Lemma conj_frame q v : veq 3 (frame_conversion (qconj q) v) (inverse_frame_conversion q v).
Proof.
  intros [|[|[|i]]] Hi; try lia; unfold frame_conversion, inverse_frame_conversion, qmul, qmulv, qconj, q4; cbn; ring.
Qed.

Lemma cross_dot_l u v : dot 3 (cross u v) u = 0.
Proof. unfold dot. rewrite sumn3. unfold cross. ring. Qed.
Lemma cross_dot_r u v : dot 3 (cross u v) v = 0.
Proof. unfold dot. rewrite sumn3. unfold cross. ring. Qed.

Lemma mvec_diag s v i : (i < 3)%nat -> mvec 3 (fun i j => if Nat.eqb i j then s i else 0) v i = s i * v i.
Proof. intros H. destruct i as [|[|[|i]]]; try lia; unfold mvec; rewrite sumn3; cbn; ring. Qed.
Lemma mvec_ident v i : (i < 3)%nat -> mvec 3 mident v i = v i.
Proof. intros H. unfold mident. destruct i as [|[|[|i]]]; try lia; unfold mvec; rewrite sumn3; cbn; ring. Qed.

(** moments after a run of steps *)
Lemma fields_app {A} (f : nat -> A) n : map f (seq 0 (S n)) = map f (seq 0 n) ++ [f n].
Proof. rewrite seq_S, map_app. reflexivity. Qed.

Lemma run_step c m es f : mtq_run c m (es ++ [f]) = mtq_do c (mtq_run c m es) f.
Proof. rewrite mtq_run_app. reflexivity. Qed.

Lemma biased_step c m f i : biased_mtq c -> (i < 3)%nat ->
  mq_moment_c (mtq_main c m f) i = limit_moment (mq_max c i) (mq_min c i) (mq_moment_c m i) + mq_bias c i.
Proof.
  intros (S1 & N & W) Hi. unfold mtq_main. cbn [mq_moment_c]. rewrite S1, mvec_ident by exact Hi.
  unfold disturbed_moment. rewrite N, walk_zero by exact W. ring.
Qed.

Lemma biased_run c v fields n i : biased_mtq c -> (i < 3)%nat -> mq_min c i <= v i <= mq_max c i ->
  forall m, mq_moment_c m = v -> 0 <= mq_bias c i ->
  mq_moment_c (mtq_run c m (map (fun k => MtqStep (fields k)) (seq 0 (S n)))) i
  = Rmin (v i + INR (S n) * mq_bias c i) (mq_max c i + mq_bias c i).
Proof.
  intros Hc Hi Hv m Hm Hb. induction n as [|n IH].
  - cbn [seq map]. unfold mtq_run. cbn [fold_left mtq_do]. rewrite biased_step by assumption. rewrite Hm.
    rewrite limit_restrict by lra. rewrite restrict_id by lra. cbn [INR]. rewrite Rmult_1_l.
    rewrite Rmin_left by lra. reflexivity.
  - rewrite (fields_app _ (S n)), run_step. cbn [mtq_do]. rewrite biased_step by assumption.
    rewrite IH. rewrite limit_restrict by lra.
    set (b := mq_bias c i) in *. set (lo := mq_min c i) in *. set (hi := mq_max c i) in *.
    replace (INR (S (S n))) with (INR (S n) + 1) by (rewrite (S_INR (S n)); reflexivity).
    assert (P : 0 <= INR (S n) * b) by (apply Rmult_le_pos; [apply pos_INR|exact Hb]).
    replace ((INR (S n) + 1) * b) with (INR (S n) * b + b) by ring. set (t := INR (S n) * b) in *. clearbody t.
    assert (L : lo <= Rmin (v i + t) (hi + b)) by (apply Rmin_glb; lra).
    unfold restrict. rewrite (Rmax_right lo) by exact L.
    apply (Rmin_case_strong (v i + t) (hi + b)); intros; [apply (Rmin_case_strong (v i + (t + b))); intros; [rewrite Rmin_right|rewrite Rmin_left]; lra|].
    rewrite Rmin_left by lra. rewrite Rmin_right by lra. reflexivity.
Qed.

Lemma scaled_run c s v fields n i : scaled_mtq c s -> (i < 3)%nat -> mq_min c i <= 0 <= mq_max c i ->
  mq_min c i <= v i <= mq_max c i -> 0 <= s i <= 1 ->
  forall m, mq_moment_c m = v ->
  mq_moment_c (mtq_run c m (map (fun k => MtqStep (fields k)) (seq 0 n))) i = s i ^ n * v i.
Proof.
  intros (S1 & B & N & W) Hi H0 Hv Hs m Hm. induction n as [|n IH]; [cbn; rewrite Hm; ring|].
  rewrite fields_app, run_step. cbn [mtq_do]. set (m' := mtq_run c m _) in *. unfold mtq_main. cbn [mq_moment_c].
  rewrite S1, mvec_diag by exact Hi. unfold disturbed_moment. rewrite B, N, walk_zero by exact W.
  rewrite IH. rewrite limit_restrict by lra. rewrite restrict_id; [cbn [pow]; ring|].
  assert (Q : 0 <= s i ^ n <= 1).
  { split; [apply pow_le; lra|]. rewrite <- (pow1 n). apply pow_incr. lra. }
  set (p := s i ^ n) in *. clearbody p. destruct (Rle_dec 0 (v i)).
  - split; [assert (0 <= p * v i) by (apply Rmult_le_pos; lra); lra|].
    assert (p * v i <= 1 * v i) by (apply Rmult_le_compat_r; lra). lra.
  - split; [|assert (0 <= p * (- v i)) by (apply Rmult_le_pos; lra); lra].
    assert (p * - v i <= 1 * - v i) by (apply Rmult_le_compat_r; lra). lra.
Qed.

(** ** Interference *)
Lemma bias_run_app f s a b : bias_run f s (a ++ b) = bias_run f (bias_run f s a) b.
Proof. apply fold_left_app. Qed.

Lemma interference_sum coefs m : forall d acc i,
  interference_bias coefs d m acc i
  = acc i + sumn (length coefs) (fun k => sumn 3 (fun j => nth k coefs (fun _ _ => 0) i j * m j ^ (d + k))).
Proof.
  induction coefs as [|a r IH]; intros d acc i; cbn [interference_bias length]; [cbn [sumn]; ring|].
  rewrite IH. unfold vadd at 1.
  assert (E : sumn (S (length r)) (fun k => sumn 3 (fun j => nth k (a :: r) (fun _ _ => 0) i j * m j ^ (d + k)))
     = mvec 3 a (fun i0 => m i0 ^ d) i + sumn (length r) (fun k => sumn 3 (fun j => nth k r (fun _ _ => 0) i j * m j ^ (S d + k)))).
  { generalize (length r) as n. induction n as [|n IHn].
    - cbn [sumn]. unfold mvec. rewrite sumn3. cbn [nth sumn]. rewrite Nat.add_0_r. ring.
    - change (sumn (S (S n)) (fun k => sumn 3 (fun j => nth k (a :: r) (fun _ _ => 0) i j * m j ^ (d + k))))
        with (sumn (S n) (fun k => sumn 3 (fun j => nth k (a :: r) (fun _ _ => 0) i j * m j ^ (d + k)))
              + sumn 3 (fun j => nth (S n) (a :: r) (fun _ _ => 0) i j * m j ^ (d + S n))).
      rewrite IHn. cbn [nth]. replace (d + S n)%nat with (S d + n)%nat by lia.
      change (sumn (S n) (fun k => sumn 3 (fun j => nth k r (fun _ _ => 0) i j * m j ^ (S d + k))))
        with (sumn n (fun k => sumn 3 (fun j => nth k r (fun _ _ => 0) i j * m j ^ (S d + k)))
              + sumn 3 (fun j => nth n r (fun _ _ => 0) i j * m j ^ (S d + n))). ring. }
  rewrite E. ring.
Qed.
Lemma interference_polynomial coefs m i : interference_bias coefs 1 m (vconst 0) i = polynomial_bias coefs m i.
Proof. rewrite interference_sum. unfold polynomial_bias, vconst. rewrite Rplus_0_l. reflexivity. Qed.

Lemma last_moment_app i a b : forall acc, last_moment i (a ++ b) acc = last_moment i b (last_moment i a acc).
Proof. induction a as [|e a IH]; intros acc; [reflexivity|]. destruct e; cbn; apply IH. Qed.
Lemma added_app a b k : added (a ++ b) k = added a k + added b k.
Proof. induction a as [|e a IH]; [cbn; ring|]. destruct e; cbn [app added]; rewrite IH; ring. Qed.

Lemma sumn_replace n f g i : (i < n)%nat -> (forall j, j <> i -> g j = f j) ->
  sumn n g = sumn n f - f i + g i.
Proof.
  induction n as [|n IH]; intros Hi H; [lia|]. cbn [sumn]. destruct (Nat.eq_dec i n) as [->|Hn].
  - rewrite (sumn_ext n g f); [ring|]. intros j Hj. apply H. lia.
  - rewrite IH by (try lia; exact H). rewrite (H n) by lia. ring.
Qed.

Lemma bias_history coefs b n es :
  List.Forall (fun e => ~ sets_bias e /\ uses n e) es ->
  let s := bias_run coefs (interfered_new b) es in
  (forall i k, if_prev s i k = present_bias coefs i es k) /\
  (forall k, if_bias s k = b k + added es k + sumn n (fun i => present_bias coefs i es k)).
Proof.
  cbv zeta. induction es as [|e es IH] using rev_ind; intros H.
  - split; [reflexivity|]. intros k. cbn. unfold present_bias. cbn.
    assert (Z : sumn n (fun _ : nat => 0) = 0) by (clear; induction n as [|n IH]; cbn; [reflexivity|lra]). rewrite Z. ring.
  - apply Forall_app in H. destruct H as [H1 H2]. inversion H2; subst. destruct H3 as [NS U]. destruct (IH H1) as [P B].
    rewrite bias_run_app. set (s := bias_run coefs (interfered_new b) es) in *. unfold bias_run. cbn [fold_left].
    assert (PB : forall j, present_bias coefs j (es ++ [e]) =
       match e with Interfere i m => if Nat.eqb i j then polynomial_bias (coefs j) m else present_bias coefs j es | _ => present_bias coefs j es end).
    { intros j. unfold present_bias. rewrite last_moment_app. destruct e; cbn [last_moment]; try reflexivity.
      destruct (Nat.eqb i j); reflexivity. }
    destruct e as [v|v|i m]; cbn [bias_do].
    + exfalso. apply NS. exact I.
    + split; cbn [if_prev if_bias]; intros; rewrite ?PB; [apply P|]. unfold vadd. rewrite B, added_app. cbn [added].
      rewrite (sumn_ext n (fun i => present_bias coefs i (es ++ [AddBias v]) k) (fun i => present_bias coefs i es k)) by (intros; rewrite PB; reflexivity).
      ring.
    + unfold update_interference. cbn [if_prev if_bias]. split.
      * intros j k. rewrite PB. rewrite (Nat.eqb_sym i j). destruct (Nat.eqb_spec j i) as [->|Hj]; [apply interference_polynomial|apply P].
      * intros k. unfold vadd, vscal. rewrite B, P, added_app, interference_polynomial. cbn [added].
        rewrite (sumn_replace n (fun j => present_bias coefs j es k) (fun j => present_bias coefs j (es ++ [Interfere i m]) k) i).
        -- rewrite PB, Nat.eqb_refl. ring.
        -- exact U.
        -- intros j Hj. rewrite PB. destruct (Nat.eqb_spec i j); [congruence|reflexivity].
Qed.

Lemma frame_norm q v : unit 4 q -> norm 3 (frame_conversion q v) = norm 3 v.
Proof.
  intros U. rewrite (norm3_ext _ _ (frame_dcm q v)). unfold norm.
  change (sqrt (dot 3 (mvec 3 (to_dcm q) v) (mvec 3 (to_dcm q) v)) = sqrt (dot 3 v v)).
  rewrite rotation_dot; [reflexivity|]. apply dcm_rotation, U.
Qed.
