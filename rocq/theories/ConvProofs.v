(** Proofs about the convergence of Runge-Kutta methods. *)
From Coq Require Import Reals Lra Lia List Bool Arith.
From Verif Require Import RBase VecModel RkModel ConvSpec.
Import ListNotations.
Open Scope R_scope.

Lemma near_le dim d e x y : d <= e -> near dim d x y -> near dim e x y.
Proof. intros H N i Hi. specialize (N i Hi). lra. Qed.
Lemma near_trans dim d e x y z : near dim d x y -> near dim e y z -> near dim (d + e) x z.
Proof. intros A B i Hi. specialize (A i Hi). specialize (B i Hi). replace (x i - z i) with ((x i - y i) + (y i - z i)) by ring. pose proof (Rabs_triang (x i - y i) (y i - z i)). lra. Qed.
Lemma near_refl dim d x : 0 <= d -> near dim d x x.
Proof. intros D i _. replace (x i - x i) with 0 by ring. now rewrite Rabs_R0. Qed.
Lemma near_sym dim d x y : near dim d x y -> near dim d y x.
Proof. intros N i Hi. rewrite Rabs_minus_sym. now apply N. Qed.
Lemma sumn_abs n (f : nat -> R) : Rabs (sumn n f) <= sumn n (fun i => Rabs (f i)).
Proof. induction n as [|n IH]; cbn [sumn]; [rewrite Rabs_R0; lra|]. pose proof (Rabs_triang (sumn n f) (f n)). lra. Qed.
Lemma sumn_weighted n (a : nat -> R) (k : nat -> R) B : (forall j, (j < n)%nat -> Rabs (k j) <= B) -> Rabs (sumn n (fun j => a j * k j)) <= sumn n (fun j => Rabs (a j)) * B.
Proof.
  intros H. eapply Rle_trans; [apply sumn_abs|]. rewrite <- sumn_scal_r. apply sumn_le. intros j Hj. rewrite Rabs_mult. apply Rmult_le_compat_l; [apply Rabs_pos|now apply H].
Qed.

Section conv.
Context (dim : nat) (f : R -> vec -> vec) (y : R -> vec) (t0 t1 rho L M : R) (EX : exact dim f y t0 t1) (LN : lipschitz_near dim f y t0 t1 rho L)
  (RH : 0 < rho) (L0 : 0 <= L) (M0 : 0 <= M) (MB : forall t x, t0 <= t <= t1 -> near dim rho x (y t) -> forall i, (i < dim)%nat -> Rabs (f t x i) <= M).
Lemma mean a b i : t0 <= a -> a <= b -> b <= t1 -> (i < dim)%nat -> exists c, a <= c <= b /\ y b i - y a i = f c (y c) i * (b - a).
Proof.
  intros A AB B Hi. destruct (Req_dec a b) as [<-|N]; [exists a; split; [lra|ring]|].
  destruct (MVT_cor2 (fun u => y u i) (fun u => f u (y u) i) a b ltac:(lra)) as (c & E & C); [intros u U; apply EX; [lra|exact Hi]|].
  exists c. split; [lra|exact E].
Qed.
Lemma drift a b : t0 <= a -> a <= b -> b <= t1 -> near dim (M * (b - a)) (y b) (y a).
Proof.
  intros A AB B i Hi. destruct (mean a b i A AB B Hi) as (c & C & ->). rewrite Rabs_mult, (Rabs_pos_eq (b - a)) by lra. apply Rmult_le_compat_r; [lra|].
  apply MB; [lra|apply near_refl; lra|exact Hi].
Qed.
(** one step of an explicit method *)
Section step.
Context (s : nat) (a : nat -> nat -> R) (b c : nat -> R) (A Bw : R)
  (AB : forall i, (i < s)%nat -> sumn i (fun j => Rabs (a i j)) <= A) (A0 : 0 <= A) (BB : sumn s (fun i => Rabs (b i)) <= Bw) (B1 : sumn s b = 1) (C01 : forall i, (i < s)%nat -> 0 <= c i <= 1).
Definition rk_step_to (t h : R) (x x' : vec) : Prop := exists k : nat -> vec,
  (forall i, (i < s)%nat -> k i = f (t + c i * h) (fun m => x m + h * sumn i (fun j => a i j * k j m))) /\
  (forall m, (m < dim)%nat -> x' m = x m + h * sumn s (fun i => b i * k i m)).
Lemma Bw0 : 0 <= Bw.
Proof. eapply Rle_trans; [|exact BB]. apply sumn_nonneg. intros. apply Rabs_pos. Qed.
Definition K0 : R := L * (Bw * (A * M + 1) + M + 1).
Lemma K0_pos : 0 <= K0.
Proof. unfold K0. pose proof Bw0. apply Rmult_le_pos; [exact L0|]. assert (0 <= A * M) by (now apply Rmult_le_pos). assert (0 <= Bw * (A * M + 1)) by (apply Rmult_le_pos; lra). lra. Qed.
Lemma one_step t h x x' d : t0 <= t -> 0 <= h -> t + h <= t1 -> 0 <= d -> near dim d x (y t) -> d + h * ((A + 1) * M) <= rho -> rk_step_to t h x x' ->
  near dim (d * (1 + h * (Bw * L)) + h * h * K0) x' (y (t + h)).
Proof.
  intros T0 H0 T1 D0 N R (k & KS & X').
  assert (HM : 0 <= h * M) by (now apply Rmult_le_pos). assert (HAM : 0 <= h * (A * M)) by (apply Rmult_le_pos; [lra|now apply Rmult_le_pos]).
  set (st := fun i m => x m + h * sumn i (fun j => a i j * k j m)).
  assert (P : forall i, (i < s)%nat -> near dim (d + h * (A * M)) (st i) (y t) /\ near dim rho (st i) (y (t + c i * h)) /\ forall m, (m < dim)%nat -> Rabs (k i m) <= M).
  { intros i. induction i as [i IH] using lt_wf_ind. intros Hi.
    assert (Q : near dim (d + h * (A * M)) (st i) (y t)).
    { rewrite (Rplus_comm d). apply (near_trans _ _ _ _ x); [|exact N]. intros m Hm. unfold st. replace (x m + h * sumn i (fun j => a i j * k j m) - x m) with (h * sumn i (fun j => a i j * k j m)) by ring.
      rewrite Rabs_mult, (Rabs_pos_eq h) by lra. apply Rmult_le_compat_l; [lra|]. eapply Rle_trans; [apply sumn_weighted with (B := M)|apply Rmult_le_compat_r; [exact M0|now apply AB]].
      intros j Hj. now apply (IH j Hj ltac:(lia)). }
    assert (CH : 0 <= c i * h <= h) by (pose proof (C01 i Hi); split; [apply Rmult_le_pos; lra|rewrite <- (Rmult_1_l h) at 2; apply Rmult_le_compat_r; lra]).
    assert (Q2 : near dim rho (st i) (y (t + c i * h))).
    { apply (near_le _ (d + h * (A * M) + M * (t + c i * h - t))).
      - assert (M * (t + c i * h - t) <= M * h) by (apply Rmult_le_compat_l; lra). lra.
      - apply (near_trans _ _ _ _ (y t)); [exact Q|]. apply near_sym, drift; lra. }
    split; [exact Q|]. split; [exact Q2|]. intros m Hm. rewrite KS by exact Hi. apply MB; [lra|exact Q2|exact Hm]. }
  intros m Hm. destruct (mean t (t + h) m T0 ltac:(lra) T1 Hm) as (u & U & EU).
  assert (KD : forall i, (i < s)%nat -> Rabs (k i m - f t (y t) m) <= L * (d + h * (A * M + 1))).
  { intros i Hi. destruct (P i Hi) as (P1 & P2 & _). rewrite KS by exact Hi. pose proof (C01 i Hi) as C.
    assert (CH : 0 <= c i * h <= h) by (split; [apply Rmult_le_pos; lra|rewrite <- (Rmult_1_l h) at 2; apply Rmult_le_compat_r; lra]).
    pose proof (LN (t + c i * h) t (st i) (y t) _ ltac:(lra) ltac:(lra) P2 (near_refl _ _ _ (Rlt_le _ _ RH)) P1 m Hm) as Z. fold (st i).
    eapply Rle_trans; [exact Z|]. apply Rmult_le_compat_l; [exact L0|]. replace (t + c i * h - t) with (c i * h) by ring. rewrite Rabs_pos_eq by lra. lra. }
  assert (UD : Rabs (f t (y t) m - f u (y u) m) <= L * (h * (M + 1))).
  { pose proof (LN t u (y t) (y u) (M * (u - t)) ltac:(lra) ltac:(lra) (near_refl _ _ _ (Rlt_le _ _ RH)) (near_refl _ _ _ (Rlt_le _ _ RH)) (near_sym _ _ _ _ (drift t u T0 ltac:(lra) ltac:(lra))) m Hm) as Z.
    eapply Rle_trans; [exact Z|]. apply Rmult_le_compat_l; [exact L0|]. rewrite Rabs_minus_sym, Rabs_pos_eq by lra. assert (M * (u - t) <= M * h) by (apply Rmult_le_compat_l; lra). lra. }
  rewrite X' by exact Hm.
  replace (x m + h * sumn s (fun i => b i * k i m) - y (t + h) m) with ((x m - y t m) + h * sumn s (fun i => b i * (k i m - f t (y t) m)) + h * (f t (y t) m - f u (y u) m)).
  2:{ replace (sumn s (fun i => b i * (k i m - f t (y t) m))) with (sumn s (fun i => b i * k i m) - f t (y t) m).
      - replace (y (t + h) m) with (y t m + f u (y u) m * h) by lra. ring.
      - rewrite <- (Rmult_1_l (f t (y t) m)) at 1. rewrite <- B1, <- sumn_scal_r, <- sumn_minus. apply sumn_ext. intros; ring. }
  pose proof (Rabs_triang (x m - y t m + h * sumn s (fun i => b i * (k i m - f t (y t) m))) (h * (f t (y t) m - f u (y u) m))) as T2.
  pose proof (Rabs_triang (x m - y t m) (h * sumn s (fun i => b i * (k i m - f t (y t) m)))) as T3. rewrite !Rabs_mult, (Rabs_pos_eq h) in * by lra.
  pose proof (sumn_weighted s b (fun i => k i m - f t (y t) m) _ KD) as W.
  assert (W2 : sumn s (fun j => Rabs (b j)) * (L * (d + h * (A * M + 1))) <= Bw * (L * (d + h * (A * M + 1)))) by (apply Rmult_le_compat_r; [apply Rmult_le_pos; lra|exact BB]).
  assert (W3 : h * Rabs (sumn s (fun i => b i * (k i m - f t (y t) m))) <= h * (Bw * (L * (d + h * (A * M + 1))))) by (apply Rmult_le_compat_l; lra).
  assert (W4 : h * Rabs (f t (y t) m - f u (y u) m) <= h * (L * (h * (M + 1)))) by (apply Rmult_le_compat_l; lra).
  specialize (N m Hm). unfold K0. lra.
Qed.
(** many steps *)
Inductive steps_to : R -> vec -> list R -> vec -> Prop :=
| steps_nil t x : steps_to t x [] x
| steps_cons t h x x1 ws x' : rk_step_to t h x x1 -> steps_to (t + h) x1 ws x' -> steps_to t x (h :: ws) x'.
Definition growth (d0 eta t : R) : R := exp (Bw * L * (t - t0)) * (d0 + (t - t0) * eta * K0).
Lemma growth_step d0 eta t h : 0 <= d0 -> 0 <= eta -> t0 <= t -> 0 <= h <= eta -> growth d0 eta t * (1 + h * (Bw * L)) + h * h * K0 <= growth d0 eta (t + h).
Proof.
  intros D E T H. unfold growth. pose proof K0_pos as KP. pose proof Bw0. assert (BL : 0 <= Bw * L) by (now apply Rmult_le_pos).
  replace (Bw * L * (t + h - t0)) with (Bw * L * (t - t0) + Bw * L * h) by ring. rewrite exp_plus.
  assert (G1 : 1 <= exp (Bw * L * (t - t0))). { assert (0 <= Bw * L * (t - t0)) by (apply Rmult_le_pos; lra). pose proof (exp_ineq1_le (Bw * L * (t - t0))). lra. }
  pose proof (exp_ineq1_le (Bw * L * h)) as G2. assert (0 <= Bw * L * h) by (apply Rmult_le_pos; lra).
  set (g := exp (Bw * L * (t - t0))) in *. set (e := exp (Bw * L * h)) in *. set (q := d0 + (t - t0) * eta * K0).
  assert (Q0 : 0 <= q). { unfold q. assert (0 <= (t - t0) * eta * K0) by (apply Rmult_le_pos; [apply Rmult_le_pos; lra|exact KP]). lra. }
  assert (HK : h * h * K0 <= h * eta * K0) by (apply Rmult_le_compat_r; [exact KP|apply Rmult_le_compat_l; lra]). assert (HK0 : 0 <= h * eta * K0) by (apply Rmult_le_pos; [apply Rmult_le_pos; lra|exact KP]).
  replace (d0 + (t + h - t0) * eta * K0) with (q + h * eta * K0) by (unfold q; ring).
  assert (GE : 1 <= g * e) by (rewrite <- (Rmult_1_l 1); apply Rmult_le_compat; lra).
  assert (F1 : g * q * (1 + h * (Bw * L)) <= g * q * e) by (apply Rmult_le_compat_l; [apply Rmult_le_pos; lra|lra]).
  assert (F2 : 1 * (h * eta * K0) <= g * e * (h * eta * K0)) by (apply Rmult_le_compat_r; lra).
  lra.
Qed.
Lemma growth_mono d0 eta t u : 0 <= d0 -> 0 <= eta -> t0 <= t <= u -> 0 <= growth d0 eta t <= growth d0 eta u.
Proof.
  intros D E T. unfold growth. pose proof K0_pos as KP. pose proof Bw0. assert (BL : 0 <= Bw * L) by (now apply Rmult_le_pos).
  assert (X1 : 0 <= (t - t0) * eta * K0) by (apply Rmult_le_pos; [apply Rmult_le_pos; lra|exact KP]).
  assert (X2 : (t - t0) * eta * K0 <= (u - t0) * eta * K0) by (apply Rmult_le_compat_r; [exact KP|apply Rmult_le_compat_r; lra]).
  assert (X3 : exp (Bw * L * (t - t0)) <= exp (Bw * L * (u - t0))).
  { destruct (Req_dec (Bw * L * (t - t0)) (Bw * L * (u - t0))) as [->|N]; [lra|]. apply Rlt_le, exp_increasing. assert (Bw * L * (t - t0) <= Bw * L * (u - t0)) by (apply Rmult_le_compat_l; lra). lra. }
  pose proof (exp_pos (Bw * L * (t - t0))). split; [apply Rmult_le_pos; lra|apply Rmult_le_compat; lra].
Qed.
Lemma many_steps d0 eta : 0 <= d0 -> 0 <= eta -> growth d0 eta t1 + eta * ((A + 1) * M) <= rho -> forall ws t x x', steps_to t x ws x' ->
  t0 <= t -> List.Forall (fun h => 0 <= h <= eta) ws -> t + fold_right Rplus 0 ws <= t1 -> near dim (growth d0 eta t) x (y t) ->
  near dim (growth d0 eta (t + fold_right Rplus 0 ws)) x' (y (t + fold_right Rplus 0 ws)).
Proof.
  intros D E R ws t x x' ST. assert (AM : 0 <= (A + 1) * M) by (apply Rmult_le_pos; lra).
  assert (SN : forall ws, List.Forall (fun h => 0 <= h <= eta) ws -> 0 <= fold_right Rplus 0 ws). { intros l F. induction F; cbn [fold_right]; lra. }
  induction ST as [t x|t h x x1 ws x' S1 ST IH]; intros T F T1 N; cbn [fold_right] in *; [rewrite Rplus_0_r; exact N|].
  inversion F as [|? ? H F']; subst. pose proof (SN ws F') as S0.
  replace (t + (h + fold_right Rplus 0 ws)) with (t + h + fold_right Rplus 0 ws) in * by ring. apply IH; [lra|exact F'|exact T1|].
  pose proof (growth_mono d0 eta t t1 D E ltac:(lra)) as GM.
  assert (HA : h * ((A + 1) * M) <= eta * ((A + 1) * M)) by (apply Rmult_le_compat_r; lra).
  eapply near_le; [apply (growth_step d0 eta t h); lra|]. apply (one_step t h x x1); try lra; [exact N|exact S1].
Qed.
End step.
End conv.

(** bounds from compactness *)
Lemma solution_bounded dim f y t0 t1 : t0 <= t1 -> exact dim f y t0 t1 -> exists D, 0 <= D /\ forall t, t0 <= t <= t1 -> near dim D (y t) (y t0).
Proof.
  intros T EX. assert (G : forall k, (k <= dim)%nat -> exists D, 0 <= D /\ forall t, t0 <= t <= t1 -> near k D (y t) (y t0)).
  { induction k as [|k IH]; intros Hk; [exists 0; split; [lra|intros t _ i Hi; lia]|]. destruct (IH ltac:(lia)) as (D & D0 & P).
    assert (CO : forall c, t0 <= c <= t1 -> continuity_pt (fun u => y u k) c) by (intros c C; apply derivable_continuous_pt; exists (f c (y c) k); apply EX; [exact C|lia]).
    destruct (continuity_ab_maj _ t0 t1 T CO) as (u & U & _). destruct (continuity_ab_min _ t0 t1 T CO) as (v & V & _).
    exists (Rmax D (Rabs (y u k - y t0 k) + Rabs (y v k - y t0 k))). split; [eapply Rle_trans; [exact D0|apply Rmax_l]|]. intros t Ht i Hi.
    destruct (Nat.eq_dec i k) as [->|N]; [|eapply Rle_trans; [apply (P t Ht i); lia|apply Rmax_l]].
    eapply Rle_trans; [|apply Rmax_r]. specialize (U t Ht). specialize (V t Ht). unfold Rabs. repeat destruct (Rcase_abs _); lra. }
  apply (G dim). lia.
Qed.
Lemma slope_bounded dim f y t0 t1 rho L : t0 <= t1 -> 0 < rho -> 0 <= L -> exact dim f y t0 t1 -> lipschitz_near dim f y t0 t1 rho L ->
  exists M, 0 <= M /\ forall t x, t0 <= t <= t1 -> near dim rho x (y t) -> forall i, (i < dim)%nat -> Rabs (f t x i) <= M.
Proof.
  intros T RH L0 EX LN. destruct (solution_bounded dim f y t0 t1 T EX) as (D & D0 & P).
  assert (G : exists m, 0 <= m /\ forall i, (i < dim)%nat -> Rabs (f t0 (y t0) i) <= m).
  { exists (sumn dim (fun i => Rabs (f t0 (y t0) i))). split; [apply sumn_nonneg; intros; apply Rabs_pos|]. clear. induction dim as [|n IH]; intros i Hi; [lia|]. cbn [sumn].
    destruct (Nat.eq_dec i n) as [->|N]; [|specialize (IH i ltac:(lia)); pose proof (Rabs_pos (f t0 (y t0) n)); lra].
    assert (0 <= sumn n (fun i => Rabs (f t0 (y t0) i))) by (apply sumn_nonneg; intros; apply Rabs_pos). lra. }
  destruct G as (m & m0 & Pm). exists (m + L * (rho + D + (t1 - t0))). split; [assert (0 <= L * (rho + D + (t1 - t0))) by (apply Rmult_le_pos; lra); lra|].
  intros t x Ht N i Hi. pose proof (LN t t0 x (y t0) (rho + D) Ht ltac:(lra) N (near_refl _ _ _ (Rlt_le _ _ RH)) (near_trans _ _ _ _ _ _ N (P t Ht)) i Hi) as Z. specialize (Pm i Hi).
  rewrite (Rabs_pos_eq (t - t0)) in Z by lra. assert (L * (rho + D + (t - t0)) <= L * (rho + D + (t1 - t0))) by (apply Rmult_le_compat_l; lra).
  pose proof (Rabs_triang (f t x i - f t0 (y t0) i) (f t0 (y t0) i)) as Z2. replace (f t x i - f t0 (y t0) i + f t0 (y t0) i) with (f t x i) in Z2 by ring. lra.
Qed.
(** the method converges *)
Lemma converges dim f y t0 t1 rho L s (a : nat -> nat -> R) b c : t0 <= t1 -> 0 < rho -> 0 <= L -> exact dim f y t0 t1 -> lipschitz_near dim f y t0 t1 rho L ->
  sumn s b = 1 -> (forall i, (i < s)%nat -> 0 <= c i <= 1) ->
  exists h0 K, 0 < h0 /\ 0 <= K /\ forall eta d0 ws x x', 0 <= d0 <= h0 -> 0 <= eta <= h0 -> List.Forall (fun h => 0 <= h <= eta) ws -> t0 + fold_right Rplus 0 ws <= t1 ->
    near dim d0 x (y t0) -> steps_to dim f s a b c t0 x ws x' -> near dim (K * (d0 + eta)) x' (y (t0 + fold_right Rplus 0 ws)).
Proof.
  intros T RH L0 EX LN B1 C01. destruct (slope_bounded dim f y t0 t1 rho L T RH L0 EX LN) as (M & M0 & MB).
  set (A := sumn s (fun i => sumn i (fun j => Rabs (a i j)))). set (Bw := sumn s (fun i => Rabs (b i))).
  assert (RN : forall i, 0 <= sumn i (fun j => Rabs (a i j))) by (intros; apply sumn_nonneg; intros; apply Rabs_pos).
  assert (A0 : 0 <= A) by (apply sumn_nonneg; intros; apply RN).
  assert (AB : forall i, (i < s)%nat -> sumn i (fun j => Rabs (a i j)) <= A).
  { unfold A. clear - RN. induction s as [|n IH]; intros i Hi; [lia|]. cbn [sumn]. destruct (Nat.eq_dec i n) as [->|N].
    - assert (0 <= sumn n (fun i => sumn i (fun j => Rabs (a i j)))) by (apply sumn_nonneg; intros; apply RN). lra.
    - specialize (IH i ltac:(lia)). pose proof (RN n). lra. }
  assert (B0 : 0 <= Bw) by (apply sumn_nonneg; intros; apply Rabs_pos).
  pose proof (K0_pos L M L0 M0 s b A Bw A0 (Rle_refl _)) as KP. set (k0 := K0 L M A Bw) in *.
  set (G := exp (Bw * L * (t1 - t0))). assert (G0 : 0 < G) by apply exp_pos.
  assert (TK : 0 <= (t1 - t0) * k0) by (apply Rmult_le_pos; lra). assert (AM : 0 <= (A + 1) * M) by (apply Rmult_le_pos; lra).
  assert (GT : 0 <= G * (1 + (t1 - t0) * k0)) by (apply Rmult_le_pos; lra). set (q := G * (1 + (t1 - t0) * k0) + (A + 1) * M + 1).
  assert (Q1 : 1 <= q) by (unfold q; lra). exists (rho / q), (G * (1 + (t1 - t0) * k0)). split; [apply Rdiv_lt_0_compat; lra|]. split; [exact GT|].
  intros eta d0 ws x x' D E F TE N ST.
  assert (HQ : rho / q * q = rho) by (field; lra).
  assert (GB : growth t0 L M A Bw d0 eta t1 <= rho / q * (G * (1 + (t1 - t0) * k0))).
  { unfold growth. fold G k0. replace (rho / q * (G * (1 + (t1 - t0) * k0))) with (G * (rho / q + rho / q * ((t1 - t0) * k0))) by ring. apply Rmult_le_compat_l; [lra|]. replace ((t1 - t0) * eta * k0) with (eta * ((t1 - t0) * k0)) by ring.
    assert (eta * ((t1 - t0) * k0) <= rho / q * ((t1 - t0) * k0)) by (apply Rmult_le_compat_r; lra). lra. }
  assert (R : growth t0 L M A Bw d0 eta t1 + eta * ((A + 1) * M) <= rho).
  { assert (eta * ((A + 1) * M) <= rho / q * ((A + 1) * M)) by (apply Rmult_le_compat_r; lra). assert (0 < rho / q) by (apply Rdiv_lt_0_compat; lra). unfold q in HQ at 2. lra. }
  pose proof (many_steps dim f y t0 t1 rho L M EX LN RH L0 M0 MB s a b c A Bw AB A0 (Rle_refl _) B1 C01 d0 eta ltac:(lra) ltac:(lra) R ws t0 x x' ST (Rle_refl _) F TE) as W.
  eapply near_le; [|apply W]. 2:{ unfold growth. rewrite Rminus_eq_0, Rmult_0_r, exp_0. apply (near_le _ d0); [lra|exact N]. }
  assert (SN : 0 <= fold_right Rplus 0 ws). { clear - F. induction F; cbn [fold_right]; lra. }
  pose proof (growth_mono t0 L M L0 M0 s b A Bw A0 (Rle_refl _) d0 eta (t0 + fold_right Rplus 0 ws) t1 ltac:(lra) ltac:(lra) ltac:(lra)) as GM.
  eapply Rle_trans; [apply GM|]. unfold growth. fold G k0. rewrite (Rmult_assoc G (1 + (t1 - t0) * k0) (d0 + eta)). apply Rmult_le_compat_l; [lra|].
  replace ((t1 - t0) * eta * k0) with (eta * ((t1 - t0) * k0)) by ring. assert (0 <= d0 * ((t1 - t0) * k0)) by (apply Rmult_le_pos; lra). lra.
Qed.
