(** The sums of the code are the derivatives of the potential. *)
From Coq Require Import Reals Lra Lia List Arith Bool ZArith.
From Verif Require Import Base RBase VecModel VecProofs GravitySpec GravityHarmonics GravityModel GravityProofs.
Import ListNotations.
Open Scope R_scope.

Notation kk n m := ((INR n - INR m) * (INR n - INR m + 1)).
(** rr times the derivatives of the solid harmonics *)
Section Derivs.
  Variable rr : R.
  Definition dVx n m x y z : R := match m with O => - V rr (S n) 1 x y z | S j => / 2 * (- V rr (S n) (S (S j)) x y z + kk n j * V rr (S n) j x y z) end.
  Definition dVy n m x y z : R := match m with O => - W rr (S n) 1 x y z | S j => / 2 * (- W rr (S n) (S (S j)) x y z - kk n j * W rr (S n) j x y z) end.
  Definition dWx n m x y z : R := match m with O => 0 | S j => / 2 * (- W rr (S n) (S (S j)) x y z + kk n j * W rr (S n) j x y z) end.
  Definition dWy n m x y z : R := match m with O => 0 | S j => / 2 * (V rr (S n) (S (S j)) x y z + kk n j * V rr (S n) j x y z) end.
  Definition dVz n m x y z : R := - (INR n - INR m + 1) * V rr (S n) m x y z.
  Definition dWz n m x y z : R := - (INR n - INR m + 1) * W rr (S n) m x y z.
  Hypothesis Hr : rr <> 0.
  Lemma unscale f x l : derivable_pt_lim (fun v => rr * f v) x l -> derivable_pt_lim f x (/ rr * l).
  Proof. intros D. eapply dpl_ext; [|apply (derivable_pt_lim_scal _ (/ rr) x l D)]. intros v. unfold mult_real_fct. field. exact Hr. Qed.
  Lemma D_Vx n m x y z : off x y z -> derivable_pt_lim (fun v => V rr n m v y z) x (/ rr * dVx n m x y z).
  Proof. intros H. apply unscale. destruct m as [|j]; [now apply V0_dx|now apply V_dx]. Qed.
  Lemma D_Vy n m x y z : off x y z -> derivable_pt_lim (fun v => V rr n m x v z) y (/ rr * dVy n m x y z).
  Proof. intros H. apply unscale. destruct m as [|j]; [now apply V0_dy|now apply V_dy]. Qed.
  Lemma D_Wx n m x y z : off x y z -> derivable_pt_lim (fun v => W rr n m v y z) x (/ rr * dWx n m x y z).
  Proof.
    intros H. apply unscale. destruct m as [|j]; [|now apply W_dx]. cbn [dWx]. eapply dpl_ext; [|apply (derivable_pt_lim_const 0)].
    intros v. unfold fct_cte. rewrite W0. ring.
  Qed.
  Lemma D_Wy n m x y z : off x y z -> derivable_pt_lim (fun v => W rr n m x v z) y (/ rr * dWy n m x y z).
  Proof.
    intros H. apply unscale. destruct m as [|j]; [|now apply W_dy]. cbn [dWy]. eapply dpl_ext; [|apply (derivable_pt_lim_const 0)].
    intros v. unfold fct_cte. rewrite W0. ring.
  Qed.
  Lemma D_Vz n m x y z : off x y z -> derivable_pt_lim (fun v => V rr n m x y v) z (/ rr * dVz n m x y z).
  Proof. intros H. apply unscale. now apply V_dz. Qed.
  Lemma D_Wz n m x y z : off x y z -> derivable_pt_lim (fun v => W rr n m x y v) z (/ rr * dWz n m x y z).
  Proof. intros H. apply unscale. now apply W_dz. Qed.
End Derivs.

(** ** Sums *)
Fixpoint rsum (lo k : nat) (f : nat -> R) : R := match k with O => 0 | S k => rsum lo k f + f (lo + k)%nat end.
Lemma sum_to_rsum n f : sum_to n f = rsum 0 (n + 1) f.
Proof. induction n as [|n IH]; cbn [sum_to Nat.add rsum]; [cbn; ring|]. rewrite IH. replace (n + 1)%nat with (S n) by lia. reflexivity. Qed.
Lemma sum_to_first n f : sum_to n f = f 0%nat + rsum 1 n f.
Proof. induction n as [|n IH]; cbn [sum_to rsum]; [ring|]. rewrite IH. cbn [Nat.add]. ring. Qed.
Lemma sum_to_ext n f h : (forall i, (i <= n)%nat -> f i = h i) -> sum_to n f = sum_to n h.
Proof. intros H. induction n as [|n IH]; cbn [sum_to]; [apply H; lia|]. rewrite IH by (intros; apply H; lia). f_equal. apply H. lia. Qed.
Lemma sum_to_scal n k f : sum_to n (fun i => k * f i) = k * sum_to n f.
Proof. induction n as [|n IH]; cbn [sum_to]; [reflexivity|]. rewrite IH. ring. Qed.
Lemma sum_to_plus n f h : sum_to n (fun i => f i + h i) = sum_to n f + sum_to n h.
Proof. induction n as [|n IH]; cbn [sum_to]; [reflexivity|]. rewrite IH. ring. Qed.
Lemma dpl_sum n (f : nat -> R -> R) x l : (forall i, (i <= n)%nat -> derivable_pt_lim (f i) x (l i)) -> derivable_pt_lim (fun v => sum_to n (fun i => f i v)) x (sum_to n l).
Proof.
  induction n as [|n IH]; intros H; cbn [sum_to]; [apply H; lia|].
  apply (derivable_pt_lim_plus (fun v => sum_to n (fun i => f i v)) (f (S n))); [apply IH; intros; apply H; lia|apply H; lia].
Qed.
Lemma for_up_sum3 (body : nat -> R * R * R -> outcome (R * R * R)) lo k fx fy fz :
  (forall n ax ay az, (lo <= n < lo + k)%nat -> body n (ax, ay, az) = Ok (ax + fx n, ay + fy n, az + fz n)) ->
  forall ax ay az, for_up body lo k (ax, ay, az) = Ok (ax + rsum lo k fx, ay + rsum lo k fy, az + rsum lo k fz).
Proof.
  induction k as [|k IH]; intros H ax ay az.
  - cbn [for_up rsum]. now rewrite !Rplus_0_r.
  - rewrite for_up_app, IH by (intros; apply H; lia). cbn [bind]. rewrite H by lia. cbn [rsum]. now rewrite !Rplus_assoc.
Qed.

(** local equality is enough for a derivative *)
Lemma dpl_local f h x l d : 0 < d -> (forall e, Rabs e < d -> f (x + e) = h (x + e)) -> derivable_pt_lim f x l -> derivable_pt_lim h x l.
Proof.
  intros Hd E D eps He. destruct (D eps He) as [dl Hl]. assert (P : 0 < Rmin dl d) by (apply Rmin_pos; [apply cond_pos|exact Hd]).
  exists (mkposreal _ P). intros e H1 H2. cbn in H2. assert (X : Rabs e < dl) by (eapply Rlt_le_trans; [exact H2|apply Rmin_l]).
  assert (Y : Rabs e < d) by (eapply Rlt_le_trans; [exact H2|apply Rmin_r]). rewrite <- (E e Y).
  pose proof (E 0) as E0. rewrite Rplus_0_r in E0. rewrite <- E0 by (rewrite Rabs_R0; exact Hd). now apply Hl.
Qed.
Lemma near_square a c : 0 < a * a + c -> 0 <= c -> exists d, 0 < d /\ forall e, Rabs e < d -> 0 < (a + e) * (a + e) + c.
Proof.
  intros H C. destruct (Req_dec a 0) as [->|Na].
  - exists 1. split; [lra|]. intros e _. assert (0 < c) by lra. nra.
  - exists (Rabs a). split; [now apply Rabs_pos_lt|]. intros e He.
    assert (a + e <> 0) by (intro Q; assert (e = - a) by lra; subst e; rewrite Rabs_Ropp in He; lra). assert (0 < (a + e) * (a + e)) by nra. lra.
Qed.
Lemma near_x x y z : off x y z -> exists d, 0 < d /\ forall e, Rabs e < d -> off (x + e) y z.
Proof. intros H. unfold off in *. destruct (near_square x (y * y + z * z)) as (d & P & N); [lra|nra|]. exists d. split; [exact P|]. intros e He. specialize (N e He). lra. Qed.
Lemma near_y x y z : off x y z -> exists d, 0 < d /\ forall e, Rabs e < d -> off x (y + e) z.
Proof. intros H. unfold off in *. destruct (near_square y (x * x + z * z)) as (d & P & N); [lra|nra|]. exists d. split; [exact P|]. intros e He. specialize (N e He). lra. Qed.
Lemma near_z x y z : off x y z -> exists d, 0 < d /\ forall e, Rabs e < d -> off x y (z + e).
Proof. intros H. unfold off in *. destruct (near_square z (x * x + y * y)) as (d & P & N); [lra|nra|]. exists d. split; [exact P|]. intros e He. specialize (N e He). lra. Qed.

(** ** Ratios of the normalisation factors *)
Lemma ratio_gen n m n' m' f l : (m <= n)%nat -> (m' <= n')%nat -> 0 <= f -> 0 <= l -> sqn m' (n' - m') * (f * f) = l * l * sqn m (n - m) -> N n' m' * f = l * N n m.
Proof.
  intros H1 H2 Hf Hl E. pose proof (N_ratio m (n - m) m' (n' - m') f l Hf Hl E) as R. replace (m + (n - m))%nat with n in R by lia. replace (m' + (n' - m'))%nat with n' in R by lia. exact R.
Qed.
Ltac start k := match goal with H : (?m <= ?n)%nat |- _ => let e := fresh in destruct (Nat.le_exists_sub m n H) as (k & e & _); rewrite (Nat.add_comm k m) in e; subst n end.
Lemma r_xy n : N (n + 1) 1 * (sqrt ((2 * INR n + 1) / (2 * INR n + 3)) * sqrt ((INR n + 2) * (INR n + 1) / 2)) = N n 0.
Proof.
  rewrite <- (Rmult_1_l (N n 0)). pose proof (pos_INR n). apply ratio_gen; [lia|lia|apply Rmult_le_pos; apply sqrt_pos|lra|].
  rewrite sq2 by (apply Rlt_le; posi). replace (n + 1 - 1)%nat with n by lia. rewrite Nat.sub_0_r. change 1%nat with (S 0). unsq. cbn [Nat.mul Nat.add ee INR]. pose proof (fa_pos n). field. repeat split; lra.
Qed.
Lemma r_0 n : N (n + 1) 0 * sqrt ((2 * INR n + 1) / (2 * INR n + 3)) = N n 0.
Proof.
  rewrite <- (Rmult_1_l (N n 0)). pose proof (pos_INR n). apply ratio_gen; [lia|lia|apply sqrt_pos|lra|].
  rewrite sq1 by (apply Rlt_le; posi). replace (n + 1 - 0)%nat with (S n) by lia. rewrite Nat.sub_0_r. unsq. cbn [Nat.mul Nat.add ee INR]. rewrite ?fa_S. pose proof (fa_pos n). field. repeat split; lra.
Qed.
Section Ratios.
  Variables j k : nat.
  Let n := (S j + k)%nat.
  Let m := S j.
  Let nz := sqrt ((2 * INR n + 1) / (2 * INR n + 3)).
  Lemma r_p : N (n + 1) (m + 1) * (nz * sqrt ((INR n + INR m + 1) * (INR n + INR m + 2))) = N n m.
  Proof.
    rewrite <- (Rmult_1_l (N n m)). unfold nz, n, m. pose proof (pos_INR j). pose proof (pos_INR k). rewrite plus_INR, S_INR.
    apply ratio_gen; [lia|lia|apply Rmult_le_pos; apply sqrt_pos|lra|].
    rewrite sq2 by (apply Rlt_le; posi). replace (S j + k + 1 - (S j + 1))%nat with k by lia. replace (S j + k - S j)%nat with k by lia. replace (S j + 1)%nat with (S (S j)) by lia.
    unsq. cbn [ee INR]. pose proof (fa_pos k). pose proof (fa_pos (2 * j + k)). field. repeat split; lra.
  Qed.
  Lemma r_m : N (n + 1) j * (if (m =? 1)%nat then nz * sqrt ((INR n - INR m + 1) * (INR n - INR m + 2)) * sqrt 2 else nz * sqrt ((INR n - INR m + 1) * (INR n - INR m + 2)))
    = kk n j * N n m.
  Proof.
    pose proof (pos_INR j). pose proof (pos_INR k).
    replace (kk n j) with ((INR k + 1) * (INR k + 2)) by (unfold n; rewrite plus_INR, S_INR; ring).
    replace ((INR n - INR m + 1) * (INR n - INR m + 2)) with ((INR k + 1) * (INR k + 2)) by (unfold n, m; rewrite plus_INR; ring).
    assert (L : (m <= n)%nat) by (unfold m, n; lia). assert (L2 : (j <= n + 1)%nat) by (unfold n; lia).
    assert (PN : 0 < (2 * INR n + 1) / (2 * INR n + 3)) by (pose proof (pos_INR n); posi).
    assert (PK : 0 < (INR k + 1) * (INR k + 2)) by posi. 
    assert (Em : (n - m)%nat = k) by (unfold n, m; lia). assert (Ej : (n + 1 - j)%nat = S (S k)) by (unfold n; lia).
    assert (EN : INR n = INR j + 1 + INR k) by (unfold n; rewrite plus_INR, S_INR; ring).
    pose proof (fa_pos k). pose proof (fa_pos (2 * j + k)). unfold nz. destruct j as [|i].
    - cbn [m]. change (m =? 1)%nat with true. cbv iota. apply ratio_gen; [exact L|exact L2|repeat apply Rmult_le_pos; apply sqrt_pos|lra|].
      match goal with |- _ * (?a * ?b * ?c * (?a * ?b * ?c)) = _ => replace (a * b * c * (a * b * c)) with ((a * b * (a * b)) * (c * c)) by ring end.
      rewrite sq2 by lra. rewrite sq1 by lra. rewrite Em, Ej, EN. unfold m. unsq. cbn [Nat.mul Nat.add ee INR] in *. rewrite ?fa_S, ?S_INR. field. repeat split; lra.
    - change (m =? 1)%nat with false. cbv iota. apply ratio_gen; [exact L|exact L2|apply Rmult_le_pos; apply sqrt_pos|lra|].
      rewrite sq2 by lra. rewrite Em, Ej, EN. unfold m. pose proof (pos_INR i). pose proof (fa_pos (2 * i + k)). unsq. cbn [ee INR]. field. repeat split; lra.
  Qed.
  Lemma r_z : N (n + 1) m * (nz * sqrt ((INR n + INR m + 1) / (INR n - INR m + 1))) = N n m.
  Proof.
    rewrite <- (Rmult_1_l (N n m)). unfold nz, n, m. pose proof (pos_INR j). pose proof (pos_INR k). rewrite plus_INR, S_INR.
    apply ratio_gen; [lia|lia|apply Rmult_le_pos; apply sqrt_pos|lra|].
    rewrite sq2 by (apply Rlt_le; posi). replace (S j + k + 1 - S j)%nat with (S k) by lia. replace (S j + k - S j)%nat with k by lia.
    unsq. cbn [ee INR]. pose proof (fa_pos k). pose proof (fa_pos (2 * j + k)). field. repeat split; lra.
  Qed.
End Ratios.

(** ** Acceleration *)
Ltac trip := apply f_equal; apply f_equal2; [apply f_equal2|]; apply (f_equal (Rplus _)).
Lemma coef_ok deg c n m : has_coefficients deg c -> (m <= n <= deg)%nat -> coef c n m = Ok (coefficient c n m).
Proof.
  intros H L. specialize (H n m L). unfold coef, coefficient. destruct (nth_error c n) as [row|] eqn:E.
  - assert (R : nth n c [] = row) by now apply nth_error_nth. rewrite R in *. now rewrite (nth_error_nth' row 0 H).
  - apply nth_error_None in E. rewrite nth_overflow in H by exact E. cbn in H. lia.
Qed.

Section Acceleration.
  Variables (g : gravity) (x y z : R).
  Hypothesis Hoff : off x y z.
  Hypothesis Hr : gp_r g <> 0.
  Notation rr := (gp_r g).
  Notation c := (coefficient (gp_c g)).
  Notation s := (coefficient (gp_s g)).
  Notation deg := (gp_degree g).
  Hypothesis Hc : has_coefficients deg (gp_c g).
  Hypothesis Hs : has_coefficients deg (gp_s g).
  Definition gx n m x y z := N n m * (c n m * dVx rr n m x y z + s n m * dWx rr n m x y z).
  Definition gy n m x y z := N n m * (c n m * dVy rr n m x y z + s n m * dWy rr n m x y z).
  Definition gz n m x y z := N n m * (c n m * dVz rr n m x y z + s n m * dWz rr n m x y z).

  Variable t : table.
  Hypothesis St : t_size t = (deg + 1 + 1)%nat.
  Hypothesis Ht : forall n m, (m <= n <= deg + 1)%nat -> t_at t n m = spec g x y z n m.
  Notation TG := (table_get g x y z (deg + 1) t _ _ St Ht).

  Lemma acc_m_run n m ax ay az : (1 <= m <= n)%nat -> (n <= deg)%nat ->
    acc_body_m g t n m (ax, ay, az) = Ok (ax + gx n m x y z, ay + gy n m x y z, az + gz n m x y z).
  Proof.
    intros Hm Hn. unfold acc_body_m. rewrite (coef_ok deg _ n m Hc), (coef_ok deg _ n m Hs) by lia. cbn [bind]. rewrite !TG by lia. cbn [bind].
    unfold spec, gx, gy, gz. destruct m as [|j]; [lia|]. cbn [dVx dVy dWx dWy]. unfold dVz, dWz. replace (S j - 1)%nat with j by lia.
    assert (L : (S j <= n)%nat) by lia. clear Hm. start k.
    pose proof (r_p j k) as R1. pose proof (r_m j k) as R2. pose proof (r_z j k) as R3. cbv zeta in R1, R2, R3.
    set (n := (S j + k)%nat) in *. set (nz := sqrt ((2 * INR n + 1) / (2 * INR n + 3))) in *.
    set (k1 := nz * sqrt ((INR n + INR (S j) + 1) * (INR n + INR (S j) + 2))) in *.
    set (k2 := if (S j =? 1)%nat then _ else _) in *. set (k3 := nz * sqrt ((INR n + INR (S j) + 1) / (INR n - INR (S j) + 1))) in *. clearbody k1 k2 k3.
    replace (n + 1)%nat with (S n) in * by lia. replace (S j + 1)%nat with (S (S j)) in * by lia.
    set (vp := V rr (S n) (S (S j)) x y z). set (wp := W rr (S n) (S (S j)) x y z). set (vm := V rr (S n) j x y z). set (wm := W rr (S n) j x y z).
    set (v0 := V rr (S n) (S j) x y z). set (w0 := W rr (S n) (S j) x y z). set (cc := c n (S j)). set (ss := s n (S j)).
    assert (Q1 : kk n j * N n (S j) * vm = N (S n) j * k2 * vm) by (now rewrite R2). assert (Q2 : kk n j * N n (S j) * wm = N (S n) j * k2 * wm) by (now rewrite R2).
    trip.
    - transitivity (0.5 * ((N (S n) (S (S j)) * k1) * (- cc * vp - ss * wp) + (N (S n) j * k2) * (cc * vm + ss * wm))); [ring|]. rewrite R1, R2. lra.
    - transitivity (0.5 * ((N (S n) (S (S j)) * k1) * (- cc * wp + ss * vp) + (N (S n) j * k2) * (- cc * wm + ss * vm))); [ring|]. rewrite R1, R2. lra.
    - transitivity ((INR n - INR (S j) + 1) * (N (S n) (S j) * k3) * (- cc * v0 - ss * w0)); [ring|]. rewrite R3. ring.
  Qed.
  Lemma acc_run n ax ay az : (n <= deg)%nat ->
    acc_body g t n (ax, ay, az) = Ok (ax + sum_to n (fun m => gx n m x y z), ay + sum_to n (fun m => gy n m x y z), az + sum_to n (fun m => gz n m x y z)).
  Proof.
    intros Hn. unfold acc_body. rewrite (coef_ok deg _ n 0 Hc), (coef_ok deg _ n 0 Hs) by lia. cbn [bind]. rewrite !TG by lia. cbn [bind spec].
    rewrite (for_up_sum3 _ 1 n (fun m => gx n m x y z) (fun m => gy n m x y z) (fun m => gz n m x y z)) by (intros; apply acc_m_run; lia).
    rewrite !sum_to_first, <- !Rplus_assoc. pose proof (r_xy n) as R1. pose proof (r_0 n) as R2. set (nz := sqrt ((2 * INR n + 1) / (2 * INR n + 3))) in *.
    set (k1 := nz * sqrt ((INR n + 2) * (INR n + 1) / 2)) in *. clearbody k1. clearbody nz. unfold gx at 2, gy at 2, gz at 2. cbn [dVx dVy dWx dWy]. unfold dVz, dWz. replace (n + 1)%nat with (S n) in * by lia. cbn [INR].
    set (v1 := V rr (S n) 1 x y z). set (w1 := W rr (S n) 1 x y z). set (v0 := V rr (S n) 0 x y z). set (w0 := W rr (S n) 0 x y z).
    apply f_equal; apply f_equal2; [apply f_equal2|]; (apply (f_equal2 Rplus); [|reflexivity]); apply (f_equal (Rplus _)).
    - transitivity (- c n 0 * v1 * (N (S n) 1 * k1)); [ring|]. rewrite R1. ring.
    - transitivity (- c n 0 * w1 * (N (S n) 1 * k1)); [ring|]. rewrite R1. ring.
    - transitivity ((INR n + 1) * (- c n 0 * v0 - s n 0 * w0) * (N (S n) 0 * nz)); [ring|]. rewrite R2. ring.
  Qed.
End Acceleration.
Definition tot (deg : nat) (f : nat -> nat -> R -> R -> R -> R) (x y z : R) : R := sum_to deg (fun n => sum_to n (fun m => f n m x y z)).

Lemma place_norm x y z : place_of (v3 x y z) = pl x y z.
Proof. unfold place_of, pl, radius, norm, dot. cbn [v3 sumn]. f_equal. f_equal. ring. Qed.
Lemma acceleration_run g x y z : off x y z -> has_coefficients (gp_degree g) (gp_c g) -> has_coefficients (gp_degree g) (gp_s g) -> (1 <= gp_degree g)%nat ->
  calc_acceleration g (v3 x y z) = Ok (v3 (tot (gp_degree g) (gx g) x y z * (gp_mu g / gp_r g ^ 2)) (tot (gp_degree g) (gy g) x y z * (gp_mu g / gp_r g ^ 2)) (tot (gp_degree g) (gz g) x y z * (gp_mu g / gp_r g ^ 2))).
Proof.
  intros H Hc Hs Hd. unfold calc_acceleration. replace (gp_degree g <=? 0)%nat with false by (symmetry; apply Nat.leb_gt; lia).
  rewrite place_norm. destruct (table_run g x y z H (gp_degree g + 1)) as (t & E & St & Ht). rewrite E. cbn [bind].
  rewrite (for_up_sum3 _ 0 (gp_degree g + 1) (fun n => sum_to n (fun m => gx g n m x y z)) (fun n => sum_to n (fun m => gy g n m x y z)) (fun n => sum_to n (fun m => gz g n m x y z)))
    by (intros; apply acc_run; try assumption; lia).
  cbn [bind]. rewrite <- !sum_to_rsum, !Rplus_0_l. reflexivity.
Qed.

Definition pot_term (g : gravity) n m x y z : R := N n m * (coefficient (gp_c g) n m * V (gp_r g) n m x y z + coefficient (gp_s g) n m * W (gp_r g) n m x y z).
Lemma potential_tot g deg x y z : off x y z ->
  potential (gp_mu g) (gp_r g) deg (coefficient (gp_c g)) (coefficient (gp_s g)) x y z = gp_mu g / gp_r g * tot deg (pot_term g) x y z.
Proof. intros H. unfold potential, tot. f_equal. apply sum_to_ext. intros n _. apply sum_to_ext. intros m _. unfold pot_term. now rewrite solid_VW by exact H. Qed.
Lemma dpl_lin k a b f h x l l' : derivable_pt_lim f x l -> derivable_pt_lim h x l' -> derivable_pt_lim (fun v => k * (a * f v + b * h v)) x (k * (a * l + b * l')).
Proof.
  intros D1 D2. apply (derivable_pt_lim_scal (fun v => a * f v + b * h v)). apply (derivable_pt_lim_plus (fun v => a * f v) (fun v => b * h v)); now apply derivable_pt_lim_scal.
Qed.
Lemma dpl_tot deg (f : nat -> nat -> R -> R) x l : (forall n m, (m <= n <= deg)%nat -> derivable_pt_lim (f n m) x (l n m)) ->
  derivable_pt_lim (fun v => sum_to deg (fun n => sum_to n (fun m => f n m v))) x (sum_to deg (fun n => sum_to n (l n))).
Proof. intros H. apply (dpl_sum deg (fun n v => sum_to n (fun m => f n m v))). intros n Hn. apply (dpl_sum n (fun m v => f n m v)). intros m Hm. apply H. lia. Qed.
Lemma gradient_run g deg x y z : off x y z -> gp_r g <> 0 ->
  gradient_at (potential (gp_mu g) (gp_r g) deg (coefficient (gp_c g)) (coefficient (gp_s g))) x y z
    (tot deg (gx g) x y z * (gp_mu g / gp_r g ^ 2)) (tot deg (gy g) x y z * (gp_mu g / gp_r g ^ 2)) (tot deg (gz g) x y z * (gp_mu g / gp_r g ^ 2)).
Proof.
  intros H Hr. assert (K : forall f, tot deg f x y z * (gp_mu g / gp_r g ^ 2) = gp_mu g / gp_r g * tot deg (fun n m x y z => / gp_r g * f n m x y z) x y z).
  { intros f. unfold tot. rewrite (sum_to_ext deg (fun n => sum_to n (fun m => / gp_r g * f n m x y z)) (fun n => / gp_r g * sum_to n (fun m => f n m x y z))) by (intros; apply sum_to_scal). rewrite sum_to_scal. field. exact Hr. }
  rewrite !K. unfold gradient_at. repeat split.
  - destruct (near_x x y z H) as (d & P & O). apply (dpl_local (fun v => gp_mu g / gp_r g * tot deg (pot_term g) v y z) _ x _ d P); [intros e He; symmetry; apply potential_tot, O, He|].
    apply derivable_pt_lim_scal. unfold tot. apply (dpl_tot deg (fun n m v => pot_term g n m v y z)). intros n m Hn. unfold pot_term, gx.
    eapply dpl_ext2; [|apply dpl_lin; [apply (D_Vx _ Hr n m x y z H)|apply (D_Wx _ Hr n m x y z H)]]. ring.
  - destruct (near_y x y z H) as (d & P & O). apply (dpl_local (fun v => gp_mu g / gp_r g * tot deg (pot_term g) x v z) _ y _ d P); [intros e He; symmetry; apply potential_tot, O, He|].
    apply derivable_pt_lim_scal. unfold tot. apply (dpl_tot deg (fun n m v => pot_term g n m x v z)). intros n m Hn. unfold pot_term, gy.
    eapply dpl_ext2; [|apply dpl_lin; [apply (D_Vy _ Hr n m x y z H)|apply (D_Wy _ Hr n m x y z H)]]. ring.
  - destruct (near_z x y z H) as (d & P & O). apply (dpl_local (fun v => gp_mu g / gp_r g * tot deg (pot_term g) x y v) _ z _ d P); [intros e He; symmetry; apply potential_tot, O, He|].
    apply derivable_pt_lim_scal. unfold tot. apply (dpl_tot deg (fun n m v => pot_term g n m x y v)). intros n m Hn. unfold pot_term, gz.
    eapply dpl_ext2; [|apply dpl_lin; [apply (D_Vz _ Hr n m x y z H)|apply (D_Wz _ Hr n m x y z H)]]. ring.
Qed.
