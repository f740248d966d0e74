(** The partial derivatives of the acceleration. *)
From Coq Require Import Reals Lra Lia List Arith Bool ZArith.
From Verif Require Import Base RBase VecModel VecProofs GravitySpec GravityHarmonics GravityModel GravityProofs GravityGrad.
Import ListNotations.
Open Scope R_scope.

Lemma sq2' p q : 0 <= p -> 0 <= q -> (sqrt p * sqrt q) * (sqrt p * sqrt q) = p * q. Proof. exact (sq2 p q). Qed.
(** ratios over two degrees *)
Definition v20 (n : nat) : R := sqrt ((2 * INR n + 1) / (2 * INR n + 5)).
Lemma ratio1 n m n' m' p q : (m <= n)%nat -> (m' <= n')%nat -> 0 < p -> 0 < q -> sqn m' (n' - m') * (p * q) = sqn m (n - m) -> N n' m' * (sqrt p * sqrt q) = N n m.
Proof.
  intros H1 H2 Hp Hq E. rewrite <- (Rmult_1_l (N n m)). apply ratio_gen; [exact H1|exact H2|apply Rmult_le_pos; apply sqrt_pos|lra|]. rewrite sq2 by lra. rewrite E. ring.
Qed.
Lemma p5 n : 0 < (2 * INR n + 1) / (2 * INR n + 5). Proof. pose proof (pos_INR n). posi. Qed.
Lemma q_00 n : N (n + 2) 0 * v20 n = N n 0.
Proof.
  unfold v20. rewrite <- (Rmult_1_l (N n 0)). pose proof (pos_INR n). apply ratio_gen; [lia|lia|apply sqrt_pos|lra|]. rewrite sq1 by (apply Rlt_le, p5).
  replace (n + 2 - 0)%nat with (S (S n)) by lia. rewrite Nat.sub_0_r. unsq. cbn [Nat.mul Nat.add ee INR]. rewrite ?fa_S, ?S_INR. pose proof (fa_pos n). field. repeat split; lra.
Qed.
Lemma q_01 n : N (n + 2) 1 * (v20 n * sqrt ((INR n + 2) * (INR n + 3) / 2)) = N n 0.
Proof.
  pose proof (pos_INR n). apply ratio1; [lia|lia|apply p5|posi|].
  replace (n + 2 - 1)%nat with (S n) by lia. rewrite Nat.sub_0_r. change 1%nat with (S 0). unsq. cbn [Nat.mul Nat.add ee INR]. rewrite ?fa_S, ?S_INR. pose proof (fa_pos n). field. repeat split; lra.
Qed.
Lemma q_02 n : N (n + 2) 2 * (v20 n * sqrt ((INR n + 1) * (INR n + 2) * (INR n + 3) * (INR n + 4) / 2)) = N n 0.
Proof.
  pose proof (pos_INR n). apply ratio1; [lia|lia|apply p5|posi|].
  replace (n + 2 - 2)%nat with n by lia. rewrite Nat.sub_0_r. change 2%nat with (S (S 0)). unsq. cbn [Nat.mul Nat.add ee INR]. rewrite ?fa_S, ?S_INR. pose proof (fa_pos n). field. repeat split; lra.
Qed.
Lemma q_11 n : (1 <= n)%nat -> N (n + 2) 1 * (v20 n * sqrt ((INR n + 2) * (INR n + 3) / (INR n * (INR n + 1)))) = N n 1.
Proof.
  intros H. destruct n as [|n]; [lia|]. pose proof (pos_INR n). apply ratio1; [lia|lia|apply p5|rewrite S_INR; posi|].
  replace (S n + 2 - 1)%nat with (S (S n)) by lia. replace (S n - 1)%nat with n by lia. change 1%nat with (S 0). unsq. cbn [Nat.mul Nat.add ee INR]. rewrite ?fa_S, ?S_INR. pose proof (fa_pos n). field. repeat split; lra.
Qed.
Lemma q_13 n : (1 <= n)%nat -> N (n + 2) 3 * (v20 n * sqrt ((INR n + 2) * (INR n + 3) * (INR n + 4) * (INR n + 5))) = N n 1.
Proof.
  intros H. destruct n as [|n]; [lia|]. pose proof (pos_INR n). apply ratio1; [lia|lia|apply p5|rewrite S_INR; posi|].
  replace (S n + 2 - 3)%nat with n by lia. replace (S n - 1)%nat with n by lia. change 1%nat with (S 0). change 3%nat with (S (S (S 0))). unsq. cbn [Nat.mul Nat.add ee INR]. rewrite ?fa_S, ?S_INR. pose proof (fa_pos n). field. repeat split; lra.
Qed.
Ltac prep n m k := pose proof (pos_INR m); pose proof (pos_INR k); pose proof (fa_pos k); pose proof (fa_pos (2 * m + k)).
Lemma q_0 n m : (m <= n)%nat -> N (n + 2) m * (v20 n * sqrt ((INR n + INR m + 1) * (INR n + INR m + 2) / ((INR n - INR m + 1) * (INR n - INR m + 2)))) = N n m.
Proof.
  intros H. start k. prep n m k. apply ratio1; [lia|lia|apply p5|rewrite plus_INR; posi|].
  replace (m + k + 2 - m)%nat with (S (S k)) by lia. replace (m + k - m)%nat with k by lia. unsq. cbn [INR]. pose proof (ee_pos m). field. repeat split; lra.
Qed.
Lemma q_p2 n m : (1 <= m <= n)%nat -> N (n + 2) (m + 2) * (v20 n * sqrt ((INR n + INR m + 1) * (INR n + INR m + 2) * (INR n + INR m + 3) * (INR n + INR m + 4))) = N n m.
Proof.
  intros [H0 H]. start k. prep n m k. apply ratio1; [lia|lia|apply p5|rewrite plus_INR; posi|].
  replace (m + k + 2 - (m + 2))%nat with k by lia. replace (m + k - m)%nat with k by lia. replace (m + 2)%nat with (S (S m)) by lia. unsq. cbn [INR].
  destruct m as [|m]; [lia|]. cbn [ee]. field. repeat split; lra.
Qed.
Lemma q_m2 n m : (2 <= m <= n)%nat ->
  N (n + 2) (m - 2) * (v20 n * sqrt ((if (m =? 2)%nat then 2 else 1) / ((INR n - INR m + 1) * (INR n - INR m + 2) * (INR n - INR m + 3) * (INR n - INR m + 4)))) = N n m.
Proof.
  intros [H0 H]. start k. destruct m as [|[|i]]; [lia|lia|]. replace (S (S i) - 2)%nat with i by lia. prep n i k.
  assert (E : (if (S (S i) =? 2)%nat then 2 else 1) = 2 / ee i) by (destruct i; cbn; field). rewrite E. pose proof (ee_pos i).
  assert (EN : INR (S (S i) + k) - INR (S (S i)) = INR k) by (rewrite plus_INR; ring). rewrite EN.
  apply ratio1; [lia|lia|apply p5|posi|].
  replace (S (S i) + k + 2 - i)%nat with (S (S (S (S k)))) by lia. replace (S (S i) + k - S (S i))%nat with k by lia. unsq. cbn [INR]. set (e := ee i) in *. clearbody e. cbn [ee]. field. repeat split; lra.
Qed.
Lemma q_p1 n m : (1 <= m <= n)%nat -> N (n + 2) (m + 1) * (v20 n * sqrt ((INR n + INR m + 1) * (INR n + INR m + 2) * (INR n + INR m + 3) / (INR n - INR m + 1))) = N n m.
Proof.
  intros [H0 H]. start k. prep n m k. apply ratio1; [lia|lia|apply p5|rewrite plus_INR; posi|].
  replace (m + k + 2 - (m + 1))%nat with (S k) by lia. replace (m + k - m)%nat with k by lia. replace (m + 1)%nat with (S m) by lia. unsq. cbn [INR].
  destruct m as [|m]; [lia|]. cbn [ee]. field. repeat split; lra.
Qed.
Lemma q_m1 n m : (1 <= m <= n)%nat ->
  N (n + 2) (m - 1) * (v20 n * sqrt ((if (m =? 1)%nat then 2 * (INR n + INR m + 1) else INR n + INR m + 1) / ((INR n - INR m + 1) * (INR n - INR m + 2) * (INR n - INR m + 3)))) = N n m.
Proof.
  intros [H0 H]. start k. destruct m as [|i]; [lia|]. replace (S i - 1)%nat with i by lia. prep n i k.
  assert (E : forall r, (if (S i =? 1)%nat then 2 * r else r) = 2 / ee i * r) by (intros r; destruct i; cbn; field). rewrite E. pose proof (ee_pos i).
  assert (EN : INR (S i + k) - INR (S i) = INR k) by (rewrite plus_INR; ring). rewrite EN.
  apply ratio1; [lia|lia|apply p5|rewrite plus_INR, S_INR; posi|].
  replace (S i + k + 2 - i)%nat with (S (S (S k))) by lia. replace (S i + k - S i)%nat with k by lia. unsq. cbn [INR]. set (e := ee i) in *. clearbody e. cbn [ee]. field. repeat split; lra.
Qed.

(** ** Second derivatives of the solid harmonics (times rr^2): rr times the derivatives of [dVx] ... [dWz] *)
Section Second.
  Variable rr : R.
  (** the derivative of dVx in the direction in which V derives to d *)
  Definition ofVx (d : nat -> nat -> R -> R -> R -> R) n m x y z : R :=
    match m with O => - d (S n) 1%nat x y z | S j => / 2 * (- d (S n) (S (S j)) x y z + kk n j * d (S n) j x y z) end.
  Definition ofVy (d : nat -> nat -> R -> R -> R -> R) n m x y z : R :=
    match m with O => - d (S n) 1%nat x y z | S j => / 2 * (- d (S n) (S (S j)) x y z - kk n j * d (S n) j x y z) end.
  Definition ofWx (d : nat -> nat -> R -> R -> R -> R) n m x y z : R :=
    match m with O => 0 | S j => / 2 * (- d (S n) (S (S j)) x y z + kk n j * d (S n) j x y z) end.
  Definition ofWy (d : nat -> nat -> R -> R -> R -> R) n m x y z : R :=
    match m with O => 0 | S j => / 2 * (d (S n) (S (S j)) x y z + kk n j * d (S n) j x y z) end.
  Definition ofz (d : nat -> nat -> R -> R -> R -> R) n m x y z : R := - (INR n - INR m + 1) * d (S n) m x y z.

  (** one variable: p is the coordinate, at p the functions V n m derive to / rr * lV n m *)
  Lemma dpl_neg f x l : derivable_pt_lim f x l -> derivable_pt_lim (fun v => - f v) x (- l).
  Proof. apply derivable_pt_lim_opp. Qed.
  Section OneVar.
    Variables (f : nat -> nat -> R -> R) (x : R) (l : nat -> nat -> R).
    Hypothesis D : forall n m, derivable_pt_lim (f n m) x (/ rr * l n m).
    Lemma dpl_pair n m n' m' a b : derivable_pt_lim (fun v => / 2 * (a * f n m v + b * f n' m' v)) x (/ rr * (/ 2 * (a * l n m + b * l n' m'))).
    Proof. eapply dpl_ext2; [|apply dpl_lin; [apply (D n m)|apply (D n' m')]]. ring. Qed.
    Lemma dpl_one n m a : derivable_pt_lim (fun v => a * f n m v) x (/ rr * (a * l n m)).
    Proof. eapply dpl_ext2; [|apply derivable_pt_lim_scal, (D n m)]. ring. Qed.
  End OneVar.
  (** a direction: p runs through the line, V and W derive to dV and dW at the point *)
  Section Direction.
    Variables (px py pz : R -> R) (v0 : R) (dV dW : nat -> nat -> R -> R -> R -> R).
    Notation X := (px v0). Notation Y := (py v0). Notation Z := (pz v0).
    Hypothesis DV : forall n m, derivable_pt_lim (fun v => V rr n m (px v) (py v) (pz v)) v0 (/ rr * dV n m X Y Z).
    Hypothesis DW : forall n m, derivable_pt_lim (fun v => W rr n m (px v) (py v) (pz v)) v0 (/ rr * dW n m X Y Z).
    Ltac fin l := eapply dpl_ext; [|eapply dpl_ext2; [|apply l]]; [intros v; cbn beta; ring|ring].
    Lemma D2_Vx n m : derivable_pt_lim (fun v => dVx rr n m (px v) (py v) (pz v)) v0 (/ rr * ofVx dV n m X Y Z).
    Proof.
      destruct m as [|j]; cbn [dVx ofVx].
      - fin (dpl_one _ _ _ DV (S n) 1%nat (-1)).
      - fin (dpl_pair _ _ _ DV (S n) (S (S j)) (S n) j (-1) (kk n j)).
    Qed.
    Lemma D2_Wx n m : derivable_pt_lim (fun v => dWx rr n m (px v) (py v) (pz v)) v0 (/ rr * ofWx dW n m X Y Z).
    Proof.
      destruct m as [|j]; cbn [dWx ofWx].
      - fin (dpl_one _ _ _ DW (S n) 1%nat 0).
      - fin (dpl_pair _ _ _ DW (S n) (S (S j)) (S n) j (-1) (kk n j)).
    Qed.
    Lemma D2_Vy n m : derivable_pt_lim (fun v => dVy rr n m (px v) (py v) (pz v)) v0 (/ rr * ofVy dW n m X Y Z).
    Proof.
      destruct m as [|j]; cbn [dVy ofVy].
      - fin (dpl_one _ _ _ DW (S n) 1%nat (-1)).
      - fin (dpl_pair _ _ _ DW (S n) (S (S j)) (S n) j (-1) (- kk n j)).
    Qed.
    Lemma D2_Wy n m : derivable_pt_lim (fun v => dWy rr n m (px v) (py v) (pz v)) v0 (/ rr * ofWy dV n m X Y Z).
    Proof.
      destruct m as [|j]; cbn [dWy ofWy].
      - fin (dpl_one _ _ _ DV (S n) 1%nat 0).
      - fin (dpl_pair _ _ _ DV (S n) (S (S j)) (S n) j 1 (kk n j)).
    Qed.
    Lemma D2_Vz n m : derivable_pt_lim (fun v => dVz rr n m (px v) (py v) (pz v)) v0 (/ rr * ofz dV n m X Y Z).
    Proof. unfold dVz, ofz. apply (dpl_one _ _ _ DV (S n) m). Qed.
    Lemma D2_Wz n m : derivable_pt_lim (fun v => dWz rr n m (px v) (py v) (pz v)) v0 (/ rr * ofz dW n m X Y Z).
    Proof. unfold dWz, ofz. apply (dpl_one _ _ _ DW (S n) m). Qed.
  End Direction.
End Second.

Definition hterm (g : gravity) (ddV ddW : nat -> nat -> R -> R -> R -> R) n m x y z : R :=
  N n m * (coefficient (gp_c g) n m * ddV n m x y z + coefficient (gp_s g) n m * ddW n m x y z).
Definition hxx g := hterm g (ofVx (dVx (gp_r g))) (ofWx (dWx (gp_r g))).
Definition hxy g := hterm g (ofVx (dVy (gp_r g))) (ofWx (dWy (gp_r g))).
Definition hxz g := hterm g (ofVx (dVz (gp_r g))) (ofWx (dWz (gp_r g))).
Definition hyx g := hterm g (ofVy (dWx (gp_r g))) (ofWy (dVx (gp_r g))).
Definition hyy g := hterm g (ofVy (dWy (gp_r g))) (ofWy (dVy (gp_r g))).
Definition hyz g := hterm g (ofVy (dWz (gp_r g))) (ofWy (dVz (gp_r g))).
Definition hzx g := hterm g (ofz (dVx (gp_r g))) (ofz (dWx (gp_r g))).
Definition hzy g := hterm g (ofz (dVy (gp_r g))) (ofz (dWy (gp_r g))).
Definition hzz g := hterm g (ofz (dVz (gp_r g))) (ofz (dWz (gp_r g))).

(** symmetry and Laplace's equation, term by term *)
Ltac hcases m := destruct m as [|[|[|m]]]; unfold hxx, hxy, hxz, hyx, hyy, hyz, hzx, hzy, hzz, hterm, ofVx, ofVy, ofWx, ofWy, ofz, dVz, dWz;
  cbn [dVx dVy dWx dWy]; rewrite ?W0, ?S_INR; cbn [INR]; field.
Lemma sym_xy g n m x y z : hyx g n m x y z = hxy g n m x y z. Proof. hcases m. Qed.
Lemma sym_xz g n m x y z : hzx g n m x y z = hxz g n m x y z. Proof. hcases m. Qed.
Lemma sym_yz g n m x y z : hzy g n m x y z = hyz g n m x y z. Proof. hcases m. Qed.
Lemma h_laplace g n m x y z : hxx g n m x y z + hyy g n m x y z + hzz g n m x y z = 0. Proof. hcases m. Qed.

(** ** The code *)
  (** sums of the six components *)
  Definition add_h (h : hess) (xx yy xy xz yz zz : R) : hess := mkHess (h_xx h + xx) (h_yy h + yy) (h_xy h + xy) (h_xz h + xz) (h_yz h + yz) (h_zz h + zz).
  Lemma for_up_sum6 (body : nat -> hess -> outcome hess) lo k fxx fyy fxy fxz fyz fzz :
    (forall n h, (lo <= n < lo + k)%nat -> body n h = Ok (add_h h (fxx n) (fyy n) (fxy n) (fxz n) (fyz n) (fzz n))) ->
    forall h, for_up body lo k h = Ok (add_h h (rsum lo k fxx) (rsum lo k fyy) (rsum lo k fxy) (rsum lo k fxz) (rsum lo k fyz) (rsum lo k fzz)).
  Proof.
    induction k as [|k IH]; intros H h.
    - cbn [for_up rsum]. unfold add_h. rewrite !Rplus_0_r. destruct h; reflexivity.
    - rewrite for_up_app, IH by (intros; apply H; lia). cbn [bind]. rewrite H by lia. unfold add_h. cbn [rsum h_xx h_yy h_xy h_xz h_yz h_zz]. now rewrite !Rplus_assoc.
  Qed.
Section Hess.
  Variables (g : gravity) (x y z : R).
  Hypothesis Hoff : off x y z.
  Notation rr := (gp_r g).
  Notation c := (coefficient (gp_c g)).
  Notation s := (coefficient (gp_s g)).
  Notation deg := (gp_degree g).
  Hypothesis Hc : has_coefficients deg (gp_c g).
  Hypothesis Hs : has_coefficients deg (gp_s g).
  Variable t : table.
  Hypothesis St : t_size t = (deg + 2 + 1)%nat.
  Hypothesis Ht : forall n m, (m <= n <= deg + 2)%nat -> t_at t n m = spec g x y z n m.
  Notation TG := (table_get g x y z (deg + 2) t _ _ St Ht).
  Definition plus_h (h : hess) (n m : nat) : hess :=
    mkHess (h_xx h + hxx g n m x y z) (h_yy h + hyy g n m x y z) (h_xy h + hxy g n m x y z) (h_xz h + hxz g n m x y z) (h_yz h + hyz g n m x y z) (h_zz h + hzz g n m x y z).
  Lemma solve_for a b k : 0 < a -> a * k = b -> k = b / a.
  Proof. intros H E. rewrite <- E. field. lra. Qed.
  Lemma N_pos' n m : (m <= n)%nat -> 0 < N n m.
  Proof. intros H. pose proof (N_pos m (n - m)) as P. replace (m + (n - m))%nat with n in P by lia. exact P. Qed.

  Lemma hess_xy_run n m h : (m <= n <= deg)%nat ->
    hess_xy g t n m h = Ok (mkHess (h_xx h + hxx g n m x y z) (h_yy h + hyy g n m x y z) (h_xy h + hxy g n m x y z) (h_xz h) (h_yz h) (h_zz h)).
  Proof.
    intros H. unfold hess_xy. fold (v20 n). destruct m as [|[|m]].
    - cbn [Nat.eqb]. rewrite (coef_ok deg _ n 0 Hc) by lia. cbn [bind]. rewrite !TG by lia. cbn [bind spec].
      unfold hxx, hyy, hxy, hterm, ofVx, ofVy, ofWx, ofWy. cbn [dVx dVy dWx dWy]. rewrite !S_INR. cbn [INR]. rewrite ?W0.
      rewrite (solve_for _ _ _ (N_pos' (n + 2) 2 ltac:(lia)) (q_02 n)). rewrite (solve_for _ _ _ (N_pos' (n + 2) 0 ltac:(lia)) (q_00 n)).
      pose proof (N_pos' (n + 2) 2 ltac:(lia)). pose proof (N_pos' (n + 2) 0 ltac:(lia)). replace (n + 2)%nat with (S (S n)) in * by lia.
      replace 0.5 with (/ 2) by lra. apply f_equal. f_equal; apply (f_equal (Rplus _)); field; lra.
    - cbn [Nat.eqb]. rewrite (coef_ok deg _ n 1 Hc), (coef_ok deg _ n 1 Hs) by lia. cbn [bind]. rewrite !TG by lia. cbn [bind spec].
      unfold hxx, hyy, hxy, hterm, ofVx, ofVy, ofWx, ofWy. cbn [dVx dVy dWx dWy]. rewrite !S_INR. cbn [INR]. rewrite ?W0.
      rewrite (solve_for _ _ _ (N_pos' (n + 2) 1 ltac:(lia)) (q_11 n ltac:(lia))). rewrite (solve_for _ _ _ (N_pos' (n + 2) 3 ltac:(lia)) (q_13 n ltac:(lia))).
      pose proof (N_pos' (n + 2) 1 ltac:(lia)). pose proof (N_pos' (n + 2) 3 ltac:(lia)). replace (n + 2)%nat with (S (S n)) in * by lia.
      replace 0.25 with (/ 4) by lra. apply f_equal. f_equal; apply (f_equal (Rplus _)); field; lra.
    - replace (S (S m) =? 0)%nat with false by reflexivity. replace (S (S m) =? 1)%nat with false by reflexivity. cbv iota.
      rewrite (coef_ok deg _ n (S (S m)) Hc), (coef_ok deg _ n (S (S m)) Hs) by lia. cbn [bind]. rewrite !TG by lia. cbn [bind spec].
      assert (R1 := solve_for _ _ _ (N_pos' (n + 2) (S (S m) + 2) ltac:(lia)) (q_p2 n (S (S m)) ltac:(lia))).
      assert (R2 := solve_for _ _ _ (N_pos' (n + 2) (S (S m) - 2) ltac:(lia)) (q_m2 n (S (S m)) ltac:(lia))).
      assert (R3 := solve_for _ _ _ (N_pos' (n + 2) (S (S m)) ltac:(lia)) (q_0 n (S (S m)) ltac:(lia))).
      rewrite R1, R2, R3. clear R1 R2 R3.
      unfold hxx, hyy, hxy, hterm, ofVx, ofVy, ofWx, ofWy. cbn [dVx dVy dWx dWy].
      pose proof (N_pos' (n + 2) (S (S m) + 2) ltac:(lia)). pose proof (N_pos' (n + 2) (S (S m) - 2) ltac:(lia)). pose proof (N_pos' (n + 2) (S (S m)) ltac:(lia)).
      replace (S (S m) - 2)%nat with m in * by lia. replace (S (S m) + 2)%nat with (S (S (S (S m)))) in * by lia. replace (n + 2)%nat with (S (S n)) in * by lia.
      rewrite !S_INR. replace 0.25 with (/ 4) by lra.
      destruct m as [|m]; cbn [dVx dVy dWx dWy]; rewrite ?S_INR, ?W0; cbn [INR]; (apply f_equal; f_equal; apply (f_equal (Rplus _)); field; lra).
  Qed.
  Lemma hess_z_run n m h : (m <= n <= deg)%nat ->
    hess_z g t n m h = Ok (mkHess (h_xx h) (h_yy h) (h_xy h) (h_xz h + hxz g n m x y z) (h_yz h + hyz g n m x y z) (h_zz h)).
  Proof.
    intros H. unfold hess_z. fold (v20 n). destruct m as [|m].
    - cbn [Nat.eqb]. rewrite (coef_ok deg _ n 0 Hc) by lia. cbn [bind]. rewrite !TG by lia. cbn [bind spec].
      unfold hxz, hyz, hterm, ofVx, ofVy, ofWx, ofWy, dVz, dWz. rewrite ?S_INR. cbn [INR]. rewrite ?W0.
      rewrite (solve_for _ _ _ (N_pos' (n + 2) 1 ltac:(lia)) (q_01 n)). pose proof (N_pos' (n + 2) 1 ltac:(lia)). replace (n + 2)%nat with (S (S n)) in * by lia.
      apply f_equal. f_equal; apply (f_equal (Rplus _)); field; lra.
    - replace (S m =? 0)%nat with false by reflexivity. cbv iota.
      rewrite (coef_ok deg _ n (S m) Hc), (coef_ok deg _ n (S m) Hs) by lia. cbn [bind]. rewrite !TG by lia. cbn [bind spec].
      assert (R1 := solve_for _ _ _ (N_pos' (n + 2) (S m + 1) ltac:(lia)) (q_p1 n (S m) ltac:(lia))).
      assert (R2 := solve_for _ _ _ (N_pos' (n + 2) (S m - 1) ltac:(lia)) (q_m1 n (S m) ltac:(lia))).
      rewrite R1, R2. clear R1 R2.
      unfold hxz, hyz, hterm, ofVx, ofVy, ofWx, ofWy, dVz, dWz.
      pose proof (N_pos' (n + 2) (S m + 1) ltac:(lia)). pose proof (N_pos' (n + 2) (S m - 1) ltac:(lia)).
      replace (S m - 1)%nat with m in * by lia. replace (S m + 1)%nat with (S (S m)) in * by lia. replace (n + 2)%nat with (S (S n)) in * by lia.
      rewrite !S_INR. replace 0.5 with (/ 2) by lra. apply f_equal. f_equal; apply (f_equal (Rplus _)); field; lra.
  Qed.
  Lemma hess_zz_run n m h : (m <= n <= deg)%nat ->
    hess_zz g t n m h = Ok (mkHess (h_xx h) (h_yy h) (h_xy h) (h_xz h) (h_yz h) (h_zz h + hzz g n m x y z)).
  Proof.
    intros H. unfold hess_zz. fold (v20 n). rewrite (coef_ok deg _ n m Hc), (coef_ok deg _ n m Hs) by lia. cbn [bind]. rewrite !TG by lia. cbn [bind spec].
    rewrite (solve_for _ _ _ (N_pos' (n + 2) m ltac:(lia)) (q_0 n m ltac:(lia))). pose proof (N_pos' (n + 2) m ltac:(lia)).
    unfold hzz, hterm, ofz, dVz, dWz. replace (n + 2)%nat with (S (S n)) in * by lia. rewrite !S_INR. apply f_equal. f_equal; apply (f_equal (Rplus _)); field; lra.
  Qed.
  Lemma hess_m_run n m h : (m <= n <= deg)%nat -> hess_body_m g t n m h = Ok (plus_h h n m).
  Proof.
    intros H. unfold hess_body_m. rewrite hess_xy_run by exact H. cbn [bind]. rewrite hess_z_run by exact H. cbn [bind h_xx h_yy h_xy h_xz h_yz h_zz].
    rewrite hess_zz_run by exact H. reflexivity.
  Qed.
  Lemma hess_run n h : (n <= deg)%nat -> hess_body g t n h =
    Ok (add_h h (sum_to n (fun m => hxx g n m x y z)) (sum_to n (fun m => hyy g n m x y z)) (sum_to n (fun m => hxy g n m x y z))
                (sum_to n (fun m => hxz g n m x y z)) (sum_to n (fun m => hyz g n m x y z)) (sum_to n (fun m => hzz g n m x y z))).
  Proof.
    intros Hn. unfold hess_body. rewrite !sum_to_rsum.
    apply (for_up_sum6 _ 0 (n + 1) (fun m => hxx g n m x y z) (fun m => hyy g n m x y z) (fun m => hxy g n m x y z) (fun m => hxz g n m x y z) (fun m => hyz g n m x y z) (fun m => hzz g n m x y z)).
    intros m h' Hm. rewrite hess_m_run by lia. reflexivity.
  Qed.
End Hess.

Lemma partial_run g x y z : off x y z -> has_coefficients (gp_degree g) (gp_c g) -> has_coefficients (gp_degree g) (gp_s g) -> (1 <= gp_degree g)%nat ->
  let k := gp_mu g / gp_r g ^ 3 in let d := gp_degree g in
  calc_partial g (v3 x y z) = Ok (m3 (tot d (hxx g) x y z * k) (tot d (hxy g) x y z * k) (tot d (hxz g) x y z * k)
                                     (tot d (hxy g) x y z * k) (tot d (hyy g) x y z * k) (tot d (hyz g) x y z * k)
                                     (tot d (hxz g) x y z * k) (tot d (hyz g) x y z * k) (tot d (hzz g) x y z * k)).
Proof.
  intros H Hc Hs Hd k d. unfold calc_partial. replace (gp_degree g <=? 0)%nat with false by (symmetry; apply Nat.leb_gt; lia).
  rewrite place_norm. destruct (table_run g x y z H (gp_degree g + 2)) as (t & E & St & Ht). rewrite E. cbn [bind].
  erewrite (for_up_sum6 (hess_body g t) 0 (gp_degree g + 1)) by (intros n h Hn; apply (hess_run g x y z Hc Hs t St Ht); lia).
  cbn [bind add_h h_xx h_yy h_xy h_xz h_yz h_zz]. rewrite <- !sum_to_rsum, !Rplus_0_l. reflexivity.
Qed.

(** ** They are the derivatives of the components of the acceleration *)
Section Jacobian.
  Variables (g : gravity) (x y z : R).
  Hypothesis Hoff : off x y z.
  Hypothesis Hr : gp_r g <> 0.
  Notation rr := (gp_r g).
  Notation deg := (gp_degree g).
  Notation ka := (gp_mu g / gp_r g ^ 2).
  Notation kj := (gp_mu g / gp_r g ^ 3).
  Lemma tot_k f : tot deg f x y z * kj = tot deg (fun n m x y z => / rr * f n m x y z) x y z * ka.
  Proof.
    unfold tot. rewrite (sum_to_ext deg (fun n => sum_to n (fun m => / rr * f n m x y z)) (fun n => / rr * sum_to n (fun m => f n m x y z))) by (intros; apply sum_to_scal).
    rewrite sum_to_scal. field. exact Hr.
  Qed.
  Lemma jac_lin (fV fW : nat -> nat -> R -> R) (lV lW : nat -> nat -> R -> R -> R -> R) v0 :
    (forall n m, derivable_pt_lim (fV n m) v0 (/ rr * lV n m x y z)) -> (forall n m, derivable_pt_lim (fW n m) v0 (/ rr * lW n m x y z)) ->
    derivable_pt_lim (fun v => sum_to deg (fun n => sum_to n (fun m => N n m * (coefficient (gp_c g) n m * fV n m v + coefficient (gp_s g) n m * fW n m v))) * ka) v0
      (tot deg (hterm g lV lW) x y z * kj).
  Proof.
    intros D1 D2. rewrite tot_k. rewrite (Rmult_comm _ ka). eapply dpl_ext; [|apply (derivable_pt_lim_scal (fun v => sum_to deg (fun n => sum_to n (fun m => N n m * (coefficient (gp_c g) n m * fV n m v + coefficient (gp_s g) n m * fW n m v)))) ka)].
    - intros v. unfold mult_real_fct. ring.
    - unfold tot. apply (dpl_tot deg (fun n m v => N n m * (coefficient (gp_c g) n m * fV n m v + coefficient (gp_s g) n m * fW n m v))).
      intros n m _. eapply dpl_ext2; [|apply dpl_lin; [apply D1|apply D2]]. unfold hterm. ring.
  Qed.
  Notation DVx := (fun n m => D_Vx rr Hr n m x y z Hoff). Notation DWx := (fun n m => D_Wx rr Hr n m x y z Hoff).
  Notation DVy := (fun n m => D_Vy rr Hr n m x y z Hoff). Notation DWy := (fun n m => D_Wy rr Hr n m x y z Hoff).
  Notation DVz := (fun n m => D_Vz rr Hr n m x y z Hoff). Notation DWz := (fun n m => D_Wz rr Hr n m x y z Hoff).
  Lemma jac_x : derivable_pt_lim (fun v => tot deg (gx g) v y z * ka) x (tot deg (hxx g) x y z * kj) /\
                derivable_pt_lim (fun v => tot deg (gy g) v y z * ka) x (tot deg (hyx g) x y z * kj) /\
                derivable_pt_lim (fun v => tot deg (gz g) v y z * ka) x (tot deg (hzx g) x y z * kj).
  Proof.
    repeat split.
    - apply (jac_lin (fun n m v => dVx rr n m v y z) (fun n m v => dWx rr n m v y z)); intros n m; [apply (D2_Vx rr (fun v => v) (fun _ => y) (fun _ => z) x _ DVx)|apply (D2_Wx rr (fun v => v) (fun _ => y) (fun _ => z) x _ DWx)].
    - apply (jac_lin (fun n m v => dVy rr n m v y z) (fun n m v => dWy rr n m v y z)); intros n m; [apply (D2_Vy rr (fun v => v) (fun _ => y) (fun _ => z) x _ DWx)|apply (D2_Wy rr (fun v => v) (fun _ => y) (fun _ => z) x _ DVx)].
    - apply (jac_lin (fun n m v => dVz rr n m v y z) (fun n m v => dWz rr n m v y z)); intros n m; [apply (D2_Vz rr (fun v => v) (fun _ => y) (fun _ => z) x _ DVx)|apply (D2_Wz rr (fun v => v) (fun _ => y) (fun _ => z) x _ DWx)].
  Qed.
  Lemma jac_y : derivable_pt_lim (fun v => tot deg (gx g) x v z * ka) y (tot deg (hxy g) x y z * kj) /\
                derivable_pt_lim (fun v => tot deg (gy g) x v z * ka) y (tot deg (hyy g) x y z * kj) /\
                derivable_pt_lim (fun v => tot deg (gz g) x v z * ka) y (tot deg (hzy g) x y z * kj).
  Proof.
    repeat split.
    - apply (jac_lin (fun n m v => dVx rr n m x v z) (fun n m v => dWx rr n m x v z)); intros n m; [apply (D2_Vx rr (fun _ => x) (fun v => v) (fun _ => z) y _ DVy)|apply (D2_Wx rr (fun _ => x) (fun v => v) (fun _ => z) y _ DWy)].
    - apply (jac_lin (fun n m v => dVy rr n m x v z) (fun n m v => dWy rr n m x v z)); intros n m; [apply (D2_Vy rr (fun _ => x) (fun v => v) (fun _ => z) y _ DWy)|apply (D2_Wy rr (fun _ => x) (fun v => v) (fun _ => z) y _ DVy)].
    - apply (jac_lin (fun n m v => dVz rr n m x v z) (fun n m v => dWz rr n m x v z)); intros n m; [apply (D2_Vz rr (fun _ => x) (fun v => v) (fun _ => z) y _ DVy)|apply (D2_Wz rr (fun _ => x) (fun v => v) (fun _ => z) y _ DWy)].
  Qed.
  Lemma jac_z : derivable_pt_lim (fun v => tot deg (gx g) x y v * ka) z (tot deg (hxz g) x y z * kj) /\
                derivable_pt_lim (fun v => tot deg (gy g) x y v * ka) z (tot deg (hyz g) x y z * kj) /\
                derivable_pt_lim (fun v => tot deg (gz g) x y v * ka) z (tot deg (hzz g) x y z * kj).
  Proof.
    repeat split.
    - apply (jac_lin (fun n m v => dVx rr n m x y v) (fun n m v => dWx rr n m x y v)); intros n m; [apply (D2_Vx rr (fun _ => x) (fun _ => y) (fun v => v) z _ DVz)|apply (D2_Wx rr (fun _ => x) (fun _ => y) (fun v => v) z _ DWz)].
    - apply (jac_lin (fun n m v => dVy rr n m x y v) (fun n m v => dWy rr n m x y v)); intros n m; [apply (D2_Vy rr (fun _ => x) (fun _ => y) (fun v => v) z _ DWz)|apply (D2_Wy rr (fun _ => x) (fun _ => y) (fun v => v) z _ DVz)].
    - apply (jac_lin (fun n m v => dVz rr n m x y v) (fun n m v => dWz rr n m x y v)); intros n m; [apply (D2_Vz rr (fun _ => x) (fun _ => y) (fun v => v) z _ DVz)|apply (D2_Wz rr (fun _ => x) (fun _ => y) (fun v => v) z _ DWz)].
  Qed.
End Jacobian.
