From Coq Require Import Reals Lra Lia List Arith Bool ZArith.
From Verif Require Import Base RBase VecModel GravitySpec GravityHarmonics GravityGrad GravityFile IgrfModel IgrfSpec IgrfProofs IgrfCoef IgrfField.
Import ListNotations.
Open Scope R_scope.

Lemma solid_F a n m x y z : solid a n m x y z = (a ^ (n + 1) * (F n m x y z * A m x y), a ^ (n + 1) * (F n m x y z * B m x y)).
Proof.
  unfold solid, F, A, B, inv_r. cbv zeta. rewrite legendre_Q. set (r := radius x y z).
  assert (E : (a / r) ^ (n + 1) * Q n m (z / r) / r ^ m = a ^ (n + 1) * ((/ r) ^ (n + m + 1) * Q n m (z * / r))).
  { unfold Rdiv. rewrite (Rpow_mult_distr a (/ r)), <- pow_inv. replace (n + m + 1)%nat with (n + 1 + m)%nat by lia. rewrite (pow_add _ (n + 1) m). ring. }
  rewrite E. f_equal; ring.
Qed.
Lemma A_dx m x y : derivable_pt_lim (fun v => A m v y) x (INR m * A (m - 1) x y) /\ derivable_pt_lim (fun v => B m v y) x (INR m * B (m - 1) x y).
Proof.
  destruct m as [|m].
  - cbn [INR]. rewrite !Rmult_0_l. split; [apply (dpl_ext (fun _ => 1)); [reflexivity|]|apply (dpl_ext (fun _ => 0)); [reflexivity|]]; apply derivable_pt_lim_const.
  - rewrite S_INR. replace (S m - 1)%nat with m by lia. apply AB_dx.
Qed.
Lemma A_dy m x y : derivable_pt_lim (fun v => A m x v) y (- INR m * B (m - 1) x y) /\ derivable_pt_lim (fun v => B m x v) y (INR m * A (m - 1) x y).
Proof.
  destruct m as [|m].
  - cbn [INR]. replace (- 0) with 0 by ring. rewrite !Rmult_0_l. split; [apply (dpl_ext (fun _ => 1)); [reflexivity|]|apply (dpl_ext (fun _ => 0)); [reflexivity|]]; apply derivable_pt_lim_const.
  - rewrite S_INR. replace (S m - 1)%nat with m by lia. apply AB_dy.
Qed.

(** partial derivatives of one term g F A + h F B *)
Definition tx (n m : nat) (g h x y z : R) : R := - x * F (S n) (S m) x y z * (g * A m x y + h * B m x y) + F n m x y z * (INR m * (g * A (m - 1) x y + h * B (m - 1) x y)).
Definition ty (n m : nat) (g h x y z : R) : R := - y * F (S n) (S m) x y z * (g * A m x y + h * B m x y) + F n m x y z * (INR m * (- g * B (m - 1) x y + h * A (m - 1) x y)).
Definition tz (n m : nat) (g h x y z : R) : R := - (INR n - INR m + 1) * F (S n) m x y z * (g * A m x y + h * B m x y).
Definition term (a : R) (n m : nat) (g h x y z : R) : R := g * fst (solid a n m x y z) + h * snd (solid a n m x y z).
Lemma term_gradient a n m g h x y z : off x y z -> gradient_at (term a n m g h) x y z (a ^ (n + 1) * tx n m g h x y z) (a ^ (n + 1) * ty n m g h x y z) (a ^ (n + 1) * tz n m g h x y z).
Proof.
  intros H.
  assert (E : forall x y z, a ^ (n + 1) * (g * (F n m x y z * A m x y) + h * (F n m x y z * B m x y)) = term a n m g h x y z).
  { intros u v w. unfold term. rewrite solid_F. cbn [fst snd]. ring. }
  unfold gradient_at. repeat split.
  - apply (dpl_ext (fun u => a ^ (n + 1) * (g * (F n m u y z * A m u y) + h * (F n m u y z * B m u y)))); [intros u; apply E|].
    destruct (A_dx m x y) as [DA DB]. pose proof (F_dx n m x y z H) as DF.
    eapply dpl_ext2; [|apply dpl_lin; [apply (derivable_pt_lim_mult (fun u => F n m u y z) (fun u => A m u y) x _ _ DF DA)|apply (derivable_pt_lim_mult (fun u => F n m u y z) (fun u => B m u y) x _ _ DF DB)]].
    unfold tx. ring.
  - apply (dpl_ext (fun u => a ^ (n + 1) * (g * (F n m x u z * A m x u) + h * (F n m x u z * B m x u)))); [intros u; apply E|].
    destruct (A_dy m x y) as [DA DB]. pose proof (F_dy n m x y z H) as DF.
    eapply dpl_ext2; [|apply dpl_lin; [apply (derivable_pt_lim_mult (fun u => F n m x u z) (fun u => A m x u) y _ _ DF DA)|apply (derivable_pt_lim_mult (fun u => F n m x u z) (fun u => B m x u) y _ _ DF DB)]].
    unfold ty. ring.
  - apply (dpl_ext (fun u => a ^ (n + 1) * (g * (F n m x y u * A m x y) + h * (F n m x y u * B m x y)))); [intros u; apply E|].
    pose proof (F_dz n m x y z H) as DF.
    eapply dpl_ext2; [|apply dpl_lin; [apply (derivable_pt_lim_mult (fun u => F n m x y u) (fun u => A m x y) z _ _ DF (derivable_pt_lim_const _ _))|apply (derivable_pt_lim_mult (fun u => F n m x y u) (fun u => B m x y) z _ _ DF (derivable_pt_lim_const _ _))]].
    unfold tz. ring.
Qed.
Lemma dpl_total N (f : nat -> nat -> R -> R) x l : (forall n m, (1 <= n <= N)%nat -> (m <= n)%nat -> derivable_pt_lim (f n m) x (l n m)) ->
  derivable_pt_lim (fun v => total N (fun n m => f n m v)) x (total N l).
Proof.
  intros H. unfold total. apply (dpl_sum N (fun n v => match n with O => 0 | _ => sum_to n (fun m => f n m v) end)). intros [|n] Hn; [apply derivable_pt_lim_const|].
  apply (dpl_sum (S n) (fun m v => f (S n) m v)). intros m Hm. apply H; lia.
Qed.
Lemma potential_gradient a N (g h : nat -> nat -> R) x y z : off x y z ->
  gradient_at (magnetic_potential a N g h) x y z
    (total N (fun n m => a ^ (n + 2) * tx n m (schmidt n m * g n m) (schmidt n m * h n m) x y z))
    (total N (fun n m => a ^ (n + 2) * ty n m (schmidt n m * g n m) (schmidt n m * h n m) x y z))
    (total N (fun n m => a ^ (n + 2) * tz n m (schmidt n m * g n m) (schmidt n m * h n m) x y z)).
Proof.
  intros H.
  assert (E : forall x y z, a * total N (fun n m => term a n m (schmidt n m * g n m) (schmidt n m * h n m) x y z) = magnetic_potential a N g h x y z).
  { intros u v w. unfold magnetic_potential, total. f_equal. apply sum_to_ext. intros [|n] Hn; [reflexivity|]. apply sum_to_ext. intros m Hm. unfold term. ring. }
  assert (K : forall f, total N (fun n m => a ^ (n + 2) * f n m) = a * total N (fun n m => a ^ (n + 1) * f n m)).
  { intros f. rewrite <- total_scal. apply total_ext. intros n m _ _. replace (n + 2)%nat with (S (n + 1)) by lia. cbn [pow]. ring. }
  unfold gradient_at. rewrite (K (fun n m => tx n m _ _ x y z)), (K (fun n m => ty n m _ _ x y z)), (K (fun n m => tz n m _ _ x y z)).
  repeat split.
  - apply (dpl_ext (fun u => a * total N (fun n m => term a n m (schmidt n m * g n m) (schmidt n m * h n m) u y z))); [intros; apply E|].
    apply derivable_pt_lim_scal, (dpl_total N (fun n m u => term a n m (schmidt n m * g n m) (schmidt n m * h n m) u y z)). intros n m _ _. apply term_gradient, H.
  - apply (dpl_ext (fun u => a * total N (fun n m => term a n m (schmidt n m * g n m) (schmidt n m * h n m) x u z))); [intros; apply E|].
    apply derivable_pt_lim_scal, (dpl_total N (fun n m u => term a n m (schmidt n m * g n m) (schmidt n m * h n m) x u z)). intros n m _ _. apply term_gradient, H.
  - apply (dpl_ext (fun u => a * total N (fun n m => term a n m (schmidt n m * g n m) (schmidt n m * h n m) x y u))); [intros; apply E|].
    apply derivable_pt_lim_scal, (dpl_total N (fun n m u => term a n m (schmidt n m * g n m) (schmidt n m * h n m) x y u)). intros n m _ _. apply term_gradient, H.
Qed.

(** ** The same in spherical coordinates *)
Definition Ct (phi : R) (m : nat) (g h : R) : R := g * cos (INR m * phi) + h * sin (INR m * phi).
Definition Et (phi : R) (m : nat) (g h : R) : R := g * sin (INR m * phi) - h * cos (INR m * phi).
Section POLAR.
  Variables (r c s phi : R).
  Hypothesis Hr : 0 < r.
  Hypothesis Hcs : c * c + s * s = 1.
  Hypothesis Hs : 0 < s.
  Let x := r * s * cos phi.
  Let y := r * s * sin phi.
  Let z := r * c.
  Lemma polar_sq : x * x + y * y + z * z = r * r.
  Proof. unfold x, y, z. pose proof (sin2_cos2 phi) as E. unfold Rsqr in E. replace (r * s * cos phi * (r * s * cos phi) + r * s * sin phi * (r * s * sin phi) + r * c * (r * c)) with (r * r * (s * s * (sin phi * sin phi + cos phi * cos phi) + c * c)) by ring. rewrite E. replace (s * s * 1 + c * c) with 1 by lra. ring. Qed.
  Lemma polar_off : off x y z. Proof. unfold off. rewrite polar_sq. nra. Qed.
  Lemma polar_inv : inv_r x y z = / r. Proof. unfold inv_r, radius. rewrite polar_sq, sqrt_square by lra. reflexivity. Qed.
  Lemma polar_F n m : F n m x y z = (/ r) ^ (n + m + 1) * Q n m c.
  Proof. unfold F. rewrite polar_inv. do 2 f_equal. unfold z. field. lra. Qed.
  Lemma polar_A m : A m x y = (r * s) ^ m * cos (INR m * phi) /\ B m x y = (r * s) ^ m * sin (INR m * phi).
  Proof. unfold A, B, x, y. rewrite cpow_polar. split; reflexivity. Qed.
  Lemma ir_pow k j : (/ r) ^ (k + j) * (r * s) ^ j = (/ r) ^ k * s ^ j.
  Proof. rewrite pow_add, Rpow_mult_distr. replace ((/ r) ^ k * (/ r) ^ j * (r ^ j * s ^ j)) with ((/ r) ^ k * s ^ j * ((/ r) ^ j * r ^ j)) by ring.
    rewrite <- Rpow_mult_distr, Rinv_l by lra. rewrite pow1. ring. Qed.
  Lemma polar_tz n m g h : let C := Ct phi m g h in let E := Et phi m g h in (s * (C * Df c s n m) - c * (- INR (n + 1) * (C * Pf c s n m))) * (/ r) ^ (n + 2) = - tz n m g h x y z.
  Proof.
    intros C E. unfold tz. rewrite polar_F. destruct (polar_A m) as [-> ->].
    replace (- (- (INR n - INR m + 1) * ((/ r) ^ (S n + m + 1) * Q (S n) m c) * (g * ((r * s) ^ m * cos (INR m * phi)) + h * ((r * s) ^ m * sin (INR m * phi)))))
      with ((INR n - INR m + 1) * Q (S n) m c * ((/ r) ^ (S n + m + 1) * (r * s) ^ m) * C) by (unfold C, Ct; ring).
    replace (S n + m + 1)%nat with (n + 2 + m)%nat by lia. rewrite ir_pow. rewrite Q_step. replace (1 - c * c) with (s * s) by lra.
    rewrite plus_INR. cbn [INR]. unfold Df, Pf. clearbody C. destruct m as [|k]; cbn [pow INR]; [ring|]. replace (S k + 1)%nat with (S (S k)) by lia. cbn [pow]. ring.
  Qed.
  Lemma back m g h : let C := Ct phi m g h in let E := Et phi m g h in (1 <= m)%nat -> g * cos (INR (m - 1) * phi) + h * sin (INR (m - 1) * phi) = C * cos phi + E * sin phi /\
    - g * sin (INR (m - 1) * phi) + h * cos (INR (m - 1) * phi) = - E * cos phi + C * sin phi.
  Proof.
    intros C E Hm. rewrite minus_INR by exact Hm. cbn [INR]. replace ((INR m - 1) * phi) with (INR m * phi - phi) by ring.
    rewrite cos_minus, sin_minus. unfold C, E, Ct, Et. split; ring.
  Qed.
  Lemma polar_tx n m g h : let C := Ct phi m g h in let E := Et phi m g h in (- c * cos phi * (C * Df c s n m) - sin phi / s * (E * Pf c s n m * INR m) - s * cos phi * (- INR (n + 1) * (C * Pf c s n m))) * (/ r) ^ (n + 2) = - tx n m g h x y z.
  Proof.
    intros C E. unfold tx. rewrite !polar_F. destruct (polar_A m) as [-> ->]. destruct (polar_A (m - 1)) as [-> ->].
    replace (- (- x * ((/ r) ^ (S n + S m + 1) * Q (S n) (S m) c) * (g * ((r * s) ^ m * cos (INR m * phi)) + h * ((r * s) ^ m * sin (INR m * phi))) +
       (/ r) ^ (n + m + 1) * Q n m c * (INR m * (g * ((r * s) ^ (m - 1) * cos (INR (m - 1) * phi)) + h * ((r * s) ^ (m - 1) * sin (INR (m - 1) * phi))))))
      with (cos phi * Q (S n) (S m) c * ((/ r) ^ (S n + S m + 1) * (r * s) ^ S m) * C - INR m * Q n m c * ((/ r) ^ (n + m + 1) * (r * s) ^ (m - 1)) * (g * cos (INR (m - 1) * phi) + h * sin (INR (m - 1) * phi)))
      by (unfold x, C, Ct; cbn [pow]; ring).
    replace (S n + S m + 1)%nat with (n + 2 + S m)%nat by lia. rewrite ir_pow. rewrite Q1. rewrite plus_INR. unfold Df, Pf.
    pose proof (back m g h) as Bk. fold C E in Bk. clearbody C E. destruct m as [|k].
    - cbn [INR pow]. field. lra.
    - destruct Bk as [-> _]; [lia|]. replace (S k - 1)%nat with k by lia. replace (n + S k + 1)%nat with (n + 2 + k)%nat by lia. rewrite ir_pow.
      replace (S k + 1)%nat with (S (S k)) by lia. rewrite S_INR. cbn [INR pow]. 
      apply (Rmult_eq_reg_r s); [|lra]. 
      assert (Ec : c * c = 1 - s * s) by lra.
      transitivity ((- (c * c) * cos phi * (C * ((INR k + 1) * s ^ k * Q n (S k) c)) * s + c * cos phi * C * (s * (s * s ^ k)) * Q n (S (S k)) c * s - sin phi * (E * (s * s ^ k * Q n (S k) c) * (INR k + 1)) + s * cos phi * ((INR n + 1) * (C * (s * s ^ k * Q n (S k) c))) * s) * (/ r) ^ (n + 2)); [field; lra|]. rewrite Ec. ring.
  Qed.
  Lemma polar_ty n m g h : let C := Ct phi m g h in let E := Et phi m g h in (- c * sin phi * (C * Df c s n m) + cos phi / s * (E * Pf c s n m * INR m) - s * sin phi * (- INR (n + 1) * (C * Pf c s n m))) * (/ r) ^ (n + 2) = - ty n m g h x y z.
  Proof.
    intros C E. unfold ty. rewrite !polar_F. destruct (polar_A m) as [-> ->]. destruct (polar_A (m - 1)) as [-> ->].
    replace (- (- y * ((/ r) ^ (S n + S m + 1) * Q (S n) (S m) c) * (g * ((r * s) ^ m * cos (INR m * phi)) + h * ((r * s) ^ m * sin (INR m * phi))) +
       (/ r) ^ (n + m + 1) * Q n m c * (INR m * (- g * ((r * s) ^ (m - 1) * sin (INR (m - 1) * phi)) + h * ((r * s) ^ (m - 1) * cos (INR (m - 1) * phi))))))
      with (sin phi * Q (S n) (S m) c * ((/ r) ^ (S n + S m + 1) * (r * s) ^ S m) * C - INR m * Q n m c * ((/ r) ^ (n + m + 1) * (r * s) ^ (m - 1)) * (- g * sin (INR (m - 1) * phi) + h * cos (INR (m - 1) * phi)))
      by (unfold y, C, Ct; cbn [pow]; ring).
    replace (S n + S m + 1)%nat with (n + 2 + S m)%nat by lia. rewrite ir_pow. rewrite Q1. rewrite plus_INR. unfold Df, Pf.
    pose proof (back m g h) as Bk. fold C E in Bk. clearbody C E. destruct m as [|k].
    - cbn [INR pow]. field. lra.
    - destruct Bk as [_ ->]; [lia|]. replace (S k - 1)%nat with k by lia. replace (n + S k + 1)%nat with (n + 2 + k)%nat by lia. rewrite ir_pow.
      replace (S k + 1)%nat with (S (S k)) by lia. rewrite S_INR. cbn [INR pow].
      apply (Rmult_eq_reg_r s); [|lra].
      assert (Ec : c * c = 1 - s * s) by lra.
      transitivity ((- (c * c) * sin phi * (C * ((INR k + 1) * s ^ k * Q n (S k) c)) * s + c * sin phi * C * (s * (s * s ^ k)) * Q n (S (S k)) c * s + cos phi * (E * (s * s ^ k * Q n (S k) c) * (INR k + 1)) + s * sin phi * ((INR n + 1) * (C * (s * s ^ k * Q n (S k) c))) * s) * (/ r) ^ (n + 2)); [field; lra|]. rewrite Ec. ring.
  Qed.
End POLAR.
