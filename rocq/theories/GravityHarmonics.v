(** Legendre polynomials and solid harmonics. *)
From Coq Require Import Reals Lra Lia List Arith.
From Verif Require Import GravitySpec.
Import ListNotations.
Open Scope R_scope.

(** ** Derivatives of the Legendre polynomials, by a recursion on the degree *)
Fixpoint Q (n m : nat) (t : R) : R :=
  match n with
  | O => match m with O => 1 | S _ => 0 end
  | S k => match m with
           | O => t * Q k 0 t - (1 - t * t) / (INR k + 1) * Q k 1 t
           | S j => (INR k + INR j + 1) * Q k j t + t * Q k (S j) t
           end
  end.
Lemma Q0 n t : Q (S n) 0 t = t * Q n 0 t - (1 - t * t) / (INR n + 1) * Q n 1 t. Proof. reflexivity. Qed.
Lemma Q1 n m t : Q (S n) (S m) t = (INR n + INR m + 1) * Q n m t + t * Q n (S m) t. Proof. reflexivity. Qed.
Lemma INR_nonneg n : 0 <= INR n. Proof. apply pos_INR. Qed.

(** Legendre's equation, differentiated m times *)
Lemma Q_up n m t (L : forall j, (1 - t * t) * Q n (S (S j)) t - 2 * (INR j + 1) * t * Q n (S j) t + (INR n - INR j) * (INR n + INR j + 1) * Q n j t = 0) :
  (INR n - INR m + 1) * Q (S n) m t = (INR n + INR m + 1) * t * Q n m t - (1 - t * t) * Q n (S m) t.
Proof.
  pose proof (INR_nonneg n) as P. destruct m as [|m].
  - rewrite Q0. cbn [INR]. field. lra.
  - rewrite Q1. specialize (L m). rewrite !S_INR in *. nra.
Qed.
Lemma Q_ode n t : forall m, (1 - t * t) * Q n (S (S m)) t - 2 * (INR m + 1) * t * Q n (S m) t + (INR n - INR m) * (INR n + INR m + 1) * Q n m t = 0.
Proof.
  induction n as [|n IH]; intros m.
  - destruct m; cbn [Q INR]; ring.
  - assert (U : (INR n - INR m + 1) * Q (S n) m t = (INR n + INR m + 1) * t * Q n m t - (1 - t * t) * Q n (S m) t) by (apply Q_up; exact IH).
    specialize (IH m). rewrite (Q1 n (S m)), (Q1 n m), !S_INR.
    replace ((INR n + 1 - INR m) * (INR n + 1 + INR m + 1) * Q (S n) m t) with ((INR n + 1 + INR m + 1) * ((INR n - INR m + 1) * Q (S n) m t)) by ring.
    rewrite U. generalize dependent (Q n m t). generalize dependent (Q n (S m) t). generalize dependent (Q n (S (S m)) t). intros q2 q1 q0 IH _.
    transitivity (t * ((1 - t * t) * q2 - 2 * (INR m + 1) * t * q1 + (INR n - INR m) * (INR n + INR m + 1) * q0)); [ring|]. rewrite IH. ring.
Qed.
Lemma Q_step n m t : (INR n - INR m + 1) * Q (S n) m t = (INR n + INR m + 1) * t * Q n m t - (1 - t * t) * Q n (S m) t.
Proof. apply Q_up. intros j. apply Q_ode. Qed.
Lemma Q_back n m t : (1 - t * t) * Q (S n) (S m) t = (INR n + INR m + 1) * Q n m t - (INR n - INR m + 1) * t * Q (S n) m t.
Proof.
  pose proof (Q_step n m t) as U. rewrite Q1. set (q0 := Q n m t) in *. set (q1 := Q n (S m) t) in *. set (qq := Q (S n) m t) in *.
  replace ((INR n - INR m + 1) * t * qq) with (t * ((INR n - INR m + 1) * qq)) by ring. rewrite U. ring.
Qed.
Lemma Q_column n m t : (INR n - INR m + 2) * Q (S (S n)) m t = (2 * INR n + 3) * t * Q (S n) m t - (INR n + INR m + 1) * Q n m t.
Proof.
  pose proof (Q_step (S n) m t) as U. pose proof (Q_back n m t) as B. rewrite S_INR in U. 
  replace (INR n - INR m + 2) with (INR n + 1 - INR m + 1) by ring. rewrite U, B. ring.
Qed.
Lemma Q_deriv n : forall m t, derivable_pt_lim (Q n m) t (Q n (S m) t).
Proof.
  induction n as [|n IH]; intros m t.
  - destruct m; cbn [Q]; apply derivable_pt_lim_const.
  - destruct m as [|m].
    + pose proof (INR_nonneg n) as P. pose proof (Q_ode n t 0) as L. cbn [INR] in L. rewrite Q1. cbn [INR].
      assert (D : derivable_pt_lim (fun t => t * Q n 0 t - (1 - t * t) / (INR n + 1) * Q n 1 t) t
                   (1 * Q n 0 t + t * Q n 1 t - ((0 - (1 * t + t * 1)) / (INR n + 1) * Q n 1 t + (1 - t * t) / (INR n + 1) * Q n 2 t))).
      { apply derivable_pt_lim_minus.
        - apply (derivable_pt_lim_mult (fun t => t) (Q n 0)); [apply derivable_pt_lim_id|apply IH].
        - apply (derivable_pt_lim_mult (fun t => (1 - t * t) / (INR n + 1)) (Q n 1)); [|apply IH].
          unfold Rdiv. replace ((0 - (1 * t + t * 1)) * / (INR n + 1)) with ((0 - (1 * t + t * 1)) * / (INR n + 1) + (1 - t * t) * 0) by ring.
          apply (derivable_pt_lim_mult (fun t => 1 - t * t) (fun _ => / (INR n + 1))); [|apply derivable_pt_lim_const].
          apply (derivable_pt_lim_minus (fun _ => 1) (fun t => t * t)); [apply derivable_pt_lim_const|].
          apply (derivable_pt_lim_mult (fun t => t) (fun t => t)); apply derivable_pt_lim_id. }
      replace ((INR n + 0 + 1) * Q n 0 t + t * Q n 1 t) with
        (1 * Q n 0 t + t * Q n 1 t - ((0 - (1 * t + t * 1)) / (INR n + 1) * Q n 1 t + (1 - t * t) / (INR n + 1) * Q n 2 t)).
      { exact D. }
      set (q0 := Q n 0 t) in *. set (q1 := Q n 1 t) in *. set (q2 := Q n 2 t) in *. set (a := INR n) in *.
      assert (E : (1 - t * t) * q2 = 2 * t * q1 - a * (a + 1) * q0) by lra.
      replace ((1 - t * t) / (a + 1) * q2) with ((1 - t * t) * q2 / (a + 1)) by (field; lra). rewrite E. field. lra.
    + rewrite Q1, S_INR. replace ((INR n + (INR m + 1) + 1) * Q n (S m) t + t * Q n (S (S m)) t)
        with (((INR n + INR m + 1) * Q n (S m) t) + (1 * Q n (S m) t + t * Q n (S (S m)) t)) by ring.
      assert (D : derivable_pt_lim (fun t => (INR n + INR m + 1) * Q n m t + t * Q n (S m) t) t
                   ((INR n + INR m + 1) * Q n (S m) t + (1 * Q n (S m) t + t * Q n (S (S m)) t))).
      { apply derivable_pt_lim_plus; [apply derivable_pt_lim_scal, IH|].
        apply (derivable_pt_lim_mult (fun t => t) (Q n (S m))); [apply derivable_pt_lim_id|apply IH]. }
      exact D.
Qed.

(** ** They are the derivatives of the Legendre polynomials *)
Lemma peval_add p q t : peval (padd p q) t = peval p t + peval q t.
Proof. revert q. induction p as [|a p IH]; intros q; [cbn; ring|]. destruct q as [|b q]; cbn [padd peval]; [ring|]. rewrite IH. ring. Qed.
Lemma peval_scal c p t : peval (pscal c p) t = c * peval p t.
Proof. induction p as [|a p IH]; cbn [pscal map peval]; [ring|]. unfold pscal in IH. rewrite IH. ring. Qed.
Lemma legendre_pair_Q n t : peval (fst (legendre_pair n)) t = Q n 0 t /\ peval (snd (legendre_pair n)) t = Q (S n) 0 t.
Proof.
  induction n as [|n IH].
  - cbn [legendre_pair fst snd peval Q INR]. split; field.
  - cbn [legendre_pair]. destruct (legendre_pair n) as [p q]. cbn [fst snd] in *. destruct IH as [I1 I2]. split; [exact I2|].
    rewrite peval_add, !peval_scal. cbn [peval]. rewrite I1, I2. pose proof (Q_column n 0 t) as C. cbn [INR] in C. pose proof (INR_nonneg n) as P.
    apply Rmult_eq_reg_l with (INR n + 2); [|lra]. replace ((INR n + 2) * Q (S (S n)) 0 t) with ((INR n - 0 + 2) * Q (S (S n)) 0 t) by ring. rewrite C. field. lra.
Qed.
Lemma pderiv_from_eval p k t : forall (l : R), derivable_pt_lim (peval p) t l -> INR k * peval p t + t * l = peval (pderiv_from k p) t.
Proof.
  revert k. induction p as [|a p IH]; intros k l D.
  - assert (l = 0) by (eapply uniqueness_limite; [exact D|apply derivable_pt_lim_const]). subst. cbn. ring.
  - cbn [pderiv_from peval].
    assert (X : exists l', derivable_pt_lim (peval p) t l').
    { clear. induction p as [|a p [l' H]]; [exists 0; apply derivable_pt_lim_const|]. exists (0 + (1 * peval p t + t * l')).
      apply (derivable_pt_lim_plus (fun _ => a) (fun t => t * peval p t)); [apply derivable_pt_lim_const|].
      apply (derivable_pt_lim_mult (fun t => t) (peval p)); [apply derivable_pt_lim_id|exact H]. }
    destruct X as [l' D']. assert (l = 0 + (1 * peval p t + t * l')).
    { eapply uniqueness_limite; [exact D|]. apply (derivable_pt_lim_plus (fun _ => a) (fun t => t * peval p t)); [apply derivable_pt_lim_const|].
      apply (derivable_pt_lim_mult (fun t => t) (peval p)); [apply derivable_pt_lim_id|exact D']. }
    rewrite <- (IH (S k) l' D'), S_INR. subst l. ring.
Qed.
Lemma peval_deriv p t : derivable_pt_lim (peval p) t (peval (pderiv p) t).
Proof.
  destruct p as [|a p]; [apply derivable_pt_lim_const|]. unfold pderiv. cbn [tl].
  assert (X : exists l', derivable_pt_lim (peval p) t l').
  { clear a. induction p as [|a p [l' H]]; [exists 0; apply derivable_pt_lim_const|]. exists (0 + (1 * peval p t + t * l')).
    apply (derivable_pt_lim_plus (fun _ => a) (fun t => t * peval p t)); [apply derivable_pt_lim_const|].
    apply (derivable_pt_lim_mult (fun t => t) (peval p)); [apply derivable_pt_lim_id|exact H]. }
  destruct X as [l' D']. rewrite <- (pderiv_from_eval p 1 t l' D'). replace (INR 1 * peval p t + t * l') with (0 + (1 * peval p t + t * l')) by (cbn; ring).
  apply (derivable_pt_lim_plus (fun _ => a) (fun t => t * peval p t)); [apply derivable_pt_lim_const|].
  apply (derivable_pt_lim_mult (fun t => t) (peval p)); [apply derivable_pt_lim_id|exact D'].
Qed.
Lemma dpl_ext f g x l : (forall y, f y = g y) -> derivable_pt_lim f x l -> derivable_pt_lim g x l.
Proof. intros E D eps He. destruct (D eps He) as [d Hd]. exists d. intros h H1 H2. rewrite <- !E. now apply Hd. Qed.
Lemma legendre_Q n m t : peval (legendre_deriv n m) t = Q n m t.
Proof.
  revert t. induction m as [|m IH]; intros t; [apply (legendre_pair_Q n t)|].
  unfold legendre_deriv in *. cbn [Nat.iter]. change (peval (pderiv (Nat.iter m pderiv (legendre n))) t = Q n (S m) t).
  eapply uniqueness_limite; [apply peval_deriv|]. eapply dpl_ext; [|apply Q_deriv]. intros y. symmetry. apply IH.
Qed.

(** three-term relation across the orders *)
Lemma Q_across n m t :
  (INR n - INR m) * (INR n - INR m + 1) * Q (S n) m t = 2 * (INR m + 1) * Q n (S m) t - (1 - t * t) * Q (S n) (S (S m)) t.
Proof.
  rewrite (Q1 n (S m)), S_INR. pose proof (Q_step n m t) as U. pose proof (Q_ode n t m) as O.
  replace ((INR n - INR m) * (INR n - INR m + 1) * Q (S n) m t) with ((INR n - INR m) * ((INR n - INR m + 1) * Q (S n) m t)) by ring. rewrite U.
  generalize dependent (Q n m t). generalize dependent (Q n (S m) t). generalize dependent (Q n (S (S m)) t). intros q2 q1 q0 _ O.
  transitivity (t * ((INR n - INR m) * (INR n + INR m + 1) * q0) - (INR n - INR m) * (1 - t * t) * q1); [ring|].
  replace ((INR n - INR m) * (INR n + INR m + 1) * q0) with (- ((1 - t * t) * q2 - 2 * (INR m + 1) * t * q1)) by lra. ring.
Qed.
Lemma Q_high n : forall m t, (n < m)%nat -> Q n m t = 0.
Proof.
  induction n as [|n IH]; intros m t H; (destruct m as [|m]; [lia|]); [reflexivity|]. rewrite Q1, !IH by lia. ring.
Qed.

(** ** The solid harmonics and their derivatives *)
Definition inv_r (x y z : R) : R := / radius x y z.
Definition F (n m : nat) (x y z : R) : R := inv_r x y z ^ (n + m + 1) * Q n m (z * inv_r x y z).
Definition off (x y z : R) : Prop := 0 < x * x + y * y + z * z.

Lemma radius_pos x y z : off x y z -> 0 < radius x y z.
Proof. intros H. unfold radius. now apply sqrt_lt_R0. Qed.
Lemma radius_sq x y z : off x y z -> radius x y z * radius x y z = x * x + y * y + z * z.
Proof. intros H. unfold radius. apply sqrt_def. unfold off in H. lra. Qed.
Lemma inv_sq x y z : off x y z -> inv_r x y z * inv_r x y z * (x * x + y * y + z * z) = 1.
Proof. intros H. rewrite <- (radius_sq x y z H). unfold inv_r. pose proof (radius_pos x y z H). field. lra. Qed.

Lemma dpl_ext2 f x l l' : l = l' -> derivable_pt_lim f x l -> derivable_pt_lim f x l'.
Proof. now intros ->. Qed.
Lemma dpl_pow f x l n : derivable_pt_lim f x l -> derivable_pt_lim (fun x => f x ^ n) x (INR n * f x ^ (n - 1) * l).
Proof.
  intros D. destruct n as [|n].
  - cbn [pow INR]. eapply dpl_ext2; [|apply derivable_pt_lim_const]. ring.
  - replace (S n - 1)%nat with (pred (S n)) by (cbn; lia). 
    apply (derivable_pt_lim_comp f (fun u => u ^ S n)); [exact D|]. apply derivable_pt_lim_pow.
Qed.
(** 1 / sqrt of a quadratic polynomial *)
Lemma dpl_inv_r c x : 0 < x * x + c -> derivable_pt_lim (fun v => / sqrt (v * v + c)) x (- x * (/ sqrt (x * x + c)) ^ 3).
Proof.
  intros H. assert (P : 0 < sqrt (x * x + c)) by now apply sqrt_lt_R0.
  assert (D1 : derivable_pt_lim (fun v => v * v + c) x (2 * x)).
  { eapply dpl_ext2; [|apply (derivable_pt_lim_plus (fun v => v * v) (fun _ => c)); [apply (derivable_pt_lim_mult (fun v => v) (fun v => v)); apply derivable_pt_lim_id|apply derivable_pt_lim_const]]. ring. }
  assert (D2 : derivable_pt_lim (fun v => sqrt (v * v + c)) x (/ (2 * sqrt (x * x + c)) * (2 * x))).
  { apply (derivable_pt_lim_comp (fun v => v * v + c) sqrt); [exact D1|]. now apply derivable_pt_lim_sqrt. }
  assert (D3 : derivable_pt_lim (fun v => 1 / sqrt (v * v + c)) x ((0 * sqrt (x * x + c) - (/ (2 * sqrt (x * x + c)) * (2 * x)) * 1) / Rsqr (sqrt (x * x + c)))).
  { apply (derivable_pt_lim_div (fun _ => 1) (fun v => sqrt (v * v + c))); [apply derivable_pt_lim_const|exact D2|lra]. }
  eapply dpl_ext; [|eapply dpl_ext2; [|exact D3]].
  - intros v. unfold Rdiv. ring.
  - unfold Rsqr. field. lra.
Qed.
Lemma inv_r_x x y z : inv_r x y z = / sqrt (x * x + (y * y + z * z)). Proof. unfold inv_r, radius. f_equal. f_equal. ring. Qed.
Lemma inv_r_y x y z : inv_r x y z = / sqrt (y * y + (x * x + z * z)). Proof. unfold inv_r, radius. f_equal. f_equal. ring. Qed.
Lemma inv_r_z x y z : inv_r x y z = / sqrt (z * z + (x * x + y * y)). Proof. unfold inv_r, radius. f_equal. f_equal. ring. Qed.
Lemma inv_dx x y z : off x y z -> derivable_pt_lim (fun v => inv_r v y z) x (- x * inv_r x y z ^ 3).
Proof. intros H. rewrite inv_r_x. eapply dpl_ext; [intros v; symmetry; apply inv_r_x|]. apply dpl_inv_r. unfold off in H. lra. Qed.
Lemma inv_dy x y z : off x y z -> derivable_pt_lim (fun v => inv_r x v z) y (- y * inv_r x y z ^ 3).
Proof. intros H. rewrite inv_r_y. eapply dpl_ext; [intros v; symmetry; apply inv_r_y|]. apply dpl_inv_r. unfold off in H. lra. Qed.
Lemma inv_dz x y z : off x y z -> derivable_pt_lim (fun v => inv_r x y v) z (- z * inv_r x y z ^ 3).
Proof. intros H. rewrite inv_r_z. eapply dpl_ext; [intros v; symmetry; apply inv_r_z|]. apply dpl_inv_r. unfold off in H. lra. Qed.

Lemma F_dx n m x y z : off x y z -> derivable_pt_lim (fun v => F n m v y z) x (- x * F (S n) (S m) x y z).
Proof.
  intros H. pose proof (inv_dx x y z H) as D. unfold F.
  assert (D2 : derivable_pt_lim (fun v => Q n m (z * inv_r v y z)) x (Q n (S m) (z * inv_r x y z) * (z * (- x * inv_r x y z ^ 3)))).
  { apply (derivable_pt_lim_comp (fun v => z * inv_r v y z) (Q n m)); [now apply derivable_pt_lim_scal|apply Q_deriv]. }
  eapply dpl_ext2; [|apply (derivable_pt_lim_mult (fun v => inv_r v y z ^ (n + m + 1)) (fun v => Q n m (z * inv_r v y z))); [apply dpl_pow, D|exact D2]].
  rewrite Q1. replace (S n + S m + 1)%nat with (S (S (S (n + m)))) by lia. replace (n + m + 1)%nat with (S (n + m)) by lia.
  replace (S (n + m) - 1)%nat with (n + m)%nat by lia. rewrite S_INR, plus_INR. cbn [pow]. ring.
Qed.
Lemma F_dy n m x y z : off x y z -> derivable_pt_lim (fun v => F n m x v z) y (- y * F (S n) (S m) x y z).
Proof.
  intros H. pose proof (inv_dy x y z H) as D. unfold F.
  assert (D2 : derivable_pt_lim (fun v => Q n m (z * inv_r x v z)) y (Q n (S m) (z * inv_r x y z) * (z * (- y * inv_r x y z ^ 3)))).
  { apply (derivable_pt_lim_comp (fun v => z * inv_r x v z) (Q n m)); [now apply derivable_pt_lim_scal|apply Q_deriv]. }
  eapply dpl_ext2; [|apply (derivable_pt_lim_mult (fun v => inv_r x v z ^ (n + m + 1)) (fun v => Q n m (z * inv_r x v z))); [apply dpl_pow, D|exact D2]].
  rewrite Q1. replace (S n + S m + 1)%nat with (S (S (S (n + m)))) by lia. replace (n + m + 1)%nat with (S (n + m)) by lia.
  replace (S (n + m) - 1)%nat with (n + m)%nat by lia. rewrite S_INR, plus_INR. cbn [pow]. ring.
Qed.
Lemma F_dz n m x y z : off x y z -> derivable_pt_lim (fun v => F n m x y v) z (- (INR n - INR m + 1) * F (S n) m x y z).
Proof.
  intros H. pose proof (inv_dz x y z H) as D. unfold F. set (u := inv_r x y z) in *.
  assert (D2 : derivable_pt_lim (fun v => Q n m (v * inv_r x y v)) z (Q n (S m) (z * u) * (1 * u + z * (- z * u ^ 3)))).
  { apply (derivable_pt_lim_comp (fun v => v * inv_r x y v) (Q n m)); [|apply Q_deriv].
    apply (derivable_pt_lim_mult (fun v => v) (fun v => inv_r x y v)); [apply derivable_pt_lim_id|exact D]. }
  eapply dpl_ext2; [|apply (derivable_pt_lim_mult (fun v => inv_r x y v ^ (n + m + 1)) (fun v => Q n m (v * inv_r x y v))); [apply dpl_pow, D|exact D2]].
  fold u. pose proof (Q_step n m (z * u)) as U.
  replace (- (INR n - INR m + 1) * (u ^ (S n + m + 1) * Q (S n) m (z * u))) with (- u ^ (S n + m + 1) * ((INR n - INR m + 1) * Q (S n) m (z * u))) by ring.
  rewrite U. replace (S n + m + 1)%nat with (S (S (n + m))) by lia. replace (n + m + 1)%nat with (S (n + m)) by lia.
  replace (S (n + m) - 1)%nat with (n + m)%nat by lia. rewrite S_INR, plus_INR. cbn [pow]. ring.
Qed.
Lemma F_across n m x y z : off x y z ->
  (INR n - INR m) * (INR n - INR m + 1) * F (S n) m x y z = 2 * (INR m + 1) * F n (S m) x y z - (x * x + y * y) * F (S n) (S (S m)) x y z.
Proof.
  intros H. unfold F. set (u := inv_r x y z). pose proof (inv_sq x y z H) as I. fold u in I. pose proof (Q_across n m (z * u)) as A.
  replace (S n + m + 1)%nat with (n + S m + 1)%nat by lia. replace (S n + S (S m) + 1)%nat with (S (S (n + S m + 1))) by lia. cbn [pow].
  set (p := u ^ (n + S m + 1)). 
  transitivity (p * ((INR n - INR m) * (INR n - INR m + 1) * Q (S n) m (z * u))); [ring|]. rewrite A.
  replace (1 - z * u * (z * u)) with (u * u * (x * x + y * y)) by lra. ring.
Qed.

(** (x + i y)^m and its derivatives *)
Definition A (m : nat) (x y : R) : R := fst (cpow x y m).
Definition B (m : nat) (x y : R) : R := snd (cpow x y m).
Lemma A1 m x y : A (S m) x y = x * A m x y - y * B m x y. Proof. unfold A, B. cbn [cpow]. destruct (cpow x y m). reflexivity. Qed.
Lemma B1 m x y : B (S m) x y = x * B m x y + y * A m x y. Proof. unfold A, B. cbn [cpow]. destruct (cpow x y m). reflexivity. Qed.
Lemma AB_dx m x y : derivable_pt_lim (fun v => A (S m) v y) x ((INR m + 1) * A m x y) /\ derivable_pt_lim (fun v => B (S m) v y) x ((INR m + 1) * B m x y).
Proof.
  induction m as [|m [DA DB]].
  - split.
    + eapply dpl_ext; [intros v; symmetry; apply A1|]. unfold A, B. cbn [cpow fst snd INR].
      eapply dpl_ext2; [|apply (derivable_pt_lim_minus (fun v => v * 1) (fun _ => y * 0)); [apply (derivable_pt_lim_mult (fun v => v) (fun _ => 1)); [apply derivable_pt_lim_id|apply derivable_pt_lim_const]|apply derivable_pt_lim_const]]. ring.
    + eapply dpl_ext; [intros v; symmetry; apply B1|]. unfold A, B. cbn [cpow fst snd INR].
      eapply dpl_ext2; [|apply (derivable_pt_lim_plus (fun v => v * 0) (fun _ => y * 1)); [apply (derivable_pt_lim_mult (fun v => v) (fun _ => 0)); [apply derivable_pt_lim_id|apply derivable_pt_lim_const]|apply derivable_pt_lim_const]]. ring.
  - rewrite !S_INR. split.
    + eapply dpl_ext; [intros v; symmetry; apply A1|].
      eapply dpl_ext2; [|apply (derivable_pt_lim_minus (fun v => v * A (S m) v y) (fun v => y * B (S m) v y)); [apply (derivable_pt_lim_mult (fun v => v) (fun v => A (S m) v y)); [apply derivable_pt_lim_id|exact DA]|apply derivable_pt_lim_scal, DB]].
      rewrite !A1. ring.
    + eapply dpl_ext; [intros v; symmetry; apply B1|].
      eapply dpl_ext2; [|apply (derivable_pt_lim_plus (fun v => v * B (S m) v y) (fun v => y * A (S m) v y)); [apply (derivable_pt_lim_mult (fun v => v) (fun v => B (S m) v y)); [apply derivable_pt_lim_id|exact DB]|apply derivable_pt_lim_scal, DA]].
      rewrite !B1. ring.
Qed.
Lemma AB_dy m x y : derivable_pt_lim (fun v => A (S m) x v) y (- (INR m + 1) * B m x y) /\ derivable_pt_lim (fun v => B (S m) x v) y ((INR m + 1) * A m x y).
Proof.
  induction m as [|m [DA DB]].
  - split.
    + eapply dpl_ext; [intros v; symmetry; apply A1|]. unfold A, B. cbn [cpow fst snd INR].
      eapply dpl_ext2; [|apply (derivable_pt_lim_minus (fun _ => x * 1) (fun v => v * 0)); [apply derivable_pt_lim_const|apply (derivable_pt_lim_mult (fun v => v) (fun _ => 0)); [apply derivable_pt_lim_id|apply derivable_pt_lim_const]]]. ring.
    + eapply dpl_ext; [intros v; symmetry; apply B1|]. unfold A, B. cbn [cpow fst snd INR].
      eapply dpl_ext2; [|apply (derivable_pt_lim_plus (fun _ => x * 0) (fun v => v * 1)); [apply derivable_pt_lim_const|apply (derivable_pt_lim_mult (fun v => v) (fun _ => 1)); [apply derivable_pt_lim_id|apply derivable_pt_lim_const]]]. ring.
  - rewrite !S_INR. split.
    + eapply dpl_ext; [intros v; symmetry; apply A1|].
      eapply dpl_ext2; [|apply (derivable_pt_lim_minus (fun v => x * A (S m) x v) (fun v => v * B (S m) x v)); [apply derivable_pt_lim_scal, DA|apply (derivable_pt_lim_mult (fun v => v) (fun v => B (S m) x v)); [apply derivable_pt_lim_id|exact DB]]].
      rewrite !B1. ring.
    + eapply dpl_ext; [intros v; symmetry; apply B1|].
      eapply dpl_ext2; [|apply (derivable_pt_lim_plus (fun v => x * B (S m) x v) (fun v => v * A (S m) x v)); [apply derivable_pt_lim_scal, DB|apply (derivable_pt_lim_mult (fun v => v) (fun v => A (S m) x v)); [apply derivable_pt_lim_id|exact DA]]].
      rewrite !A1. ring.
Qed.

(** The solid harmonics *)
Section Solid.
  Variable rr : R.
  Definition V (n m : nat) (x y z : R) : R := rr ^ (n + 1) * (F n m x y z * A m x y).
  Definition W (n m : nat) (x y z : R) : R := rr ^ (n + 1) * (F n m x y z * B m x y).
  Lemma solid_VW n m x y z : off x y z -> solid rr n m x y z = (V n m x y z, W n m x y z).
  Proof.
    intros H. unfold solid, V, W, F, A, B. cbn zeta. rewrite legendre_Q. change (z / radius x y z) with (z * inv_r x y z).
    pose proof (radius_pos x y z H) as P. assert (E : forall q, (rr / radius x y z) ^ (n + 1) * q / radius x y z ^ m = rr ^ (n + 1) * (inv_r x y z ^ (n + m + 1) * q)).
    { intros q. unfold inv_r, Rdiv. rewrite Rpow_mult_distr, !pow_inv by lra. replace (n + m + 1)%nat with (n + 1 + m)%nat by lia. rewrite (pow_add (radius x y z) (n + 1) m).
      rewrite Rinv_mult. ring. }
    rewrite E. f_equal; ring.
  Qed.

  Lemma V_dz n m x y z : off x y z -> derivable_pt_lim (fun v => rr * V n m x y v) z (- (INR n - INR m + 1) * V (S n) m x y z).
  Proof.
    intros H. unfold V. eapply dpl_ext2; [|apply derivable_pt_lim_scal, derivable_pt_lim_scal, (derivable_pt_lim_mult (fun v => F n m x y v) (fun _ => A m x y)); [apply F_dz, H|apply derivable_pt_lim_const]].
    cbn [Nat.add pow]. ring.
  Qed.
  Lemma W_dz n m x y z : off x y z -> derivable_pt_lim (fun v => rr * W n m x y v) z (- (INR n - INR m + 1) * W (S n) m x y z).
  Proof.
    intros H. unfold W. eapply dpl_ext2; [|apply derivable_pt_lim_scal, derivable_pt_lim_scal, (derivable_pt_lim_mult (fun v => F n m x y v) (fun _ => B m x y)); [apply F_dz, H|apply derivable_pt_lim_const]].
    cbn [Nat.add pow]. ring.
  Qed.
  Lemma V0_dx n x y z : off x y z -> derivable_pt_lim (fun v => rr * V n 0 v y z) x (- V (S n) 1 x y z).
  Proof.
    intros H. unfold V. eapply dpl_ext2; [|apply derivable_pt_lim_scal, derivable_pt_lim_scal, (derivable_pt_lim_mult (fun v => F n 0 v y z) (fun _ => 1)); [apply F_dx, H|apply derivable_pt_lim_const]].
    rewrite A1. cbn [Nat.add pow]. unfold A, B. cbn [cpow fst snd]. ring.
  Qed.
  Lemma V0_dy n x y z : off x y z -> derivable_pt_lim (fun v => rr * V n 0 x v z) y (- W (S n) 1 x y z).
  Proof.
    intros H. unfold V, W. eapply dpl_ext2; [|apply derivable_pt_lim_scal, derivable_pt_lim_scal, (derivable_pt_lim_mult (fun v => F n 0 x v z) (fun _ => 1)); [apply F_dy, H|apply derivable_pt_lim_const]].
    rewrite B1. cbn [Nat.add pow]. unfold A, B. cbn [cpow fst snd]. ring.
  Qed.
  Lemma W0 n x y z : W n 0 x y z = 0. Proof. unfold W, B. cbn [cpow snd]. ring. Qed.

  (** half of (n-m)(n-m+1) ... with m shifted by one *)
  Notation kk n m := ((INR n - INR m) * (INR n - INR m + 1)).
  Lemma V_dx n m x y z : off x y z -> derivable_pt_lim (fun v => rr * V n (S m) v y z) x (/ 2 * (- V (S n) (S (S m)) x y z + kk n m * V (S n) m x y z)).
  Proof.
    intros H. unfold V. eapply dpl_ext2; [|apply derivable_pt_lim_scal, derivable_pt_lim_scal, (derivable_pt_lim_mult (fun v => F n (S m) v y z) (fun v => A (S m) v y)); [apply F_dx, H|apply AB_dx]].
    transitivity (/ 2 * (rr ^ (S n + 1) * (- F (S n) (S (S m)) x y z * A (S (S m)) x y + (kk n m * F (S n) m x y z) * A m x y))); [|ring].
    rewrite (F_across n m x y z H), !A1, B1. cbn [Nat.add pow]. field.
  Qed.
  Lemma V_dy n m x y z : off x y z -> derivable_pt_lim (fun v => rr * V n (S m) x v z) y (/ 2 * (- W (S n) (S (S m)) x y z - kk n m * W (S n) m x y z)).
  Proof.
    intros H. unfold V, W. eapply dpl_ext2; [|apply derivable_pt_lim_scal, derivable_pt_lim_scal, (derivable_pt_lim_mult (fun v => F n (S m) x v z) (fun v => A (S m) x v)); [apply F_dy, H|apply AB_dy]].
    transitivity (/ 2 * (rr ^ (S n + 1) * (- F (S n) (S (S m)) x y z * B (S (S m)) x y - (kk n m * F (S n) m x y z) * B m x y))); [|ring].
    rewrite (F_across n m x y z H), !B1, !A1. cbn [Nat.add pow]. field.
  Qed.
  Lemma W_dx n m x y z : off x y z -> derivable_pt_lim (fun v => rr * W n (S m) v y z) x (/ 2 * (- W (S n) (S (S m)) x y z + kk n m * W (S n) m x y z)).
  Proof.
    intros H. unfold W. eapply dpl_ext2; [|apply derivable_pt_lim_scal, derivable_pt_lim_scal, (derivable_pt_lim_mult (fun v => F n (S m) v y z) (fun v => B (S m) v y)); [apply F_dx, H|apply AB_dx]].
    transitivity (/ 2 * (rr ^ (S n + 1) * (- F (S n) (S (S m)) x y z * B (S (S m)) x y + (kk n m * F (S n) m x y z) * B m x y))); [|ring].
    rewrite (F_across n m x y z H), !B1, !A1. cbn [Nat.add pow]. field.
  Qed.
  Lemma W_dy n m x y z : off x y z -> derivable_pt_lim (fun v => rr * W n (S m) x v z) y (/ 2 * (V (S n) (S (S m)) x y z + kk n m * V (S n) m x y z)).
  Proof.
    intros H. unfold V, W. eapply dpl_ext2; [|apply derivable_pt_lim_scal, derivable_pt_lim_scal, (derivable_pt_lim_mult (fun v => F n (S m) x v z) (fun v => B (S m) x v)); [apply F_dy, H|apply AB_dy]].
    transitivity (/ 2 * (rr ^ (S n + 1) * (F (S n) (S (S m)) x y z * A (S (S m)) x y + (kk n m * F (S n) m x y z) * A m x y))); [|ring].
    rewrite (F_across n m x y z H), !A1, !B1. cbn [Nat.add pow]. field.
  Qed.

  (** ** The recursions *)
  Lemma VW_diag n x y z : off x y z ->
    V (S n) (S n) x y z = (2 * INR n + 1) * (rr * inv_r x y z * inv_r x y z) * (x * V n n x y z - y * W n n x y z) /\
    W (S n) (S n) x y z = (2 * INR n + 1) * (rr * inv_r x y z * inv_r x y z) * (x * W n n x y z + y * V n n x y z).
  Proof.
    intros H. unfold V, W, F. rewrite A1, B1, Q1, (Q_high n (S n)) by lia. replace (S n + S n + 1)%nat with (S (S (n + n + 1))) by lia. cbn [Nat.add pow]. split; ring.
  Qed.
  Lemma VW_column1 n x y z :
    V (S n) n x y z = (2 * INR n + 1) * (rr * inv_r x y z * inv_r x y z) * z * V n n x y z /\
    W (S n) n x y z = (2 * INR n + 1) * (rr * inv_r x y z * inv_r x y z) * z * W n n x y z.
  Proof.
    unfold V, W, F. pose proof (Q_step n n (z * inv_r x y z)) as U. rewrite (Q_high n (S n)) in U by lia.
    assert (E : Q (S n) n (z * inv_r x y z) = (2 * INR n + 1) * (z * inv_r x y z) * Q n n (z * inv_r x y z)) by lra. rewrite E.
    replace (S n + n + 1)%nat with (S (n + n + 1)) by lia. cbn [Nat.add pow]. split; ring.
  Qed.
  Lemma VW_column n m x y z :
    (INR n - INR m + 2) * V (S (S n)) m x y z = (2 * INR n + 3) * (rr * inv_r x y z * inv_r x y z) * z * V (S n) m x y z - (INR n + INR m + 1) * (rr * (rr * inv_r x y z * inv_r x y z)) * V n m x y z /\
    (INR n - INR m + 2) * W (S (S n)) m x y z = (2 * INR n + 3) * (rr * inv_r x y z * inv_r x y z) * z * W (S n) m x y z - (INR n + INR m + 1) * (rr * (rr * inv_r x y z * inv_r x y z)) * W n m x y z.
  Proof.
    unfold V, W, F. pose proof (Q_column n m (z * inv_r x y z)) as U. set (t := z * inv_r x y z) in *.
    replace (S (S n) + m + 1)%nat with (S (S (n + m + 1))) by lia. replace (S n + m + 1)%nat with (S (n + m + 1)) by lia. cbn [Nat.add pow].
    set (u := inv_r x y z) in *. set (a := A m x y). set (b := B m x y). set (p := u ^ (n + m + 1)). set (q := rr ^ (n + 1)).
    split.
    - transitivity (rr * (rr * q) * (u * (u * p)) * a * ((INR n - INR m + 2) * Q (S (S n)) m t)); [ring|]. rewrite U. unfold t. ring.
    - transitivity (rr * (rr * q) * (u * (u * p)) * b * ((INR n - INR m + 2) * Q (S (S n)) m t)); [ring|]. rewrite U. unfold t. ring.
  Qed.
End Solid.
