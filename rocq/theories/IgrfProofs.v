From Coq Require Import Reals Lra Lia List Arith Bool ZArith.
From Verif Require Import Base RBase VecModel GravitySpec GravityHarmonics GravityGrad GravityFile IgrfModel IgrfSpec.
Import ListNotations.
Open Scope R_scope.

Lemma loop_inv {T} (P : nat -> T -> Prop) (body : nat -> T -> T) : forall count lo a, P lo a ->
  (forall j b, (lo <= j < lo + count)%nat -> P j b -> P (S j) (body j b)) -> P (lo + count)%nat (loop body lo count a).
Proof.
  induction count as [|k IH]; intros lo a H0 Hs; cbn [loop].
  - rewrite Nat.add_0_r. exact H0.
  - rewrite Nat.add_succ_r. apply (IH (S lo)); [apply Hs; [lia|exact H0]|]. intros j b Hj. apply Hs. lia.
Qed.
Lemma loop_ext {T} (f h : nat -> T -> T) : forall count lo a, (forall j b, (lo <= j < lo + count)%nat -> f j b = h j b) -> loop f lo count a = loop h lo count a.
Proof. induction count as [|k IH]; intros lo a H; cbn [loop]; [reflexivity|]. rewrite H by lia. apply IH. intros. apply H. lia. Qed.
Lemma put_same t i j v : put t i j v i j = v. Proof. unfold put. rewrite !Nat.eqb_refl. reflexivity. Qed.
Lemma put_other t i j v a b : (a <> i \/ b <> j)%nat -> put t i j v a b = t a b.
Proof. intros H. unfold put. destruct (Nat.eqb_spec a i), (Nat.eqb_spec b j); cbn [andb]; try reflexivity. lia. Qed.
Lemma put1_same t i v : put1 t i v i = v. Proof. unfold put1. rewrite Nat.eqb_refl. reflexivity. Qed.
Lemma put1_other t i v a : (a <> i)%nat -> put1 t i v a = t a.
Proof. intros H. unfold put1. destruct (Nat.eqb_spec a i); [lia|reflexivity]. Qed.

(** ** The tables of a place *)
Lemma rar_ok maxod r t0 : forall n, (n <= maxod)%nat -> rar_table maxod r t0 n = (ra_ / r) ^ (n + 2).
Proof.
  unfold rar_table.
  pose proof (loop_inv (fun j (rar : nat -> R) => forall n, (n < j)%nat -> rar n = (ra_ / r) ^ (n + 2))
    (fun n rar => put1 rar n (rar (n - 1)%nat * (ra_ / r))) maxod 1 (put1 t0 0 (ra_ / r * (ra_ / r)))) as H.
  intros n Hn. apply H; [| |lia].
  - intros i Hi. assert (i = 0)%nat by lia. subst. rewrite put1_same. cbn. ring.
  - intros j b Hj IH i Hi. destruct (Nat.eq_dec i j) as [->|Ne].
    + rewrite put1_same, IH by lia. replace (j + 2)%nat with (S (j - 1 + 2)) by lia. cbn [pow]. ring.
    + rewrite put1_other by lia. apply IH. lia.
Qed.
Lemma ph_ok maxod phi s : forall m, (m <= maxod)%nat ->
  fst (ph_table maxod (cos phi) (sin phi) s) m = cos (INR m * phi) /\ snd (ph_table maxod (cos phi) (sin phi) s) m = sin (INR m * phi).
Proof.
  unfold ph_table.
  pose proof (loop_inv (fun j (t : (nat -> R) * (nat -> R)) => forall n, (n < j)%nat -> fst t n = cos (INR n * phi) /\ snd t n = sin (INR n * phi))
    (fun m s => (put1 (fst s) m (fst s (m - 1)%nat * cos phi - snd s (m - 1)%nat * sin phi),
                    put1 (snd s) m (snd s (m - 1)%nat * cos phi + fst s (m - 1)%nat * sin phi))) maxod 1 (put1 (fst s) 0 1, put1 (snd s) 0 0)) as H.
  intros m Hm. apply H; [| |lia].
  - intros i Hi. assert (i = 0)%nat by lia. subst. cbn [fst snd]. rewrite !put1_same. cbn [INR]. rewrite Rmult_0_l, cos_0, sin_0. split; reflexivity.
  - intros j b Hj IH i Hi. cbn [fst snd]. destruct (Nat.eq_dec i j) as [->|Ne].
    + rewrite !put1_same. destruct (IH (j - 1)%nat) as [E1 E2]; [lia|]. rewrite E1, E2.
      replace (INR j * phi) with (INR (j - 1) * phi + phi) by (rewrite minus_INR by lia; cbn [INR]; ring).
      rewrite cos_plus, sin_plus. split; ring.
    + rewrite !put1_other by lia. apply IH. lia.
Qed.

(** the recursion of the polar region *)
Lemma Q_polar n k t : t * Q (S n) (S k) t = Q n (S k) t + (INR n - INR k + 1) * Q (S n) k t.
Proof. rewrite Q_step, Q1. ring. Qed.
Lemma Q_diag n t : Q (S n) (S n) t = (2 * INR n + 1) * Q n n t.
Proof. rewrite Q1, (Q_high n (S n)) by lia. ring. Qed.

Section LEGENDRE.
  Variables (c s : R).
  Hypothesis Hcs : c * c + s * s = 1.
  Hypothesis Hs : 0 < s.
  (** P_n^m and its derivative with respect to the colatitude *)
  Definition Pf (n m : nat) : R := s ^ m * Q n m c.
  Definition Df (n m : nat) : R := match m with O => - (s * Q n 1 c) | S k => INR m * s ^ k * c * Q n m c - s ^ (m + 1) * Q n (S m) c end.

  Lemma P_low n k : (k <= n)%nat -> Pf (S n) (S k) = (Pf n k * INR (S n + S k - 1) - Pf (S n) k * c * INR (S n - S k + 1)) / s.
  Proof.
    intros H. unfold Pf. replace (S n + S k - 1)%nat with (n + k + 1)%nat by lia. replace (S n - S k + 1)%nat with (n - k + 1)%nat by lia.
    rewrite !plus_INR, minus_INR by lia. pose proof (Q_back n k c) as B. replace (1 - c * c) with (s * s) in B by lra.
    cbn [pow INR]. cbn [INR] in B. apply (Rmult_eq_reg_r s); [|lra].
    replace ((s ^ k * Q n k c * (INR n + INR k + 1) - s ^ k * Q (S n) k c * c * (INR n - INR k + 1)) / s * s)
      with (s ^ k * ((INR n + INR k + 1) * Q n k c - (INR n - INR k + 1) * c * Q (S n) k c)) by (field; lra).
    rewrite <- B. ring.
  Qed.
  Lemma P_polar n k : (k <= n)%nat -> c <> 0 -> Pf (S n) (S k) = (Pf n (S k) + Pf (S n) k * s * INR (S n - S k + 1)) / c.
  Proof.
    intros H Hc. unfold Pf. replace (S n - S k + 1)%nat with (n - k + 1)%nat by lia. rewrite plus_INR, minus_INR by lia. cbn [INR].
    pose proof (Q_polar n k c) as B. cbn [pow]. apply (Rmult_eq_reg_r c); [|lra].
    replace ((s * s ^ k * Q n (S k) c + s ^ k * Q (S n) k c * s * (INR n - INR k + 1)) / c * c)
      with (s * s ^ k * (Q n (S k) c + (INR n - INR k + 1) * Q (S n) k c)) by (field; lra).
    rewrite <- B. ring.
  Qed.
  Lemma P_zero n : Pf (S (S n)) 0 = (Pf (S n) 0 * c * INR (S (S n) + S (S n) - 1) - Pf n 0 * INR (S (S n) - 1)) / INR (S (S n)).
  Proof.
    unfold Pf. replace (S (S n) + S (S n) - 1)%nat with (2 * n + 3)%nat by lia. replace (S (S n) - 1)%nat with (n + 1)%nat by lia.
    pose proof (Q_column n 0 c) as B. rewrite !S_INR, !plus_INR, mult_INR. cbn [INR pow] in *.
    pose proof (pos_INR n). apply (Rmult_eq_reg_l (INR n + 1 + 1)); [|lra].
    replace (INR n - 0 + 2) with (INR n + 1 + 1) in B by ring. 
    replace ((INR n + 1 + 1) * (1 * Q (S (S n)) 0 c)) with ((INR n + 1 + 1) * Q (S (S n)) 0 c) by ring. rewrite B. field. lra.
  Qed.
  Lemma P_diag n : Pf (S n) (S n) = Pf n n * s * INR (S n + S n - 1).
  Proof. unfold Pf. rewrite Q_diag. replace (S n + S n - 1)%nat with (2 * n + 1)%nat by lia. rewrite plus_INR, mult_INR. cbn [INR pow]. ring. Qed.
  Lemma D_zero n : Df n 0 = - Pf n 1. Proof. unfold Df, Pf. cbn [pow]. ring. Qed.
  Lemma D_mid n k : (S k <= n)%nat -> Df n (S k) = (Pf n k * INR (n + S k) * INR (n - S k + 1) - Pf n (S (S k))) / 2.
  Proof.
    intros H. unfold Df, Pf. replace (n - S k + 1)%nat with (n - k)%nat by lia. rewrite minus_INR by lia. rewrite plus_INR, S_INR.
    pose proof (Q_ode n c k) as B. replace (1 - c * c) with (s * s) in B by lra. replace (S k + 1)%nat with (S (S k)) by lia. cbn [pow].
    assert (E : (INR n - INR k) * (INR n + INR k + 1) * Q n k c = 2 * (INR k + 1) * c * Q n (S k) c - s * s * Q n (S (S k)) c) by lra.
    replace (s ^ k * Q n k c * (INR n + (INR k + 1)) * (INR n - INR k)) with (s ^ k * ((INR n - INR k) * (INR n + INR k + 1) * Q n k c)) by ring.
    rewrite E. field.
  Qed.
  Lemma D_diag n : (1 <= n)%nat -> Df (S n) (S n) = (Pf n n * c + Df n n * s) * INR (S n + S n - 1).
  Proof.
    intros H. destruct n as [|k]; [lia|]. unfold Df, Pf. rewrite (Q_high (S (S k)) (S (S (S k)))), (Q_high (S k) (S (S k))) by lia. rewrite (Q_diag (S k)).
    replace (S (S k) + S (S k) - 1)%nat with (2 * k + 3)%nat by lia. rewrite plus_INR, mult_INR, !S_INR. cbn [INR pow]. ring.
  Qed.

  (** what the array holds when degrees below n are complete *)
  Definition p_done (n : nat) (p : arr) : Prop := forall n' m, (m <= n' < n)%nat -> p m n' = Pf n' m /\ p (n' + 1)%nat m = Df n' m.

  Lemma p_n_ok n p : (2 <= n)%nat -> p_done n p -> p_done (S n) (p_n c s n p).
  Proof.
    intros Hn Hp. unfold p_n.
    set (p1 := put p 0 n _).
    assert (P1 : p_done n p1 /\ p1 0%nat n = Pf n 0).
    { split.
      - intros n' m Hm. unfold p1. rewrite !put_other by lia. apply Hp. lia.
      - unfold p1. rewrite put_same. destruct n as [|[|n]]; try lia. cbn [Nat.sub]. rewrite P_zero.
        replace (S (S n) - 1)%nat with (S n) by lia. rewrite Nat.sub_0_r. rewrite (proj1 (Hp (S n) 0%nat ltac:(lia))), (proj1 (Hp n 0%nat ltac:(lia))). reflexivity. }
    destruct P1 as [P1 P1z]. clearbody p1.
    set (p2 := loop _ 1 (n - 1) p1).
    assert (P2 : p_done n p2 /\ forall m, (m < n)%nat -> p2 m n = Pf n m).
    { pose proof (loop_inv (fun j p => p_done n p /\ forall m, (m < j)%nat -> p m n = Pf n m) (p_m c s n) (n - 1) 1 p1) as L.
      replace (1 + (n - 1))%nat with n in L by lia. apply L; clear L.
      - split; [exact P1|]. intros m Hm. replace m with 0%nat by lia. exact P1z.
      - intros j b Hj [D B]. split.
        + intros n' m Hm. unfold p_m. rewrite !put_other by lia. apply D. lia.
        + intros m Hm. unfold p_m. destruct (Nat.eq_dec m j) as [->|Ne].
          * rewrite put_same. destruct j as [|j]; [lia|]. destruct n as [|n]; [lia|].
            replace (S j - 1)%nat with j by lia. replace (S n - 1)%nat with n by lia.
            destruct (rlt_spec 0.175 s) as [Hlow|Hpol].
            -- rewrite (proj1 (D n j ltac:(lia))), (B j) by lia. symmetry. apply P_low. lia.
            -- rewrite (proj1 (D n (S j) ltac:(lia))), (B j) by lia. symmetry. apply P_polar; [lia|]. nra.
          * rewrite put_other by lia. apply B. lia. }
    destruct P2 as [P2 P2m]. clearbody p2.
    set (p3 := put p2 n n _).
    assert (P3 : p_done n p3 /\ forall m, (m <= n)%nat -> p3 m n = Pf n m).
    { split.
      - intros n' m Hm. unfold p3. rewrite !put_other by lia. apply P2. lia.
      - intros m Hm. unfold p3. destruct (Nat.eq_dec m n) as [->|Ne].
        + rewrite put_same. rewrite (proj1 (P2 (n - 1)%nat (n - 1)%nat ltac:(lia))). destruct n as [|n]; [lia|].
          replace (S n - 1)%nat with n by lia. symmetry. apply P_diag.
        + rewrite put_other by lia. apply P2m. lia. }
    destruct P3 as [P3 P3m]. clearbody p3.
    set (p4 := put p3 (n + 1) 0 _).
    assert (P4 : p_done n p4 /\ (forall m, (m <= n)%nat -> p4 m n = Pf n m) /\ p4 (n + 1)%nat 0%nat = Df n 0).
    { split; [|split].
      - intros n' m Hm. unfold p4. rewrite !put_other by lia. apply P3. lia.
      - intros m Hm. unfold p4. rewrite put_other by lia. apply P3m. lia.
      - unfold p4. rewrite put_same, D_zero, P3m by lia. reflexivity. }
    destruct P4 as (P4 & P4m & P4z). clearbody p4.
    set (p5 := loop _ 1 (n - 1) p4).
    assert (P5 : p_done n p5 /\ (forall m, (m <= n)%nat -> p5 m n = Pf n m) /\ forall m, (m < n)%nat -> p5 (n + 1)%nat m = Df n m).
    { pose proof (loop_inv (fun j p => p_done n p /\ (forall m, (m <= n)%nat -> p m n = Pf n m) /\ forall m, (m < j)%nat -> p (n + 1)%nat m = Df n m) (q_m n) (n - 1) 1 p4) as L.
      replace (1 + (n - 1))%nat with n in L by lia. apply L; clear L.
      - split; [exact P4|split; [exact P4m|]]. intros m Hm. replace m with 0%nat by lia. exact P4z.
      - intros j b Hj (D & B & E). split; [|split].
        + intros n' m Hm. unfold q_m. rewrite !put_other by lia. apply D. lia.
        + intros m Hm. unfold q_m. rewrite put_other by lia. apply B. lia.
        + intros m Hm. unfold q_m. destruct (Nat.eq_dec m j) as [->|Ne].
          * rewrite put_same, !B by lia. destruct j as [|j]; [lia|]. replace (S j - 1)%nat with j by lia. replace (S j + 1)%nat with (S (S j)) by lia.
            symmetry. apply D_mid. lia.
          * rewrite put_other by lia. apply E. lia. }
    destruct P5 as (P5 & P5m & P5q). clearbody p5.
    intros n' m Hm. destruct (Nat.eq_dec n' n) as [->|Ne].
    - split; [rewrite put_other by lia; apply P5m; lia|]. destruct (Nat.eq_dec m n) as [->|Ne].
      + rewrite put_same. destruct n as [|n]; [lia|]. replace (S n - 1)%nat with n by lia. destruct (P5 n n ltac:(lia)) as [E1 E2].
        replace (n + 1)%nat with (S n) in E2 by lia. rewrite E1, E2. symmetry. apply D_diag. lia.
      + rewrite put_other by lia. apply P5q. lia.
    - rewrite !put_other by lia. apply P5. lia.
  Qed.
  Lemma p_ok maxod p0 : (1 <= maxod)%nat -> p_done (S maxod) (p_table maxod c s p0).
  Proof.
    intros H. unfold p_table. replace (S maxod) with (2 + (maxod - 1))%nat by lia. apply (loop_inv p_done).
    - intros n m Hm. assert (n = 0 \/ n = 1)%nat as [->| ->] by lia.
      + assert (m = 0)%nat by lia. subst. cbn. unfold Pf, Df. cbn. split; ring.
      + assert (m = 0 \/ m = 1)%nat as [->| ->] by lia; cbn; unfold Pf, Df; cbn; split; field; lra.
    - intros j b Hj. apply p_n_ok. lia.
  Qed.
End LEGENDRE.
