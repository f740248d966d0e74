(** Real-number comparisons as booleans (the C++ operators on doubles) and finite sums.
    Used by the models written over exact real arithmetic. *)
From Coq Require Import Reals Lra Lia List Bool ZArith.
Import ListNotations.
Open Scope R_scope.

Definition rlt (a b : R) : bool := if Rlt_dec a b then true else false.
Definition rle (a b : R) : bool := if Rle_dec a b then true else false.
Definition req (a b : R) : bool := if Req_EM_T a b then true else false.

Lemma rlt_spec a b : reflect (a < b) (rlt a b).
Proof. unfold rlt. destruct (Rlt_dec a b); constructor; assumption. Qed.
Lemma rle_spec a b : reflect (a <= b) (rle a b).
Proof. unfold rle. destruct (Rle_dec a b); constructor; assumption. Qed.
Lemma req_spec a b : reflect (a = b) (req a b).
Proof. unfold req. destruct (Req_EM_T a b); constructor; assumption. Qed.

Lemma rlt_true a b : a < b -> rlt a b = true.
Proof. destruct (rlt_spec a b); [reflexivity|contradiction]. Qed.
Lemma rlt_false a b : b <= a -> rlt a b = false.
Proof. destruct (rlt_spec a b); [lra|reflexivity]. Qed.
Lemma rle_true a b : a <= b -> rle a b = true.
Proof. destruct (rle_spec a b); [reflexivity|contradiction]. Qed.
Lemma rle_false a b : b < a -> rle a b = false.
Proof. destruct (rle_spec a b); [lra|reflexivity]. Qed.
Lemma req_true a b : a = b -> req a b = true.
Proof. destruct (req_spec a b); [reflexivity|contradiction]. Qed.
Lemma req_false a b : a <> b -> req a b = false.
Proof. destruct (req_spec a b); [contradiction|reflexivity]. Qed.

(** f 0 + f 1 + ... + f (n-1), accumulated from the left starting from 0. *)
Fixpoint sumn (n : nat) (f : nat -> R) : R :=
  match n with O => 0 | S m => sumn m f + f m end.

Lemma sumn_ext n f g : (forall i, (i < n)%nat -> f i = g i) -> sumn n f = sumn n g.
Proof.
  induction n as [|n IH]; intros H; cbn [sumn]; [reflexivity|].
  rewrite (H n) by lia. rewrite IH; [reflexivity|]. intros i Hi. apply H. lia.
Qed.
Lemma sumn_plus n f g : sumn n (fun i => f i + g i) = sumn n f + sumn n g.
Proof. induction n as [|n IH]; cbn [sumn]; [lra|]. rewrite IH. lra. Qed.
Lemma sumn_minus n f g : sumn n (fun i => f i - g i) = sumn n f - sumn n g.
Proof. induction n as [|n IH]; cbn [sumn]; [lra|]. rewrite IH. lra. Qed.
Lemma sumn_scal n c f : sumn n (fun i => c * f i) = c * sumn n f.
Proof. induction n as [|n IH]; cbn [sumn]; [lra|]. rewrite IH. lra. Qed.
Lemma sumn_scal_r n c f : sumn n (fun i => f i * c) = sumn n f * c.
Proof. induction n as [|n IH]; cbn [sumn]; [lra|]. rewrite IH. lra. Qed.
Lemma sumn_0 n f : (forall i, (i < n)%nat -> f i = 0) -> sumn n f = 0.
Proof.
  induction n as [|n IH]; intros H; cbn [sumn]; [reflexivity|].
  rewrite (H n) by lia. rewrite IH; [lra|]. intros i Hi. apply H. lia.
Qed.
Lemma sumn_single n k f : (k < n)%nat -> (forall i, (i < n)%nat -> i <> k -> f i = 0) -> sumn n f = f k.
Proof.
  induction n as [|n IH]; intros Hk H; [lia|]. cbn [sumn].
  destruct (Nat.eq_dec k n) as [->|NE].
  - rewrite sumn_0; [lra|]. intros i Hi. apply H; lia.
  - rewrite (H n) by lia. rewrite IH; [lra|lia|]. intros i Hi Hne. apply H; lia.
Qed.
Lemma sumn_swap n m f : sumn n (fun i => sumn m (fun j => f i j)) = sumn m (fun j => sumn n (fun i => f i j)).
Proof.
  induction n as [|n IH]; cbn [sumn].
  - symmetry. apply sumn_0. reflexivity.
  - rewrite IH. now rewrite <- sumn_plus.
Qed.
Lemma sumn_app n m f : sumn (n + m) f = sumn n f + sumn m (fun i => f (n + i)%nat).
Proof.
  induction m as [|m IH]; cbn [sumn]; [rewrite Nat.add_0_r; lra|].
  rewrite Nat.add_succ_r. cbn [sumn]. rewrite IH. lra.
Qed.
Lemma sumn_le n f g : (forall i, (i < n)%nat -> f i <= g i) -> sumn n f <= sumn n g.
Proof.
  induction n as [|n IH]; intros H; cbn [sumn]; [lra|].
  pose proof (H n ltac:(lia)). assert (sumn n f <= sumn n g); [|lra]. apply IH. intros i Hi. apply H. lia.
Qed.
Lemma sumn_nonneg n f : (forall i, (i < n)%nat -> 0 <= f i) -> 0 <= sumn n f.
Proof.
  intros H. rewrite <- (sumn_0 n (fun _ => 0)) by reflexivity. now apply sumn_le.
Qed.
Lemma sumn_nonneg_0 n f : (forall i, (i < n)%nat -> 0 <= f i) -> sumn n f = 0 -> forall i, (i < n)%nat -> f i = 0.
Proof.
  induction n as [|n IH]; intros H E i Hi; [lia|]. cbn [sumn] in E.
  pose proof (H n ltac:(lia)). assert (0 <= sumn n f) by (apply sumn_nonneg; intros; apply H; lia).
  destruct (Nat.eq_dec i n) as [->|NE]; [lra|]. apply IH; [intros; apply H; lia|lra|lia].
Qed.
Lemma sumn_abs n f : Rabs (sumn n f) <= sumn n (fun i => Rabs (f i)).
Proof.
  induction n as [|n IH]; cbn [sumn]; [rewrite Rabs_R0; lra|].
  eapply Rle_trans; [apply Rabs_triang|]. lra.
Qed.
Lemma nat_above x : exists n, x < INR n.
Proof.
  destruct (archimed x) as [A _]. exists (Z.to_nat (up x)).
  destruct (Z_lt_le_dec (up x) 0) as [L|L].
  - apply IZR_lt in L. pose proof (pos_INR (Z.to_nat (up x))). lra.
  - rewrite INR_IZR_INZ, Z2Nat.id by exact L. lra.
Qed.
Lemma Rabs_le_both x y : Rabs x <= y -> - y <= x <= y.
Proof. unfold Rabs. destruct (Rcase_abs x); lra. Qed.
