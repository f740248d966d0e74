From Coq Require Import Reals Lra Lia List Bool.
From Verif Require Import RBase VecModel.
Open Scope R_scope.

Definition sq (n : nat) (v : vec) : R := sumn n (fun i => v i * v i).
Lemma sq_nonneg n v : 0 <= sq n v.
Proof. apply sumn_nonneg. intros i _. apply Rle_0_sqr. Qed.
Lemma norm_sq n v : norm n v * norm n v = sq n v.
Proof. apply sqrt_sqrt, sq_nonneg. Qed.
Lemma norm_nonneg n v : 0 <= norm n v.
Proof. apply sqrt_pos. Qed.
Lemma norm_0 n v : norm n v = 0 -> forall i, (i < n)%nat -> v i = 0.
Proof.
  intros H i Hi. pose proof (norm_sq n v) as E. rewrite H in E.
  assert (v i * v i = 0).
  { apply (sumn_nonneg_0 n (fun i => v i * v i)); auto; [intros; apply Rle_0_sqr|]. unfold sq in E. lra. }
  nra.
Qed.
Lemma norm_zero_vec n v : (forall i, (i < n)%nat -> v i = 0) -> norm n v = 0.
Proof.
  intros H. unfold norm. rewrite sumn_0; [apply sqrt_0|]. intros i Hi. rewrite H by exact Hi. ring.
Qed.

Lemma cauchy_schwarz n u v : dot n u v * dot n u v <= sq n u * sq n v.
Proof.
  assert (Q : forall a b, 0 <= a * a * sq n u - 2 * a * b * dot n u v + b * b * sq n v).
  { intros a b.
    assert (E : a * a * sq n u - 2 * a * b * dot n u v + b * b * sq n v
                = sumn n (fun i => (a * u i - b * v i) * (a * u i - b * v i))).
    { unfold sq, dot. rewrite <- !sumn_scal, <- sumn_minus, <- sumn_plus. apply sumn_ext. intros i _. ring. }
    rewrite E. apply sumn_nonneg. intros i _. apply Rle_0_sqr. }
  pose proof (sq_nonneg n u) as U. pose proof (sq_nonneg n v) as V.
  destruct (Req_dec (sq n v) 0) as [Z|NZ].
  - destruct (Req_dec (dot n u v) 0) as [D|D]; [rewrite D, Z; lra|].
    pose proof (Q 1 ((sq n u + 1) / dot n u v)) as H. rewrite Z in H.
    replace (2 * 1 * ((sq n u + 1) / dot n u v) * dot n u v) with (2 * (sq n u + 1)) in H by (field; exact D). lra.
  - pose proof (Q (sq n v) (dot n u v)) as H.
    assert (0 <= sq n v * (sq n u * sq n v - dot n u v * dot n u v)) by (eapply Rle_trans; [exact H|]; right; ring).
    assert (0 < sq n v) by lra. nra.
Qed.
Lemma dot_le_norms n u v : Rabs (dot n u v) <= norm n u * norm n v.
Proof.
  apply Rsqr_incr_0_var; [|apply Rmult_le_pos; apply norm_nonneg]. rewrite <- Rsqr_abs.
  unfold Rsqr. replace (norm n u * norm n v * (norm n u * norm n v)) with ((norm n u * norm n u) * (norm n v * norm n v)) by ring.
  rewrite !norm_sq. apply cauchy_schwarz.
Qed.
Lemma normalize_norm n v : norm n v <> 0 -> norm n (normalize n v) = 1.
Proof.
  intros H. unfold normalize. rewrite req_false by exact H. unfold norm at 1, vdiv, vscal.
  rewrite (sumn_ext n _ (fun i => (1 / norm n v * (1 / norm n v)) * (v i * v i))) by (intros; ring).
  rewrite sumn_scal. fold (sq n v). rewrite <- norm_sq.
  replace (1 / norm n v * (1 / norm n v) * (norm n v * norm n v)) with 1 by (field; exact H). apply sqrt_1.
Qed.
Lemma normalize_norm_le n v : norm n (normalize n v) <= 1.
Proof.
  destruct (Req_dec (norm n v) 0) as [E|E]; [|rewrite normalize_norm by exact E; lra].
  unfold normalize. rewrite req_true by exact E. lra.
Qed.
Lemma dot_normalized n u v : Rabs (dot n (normalize n u) (normalize n v)) <= 1.
Proof.
  eapply Rle_trans; [apply dot_le_norms|].
  pose proof (normalize_norm_le n u). pose proof (normalize_norm_le n v).
  pose proof (norm_nonneg n (normalize n u)). pose proof (norm_nonneg n (normalize n v)). nra.
Qed.
Lemma normalize_dir n v i : norm n v * normalize n v i = if req (norm n v) 0 then 0 else v i.
Proof.
  unfold normalize. destruct (req_spec (norm n v) 0) as [E|E]; [rewrite E; ring|].
  unfold vdiv, vscal. field. exact E.
Qed.
Lemma sumn3 f : sumn 3 f = f 0%nat + f 1%nat + f 2%nat.
Proof. cbn [sumn]. ring. Qed.
