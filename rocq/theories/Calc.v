(** Derivatives used by the orbit proofs, computed with Coquelicot's auto_derive. *)
From Coq Require Import Reals Lra.
From Coquelicot Require Import Coquelicot.
Open Scope R_scope.

Section anomaly.
Context (a e n b : R) (u : R -> R) (s : R).
Hypothesis H : derivable_pt_lim u s (n / (1 - e * cos (u s))).
Hypothesis P : 0 < 1 - e * cos (u s).
Lemma ex_u : ex_derive u s. Proof. exists (n / (1 - e * cos (u s))). now apply is_derive_Reals. Qed.
Lemma D_u : Derive u s = n / (1 - e * cos (u s)).
Proof. apply is_derive_unique. now apply is_derive_Reals. Qed.
Ltac go := apply is_derive_Reals; auto_derive; [repeat split; try exact ex_u; lra|change (Derive (fun x => u x) s) with (Derive u s); rewrite D_u].
Lemma d_x : derivable_pt_lim (fun x => a * (cos (u x) - e)) s (-1 * a * n * sin (u s) / (1 - e * cos (u s))).
Proof. go. field. lra. Qed.
Lemma d_y : derivable_pt_lim (fun x => a * b * sin (u x)) s (n * (a * b) * cos (u s) / (1 - e * cos (u s))).
Proof. go. field. lra. Qed.
Lemma d_vx : derivable_pt_lim (fun x => -1 * a * n * sin (u x) / (1 - e * cos (u x))) s
  (- (n * n) / ((1 - e * cos (u s)) * (1 - e * cos (u s)) * (1 - e * cos (u s))) * (a * (cos (u s) - e))).
Proof.
  go. pose proof (sin2_cos2 (u s)) as T. unfold Rsqr in T. assert (S2 : sin (u s) ^ 2 = 1 - cos (u s) ^ 2) by lra.
  field_simplify_eq; [|lra]. rewrite S2. ring.
Qed.
Lemma d_vy : derivable_pt_lim (fun x => n * (a * b) * cos (u x) / (1 - e * cos (u x))) s
  (- (n * n) / ((1 - e * cos (u s)) * (1 - e * cos (u s)) * (1 - e * cos (u s))) * (a * b * sin (u s))).
Proof.
  go. field_simplify_eq; [|lra]. ring.
Qed.
End anomaly.

(** the entries of the Hill-Clohessy-Wiltshire transition matrix *)
Section hcw.
Context (n t : R).
Hypothesis N : n <> 0.
Ltac go := apply is_derive_Reals; auto_derive; [repeat split; try exact N|try (field; exact N)].
Lemma d_hcw_x (a b c : R) : derivable_pt_lim (fun t => (4 - 3 * cos (n * t)) * a + sin (n * t) / n * b + (2 / n - 2 * cos (n * t) / n) * c) t
  (3 * n * sin (n * t) * a + cos (n * t) * b + 2 * sin (n * t) * c).
Proof. go. Qed.
Lemma d_hcw_y (a b c d : R) : derivable_pt_lim (fun t => (-6 * n * t + 6 * sin (n * t)) * a + b + (-2 / n + 2 * cos (n * t) / n) * c + (4 * sin (n * t) / n - 3 * t) * d) t
  ((-6 * n + 6 * n * cos (n * t)) * a + -2 * sin (n * t) * c + (-3 + 4 * cos (n * t)) * d).
Proof. go. Qed.
Lemma d_hcw_z (a b : R) : derivable_pt_lim (fun t => cos (n * t) * a + sin (n * t) / n * b) t (- n * sin (n * t) * a + cos (n * t) * b).
Proof. go. Qed.
Lemma d_hcw_vx (a b c : R) : derivable_pt_lim (fun t => 3 * n * sin (n * t) * a + cos (n * t) * b + 2 * sin (n * t) * c) t
  (3 * n * n * cos (n * t) * a + - n * sin (n * t) * b + 2 * n * cos (n * t) * c).
Proof. go. Qed.
Lemma d_hcw_vy (a c d : R) : derivable_pt_lim (fun t => (-6 * n + 6 * n * cos (n * t)) * a + -2 * sin (n * t) * c + (-3 + 4 * cos (n * t)) * d) t
  (- 6 * n * n * sin (n * t) * a + -2 * n * cos (n * t) * c + - 4 * n * sin (n * t) * d).
Proof. go. Qed.
Lemma d_hcw_vz (a b : R) : derivable_pt_lim (fun t => - n * sin (n * t) * a + cos (n * t) * b) t (- n * n * cos (n * t) * a + - n * sin (n * t) * b).
Proof. go. Qed.
End hcw.

(** a motion under Hill's equations is carried back to its initial state *)
Section hill_back.
Context (n : R) (x y z p q r : R -> R).
Hypothesis N : n <> 0.
Hypothesis Dx : forall t, derivable_pt_lim x t (p t).
Hypothesis Dy : forall t, derivable_pt_lim y t (q t).
Hypothesis Dz : forall t, derivable_pt_lim z t (r t).
Hypothesis Dp : forall t, derivable_pt_lim p t (3 * n * n * x t + 2 * n * q t).
Hypothesis Dq : forall t, derivable_pt_lim q t (- 2 * n * p t).
Hypothesis Dr : forall t, derivable_pt_lim r t (- n * n * z t).
Lemma ex_of f f' : (forall t, derivable_pt_lim f t (f' t)) -> forall t, ex_derive f t.
Proof. intros H t. exists (f' t). now apply is_derive_Reals. Qed.
Lemma D_of f f' : (forall t, derivable_pt_lim f t (f' t)) -> forall t, Derive (fun x => f x) t = f' t.
Proof. intros H t. apply is_derive_unique. now apply is_derive_Reals. Qed.
Lemma constant_of_null f : (forall t, derivable_pt_lim f t 0) -> forall t, f t = f 0.
Proof.
  intros H t. destruct (Rtotal_order 0 t) as [L|[<-|L]]; [|reflexivity|].
  - destruct (MVT_cor2 f (fun _ => 0) 0 t L ltac:(intros; apply H)) as (c & E & _). lra.
  - destruct (MVT_cor2 f (fun _ => 0) t 0 L ltac:(intros; apply H)) as (c & E & _). lra.
Qed.
Ltac null := apply constant_of_null; intro t; apply is_derive_Reals; auto_derive;
  [repeat split; try exact N; first [apply (ex_of _ _ Dx)|apply (ex_of _ _ Dy)|apply (ex_of _ _ Dz)|apply (ex_of _ _ Dp)|apply (ex_of _ _ Dq)|apply (ex_of _ _ Dr)]
  |rewrite ?(D_of _ _ Dx), ?(D_of _ _ Dy), ?(D_of _ _ Dz), ?(D_of _ _ Dp), ?(D_of _ _ Dq), ?(D_of _ _ Dr); field; exact N].
Lemma back_x t : (fun t => (4 - 3 * cos (n * t)) * x t - sin (n * t) / n * p t + (2 / n - 2 * cos (n * t) / n) * q t) t
  = (fun t => (4 - 3 * cos (n * t)) * x t - sin (n * t) / n * p t + (2 / n - 2 * cos (n * t) / n) * q t) 0.
Proof. revert t. null. Qed.
Lemma back_y t : (fun t => (6 * n * t - 6 * sin (n * t)) * x t + y t + (-2 / n + 2 * cos (n * t) / n) * p t + (- 4 * sin (n * t) / n + 3 * t) * q t) t
  = (fun t => (6 * n * t - 6 * sin (n * t)) * x t + y t + (-2 / n + 2 * cos (n * t) / n) * p t + (- 4 * sin (n * t) / n + 3 * t) * q t) 0.
Proof. revert t. null. Qed.
Lemma back_z t : (fun t => cos (n * t) * z t - sin (n * t) / n * r t) t = (fun t => cos (n * t) * z t - sin (n * t) / n * r t) 0.
Proof. revert t. null. Qed.
Lemma back_p t : (fun t => - 3 * n * sin (n * t) * x t + cos (n * t) * p t - 2 * sin (n * t) * q t) t
  = (fun t => - 3 * n * sin (n * t) * x t + cos (n * t) * p t - 2 * sin (n * t) * q t) 0.
Proof. revert t. null. Qed.
Lemma back_q t : (fun t => (-6 * n + 6 * n * cos (n * t)) * x t + 2 * sin (n * t) * p t + (-3 + 4 * cos (n * t)) * q t) t
  = (fun t => (-6 * n + 6 * n * cos (n * t)) * x t + 2 * sin (n * t) * p t + (-3 + 4 * cos (n * t)) * q t) 0.
Proof. revert t. null. Qed.
Lemma back_r t : (fun t => n * sin (n * t) * z t + cos (n * t) * r t) t = (fun t => n * sin (n * t) * z t + cos (n * t) * r t) 0.
Proof. revert t. null. Qed.
End hill_back.

(** used by the disturbance proofs *)
Lemma d_affine (a b x : R) : derivable_pt_lim (fun t => a + t * b) x b.
Proof. apply is_derive_Reals. auto_derive; [exact I|ring]. Qed.
Lemma d_inv_cube (a b c : R) : 0 < a ->
  derivable_pt_lim (fun t => 1 / (sqrt (a + b * t + c * (t * t)) * sqrt (a + b * t + c * (t * t)) * sqrt (a + b * t + c * (t * t)))) 0
    (- (3 / 2 * b) / (a * a * sqrt a)).
Proof.
  intro A. pose proof (sqrt_lt_R0 a A) as SP. pose proof (sqrt_sqrt a (Rlt_le _ _ A)) as SS. apply is_derive_Reals. auto_derive.
  - replace (a + b * 0 + c * (0 * 0)) with a by ring. repeat split; try lra. apply Rmult_integral_contrapositive_currified; nra.
  - replace (a + b * 0 + c * (0 * 0)) with a by ring. set (q := sqrt a) in *. assert (AE : a = q * q) by lra. rewrite AE. field. lra.
Qed.
