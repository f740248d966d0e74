From Coq Require Import Reals Lra Lia List Bool Arith QArith Qreals FunctionalExtensionality.
From Verif Require Import Base RBase VecModel VecProofs LuModel LuProofs RkModel RkSpec.
Import ListNotations.
Open Scope R_scope.

(** ** enumerating trees *)
Fixpoint trees (n : nat) : list tree :=
  match n with
  | O => []
  | S m => Vertex :: flat_map (fun t => flat_map (fun u => if (order t + order u <=? S m)%nat then [Graft t u] else []) (trees m)) (trees m)
  end.
Lemma order_pos t : (1 <= order t)%nat.
Proof. induction t; cbn [order]; lia. Qed.
Lemma trees_all n : forall t, (order t <= n)%nat -> In t (trees n).
Proof.
  induction n as [|n IH]; intros t H; [pose proof (order_pos t); lia|].
  destruct t as [|t u]; cbn [trees]; [now left|right]. cbn [order] in H.
  pose proof (order_pos t). pose proof (order_pos u).
  apply in_flat_map. exists t. split; [apply IH; lia|]. apply in_flat_map. exists u. split; [apply IH; lia|].
  rewrite (proj2 (Nat.leb_le _ _)) by lia. now left.
Qed.

(** ** weights in Q *)
Fixpoint sumq (n : nat) (f : nat -> Q) : Q := match n with O => 0%Q | S m => Qred (sumq m f + f m) end.
Lemma sumq_R n f : Q2R (sumq n f) = sumn n (fun i => Q2R (f i)).
Proof.
  induction n as [|n IH]; cbn [sumq sumn]; [unfold Q2R; cbn; lra|].
  rewrite <- IH. rewrite <- Q2R_plus. apply Qeq_eqR. apply Qred_correct.
Qed.
Section q.
Context (s : nat) (a : nat -> nat -> Q).
Fixpoint swq (t : tree) (i : nat) : Q :=
  match t with Vertex => 1%Q | Graft t u => Qred (swq t i * sumq s (fun j => a i j * swq u j)%Q) end.
Lemma swq_R t : forall i, Q2R (swq t i) = stage_weight s (fun i j => Q2R (a i j)) t i.
Proof.
  induction t as [|t IHt u IHu]; intros i; cbn [swq stage_weight]; [unfold Q2R; cbn; lra|].
  rewrite (Qeq_eqR _ _ (Qred_correct _)), Q2R_mult, IHt, sumq_R. f_equal. apply sumn_ext. intros j _. now rewrite Q2R_mult, IHu.
Qed.
Definition check_order (b : nat -> Q) (p : nat) : bool :=
  forallb (fun t => Qeq_bool (sumq s (fun i => b i * swq t i)%Q) (1 # Pos.of_nat (density t))) (trees p).
Lemma density_pos t : (1 <= density t)%nat.
Proof.
  unfold density. assert (B : (1 <= branches t)%nat).
  { induction t as [|t IHt u IHu]; cbn [branches]; [lia|]. pose proof (order_pos u). nia. }
  pose proof (order_pos t). nia.
Qed.
Lemma check_order_ok b p : check_order b p = true ->
  has_order s (fun i j => Q2R (a i j)) (fun i => Q2R (b i)) p.
Proof.
  intros H t L. unfold check_order in H. rewrite forallb_forall in H. specialize (H t (trees_all p t L)).
  apply Qeq_bool_iff, Qeq_eqR in H. rewrite sumq_R in H. unfold elementary_weight.
  rewrite (sumn_ext s _ (fun i => Q2R (b i * swq t i)%Q)).
  - rewrite H. unfold Q2R. cbn [Qnum Qden]. rewrite INR_IZR_INZ. unfold Rdiv. f_equal. f_equal. f_equal.
    pose proof (density_pos t). rewrite <- (Nat2Pos.id (density t)) at 2 by lia. now rewrite positive_nat_Z.
  - intros i _. now rewrite Q2R_mult, swq_R.
Qed.
End q.
Definition amq (tb : tableau) (i j : nat) : Q := nth j (nth i (matrix tb) []) 0%Q.

Lemma rk4_order : has_order 4 (am rk4) (bw rk4) 4.
Proof. apply (check_order_ok 4 (amq rk4) (fun i => nth i (weights rk4) 0%Q)). vm_compute. reflexivity. Qed.
Lemma rkf_order : has_order 6 (am rkf) (bw rkf) 4 /\ has_order 6 (am rkf) (bh rkf) 5.
Proof.
  split; [apply (check_order_ok 6 (amq rkf) (fun i => nth i (weights rkf) 0%Q))
         |apply (check_order_ok 6 (amq rkf) (fun i => nth i (higher rkf) 0%Q))]; vm_compute; reflexivity.
Qed.
Lemma dp5_order : has_order 7 (am dp5) (bw dp5) 4 /\ has_order 7 (am dp5) (bh dp5) 5.
Proof.
  split; [apply (check_order_ok 7 (amq dp5) (fun i => nth i (weights dp5) 0%Q))
         |apply (check_order_ok 7 (amq dp5) (fun i => nth i (higher dp5) 0%Q))]; vm_compute; reflexivity.
Qed.

(** ** the loops as sums *)
Lemma for_vadd (b : nat -> R) (k : nat -> vec) n : forall st x d,
  for_ n st (fun i v => vadd v (vscal (b i) (k i))) x d = x d + sumn n (fun i => b (st + i)%nat * k (st + i)%nat d).
Proof.
  induction n as [|n IH]; intros st x d; [cbn; lra|]. rewrite for_snoc. cbv beta.
  match goal with |- vadd ?u (vscal ?c ?w) d = _ => change (vadd u (vscal c w) d) with (u d + c * w d) end.
  rewrite IH. cbn [sumn]. lra.
Qed.
Lemma for_ext {A} (f g : nat -> A -> A) n : forall st x, (forall i y, (st <= i < st + n)%nat -> f i y = g i y) -> for_ n st f x = for_ n st g x.
Proof.
  induction n as [|n IH]; intros st x H; [reflexivity|]. cbn [for_]. rewrite H by lia. apply IH. intros i y Hi. apply H. lia.
Qed.
Section ode.
Context (tb : tableau) (f : R -> vec -> vec).
Lemma stage_state_eq h x k i : stage_state tb h x k i = fun d => x d + h * sumn i (fun j => am tb i j * k j d).
Proof.
  apply functional_extensionality. intros d. unfold stage_state. rewrite for_vadd. cbn [Nat.add].
  rewrite <- sumn_scal. f_equal. apply sumn_ext. intros j _. ring.
Qed.
Lemma weighted_eq b h x k d : weighted tb b h x k d = x d + h * sumn (stages tb) (fun i => b i * k i d).
Proof.
  unfold weighted. rewrite for_vadd. cbn [Nat.add]. rewrite <- sumn_scal. f_equal. apply sumn_ext. intros j _. ring.
Qed.
Lemma slope_eq h t x i : (i < stages tb)%nat ->
  calc_slope tb f h t x i = f (t + cn tb i * h) (fun d => x d + h * sumn i (fun j => am tb i j * calc_slope tb f h t x j d)).
Proof.
  unfold calc_slope.
  set (body := fun i slopes => upd slopes i (f (t + cn tb i * h) (stage_state tb h x slopes i))).
  set (z := fun _ : nat => vconst 0).
  assert (K : forall m n i, (i < n)%nat -> for_ (n + m) 0 body z i = for_ n 0 body z i).
  { induction m as [|m IH]; intros n j Hj; [now rewrite Nat.add_0_r|]. rewrite Nat.add_succ_r, for_snoc. unfold body at 1. rewrite upd_neq by lia. now apply IH. }
  assert (K2 : forall n m i, (i < m <= n)%nat -> for_ n 0 body z i = for_ m 0 body z i).
  { intros n m j Hj. replace n with (m + (n - m))%nat by lia. apply K. lia. }
  intros Hi. rewrite (K2 (stages tb) (S i) i) by lia. rewrite for_snoc. unfold body at 1. cbn [Nat.add]. rewrite upd_eq, stage_state_eq. f_equal.
  apply functional_extensionality. intros d. f_equal. f_equal. apply sumn_ext. intros j Hj. f_equal. now rewrite (K2 (stages tb) i j) by lia.
Qed.
End ode.

(** ** consequences of the order conditions *)
Fixpoint bush (k : nat) : tree := match k with O => Vertex | S j => Graft (bush j) Vertex end.
Fixpoint tall (k : nat) : tree := match k with O => Vertex | S j => Graft Vertex (tall j) end.
Lemma bush_order k : order (bush k) = S k /\ branches (bush k) = 1%nat.
Proof. induction k as [|k [A B]]; cbn [bush order branches]; [split; reflexivity|]. rewrite A, B. cbn. lia. Qed.
Lemma tall_order k : order (tall k) = S k /\ branches (tall k) = fact k.
Proof.
  induction k as [|k [A B]]; cbn [tall order branches]; [split; reflexivity|]. rewrite A, B.
  change (fact (S k)) with (S k * fact k)%nat. lia.
Qed.
Definition row_sums (s : nat) (a : nat -> nat -> R) (c : nat -> R) : Prop := forall i, (i < s)%nat -> c i = sumn s (a i).
Definition lower_triangular (s : nat) (a : nat -> nat -> R) : Prop := forall i j, (i < s)%nat -> (i <= j)%nat -> a i j = 0.
Section moments.
Context (s : nat) (a : nat -> nat -> R) (b c : nat -> R) (p : nat).
Context (O : has_order s a b p) (RS : row_sums s a c).
Lemma bush_weight k i : (i < s)%nat -> stage_weight s a (bush k) i = c i ^ k.
Proof.
  intros Hi. induction k as [|k IH]; cbn [bush stage_weight]; [reflexivity|]. rewrite IH, (sumn_ext s _ (a i)) by (intros; ring).
  rewrite <- RS by exact Hi. cbn [pow]. ring.
Qed.
Lemma moment k : (k < p)%nat -> sumn s (fun i => b i * c i ^ k) = 1 / INR (S k).
Proof.
  intros Hk. destruct (bush_order k) as [A B]. pose proof (O (bush k) ltac:(lia)) as E. unfold density in E. rewrite A, B, Nat.mul_1_r in E.
  rewrite <- E. apply sumn_ext. intros i Hi. now rewrite bush_weight.
Qed.
Lemma tall_sum k : (k < p)%nat -> elementary_weight s a b (tall k) = 1 / INR (fact (S k)).
Proof.
  intros Hk. destruct (tall_order k) as [A B]. rewrite (O (tall k)) by lia. unfold density. rewrite A, B. reflexivity.
Qed.
End moments.

(** ** quadrature *)
From Verif Require Import InterpSpec InterpProofs.
Fixpoint pder (p : list R) (x : R) : R := match p with [] => 0 | _ :: q => peval q x + x * pder q x end.
Lemma pder_derivative p : forall x, derivable_pt_lim (peval p) x (pder p x).
Proof.
  induction p as [|c q IH]; intros x; cbn [peval pder]; [apply derivable_pt_lim_const|].
  replace (peval q x + x * pder q x) with (0 + (1 * peval q x + x * pder q x)) by ring.
  apply derivable_pt_lim_plus with (f1 := fun _ => c) (f2 := fun x => x * peval q x); [apply derivable_pt_lim_const|].
  apply (derivable_pt_lim_mult (fun x => x) (peval q)); [apply derivable_pt_lim_id|apply IH].
Qed.
(** coefficients of d -> p (t + h d) *)
Fixpoint paff (t h : R) (p : list R) : list R :=
  match p with [] => [] | c :: q => let r := paff t h q in padd [c] (padd (pscale t r) (0 :: pscale h r)) end.
Lemma paff_eval t h p d : peval (paff t h p) d = peval p (t + h * d).
Proof.
  induction p as [|c q IH]; cbn [paff peval]; [reflexivity|]. rewrite !peval_padd, !peval_pscale. cbn [peval].
  rewrite peval_pscale, IH. ring.
Qed.
Lemma padd_length p : forall q, length (padd p q) = Nat.max (length p) (length q).
Proof. induction p as [|a p IH]; intros [|b q]; cbn [padd length]; try lia; try (rewrite IH; lia). Qed.
Lemma paff_length t h p : (length (paff t h p) <= length p)%nat.
Proof.
  induction p as [|c q IH]; cbn [paff length]; [lia|]. rewrite !padd_length. cbn [length]. unfold pscale. rewrite !map_length. lia.
Qed.
Lemma paff_der t h p d : pder (paff t h p) d = h * pder p (t + h * d).
Proof.
  apply (uniqueness_limite (fun d => peval p (t + h * d)) d).
  - pose proof (pder_derivative (paff t h p) d) as H. intros eps He. destruct (H eps He) as [del Hd]. exists del. intros k Hk Lk.
    specialize (Hd k Hk Lk). now rewrite !paff_eval in Hd.
  - pose proof (derivable_pt_lim_comp (fun d => t + h * d) (peval p) d h (pder p (t + h * d))) as H.
    replace (h * pder p (t + h * d)) with (pder p (t + h * d) * h) by ring. apply H; [|apply pder_derivative].
    assert (EH : h = 0 + (0 * d + h * 1)) by ring.
    enough (derivable_pt_lim (fun d => t + h * d) d (0 + (0 * d + h * 1))) by (now rewrite <- EH in H0).
    apply derivable_pt_lim_plus with (f1 := fun _ => t) (f2 := fun d => h * d); [apply derivable_pt_lim_const|].
    apply (derivable_pt_lim_mult (fun _ => h) (fun d => d)); [apply derivable_pt_lim_const|apply derivable_pt_lim_id].
Qed.
Section quadrature.
Context (s : nat) (b c : nat -> R) (p : nat).
Context (M : forall k, (k < p)%nat -> sumn s (fun i => b i * c i ^ k) = 1 / INR (S k)).
(** sum_i b_i g'(c_i), multiplied through by c^k *)
Lemma quad_shift g : forall k, (length g + k <= S p)%nat ->
  sumn s (fun i => b i * (pder (repeat 0 k ++ g) (c i))) = peval g 1 - (if Nat.eqb k 0 then nth 0 g 0 else 0).
Proof.
  assert (PE : forall k q x, peval (repeat 0 k ++ q) x = x ^ k * peval q x).
  { induction k as [|k IH]; intros q x; cbn [repeat app peval pow]; [ring|]. rewrite IH. ring. }
  assert (PD : forall k q x, pder (repeat 0 k ++ q) x = INR k * x ^ (k - 1) * peval q x + x ^ k * pder q x).
  { induction k as [|k IH]; intros q x; [cbn; ring|]. cbn [repeat app pder]. rewrite PE, IH. rewrite S_INR.
    replace (S k - 1)%nat with k by lia. destruct k as [|k]; [cbn; ring|]. replace (S k - 1)%nat with k by lia. cbn [pow]. ring. }
  induction g as [|a g IH]; intros k L.
  - rewrite sumn_0; [cbn; destruct (Nat.eqb k 0); ring|]. intros i _. rewrite PD. cbn. ring.
  - rewrite (sumn_ext s _ (fun i => a * INR k * (b i * c i ^ (k - 1)) + b i * pder (repeat 0 (S k) ++ g) (c i))).
    + rewrite sumn_plus, sumn_scal, IH by (cbn [length] in L; lia). cbn [Nat.eqb peval nth length] in *.
      destruct k as [|k]; [cbn; ring|]. replace (S k - 1)%nat with k by lia. rewrite M by lia. cbn [Nat.eqb].
      assert (INR (S k) <> 0) by (apply not_0_INR; lia). field. assumption.
    + intros i _. rewrite !PD. cbn [pder peval]. rewrite S_INR. replace (S k - 1)%nat with k by lia.
      destruct k as [|k]; [cbn; ring|]. replace (S k - 1)%nat with k by lia. cbn [pow]. ring.
Qed.
Lemma quadrature P t h : (length P <= S p)%nat ->
  h * sumn s (fun i => b i * pder P (t + c i * h)) = peval P (t + h) - peval P t.
Proof.
  intros L. rewrite <- sumn_scal. rewrite (sumn_ext s _ (fun i => b i * pder (repeat 0 0 ++ paff t h P) (c i))).
  - rewrite quad_shift by (pose proof (paff_length t h P); lia). cbn [Nat.eqb]. rewrite paff_eval, Rmult_1_r. f_equal.
    transitivity (peval (paff t h P) 0); [destruct (paff t h P); cbn; ring|]. rewrite paff_eval. f_equal. ring.
  - intros i _. cbn [repeat app]. rewrite paff_der. replace (t + h * c i) with (t + c i * h) by ring. ring.
Qed.
End quadrature.

(** ** linear equations *)
Lemma mvec_lin n (A : mat) (u v : vec) k : mvec n A (fun d => u d + k * v d) = fun d => mvec n A u d + k * mvec n A v d.
Proof.
  apply functional_extensionality. intros d. unfold mvec. rewrite <- sumn_scal, <- sumn_plus. apply sumn_ext. intros; ring.
Qed.
Lemma mvec_sum n (A : mat) m (g : nat -> R) (v : nat -> vec) d :
  mvec n A (fun e => sumn m (fun k => g k * v k e)) d = sumn m (fun k => g k * mvec n A (v k) d).
Proof.
  unfold mvec. rewrite (sumn_ext n _ (fun j => sumn m (fun k => A d j * (g k * v k j)))) by (intros; now rewrite <- sumn_scal).
  rewrite sumn_swap. apply sumn_ext. intros k _. rewrite <- sumn_scal. apply sumn_ext. intros; ring.
Qed.
Section linear.
Context (tb : tableau) (LT : lower_triangular (stages tb) (am tb)) (n : nat) (A : mat).
Let s := stages tb.
Let w m i := stage_weight s (am tb) (tall m) i.
Lemma w_zero m : forall i, (i < s)%nat -> (i < m)%nat -> w m i = 0.
Proof.
  induction m as [|m IH]; intros i Hi Hm; [lia|]. unfold w. cbn [tall stage_weight]. rewrite sumn_0; [ring|].
  intros j Hj. destruct (le_lt_dec i j); [rewrite LT by assumption; ring|]. fold (w m j). rewrite IH by lia. ring.
Qed.
Lemma slope_linear h t x : forall i, (i < s)%nat -> forall d,
  calc_slope tb (fun _ y => mvec n A y) h t x i d = sumn s (fun m => h ^ m * w m i * mpow_vec n A (S m) x d).
Proof.
  intros i. induction i as [i IH] using lt_wf_ind. intros Hi d. rewrite slope_eq by exact Hi. rewrite mvec_lin. cbv beta.
  assert (E : (fun d0 => sumn i (fun j => am tb i j * calc_slope tb (fun _ y => mvec n A y) h t x j d0))
            = fun d0 => sumn s (fun m => h ^ m * w (S m) i * mpow_vec n A (S m) x d0)).
  { apply functional_extensionality. intros e. rewrite (sumn_ext i _ (fun j => sumn s (fun m => am tb i j * (h ^ m * w m j * mpow_vec n A (S m) x e)))).
    2:{ intros j Hj. rewrite IH by lia. now rewrite <- sumn_scal. }
    rewrite sumn_swap. apply sumn_ext. intros m Hm. unfold w. cbn [tall stage_weight].
    rewrite <- (sumn_tail s i (fun j => am tb i j * _)).
    - rewrite (sumn_ext s _ (fun j => (h ^ m * mpow_vec n A (S m) x e) * (am tb i j * stage_weight s (am tb) (tall m) j))) by (intros; ring).
      rewrite sumn_scal. ring.
    - unfold s in *. lia.
    - intros j Hj. rewrite LT by (try exact Hi; lia). ring. }
  rewrite E, mvec_sum. change (fun k => h ^ k * w (S k) i * mvec n A (mpow_vec n A (S k) x) d) with (fun k => h ^ k * w (S k) i * mpow_vec n A (S (S k)) x d).
  rewrite <- sumn_scal.
  transitivity (sumn (1 + s) (fun m => h ^ m * w m i * mpow_vec n A (S m) x d)).
  - rewrite sumn_app. f_equal.
    + cbn [sumn pow mpow_vec]. unfold w. cbn [tall stage_weight]. ring.
    + apply sumn_ext. intros k _. cbn [Nat.add pow].
      change (mvec n A (fun e => mpow_vec n A (S k) x e) d) with (mpow_vec n A (S (S k)) x d). ring.
  - cbn [Nat.add sumn]. rewrite (w_zero s i) by lia. ring.
Qed.
Lemma weighted_linear b h t x d :
  weighted tb b h x (calc_slope tb (fun _ y => mvec n A y) h t x) d =
  x d + sumn s (fun m => h ^ S m * elementary_weight s (am tb) b (tall m) * mpow_vec n A (S m) x d).
Proof.
  rewrite weighted_eq. f_equal. fold s. rewrite <- sumn_scal.
  rewrite (sumn_ext s _ (fun i => sumn s (fun m => h * b i * (h ^ m * w m i * mpow_vec n A (S m) x d)))).
  2:{ intros i Hi. rewrite slope_linear by exact Hi. rewrite (sumn_scal s (h * b i)). rewrite Rmult_assoc. reflexivity. }
  rewrite sumn_swap. apply sumn_ext. intros m _. unfold elementary_weight.
  rewrite <- sumn_scal, <- sumn_scal_r. apply sumn_ext. intros i _. unfold w. cbn [pow]. ring.
Qed.
End linear.
