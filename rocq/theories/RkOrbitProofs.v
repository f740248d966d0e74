(** Proofs about the orbit integrated by Runge-Kutta. *)
From Coq Require Import Reals Lra Lia List Bool Arith.
From Verif Require Import Base RBase VecModel VecProofs QuatModel QuatSpec QuatProofs OdeModel OrbitModel OrbitSpec OrbitRunSpec
  PropagateProofs RkOrbitSpec.
Import ListNotations.
Open Scope R_scope.

(** ** Two runs in lock step *)
Section lockstep.
Context (d1 d2 : R -> vec -> vec) (Rel : vec -> vec -> Prop).
Context (Radd : forall a b a' b', Rel a a' -> Rel b b' -> Rel (vadd a b) (vadd a' b')).
Context (Rscal : forall c a a', Rel a a' -> Rel (vscal c a) (vscal c a')).
Context (Rder : forall t t' s s', Rel s s' -> Rel (d1 t s) (d2 t' s')).
Lemma lock_step o o' : step_width o = step_width o' -> Rel (state o) (state o') -> Rel (state (step_of d1 o)) (state (step_of d2 o')).
Proof.
  intros W H. unfold step_of, ode_update. cbn [fst state]. rewrite W.
  repeat (first [apply Radd | apply Rscal | apply Rder | exact H]).
Qed.
Lemma lock_loop step tend : forall fuel o o' t, step_width o = step -> step_width o' = step -> Rel (state o) (state o') ->
  match prop_loop d1 fuel step tend o t, prop_loop d2 fuel step tend o' t with
  | Ok (x, a), Ok (y, b) => Rel (state x) (state y) /\ a = b
  | Hang, Hang => True
  | _, _ => False
  end.
Proof.
  induction fuel as [|f IH]; intros o o' t W W' H; cbn [prop_loop]; [exact I|].
  destruct (rlt (1 / 10 ^ 6) (tend - t - step)).
  - apply IH; [now rewrite step_width_step|now rewrite step_width_step|]. apply lock_step; [congruence|exact H].
  - now split.
Qed.
Lemma lock_prop step tend fuel o o' t : Rel (state o) (state o') ->
  match prop d1 fuel step tend o t, prop d2 fuel step tend o' t with
  | Ok (x, a), Ok (y, b) => Rel (state x) (state y) /\ a = b
  | Hang, Hang => True
  | _, _ => False
  end.
Proof.
  intro H. unfold prop. pose proof (lock_loop step tend fuel (set_step o step) (set_step o' step) t eq_refl eq_refl H) as L.
  destruct (prop_loop d1 fuel step tend (set_step o step) t) as [[x a]| | |], (prop_loop d2 fuel step tend (set_step o' step) t) as [[y b]| | |]; try contradiction; try exact I.
  cbn [bind]. destruct L as (L & <-). split; [|reflexivity]. apply lock_step; [reflexivity|exact L].
Qed.
End lockstep.

(** ** Other axes, another unit of length *)
Section axes.
Context (c : R) (m : mat).
Definition img (x : vec) : vec := vscal c (mvec 3 m x).
Definition sim (s s' : vec) : Prop := veq 3 (pos6 s') (img (pos6 s)) /\ veq 3 (vel6 s') (img (vel6 s)).
Lemma pos6_add a b : veq 3 (pos6 (vadd a b)) (vadd (pos6 a) (pos6 b)). Proof. intros i Hi. i3 i Hi; reflexivity. Qed.
Lemma vel6_add a b : veq 3 (vel6 (vadd a b)) (vadd (vel6 a) (vel6 b)). Proof. intros i Hi. i3 i Hi; reflexivity. Qed.
Lemma pos6_scal k a : veq 3 (pos6 (vscal k a)) (vscal k (pos6 a)). Proof. intros i Hi. i3 i Hi; reflexivity. Qed.
Lemma vel6_scal k a : veq 3 (vel6 (vscal k a)) (vscal k (vel6 a)). Proof. intros i Hi. i3 i Hi; reflexivity. Qed.
Lemma img_ext x y : veq 3 x y -> forall i, img x i = img y i.
Proof. intros H i. unfold img, vscal, mvec. rewrite !sumn3, !H by lia. reflexivity. Qed.
Lemma img_add x y i : img (vadd x y) i = img x i + img y i.
Proof. unfold img, vscal, mvec, vadd. rewrite !sumn3. ring. Qed.
Lemma img_scal k x i : img (vscal k x) i = k * img x i.
Proof. unfold img, vscal, mvec. rewrite !sumn3. ring. Qed.
Lemma sim_add a b a' b' : sim a a' -> sim b b' -> sim (vadd a b) (vadd a' b').
Proof.
  intros (P & V) (P' & V'). split; intros i Hi.
  - rewrite pos6_add by exact Hi. unfold vadd at 1. rewrite P, P' by exact Hi. rewrite <- img_add. apply img_ext. intros j Hj. symmetry. now apply pos6_add.
  - rewrite vel6_add by exact Hi. unfold vadd at 1. rewrite V, V' by exact Hi. rewrite <- img_add. apply img_ext. intros j Hj. symmetry. now apply vel6_add.
Qed.
Lemma sim_scal k a a' : sim a a' -> sim (vscal k a) (vscal k a').
Proof.
  intros (P & V). split; intros i Hi.
  - rewrite pos6_scal by exact Hi. unfold vscal at 1. rewrite P by exact Hi. rewrite <- img_scal. apply img_ext. intros j Hj. symmetry. now apply pos6_scal.
  - rewrite vel6_scal by exact Hi. unfold vscal at 1. rewrite V by exact Hi. rewrite <- img_scal. apply img_ext. intros j Hj. symmetry. now apply vel6_scal.
Qed.
Context (C : 0 < c) (M : orthogonal_axes m).
Lemma norm_img x : norm 3 (img x) = c * norm 3 x.
Proof.
  unfold norm. rewrite !sumn3. unfold img, vscal, mvec. rewrite !sumn3.
  rewrite <- (sqrt_square c) at 7 by lra. rewrite <- sqrt_mult_alt by nra. f_equal.
  pose proof (M 0 0)%nat as M00. pose proof (M 0 1)%nat as M01. pose proof (M 0 2)%nat as M02. pose proof (M 1 1)%nat as M11. pose proof (M 1 2)%nat as M12. pose proof (M 2 2)%nat as M22.
  cbn [Nat.eqb] in *. specialize (M00 ltac:(lia) ltac:(lia)). specialize (M01 ltac:(lia) ltac:(lia)). specialize (M02 ltac:(lia) ltac:(lia)). specialize (M11 ltac:(lia) ltac:(lia)). specialize (M12 ltac:(lia) ltac:(lia)). specialize (M22 ltac:(lia) ltac:(lia)).
  transitivity (c * c * ((m 0%nat 0%nat * m 0%nat 0%nat + m 1%nat 0%nat * m 1%nat 0%nat + m 2%nat 0%nat * m 2%nat 0%nat) * (x 0%nat * x 0%nat)
    + (m 0%nat 1%nat * m 0%nat 1%nat + m 1%nat 1%nat * m 1%nat 1%nat + m 2%nat 1%nat * m 2%nat 1%nat) * (x 1%nat * x 1%nat)
    + (m 0%nat 2%nat * m 0%nat 2%nat + m 1%nat 2%nat * m 1%nat 2%nat + m 2%nat 2%nat * m 2%nat 2%nat) * (x 2%nat * x 2%nat)
    + 2 * (m 0%nat 0%nat * m 0%nat 1%nat + m 1%nat 0%nat * m 1%nat 1%nat + m 2%nat 0%nat * m 2%nat 1%nat) * (x 0%nat * x 1%nat)
    + 2 * (m 0%nat 0%nat * m 0%nat 2%nat + m 1%nat 0%nat * m 1%nat 2%nat + m 2%nat 0%nat * m 2%nat 2%nat) * (x 0%nat * x 2%nat)
    + 2 * (m 0%nat 1%nat * m 0%nat 2%nat + m 1%nat 1%nat * m 1%nat 2%nat + m 2%nat 1%nat * m 2%nat 2%nat) * (x 1%nat * x 2%nat))); [ring|].
  rewrite M00, M01, M02, M11, M12, M22. ring.
Qed.
Lemma norm_ext x y : veq 3 x y -> norm 3 x = norm 3 y.
Proof. intro H. unfold norm. rewrite !sumn3, !H by lia. reflexivity. Qed.
Lemma gravity_img mu x y : veq 3 y (img x) -> veq 3 (gravity (c * c * c * mu) y) (img (gravity mu x)).
Proof.
  intros H i Hi. unfold gravity. rewrite (norm_ext _ _ H), norm_img, (H i Hi).
  unfold img at 1 2, vscal, mvec. rewrite !sumn3. destruct (Req_dec (norm 3 x) 0) as [Z|Z].
  - assert (X : forall j, (j < 3)%nat -> x j = 0).
    { intros j Hj. unfold norm in Z. rewrite sumn3 in Z. assert (Q : x 0%nat * x 0%nat + x 1%nat * x 1%nat + x 2%nat * x 2%nat = 0).
      { apply sqrt_eq_0; [nra|exact Z]. }
      i3 j Hj; nra. }
    rewrite !X by lia. ring.
  - field. split; lra.
Qed.
Lemma sim_der mu acc acc' t t' s s' : veq 3 acc' (img acc) -> sim s s' -> sim (rk4_deriv mu acc t s) (rk4_deriv (c * c * c * mu) acc' t' s').
Proof.
  intros A (P & V). destruct (rk4_deriv_spec mu acc t s) as (D1 & D2). destruct (rk4_deriv_spec (c * c * c * mu) acc' t' s') as (D1' & D2').
  split; intros i Hi.
  - rewrite D1' by exact Hi. rewrite V by exact Hi. apply img_ext. intros j Hj. symmetry. now apply D1.
  - rewrite D2' by exact Hi. unfold vadd at 1. rewrite (gravity_img mu (pos6 s) (pos6 s') P i Hi), (A i Hi), <- img_add. apply img_ext. intros j Hj. symmetry. now apply D2.
Qed.
Lemma propagate_sim fuel o o' a tend : rk_step o' = rk_step o -> rk_time o' = rk_time o -> rk_mu o' = c * c * c * rk_mu o ->
  sim (state (rk_ode o)) (state (rk_ode o')) ->
  match rk4_propagate fuel true (rk_set_acc o a) tend, rk4_propagate fuel true (rk_set_acc o' (img a)) tend with
  | Ok x, Ok y => sim (state (rk_ode x)) (state (rk_ode y)) /\ veq 3 (rk_pos y) (img (rk_pos x)) /\ veq 3 (rk_vel y) (img (rk_vel x)) /\ rk_time y = rk_time x /\
      rk_step y = rk_step x /\ rk_mu y = c * c * c * rk_mu x
  | Hang, Hang => True
  | _, _ => False
  end.
Proof.
  intros St T Mu H. unfold rk4_propagate, rk_set_acc. cbn [negb rk_mu rk_step rk_time rk_ode rk_acc]. rewrite St, T, Mu.
  pose proof (lock_prop (rk4_deriv (rk_mu o) a) (rk4_deriv (c * c * c * rk_mu o) (img a)) sim sim_add sim_scal
    (fun t t' s s' => sim_der (rk_mu o) a (img a) t t' s s' (fun i _ => eq_refl)) (rk_step o) tend fuel (rk_ode o) (rk_ode o') (rk_time o) H) as L.
  destruct (prop (rk4_deriv (rk_mu o) a) fuel (rk_step o) tend (rk_ode o) (rk_time o)) as [[x p]| | |],
    (prop (rk4_deriv (c * c * c * rk_mu o) (img a)) fuel (rk_step o) tend (rk_ode o') (rk_time o)) as [[y q]| | |]; try contradiction; try exact I.
  cbn [bind rk_ode rk_pos rk_vel rk_time rk_step rk_mu]. destruct L as (L & <-). destruct (L) as (P & V). repeat split; assumption.
Qed.
Lemma run_sim fuel : forall calls o o', rk_step o' = rk_step o -> rk_time o' = rk_time o -> rk_mu o' = c * c * c * rk_mu o ->
  sim (state (rk_ode o)) (state (rk_ode o')) -> veq 3 (rk_pos o') (img (rk_pos o)) -> veq 3 (rk_vel o') (img (rk_vel o)) ->
  seen_through img (rk_run fuel o calls) (rk_run fuel o' (map (fun x => (img (fst x), snd x)) calls)).
Proof.
  induction calls as [|[a tend] l IH]; intros o o' St T Mu H P V; cbn [rk_run map fst snd].
  - cbn [seen_through]. auto.
  - pose proof (propagate_sim fuel o o' a tend St T Mu H) as L.
    destruct (rk4_propagate fuel true (rk_set_acc o a) tend) as [x| | |], (rk4_propagate fuel true (rk_set_acc o' (img a)) tend) as [y| | |]; try contradiction; try exact I.
    cbn [bind]. destruct L as (L1 & L2 & L3 & L4 & L5 & L6). now apply IH.
Qed.
Lemma new_sim fuel calls mu step r v t0 t1 :
  seen_through img (rk_run fuel (rk4_new mu step r v t0) calls)
    (rk_run fuel (rk4_new (c * c * c * mu) step (img r) (img v) t1) (map (fun x => (img (fst x), snd x)) calls)).
Proof.
  apply run_sim; try reflexivity; try (intros i Hi; reflexivity).
  cbn [rk4_new rk_ode ode_setup state]. split; intros i Hi.
  - transitivity (img r i); [i3 i Hi; reflexivity|]. apply img_ext. intros j Hj. i3 j Hj; reflexivity.
  - transitivity (img v i); [i3 i Hi; reflexivity|]. apply img_ext. intros j Hj. i3 j Hj; reflexivity.
Qed.
End axes.

(** ** The plane of the orbit *)
Definition in_plane (n s s' : vec) : Prop := dot 3 n (pos6 s) = 0 /\ dot 3 n (vel6 s) = 0.
Lemma dot_pos n s : dot 3 n (pos6 s) = n 0%nat * s 0%nat + n 1%nat * s 1%nat + n 2%nat * s 2%nat.
Proof. unfold dot. rewrite sumn3. reflexivity. Qed.
Lemma dot_vel n s : dot 3 n (vel6 s) = n 0%nat * s 3%nat + n 1%nat * s 4%nat + n 2%nat * s 5%nat.
Proof. unfold dot. rewrite sumn3. reflexivity. Qed.
Lemma plane_add n a b a' b' : in_plane n a a' -> in_plane n b b' -> in_plane n (vadd a b) (vadd a' b').
Proof. unfold in_plane. rewrite !dot_pos, !dot_vel. unfold vadd. intros (P & V) (P' & V'). split; lra. Qed.
Lemma plane_scal n k a a' : in_plane n a a' -> in_plane n (vscal k a) (vscal k a').
Proof.
  unfold in_plane. rewrite !dot_pos, !dot_vel. unfold vscal. intros (P & V). split.
  - transitivity (k * (n 0%nat * a 0%nat + n 1%nat * a 1%nat + n 2%nat * a 2%nat)); [ring|]. rewrite P. ring.
  - transitivity (k * (n 0%nat * a 3%nat + n 1%nat * a 4%nat + n 2%nat * a 5%nat)); [ring|]. rewrite V. ring.
Qed.
Lemma plane_der n mu acc (t t' : R) s s' : dot 3 n acc = 0 -> in_plane n s s' -> in_plane n (rk4_deriv mu acc t s) (rk4_deriv mu acc t' s').
Proof.
  unfold in_plane. rewrite !dot_pos, !dot_vel. unfold dot. rewrite sumn3. cbn [rk4_deriv]. intros A (P & V). split; [exact V|].
  set (k := mu / pow15 (s 0%nat * s 0%nat + s 1%nat * s 1%nat + s 2%nat * s 2%nat)).
  transitivity ((n 0%nat * acc 0%nat + n 1%nat * acc 1%nat + n 2%nat * acc 2%nat) - k * (n 0%nat * s 0%nat + n 1%nat * s 1%nat + n 2%nat * s 2%nat)); [ring|].
  rewrite A, P. ring.
Qed.
Lemma run_plane n fuel : forall calls o o', in_plane n (state (rk_ode o)) (state (rk_ode o)) -> dot 3 n (rk_pos o) = 0 -> dot 3 n (rk_vel o) = 0 ->
  (forall a t, In (a, t) calls -> dot 3 n a = 0) -> rk_run fuel o calls = Ok o' -> dot 3 n (rk_pos o') = 0 /\ dot 3 n (rk_vel o') = 0.
Proof.
  induction calls as [|[a tend] l IH]; intros o o' H P V A E; cbn [rk_run] in E.
  - injection E as <-. auto.
  - pose proof (lock_prop (rk4_deriv (rk_mu o) a) (rk4_deriv (rk_mu o) a) (in_plane n) (plane_add n) (plane_scal n)
      (fun t t' s s' => plane_der n (rk_mu o) a t t' s s' (A a tend (or_introl eq_refl))) (rk_step o) tend fuel (rk_ode o) (rk_ode o) (rk_time o) H) as L.
    unfold rk4_propagate, rk_set_acc in E. cbn [negb rk_mu rk_step rk_time rk_ode rk_acc] in E.
    destruct (prop (rk4_deriv (rk_mu o) a) fuel (rk_step o) tend (rk_ode o) (rk_time o)) as [[x p]| | |]; cbn [bind] in E; try discriminate.
    destruct L as (L & _). apply IH in E; cbn [rk_ode rk_pos rk_vel]; [exact E|exact L|apply L|apply L|]. intros b t B. apply (A b t). now right.
Qed.

(** ** No gravity: exact *)
Lemma step_ballistic a o i : (i < 3)%nat ->
  pos6 (state (step_of (rk4_deriv 0 a) o)) i = pos6 (state o) i + vel6 (state o) i * step_width o + a i * (step_width o * step_width o) / 2 /\
  vel6 (state (step_of (rk4_deriv 0 a) o)) i = vel6 (state o) i + a i * step_width o.
Proof.
  intro Hi.
  assert (Z : forall x y : R, 0 / x * y = 0) by (intros x y; unfold Rdiv; ring).
  unfold step_of, ode_update. cbn [fst state].
  i3 i Hi; unfold pos6, vel6, v3, vadd, vscal, rk4_deriv; cbv beta iota zeta; rewrite ?Z; split; field.
Qed.
Lemma integrate_ballistic a : forall ws o i, (i < 3)%nat -> let d := fold_right Rplus 0 ws in
  pos6 (state (integrate (rk4_deriv 0 a) ws o)) i = pos6 (state o) i + vel6 (state o) i * d + a i * (d * d) / 2 /\
  vel6 (state (integrate (rk4_deriv 0 a) ws o)) i = vel6 (state o) i + a i * d.
Proof.
  induction ws as [|w ws IH]; intros o i Hi d; cbn [fold_right] in d; subst d; cbn [integrate fold_left].
  - split; field.
  - fold (integrate (rk4_deriv 0 a) ws (step_of (rk4_deriv 0 a) (set_step o w))).
    destruct (IH (step_of (rk4_deriv 0 a) (set_step o w)) i Hi) as (P & V). rewrite P, V.
    destruct (step_ballistic a (set_step o w) i Hi) as (P' & V'). rewrite P', V'. cbn [set_step step_width state]. split; field.
Qed.

Lemma sum_snoc l x : fold_right Rplus 0 (l ++ [x]) = fold_right Rplus 0 l + x.
Proof. induction l as [|a l IH]; cbn [app fold_right]; [lra|]. rewrite IH. lra. Qed.
Lemma ballistic_ext : forall calls t p v p' v', veq 3 p p' -> veq 3 v v' ->
  veq 3 (fst (ballistic calls t p v)) (fst (ballistic calls t p' v')) /\ veq 3 (snd (ballistic calls t p v)) (snd (ballistic calls t p' v')).
Proof.
  induction calls as [|[a tend] l IH]; intros t p v p' v' P V; cbn [ballistic fst snd]; [auto|].
  apply IH; intros i Hi; cbn beta; rewrite ?P, ?V by exact Hi; reflexivity.
Qed.
Lemma run_ballistic fuel : forall calls o o', rk_mu o = 0 -> veq 3 (rk_pos o) (pos6 (state (rk_ode o))) -> veq 3 (rk_vel o) (vel6 (state (rk_ode o))) ->
  rk_run fuel o calls = Ok o' ->
  veq 3 (rk_pos o') (fst (ballistic calls (rk_time o) (rk_pos o) (rk_vel o))) /\ veq 3 (rk_vel o') (snd (ballistic calls (rk_time o) (rk_pos o) (rk_vel o))).
Proof.
  induction calls as [|[a tend] l IH]; intros o o' Mu P V E; cbn [rk_run] in E.
  - injection E as <-. cbn [ballistic fst snd]. split; intros i Hi; reflexivity.
  - unfold rk4_propagate, rk_set_acc in E. cbn [negb rk_mu rk_step rk_time rk_ode rk_acc] in E. rewrite Mu in E.
    destruct (prop (rk4_deriv 0 a) fuel (rk_step o) tend (rk_ode o) (rk_time o)) as [[x p]| | |] eqn:Q; cbn [bind] in E; try discriminate.
    apply prop_spec in Q. destruct Q as (k & w & -> & X & W & _).
    apply IH in E; [|reflexivity|intros i Hi; reflexivity|intros i Hi; reflexivity]. cbn [rk_time rk_pos rk_vel] in E.
    assert (D : fold_right Rplus 0 (repeat (rk_step o) k ++ [w]) = tend - rk_time o) by (rewrite sum_snoc, sum_repeat; lra).
    assert (B : forall i, (i < 3)%nat -> _) by (intros i Hi; exact (integrate_ballistic a (repeat (rk_step o) k ++ [w]) (rk_ode o) i Hi)).
    rewrite D in B. cbv zeta in B. rewrite <- X in B.
    cbn [ballistic]. destruct E as (E1 & E2).
    destruct (ballistic_ext l tend (pos6 (state x)) (vel6 (state x)) (fun i => rk_pos o i + rk_vel o i * (tend - rk_time o) + a i * ((tend - rk_time o) * (tend - rk_time o)) / 2)
       (fun i => rk_vel o i + a i * (tend - rk_time o))) as (F1 & F2).
    { intros i Hi. rewrite (P i Hi), (V i Hi). apply (B i Hi). }
    { intros i Hi. rewrite (V i Hi). apply (B i Hi). }
    split; intros i Hi; [rewrite (E1 i Hi); now apply F1|rewrite (E2 i Hi); now apply F2].
Qed.

(** ** Calls on the grid of steps make no difference *)
Lemma loop_more deriv step tend : forall f o t r, prop_loop deriv f step tend o t = Ok r -> forall g, (f <= g)%nat -> prop_loop deriv g step tend o t = Ok r.
Proof.
  induction f as [|f IH]; intros o t r H g G; [discriminate|]. destruct g as [|g]; [lia|]. cbn [prop_loop] in *.
  destruct (rlt (1 / 10 ^ 6) (tend - t - step)); [apply IH; [exact H|lia]|exact H].
Qed.
Lemma loop_det deriv step tend f g o t r r' : prop_loop deriv f step tend o t = Ok r -> prop_loop deriv g step tend o t = Ok r' -> r = r'.
Proof.
  intros A B.
  pose proof (loop_more _ _ _ _ _ _ _ A (max f g) ltac:(lia)) as A'. pose proof (loop_more _ _ _ _ _ _ _ B (max f g) ltac:(lia)) as B'. congruence.
Qed.
(** the loop run over k whole steps *)
Lemma loop_skip deriv step tend : forall k f o t, 0 <= step -> 1 / 10 ^ 6 < tend - (t + INR k * step) -> step_width o = step ->
  prop_loop deriv (k + f) step tend o t = prop_loop deriv f step tend (integrate deriv (repeat step k) o) (t + INR k * step).
Proof.
  induction k as [|k IH]; intros f o t P L W.
  - cbn [INR repeat integrate fold_left plus]. f_equal. ring.
  - rewrite S_INR in L. pose proof (Rmult_le_pos _ _ (pos_INR k) P) as Q. cbn [plus prop_loop repeat].
    destruct (rlt_spec (1 / 10 ^ 6) (tend - t - step)) as [G|G]; [|lra].
    rewrite IH; [|exact P|lra|now rewrite step_width_step]. cbn [integrate fold_left]. fold (integrate deriv (repeat step k) (step_of deriv (set_step o step))).
    assert (Z : set_step o step = o) by (rewrite <- W; apply set_step_same). rewrite Z. f_equal. rewrite S_INR. ring.
Qed.
Lemma loop_exact deriv step k f o t : 1 / 10 ^ 6 < step -> step_width o = step ->
  prop_loop deriv (k + S f) step (t + INR (S k) * step) o t = Ok (integrate deriv (repeat step k) o, t + INR k * step).
Proof.
  intros P W. rewrite loop_skip; [|lra|rewrite S_INR; lra|exact W]. cbn [prop_loop].
  destruct (rlt_spec (1 / 10 ^ 6) (t + INR (S k) * step - (t + INR k * step) - step)) as [G|G]; [|reflexivity].
  rewrite S_INR in G. lra.
Qed.
Lemma repeat_snoc {A} (x : A) k : repeat x k ++ [x] = repeat x (S k).
Proof. induction k as [|k IH]; [reflexivity|]. cbn [repeat app]. rewrite IH. reflexivity. Qed.
Lemma integrate_width deriv step : forall k o, step_width o = step -> step_width (integrate deriv (repeat step k) o) = step.
Proof.
  induction k as [|k IH]; intros o W; cbn [repeat integrate fold_left]; [exact W|]. fold (integrate deriv (repeat step k) (step_of deriv (set_step o step))). apply IH. reflexivity.
Qed.
Lemma prop_grid deriv step k f1 f2 o t t2 o1 p r : 1 / 10 ^ 6 < step -> 1 / 10 ^ 6 < t2 - (t + INR (S k) * step) ->
  prop deriv f1 step (t + INR (S k) * step) o t = Ok (o1, p) -> prop deriv f2 step t2 o1 p = Ok r -> prop deriv (S k + f2) step t2 o t = Ok r.
Proof.
  intros P L A B. unfold prop in A. destruct (prop_loop deriv f1 step (t + INR (S k) * step) (set_step o step) t) as [[x q]| | |] eqn:E; cbn [bind] in A; try discriminate.
  pose proof (loop_exact deriv step k 0 (set_step o step) t P eq_refl) as X. pose proof (loop_det _ _ _ _ _ _ _ _ _ E X) as Y. injection Y as -> ->. injection A as <- <-.
  unfold prop in *. rewrite loop_skip; [|lra|lra|reflexivity].
  assert (Z : integrate deriv (repeat step (S k)) (set_step o step) =
    set_step (step_of deriv (set_step (integrate deriv (repeat step k) (set_step o step)) (t + INR (S k) * step - (t + INR k * step)))) step).
  { rewrite <- repeat_snoc, integrate_app. cbn [integrate fold_left].
    replace (t + INR (S k) * step - (t + INR k * step)) with step by (rewrite S_INR; ring). reflexivity. }
  rewrite Z. exact B.
Qed.
Lemma zero_step_hangs deriv step tend : forall fuel o t, step <= 0 -> 1 / 10 ^ 6 < tend - t - step -> prop_loop deriv fuel step tend o t = Hang.
Proof.
  induction fuel as [|f IH]; intros o t S0 L; cbn [prop_loop]; [reflexivity|].
  destruct (rlt_spec (1 / 10 ^ 6) (tend - t - step)) as [G|G]; [|lra]. apply IH; lra.
Qed.
