(** C166: the orbit integrated by Runge-Kutta. *)
From Coq Require Import Reals Lra Lia List Bool Arith.
From Verif Require Import Base RBase VecModel VecProofs QuatModel QuatSpec QuatProofs OdeModel OrbitModel OrbitSpec OrbitRunSpec
  PropagateProofs QuatProps RkOrbitSpec RkOrbitProofs.
Import ListNotations.
Open Scope R_scope.

(** a new orbit is at the given state, with no acceleration, at time 0 whatever the initial time *)
Theorem C166_new mu step r v t0 : let o := rk4_new mu step r v t0 in
  veq 3 (rk_pos o) r /\ veq 3 (rk_vel o) v /\ rk_time o = 0 /\ rk_mu o = mu /\ rk_step o = step /\ (forall i, rk_acc o i = 0) /\
  veq 3 (pos6 (state (rk_ode o))) r /\ veq 3 (vel6 (state (rk_ode o))) v.
Proof. repeat split; intros i Hi; i3 i Hi; reflexivity. Qed.
Print Assumptions C166_new.
(** one Propagate: nothing when disabled, else the integration of the equation of motion to the requested time *)
Theorem C166_propagate fuel o tend o' : rk4_propagate fuel true o tend = Ok o' ->
  exists k w, w = tend - rk_time o - INR k * rk_step o /\ w <= rk_step o + 1 / 10 ^ 6 /\
    rk_ode o' = integrate (rk4_deriv (rk_mu o) (rk_acc o)) (repeat (rk_step o) k ++ [w]) (rk_ode o) /\
    rk_pos o' = pos6 (state (rk_ode o')) /\ rk_vel o' = vel6 (state (rk_ode o')) /\
    rk_time o' = tend /\ rk_mu o' = rk_mu o /\ rk_step o' = rk_step o /\ rk_acc o' = rk_acc o.
Proof.
  unfold rk4_propagate. cbn [negb]. intro H.
  destruct (prop (rk4_deriv (rk_mu o) (rk_acc o)) fuel (rk_step o) tend (rk_ode o) (rk_time o)) as [[x p]| | |] eqn:Q; cbn [bind] in H; try discriminate.
  injection H as <-. apply prop_spec in Q. destruct Q as (k & w & -> & X & W & B & _). exists k, w. cbn [rk_ode rk_pos rk_vel rk_time rk_mu rk_step rk_acc]. now repeat split.
Qed.
Print Assumptions C166_propagate.
Theorem C166_disabled fuel o tend : rk4_propagate fuel false o tend = Ok o.
Proof. reflexivity. Qed.
Print Assumptions C166_disabled.
Theorem C166_terminates f o tend : tend - rk_time o <= INR (S f) * rk_step o -> exists o', rk4_propagate (S f) true o tend = Ok o'.
Proof. intro L. unfold rk4_propagate. cbn [negb]. destruct (prop_total (rk4_deriv (rk_mu o) (rk_acc o)) (rk_step o) tend f (rk_ode o) (rk_time o) L) as ((x & p) & E). rewrite E. cbn [bind]. eauto. Qed.
Print Assumptions C166_terminates.
(** a step width that is not positive: Propagate never returns *)
Theorem C166_nonpositive_step_hangs fuel o tend : rk_step o <= 0 -> 1 / 10 ^ 6 < tend - rk_time o - rk_step o -> rk4_propagate fuel true o tend = Hang.
Proof. intros S0 L. unfold rk4_propagate, prop. cbn [negb]. rewrite zero_step_hangs by assumption. reflexivity. Qed.
Print Assumptions C166_nonpositive_step_hangs.
(** the choice of the inertial axes: rotated or mirrored inputs give rotated or mirrored outputs, through every
    history of accelerations and end times, and a run that does not end does not end in other axes *)
Theorem C166_any_axes m fuel mu step r v t0 calls : orthogonal_axes m ->
  seen_through (mvec 3 m) (rk_run fuel (rk4_new mu step r v t0) calls)
    (rk_run fuel (rk4_new mu step (mvec 3 m r) (mvec 3 m v) t0) (map (fun x => (mvec 3 m (fst x), snd x)) calls)).
Proof.
  intro M.
  assert (G : forall calls o o', rk_step o' = rk_step o -> rk_time o' = rk_time o -> rk_mu o' = 1 * 1 * 1 * rk_mu o ->
    sim 1 m (state (rk_ode o)) (state (rk_ode o')) -> veq 3 (rk_pos o') (img 1 m (rk_pos o)) -> veq 3 (rk_vel o') (img 1 m (rk_vel o)) ->
    seen_through (mvec 3 m) (rk_run fuel o calls) (rk_run fuel o' (map (fun x => (mvec 3 m (fst x), snd x)) calls))).
  { clear calls. assert (I1 : forall x i, img 1 m x i = mvec 3 m x i) by (intros x i; unfold img, vscal; ring).
    induction calls as [|[a tend] l IH]; intros o o' St T Mu H P V; cbn [rk_run map fst snd].
    - cbn [seen_through]. repeat split; [intros i Hi; rewrite <- I1; now apply P|intros i Hi; rewrite <- I1; now apply V|exact T].
    - unfold rk4_propagate, rk_set_acc. cbn [negb rk_mu rk_step rk_time rk_ode rk_acc]. rewrite St, T.
      pose proof (lock_prop (rk4_deriv (rk_mu o) a) (rk4_deriv (rk_mu o') (mvec 3 m a)) (sim 1 m) (sim_add 1 m) (sim_scal 1 m)) as L.
      assert (D : forall (t t' : R) s s', sim 1 m s s' -> sim 1 m (rk4_deriv (rk_mu o) a t s) (rk4_deriv (rk_mu o') (mvec 3 m a) t' s')).
      { intros t t' s s' X. rewrite Mu. apply (sim_der 1 m Rlt_0_1 M); [intros i Hi; symmetry; apply I1|exact X]. }
      specialize (L D (rk_step o) tend fuel (rk_ode o) (rk_ode o') (rk_time o) H).
      destruct (prop (rk4_deriv (rk_mu o) a) fuel (rk_step o) tend (rk_ode o) (rk_time o)) as [[x p]| | |],
        (prop (rk4_deriv (rk_mu o') (mvec 3 m a)) fuel (rk_step o) tend (rk_ode o') (rk_time o)) as [[y q]| | |]; try contradiction; try exact I.
      cbn [bind]. destruct L as (L & <-). destruct (L) as (P' & V'). apply IH; cbn [rk_step rk_time rk_mu rk_ode rk_pos rk_vel]; assumption || reflexivity. }
  apply G; try reflexivity.
  - cbn [rk4_new rk_mu]. ring.
  - cbn [rk4_new rk_ode ode_setup state]. split; intros i Hi; unfold img, vscal, mvec; rewrite !sumn3; i3 i Hi; cbn [pos6 vel6 v6 v3]; unfold mvec; rewrite ?sumn3; ring.
  - intros i Hi. cbn [rk4_new rk_pos]. unfold img, vscal. ring.
  - intros i Hi. cbn [rk4_new rk_vel]. unfold img, vscal. ring.
Qed.
Print Assumptions C166_any_axes.
(** the choice of the unit of length, seconds kept: all lengths times c, the gravity parameter times c^3 *)
Definition unit_axes : mat := fun i j => if Nat.eqb i j then 1 else 0.
Theorem C166_any_length_unit c fuel mu step r v t0 calls : 0 < c ->
  seen_through (vscal c) (rk_run fuel (rk4_new mu step r v t0) calls)
    (rk_run fuel (rk4_new (c * c * c * mu) step (vscal c r) (vscal c v) t0) (map (fun x => (vscal c (fst x), snd x)) calls)).
Proof.
  intro C.
  assert (M : orthogonal_axes unit_axes) by (intros i j Hi Hj; i3 i Hi; i3 j Hj; unfold unit_axes; cbn [Nat.eqb]; ring).
  assert (I1 : forall x i, (i < 3)%nat -> img c unit_axes x i = vscal c x i) by (intros x i Hi; unfold img, vscal, mvec; rewrite sumn3; i3 i Hi; unfold unit_axes; cbn [Nat.eqb]; ring).
  assert (G : forall calls o o', rk_step o' = rk_step o -> rk_time o' = rk_time o -> rk_mu o' = c * c * c * rk_mu o ->
    sim c unit_axes (state (rk_ode o)) (state (rk_ode o')) -> veq 3 (rk_pos o') (vscal c (rk_pos o)) -> veq 3 (rk_vel o') (vscal c (rk_vel o)) ->
    seen_through (vscal c) (rk_run fuel o calls) (rk_run fuel o' (map (fun x => (vscal c (fst x), snd x)) calls))).
  { clear calls. induction calls as [|[a tend] l IH]; intros o o' St T Mu H P V; cbn [rk_run map fst snd].
    - cbn [seen_through]. repeat split; assumption.
    - unfold rk4_propagate, rk_set_acc. cbn [negb rk_mu rk_step rk_time rk_ode rk_acc]. rewrite St, T, Mu.
      pose proof (lock_prop (rk4_deriv (rk_mu o) a) (rk4_deriv (c * c * c * rk_mu o) (vscal c a)) (sim c unit_axes) (sim_add c unit_axes) (sim_scal c unit_axes)) as L.
      assert (D : forall (t t' : R) s s', sim c unit_axes s s' -> sim c unit_axes (rk4_deriv (rk_mu o) a t s) (rk4_deriv (c * c * c * rk_mu o) (vscal c a) t' s')).
      { intros t t' s s' X. apply (sim_der c unit_axes C M); [intros i Hi; symmetry; now apply I1|exact X]. }
      specialize (L D (rk_step o) tend fuel (rk_ode o) (rk_ode o') (rk_time o) H).
      destruct (prop (rk4_deriv (rk_mu o) a) fuel (rk_step o) tend (rk_ode o) (rk_time o)) as [[x p]| | |],
        (prop (rk4_deriv (c * c * c * rk_mu o) (vscal c a)) fuel (rk_step o) tend (rk_ode o') (rk_time o)) as [[y q]| | |]; try contradiction; try exact I.
      cbn [bind]. destruct L as (L & <-). destruct (L) as (P' & V').
      apply IH; cbn [rk_step rk_time rk_mu rk_ode rk_pos rk_vel]; try assumption; try reflexivity; intros i Hi; rewrite <- I1 by exact Hi; [now apply P'|now apply V']. }
  apply G; try reflexivity; try (intros i Hi; reflexivity).
  cbn [rk4_new rk_ode ode_setup state]. split; intros i Hi; rewrite I1 by exact Hi; i3 i Hi; reflexivity.
Qed.
Print Assumptions C166_any_length_unit.
(** without acceleration out of the plane, position and velocity never leave the plane through the center they
    start in, for every number and width of steps *)
Theorem C166_stays_in_plane n fuel mu step r v t0 calls o : dot 3 n r = 0 -> dot 3 n v = 0 ->
  (forall a t, In (a, t) calls -> dot 3 n a = 0) -> rk_run fuel (rk4_new mu step r v t0) calls = Ok o ->
  dot 3 n (rk_pos o) = 0 /\ dot 3 n (rk_vel o) = 0.
Proof.
  intros P V A E. apply (run_plane n fuel calls (rk4_new mu step r v t0) o); try assumption.
  split; cbn [rk4_new rk_ode ode_setup state]; [rewrite dot_pos|rewrite dot_vel]; cbn [v6]; unfold dot in *; rewrite sumn3 in *; assumption.
Qed.
Print Assumptions C166_stays_in_plane.
(** far from any mass the result is exact, whatever the step width *)
Theorem C166_exact_without_gravity fuel step r v t0 calls o : rk_run fuel (rk4_new 0 step r v t0) calls = Ok o ->
  veq 3 (rk_pos o) (fst (ballistic calls 0 r v)) /\ veq 3 (rk_vel o) (snd (ballistic calls 0 r v)).
Proof.
  intro E. apply (run_ballistic fuel calls (rk4_new 0 step r v t0) o); try exact E; try reflexivity; intros i Hi; i3 i Hi; reflexivity.
Qed.
Print Assumptions C166_exact_without_gravity.
(** an intermediate Propagate that ends on the grid of steps changes nothing *)
Theorem C166_grid_calls f1 f2 k o t2 o1 o2 : 1 / 10 ^ 6 < rk_step o -> 1 / 10 ^ 6 < t2 - (rk_time o + INR (S k) * rk_step o) ->
  rk4_propagate f1 true o (rk_time o + INR (S k) * rk_step o) = Ok o1 -> rk4_propagate f2 true o1 t2 = Ok o2 ->
  rk4_propagate (S k + f2) true o t2 = Ok o2.
Proof.
  intros P L A B. unfold rk4_propagate in *. cbn [negb] in *.
  destruct (prop (rk4_deriv (rk_mu o) (rk_acc o)) f1 (rk_step o) (rk_time o + INR (S k) * rk_step o) (rk_ode o) (rk_time o)) as [[x p]| | |] eqn:E1; cbn [bind] in A; try discriminate.
  injection A as <-. cbn [rk_mu rk_step rk_time rk_ode rk_acc] in B.
  destruct (prop (rk4_deriv (rk_mu o) (rk_acc o)) f2 (rk_step o) t2 x p) as [[y q]| | |] eqn:E2; cbn [bind] in B; try discriminate. injection B as <-.
  rewrite (prop_grid _ _ _ _ _ _ _ _ _ _ _ P L E1 E2). reflexivity.
Qed.
Print Assumptions C166_grid_calls.
(** the velocity shown in the body frame is the inertial velocity turned by the attitude: same speed *)
Theorem C68_velocity_in_body_frame q v : unit 4 q ->
  veq 3 (update_by_attitude q v) (mvec 3 (to_dcm q) v) /\ norm 3 (update_by_attitude q v) = norm 3 v.
Proof. intro U. unfold update_by_attitude. split; [apply C25_frame_conversion_is_dcm|apply (C25_frame_conversion_preserves q v v U)]. Qed.
Print Assumptions C68_velocity_in_body_frame.

(** ** Examples: the hypotheses are met *)
Definition ex_orbit : rk4_orbit := rk4_new 1 (1 / 10) (v3 1 0 0) (v3 0 1 0) 0.
(** ten steps and a half, through two calls, with an acceleration in the plane of the orbit *)
Example ex_run : exists o, rk_run 11 ex_orbit [(vconst 0, 1 / 2); (v3 0 (1 / 100) 0, 105 / 100)] = Ok o /\ rk_time o = 105 / 100 /\ rk_pos o 2%nat = 0.
Proof.
  assert (A : forall o tend, tend - rk_time o <= INR 11 * rk_step o -> exists o', rk4_propagate 11 true o tend = Ok o' /\ rk_time o' = tend /\ rk_step o' = rk_step o).
  { intros o tend L. destruct (C166_terminates 10 o tend L) as (o' & E). exists o'. split; [exact E|]. destruct (C166_propagate _ _ _ _ E) as (k & w & _ & _ & _ & _ & _ & T & _ & St & _). now split. }
  destruct (A (rk_set_acc ex_orbit (vconst 0)) (1 / 2)) as (o1 & E1 & T1 & S1). { cbn [rk_set_acc ex_orbit rk4_new rk_time rk_step INR]. lra. }
  destruct (A (rk_set_acc o1 (v3 0 (1 / 100) 0)) (105 / 100)) as (o2 & E2 & T2 & S2). { cbn [rk_set_acc rk_time rk_step]. rewrite T1, S1. cbn [rk_set_acc ex_orbit rk4_new rk_time rk_step INR]. lra. }
  assert (E : rk_run 11 ex_orbit [(vconst 0, 1 / 2); (v3 0 (1 / 100) 0, 105 / 100)] = Ok o2) by (cbn [rk_run]; rewrite E1; cbn [bind]; rewrite E2; reflexivity).
  exists o2. split; [exact E|]. split; [exact T2|].
  unshelve epose proof (C166_stays_in_plane (v3 0 0 1) 11 1 (1 / 10) (v3 1 0 0) (v3 0 1 0) 0 _ o2 _ _ _ E) as (P & _).
  - unfold dot. rewrite sumn3. cbn [v3]. ring.
  - unfold dot. rewrite sumn3. cbn [v3]. ring.
  - intros a t [H|[H|[]]]; injection H as <- _; unfold dot; rewrite sumn3; unfold vconst; cbn [v3]; ring.
  - unfold dot in P. rewrite sumn3 in P. cbn [v3] in P. lra.
Qed.
(** a quarter turn about the z axis is a change of axes *)
Example ex_axes : orthogonal_axes (m3 0 (-1) 0 1 0 0 0 0 1).
Proof. intros i j Hi Hj. i3 i Hi; i3 j Hj; cbn [m3 v3 Nat.eqb]; ring. Qed.
(** the grid: five steps, then to 105/100 *)
Example ex_grid : 1 / 10 ^ 6 < rk_step ex_orbit /\ 1 / 10 ^ 6 < 105 / 100 - (rk_time ex_orbit + INR 5 * rk_step ex_orbit).
Proof. cbn [ex_orbit rk4_new rk_step rk_time INR]. lra. Qed.
