(** C173: the RK4 orbit converges to the exact motion. *)
From Coq Require Import Reals Lra Lia List Bool Arith.
From Verif Require Import Base RBase VecModel QuatModel QuatSpec OdeModel OrbitModel OrbitSpec OrbitProofs OrbitProps OrbitRunSpec PropagateProofs RkOrbitSpec RkOrbitProps ConvSpec ConvProofs ConvProps OrbConvSpec OrbConvProofs.
From Verif Require AttitudeProofs.
Import ListNotations.
Open Scope R_scope.

(** C173: let p, v be a motion under the gravity of a point mass and a constant acceleration that keeps away from
    the centre.  There are h0 and K such that every RK4 orbit started within d0 of it, through every sequence of
    Propagate calls whose steps are no wider than eta (the step width + 1e-6 s is, or the spans of the calls
    are), is within K (d0 + eta) of the motion at the end of the last call, for all d0 and eta up to h0. *)
Theorem C173_rk4_orbit_converges : forall mu a T p v rmin, 0 <= T -> moves_under_gravity mu a T p v -> 0 < rmin -> (forall t, 0 <= t <= T -> rmin <= norm 3 (p t)) ->
  exists h0 K, 0 < h0 /\ 0 <= K /\ forall fuel step t_init d0 eta r0 v0 ends o, 0 < step -> 0 <= d0 <= h0 -> 0 <= eta <= h0 ->
    in_order 0 ends -> step + 1 / 10 ^ 6 <= eta \/ advances eta 0 ends -> last ends 0 <= T -> near 3 d0 r0 (p 0) -> near 3 d0 v0 (v 0) ->
    rk_run fuel (rk4_new mu step r0 v0 t_init) (map (fun t => (a, t)) ends) = Ok o ->
    rk_time o = last ends 0 /\ forall i, (i < 3)%nat -> Rabs (rk_pos o i - p (last ends 0) i) <= K * (d0 + eta) /\ Rabs (rk_vel o i - v (last ends 0) i) <= K * (d0 + eta).
Proof.
  intros mu a T p v rmin T0 EX R0 MIN. assert (MH : 0 < rmin / 2) by lra.
  pose proof (orbit_exact mu a T p v EX) as OE.
  pose proof (orbit_lipschitz mu a T p v (rmin / 2) MH ltac:(intros t Ht; specialize (MIN t Ht); lra)) as OL.
  assert (L0 : 0 <= 1 + 7 * Rabs mu / (rmin / 2) ^ 3).
  { assert (0 <= 7 * Rabs mu / (rmin / 2) ^ 3) by (apply Rmult_le_pos; [pose proof (Rabs_pos mu); lra|left; apply Rinv_0_lt_compat, pow_lt; exact MH]). lra. }
  assert (MQ : 0 < rmin / 2 / 2) by lra.
  destruct (C172_ode_class_converges 6 _ _ 0 T _ _ T0 MQ L0 OE OL) as (h0 & K & H & KP & C). exists h0, K. split; [exact H|]. split; [exact KP|].
  intros fuel step ti d0 eta r0 v0 ends o S0 D E IO A LT NR NV RUN.
  assert (RUN' : rk_run fuel (rk_set_acc (rk4_new mu step (pos6 (v6 r0 v0)) (vel6 (v6 r0 v0)) ti) a) (map (fun t => (a, t)) ends) = Ok o \/ ends = []).
  { destruct ends as [|x l]; [now right|left]. cbn [map rk_run] in *. exact RUN. }
  assert (N6 : near 6 d0 (v6 r0 v0) (v6 (p 0) (v 0))).
  { apply near6. split; intros i Hi; [specialize (NR i Hi)|specialize (NV i Hi)]; (destruct i as [|[|[|i]]]; [exact NR || exact NV..|lia]). }
  destruct RUN' as [RUN'| ->].
  - destruct (run_widths a fuel step eta S0 ends (rk_set_acc (rk4_new mu step (pos6 (v6 r0 v0)) (vel6 (v6 r0 v0)) ti) a) o eq_refl IO A (proj1 E) RUN' eq_refl eq_refl) as (ws & F & TW & TT & OD & P & V).
    cbn [rk_time rk_set_acc rk4_new rk_ode rk_mu] in *. split; [exact TT|].
    set (ode0 := ode_setup (ode_new step) ti (v6 r0 v0)) in *.
    pose proof (C eta d0 ws (mkOde 0 (state ode0) (derivative ode0) (step_width ode0)) D E F ltac:(lra) eq_refl N6) as (W & _).
    rewrite (state_any_time mu a ws ode0 0) in W. replace (0 + total ws) with (last ends 0) in W by lra.
    change (integrate (rk4_deriv mu a) ws ode0) with (integrate (rk4_deriv mu a) ws ode0) in W. rewrite OD in P, V. apply near6 in W as (WP & WV).
    intros i Hi. rewrite P, V. specialize (WP i Hi). specialize (WV i Hi). destruct i as [|[|[|i]]]; [exact (conj WP WV)..|lia].
  - cbn [map rk_run] in RUN. injection RUN as <-. cbn [last rk4_new rk_time rk_pos rk_vel]. split; [reflexivity|]. intros i Hi.
    pose proof (C eta d0 [] (mkOde 0 (v6 r0 v0) (vconst 0) step) D E (List.Forall_nil _) ltac:(cbn; lra) eq_refl N6) as (W & _). cbn [integrate fold_left state total fold_right] in W. rewrite Rplus_0_r in W.
    apply near6 in W as (WP & WV). specialize (WP i Hi). specialize (WV i Hi). destruct i as [|[|[|i]]]; [exact (conj WP WV)..|lia].
Qed.
Print Assumptions C173_rk4_orbit_converges.

(** C173: in particular to the Kepler orbit: started on it (at the time s0 after perigee), with no acceleration but gravity *)
Theorem C173_kepler_orbit : forall mu oe u s0 T, 0 < mu -> 0 < sma oe -> 0 <= ecc oe < 1 -> eccentric_anomaly (ecc oe) (mean_motion mu (sma oe)) u -> 0 <= T ->
  exists h0 K, 0 < h0 /\ 0 <= K /\ forall fuel step t_init eta ends o, 0 < step -> 0 <= eta <= h0 ->
    in_order 0 ends -> step + 1 / 10 ^ 6 <= eta \/ advances eta 0 ends -> last ends 0 <= T ->
    rk_run fuel (rk4_new mu step (fst (state_at mu oe (u s0))) (snd (state_at mu oe (u s0))) t_init) (map (fun t => (vconst 0, t)) ends) = Ok o ->
    rk_time o = last ends 0 /\ forall i, (i < 3)%nat ->
      Rabs (rk_pos o i - fst (state_at mu oe (u (s0 + last ends 0))) i) <= K * eta /\ Rabs (rk_vel o i - snd (state_at mu oe (u (s0 + last ends 0))) i) <= K * eta.
Proof.
  intros mu oe u s0 T M0 A0 E0 U T0.
  pose proof (C63_two_body mu oe u M0 A0 E0 U) as TB.
  assert (EX : moves_under_gravity mu (vconst 0) T (fun t => fst (state_at mu oe (u (s0 + t)))) (fun t => snd (state_at mu oe (u (s0 + t))))).
  { intros t i _ Hi. destruct (TB (s0 + t) i Hi) as (D1 & D2). unfold gravity, vconst. rewrite Rplus_0_r.
    assert (SH : forall (g : R -> R) l, derivable_pt_lim g (s0 + t) l -> derivable_pt_lim (fun z => g (s0 + z)) t l).
    { intros g l D. pose proof (derivable_pt_lim_comp (fun z => s0 + z) g t 1 l) as Y. rewrite Rmult_1_r in Y. apply Y; [|exact D].
      replace 1 with (0 + 1) by ring. apply (derivable_pt_lim_plus (fct_cte s0) id); [apply derivable_pt_lim_const|apply derivable_pt_lim_id]. }
    split; [exact (SH (fun z => fst (state_at mu oe (u z)) i) _ D1)|exact (SH (fun z => snd (state_at mu oe (u z)) i) _ D2)]. }
  assert (R0 : 0 < sma oe * (1 - ecc oe)) by (apply Rmult_lt_0_compat; lra).
  destruct (C173_rk4_orbit_converges mu (vconst 0) T _ _ _ T0 EX R0) as (h0 & K & H & KP & C).
  { intros t _. destruct (C63_invariants mu oe (u (s0 + t)) M0 A0 E0) as (-> & _). apply Rmult_le_compat_l; [lra|]. pose proof (COS_bound (u (s0 + t))). assert (ecc oe * cos (u (s0 + t)) <= ecc oe * 1) by (apply Rmult_le_compat_l; lra). lra. }
  exists h0, K. split; [exact H|]. split; [exact KP|]. intros fuel step ti eta ends o S0 E IO A LT RUN.
  destruct (C fuel step ti 0 eta (fst (state_at mu oe (u s0))) (snd (state_at mu oe (u s0))) ends o S0 ltac:(lra) E IO A LT) as (TT & B).
  - rewrite Rplus_0_r. apply near_refl. lra.
  - rewrite Rplus_0_r. apply near_refl. lra.
  - exact RUN.
  - split; [exact TT|]. intros i Hi. destruct (B i Hi) as (B1 & B2). rewrite Rplus_0_l in B1, B2. now split.
Qed.
Print Assumptions C173_kepler_orbit.

(** C173: without the gap of 1e-6 s the last step would be no wider than the step width; with it, a call that advances
    the time by less than 1e-6 s is one single step whatever the step width *)
Theorem C173_below_a_microsecond : forall fuel o tend o', 0 < rk_step o -> tend - rk_time o <= 1 / 10 ^ 6 -> rk4_propagate fuel true o tend = Ok o' ->
  rk_ode o' = integrate (rk4_deriv (rk_mu o) (rk_acc o)) [tend - rk_time o] (rk_ode o).
Proof.
  intros fuel o tend o' S0 A E. destruct (C166_propagate fuel o tend o' E) as (k & w & W & W1 & I & _).
  unfold rk4_propagate, prop in E. cbn [negb] in E. destruct fuel as [|fuel]; [discriminate|]. cbn [prop_loop] in E. unfold rlt in E. destruct (Rlt_dec _ _) as [X|X] in E; [lra|].
  cbn [bind] in E. injection E as <-. cbn [rk_ode]. reflexivity.
Qed.
Print Assumptions C173_below_a_microsecond.

(** the hypotheses are met: a circular orbit of radius 7000 km, calls every 0.1 s *)
Definition circle_oe : elements := mkOe 7000000 0 0 0 0 0.
Example ex_orbit : let n := mean_motion 398600441800000 (sma circle_oe) in
  eccentric_anomaly (ecc circle_oe) n (fun s => n * s) /\ 0 < sma circle_oe /\ 0 <= ecc circle_oe < 1 /\
  in_order 0 (map (fun k => INR k / 10) (seq 1 5)) /\ advances (1 / 10) 0 (map (fun k => INR k / 10) (seq 1 5)).
Proof.
  intros n. split; [intros s; unfold residual; cbn [ecc circle_oe]; ring|]. cbn [sma ecc circle_oe]. split; [lra|]. split; [lra|]. cbn. lra.
Qed.
