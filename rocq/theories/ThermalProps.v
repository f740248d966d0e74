(** C33, C34, C51: heater control, heat-load profiles, thermal network. *)
From Coq Require Import Reals Lra Lia List Bool ZArith.
From Verif Require Import Base RBase VecModel OdeModel SensorModel ThermalModel ThermalSpec ThermalProofs.
Import ListNotations.
Open Scope R_scope.

(** C33: after every history of temperature readings the heater is on exactly when some reading was
    below the lower threshold and none after it was above the upper one; it then consumes its rating
    (never negative), otherwise nothing.  Swapped thresholds: the upper becomes lower + 10. *)
Theorem C33_heater_hysteresis : forall lo up power readings,
  let up' := if Rlt_dec up lo then lo + 10 else up in
  let h := control_run (controller_new lo up) (heater_new power) readings in
  (is_on h = true <-> should_heat lo up' readings) /\
  (is_on h = true -> output h = Rmax power 0) /\ (is_on h = false -> output h = 0).
Proof.
  intros lo up power temps up' h.
  assert (U : upper (controller_new lo up) = up').
  { unfold up', controller_new, rlt. cbn. now destruct (Rlt_dec up lo). }
  assert (I : output h = (if is_on h then rating h else 0) /\ rating h = Rmax power 0).
  { destruct (control_run_inv (controller_new lo up) temps (heater_new power) eq_refl) as [A B].
    split; [exact A|]. unfold h. rewrite B. cbn [heater_new rating]. unfold Rmax, rlt.
    destruct (Rle_dec power 0); destruct (Rlt_dec power 0); lra. }
  split; [|split; intros E; destruct I as [I1 I2]; rewrite I1, E; [exact I2|reflexivity]].
  unfold h. rewrite (control_run_spec _ temps (controller_new_ordered lo up) power), U. reflexivity.
Qed.
Print Assumptions C33_heater_hysteresis.

(** C33: in the network every heater sees, at each update, the temperatures [degC] of the nodes that
    name it, in node order, provided every node names an existing heater (or none). *)
Theorem C33_heaters_follow_their_nodes : forall net cs T hs, length cs = length hs ->
  (forall i, (i < node_num net)%nat -> (heater_id net i <= length hs)%nat) ->
  exists hs', update_heaters net cs T (seq 0 (node_num net)) hs = Ok hs' /\
    forall k c h, nth_error cs k = Some c -> nth_error hs k = Some h ->
      nth_error hs' k = Some (control_run c h
        (map (fun i => T i - 273.15) (filter (fun i => Nat.eqb (heater_id net i) (k + 1)) (seq 0 (node_num net))))).
Proof.
  intros net cs T hs L B.
  destruct (update_heaters_spec net cs T (seq 0 (node_num net)) hs L) as (hs' & E & _ & P).
  { intros i Hi. apply B. apply in_seq in Hi. lia. }
  exists hs'. split; [exact E|]. intros k c h H1 H2. rewrite (P k c h H1 H2). unfold readings.
  replace (k + 1)%nat with (S k) by lia. do 2 f_equal; apply map_ext; intros i; lra.
Qed.
Print Assumptions C33_heaters_follow_their_nodes.
(** otherwise the heater table is read out of bounds *)
Theorem C33_unknown_heater_is_ub : forall net hs i, (i < node_num net)%nat ->
  (length hs < heater_id net i)%nat -> heater_power net hs i = UB.
Proof.
  intros net hs i _ H. unfold heater_power. destruct (heater_id net i) as [|k]; [lia|].
  assert (E : nth_error hs k = None) by (apply nth_error_None; lia). now rewrite E.
Qed.
Print Assumptions C33_unknown_heater_is_ub.

Lemma Forall2_single {A B} (P : A -> B -> Prop) a l : Forall2 P [a] l -> exists b, l = [b] /\ P a b.
Proof. intros H. inversion H as [|? b ? l2 H1 H2]; subst. inversion H2; subst. eauto. Qed.

(** C34: a profile with at least two points, increasing times from 0.  As long as the times asked for
    have not run past the end of a segment and come back (in particular during the whole first
    period), the load is the piecewise linear interpolation at the time since the last repetition. *)
Theorem C34_interpolation : forall ts ws history t r,
  profile ts ws -> Forall (fun x => 0 <= x) history -> 0 <= t ->
  time_in_period (last ts 0) t r ->
  (forall x, In x history -> exists r', time_in_period (last ts 0) x r' /\ r' <= r) ->
  exists h0 h w, heatload_new ts ws = Ok h0 /\ elapsed_run h0 (history ++ [t]) = Ok h /\
    internal_load h = Ok (Some w) /\ interpolates ts ws r w.
Proof.
  intros ts ws history t r P F Ht Pr Hist.
  destruct P as (L & W & Z0 & Inc) eqn:EP. 
  assert (E0 : heatload_new ts ws = Ok (mkLoad ts ws 0 (fmod 0 (last ts 0)))).
  { unfold heatload_new. destruct ts as [|a ts]; [cbn in L; lia|]. destruct ws as [|b ws]; [discriminate W|].
    rewrite W, Nat.eqb_refl. reflexivity. }
  destruct (elapsed_run_spec (history ++ [t]) (mkLoad ts ws 0 (fmod 0 (last ts 0))) [] P) as (h & rs & E & T1 & W1 & PR & I & Res).
  { split; [cbn; lia|]. split; [constructor|]. left. reflexivity. }
  { apply Forall_app. split; [exact F|constructor; [exact Ht|constructor]]. }
  cbn [times watts] in *. rewrite last_nth in Pr, Hist. fold (period_of ts) in Pr, Hist.
  destruct Res as (rs0 & rl & -> & Rl); [destruct history; discriminate|].
  apply Forall2_app_inv_l in PR as (p1 & p2 & PR1 & PR2 & Eq).
  destruct (Forall2_single _ _ _ PR2) as (y & -> & PRt).
  apply app_inj_tail in Eq as [<- <-].
  assert (rl = r) by (eapply time_in_period_unique; eassumption). subst rl.
  destruct I as (I1 & I2 & I3). cbn [app] in I2, I3.
  eexists _, h, _. split; [exact E0|]. split; [exact E|]. split.
  { apply internal_load_spec; [rewrite T1, W1; exact P|rewrite T1; exact I1|exact Rl]. }
  rewrite T1, W1. exists (idx h). split; [exact I1|]. split; [|reflexivity].
  apply Forall_app in I2 as [_ I2]. rewrite Forall_forall in I2. split; [|apply I2; now left].
  assert (R0 : 0 <= r) by (destruct Pr as (k & _ & B); lra).
  destruct I3 as [->|I3]; [rewrite Z0; exact R0|].
  apply Exists_exists in I3 as (x & Hx & Lx).
  apply in_app_iff in Hx as [Hx|Hx].
  - assert (exists y, In y history /\ time_in_period (period_of ts) y x) as (y & Hy & Py).
    { clear - PR1 Hx. induction PR1 as [|a b la lb Hab HF IH]; [destruct Hx|].
      destruct Hx as [->|Hx]; [exists a; split; [now left|exact Hab]|].
      destruct (IH Hx) as (y & A & B). exists y. split; [now right|exact B]. }
    destruct (Hist y Hy) as (r' & P' & B').
    rewrite (time_in_period_unique _ _ _ _ Py P') in Lx. lra.
  - destruct Hx as [->|[]]. lra.
Qed.
Print Assumptions C34_interpolation.

(** C34: no history of non-negative times makes the lookup read outside the tables or loop for ever. *)
Theorem C34_lookup_in_bounds : forall ts ws history,
  profile ts ws -> Forall (fun x => 0 <= x) history -> history <> [] ->
  exists h0 h w, heatload_new ts ws = Ok h0 /\ elapsed_run h0 history = Ok h /\ internal_load h = Ok (Some w).
Proof.
  intros ts ws history P F N.
  destruct P as (L & W & Z0 & Inc) eqn:EP.
  assert (E0 : heatload_new ts ws = Ok (mkLoad ts ws 0 (fmod 0 (last ts 0)))).
  { unfold heatload_new. destruct ts as [|a ts]; [cbn in L; lia|]. destruct ws as [|b ws]; [discriminate W|].
    rewrite W, Nat.eqb_refl. reflexivity. }
  destruct (elapsed_run_spec history (mkLoad ts ws 0 (fmod 0 (last ts 0))) [] P) as (h & rs & E & T1 & W1 & PR & I & Res).
  { split; [cbn; lia|]. split; [constructor|]. left. reflexivity. } { exact F. }
  cbn [times watts] in *. destruct (Res N) as (rs0 & rl & -> & Rl).
  eexists _, h, _. split; [exact E0|]. split; [exact E|].
  apply internal_load_spec; [rewrite T1, W1; exact P|rewrite T1; apply I|exact Rl].
Qed.
Print Assumptions C34_lookup_in_bounds.

(** C34 (defect): the index never returns to the first segment.  Once a time in the last segment has
    been seen, the load is for ever the extension of the last segment's straight line. *)
Theorem C34_stuck_in_last_segment : forall ts ws history x t r rx,
  profile ts ws -> Forall (fun y => 0 <= y) history -> 0 <= t ->
  In x history -> time_in_period (last ts 0) x rx -> nth (length ts - 2) ts 0 < rx ->
  time_in_period (last ts 0) t r ->
  exists h0 h, heatload_new ts ws = Ok h0 /\ elapsed_run h0 (history ++ [t]) = Ok h /\
    internal_load h = Ok (Some (on_segment ts ws (length ts - 2) r)).
Proof.
  intros ts ws history x t r rx P F Ht Hx Px Lx Pr.
  destruct P as (L & W & Z0 & Inc) eqn:EP.
  assert (E0 : heatload_new ts ws = Ok (mkLoad ts ws 0 (fmod 0 (last ts 0)))).
  { unfold heatload_new. destruct ts as [|a ts]; [cbn in L; lia|]. destruct ws as [|b ws]; [discriminate W|].
    rewrite W, Nat.eqb_refl. reflexivity. }
  destruct (elapsed_run_spec (history ++ [t]) (mkLoad ts ws 0 (fmod 0 (last ts 0))) [] P) as (h & rs & E & T1 & W1 & PR & I & Res).
  { split; [cbn; lia|]. split; [constructor|]. left. reflexivity. }
  { apply Forall_app. split; [exact F|constructor; [exact Ht|constructor]]. }
  cbn [times watts] in *. rewrite last_nth in Pr, Px. fold (period_of ts) in Pr, Px.
  destruct Res as (rs0 & rl & -> & Rl); [destruct history; discriminate|].
  apply Forall2_app_inv_l in PR as (p1 & p2 & PR1 & PR2 & Eq).
  destruct (Forall2_single _ _ _ PR2) as (y & -> & PRt).
  apply app_inj_tail in Eq as [<- <-].
  assert (rl = r) by (eapply time_in_period_unique; eassumption). subst rl.
  destruct I as (I1 & I2 & I3). cbn [app] in I2.
  assert (Ei : idx h = (length ts - 2)%nat).
  { assert (Hin : In rx rs0).
    { clear - PR1 Hx Px. induction PR1 as [|a b la lb Hab HF IH]; [destruct Hx|].
      destruct Hx as [->|Hx]; [left; eapply time_in_period_unique; eassumption|]. right. now apply IH. }
    apply Forall_app in I2 as [I2 _]. rewrite Forall_forall in I2. specialize (I2 _ Hin). cbn in I2.
    destruct (Nat.eq_dec (idx h) (length ts - 2)) as [G|G]; [exact G|].
    destruct (Nat.eq_dec (S (idx h)) (length ts - 2)) as [G2|G2]; [rewrite G2 in I2; lra|].
    pose proof (Inc (S (idx h)) (length ts - 2)%nat ltac:(lia)). lra. }
  eexists _, h. split; [exact E0|]. split; [exact E|].
  rewrite (internal_load_spec h r); [rewrite T1, W1, Ei; reflexivity|rewrite T1, W1; exact P|rewrite T1; exact I1|exact Rl].
Qed.
Print Assumptions C34_stuck_in_last_segment.

Lemma ex_profile : profile [0; 1; 2] [10; 20; 0].
Proof.
  split; [cbn; lia|]. split; [reflexivity|]. split; [reflexivity|].
  intros i j H. cbn [length] in H. destruct i as [|[|[|i]]]; destruct j as [|[|[|j]]]; cbn; try lia; lra.
Qed.
(** so the claim "the profile is repeated" is false *)
Theorem C34_periodic_repetition_refuted :
  ~ (forall ts ws history t r, profile ts ws -> Forall (fun y => 0 <= y) history -> 0 <= t ->
     time_in_period (last ts 0) t r ->
     exists h0 h w, heatload_new ts ws = Ok h0 /\ elapsed_run h0 (history ++ [t]) = Ok h /\
       internal_load h = Ok (Some w) /\ interpolates ts ws r w).
Proof.
  intros C.
  assert (Pt : time_in_period (last [0;1;2] 0) 2 0) by (exists 1%Z; cbn; lra).
  assert (Px : time_in_period (last [0;1;2] 0) (3/2) (3/2)) by (exists 0%Z; cbn; lra).
  destruct (C [0;1;2] [10;20;0] [3/2] 2 0 ex_profile) as (h0 & h & w & E0 & E & V & I).
  { constructor; [lra|constructor]. } { lra. } { exact Pt. }
  destruct (C34_stuck_in_last_segment [0;1;2] [10;20;0] [3/2] (3/2) 2 0 (3/2) ex_profile) as (g0 & g & G0 & G & V').
  { constructor; [lra|constructor]. } { lra. } { now left. } { exact Px. } { cbn; lra. } { exact Pt. }
  rewrite E0 in G0. injection G0 as <-. rewrite E in G. injection G as <-.
  rewrite V in V'. injection V' as ->.
  destruct I as (j & Hj & Rj & Ej). cbn [length] in Hj.
  destruct j as [|[|j]]; [| |lia]; cbn in Rj, Ej; unfold on_segment in Ej; cbn in Ej; lra.
Qed.
Print Assumptions C34_periodic_repetition_refuted.

(** C34 (defect): a profile with a single point passes the assertions and then reads out of bounds. *)
Theorem C34_single_point_is_ub : forall t0 w0 t, exists h, heatload_new [t0] [w0] = Ok h /\ elapsed_run h [t] = UB.
Proof. intros. eexists. split; reflexivity. Qed.
Print Assumptions C34_single_point_is_ub.

(** C51: one integration step.  Every diffusive node gains h times (exchange with the other nodes at
    the temperatures at the start of the step + the Simpson average of its heat load) of energy; other
    nodes keep their temperature.  [load] is any (stateful) heat-load source. *)
Theorem C51_step_energy : forall (S : Type) (load : S -> R -> vec * S) net s T t h q1 q2 q3 q4 s1 s2 s3 s4,
  load s t = (q1, s1) -> load s1 (t + h / 2) = (q2, s2) -> load s2 (t + h / 2) = (q3, s3) -> load s3 (t + h) = (q4, s4) ->
  let T' := fst (runge_one_step load net s T t h) in
  (forall i, ntype net i = Diffusive -> capacity net i <> 0 ->
     capacity net i * (T' i - T i) =
       h * (heat_flow (node_num net) (conductance net) (radiation net) stefan_boltzmann T i
            + (q1 i + 2 * q2 i + 2 * q3 i + q4 i) / 6)) /\
  (forall i, ntype net i <> Diffusive -> T' i = T i).
Proof.
  intros S load net s T t h q1 q2 q3 q4 s1 s2 s3 s4 E1 E2 E3 E4 T'.
  pose proof (runge_step_spec load net s T t h) as G. unfold stage_loads in G. rewrite E1, E2, E3, E4 in G.
  unfold T'. destruct (runge_one_step load net s T t h) as [T1 s']. cbn [fst]. destruct G as (_ & A & B).
  split; [|exact B]. intros i Hi Hc. rewrite (A i Hi), exchange_heat_flow. field. exact Hc.
Qed.
Print Assumptions C51_step_energy.

(** C51: with symmetric matrices heat is only moved between nodes, never created. *)
Theorem C51_exchange_conserves_energy : forall n G A sigma T, symmetric n G -> symmetric n A ->
  sumn n (heat_flow n G A sigma T) = 0.
Proof.
  intros n G A sigma T SG SA.
  assert (K : forall (w : mat) (f : vec), symmetric n w -> sumn n (fun i => sumn n (fun j => w i j * (f j - f i))) = 0).
  { clear. intros w f Sy.
    assert (E : sumn n (fun i => sumn n (fun j => w i j * (f j - f i)))
              = sumn n (fun i => sumn n (fun j => w i j * f j)) - sumn n (fun i => sumn n (fun j => w i j * f i))).
    { rewrite <- sumn_minus. apply sumn_ext. intros i _. rewrite <- sumn_minus. apply sumn_ext. intros; ring. }
    rewrite E, (sumn_swap n n (fun i j => w i j * f j)).
    rewrite (sumn_ext n (fun j => sumn n (fun i => w i j * f j)) (fun i => sumn n (fun j => w i j * f i))); [lra|].
    intros j Hj. apply sumn_ext. intros i Hi. now rewrite (Sy i j) by assumption. }
  unfold heat_flow. rewrite (sumn_ext n _ (fun i => sumn n (fun j => G i j * (T j - T i))
    + sumn n (fun j => sigma * A i j * (T j ^ 4 - T i ^ 4)))) by (intros; now rewrite sumn_plus).
  rewrite sumn_plus, (K G T SG), (K (fun i j => sigma * A i j) (fun i => T i ^ 4)); [lra|].
  intros i j Hi Hj. now rewrite (SA i j).
Qed.
Print Assumptions C51_exchange_conserves_energy.

(** C51: with constant heat loads a whole Propagate call stores exactly the energy that the loads
    deliver in the time that passed, however it is divided into steps (all nodes diffusive). *)
Theorem C51_propagate_energy : forall net q fuel step tend T t T' t',
  symmetric (node_num net) (conductance net) -> symmetric (node_num net) (radiation net) ->
  (forall i, (i < node_num net)%nat -> ntype net i = Diffusive /\ capacity net i <> 0) ->
  propagate (fun (s : unit) (_ : R) => (q, s)) net fuel true step tend tt T t = Ok (tt, T', t') ->
  t' = tend /\
  stored_energy (node_num net) (capacity net) T' =
    stored_energy (node_num net) (capacity net) T + (tend - t) * sumn (node_num net) q.
Proof.
  intros net q fuel step tend T t T' t' SC SR D E. unfold propagate in E.
  destruct (propagate_loop _ net fuel step tend tt T t) as [[[s1 T1] t1]| | |] eqn:E1; try discriminate E.
  cbn [bind] in E. 
  pose proof (energy_loop net q fuel step tend SC SR D tt T t s1 T1 t1 E1) as G.
  pose proof (energy_step net q s1 T1 t1 (tend - t1) SC SR D) as G2. unfold const_load in G2.
  destruct (runge_one_step _ net s1 T1 t1 (tend - t1)) as [T2 s2] eqn:E2. cbn [fst] in G2.
  assert (E' : T' = T2 /\ t' = tend) by (injection E; intros; split; congruence). destruct E' as [-> ->]. split; [reflexivity|].
  unfold energy in G, G2. unfold stored_energy. rewrite G2, G. ring.
Qed.
Print Assumptions C51_propagate_energy.

(** C51: Propagate terminates for a positive step and lands exactly on the requested time, using
    full steps and one last step that is at most 1e-6 s longer than a full one; boundary nodes keep
    their temperature; a disabled network does nothing; a non-positive step never terminates. *)
Theorem C51_propagate_time : forall (S : Type) (load : S -> R -> vec * S) net step tend s T t, 0 < step ->
  exists fuel, forall fuel', (fuel <= fuel')%nat -> exists s' T', propagate load net fuel' true step tend s T t = Ok (s', T', tend) /\
    (forall i, ntype net i <> Diffusive -> T' i = T i) /\
    exists n sl Tl, propagate_loop load net fuel' step tend s T t = Ok (sl, Tl, t + INR n * step) /\
      tend - (t + INR n * step) <= step + 1 / 10 ^ 6 /\ (t <= tend -> t + INR n * step <= tend).
Proof.
  intros S load net step tend s T t H.
  destruct (nat_above ((tend - t) / step)) as [n Hn].
  assert (B : tend - t <= INR n * step).
  { replace (tend - t) with ((tend - t) / step * step) by (field; lra). apply Rmult_le_compat_r; lra. }
  exists (Datatypes.S n). intros fuel' Hf.
  assert (B' : tend - t <= INR (pred fuel') * step).
  { eapply Rle_trans; [exact B|]. apply Rmult_le_compat_r; [lra|]. apply le_INR. lia. }
  destruct (loop_terminates load net step tend H (pred fuel') s T t B') as [[[s1 T1] t1] E1].
  replace (Datatypes.S (pred fuel')) with fuel' in E1 by lia.
  unfold propagate. rewrite E1. cbn [bind].
  pose proof (fixed_step load net s1 T1 t1 (tend - t1)) as F.
  destruct (runge_one_step load net s1 T1 t1 (tend - t1)) as [T2 s2] eqn:E2. cbn [fst] in F.
  exists s2, T2. split; [reflexivity|]. split.
  - intros i Hi. rewrite F by exact Hi. eapply fixed_loop; eassumption.
  - destruct (loop_time load net fuel' step tend H _ _ _ _ _ _ E1) as [(m & M) [A C]].
    exists m, s1, T1. rewrite <- M. split; [reflexivity|]. split; [exact A|].
    intros L. assert (0 < 1 / 10 ^ 6) by (apply Rdiv_lt_0_compat; lra). destruct C as [->|C]; lra.
Qed.
Print Assumptions C51_propagate_time.
Theorem C51_disabled_or_bad_step : forall (S : Type) (load : S -> R -> vec * S) net fuel step tend s T t,
  propagate load net fuel false step tend s T t = Ok (s, T, t) /\
  (step <= 0 -> 1 / 10 ^ 6 < tend - t -> propagate load net fuel true step tend s T t = Hang).
Proof.
  intros. split; [reflexivity|]. intros H1 H2. unfold propagate. now rewrite loop_hangs.
Qed.
Print Assumptions C51_disabled_or_bad_step.

(** C51: an isothermal network without loads stays as it is. *)
Theorem C51_isothermal_equilibrium : forall net c T s t h i,
  (forall j, T j = c) -> fst (runge_one_step (fun (s : unit) (_ : R) => (fun _ => 0, s)) net s T t h) i = c.
Proof.
  intros net c T s t h i H.
  change (fun (s : unit) (_ : R) => (fun _ : nat => 0, s)) with (const_load (fun _ => 0)).
  rewrite const_step. unfold rhs. rewrite exchange_heat_flow. unfold heat_flow.
  rewrite sumn_0 by (intros j _; rewrite !H; ring). rewrite H.
  destruct (ntype net i); unfold Rdiv; ring.
Qed.
Print Assumptions C51_isothermal_equilibrium.

(** C51 (defect): the stage temperatures of the Runge-Kutta scheme are ignored, so with constant
    loads a step is the explicit Euler step, not the fourth-order one. *)
Theorem C51_step_is_euler : forall net q s T t h i, ntype net i = Diffusive ->
  fst (runge_one_step (fun (s : unit) (_ : R) => (q, s)) net s T t h) i =
  T i + h * ((heat_flow (node_num net) (conductance net) (radiation net) stefan_boltzmann T i + q i) / capacity net i).
Proof.
  intros net q s T t h i D. rewrite <- exchange_heat_flow.
  change (fun (s : unit) (_ : R) => (q, s)) with (const_load q). rewrite const_step. unfold rhs. now rewrite D.
Qed.
Print Assumptions C51_step_is_euler.
Definition two_nodes : network :=
  mkNetwork 2 (fun i => match i with 0%nat => Diffusive | _ => Boundary end) (fun _ => 1) (fun _ => 0%nat)
    (fun i j => if Nat.eqb i j then 0 else 1) (fun _ _ => 0).
(** the fourth-order Runge-Kutta step of OdeModel for the same equations gives something else *)
Theorem C51_fourth_order_refuted :
  ~ (forall net q T t h i,
      fst (runge_one_step (fun (s : unit) (_ : R) => (q, s)) net tt T t h) i =
      state (fst (ode_update (fun (s : unit) (_ : R) (x : vec) =>
        ((fun k => match ntype net k with
                   | Diffusive => (heat_flow (node_num net) (conductance net) (radiation net) stefan_boltzmann x k + q k) / capacity net k
                   | _ => 0 end), s)) tt (mkOde t T (fun _ => 0) h))) i).
Proof.
  intros C. specialize (C two_nodes (fun _ => 0) (fun i => match i with 0%nat => 1 | _ => 0 end) 0 1 0%nat).
  rewrite C51_step_is_euler in C by reflexivity.
  unfold ode_update in C. cbn [fst state indep step_width] in C. unfold vadd, vscal, heat_flow in C.
  cbn [two_nodes ntype node_num conductance radiation capacity sumn Nat.eqb] in C. lra.
Qed.
Print Assumptions C51_fourth_order_refuted.

(** examples *)
Example ex_heater :
  is_on (control_run (controller_new 10 20) (heater_new 5) [15; 9; 20]) = true /\
  is_on (control_run (controller_new 10 20) (heater_new 5) [15; 9; 21; 15]) = false.
Proof.
  destruct (C33_heater_hysteresis 10 20 5 [15; 9; 20]) as [A _].
  destruct (C33_heater_hysteresis 10 20 5 [15; 9; 21; 15]) as [B _].
  cbn zeta in A, B. destruct (Rlt_dec 20 10) as [X|X]; [lra|]. split.
  - apply A. exists [15], 9, [20]. split; [reflexivity|]. split; [lra|]. constructor; [lra|constructor].
  - destruct (is_on (control_run (controller_new 10 20) (heater_new 5) [15; 9; 21; 15])) eqn:E; [|reflexivity].
    destruct (proj1 B eq_refl) as (a & t & b & E1 & E2 & E3).
    destruct a as [|a0 [|a1 [|a2 [|a3 a]]]]; cbn in E1; inversion E1; subst; try lra.
    + inversion E3 as [|? ? F1 F2]; lra.
    + destruct a; discriminate.
Qed.
Example ex_symmetric : symmetric 2 (conductance two_nodes).
Proof. intros [|[|i]] [|[|j]] Hi Hj; try lia; reflexivity. Qed.
Example ex_isolated : exists net, (forall i, (i < node_num net)%nat -> ntype net i = Diffusive /\ capacity net i <> 0) /\
  symmetric (node_num net) (conductance net) /\ conductance net 0%nat 1%nat <> 0 /\ node_num net = 2%nat.
Proof.
  exists (mkNetwork 2 (fun _ => Diffusive) (fun _ => 1) (fun _ => 0%nat) (conductance two_nodes) (fun _ _ => 0)).
  split; [intros; split; [reflexivity|cbn; lra]|]. split; [exact ex_symmetric|]. split; [cbn; lra|reflexivity].
Qed.
