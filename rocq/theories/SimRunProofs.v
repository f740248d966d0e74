From Coq Require Import Reals Lra Lia List ZArith Bool Arith.
From Verif Require Import Base RBase VecModel QuatModel QuatSpec OrbitModel DisturbanceModel SimTimeModel SimTimeSpec SimTimeProofs ClockModel SpacecraftModel SpacecraftProps SimRunModel SimRunSpec.
Import ListNotations.
Open Scope R_scope.

Section due.
Open Scope Z_scope.
Lemma due_before_S k n : (1 <= n)%nat -> due_before k (S n) = due_before k n + (if (Z.of_nat n + 1) mod k =? 0 then 1 else 0).
Proof.
  intros H. unfold due_before. replace (S n - 1)%nat with (n - 1 + 1)%nat by lia. rewrite seq_app, filter_app, app_length.
  replace (1 + (n - 1))%nat with n by lia. cbn [seq filter]. destruct ((Z.of_nat n + 1) mod k =? 0); cbn [List.length]; lia.
Qed.
Lemma div_succ k n : 1 <= k -> 0 <= n -> (n + 1) / k = n / k + (if (n + 1) mod k =? 0 then 1 else 0).
Proof.
  intros Hk Hn. destruct (Z.eqb_spec ((n + 1) mod k) 0) as [E|E].
  - pose proof (Z.div_mod (n + 1) k ltac:(lia)) as D. rewrite E in D.
    assert (n / k = (n + 1) / k - 1) by (symmetry; apply (Z.div_unique_pos _ _ _ (k - 1)); lia). lia.
  - pose proof (Z.div_mod (n + 1) k ltac:(lia)) as D. pose proof (Z.mod_pos_bound (n + 1) k ltac:(lia)).
    assert (n / k = (n + 1) / k) by (symmetry; apply (Z.div_unique_pos _ _ _ ((n + 1) mod k - 1)); lia). lia.
Qed.
Lemma due_before_closed k n : 1 <= k -> (1 <= n)%nat -> due_before k n = Z.of_nat n / k - (if k =? 1 then 1 else 0).
Proof.
  intros Hk Hn. induction n as [|n IH]; [lia|]. destruct (Nat.eq_dec n 0) as [->|N0].
  - unfold due_before. cbn [Nat.sub seq filter List.length]. destruct (Z.eqb_spec k 1) as [->|E]; [reflexivity|].
    rewrite Z.div_small by lia. reflexivity.
  - rewrite due_before_S, IH by lia. rewrite Nat2Z.inj_succ. unfold Z.succ. rewrite (div_succ k (Z.of_nat n)) by lia. lia.
Qed.
End due.

Section run.
Context {G AT OB TH ENV C X S_ : Type}.
Context (p : params_R) (start_jd : R).
Context (global_update : R -> R -> G -> G).
Context (att_propagate : R -> vec -> AT -> AT) (quaternion : AT -> quat)
  (orb_propagate : G -> R -> R -> vec -> OB -> OB) (by_attitude : quat -> OB -> OB)
  (thermal_propagate : ENV -> R -> TH -> TH)
  (env_update : G -> time_info -> OB -> AT -> ENV -> ENV)
  (generate_torque : C -> vec * C) (generate_force : C -> vec * C) (mass : C -> R).
Context (attr : nat -> attrs) (is_on : C -> nat -> bool)
  (main_routine : G -> time_info -> OB -> AT -> ENV -> nat -> Z -> C -> C)
  (fast_update : G -> time_info -> OB -> AT -> ENV -> nat -> C -> C)
  (power_off : nat -> C -> C) (interference : C -> C).
Context (station_update : G -> OB -> AT -> C -> S_ -> S_).
Notation W := (world G AT OB TH ENV C X S_).
Notation step := (world_step p start_jd global_update att_propagate quaternion orb_propagate by_attitude thermal_propagate env_update generate_torque generate_force mass attr is_on main_routine fast_update power_off interference station_update).
Notation run := (main_run p start_jd global_update att_propagate quaternion orb_propagate by_attitude thermal_propagate env_update generate_torque generate_force mass attr is_on main_routine fast_update power_off interference station_update).

Definition traj (w0 : W) (n : nat) : W := Nat.iter n step w0.

Lemma traj_tm w0 n : tm w0 = st_init -> tm (traj w0 n) = after p (repeat None n).
Proof. intros H. induction n as [|n IH]; [exact H|]. cbn [repeat after]. rewrite <- IH. reflexivity. Qed.

Lemma run_from w0 N : tm w0 = st_init -> first_beyond (step_sec _ p) (end_sec _ p) N ->
  forall d n, (n + d = N)%nat -> (n = 0 -> 0 < N)%nat -> forall fuel, (d < fuel)%nat ->
  run fuel (traj w0 n) = Ok (map (traj w0) (filter (fun i => log_output _ (after p (repeat None i))) (seq n d)), traj w0 N).
Proof.
  intros H0 HN d. induction d as [|d IH]; intros n E Hn fuel Hf; (destruct fuel as [|fuel]; [lia|]); cbn [main_run]; rewrite traj_tm by exact H0.
  - assert (n = N) by lia. subst n. destruct N as [|N]; [specialize (Hn eq_refl); lia|].
    assert (F : finish _ (after p (repeat None (S N))) = true) by (apply after_finish, HN). rewrite F. reflexivity.
  - assert (F : finish _ (after p (repeat None n)) = false).
    { destruct n as [|n]; [reflexivity|]. destruct (finish _ (after p (repeat None (S n)))) eqn:F; [|reflexivity].
      apply after_finish in F. destruct HN as [_ HN]. specialize (HN (S n) ltac:(lia)). lra. }
    rewrite F. change (step (traj w0 n)) with (traj w0 (S n)). rewrite IH by lia. cbn [bind fst snd].
    cbn [seq filter]. destruct (log_output _ (after p (repeat None n))); reflexivity.
Qed.

(** one tick *)
Lemma checked_max q : checked_prescaler q = Z.max 1 q.
Proof. unfold checked_prescaler. destruct (Z.ltb_spec 0 q); lia. Qed.
Lemma pos_ltb_eqb k q : (0 <? k mod Z.max 1 q)%Z = negb (k mod Z.max 1 q =? 0)%Z.
Proof. pose proof (Z.mod_pos_bound k (Z.max 1 q) ltac:(lia)). destruct (Z.ltb_spec 0 (k mod Z.max 1 q)), (Z.eqb_spec (k mod Z.max 1 q) 0); cbn; try reflexivity; lia. Qed.

Lemma tick_list_spec g t o a e k ids : NoDup ids -> forall c, exists on1 on2 : nat -> bool,
  snd (tick_list attr is_on main_routine fast_update power_off g t o a e k ids c)
   = flat_map (fun id => map (pair id) (asked (attr id) (on1 id) (on2 id) k)) ids /\
  forall id b, (forall c', is_on c' id = b) -> on1 id = b /\ on2 id = b.
Proof.
  induction ids as [|id ids IH]; intros ND c.
  - exists (is_on c), (is_on c). split; [reflexivity|]. intros i b H. now rewrite H.
  - inversion ND as [|? ? Hin ND']; subst. cbn [tick_list].
    destruct (do_tick attr is_on main_routine power_off g t o a e k id c) as [c1 e1] eqn:E1.
    destruct (if needs_fast (attr id) then do_fast_tick attr is_on fast_update power_off g t o a e k id c1 else (c1, [])) as [c2 e2] eqn:E2.
    destruct (IH ND' c2) as (on1 & on2 & H & HO).
    destruct (tick_list attr is_on main_routine fast_update power_off g t o a e k ids c2) as [c3 e3]. cbn [snd] in H |- *.
    exists (fun i => if Nat.eqb i id then is_on c id else on1 i), (fun i => if Nat.eqb i id then is_on c1 id else on2 i). split.
    + cbn [flat_map]. rewrite Nat.eqb_refl.
      assert (K : map (pair id) (asked (attr id) (is_on c id) (is_on c1 id) k) = e1 ++ e2).
      { unfold asked. rewrite map_app. f_equal.
        - unfold do_tick in E1. rewrite checked_max, pos_ltb_eqb in E1. destruct (k mod Z.max 1 (prescaler (attr id)) =? 0)%Z; cbn [negb] in E1; [|now injection E1 as <- <-].
          destruct (is_on c id); now injection E1 as <- <-.
        - destruct (needs_fast (attr id)); [|now injection E2 as <- <-]. unfold do_fast_tick in E2. rewrite checked_max, pos_ltb_eqb in E2. cbn [andb].
          destruct (k mod Z.max 1 (fast_prescaler (attr id)) =? 0)%Z; cbn [negb] in E2; [|now injection E2 as <- <-].
          destruct (is_on c1 id); now injection E2 as <- <-. }
      rewrite K, H, <- app_assoc. do 2 f_equal. apply flat_map_ext_in. 
      intros i Hi. destruct (Nat.eqb_spec i id); [subst; contradiction|reflexivity].
    + intros i b Hb. destruct (Nat.eqb_spec i id) as [->|N]; [now rewrite !Hb|]. now apply HO.
Qed.

(** the clock over the run *)
Lemma lift_gen_clk f (w : crew C) : clk (snd (lift_gen f w)) = clk w /\ called (snd (lift_gen f w)) = called w.
Proof. unfold lift_gen. destruct (f (cstate w)). split; reflexivity. Qed.

Notation upd := (crew_update attr is_on main_routine fast_update power_off interference).
Lemma step_crew (w : W) : exists g t o a e,
  comp_flag t = SimTimeModel.cmp_flag _ (tm (step w)) /\
  clk (comps (sat (step w))) = clk (upd g t o a e (comps (sat w))) /\
  called (comps (sat (step w))) = called (upd g t o a e (comps (sat w))).
Proof.
  set (s := update_time p None (tm w)).
  set (g := global_update (elapsed _ s) (start_jd + elapsed _ s / 86400) (glob w)).
  change (sat (step w)) with (craft_update start_jd att_propagate quaternion orb_propagate by_attitude thermal_propagate env_update generate_torque generate_force mass attr is_on main_routine fast_update power_off interference g s (sat w)).
  change (tm (step w)) with s.
  exists g, (time_of start_jd s), (orbit (sat w)), (attitude (sat w)), (env_update g (time_of start_jd s) (orbit (sat w)) (attitude (sat w)) (env (sat w))).
  split; [reflexivity|]. unfold craft_update.
  match goal with |- context[spacecraft_update ?a ?b ?c ?d ?e ?f ?h ?i ?j ?k ?t ?x] => pose proof (C80_one_step a b c d e f h i j k t x) as H end.
  cbv zeta in H. destruct (update_all _ _ _ _) as [ds tot].
  match type of H with context[lift_gen generate_torque ?c] => pose proof (lift_gen_clk generate_torque c) as [L1 L2]; destruct (lift_gen generate_torque c) as [ct c1] end.
  match type of H with context[lift_gen generate_force ?c] => pose proof (lift_gen_clk generate_force c) as [L3 L4]; destruct (lift_gen generate_force c) as [cf c2] end.
  cbn [snd] in L1, L2, L3, L4. destruct H as (tau & acc & _ & _ & _ & _ & _ & _ & HC & _). rewrite HC, L3, L4, L1, L2. split; reflexivity.
Qed.

Context (ka ko kt kc kl : Z).
Hypothesis Hs : 0 < step_sec _ p.
Hypothesis Ha : steps_per_interval (step_sec _ p) (attitude_interval _ p) ka.
Hypothesis Ho : steps_per_interval (step_sec _ p) (orbit_interval _ p) ko.
Hypothesis Ht : steps_per_interval (step_sec _ p) (thermal_interval _ p) kt.
Hypothesis Hc : steps_per_interval (step_sec _ p) (component_interval _ p) kc.
Hypothesis Hl : steps_per_interval (step_sec _ p) (log_interval _ p) kl.

Lemma flag_at (n : nat) : (1 <= n)%nat -> let s := after p (repeat None n) in
  SimTimeModel.att_flag _ s = ((Z.of_nat n + 1) mod ka =? 0)%Z /\ SimTimeModel.orb_flag _ s = ((Z.of_nat n + 1) mod ko =? 0)%Z /\
  SimTimeModel.thm_flag _ s = ((Z.of_nat n + 1) mod kt =? 0)%Z /\ SimTimeModel.cmp_flag _ s = ((Z.of_nat n + 1) mod kc =? 0)%Z.
Proof.
  intros Hn. cbv zeta.
  destruct (after_flags p ka ko kt kc kl Hs Ha Ho Ht Hc Hl (repeat None n)) as (_ & _ & _ & _ & _ & E1 & E2 & E3 & E4 & _).
  rewrite E1, E2, E3, E4, repeat_length. destruct n; [lia|]. repeat split.
Qed.
Lemma log_at (n : nat) : log_output _ (after p (repeat None n)) = (Z.of_nat n mod kl =? 0)%Z.
Proof.
  destruct (after_flags p ka ko kt kc kl Hs Ha Ho Ht Hc Hl (repeat None n)) as (_ & _ & _ & _ & _ & _ & _ & _ & _ & E).
  rewrite E, repeat_length. unfold phase. now rewrite Z.add_0_r.
Qed.

Lemma clock_at (w0 : W) ids : tm w0 = st_init -> clk (comps (sat w0)) = mkClock ids (Some 0%Z) ->
  forall n, clk (comps (sat (traj w0 n))) = mkClock ids (Some (due_before kc (S n) mod 2 ^ 32)%Z).
Proof.
  intros H0 HC n. induction n as [|n IH].
  - exact HC.
  - change (traj w0 (S n)) with (step (traj w0 n)). destruct (step_crew (traj w0 n)) as (g & t & o & a & e & F & K & _).
    rewrite K. unfold crew_update. rewrite F. change (step (traj w0 n)) with (traj w0 (S n)). rewrite traj_tm by exact H0.
    destruct (flag_at (S n) ltac:(lia)) as (_ & _ & _ & E). rewrite E, IH. rewrite (due_before_S kc (S n)) by lia.
    destruct (((Z.of_nat (S n) + 1) mod kc =? 0)%Z).
    + cbn [count ClockModel.comps]. destruct (tick_list _ _ _ _ _ _ _ _ _ _ _ _ _) as [c evs]. cbn [clk]. do 2 f_equal.
      now rewrite Zplus_mod_idemp_l.
    + cbn [clk]. now rewrite ?IH, Z.add_0_r.
Qed.

Lemma called_at (w0 : W) ids : tm w0 = st_init -> clk (comps (sat w0)) = mkClock ids (Some 0%Z) -> NoDup ids ->
  forall n, exists on1 on2 : nat -> bool,
   called (comps (sat (traj w0 (S n)))) =
     (if (Z.of_nat (S n) + 1) mod kc =? 0 then
        flat_map (fun id => map (pair id) (asked (attr id) (on1 id) (on2 id) (due_before kc (S n) mod 2 ^ 32))) ids
      else [])%Z /\
   forall id b, (forall c', is_on c' id = b) -> on1 id = b /\ on2 id = b.
Proof.
  intros H0 HC ND n. pose proof (clock_at w0 ids H0 HC n) as K.
  change (traj w0 (S n)) with (step (traj w0 n)). destruct (step_crew (traj w0 n)) as (g & t & o & a & e & F & _ & E).
  rewrite E. unfold crew_update. rewrite F. change (step (traj w0 n)) with (traj w0 (S n)). rewrite traj_tm by exact H0.
  destruct (flag_at (S n) ltac:(lia)) as (_ & _ & _ & FL). rewrite FL, K.
  destruct (((Z.of_nat (S n) + 1) mod kc =? 0)%Z).
  - cbn [count ClockModel.comps].
    destruct (tick_list_spec g t o a e (due_before kc (S n) mod 2 ^ 32) ids ND (cstate (comps (sat (traj w0 n))))) as (on1 & on2 & H & HO).
    exists on1, on2. destruct (tick_list _ _ _ _ _ _ _ _ _ _ _ _ _) as [c evs]. cbn [snd called] in *. split; assumption.
  - exists (is_on (cstate (comps (sat (traj w0 n))))), (is_on (cstate (comps (sat (traj w0 n))))). split; [reflexivity|]. intros id b H. now rewrite H.
Qed.

(** what the update does to the dynamics *)
Lemma step_dynamics (w : W) : let w' := step w in let s := tm w' in
  attitude (sat w') = (if SimTimeModel.att_flag _ s then att_propagate (elapsed _ s) (torque (sat w')) (attitude (sat w)) else attitude (sat w)) /\
  orbit (sat w') = by_attitude (quaternion (attitude (sat w')))
    (if SimTimeModel.orb_flag _ s then orb_propagate (glob w') (elapsed _ s) (start_jd + elapsed _ s / 86400) (acceleration (sat w')) (orbit (sat w)) else orbit (sat w)) /\
  thermal (sat w') = (if SimTimeModel.thm_flag _ s then thermal_propagate (env (sat w')) (elapsed _ s) (thermal (sat w)) else thermal (sat w)) /\
  glob w' = global_update (elapsed _ s) (start_jd + elapsed _ s / 86400) (glob w) /\
  env (sat w') = env_update (glob w') (time_of start_jd s) (orbit (sat w)) (attitude (sat w)) (env (sat w)) /\
  station w' = station_update (glob w') (orbit (sat w')) (attitude (sat w')) (cstate (comps (sat w'))) (station w).
Proof.
  destruct w as [s0 g0 [a0 tq0 o0 ac0 th0 e0 c0 d0] st0]. cbv zeta.
  set (s := update_time p None s0).
  lazy beta iota zeta delta [world_step craft_update spacecraft_update clear add_acceleration add_torque add_force dynamics_update attitude torque orbit acceleration thermal env comps dist tm glob sat station time_of SpacecraftModel.att_flag SpacecraftModel.orb_flag thermal_flag elapsed_s current_jd].
  fold s. destruct (update_all _ _ _ _) as [ds tot].
  match goal with |- context[lift_gen generate_torque ?c] => destruct (lift_gen generate_torque c) as [ct c1] end.
  match goal with |- context[lift_gen generate_force ?c] => destruct (lift_gen generate_force c) as [cf c2] end.
  repeat split.
Qed.

Lemma elapsed_at (w0 : W) n : tm w0 = st_init -> elapsed _ (tm (traj w0 n)) = INR n * step_sec _ p.
Proof. intros H. rewrite (traj_tm w0 n H). apply after_elapsed. Qed.

Lemma last_due k n : (1 <= k)%Z -> exists m, (m <= n)%nat /\ (Z.of_nat n - Z.of_nat m < k)%Z /\
  (m = 0 \/ 1 <= m /\ (k | Z.of_nat m + 1)%Z)%nat /\ (forall i, (m < i <= n)%nat -> ((Z.of_nat i + 1) mod k =? 0)%Z = false).
Proof.
  intros Hk.
  assert (A : exists m, (m <= n)%nat /\ (m = 0 \/ 1 <= m /\ (k | Z.of_nat m + 1)%Z)%nat /\ (forall i, (m < i <= n)%nat -> ((Z.of_nat i + 1) mod k =? 0)%Z = false)).
  { induction n as [|n (m & M1 & M2 & M3)].
    - exists 0%nat. repeat split; [lia|now left|]. intros i H; lia.
    - destruct ((Z.of_nat (S n) + 1) mod k =? 0)%Z eqn:E.
      + exists (S n). repeat split; [lia| |intros i H; lia]. right. split; [lia|]. apply Z.eqb_eq in E. apply Z.mod_divide; [lia|exact E].
      + exists m. repeat split; [lia|exact M2|]. intros i H. destruct (Nat.eq_dec i (S n)) as [->|]; [exact E|apply M3; lia]. }
  destruct A as (m & M1 & M2 & M3). exists m. repeat split; [exact M1| |exact M2|exact M3].
  destruct (Z.lt_ge_cases (Z.of_nat n - Z.of_nat m) k) as [L|L]; [exact L|exfalso].
  pose proof (Z.div_mod (Z.of_nat n + 1) k ltac:(lia)) as D. pose proof (Z.mod_pos_bound (Z.of_nat n + 1) k ltac:(lia)) as B.
  set (q := ((Z.of_nat n + 1) / k)%Z) in *. set (i := Z.to_nat (k * q - 1)).
  assert (Q : (Z.of_nat m + 1 < k * q <= Z.of_nat n + 1)%Z) by lia.
  assert (I : (m < i <= n)%nat) by (unfold i; lia).
  specialize (M3 i I). unfold i in M3. rewrite Z2Nat.id in M3 by lia. replace (k * q - 1 + 1)%Z with (q * k)%Z in M3 by ring.
  rewrite Z.mod_mul in M3 by lia. discriminate.
Qed.

Lemma attitude_kept (w0 : W) m n : tm w0 = st_init -> (m <= n)%nat -> (forall i, (m < i <= n)%nat -> ((Z.of_nat i + 1) mod ka =? 0)%Z = false) ->
  attitude (sat (traj w0 n)) = attitude (sat (traj w0 m)).
Proof.
  intros H0 L K. induction n as [|n IH]; [now replace m with 0%nat by lia|].
  destruct (Nat.eq_dec m (S n)) as [->|]; [reflexivity|]. rewrite <- IH by (try lia; intros i Hi; apply K; lia).
  destruct (step_dynamics (traj w0 n)) as (E & _). change (step (traj w0 n)) with (traj w0 (S n)) in E. rewrite E.
  rewrite traj_tm by exact H0. destruct (flag_at (S n) ltac:(lia)) as (F & _). rewrite F, K by lia. reflexivity.
Qed.
Lemma orbit_kept {P} (pi : OB -> P) (w0 : W) m n : (forall q o, pi (by_attitude q o) = pi o) ->
  tm w0 = st_init -> (m <= n)%nat -> (forall i, (m < i <= n)%nat -> ((Z.of_nat i + 1) mod ko =? 0)%Z = false) ->
  pi (orbit (sat (traj w0 n))) = pi (orbit (sat (traj w0 m))).
Proof.
  intros Hpi H0 L K. induction n as [|n IH]; [now replace m with 0%nat by lia|].
  destruct (Nat.eq_dec m (S n)) as [->|]; [reflexivity|]. rewrite <- IH by (try lia; intros i Hi; apply K; lia).
  destruct (step_dynamics (traj w0 n)) as (_ & E & _). change (step (traj w0 n)) with (traj w0 (S n)) in E. rewrite E, Hpi.
  rewrite traj_tm by exact H0. destruct (flag_at (S n) ltac:(lia)) as (_ & F & _). rewrite F, K by lia. reflexivity.
Qed.
End run.
