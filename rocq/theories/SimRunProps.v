(** C155, C156: a whole run of the simulator. *)
From Coq Require Import Reals Lra Lia List ZArith Bool Arith.
From Verif Require Import Base RBase VecModel QuatModel QuatSpec OrbitModel DisturbanceModel SimTimeModel SimTimeSpec SimTimeProofs ClockModel SpacecraftModel SpacecraftProps SimRunModel SimRunSpec SimRunProofs.
Import ListNotations.
Open Scope R_scope.

Section run.
Context {G AT OB TH ENV C X S_ : Type}.
Context (p : params_R) (start_jd : R).
Context (global_update : R -> R -> G -> G).
Context (att_propagate : R -> vec -> AT -> AT) (quaternion : AT -> quat)
  (orb_propagate : G -> R -> R -> vec -> OB -> OB) (by_attitude : quat -> OB -> OB)
  (thermal_propagate : ENV -> R -> TH -> TH)
  (env_update : G -> time_info -> OB -> AT -> ENV -> ENV)
  (generate_torque : C -> vec * C) (generate_force : C -> vec * C) (mass : C -> R).
Context (attr : nat -> attrs) (is_on : C -> nat -> bool)
  (main_routine : G -> time_info -> OB -> AT -> ENV -> nat -> Z -> C -> C)
  (fast_update : G -> time_info -> OB -> AT -> ENV -> nat -> C -> C)
  (power_off : nat -> C -> C) (interference : C -> C).
Context (station_update : G -> OB -> AT -> C -> S_ -> S_).
Notation W := (world G AT OB TH ENV C X S_).
Notation step := (world_step p start_jd global_update att_propagate quaternion orb_propagate by_attitude thermal_propagate env_update generate_torque generate_force mass attr is_on main_routine fast_update power_off interference station_update).
Notation run := (main_run p start_jd global_update att_propagate quaternion orb_propagate by_attitude thermal_propagate env_update generate_torque generate_force mass attr is_on main_routine fast_update power_off interference station_update).
Context (ka ko kt kc kl : Z) (Hs : 0 < step_sec _ p)
  (Ha : steps_per_interval (step_sec _ p) (attitude_interval _ p) ka)
  (Ho : steps_per_interval (step_sec _ p) (orbit_interval _ p) ko)
  (Ht : steps_per_interval (step_sec _ p) (thermal_interval _ p) kt)
  (Hc : steps_per_interval (step_sec _ p) (component_interval _ p) kc)
  (Hl : steps_per_interval (step_sec _ p) (log_interval _ p) kl).
(** the world when Main is called: a new SimulationTime, the clock cleared (Spacecraft::Initialize), distinct components
    registered *)
Context (w0 : W) (ids : list nat) (H0 : tm w0 = st_init) (HC : clk (comps (sat w0)) = mkClock ids (Some 0%Z)) (ND : NoDup ids).

(** [w n] is the world after n updates *)
Definition history (w : nat -> W) : Prop := w 0%nat = w0 /\ forall n, w (S n) = step (w n).
Lemma history_traj w : history w -> forall n, w n = traj p start_jd global_update att_propagate quaternion orb_propagate by_attitude thermal_propagate env_update generate_torque generate_force mass attr is_on main_routine fast_update power_off interference station_update w0 n.
Proof. intros [A B] n. induction n as [|n IH]; [exact A|]. rewrite B, IH. reflexivity. Qed.

(** C156: the run ends, after N updates; the rows in the log are the worlds after 0, kl, 2 kl, ... updates, fewer than N,
    in this order; the time in the world after n updates is n steps. *)
Theorem C156_rows : forall N w, history w -> 0 <= end_sec _ p -> first_beyond (step_sec _ p) (end_sec _ p) N ->
  run (S N) w0 = Ok (map w (filter (fun n => (Z.of_nat n mod kl =? 0)%Z) (seq 0 N)), w N) /\
  forall n, elapsed _ (tm (w n)) = INR n * step_sec _ p.
Proof.
  intros N w HW He HN. pose proof (history_traj w HW) as T. split.
  - change w0 with (traj p start_jd global_update att_propagate quaternion orb_propagate by_attitude thermal_propagate env_update generate_torque generate_force mass attr is_on main_routine fast_update power_off interference station_update w0 0).
    rewrite (run_from p start_jd global_update att_propagate quaternion orb_propagate by_attitude thermal_propagate env_update generate_torque generate_force mass attr is_on main_routine fast_update power_off interference station_update w0 N H0 HN N 0) by (try lia; intros _; exact (first_beyond_pos _ _ _ He HN)).
    rewrite T. do 2 f_equal. rewrite (map_ext _ _ T). f_equal. apply filter_ext. intros n. exact (log_at p ka ko kt kc kl Hs Ha Ho Ht Hc Hl n).
  - intros n. rewrite T. now apply elapsed_at.
Qed.

(** C155: which routines run, and in what order: in update n >= 1 nothing unless kc divides n+1; then every registered
    component in turn is asked at the same count, the number of earlier such updates modulo 2^32.  A power port that is
    always on (or off) decides between the routine and the power off routine. *)
Theorem C155_routines_called : forall w, history w -> forall n, (1 <= n)%nat -> exists on1 on2 : nat -> bool,
   called (comps (sat (w n))) =
     (if (Z.of_nat n + 1) mod kc =? 0 then
        flat_map (fun id => map (pair id) (asked (attr id) (on1 id) (on2 id) (due_before kc n mod 2 ^ 32))) ids
      else [])%Z /\
   forall id b, (forall c', is_on c' id = b) -> on1 id = b /\ on2 id = b.
Proof.
  intros w HW n Hn. rewrite (history_traj w HW). destruct n as [|n]; [lia|].
  now apply (called_at p start_jd global_update att_propagate quaternion orb_propagate by_attitude thermal_propagate env_update generate_torque generate_force mass attr is_on main_routine fast_update power_off interference station_update ka ko kt kc kl Hs Ha Ho Ht Hc Hl w0 ids H0 HC ND n).
Qed.

(** C155: the count in closed form *)
Theorem C155_count : forall n, (1 <= n)%nat -> due_before kc n = (Z.of_nat n / kc - (if kc =? 1 then 1 else 0))%Z.
Proof. intros n Hn. apply due_before_closed; [apply Hc|exact Hn]. Qed.

(** C155: so the main routine of a component that always has power runs in the updates kc (1 + j P) - 1 for j = 0, 1, ...
    (1 + j P if kc = 1), P being the prescaler: every P kc steps - as long as the count does not wrap. *)
Theorem C155_main_routine_times : forall w, history w -> forall n id, (1 <= n)%nat -> In id ids -> (forall c', is_on c' id = true) ->
  (Z.of_nat n < kc * 2 ^ 32)%Z ->
  let P := Z.max 1 (prescaler (attr id)) in
  (exists k, In (id, Main k) (called (comps (sat (w n))))) <->
  exists j, (0 <= j)%Z /\ Z.of_nat n = (if kc =? 1 then 1 + j * P else kc * (1 + j * P) - 1)%Z.
Proof.
  intros w HW n id Hn Hid Hon Hw P. destruct (C155_routines_called w HW n Hn) as (on1 & on2 & E & HO). rewrite E.
  destruct (HO id true Hon) as [O1 O2]. assert (K1 : (1 <= kc)%Z) by apply Hc. assert (P1 : (1 <= P)%Z) by (unfold P; lia).
  assert (D0 : (0 <= due_before kc n)%Z) by (unfold due_before; lia).
  assert (DW : (due_before kc n mod 2 ^ 32 = due_before kc n)%Z).
  { apply Z.mod_small. split; [exact D0|]. rewrite C155_count by exact Hn.
    assert (Z.of_nat n / kc < 2 ^ 32)%Z by (apply Z.div_lt_upper_bound; lia). destruct (kc =? 1)%Z; lia. }
  rewrite DW.
  assert (A : (exists k, In (id, Main k) (if ((Z.of_nat n + 1) mod kc =? 0)%Z then
        flat_map (fun id => map (pair id) (asked (attr id) (on1 id) (on2 id) (due_before kc n))) ids else [])) <->
     ((Z.of_nat n + 1) mod kc = 0 /\ due_before kc n mod P = 0)%Z).
  { destruct (Z.eqb_spec ((Z.of_nat n + 1) mod kc) 0) as [F|F]; [|split; [intros [k []]|intros [? _]; contradiction]].
    split.
    - intros [k Hk]. split; [exact F|]. apply in_flat_map in Hk. destruct Hk as (i & _ & Hk). apply in_map_iff in Hk.
      destruct Hk as (e & Ee & Hk). injection Ee as Ei Ek. subst i e. unfold asked in Hk. apply in_app_or in Hk. destruct Hk as [Hk|Hk].
      + fold P in Hk. destruct (Z.eqb_spec (due_before kc n mod P) 0); [assumption|destruct Hk].
      + destruct (_ && _)%bool; [|destruct Hk]. destruct Hk as [Hk|[]]. destruct (on2 id); discriminate.
    - intros [_ F2]. exists (due_before kc n). apply in_flat_map. exists id. split; [exact Hid|]. apply in_map. unfold asked. apply in_or_app. left.
      fold P. rewrite F2, O1. now left. }
  rewrite A. rewrite C155_count by exact Hn. destruct (Z.eqb_spec kc 1) as [K|K].
  - rewrite K, Z.mod_1_r, Z.div_1_r. split.
    + intros [_ F]. apply Z.mod_divide in F; [|lia]. destruct F as [j Hj]. exists j. split; [nia|lia].
    + intros (j & J0 & Hj). split; [reflexivity|]. apply Z.mod_divide; [lia|]. exists j. lia.
  - split.
    + intros [F1 F2]. apply Z.mod_divide in F1; [|lia]. destruct F1 as [q Hq].
      assert (N : Z.of_nat n = (kc * q - 1)%Z) by lia. assert (Q1 : (1 <= q)%Z) by nia.
      assert (D : (Z.of_nat n / kc = q - 1)%Z) by (symmetry; apply (Z.div_unique_pos _ _ _ (kc - 1)); lia).
      rewrite D, Z.sub_0_r in F2. apply Z.mod_divide in F2; [|lia]. destruct F2 as [j Hj]. exists j. split; [nia|]. rewrite N.
      replace q with (1 + j * P)%Z by lia. reflexivity.
    + intros (j & J0 & Hj). split.
      * apply Z.mod_divide; [lia|]. exists (1 + j * P)%Z. lia.
      * assert (D : (Z.of_nat n / kc = j * P)%Z) by (symmetry; apply (Z.div_unique_pos _ _ _ (kc - 1)); lia).
        rewrite D, Z.sub_0_r. apply Z.mod_mul. lia.
Qed.

(** C156: the attitude in the world after n updates is the one propagated in the last update m <= n with ka | m+1, to the
    time of update m, with the torque of update m - or the initial one, if there was none. *)
Theorem C156_attitude : forall w, history w -> forall n, exists m, (m <= n)%nat /\ (Z.of_nat n - Z.of_nat m < ka)%Z /\
  (m = 0 \/ 1 <= m /\ (ka | Z.of_nat m + 1)%Z)%nat /\ (forall i, (m < i <= n)%nat -> ~ (ka | Z.of_nat i + 1)%Z) /\
  attitude (sat (w n)) = attitude (sat (w m)) /\
  ((1 <= m)%nat -> attitude (sat (w m)) = att_propagate (INR m * step_sec _ p) (torque (sat (w m))) (attitude (sat (w (m - 1)%nat)))).
Proof.
  intros w HW n. assert (K : (1 <= ka)%Z) by apply Ha. destruct (last_due ka n K) as (m & M1 & M2 & M3 & M4). exists m.
  split; [exact M1|]. split; [exact M2|]. split; [exact M3|].
  split; [intros i Hi Dv; specialize (M4 i Hi); apply Z.mod_divide in Dv; [|lia]; rewrite Dv in M4; discriminate|].
  rewrite !(history_traj w HW). split.
  - exact (attitude_kept p start_jd global_update att_propagate quaternion orb_propagate by_attitude thermal_propagate env_update generate_torque generate_force mass attr is_on main_routine fast_update power_off interference station_update ka ko kt kc kl Hs Ha Ho Ht Hc Hl w0 m n H0 M1 M4).
  - intros L. destruct M3 as [->|[_ D]]; [lia|]. destruct m as [|m]; [lia|]. replace (S m - 1)%nat with m by lia.
    match goal with |- context[traj ?p ?a ?b ?c ?d ?e ?f ?g ?h ?i ?j ?k ?l ?q ?r ?s ?t ?u ?v w0 m] => destruct (step_dynamics p a b c d e f g h i j k l q r s t u v (traj p a b c d e f g h i j k l q r s t u v w0 m)) as (E & _) end.
    match type of E with context[step ?x] => change (step x) with (traj p start_jd global_update att_propagate quaternion orb_propagate by_attitude thermal_propagate env_update generate_torque generate_force mass attr is_on main_routine fast_update power_off interference station_update w0 (S m)) in E end.
    rewrite E at 1. rewrite elapsed_at by exact H0. rewrite traj_tm by exact H0.
    destruct (flag_at p ka ko kt kc kl Hs Ha Ho Ht Hc Hl (S m) ltac:(lia)) as (F & _). rewrite F.
    apply Z.mod_divide in D; [|lia]. rewrite D. reflexivity.
Qed.

(** C156: the same for what the orbit holds apart from the body-frame velocity, which is refreshed with the attitude *)
Theorem C156_orbit : forall (P : Type) (pi : OB -> P), (forall q o, pi (by_attitude q o) = pi o) ->
  forall w, history w -> forall n, exists m, (m <= n)%nat /\ (Z.of_nat n - Z.of_nat m < ko)%Z /\
  (m = 0 \/ 1 <= m /\ (ko | Z.of_nat m + 1)%Z)%nat /\ (forall i, (m < i <= n)%nat -> ~ (ko | Z.of_nat i + 1)%Z) /\
  pi (orbit (sat (w n))) = pi (orbit (sat (w m))) /\
  ((1 <= m)%nat -> pi (orbit (sat (w m))) = pi (orb_propagate (glob (w m)) (INR m * step_sec _ p) (start_jd + INR m * step_sec _ p / 86400)
                                                 (acceleration (sat (w m))) (orbit (sat (w (m - 1)%nat))))).
Proof.
  intros P pi Hpi w HW n. assert (K : (1 <= ko)%Z) by apply Ho. destruct (last_due ko n K) as (m & M1 & M2 & M3 & M4). exists m.
  split; [exact M1|]. split; [exact M2|]. split; [exact M3|].
  split; [intros i Hi Dv; specialize (M4 i Hi); apply Z.mod_divide in Dv; [|lia]; rewrite Dv in M4; discriminate|].
  rewrite !(history_traj w HW). split.
  - exact (orbit_kept p start_jd global_update att_propagate quaternion orb_propagate by_attitude thermal_propagate env_update generate_torque generate_force mass attr is_on main_routine fast_update power_off interference station_update ka ko kt kc kl Hs Ha Ho Ht Hc Hl pi w0 m n Hpi H0 M1 M4).
  - intros L. destruct M3 as [->|[_ D]]; [lia|]. destruct m as [|m]; [lia|]. replace (S m - 1)%nat with m by lia.
    match goal with |- context[traj ?p ?a ?b ?c ?d ?e ?f ?g ?h ?i ?j ?k ?l ?q ?r ?s ?t ?u ?v w0 m] => destruct (step_dynamics p a b c d e f g h i j k l q r s t u v (traj p a b c d e f g h i j k l q r s t u v w0 m)) as (_ & E & _) end.
    match type of E with context[step ?x] => change (step x) with (traj p start_jd global_update att_propagate quaternion orb_propagate by_attitude thermal_propagate env_update generate_torque generate_force mass attr is_on main_routine fast_update power_off interference station_update w0 (S m)) in E end.
    rewrite E at 1. rewrite Hpi. rewrite elapsed_at by exact H0. rewrite traj_tm by exact H0.
    destruct (flag_at p ka ko kt kc kl Hs Ha Ho Ht Hc Hl (S m) ltac:(lia)) as (_ & F & _). rewrite F.
    apply Z.mod_divide in D; [|lia]. rewrite D. reflexivity.
Qed.

(** C156: the celestial bodies and the GNSS satellites in the world after n >= 1 updates are those of its own time; the
    local environment is computed with them, but from the orbit and the attitude one update earlier; the ground station
    sees the orbit and the attitude of its own time. *)
Theorem C156_environment : forall w, history w -> forall n, (1 <= n)%nat ->
  let t := INR n * step_sec _ p in
  glob (w n) = global_update t (start_jd + t / 86400) (glob (w (n - 1)%nat)) /\
  (exists i, elapsed_s i = t /\ current_jd i = start_jd + t / 86400 /\
    env (sat (w n)) = env_update (glob (w n)) i (orbit (sat (w (n - 1)%nat))) (attitude (sat (w (n - 1)%nat))) (env (sat (w (n - 1)%nat)))) /\
  station (w n) = station_update (glob (w n)) (orbit (sat (w n))) (attitude (sat (w n))) (cstate (comps (sat (w n)))) (station (w (n - 1)%nat)).
Proof.
  intros w HW n Hn t. destruct n as [|n]; [lia|]. replace (S n - 1)%nat with n by lia.
  pose proof (history_traj w HW (S n)) as T. assert (E : elapsed _ (tm (w (S n))) = t) by (rewrite T; now apply elapsed_at).
  destruct HW as [_ HW]. destruct (step_dynamics p start_jd global_update att_propagate quaternion orb_propagate by_attitude thermal_propagate env_update generate_torque generate_force mass attr is_on main_routine fast_update power_off interference station_update (w n)) as (_ & _ & _ & D1 & D2 & D3).
  rewrite <- HW in D1, D2, D3. rewrite E in D1. split; [exact D1|]. split; [|exact D3].
  exists (time_of start_jd (tm (w (S n)))). split; [exact E|]. split; [unfold time_of; cbn [current_jd]; now rewrite E|exact D2].
Qed.

(** C156: that a log row shows the attitude at the time in the row is refuted whenever attitude and log have the same
    period of k >= 2 steps: every row but the first shows the attitude of one step earlier. *)
Theorem C156_attitude_of_the_row_refuted : forall w, history w -> ka = kl -> (2 <= kl)%Z -> forall n, (1 <= n)%nat -> (kl | Z.of_nat n)%Z ->
  attitude (sat (w n)) = att_propagate (INR n * step_sec _ p - step_sec _ p) (torque (sat (w (n - 1)%nat))) (attitude (sat (w (n - 2)%nat))).
Proof.
  intros w HW E K n Hn D. destruct (C156_attitude w HW n) as (m & M1 & M2 & M3 & M4 & M5 & M6). rewrite E in *.
  assert (N2 : (kl <= Z.of_nat n)%Z) by (apply Z.divide_pos_le; [lia|exact D]).
  assert (m = n - 1)%nat.
  { destruct (Nat.eq_dec m (n - 1)) as [->|Nm]; [reflexivity|]. destruct (Nat.eq_dec m n) as [->|Nn].
    - exfalso. destruct M3 as [->|[_ M3]]; [lia|]. assert (Q : (kl | 1)%Z) by (replace 1%Z with (Z.of_nat n + 1 - Z.of_nat n)%Z by lia; now apply Z.divide_sub_r).
      apply Z.divide_1_r_nonneg in Q; lia.
    - exfalso. apply (M4 (n - 1)%nat); [lia|]. replace (Z.of_nat (n - 1) + 1)%Z with (Z.of_nat n) by lia. exact D. }
  subst m. rewrite M5, M6 by lia. replace (n - 1 - 1)%nat with (n - 2)%nat by lia. rewrite minus_INR by lia. f_equal. cbn [INR]. ring.
Qed.
End run.
Print Assumptions C156_rows.
Print Assumptions C155_routines_called.
Print Assumptions C155_count.
Print Assumptions C155_main_routine_times.
Print Assumptions C156_attitude.
Print Assumptions C156_orbit.
Print Assumptions C156_environment.
Print Assumptions C156_attitude_of_the_row_refuted.

(** The hypotheses are met: steps of 1/10 s, all periods 2/10 s (k = 2), end 1 s (N = 11), components 3 (prescaler 3) and
    5, the attitude being its own time. *)
Definition p_ex : params_R := @mkParams real_arith (1:R) (1/10:R) (2/10:R) (2/10:R) (2/10:R) (2/10:R) (2/10:R) (1:R).
Example ex_k2 : steps_per_interval (1/10) (2/10) 2.
Proof. unfold steps_per_interval. split; [lia|]. change (IZR (2-1)) with 1. lra. Qed.
Example ex_N11 : first_beyond (1/10) 1 11.
Proof. split; [cbn; lra|]. intros m H. do 11 (destruct m as [|m]; [cbn; lra|]). lia. Qed.
Definition w_ex : world Datatypes.unit R R Datatypes.unit Datatypes.unit Datatypes.unit Datatypes.unit Datatypes.unit :=
  mkWorld st_init tt (mkSc 0 (vconst 0) 0 (vconst 0) tt tt (mkCrew (mkClock [3; 5]%nat (Some 0%Z)) tt []) []) tt.
Definition attr_ex (id : nat) : attrs := mkAttrs (if Nat.eqb id 3 then 3 else 0) 1 false.
Definition step_ex := world_step p_ex 2460000 (fun _ _ g => g) (fun t _ _ => t) (fun _ => q4 0 0 0 1) (fun _ t _ _ _ => t) (fun _ o => o)
  (fun _ _ x => x) (fun _ _ _ _ e => e) (fun c => (vconst 0, c)) (fun c => (vconst 0, c)) (fun _ => 1) attr_ex (fun _ _ => true)
  (fun _ _ _ _ _ _ _ c => c) (fun _ _ _ _ _ _ c => c) (fun _ c => c) (fun c => c) (fun _ _ _ _ s => s) : world Datatypes.unit R R Datatypes.unit Datatypes.unit Datatypes.unit Datatypes.unit Datatypes.unit -> _.
(** component 3 runs in update 7 (the second time), and the row after 10 updates holds the attitude of time 0.9 *)
Example ex_run : let w := fun n => Nat.iter n step_ex w_ex in
  (exists k, In (3%nat, Main k) (called (comps (sat (w 7%nat))))) /\ attitude (sat (w 10%nat)) = 9 / 10.
Proof.
  intros w. assert (HW : history p_ex 2460000 (fun _ _ g => g) (fun t _ _ => t) (fun _ => q4 0 0 0 1) (fun _ t _ _ _ => t) (fun _ o => o)
  (fun _ _ x => x) (fun _ _ _ _ e => e) (fun c => (vconst 0, c)) (fun c => (vconst 0, c)) (fun _ => 1) attr_ex (fun _ _ => true)
  (fun _ _ _ _ _ _ _ c => c) (fun _ _ _ _ _ _ c => c) (fun _ c => c) (fun c => c) (fun _ _ _ _ s => s) w_ex w) by (split; reflexivity).
  assert (Hs : 0 < step_sec _ p_ex) by (cbn; lra).
  split.
  - eapply (C155_main_routine_times _ _ _ _ _ _ _ _ _ _ _ _ _ _ _ _ _ _ _ 2 2 2 2 2 Hs ex_k2 ex_k2 ex_k2 ex_k2 ex_k2 w_ex [3; 5]%nat eq_refl eq_refl ltac:(repeat constructor; cbn; intuition lia) w HW 7 3); [lia|now left|reflexivity|lia|].
    exists 1%Z. split; [lia|reflexivity].
  - pose proof (C156_attitude_of_the_row_refuted _ _ _ _ _ _ _ _ _ _ _ _ _ _ _ _ _ _ _ 2 2 2 2 2 Hs ex_k2 ex_k2 ex_k2 ex_k2 ex_k2 w_ex eq_refl w HW eq_refl ltac:(lia) 10 ltac:(lia) ltac:(exists 5%Z; reflexivity)) as E.
    rewrite E. cbn [INR p_ex]. cbn [step_sec p_ex]. lra.
Qed.
