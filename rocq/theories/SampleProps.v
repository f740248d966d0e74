(** C157: the sample spacecraft. *)
From Coq Require Import Reals Lra Lia ZArith Bool Arith Ascii String List.
From Verif Require Import Base RBase VecModel VecProofs QuatModel QuatSpec QuatProofs OrbitModel OrbitProofs DisturbanceModel DisturbanceSpec SimTimeModel ClockModel SpacecraftModel SpacecraftProps SimRunModel PowerPortModel StringModel CompInitModel CompInitSpec CompInitProps SampleModel.
From Coq Require Import List.
Import ListNotations.
Open Scope R_scope.

Lemma remove_first_mid l x r : ~ In x l -> remove_first (l ++ x :: r) x = l ++ r.
Proof.
  induction l as [|y l IH]; intros H; cbn [app remove_first].
  - now rewrite Nat.eqb_refl.
  - destruct (Nat.eqb_spec y x) as [->|]; [exfalso; apply H; now left|]. rewrite IH; [reflexivity|]. intros K. apply H. now right.
Qed.
Definition regs (attr : nat -> attrs) (ops : list cop) (l l' : list nat) : Prop := forall k, exists outs,
  crun attr (mkClock l k) ops = Ok (mkClock l' k, outs) /\ List.concat outs = [].
Lemma regs_nil attr l : regs attr [] l l.
Proof. intros k. exists []. split; reflexivity. Qed.
Lemma crun_app attr o1 : forall o2 c c1 u, crun attr c o1 = Ok (c1, u) -> crun attr c (o1 ++ o2) = (let! r := crun attr c1 o2 in Ok (fst r, u ++ snd r)).
Proof.
  induction o1 as [|o o1 IH]; intros o2 c c1 u H; cbn [crun app] in *.
  - injection H as -> <-. destruct (crun attr c1 o2) as [[a b]| | |]; reflexivity.
  - destruct (cstep attr c o) as [[c' e]| | |]; cbn [bind fst snd] in *; try discriminate.
    destruct (crun attr c' o1) as [[c'' es]| | |] eqn:E; cbn [bind fst snd] in H; try discriminate. injection H as -> <-.
    rewrite (IH o2 c' c1 es E). destruct (crun attr c1 o2) as [[a b]| | |]; reflexivity.
Qed.
Lemma regs_app attr o1 o2 l1 l2 l3 : regs attr o1 l1 l2 -> regs attr o2 l2 l3 -> regs attr (o1 ++ o2) l1 l3.
Proof.
  intros A B k. destruct (A k) as (u & Hu & Cu). destruct (B k) as (v & Hv & Cv). exists (u ++ v).
  rewrite (crun_app attr o1 o2 _ _ _ Hu), Hv. split; [reflexivity|now rewrite concat_app, Cu, Cv].
Qed.
Lemma regs_register attr id l : regs attr [Register id] l (l ++ [id]).
Proof. intros k. exists [[]]. split; reflexivity. Qed.
Lemma regs_moves attr l temps id : (forall x, In x temps -> ~ In x l) -> forall prev, ~ In prev l ->
  regs attr (moves prev (temps ++ [id])) (l ++ [prev]) (l ++ [id]).
Proof.
  induction temps as [|t temps IH]; intros H prev Hp; cbn [app moves].
  - intros k. exists [[]; []]. split; [|reflexivity]. cbn [crun cstep bind fst snd]. unfold ClockModel.remove, register. cbn [ClockModel.comps ClockModel.count].
    rewrite <- app_assoc. cbn [app]. rewrite remove_first_mid by exact Hp. reflexivity.
  - change (Register t :: Remove prev :: moves t (temps ++ [id])) with ([Register t; Remove prev] ++ moves t (temps ++ [id])).
    apply (regs_app attr _ _ _ (l ++ [t])).
    + intros k. exists [[]; []]. split; [|reflexivity]. cbn [crun cstep bind fst snd]. unfold ClockModel.remove, register. cbn [ClockModel.comps ClockModel.count].
      rewrite <- app_assoc. cbn [app]. rewrite remove_first_mid by exact Hp. reflexivity.
    + apply IH; [intros x Hx; apply H; now right|apply H; now left].
Qed.
Lemma regs_device attr l temps id : (forall x, In x temps -> ~ In x l) -> regs attr (build_device temps id) l (l ++ [id]).
Proof.
  intros H. unfold build_device. destruct temps as [|t temps]; [apply regs_register|]. cbn [app].
  change (Register t :: moves t (temps ++ [id])) with ([Register t] ++ moves t (temps ++ [id])).
  apply (regs_app attr _ _ _ (l ++ [t])); [apply regs_register|]. apply regs_moves; [intros x Hx; apply H; now right|apply H; now left].
Qed.

(** However many temporary objects the compiler makes of each device (distinct from the devices kept), the clock, cleared
    before, ends up with the sixteen devices, each once, in the order of their construction, and no routine has been called. *)
Theorem C157_registered : forall attr (temps : nat -> list nat), (forall i x, In x (temps i) -> (16 <= x)%nat) ->
  exists outs, crun attr clock_new (Clear :: build_all temps) = Ok (mkClock (seq 0 16) (Some 0%Z), outs) /\ List.concat outs = [].
Proof.
  intros attr temps H.
  assert (A : forall m j l, l = seq 0 j -> (j + m <= 16)%nat -> regs attr (flat_map (fun i => build_device (temps i) i) (seq j m)) l (seq 0 (j + m))).
  { induction m as [|m IH]; intros j l -> L; cbn [seq flat_map]; [rewrite Nat.add_0_r; apply regs_nil|].
    apply (regs_app attr _ _ _ (seq 0 j ++ [j])).
    - apply regs_device. intros x Hx K. apply in_seq in K. specialize (H j x Hx). lia.
    - replace (j + S m)%nat with (S j + m)%nat by lia. apply IH; [|lia]. now rewrite <- seq_S. }
  assert (B : regs attr (build_all temps) [] (seq 0 16)).
  { unfold build_all. change (Register 0 :: Register 1 :: ?x) with ([Register 0] ++ [Register 1] ++ x).
    apply (regs_app attr _ _ _ [0%nat]); [apply (regs_register attr 0 [])|]. apply (regs_app attr _ _ _ [0%nat; 1%nat]); [apply (regs_register attr 1 [0%nat])|].
    apply (A 14%nat 2%nat); [reflexivity|lia]. }
  destruct (B (Some 0%Z)) as (outs & E & K). exists ([] :: outs). split; [|exact K].
  cbn [crun cstep bind fst snd clock_new ClockModel.comps]. rewrite E. reflexivity.
Qed.
Print Assumptions C157_registered.

(** The on board computer has power; the gyro as its file says; the seven other devices of the power control unit share a port
    with the settings of the thruster's file: it is read last, and what the other six ask for leaves no trace. *)
Theorem C157_power : forall f : files,
  (exists p0, sample_port f 0 = Some p0 /\ is_on p0 = Some true /\ current_A p0 = 10 / 33) /\
  (forall (g : ini) (id : nat), (id = 1%nat /\ g = f_gyro f \/ id = 2%nat /\ g = f_thruster f) ->
     let vmin := value g (lit "POWER_PORT") "minimum_voltage_V" in
     let w := value g (lit "POWER_PORT") "assumed_power_consumption_W" in
     DBL_EPSILON < vmin ->
     exists q, sample_port f id = Some q /\
       (is_on q = Some true <-> vmin - DBL_EPSILON <= 33/10 /\ w / (33/10) < 1 - DBL_EPSILON) /\
       (is_on q = Some true -> current_A q * (33/10) = w)) /\
  (forall f', f_thruster f' = f_thruster f -> sample_port f' 2 = sample_port f 2).
Proof.
  intros f. assert (E0 : 0 < DBL_EPSILON < 1/10).
  { unfold DBL_EPSILON. split; [apply Rinv_0_lt_compat, pow_lt; lra|]. replace (1/10) with (/ 10) by lra. apply Rinv_lt_contravar; [|].
    - apply Rmult_lt_0_compat; [lra|apply pow_lt; lra].
    - cbn [pow]. lra. }
  split; [|split].
  - eexists. split; [reflexivity|]. unfold set_voltage, update, port_full. cbn [limit_A min_V power_W voltage_V current_A is_on fst]. unfold Rgeb.
    destruct (Rle_dec (33 / 10 - DBL_EPSILON) (33 / 10)); [|lra]. cbn [current_A limit_A].
    destruct (Rle_dec (1 / 2 - DBL_EPSILON) (1 / (33 / 10))) as [L|L]; [lra|]. cbn [is_on current_A]. split; [reflexivity|lra].
  - intros g id Hg vmin w Hv.
    assert (Q : forall q, limit_A q = 1 -> let s := fst (set_voltage (port_from_file g q) (33/10)) in
       (is_on s = Some true <-> vmin - DBL_EPSILON <= 33/10 /\ w / (33/10) < 1 - DBL_EPSILON) /\ (is_on s = Some true -> current_A s * (33/10) = w)).
    { intros q Lq. destruct (C139_power_port g q (33/10) Hv) as (A & B & D). fold vmin w in A, B, D. rewrite Lq in B, D. cbv zeta.
      set (s := fst (set_voltage (port_from_file g q) (33 / 10))) in *.
      destruct (Rlt_le_dec (33/10) (vmin - DBL_EPSILON)) as [L|L].
      - rewrite (A L). split; [split; [discriminate|intros [? _]; lra]|discriminate].
      - destruct (Rlt_le_dec (w / (33/10)) (1 - DBL_EPSILON)) as [M|M].
        + destruct (B L M) as (B1 & _ & B3). split; [split; [intros _; now split|intros _; exact B1]|intros _; exact B3].
        + destruct (D L M) as (D1 & _). rewrite D1. split; [split; [discriminate|intros [_ ?]; lra]|discriminate]. }
    destruct Hg as [[-> ->]|[-> ->]]; eexists; (split; [reflexivity|]); apply Q; reflexivity.
  - intros f' E. unfold sample_port. rewrite E. reflexivity.
Qed.
Print Assumptions C157_power.

(** That the shared port draws what its devices together ask for is refuted: seven devices of 1 W each. *)
Theorem C157_shared_power_refuted : exists f : files,
  (forall g, In g [f_magnetometer f; f_stt f; f_ss f; f_gnss f; f_mtq f; f_rw f; f_thruster f] ->
     value g (lit "POWER_PORT") "assumed_power_consumption_W" = 1 /\ value g (lit "POWER_PORT") "minimum_voltage_V" = 3) /\
  exists q, sample_port f 2 = Some q /\ is_on q = Some true /\ current_A q * (33/10) = 1.
Proof.
  pose (g := mkIni (fun _ _ => []) (fun _ key => if str_eqb key (lit "minimum_voltage_V") then 3 else 1) (fun _ _ => 0%Z) (fun _ _ => false)).
  assert (Eg : value g (lit "POWER_PORT") "assumed_power_consumption_W" = 1 /\ value g (lit "POWER_PORT") "minimum_voltage_V" = 3) by (split; reflexivity).
  exists (mkFiles g g g g g g g g). split.
  - intros h Hh. cbn [f_magnetometer f_stt f_ss f_gnss f_mtq f_rw f_thruster In] in Hh. intuition (subst; assumption).
  - destruct (C157_power (mkFiles g g g g g g g g)) as (_ & P & _). specialize (P g 2%nat (or_intror (conj eq_refl eq_refl))). cbv zeta in P.
    destruct Eg as [E1 E2]. rewrite E1, E2 in P.
    assert (E0 : 0 < DBL_EPSILON < 1/10).
    { unfold DBL_EPSILON. split; [apply Rinv_0_lt_compat, pow_lt; lra|]. replace (1/10) with (/ 10) by lra. apply Rinv_lt_contravar; [|].
      - apply Rmult_lt_0_compat; [lra|apply pow_lt; lra].
      - cbn [pow]. lra. }
    destruct P as (q & Q1 & Q2 & Q3); [lra|]. exists q. assert (Q : is_on q = Some true) by (apply Q2; lra). split; [exact Q1|]. split; [exact Q|]. now apply Q3.
Qed.
Print Assumptions C157_shared_power_refuted.

Section forces.
Context {AT OB TH ENV C X : Type}.
Context (att_propagate : R -> vec -> AT -> AT) (quaternion : AT -> quat)
  (orb_propagate : R -> R -> vec -> OB -> OB) (by_attitude : quat -> OB -> OB)
  (thermal_propagate : ENV -> R -> TH -> TH)
  (env_update : time_info -> OB -> AT -> ENV -> ENV)
  (components_update : time_info -> OB -> AT -> ENV -> C -> C) (mass : C -> R)
  (mtq_torque rw_torque thruster_torque generator_torque thruster_force generator_force : C -> vec).
Notation step := (spacecraft_update att_propagate quaternion orb_propagate by_attitude thermal_propagate env_update components_update
  (sample_torque mtq_torque rw_torque thruster_torque generator_torque) (sample_force thruster_force generator_force) mass).
(** The attitude of the sample spacecraft is turned by the disturbances, the magnetorquer, the wheel, the thruster and the
    torque generator - what each gives after the components were updated in this step - and its orbit bent by the disturbances, the
    thruster and the force generator; each once. *)
Theorem C157_forces_and_torques : forall t (s : spacecraft AT OB TH ENV C X),
  let e := env_update t (orbit s) (attitude s) (env s) in
  let tot := snd (update_all (orb_flag t) (att_flag t) (e, orbit s, attitude s) (dist s)) in
  let c := components_update t (orbit s) (attitude s) e (comps s) in
  exists tau acc,
    veq 3 tau (fun i => tot_torque tot i + mtq_torque c i + rw_torque c i + thruster_torque c i + generator_torque c i) /\
    veq 3 acc (fun i => tot_acc tot i +
      mvec 3 (mtrans (to_dcm (quaternion (attitude s)))) (fun j => tot_force tot j + thruster_force c j + generator_force c j) i / mass c) /\
    attitude (step t s) = (if att_flag t then att_propagate (elapsed_s t) tau (attitude s) else attitude s) /\
    orbit (step t s) = by_attitude (quaternion (attitude (step t s)))
      (if orb_flag t then orb_propagate (elapsed_s t) (current_jd t) acc (orbit s) else orbit s) /\
    comps (step t s) = c.
Proof.
  intros t s e tot c.
  pose proof (C80_one_step att_propagate quaternion orb_propagate by_attitude thermal_propagate env_update components_update
    (sample_torque mtq_torque rw_torque thruster_torque generator_torque) (sample_force thruster_force generator_force) mass t s) as H.
  cbv zeta in H. fold e in H. fold c in H. unfold tot. destruct (update_all (orb_flag t) (att_flag t) (e, orbit s, attitude s) (dist s)) as [ds tt].
  cbn [snd]. cbn [sample_torque sample_force] in H. unfold sample_torque at 1, sample_force at 1 in H.
  destruct H as (tau & acc & H1 & H2 & H3 & H4 & _ & _ & H5 & _). exists tau, acc.
  split; [|split; [|split; [exact H3|split; [exact H4|exact H5]]]].
  - intros i Hi. rewrite (H1 i Hi). unfold vadd, vconst. ring.
  - intros i Hi. rewrite (H2 i Hi). unfold mvec. cbn [sumn]. unfold vadd, vconst, Rdiv. ring.
Qed.
End forces.
Print Assumptions C157_forces_and_torques.

(** Hypotheses: temporaries at other addresses, e.g. one for each device at the same address. *)
Example ex_temps : forall i x, In x ((fun i : nat => if Nat.even i then [99%nat] else [99; 100]%nat) i) -> (16 <= x)%nat.
Proof. intros i x. cbn. destruct (Nat.even i); cbn; intuition lia. Qed.
Example ex_built : exists outs, crun (fun _ => mkAttrs 1 1 false) clock_new (Clear :: build_all (fun i : nat => if Nat.even i then [99%nat] else [99; 100]%nat)) = Ok (mkClock (seq 0 16) (Some 0%Z), outs).
Proof. eexists. vm_compute. reflexivity. Qed.
