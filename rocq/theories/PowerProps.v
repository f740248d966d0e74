(** C39, C43, C50: battery, power control unit, scenario lookup, solar array panel. *)
From Coq Require Import Reals Lra Lia List Bool ZArith.
From Verif Require Import Base RBase VecModel VecProofs PowerModel PowerSpec PowerProofs.
Import ListNotations.
Open Scope R_scope.

(** C39: depth of discharge is the initial one minus the integral of the charge current over the
    capacity, for every history of currents; the voltage is the discharge curve at that depth. *)
Theorem C39_depth_of_discharge : forall b i currents,
  capacity_Ah b <> 0 -> n_parallel b <> 0%Z -> charge_current b = Some i ->
  exists b', battery_run b currents = Ok b' /\
    dod b' = dod b - charge_sum i currents * (step_s b * IZR (prescaler b)) / 3600 / (capacity_Ah b * IZR (n_parallel b)) * 100 /\
    (currents <> [] -> bat_voltage b' = Some (polynomial (curve b) (dod b' / 100 * capacity_Ah b) * IZR (n_series b))).
Proof.
  intros b i currents H1 H2 H3. destruct (battery_run_spec currents b i H1 H2 H3) as (b' & E & D & _ & _ & _ & V). eauto.
Qed.
Print Assumptions C39_depth_of_discharge.

(** C39 (not a bug in the bookkeeping, but a missing limit): nothing keeps the depth of discharge
    within 0..100 %. *)
Theorem C39_dod_unbounded_refuted : forall b bound,
  0 < capacity_Ah b -> (0 < n_parallel b)%Z -> 0 < step_s b -> (0 < prescaler b)%Z -> charge_current b = Some 1 ->
  exists n b', battery_run b (repeat None n) = Ok b' /\ dod b' < bound.
Proof.
  intros b bound HC HN HS HP HI.
  set (d := step_s b * IZR (prescaler b) / 3600 / (capacity_Ah b * IZR (n_parallel b)) * 100).
  apply (IZR_lt 0) in HN as HN'. apply (IZR_lt 0) in HP as HP'.
  assert (Hd : 0 < d).
  { unfold d, Rdiv. repeat apply Rmult_lt_0_compat; try lra. apply Rinv_0_lt_compat, Rmult_lt_0_compat; lra. }
  destruct (nat_above ((dod b - bound) / d)) as [n Hn]. exists n.
  destruct (battery_run_spec (repeat None n) b 1 ltac:(lra) ltac:(lia) HI) as (b' & E & D & _). exists b'. split; [exact E|].
  assert (S : forall m, charge_sum 1 (repeat None m) = INR m).
  { clear. induction m as [|k IH]; [reflexivity|]. cbn [repeat charge_sum]. rewrite IH, S_INR. ring. }
  rewrite S in D. rewrite D.
  replace (INR n * (step_s b * IZR (prescaler b)) / 3600 / (capacity_Ah b * IZR (n_parallel b)) * 100) with (INR n * d)
    by (unfold d, Rdiv; ring).
  assert ((dod b - bound) / d * d < INR n * d) by (apply Rmult_lt_compat_r; assumption).
  replace ((dod b - bound) / d * d) with (dod b - bound) in H by (field; lra). lra.
Qed.
Print Assumptions C39_dod_unbounded_refuted.

(** C39: running a battery that was built by its constructor and never given a current reads an
    uninitialised member; one that went through the copy constructor is fine. *)
Theorem C39_uninitialised_current_refuted : forall pre ns np cap coef d0 cr cv res dt t,
  battery_run (battery_new pre ns np cap coef d0 cr cv res dt) (None :: t) = UB /\
  charge_current (battery_copy (battery_new pre ns np cap coef d0 cr cv res dt)) = Some 0 /\
  bat_voltage (battery_copy (battery_new pre ns np cap coef d0 cr cv res dt)) = Some (polynomial coef (d0 / 100 * cap) * IZR ns).
Proof.
  intros. split; [reflexivity|]. split; [reflexivity|]. cbn. rewrite curve_from_poly. f_equal. cbn [pow]. ring.
Qed.
Print Assumptions C39_uninitialised_current_refuted.

(** C39: the charge current chosen is the least of the constant-current limit, the current that
    brings the bus to the constant-voltage limit, and the "natural" current at which the power
    balance closes; the bus voltage is battery voltage plus resistive drop.  Hence the bus never
    exceeds the constant-voltage limit and the current never the constant-current limit. *)
Theorem C39_charge_current_rule : forall v res cc cv gen cons, 0 < res ->
  let surplus := fold_left Rplus gen 0 - cons in
  0 <= v * v + 4 * res * surplus ->
  exists natural current bus,
    pcu_update v res cc cv gen cons = (current, bus) /\
    (v + res * natural) * natural = surplus /\ 0 <= v + 2 * res * natural /\
    current = Rmin (Rmin natural cc) ((cv - v) / res) /\
    bus = v + res * current /\ bus <= cv /\ current <= cc.
Proof.
  intros v res cc cv gen cons HR p HD.
  pose proof (pcu_char v res cc cv gen cons HR HD) as [C B]. fold p in C.
  set (nat := (- v + sqrt (v * v + 4 * res * p)) / (2 * res)) in *.
  exists nat, (fst (pcu_update v res cc cv gen cons)), (snd (pcu_update v res cc cv gen cons)).
  split; [apply surjective_pairing|]. split; [now apply natural_balance|]. split.
  { unfold nat. replace (v + 2 * res * ((- v + sqrt (v * v + 4 * res * p)) / (2 * res))) with (sqrt (v * v + 4 * res * p)) by (field; lra).
    apply sqrt_pos. }
  split; [exact C|]. split; [exact B|]. rewrite B, C. split.
  - assert (Rmin (Rmin nat cc) ((cv - v) / res) <= (cv - v) / res) by apply Rmin_r.
    assert (res * Rmin (Rmin nat cc) ((cv - v) / res) <= res * ((cv - v) / res)) by (apply Rmult_le_compat_l; lra).
    replace (res * ((cv - v) / res)) with (cv - v) in H0 by (field; lra). lra.
  - eapply Rle_trans; [apply Rmin_l|apply Rmin_r].
Qed.
Print Assumptions C39_charge_current_rule.

(** C39: charging never takes more power from the bus than is available. *)
Theorem C39_charge_power_available : forall v res cc cv gen cons, 0 < res -> 0 <= v ->
  let surplus := fold_left Rplus gen 0 - cons in
  let r := pcu_update v res cc cv gen cons in
  0 <= v * v + 4 * res * surplus -> 0 <= fst r -> snd r * fst r <= surplus.
Proof.
  intros v res cc cv gen cons HR HV p r HD HI.
  destruct (C39_charge_current_rule v res cc cv gen cons HR HD) as (nt & cur & bus & E & B & S & C & U & _).
  unfold r in *. rewrite E in *. cbn [fst snd] in *. fold p in B. rewrite U, <- B.
  assert (cur <= nt) by (rewrite C; eapply Rle_trans; [apply Rmin_l|apply Rmin_l]).
  apply Rmult_le_compat; try nra.
Qed.
Print Assumptions C39_charge_power_available.

(** C39 (violated): when the load exceeds what battery and array can deliver, the square root is
    NaN, every comparison fails and the unit "charges" the battery at constant voltage: under
    overload the battery gains charge. *)
Theorem C39_overload_charges_battery_refuted : forall v res cc cv gen cons, 0 < res -> v < cv ->
  v * v + 4 * res * (fold_left Rplus gen 0 - cons) < 0 ->
  pcu_update v res cc cv gen cons = ((cv - v) / res, v + res * (cv - v) / res) /\ 0 < (cv - v) / res.
Proof.
  intros v res cc cv gen cons HR HV HD. unfold pcu_update, sqrt_d. rewrite rlt_true by exact HD.
  split; [reflexivity|]. apply Rdiv_lt_0_compat; lra.
Qed.
Print Assumptions C39_overload_charges_battery_refuted.

(** C43: after loading a scenario (of rows long enough for the column) the value at time t is the
    one in force: the last row, among those at or before t, with the latest time. *)
Theorem C43_scenario_lookup : forall col rows,
  Forall (fun r => (col < length r)%nat /\ (0 < length r)%nat) rows ->
  exists m, store_buffer col rows [] = Ok m /\
    forall t, (before_all (column col rows) t /\ get_value m t = UB) \/
              (exists v, get_value m t = Ok v /\ in_force (column col rows) t v).
Proof.
  intros col rows F. destruct (proj1 (store_buffer_spec col rows [] [] represents_nil) F) as (m & E & [S H]).
  exists m. split; [exact E|]. intros t. rewrite get_value_lookup. specialize (H t). cbn [app] in H.
  destruct (lookup_le m t) as [[k v]|]; [right|left; auto].
  destruct H as (pre & post & Q). exists v. split; [reflexivity|]. exists pre, k, post. exact Q.
Qed.
Print Assumptions C43_scenario_lookup.

(** C43: a row shorter than the column index (or empty) is read out of bounds. *)
Theorem C43_short_row_refuted : forall col rows,
  ~ Forall (fun r => (col < length r)%nat /\ (0 < length r)%nat) rows -> store_buffer col rows [] = UB.
Proof. intros col rows. apply (proj2 (store_buffer_spec col rows [] [] represents_nil)). Qed.
Print Assumptions C43_short_row_refuted.

(** C43: the buffers are static and never cleared: initialising a second time looks values up in
    the first and the second scenario together. *)
Theorem C43_reinitialise_merges : forall col rows1 rows2,
  Forall (fun r => (col < length r)%nat /\ (0 < length r)%nat) (rows1 ++ rows2) ->
  exists m1 m2, store_buffer col rows1 [] = Ok m1 /\ store_buffer col rows2 m1 = Ok m2 /\
    forall t v, get_value m2 t = Ok v -> in_force (column col rows1 ++ column col rows2) t v.
Proof.
  intros col rows1 rows2 F. apply Forall_app in F. destruct F as [F1 F2].
  destruct (proj1 (store_buffer_spec col rows1 [] [] represents_nil) F1) as (m1 & E1 & H1).
  destruct (proj1 (store_buffer_spec col rows2 m1 _ H1) F2) as (m2 & E2 & [S H2]).
  exists m1, m2. split; [exact E1|]. split; [exact E2|]. intros t v. rewrite get_value_lookup. specialize (H2 t). cbn [app] in H2.
  destruct (lookup_le m2 t) as [[k v']|]; [|discriminate]. intros [= <-].
  destruct H2 as (pre & post & Q). exists pre, k, post. exact Q.
Qed.
Print Assumptions C43_reinitialise_merges.

(** C50: generated power is never negative, never more than efficiency * incident power, and zero
    whenever the sun is behind the panel. *)
Theorem C50_solar_panel_power : forall eff trans density area np ns normal sun,
  0 <= eff -> 0 <= trans -> 0 <= density -> 0 <= area -> (0 <= np)%Z -> (0 <= ns)%Z ->
  let p := sap_power eff trans density area np ns normal sun in
  0 <= p <= eff * trans * density * area * IZR np * IZR ns /\
  (dot 3 normal sun <= 0 -> p = 0) /\
  (0 <= dot 3 normal sun -> norm 3 normal <> 0 -> norm 3 sun <> 0 ->
     p = eff * trans * density * area * IZR np * IZR ns * (dot 3 normal sun / (norm 3 normal * norm 3 sun))).
Proof.
  intros eff trans density area np ns normal sun H1 H2 H3 H4 H5 H6 p.
  apply (IZR_le 0) in H5. apply (IZR_le 0) in H6.
  set (K := eff * trans * density * area * IZR np * IZR ns).
  assert (HK : 0 <= K) by (unfold K; repeat apply Rmult_le_pos; assumption).
  set (c := dot 3 (normalize 3 normal) (normalize 3 sun)).
  assert (P : p = if rlt (K * c) 0 then 0 else K * c) by reflexivity.
  pose proof (dot_normalized 3 normal sun) as C. fold c in C. apply Rabs_le_both in C.
  assert (D : norm 3 normal <> 0 -> norm 3 sun <> 0 -> c = dot 3 normal sun / (norm 3 normal * norm 3 sun)).
  { intros N1 N2. unfold c, normalize. rewrite !req_false by assumption. unfold dot, vdiv, vscal. rewrite !sumn3. field. auto. }
  split; [|split].
  - rewrite P. destruct (rlt_spec (K * c) 0); [lra|]. split; [lra|].
    rewrite <- (Rmult_1_r K) at 2. apply Rmult_le_compat_l; lra.
  - intros L. assert (c <= 0).
    { destruct (Req_dec (norm 3 normal) 0) as [Z|N1].
      - unfold c, dot. rewrite sumn_0; [lra|]. intros i Hi. unfold normalize at 1. rewrite req_true by exact Z.
        rewrite (norm_0 3 normal Z i Hi). ring.
      - destruct (Req_dec (norm 3 sun) 0) as [Z|N2].
        + unfold c, dot. rewrite sumn_0; [lra|]. intros i Hi. unfold normalize at 2. rewrite req_true by exact Z.
          rewrite (norm_0 3 sun Z i Hi). ring.
        + rewrite D by assumption. pose proof (norm_nonneg 3 normal). pose proof (norm_nonneg 3 sun).
          assert (0 < norm 3 normal * norm 3 sun) by (apply Rmult_lt_0_compat; lra).
          unfold Rdiv. assert (0 < / (norm 3 normal * norm 3 sun)) by (apply Rinv_0_lt_compat; assumption). nra. }
    rewrite P. destruct (rlt_spec (K * c) 0); nra.
  - intros L N1 N2. rewrite P, <- D by assumption. destruct (rlt_spec (K * c) 0) as [X|]; [|reflexivity].
    exfalso. assert (0 <= c); [|nra]. rewrite D by assumption.
    pose proof (norm_nonneg 3 normal). pose proof (norm_nonneg 3 sun).
    apply Rmult_le_pos; [exact L|]. apply Rlt_le, Rinv_0_lt_compat, Rmult_lt_0_compat; lra.
Qed.
Print Assumptions C50_solar_panel_power.

(** Non-vacuity *)
Definition ex_battery : battery := battery_copy (battery_new 1 8 2 2 [4; -1] 10 (1/2) 33 (1/10) (1/10)).
Example ex_battery_ok : capacity_Ah ex_battery <> 0 /\ n_parallel ex_battery <> 0%Z /\ charge_current ex_battery = Some 0.
Proof. cbn. repeat split; try lra; lia. Qed.
Example ex_pcu : 0 <= 30 * 30 + 4 * (1/10) * (fold_left Rplus [3; 4] 0 - 5).
Proof. cbn. lra. Qed.
Example ex_pcu_overload : 30 * 30 + 4 * (1/10) * (fold_left Rplus [3; 4] 0 - 5000) < 0.
Proof. cbn. lra. Qed.
Example ex_csv : Forall (fun r : list R => (5 < length r)%nat /\ (0 < length r)%nat) [[0;1;0;0;1;5]; [10;1;0;0;1;7]].
Proof. repeat constructor; cbn; lia. Qed.
Example ex_csv_v : exists m, store_buffer 5 [[0;1;0;0;1;5]; [10;1;0;0;1;7]] [] = Ok m /\ get_value m 3 = Ok 5.
Proof.
  eexists. split; [cbn; reflexivity|]. rewrite get_value_lookup. cbn.
  destruct (rlt_spec 10 0); [lra|]. destruct (rlt_spec 0 10); [|lra]. cbn.
  destruct (rlt_spec 3 0); [lra|]. destruct (rlt_spec 3 10); [reflexivity|lra].
Qed.
