(** C171: temperatures of a thermal network stay within bounds, and in order. *)
From Coq Require Import Reals Lra Lia List Bool Arith ZArith.
From Verif Require Import Base RBase VecModel OdeModel SensorModel ThermalModel ThermalSpec ThermalProofs ThermalProps HeatSpec HeatProofs.
Import ListNotations.
Open Scope R_scope.

(** C171: whatever the sequence of Propagate calls and whatever the (stateful) heat loads do, as long
    as no load warms a node faster than q2 K/s or cools it faster than q1 K/s and the steps are mild at
    the temperatures that can occur: the calls return, arrive at the last time asked for, and every
    temperature lies between the coldest initial one - q1 (elapsed) and the hottest + q2 (elapsed). *)
Theorem C171_temperature_bounds : forall (S : Type) (load : S -> R -> vec * S) net q1 q2 step t0 T lo hi calls,
  passive net -> loads_within load net q1 q2 -> 0 <= q1 -> 0 <= q2 -> 0 < step -> in_order t0 calls ->
  let elapsed := last_time t0 calls - t0 in
  mild_step net (step + 1 / 10 ^ 6) (hi + q2 * elapsed) -> 0 <= lo - q1 * elapsed -> lo <= hi ->
  (forall i, (i < node_num net)%nat -> lo <= T i <= hi) ->
  exists fuel, forall fuel', (fuel <= fuel')%nat -> exists T', thermal_run load net fuel' step T t0 calls = Ok (T', last_time t0 calls) /\
    forall i, (i < node_num net)%nat -> lo - q1 * elapsed <= T' i <= hi + q2 * elapsed.
Proof.
  intros S load net q1 q2 step t0 T lo hi calls PA L Q1 Q2 S0 O elapsed MS LO ORD I.
  assert (EX : forall (calls : list (R * S)) T t, exists fuel, forall fuel', (fuel <= fuel')%nat -> exists T', thermal_run load net fuel' step T t calls = Ok (T', last_time t calls)).
  { clear - S0. induction calls as [|[x s] l IH]; intros T t; [exists 0%nat; intros; now exists T|]. destruct (C51_propagate_time S load net step x s T t S0) as (f1 & P1).
    destruct (P1 f1 (le_n _)) as (s1 & T1 & E1 & _). destruct (IH T1 x) as (f2 & P2). exists (f1 + f2)%nat. intros f' Hf. destruct (P1 f' ltac:(lia)) as (s2 & T2 & E2 & _).
    assert (X : (s2, T2) = (s1, T1)).
    { unfold propagate in E1, E2. destruct (propagate_loop load net f1 step x s T t) as [[[sa Ta] ta]| | |] eqn:F1; cbn [bind] in E1; try discriminate.
      assert (M : forall f s T t r, propagate_loop load net f step x s T t = Ok r -> forall g, (f <= g)%nat -> propagate_loop load net g step x s T t = Ok r).
      { clear. induction f as [|f IH]; intros s T t r E g G; [discriminate|]. destruct g as [|g]; [lia|]. cbn [propagate_loop] in *. destruct (rlt _ _); [|exact E].
        destruct (runge_one_step load net s T t step). apply (IH _ _ _ _ E). lia. }
      rewrite (M _ _ _ _ _ F1 f' ltac:(lia)) in E2. cbn [bind] in E2. destruct (runge_one_step load net sa Ta ta (x - ta)). injection E1 as <- <-. injection E2 as <- <-. reflexivity. }
    injection X as -> ->. cbn [thermal_run last_time]. rewrite E2. cbn [bind]. apply P2. lia. }
  destruct (EX calls T t0) as (fuel & P). exists fuel. intros f' Hf. destruct (P f' Hf) as (T' & E). exists T'. split; [exact E|].
  pose proof (within_run load net PA q1 q2 L Q1 Q2 step (hi + q2 * elapsed) t0 (last_time t0 calls) lo hi (Rlt_le _ _ S0) MS LO (Rle_refl _) ORD f' calls T t0 T' (last_time t0 calls) (Rle_refl _) O (Rle_refl _)) as W.
  destruct W as (_ & W); [|exact E|exact W]. intros i Hi. specialize (I i Hi). lra.
Qed.
Print Assumptions C171_temperature_bounds.

(** C171: without loads no node ever becomes hotter than the hottest or colder than the coldest was. *)
Theorem C171_no_load_no_extremes : forall net step t0 T lo hi (calls : list (R * unit)),
  passive net -> 0 < step -> in_order t0 calls -> mild_step net (step + 1 / 10 ^ 6) hi -> 0 <= lo <= hi ->
  (forall i, (i < node_num net)%nat -> lo <= T i <= hi) ->
  exists fuel, forall fuel', (fuel <= fuel')%nat -> exists T', thermal_run (fun s _ => ((fun _ => 0), s)) net fuel' step T t0 calls = Ok (T', last_time t0 calls) /\
    forall i, (i < node_num net)%nat -> lo <= T' i <= hi.
Proof.
  intros net step t0 T lo hi calls PA S0 O MS (LO & ORD) I.
  destruct (C171_temperature_bounds unit (fun s _ => ((fun _ => 0), s)) net 0 0 step t0 T lo hi calls PA) as (fuel & P); try assumption; try lra.
  - intros s t i Hi D. cbn [fst]. lra.
  - rewrite Rmult_0_l, Rplus_0_r. exact MS.
  - exists fuel. intros f' Hf. destruct (P f' Hf) as (T' & E & B). exists T'. split; [exact E|]. intros i Hi. specialize (B i Hi). rewrite !Rmult_0_l in B. lra.
Qed.
Print Assumptions C171_no_load_no_extremes.

(** C171: of two runs of the same network over the same call times, the one that starts nowhere colder
    and whose loads are nowhere smaller is nowhere colder at the end. *)
Theorem C171_ordered : forall (S1 S2 : Type) (load1 : S1 -> R -> vec * S1) (load2 : S2 -> R -> vec * S2) net q1 q2 step t0 T U lo hi calls1 calls2 fuel T' t1 U' t2,
  passive net -> loads_within load1 net q1 q2 -> loads_within load2 net q1 q2 -> 0 <= q1 -> 0 <= q2 -> 0 < step ->
  (forall s1 s2 t i, (i < node_num net)%nat -> fst (load1 s1 t) i <= fst (load2 s2 t) i) ->
  map fst calls1 = map fst calls2 -> in_order t0 calls1 ->
  let elapsed := last_time t0 calls1 - t0 in
  mild_step net (step + 1 / 10 ^ 6) (hi + q2 * elapsed) -> 0 <= lo - q1 * elapsed -> lo <= hi ->
  (forall i, (i < node_num net)%nat -> lo <= T i /\ T i <= U i /\ U i <= hi) ->
  thermal_run load1 net fuel step T t0 calls1 = Ok (T', t1) -> thermal_run load2 net fuel step U t0 calls2 = Ok (U', t2) ->
  forall i, (i < node_num net)%nat -> T' i <= U' i.
Proof.
  intros S1 S2 load1 load2 net q1 q2 step t0 T U lo hi calls1 calls2 fuel T' t1 U' t2 PA L1 L2 Q1 Q2 S0 LL ME O elapsed MS LO ORD I E1 E2.
  apply (both_run load1 load2 net PA (fun s1 s2 t i Hi _ => LL s1 s2 t i Hi) q1 q2 L1 L2 Q1 Q2 step (hi + q2 * elapsed) t0 (last_time t0 calls1) lo hi (Rlt_le _ _ S0) MS LO (Rle_refl _) ORD fuel calls1 calls2 T U t0 T' t1 U' t2 ME (Rle_refl _) O (Rle_refl _)); try assumption; intros i Hi; specialize (I i Hi); lra.
Qed.
Print Assumptions C171_ordered.

(** C171 (defect): the step width is not limited.  A node of capacity C tied to a boundary by a conductance G,
    stepped with width h: the distance from the boundary is multiplied by 1 - h G / C in every call. *)
Definition beside_boundary (C G : R) : network :=
  mkNetwork 2 (fun i => match i with 0%nat => Diffusive | _ => Boundary end) (fun _ => C) (fun _ => 0%nat) (fun i j => if Nat.eqb i j then 0 else G) (fun _ _ => 0).
Fixpoint calls_every (h t : R) (n : nat) : list (R * unit) := match n with 0%nat => [] | S k => (t + h, tt) :: calls_every h (t + h) k end.
Theorem C171_step_factor : forall C G h n t T, 0 < C -> 0 <= h ->
  exists T', thermal_run (fun s _ => ((fun _ => 0), s)) (beside_boundary C G) 1 h T t (calls_every h t n) = Ok (T', t + INR n * h) /\
    T' 1%nat = T 1%nat /\ T' 0%nat - T 1%nat = (1 - h * G / C) ^ n * (T 0%nat - T 1%nat).
Proof.
  intros C G h n. induction n as [|n IH]; intros t T C0 H0.
  - exists T. cbn [calls_every thermal_run INR]. split; [f_equal; f_equal; ring|]. split; [reflexivity|cbn [pow]; ring].
  - cbn [calls_every thermal_run]. unfold propagate. cbn [propagate_loop]. unfold rlt. destruct (Rlt_dec _ _) as [X|X].
    { exfalso. assert (0 < 1 / 10 ^ 6) by (apply Rdiv_lt_0_compat; [lra|apply pow_lt; lra]). lra. }
    cbn [bind]. replace (t + h - t) with h by ring.
    pose proof (C51_step_is_euler (beside_boundary C G) (fun _ => 0) tt T t h 0%nat eq_refl) as A0.
    destruct (step_form (fun (s : unit) (_ : R) => ((fun _ => 0) : vec, s)) (beside_boundary C G) tt T t h) as (_ & _ & _ & A1).
    specialize (A1 1%nat ltac:(discriminate)). destruct (runge_one_step _ (beside_boundary C G) tt T t h) as [T1 []]. cbn [fst bind] in *.
    destruct (IH (t + h) T1 C0 H0) as (T' & E & E1 & E0). exists T'. split; [rewrite E, S_INR; f_equal; f_equal; ring|]. split; [congruence|].
    rewrite <- A1, E0, A1, A0. unfold heat_flow. cbn [beside_boundary node_num conductance radiation capacity sumn Nat.eqb pow]. field. lra.
Qed.
Print Assumptions C171_step_factor.
Theorem C171_every_step_width_refuted : ~ (forall net step t0 T lo hi (calls : list (R * unit)) fuel T' t',
  passive net -> 0 < step -> in_order t0 calls -> 0 <= lo <= hi -> (forall i, (i < node_num net)%nat -> lo <= T i <= hi) ->
  thermal_run (fun s _ => ((fun _ => 0), s)) net fuel step T t0 calls = Ok (T', t') -> forall i, (i < node_num net)%nat -> lo <= T' i <= hi).
Proof.
  intros H. destruct (C171_step_factor 1 1 3 2 0 (fun i => match i with 0%nat => 300 | _ => 290 end) ltac:(lra) ltac:(lra)) as (T' & E & E1 & E0).
  assert (X : 290 <= T' 0%nat <= 300).
  { refine (H (beside_boundary 1 1) 3 0 _ 290 300 _ 1%nat T' _ _ _ _ _ _ E 0%nat _); try lra; try (cbn; lia).
    - intros i Hi. cbn in *. split; [intros; lra|]. intros j Hj N. destruct (Nat.eqb_spec i j); [contradiction|lra].
    - cbn. lra.
    - intros [|[|i]] Hi; cbn in *; lra. }
  cbn in E0. lra.
Qed.
Print Assumptions C171_every_step_width_refuted.

(** the hypotheses are met: a radiating and conducting pair in steps of 1 s, with a heater switching between 0 and 2 W *)
Definition panel_pair : network :=
  mkNetwork 3 (fun i => match i with 2%nat => Boundary | _ => Diffusive end) (fun _ => 500) (fun _ => 0%nat)
    (fun i j => if Nat.eqb i j then 0 else 1 / 2) (fun i j => if Nat.eqb i j then 0 else 1 / 10).
Definition heater_load (on : bool) (t : R) : vec * bool := ((fun i => match i with 0%nat => if on then 2 else 0 | _ => 0 end), negb on).
Example ex_heat : passive panel_pair /\ loads_within heater_load panel_pair 0 (1 / 100) /\ mild_step panel_pair (1 + 1 / 10 ^ 6) (300 + 1 / 100 * 600) /\
  in_order 0 [(300, true); (600, false)] /\ 0 <= 250 - 0 * 600 /\ (forall i, (i < node_num panel_pair)%nat -> 250 <= (match i with 0%nat => 300 | 1%nat => 260 | _ => 250 end) <= 300).
Proof.
  split; [|split; [|split; [|split; [|split]]]].
  - intros i Hi. split; [intros _; cbn; lra|]. intros j Hj N. cbn. destruct (Nat.eqb_spec i j); [contradiction|]. lra.
  - intros s t i Hi D. destruct i as [|[|i]]; cbn in *; [destruct s; lra|lra|]. destruct i; [discriminate|lia].
  - intros i Hi D. unfold others, stefan_boltzmann. destruct i as [|[|[|i]]]; cbn [panel_pair node_num capacity conductance radiation sumn Nat.eqb pow]; try lra; cbn in Hi; lia.
  - cbn. lra.
  - lra.
  - intros [|[|i]] Hi; lra.
Qed.
