(** C80: the forces and torques of a step. *)
From Coq Require Import Reals Lra Lia List Bool Arith FunctionalExtensionality.
From Verif Require Import Base RBase VecModel VecProofs QuatModel QuatSpec QuatProofs OrbitProofs OrbitModel DisturbanceModel DisturbanceSpec SpacecraftModel.
Import ListNotations.
Open Scope R_scope.

Section c80.
Context {AT OB TH ENV CP X : Type}.
Context (att_propagate : R -> vec -> AT -> AT) (quaternion : AT -> quat)
  (orb_propagate : R -> R -> vec -> OB -> OB) (by_attitude : quat -> OB -> OB)
  (thermal_propagate : ENV -> R -> TH -> TH)
  (env_update : time_info -> OB -> AT -> ENV -> ENV)
  (components_update : time_info -> OB -> AT -> ENV -> CP -> CP)
  (generate_torque : CP -> vec * CP) (generate_force : CP -> vec * CP) (mass : CP -> R).
Notation sc := (spacecraft AT OB TH ENV CP X).
Notation step := (spacecraft_update att_propagate quaternion orb_propagate by_attitude thermal_propagate env_update components_update generate_torque generate_force mass).

(** In a step, the environment is computed from the state at the beginning of the step, the disturbances from that
    environment, the components from that environment; what acts on the attitude is the torque of the disturbances
    plus that of the components, what acts on the orbit the disturbance accelerations plus the forces, turned to the
    inertial frame with the attitude at the beginning of the step and divided by the mass: nothing else, and nothing of
    earlier steps.  Attitude and orbit then advance to the same time if their flags are set, and not at all if not. *)
Theorem C80_one_step : forall t (s : sc),
  let e := env_update t (orbit s) (attitude s) (env s) in
  let '(ds, tot) := update_all (orb_flag t) (att_flag t) (e, orbit s, attitude s) (dist s) in
  let c := components_update t (orbit s) (attitude s) e (comps s) in
  let '(ct, c1) := generate_torque c in
  let '(cf, c2) := generate_force c1 in
  exists tau acc,
    veq 3 tau (fun i => tot_torque tot i + ct i) /\
    veq 3 acc (fun i => tot_acc tot i + mvec 3 (mtrans (to_dcm (quaternion (attitude s)))) (tot_force tot) i / mass c
                      + mvec 3 (mtrans (to_dcm (quaternion (attitude s)))) cf i / mass c2) /\
    let s' := step t s in
    attitude s' = (if att_flag t then att_propagate (elapsed_s t) tau (attitude s) else attitude s) /\
    orbit s' = by_attitude (quaternion (attitude s')) (if orb_flag t then orb_propagate (elapsed_s t) (current_jd t) acc (orbit s) else orbit s) /\
    thermal s' = (if thermal_flag t then thermal_propagate e (elapsed_s t) (thermal s) else thermal s) /\
    env s' = e /\ comps s' = c2 /\ dist s' = ds.
Proof.
  intros t [a0 tq0 o0 ac0 th0 e0 c0 d0].
  lazy beta iota zeta delta [spacecraft_update clear add_acceleration add_torque add_force dynamics_update attitude torque orbit acceleration thermal env comps dist acc_step].
  destruct (update_all (orb_flag t) (att_flag t) (env_update t o0 a0 e0, o0, a0) d0) as [ds tot].
  destruct (generate_torque (components_update t o0 a0 (env_update t o0 a0 e0) c0)) as [ct c1] eqn:G1.
  destruct (generate_force c1) as [cf c2] eqn:G2.
  do 2 eexists. split; [|split; [|split; [reflexivity|split; [reflexivity|repeat split]]]].
  - intros i Hi. unfold vadd, vconst. ring.
  - intros i Hi. unfold vadd, vdiv, vscal, vconst. rewrite !inverse_frame_dcm by exact Hi. unfold Rdiv. ring.
Qed.
(** what is left in the torque and the acceleration from outside or from earlier steps has no effect: in particular
    Clear() between two steps changes nothing *)
Theorem C80_no_memory : forall t (s : sc) tq ac,
  step t (mkSc (attitude s) tq (orbit s) ac (thermal s) (env s) (comps s) (dist s)) = step t s.
Proof. intros t s tq ac. reflexivity. Qed.
(** a step in which neither is propagated leaves the attitude as it is and only re-expresses the orbit in the body frame:
    a force or torque generated then acts neither now nor later *)
Theorem C80_unpropagated_step : forall t (s : sc), att_flag t = false -> orb_flag t = false ->
  attitude (step t s) = attitude s /\ orbit (step t s) = by_attitude (quaternion (attitude s)) (orbit s).
Proof.
  intros t s A O. pose proof (C80_one_step t s) as H. cbv zeta in H. destruct (update_all _ _ _ _) as [ds tot]. destruct (generate_torque _) as [ct c1]. destruct (generate_force _) as [cf c2].
  destruct H as (tau & acc & _ & _ & HA & HO & _). rewrite A in HA. rewrite HA in HO. rewrite O in HO. now split.
Qed.
End c80.
Print Assumptions C80_one_step.
Print Assumptions C80_no_memory.
Print Assumptions C80_unpropagated_step.

(** a spacecraft with a thruster of 3 N along x, mass 2, after a step of 1 s: speed 1.5 *)
Example ex80 :
  let s := mkSc tt (vconst 9) 0 (vconst 9) tt tt tt ([] : list (disturbance (Datatypes.unit * R * Datatypes.unit) Datatypes.unit)) in
  orbit (spacecraft_update (fun _ _ a => a) (fun _ => q4 0 0 0 1) (fun t _ acc v => v + acc 0%nat * t) (fun _ o => o) (fun _ _ x => x) (fun _ _ _ e => e) (fun _ _ _ _ c => c)
    (fun c => (vconst 0, c)) (fun c => (v3 3 0 0, c)) (fun _ => 2) (mkTime 1 0 true true false true) s) = 3 / 2.
Proof.
  cbn. unfold vadd, vdiv, vscal, vconst. rewrite !inverse_frame_dcm by lia. unfold mvec, mtrans. rewrite !sumn3. cbn. unfold vconst. field.
Qed.
