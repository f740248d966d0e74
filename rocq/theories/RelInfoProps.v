(** C105: relative information between spacecraft. *)
From Coq Require Import Reals Lra Lia List Bool ZArith Psatz.
From Verif Require Import Base RBase VecModel VecProofs QuatModel QuatSpec QuatProofs OrbitModel HillProofs WheelJitterProofs ActuatorModel ActuatorProofs GnssRxProofs RelInfoModel RelInfoProofs.
Import ListNotations.
Open Scope R_scope.

(** When the registered identifiers are 0 ... n-1, an update succeeds and every pair gets the relative values of the
    current states of the two dynamics: difference of positions and velocities, distance, and components along the
    reference's radial, transverse and normal directions.  It does nothing else. *)
Theorem C105_update :
  forall (world : nat -> motion) (r : rel_info),
    let n := length (ri_db r) in
    (forall i, (i < n)%nat -> In i (map fst (ri_db r))) ->
    exists r', rel_update world r = Ok r' /\ ri_db r' = ri_db r /\
      forall t f, (t < n)%nat -> (f < n)%nat ->
        exists dt df e, db_find (ri_db r) t = Some dt /\ db_find (ri_db r) f = Some df /\ rel_get r' t f = Ok e /\
          let pt := mo_r (world dt) in let pf := mo_r (world df) in let vt := mo_v (world dt) in let vf := mo_v (world df) in
          (forall k, re_pos_i e k = pt k - pf k) /\ (forall k, re_vel_i e k = vt k - vf k) /\
          re_dist e = norm 3 (vsub pt pf) /\
          (0 < norm 3 pf -> 0 < norm 3 (cross pf vf) ->
             re_pos_rtn e 0%nat = dot 3 pf (vsub pt pf) / norm 3 pf /\
             re_pos_rtn e 1%nat = dot 3 (cross (cross pf vf) pf) (vsub pt pf) / (norm 3 (cross pf vf) * norm 3 pf) /\
             re_pos_rtn e 2%nat = dot 3 (cross pf vf) (vsub pt pf) / norm 3 (cross pf vf)).
Proof.
  intros w r n H. set (g := fun i => match db_find (ri_db r) i with Some d => d | None => 0%nat end).
  assert (G : forall i, (i < n)%nat -> db_find (ri_db r) i = Some (g i)).
  { intros i Hi. destruct (proj2 (db_find_in (ri_db r) i) (H i Hi)) as [d E]. unfold g. rewrite E. reflexivity. }
  assert (U : rel_update w r = Ok (mkRelInfo (ri_db r) (map (fun t => map (fun f => relative_of (w (g t)) (w (g f))) (seq 0 n)) (seq 0 n)))).
  { unfold rel_update. fold n. rewrite (collect_ok _ (fun t => map (fun f => relative_of (w (g t)) (w (g f))) (seq 0 n))); [reflexivity|].
    intros t T. apply in_seq in T. apply (collect_ok _ (fun f => relative_of (w (g t)) (w (g f)))). intros f F. apply in_seq in F.
    unfold db_at. rewrite !G by lia. reflexivity. }
  eexists. split; [exact U|]. split; [reflexivity|]. intros t f Ht Hf. exists (g t), (g f), (relative_of (w (g t)) (w (g f))).
  split; [apply G; exact Ht|]. split; [apply G; exact Hf|]. split.
  - unfold rel_get. cbn [ri_table]. rewrite nth_error_map_seq, (proj2 (Nat.ltb_lt _ _) Ht), nth_error_map_seq, (proj2 (Nat.ltb_lt _ _) Hf). reflexivity.
  - cbv zeta. cbn [relative_of re_pos_i re_vel_i re_dist re_pos_rtn]. split; [reflexivity|]. split; [reflexivity|]. split; [reflexivity|].
    intros P Q. rewrite !(rtn_pos _ _ P Q) by lia. apply lvlh_apply; assumption.
Qed.
Print Assumptions C105_update.

(** If some identifier below the number of registered spacecraft is missing, the update throws. *)
Theorem C105_update_throws :
  forall (world : nat -> motion) (r : rel_info) (i : nat),
    (i < length (ri_db r))%nat -> ~ In i (map fst (ri_db r)) -> rel_update world r = Throw.
Proof.
  intros w r i Hi N. unfold rel_update. assert (E : db_at (ri_db r) i = Throw).
  { unfold db_at. destruct (db_find (ri_db r) i) as [d|] eqn:F; [|reflexivity]. exfalso. apply N. apply db_find_in. exists d. exact F. }
  assert (A : forall x, db_at (ri_db r) x = Throw \/ exists d, db_at (ri_db r) x = Ok d).
  { intros x. unfold db_at. destruct (db_find (ri_db r) x) as [d|]; [right; exists d; reflexivity|left; reflexivity]. }
  assert (IN : forall t, collect (fun f => let! dt := db_at (ri_db r) t in let! df := db_at (ri_db r) f in Ok (relative_of (w dt) (w df))) (seq 0 (length (ri_db r))) = Throw).
  { intros t. apply (collect_throw _ _ i).
    - intros y. destruct (A t) as [-> | [d ->]]; [left; reflexivity|]. cbn [bind]. destruct (A y) as [-> | [d' ->]]; [left; reflexivity|right; eexists; reflexivity].
    - apply in_seq. lia.
    - rewrite E. destruct (A t) as [-> | [d ->]]; reflexivity. }
  rewrite (collect_throw _ _ i); [reflexivity|intros y; left; apply IN|apply in_seq; lia|apply IN].
Qed.
Print Assumptions C105_update_throws.

(** Registering and removing: a registered identifier keeps its first dynamics, a removed one is gone, the others are
    untouched; all relative values read zero (and the identity attitude) until the next update, and reading beyond the number
    of registered spacecraft is undefined. *)
Theorem C105_registration :
  forall (r : rel_info) (id d : nat),
    (db_find (ri_db (register r id d)) id = match db_find (ri_db r) id with Some d' => Some d' | None => Some d end) /\
    (forall j, j <> id -> db_find (ri_db (register r id d)) j = db_find (ri_db r) j) /\
    db_find (ri_db (remove_info r id)) id = None /\
    (forall j, j <> id -> db_find (ri_db (remove_info r id)) j = db_find (ri_db r) j) /\
    (forall r', r' = register r id d \/ r' = remove_info r id -> forall t f,
       rel_get r' t f = if (Nat.ltb t (length (ri_db r')) && Nat.ltb f (length (ri_db r')))%bool then Ok blank else UB).
Proof.
  intros r id d.
  assert (APP : forall l (e : nat * nat) j, db_find (l ++ [e]) j = match db_find l j with Some x => Some x | None => if Nat.eqb (fst e) j then Some (snd e) else None end).
  { intros l e j. unfold db_find. induction l as [|a l IH]; cbn [app find]; [destruct (Nat.eqb (fst e) j); reflexivity|]. destruct (Nat.eqb (fst a) j); [reflexivity|exact IH]. }
  split; [|split; [|split; [|split]]].
  - unfold register, resized. cbn [ri_db]. destruct (db_find (ri_db r) id) as [d'|] eqn:F; [exact F|]. rewrite APP, F. cbn [fst snd]. rewrite Nat.eqb_refl. reflexivity.
  - intros j J. unfold register, resized. cbn [ri_db]. destruct (db_find (ri_db r) id) as [d'|]; [reflexivity|]. rewrite APP. cbn [fst snd]. destruct (db_find (ri_db r) j); [reflexivity|]. destruct (Nat.eqb_spec id j); [congruence|reflexivity].
  - unfold remove_info, resized. cbn [ri_db]. destruct (db_find _ id) as [x|] eqn:F; [|reflexivity]. exfalso.
    assert (I : In id (map fst (filter (fun e => negb (Nat.eqb (fst e) id)) (ri_db r)))) by (apply db_find_in; exists x; exact F).
    apply in_map_iff in I. destruct I as (e & E & I). apply filter_In in I. destruct I as [_ I]. rewrite E, Nat.eqb_refl in I. discriminate.
  - intros j J. unfold remove_info, resized. cbn [ri_db]. unfold db_find. induction (ri_db r) as [|a l IH]; [reflexivity|]. cbn [filter find].
    destruct (Nat.eqb_spec (fst a) id) as [E|E]; cbn [negb find].
    + destruct (Nat.eqb_spec (fst a) j); [congruence|exact IH].
    + destruct (Nat.eqb (fst a) j); [reflexivity|exact IH].
  - intros r' H t f. assert (K : forall db, rel_get (resized db) t f = if (Nat.ltb t (length db) && Nat.ltb f (length db))%bool then Ok blank else UB).
    { intros db. unfold rel_get, resized. cbn [ri_table]. rewrite nth_error_repeat'. destruct (Nat.ltb t (length db)); [|reflexivity]. rewrite nth_error_repeat'. destruct (Nat.ltb f (length db)); reflexivity. }
    destruct H as [-> | ->]; apply K.
Qed.
Print Assumptions C105_registration.

(** Consistency of the values of one update between any three spacecraft. *)
Theorem C105_consistency :
  forall a b c : motion,
    (forall k, re_pos_i (relative_of a b) k = - re_pos_i (relative_of b a) k) /\
    (forall k, re_pos_i (relative_of a b) k + re_pos_i (relative_of b c) k = re_pos_i (relative_of a c) k) /\
    (forall k, re_vel_i (relative_of a b) k + re_vel_i (relative_of b c) k = re_vel_i (relative_of a c) k) /\
    re_dist (relative_of a b) = re_dist (relative_of b a) /\ re_dist (relative_of a a) = 0 /\
    re_dist (relative_of a c) <= re_dist (relative_of a b) + re_dist (relative_of b c) /\
    (0 < norm 3 (mo_r b) -> 0 < norm 3 (cross (mo_r b) (mo_v b)) -> norm 3 (re_pos_rtn (relative_of a b)) = re_dist (relative_of a b)).
Proof.
  intros a b c. cbn [relative_of re_pos_i re_vel_i re_dist re_pos_rtn]. unfold vsub.
  split; [intros; ring|]. split; [intros; ring|]. split; [intros; ring|]. split; [|split; [|split]].
  - unfold norm. f_equal. rewrite !sumn3. ring.
  - apply norm_zero_vec. intros i _. ring.
  - set (u := fun i => mo_r a i - mo_r b i). set (w := fun i => mo_r b i - mo_r c i).
    assert (E : norm 3 (fun i => mo_r a i - mo_r c i) = norm 3 (vadd u w)) by (apply norm_ext; intros i _; unfold vadd, u, w; ring). rewrite E.
    pose proof (norm_nonneg 3 u) as NU. pose proof (norm_nonneg 3 w) as NW. apply Rsqr_incr_0_var; [|lra]. unfold Rsqr.
    pose proof (dot_le_norms 3 u w) as D. pose proof (Rle_abs (dot 3 u w)) as D'. pose proof (norm_sq 3 u) as QU. pose proof (norm_sq 3 w) as QW. rewrite norm_sq.
    assert (X : sq 3 (vadd u w) = sq 3 u + 2 * dot 3 u w + sq 3 w) by (unfold sq, dot, vadd; rewrite !sumn3; ring). rewrite X, <- QU, <- QW. nra.
  - intros P Q. rewrite (norm_ext _ _ (rtn_pos a b P Q)). unfold norm. f_equal. exact (rotation_dot _ _ _ (lvlh_rotation _ _ P Q)).
Qed.
Print Assumptions C105_consistency.

(** The relative velocity in the RTN frame is the rate of change of the relative position in the RTN frame: radially for
    every motion of the reference, and in all components when the reference's acceleration is along its position. *)
Theorem C105_rtn_velocity :
  forall (pt vt pr vr : R -> vec) (acc : vec) (q : R -> quat) (s : R),
    (forall u, 0 < norm 3 (pr u) /\ 0 < norm 3 (cross (pr u) (vr u))) ->
    (forall k, (k < 3)%nat -> derivable_pt_lim (fun u => pt u k) s (vt s k)) ->
    (forall k, (k < 3)%nat -> derivable_pt_lim (fun u => pr u k) s (vr s k)) ->
    (forall k, (k < 3)%nat -> derivable_pt_lim (fun u => vr u k) s (acc k)) ->
    let position := fun u => re_pos_rtn (relative_of (mkMotion (q u) (pt u) (vt u)) (mkMotion (q u) (pr u) (vr u))) in
    let velocity := re_vel_rtn (relative_of (mkMotion (q s) (pt s) (vt s)) (mkMotion (q s) (pr s) (vr s))) in
    derivable_pt_lim (fun u => position u 0%nat) s (velocity 0%nat) /\
    ((forall k, (k < 3)%nat -> cross (pr s) acc k = 0) ->
     forall k, (k < 3)%nat -> derivable_pt_lim (fun u => position u k) s (velocity k)).
Proof.
  intros pt vt pr vr acc q s ND DT DR DV. cbv zeta. cbn [relative_of re_pos_rtn re_vel_rtn].
  set (m := fun u => mkMotion (q u) (pt u) (vt u)). set (w := fun u => mkMotion (q u) (pr u) (vr u)).
  set (rho := fun u => vsub (pt u) (pr u)). set (rho' := vsub (vt s) (vr s)). set (h := fun u => cross (pr u) (vr u)).
  assert (POS : forall u, mvec 3 (lvlh_dcm (pr u) (vr u)) (rho u) 0%nat = dot 3 (pr u) (rho u) / norm 3 (pr u) /\
     mvec 3 (lvlh_dcm (pr u) (vr u)) (rho u) 1%nat = dot 3 (cross (h u) (pr u)) (rho u) / (norm 3 (h u) * norm 3 (pr u)) /\
     mvec 3 (lvlh_dcm (pr u) (vr u)) (rho u) 2%nat = dot 3 (h u) (rho u) / norm 3 (h u)) by (intros u; destruct (ND u); apply lvlh_apply; assumption).
  assert (RP : forall u k, (k < 3)%nat -> relative_position_rtn (m u) (w u) k = mvec 3 (lvlh_dcm (pr u) (vr u)) (rho u) k).
  { intros u k Hk. destruct (ND u) as [A B]. apply (rtn_pos (m u) (w u) A B k Hk). }
  destruct (ND s) as [A B]. assert (RV : forall k, (k < 3)%nat -> relative_velocity_rtn (m s) (w s) k = mvec 3 (lvlh_dcm (pr s) (vr s)) (corotating (m s) (w s)) k) by (intros k Hk; apply (rtn_vel (m s) (w s) A B k Hk)).
  set (n := norm 3 (pr s)) in *. assert (NN : n * n = dot 3 (pr s) (pr s)) by apply norm_sq.
  set (co := corotating (m s) (w s)). assert (CO : co = vsub rho' (cross (vscal (1 / (n * n)) (h s)) (rho s))) by reflexivity.
  destruct (lvlh_apply (pr s) (vr s) co A B) as (V0 & V1 & V2). fold (h s) in V1, V2. change (norm 3 (pr s)) with n in V0, V1.
  assert (DRHO : forall k, (k < 3)%nat -> d_at (fun u => rho u k) s (rho' k)) by (intros k Hk; apply d_sub; [apply DT|apply DR]; exact Hk).
  assert (DN : d_at (fun u => norm 3 (pr u)) s (dot 3 (pr s) (vr s) / n)) by (apply d_norm; [exact DR|exact A]).
  assert (RADIAL : d_at (fun u => relative_position_rtn (m u) (w u) 0%nat) s (relative_velocity_rtn (m s) (w s) 0%nat)).
  { rewrite RV by lia. fold co. rewrite V0. eapply d_eq; [| |exact (d_div _ _ s _ _ (d_dot pr rho (vr s) rho' s DR DRHO) DN (Rgt_not_eq _ _ A))].
    - intros u. rewrite RP by lia. destruct (POS u) as (X & _ & _). exact X.
    - pose proof (radial_identity (pr s) (vr s) (rho s) rho' n NN ltac:(lra)) as T. fold (h s) in T. rewrite CO, T. cbv beta. fold n. field. lra. }
  split; [exact RADIAL|]. intros CEN k Hk.
  assert (DH : forall j, (j < 3)%nat -> d_at (fun u => h u j) s 0).
  { intros j Hj. eapply d_eq; [| |exact (d_cross pr vr (vr s) acc s DR DV j Hj)]; [intros; reflexivity|]. rewrite (CEN j Hj). i3 j Hj; cbn [cross]; ring. }
  assert (DHN : d_at (fun u => norm 3 (h u)) s 0).
  { eapply d_eq; [| |exact (d_norm h (fun _ => 0) s DH B)]; [intros; reflexivity|]. unfold dot. rewrite sumn3. unfold Rdiv. ring. }
  set (hn := norm 3 (h s)) in *. change (0 < hn) in B.
  change (d_at (fun u => relative_position_rtn (m u) (w u) k) s (relative_velocity_rtn (m s) (w s) k)).
  i3 k Hk.
  - exact RADIAL.
  - rewrite RV by lia. fold co. rewrite V1.
    assert (DY : forall j, (j < 3)%nat -> d_at (fun u => cross (h u) (pr u) j) s (cross (h s) (vr s) j)).
    { intros j Hj. eapply d_eq; [| |exact (d_cross h pr (fun _ => 0) (vr s) s DH DR j Hj)]; [intros; reflexivity|]. i3 j Hj; cbn [cross]; ring. }
    eapply d_eq; [| |exact (d_div _ _ s _ _ (d_dot (fun u => cross (h u) (pr u)) rho (cross (h s) (vr s)) rho' s DY DRHO) (derivable_pt_lim_mult _ _ s _ _ DHN DN) (Rmult_integral_contrapositive_currified _ _ (Rgt_not_eq _ _ B) (Rgt_not_eq _ _ A)))].
    + intros u. rewrite RP by lia. destruct (POS u) as (_ & X & _). exact X.
    + unfold mult_fct. cbv beta. fold hn n. pose proof (transverse_identity (pr s) (vr s) (rho s) rho' n NN ltac:(lra)) as T. cbv zeta in T. fold (h s) in T. rewrite CO, T. field. split; lra.
  - rewrite RV by lia. fold co. rewrite V2.
    eapply d_eq; [| |exact (d_div _ _ s _ _ (d_dot h rho (fun _ => 0) rho' s DH DRHO) DHN (Rgt_not_eq _ _ B))].
    + intros u. rewrite RP by lia. destruct (POS u) as (_ & _ & X). exact X.
    + cbv beta. fold hn. rewrite CO, normal_identity. assert (Z : dot 3 (fun _ => 0) (rho s) = 0) by (unfold dot; rewrite sumn3; ring). rewrite Z. field. lra.
Qed.
Print Assumptions C105_rtn_velocity.

(** [p] takes components in the reference's body frame to components in the target's *)
Definition relative_attitude_of (p qt qr : quat) : Prop :=
  forall v, veq 3 (mvec 3 (to_dcm p) (mvec 3 (to_dcm qr) v)) (mvec 3 (to_dcm qt) v).
(** The relative attitude quaternion has the right rotation angle, but its axis is given in the inertial frame. *)
Theorem C105_attitude :
  forall t r : motion, unit 4 (mo_q_i2b t) -> unit 4 (mo_q_i2b r) ->
    exists p, unit 4 p /\ relative_attitude_of p (mo_q_i2b t) (mo_q_i2b r) /\
      re_q (relative_of t r) 3%nat = p 3%nat /\
      forall k, (k < 3)%nat -> re_q (relative_of t r) k = mvec 3 (mtrans (to_dcm (mo_q_i2b r))) p k.
Proof.
  intros t r UT UR. set (a := mo_q_i2b t) in *. set (b := mo_q_i2b r) in *. exists (qmul (qconj b) a).
  assert (UB : unit 4 (qconj b)) by (unfold unit, dot in *; cbn [sumn] in *; unfold qconj; cbn [Nat.ltb Nat.leb]; lra).
  split; [unfold unit; rewrite qmul_norm, UB, UT; ring|]. split.
  - intros v k Hk. unfold mvec at 1. rewrite sumn3. rewrite !dcm_mul by (exact Hk || lia).
    assert (BK : forall j, (j < 3)%nat -> mvec 3 (to_dcm (qconj b)) (mvec 3 (to_dcm b) v) j = v j).
    { intros j Hj. pose proof (rotation_back _ v (trans_rotation _ (dcm_rotation b UR)) j Hj) as X. rewrite <- X. apply mvec_ext3; [apply conj_dcm_trans| |exact Hj]. intros i _. reflexivity. }
    transitivity (mvec 3 (to_dcm a) (mvec 3 (to_dcm (qconj b)) (mvec 3 (to_dcm b) v)) k); [unfold mvec, mmul; rewrite !sumn3; ring|].
    unfold mvec at 1 4. rewrite !sumn3. rewrite !BK by lia. reflexivity.
  - cbn [relative_of re_q]. unfold relative_attitude. fold a b. unfold unit, dot in UR. cbn [sumn] in UR.
    split; [unfold qmul, qconj; cbn [q4 Nat.ltb Nat.leb]; ring|].
    intros k Hk. transitivity ((0 + b 0%nat * b 0%nat + b 1%nat * b 1%nat + b 2%nat * b 2%nat + b 3%nat * b 3%nat) * qmul a (qconj b) k); [rewrite UR; ring|].
    unfold mvec. rewrite sumn3. i3 k Hk; unfold mtrans, to_dcm, qmul, qconj; cbn [m3 v3 q4 Nat.ltb Nat.leb]; ring.
Qed.
Print Assumptions C105_attitude.
(** It does not convert from the reference's to the target's body frame. *)
Theorem C105_attitude_refuted :
  ~ (forall t r : motion, unit 4 (mo_q_i2b t) -> unit 4 (mo_q_i2b r) ->
       relative_attitude_of (re_q (relative_of t r)) (mo_q_i2b t) (mo_q_i2b r)).
Proof.
  intros H. specialize (H (mkMotion (q4 1 0 0 0) (v3 0 0 0) (v3 0 0 0)) (mkMotion (q4 0 (3 / 5) 0 (4 / 5)) (v3 0 0 0) (v3 0 0 0))).
  cbn [relative_of re_q mo_q_i2b] in H. unfold relative_attitude in H. cbn [mo_q_i2b] in H.
  specialize (H ltac:(unfold unit, dot; cbn [sumn q4]; field) ltac:(unfold unit, dot; cbn [sumn q4]; field) (v3 1 0 0) 0%nat ltac:(lia)).
  unfold mvec in H. rewrite !sumn3 in H. unfold to_dcm, qmul, qconj in H. cbn [m3 v3 q4 Nat.ltb Nat.leb] in H. lra.
Qed.
Print Assumptions C105_attitude_refuted.

(** * Instances *)
Example ex_relative :
  let world := fun d => mkMotion (q4 0 0 0 1) (v3 (7000000 + INR d) 0 0) (v3 0 7500 0) in
  let r := register (register rel_info_new 1 5) 0 4 in
  (forall i, (i < length (ri_db r))%nat -> In i (map fst (ri_db r))) /\
  exists r' e, rel_update world r = Ok r' /\ rel_get r' 1 0 = Ok e /\ re_pos_i e 0%nat = 1.
Proof.
  cbv zeta. assert (I : forall i, (i < length (ri_db (register (register rel_info_new 1 5) 0 4)))%nat -> In i (map fst (ri_db (register (register rel_info_new 1 5) 0 4)))) by (intros [|[|i]]; cbn; intros; [right; left; reflexivity|left; reflexivity|lia]).
  split; [exact I|]. destruct (C105_update (fun d => mkMotion (q4 0 0 0 1) (v3 (7000000 + INR d) 0 0) (v3 0 7500 0)) _ I) as (r' & U & _ & X).
  destruct (X 1%nat 0%nat ltac:(cbn; lia) ltac:(cbn; lia)) as (dt & df & e & F1 & F2 & G & P & _). cbn in F1, F2. injection F1 as <-. injection F2 as <-.
  exists r', e. split; [exact U|]. split; [exact G|]. rewrite P. cbn [mo_r v3 INR]. lra.
Qed.
Example ex_throws : exists world, rel_update world (register rel_info_new 3 0) = Throw.
Proof. exists (fun _ => mkMotion (q4 0 0 0 1) (v3 0 0 0) (v3 0 0 0)). apply (C105_update_throws _ _ 0%nat); cbn; [lia|]. intros [H|[]]. discriminate. Qed.
