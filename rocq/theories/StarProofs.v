From Coq Require Import Reals Lra Lia List Bool ZArith.
From Verif Require Import Base RBase VecModel VecProofs QuatModel QuatSpec QuatProofs SensorModel SensorProofs Trig WheelJitterProofs
  MagneticProofs StarModel StarSpec.
Import ListNotations.
Open Scope R_scope.

Lemma write_length {A} (x : A) l : forall n, length (write_at n x l) = length l.
Proof. induction l as [|y l IH]; intros [|n]; cbn; auto. Qed.
Lemma write_nth {A} (x : A) l : forall n j, (n < length l)%nat ->
  nth_error (write_at n x l) j = if Nat.eqb j n then Some x else nth_error l j.
Proof.
  induction l as [|y l IH]; intros [|n] j H; cbn in H; try lia.
  - destruct j; reflexivity.
  - destruct j; [reflexivity|]. cbn. apply IH. lia.
Qed.

(** the last measurement before the k-th that wrote slot j of a ring of m *)
Fixpoint slot (m k j : nat) : option nat :=
  match k with O => None | S t => if Nat.eqb (Nat.modulo t m) j then Some t else slot m t j end.

Lemma slot_some m k j t : (0 < m)%nat -> (t < k)%nat -> (k - t <= m)%nat -> Nat.modulo t m = j -> slot m k j = Some t.
Proof.
  intros Hm. induction k as [|k IH]; intros H1 H2 H3; [lia|]. cbn [slot]. destruct (Nat.eq_dec t k) as [->|Hn].
  - rewrite H3, Nat.eqb_refl. reflexivity.
  - destruct (Nat.eqb_spec (k mod m) j) as [E|E]; [exfalso|apply IH; try lia; exact H3].
    rewrite <- H3 in E. pose proof (Nat.div_mod t m ltac:(lia)) as D1. pose proof (Nat.div_mod k m ltac:(lia)) as D2.
    rewrite E in D2. assert (Q : (t / m < k / m)%nat) by nia. nia.
Qed.
Lemma slot_none m k j : (forall t, (t < k)%nat -> Nat.modulo t m <> j) -> slot m k j = None.
Proof.
  induction k as [|k IH]; intros H; [reflexivity|]. cbn [slot].
  destruct (Nat.eqb_spec (k mod m) j) as [E|E]; [exfalso; exact (H k ltac:(lia) E)|]. apply IH. intros t Ht. apply H. lia.
Qed.

Lemma mod_exact q m r : (r < m)%nat -> Nat.modulo (m * q + r) m = r.
Proof. intros H. rewrite Nat.add_comm, Nat.mul_comm. rewrite Nat.mod_add by lia. apply Nat.mod_small, H. Qed.

Lemma slot_delivered d m k : (0 < m)%nat ->
  slot m (S k) (let p := Nat.modulo (S k) m in if (d <? p)%nat then p - d - 1 else m - 1)%nat = delivered d m k.
Proof.
  intros Hm. unfold delivered. set (p := Nat.modulo (S k) m).
  pose proof (Nat.div_mod (S k) m ltac:(lia)) as D. fold p in D. assert (P : (p < m)%nat) by (apply Nat.mod_upper_bound; lia).
  set (q := (S k / m)%nat) in *. cbv zeta. destruct (Nat.ltb_spec d p) as [H|H].
  - apply slot_some; try lia.
    replace (k - d)%nat with (m * q + (p - d - 1))%nat by lia. apply mod_exact. lia.
  - destruct (Nat.leb_spec p k) as [L|L].
    + apply slot_some; try lia. assert (Q : (0 < q)%nat) by (destruct q; [rewrite Nat.mul_0_r in D; lia|lia]).
      replace (k - p)%nat with (m * (q - 1) + (m - 1))%nat by (destruct q; [lia|]; replace (S q - 1)%nat with q by lia; rewrite Nat.mul_succ_r in D; lia).
      apply mod_exact. lia.
    + apply slot_none. intros t Ht. assert (Q : q = 0%nat) by (destruct q; [reflexivity|exfalso; rewrite Nat.mul_succ_r in D; lia]).
      subst q. rewrite Q, Nat.mul_0_r in D. rewrite Nat.mod_small by lia. lia.
Qed.

Lemma hist_spec p d m : (p < m)%nat -> (Z.of_nat m < 2 ^ 31)%Z -> (0 <= d < 2 ^ 31)%Z ->
  (let h := s32 (u32 (u32 (Z.of_nat p - d) - 1)) in if (h <? 0)%Z then Z.of_nat m - 1 else h)%Z
  = Z.of_nat (if (Z.to_nat d <? p)%nat then p - Z.to_nat d - 1 else m - 1).
Proof.
  intros Hp Hm Hd. cbv zeta.
  assert (E : s32 (u32 (u32 (Z.of_nat p - d) - 1)) = (Z.of_nat p - d - 1)%Z).
  { unfold u32. rewrite Zminus_mod_idemp_l. unfold s32. change (2 ^ 32)%Z with 4294967296%Z. change (2 ^ 31)%Z with 2147483648%Z in *.
    set (x := (Z.of_nat p - d - 1)%Z). destruct (Z_le_gt_dec 0 x).
    - rewrite Z.mod_small by lia. destruct (Z.ltb_spec x 2147483648); lia.
    - replace (x mod 4294967296)%Z with (x + 4294967296)%Z.
      + destruct (Z.ltb_spec (x + 4294967296) 2147483648); lia.
      + symmetry. rewrite <- (Z_mod_plus_full x 1). rewrite Z.mul_1_l. apply Z.mod_small. lia. }
  rewrite E. destruct (Z.ltb_spec (Z.of_nat p - d - 1) 0), (Nat.ltb_spec (Z.to_nat d) p); lia.
Qed.

Lemma mod_step k n : Nat.modulo (S k) n = if (Z.of_nat (Nat.modulo k n) + 1 =? Z.of_nat n)%Z then 0%nat else S (Nat.modulo k n).
Proof.
  destruct n as [|n]; [cbn [Nat.modulo]; destruct (Z.eqb_spec (Z.of_nat k + 1) (Z.of_nat 0)); [lia|reflexivity]|].
  pose proof (Nat.div_mod k (S n) ltac:(lia)) as D. pose proof (Nat.mod_upper_bound k (S n) ltac:(lia)) as B.
  destruct (Z.eqb_spec (Z.of_nat (k mod S n) + 1) (Z.of_nat (S n))) as [E|E].
  - replace (S k) with (0 + (k / S n + 1) * S n)%nat by lia. rewrite Nat.mod_add by lia. apply Nat.mod_0_l. lia.
  - replace (S k) with (S (k mod S n) + (k / S n) * S n)%nat by lia. rewrite Nat.mod_add by lia. apply Nat.mod_small. lia.
Qed.

Lemma div_step k n : (n * (S k / n))%nat = if Nat.eqb (Nat.modulo (S k) n) 0 then (if (n =? 0)%nat then 0 else S k)%nat else (n * (k / n))%nat.
Proof.
  destruct n as [|n]; [cbn; reflexivity|]. cbn [Nat.eqb].
  pose proof (Nat.div_mod k (S n) ltac:(lia)) as D. pose proof (Nat.mod_upper_bound k (S n) ltac:(lia)) as B.
  pose proof (Nat.div_mod (S k) (S n) ltac:(lia)) as D'. pose proof (Nat.mod_upper_bound (S k) (S n) ltac:(lia)) as B'.
  destruct (Nat.eqb_spec (S k mod S n) 0) as [E|E]; [lia|].
  assert (S k / S n = k / S n)%nat; [|congruence].
  apply (Nat.div_unique k (S n) (S k / S n) (S k mod S n - 1)); lia.
Qed.

Record star_inv (c : star_config) (m : nat) (input : nat -> star_input) (k : nat) (s : star) : Prop := {
  inv_len : length (st_buffer s) = m;
  inv_pos : st_pos s = Nat.modulo k m;
  inv_count : st_count s = Z.of_nat (Nat.modulo k (Z.to_nat (st_interval c)));
  inv_buf : forall j, (j < m)%nat -> nth_error (st_buffer s) j = Some (value_of c input (slot m k j)) }.

Lemma star_inv_new c m input : (0 < m)%nat -> star_inv c m input 0 (mkStar q_identity (repeat q_identity m) 0 0 true).
Proof.
  intros Hm. split; cbn [st_buffer st_pos st_count].
  - apply repeat_length.
  - rewrite Nat.mod_0_l by lia. reflexivity.
  - destruct (Z.to_nat (st_interval c)) eqn:E; [reflexivity|]. rewrite Nat.mod_0_l by lia. reflexivity.
  - intros j Hj. cbn. apply nth_error_repeat, Hj.
Qed.

Lemma star_step c m input k s :
  (0 < m)%nat -> (Z.of_nat m < 2 ^ 31)%Z -> (0 <= st_delay c < 2 ^ 31)%Z -> (0 <= st_interval c)%Z ->
  star_inv c m input k s ->
  exists s', star_measure c s (input k) = Ok s' /\ star_inv c m input (S k) s' /\
    st_measured s' = (if Nat.eqb (Nat.modulo k (Z.to_nat (st_interval c))) 0 then value_of c input (delivered (Z.to_nat (st_delay c)) m k) else st_measured s) /\
    st_error s' = star_judgement c (input k).
Proof.
  intros Hm Hm2 Hd Hi [L P C B].
  assert (Pm : (st_pos s < m)%nat) by (rewrite P; apply Nat.mod_upper_bound; lia).
  assert (Pos : Nat.modulo (S (st_pos s)) m = Nat.modulo (S k) m).
  { rewrite P. rewrite <- (Nat.add_1_r (k mod m)), <- (Nat.add_1_r k). rewrite Nat.add_mod_idemp_l by lia. reflexivity. }
  set (buf := write_at (st_pos s) (star_value c (input k)) (st_buffer s)).
  assert (B' : forall j, (j < m)%nat -> nth_error buf j = Some (value_of c input (slot m (S k) j))).
  { intros j Hj. unfold buf. rewrite write_nth by lia. cbn [slot]. rewrite <- P, (Nat.eqb_sym (st_pos s) j).
    destruct (Nat.eqb j (st_pos s)); [reflexivity|apply B, Hj]. }
  unfold star_measure. rewrite L. fold buf. rewrite Pos.
  set (p := Nat.modulo (S k) m). assert (Pp : (p < m)%nat) by (apply Nat.mod_upper_bound; lia).
  pose proof (hist_spec p (st_delay c) m Pp Hm2 Hd) as HS. cbv zeta in HS.
  assert (Cz : (st_count s =? 0)%Z = Nat.eqb (Nat.modulo k (Z.to_nat (st_interval c))) 0).
  { rewrite C. destruct (Nat.eqb_spec (k mod Z.to_nat (st_interval c)) 0) as [E|E]; [rewrite E; reflexivity|]. apply Z.eqb_neq. lia. }
  assert (Cn : (if (st_count s + 1 =? st_interval c)%Z then 0%Z else (st_count s + 1)%Z) = Z.of_nat (Nat.modulo (S k) (Z.to_nat (st_interval c)))).
  { rewrite mod_step, C. rewrite Z2Nat.id by exact Hi.
    destruct (Z.of_nat (k mod Z.to_nat (st_interval c)) + 1 =? st_interval c)%Z; lia. }
  rewrite Cz. cbv zeta. rewrite HS. rewrite Nat2Z.id. rewrite Cn.
  destruct (Nat.eqb (k mod Z.to_nat (st_interval c)) 0); cbn [bind].
  - rewrite B' by (destruct (Nat.ltb_spec (Z.to_nat (st_delay c)) p); lia).
    eexists. split; [reflexivity|]. split; [split; cbn [st_buffer st_pos st_count]; auto|].
    + unfold buf. rewrite write_length. exact L.
    + split; [|reflexivity]. cbn [st_measured]. rewrite <- slot_delivered by exact Hm. reflexivity.
  - eexists. split; [reflexivity|]. split; [split; cbn [st_buffer st_pos st_count]; auto|].
    + unfold buf. rewrite write_length. exact L.
    + split; reflexivity.
Qed.

Lemma star_history c m input s0 :
  max_delay c = Ok m -> (Z.of_nat m < 2 ^ 31)%Z -> (0 <= st_delay c < 2 ^ 31)%Z -> (0 <= st_interval c)%Z ->
  star_new c = Ok s0 ->
  forall k, exists s, star_run c s0 (S k) input = Ok s /\ star_inv c m input (S k) s /\
    st_measured s = value_of c input (delivered (Z.to_nat (st_delay c)) m (Z.to_nat (st_interval c) * (k / Z.to_nat (st_interval c)))) /\
    st_error s = star_judgement c (input k).
Proof.
  intros HM Hm2 Hd Hi H0. unfold star_new in H0. rewrite HM in H0. cbn [bind] in H0. injection H0 as <-.
  assert (Hm : (0 < m)%nat).
  { unfold max_delay in HM. destruct (int_of_double _) as [z| | |]; cbn [bind] in HM; try discriminate. injection HM as <-.
    destruct (Z.leb_spec z 0); lia. }
  induction k as [|k IH].
  - cbn [star_run bind]. destruct (star_step c m input 0 _ Hm Hm2 Hd Hi (star_inv_new c m input Hm)) as (s & E & I1 & M & Er).
    exists s. split; [exact E|]. split; [exact I1|]. split; [|exact Er]. rewrite M.
    set (n := Z.to_nat (st_interval c)). assert (Zn : Nat.modulo 0 n = 0%nat) by (destruct n; [reflexivity|apply Nat.mod_0_l; lia]).
    rewrite Zn. cbn [Nat.eqb]. assert (Dn : (n * (0 / n) = 0)%nat) by (destruct n; [reflexivity|rewrite Nat.div_0_l by lia; lia]). rewrite Dn. reflexivity.
  - destruct IH as (s & E & I1 & M & Er). set (kk := S k) in *.
    change (star_run c (mkStar q_identity (repeat q_identity m) 0 0 true) (S kk) input)
      with (let! s' := star_run c (mkStar q_identity (repeat q_identity m) 0 0 true) kk input in star_measure c s' (input kk)).
    rewrite E. cbn [bind]. destruct (star_step c m input kk s Hm Hm2 Hd Hi I1) as (s' & E' & I' & M' & Er').
    exists s'. split; [exact E'|]. split; [exact I'|]. split; [|exact Er']. rewrite M'.
    set (n := Z.to_nat (st_interval c)) in *. unfold kk. rewrite div_step.
    destruct (Nat.eqb_spec (S k mod n) 0) as [Z0|Z0]; [|exact M].
    destruct (Nat.eqb_spec n 0) as [N0|N0]; [|reflexivity]. rewrite N0 in Z0. cbn in Z0. lia.
Qed.

(** ** Rotation errors *)
Lemma noise_axis_unit r : unit 3 (noise_axis r).
Proof. unfold unit, dot, noise_axis. rewrite sumn3. unfold vadd, vscal, v3. pose proof (sc (2 * PI * r)). nra. Qed.
Lemma sight_unit : unit 3 (v3 1 0 0).
Proof. unfold unit, dot. rewrite sumn3. unfold v3. ring. Qed.

Lemma star_angle_range u v : 0 <= star_angle u v <= PI.
Proof. apply acos_bound. Qed.

Lemma inverse_frame_mul a b v : veq 3 (inverse_frame_conversion (qmul a b) v) (inverse_frame_conversion a (inverse_frame_conversion b v)).
Proof.
  intros i Hi. rewrite inverse_frame_dcm by exact Hi. rewrite (inverse_frame_dcm a) by exact Hi.
  unfold mvec. rewrite !sumn3. rewrite !inverse_frame_dcm by lia. unfold mtrans. rewrite !dcm_mul by lia. unfold mvec, mmul. rewrite !sumn3. ring.
Qed.

Lemma dot3_ext u u' v v' : veq 3 u u' -> veq 3 v v' -> dot 3 u v = dot 3 u' v'.
Proof. intros H H'. unfold dot. rewrite !sumn3, !H, !H' by lia. reflexivity. Qed.

Lemma sight_fixed a : veq 3 (inverse_frame_conversion (q_axis_angle (v3 1 0 0) a) (v3 1 0 0)) (v3 1 0 0).
Proof.
  intros i Hi. rewrite inverse_frame_dcm by exact Hi. unfold mvec. rewrite sumn3. unfold mtrans, to_dcm, q_axis_angle, q4, m3, v3.
  pose proof (sc (a * (1 / 2))) as E. destruct i as [|[|[|i]]]; try lia; nra.
Qed.

Lemma boresight_error c i : unit 4 (in_q_i2b i) -> unit 4 (st_q_b2c c) ->
  dot 3 (inverse_frame_conversion (star_value c i) (v3 1 0 0)) (inverse_frame_conversion (qmul (in_q_i2b i) (st_q_b2c c)) (v3 1 0 0)) = cos (in_ortho_noise i).
Proof.
  intros U1 U2. unfold star_value. set (q := qmul (in_q_i2b i) (st_q_b2c c)).
  assert (Uq : unit 4 q) by (unfold unit, q; rewrite qmul_norm, U1, U2; ring).
  set (s := q_axis_angle (v3 1 0 0) (in_sight_noise i)). set (o := q_axis_angle (noise_axis (in_rotation i)) (in_ortho_noise i)).
  assert (E1 : veq 3 (inverse_frame_conversion (qmul (qmul q s) o) (v3 1 0 0)) (inverse_frame_conversion q (inverse_frame_conversion s (inverse_frame_conversion o (v3 1 0 0))))).
  { intros j Hj. rewrite inverse_frame_mul by exact Hj. apply inverse_frame_mul, Hj. }
  rewrite (dot3_ext _ _ _ (inverse_frame_conversion q (v3 1 0 0)) E1) by (intros ? ?; reflexivity).
  rewrite inverse_frame_dot by exact Uq.
  rewrite (dot3_ext _ (inverse_frame_conversion s (inverse_frame_conversion o (v3 1 0 0))) _ (inverse_frame_conversion s (v3 1 0 0)))
    by (try (intros ? ?; reflexivity); intros j Hj; symmetry; apply sight_fixed, Hj).
  rewrite inverse_frame_dot by (apply axis_angle_unit, sight_unit).
  unfold dot. rewrite sumn3. cbn [v3]. rewrite !Rmult_0_r, !Rplus_0_r, Rmult_1_r. rewrite inverse_frame_dcm by lia.
  unfold mvec. rewrite sumn3. unfold mtrans, to_dcm, o, q_axis_angle, noise_axis, vadd, vscal, q4, m3, v3.
  pose proof (sc (in_ortho_noise i * (1 / 2))) as E. pose proof (sc (2 * PI * in_rotation i)) as E'.
  rewrite (half_cos (in_ortho_noise i)). set (S1 := sin (in_ortho_noise i * (1 / 2))) in *. set (C1 := cos (in_ortho_noise i * (1 / 2))) in *.
  set (S2 := sin (2 * PI * in_rotation i)) in *. set (C2 := cos (2 * PI * in_rotation i)) in *.
  replace (C1 * C1) with (1 - S1 * S1) by lra.
  transitivity (1 - S1 * S1 - (S1 * S1) * (S2 * S2 + C2 * C2)); [|rewrite E'; ring].
  replace (C1 ^ 2) with (1 - S1 * S1) by (cbn [pow]; lra) || idtac. nra.
Qed.

Lemma rotation_error c i : unit 4 (in_q_i2b i) -> unit 4 (st_q_b2c c) ->
  dot 4 (qmul (in_q_i2b i) (st_q_b2c c)) (star_value c i) = cos (in_sight_noise i / 2) * cos (in_ortho_noise i / 2).
Proof.
  intros U1 U2. unfold star_value. set (q := qmul (in_q_i2b i) (st_q_b2c c)).
  assert (Uq : dot 4 q q = 1) by (unfold q; rewrite qmul_norm, U1, U2; ring).
  replace (in_sight_noise i / 2) with (in_sight_noise i * (1 / 2)) by lra. replace (in_ortho_noise i / 2) with (in_ortho_noise i * (1 / 2)) by lra.
  transitivity (dot 4 q q * (cos (in_sight_noise i * (1 / 2)) * cos (in_ortho_noise i * (1 / 2)))); [|rewrite Uq; ring].
  clearbody q. clear. unfold dot, qmul, q_axis_angle, noise_axis, vadd, vscal, v3, q4. cbn [sumn]. ring.
Qed.

Lemma star_angle_angle u v : norm 3 u <> 0 -> norm 3 v <> 0 -> star_angle u v = angle_two_vectors 3 u v.
Proof.
  intros Hu Hv. unfold star_angle, angle_two_vectors. f_equal. unfold normalize. rewrite !req_false by assumption.
  unfold dot. rewrite !sumn3. unfold vdiv, vscal. field. split; assumption.
Qed.

Lemma limb_clear (u p : vec) (r : R) : unit 3 u -> 0 < r -> r < norm 3 p ->
  asin (r / norm 3 p) <= angle_two_vectors 3 p u -> forall t, 0 <= t -> r <= norm 3 (vsub (vscal t u) p).
Proof.
  intros U Hr Hp Ha t Ht. set (D := norm 3 p) in *. assert (HD : 0 < D) by lra.
  unfold angle_two_vectors in Ha. rewrite (unit_norm u U), Rmult_1_r in Ha. fold D in Ha. set (k := dot 3 p u / D) in *.
  assert (Hk : -1 <= k <= 1).
  { assert (Rabs (dot 3 p u) <= D) by (rewrite <- (Rmult_1_r D); rewrite <- (unit_norm u U); apply dot_le_norms).
    assert (H2 : - D <= dot 3 p u <= D) by (revert H; unfold Rabs; destruct (Rcase_abs (dot 3 p u)); intros; lra).
    unfold k. split; (apply Rmult_le_reg_r with D; [exact HD|]; unfold Rdiv; rewrite Rmult_assoc, Rinv_l by lra; lra). }
  assert (Hdot : dot 3 p u = D * k) by (unfold k; field; lra).
  assert (Hx : 0 < r / D < 1).
  { split; [apply Rdiv_lt_0_compat; lra|]. apply Rmult_lt_reg_r with D; [exact HD|]. unfold Rdiv. rewrite Rmult_assoc, Rinv_l by lra. lra. }
  assert (Hsq : r * r <= dot 3 (vsub (vscal t u) p) (vsub (vscal t u) p)).
  { assert (E : dot 3 (vsub (vscal t u) p) (vsub (vscal t u) p) = t * t - 2 * t * (D * k) + D * D).
    { rewrite <- Hdot. unfold D. rewrite norm_sq. unfold sq, dot, vsub, vscal. unfold unit, dot in U. rewrite !sumn3 in *. nra. }
    rewrite E. destruct (Rle_dec k 0) as [K|K].
    - assert (0 <= t * (D * - k)) by (apply Rmult_le_pos; [lra|apply Rmult_le_pos; lra]). nra.
    - (* sin of the angle is at least r/D *)
      assert (S1 : r / D <= sin (acos k)).
      { rewrite <- (sin_asin (r / D)) by lra. pose proof (asin_bound (r / D)) as AB. 
        assert (AK : acos k <= PI / 2).
        { pose proof (acos_bound k) as AB2. destruct (Rle_dec (acos k) (PI / 2)); [assumption|exfalso].
          assert (cos (acos k) < 0) by (apply cos_lt_0; lra). rewrite cos_acos in H by lra. lra. }
        apply sin_incr_1; lra. }
      rewrite sin_acos in S1 by lra.
      assert (S2 : r / D * (r / D) <= 1 - k * k).
      { replace (1 - k * k) with (sqrt (1 - k²) * sqrt (1 - k²)); [|rewrite sqrt_sqrt; unfold Rsqr; nra].
        apply Rmult_le_compat; lra. }
      assert (S3 : r * r <= D * D * (1 - k * k)).
      { replace (r * r) with (D * D * (r / D * (r / D))) by (field; lra). apply Rmult_le_compat_l; [nra|exact S2]. }
      pose proof (Rle_0_sqr (t - D * k)) as Q. unfold Rsqr in Q. nra. }
  unfold norm. rewrite <- (sqrt_square r) by lra. apply sqrt_le_1_alt. exact Hsq.
Qed.
