(** Lemmas for the relative information. *)
From Coq Require Import Reals Lra Lia List Bool ZArith Psatz.
From Verif Require Import Base RBase VecModel VecProofs QuatModel QuatSpec QuatProofs OrbitModel HillProofs WheelJitterProofs ActuatorModel ActuatorProofs GnssRxProofs RelInfoModel.
Import ListNotations.
Open Scope R_scope.

Lemma collect_ok {A B} (f : A -> outcome B) (g : A -> B) l : (forall x, In x l -> f x = Ok (g x)) -> collect f l = Ok (map g l).
Proof.
  induction l as [|x r IH]; intros H; [reflexivity|]. cbn [collect map]. rewrite H by (left; reflexivity). cbn [bind].
  rewrite IH; [reflexivity|]. intros y Y. apply H. right. exact Y.
Qed.
Lemma collect_throw {A B} (f : A -> outcome B) l x : (forall y, f y = Throw \/ exists b, f y = Ok b) -> In x l -> f x = Throw -> collect f l = Throw.
Proof.
  intros H. induction l as [|y r IH]; intros I E; [contradiction|]. cbn [collect]. destruct I as [->|I]; [rewrite E; reflexivity|].
  destruct (H y) as [-> | [b ->]]; [reflexivity|]. cbn [bind]. rewrite IH by assumption. reflexivity.
Qed.
Lemma nth_error_map_seq {B} (g : nat -> B) n i : nth_error (map g (seq 0 n)) i = if Nat.ltb i n then Some (g i) else None.
Proof.
  destruct (Nat.ltb_spec i n) as [L|L].
  - rewrite (nth_error_nth' _ (g 0%nat)) by (rewrite map_length, seq_length; exact L). rewrite map_nth, seq_nth by exact L. reflexivity.
  - apply nth_error_None. rewrite map_length, seq_length. exact L.
Qed.
Lemma nth_error_repeat' {B} (b : B) n i : nth_error (repeat b n) i = if Nat.ltb i n then Some b else None.
Proof.
  destruct (Nat.ltb_spec i n) as [L|L]; [apply nth_error_repeat; exact L|]. apply nth_error_None. rewrite repeat_length. exact L.
Qed.
Lemma db_find_in db id : (exists d, db_find db id = Some d) <-> In id (map fst db).
Proof.
  unfold db_find. split.
  - intros [d E]. destruct (find _ db) as [e|] eqn:F; [|discriminate]. apply find_some in F. destruct F as [F1 F2]. apply Nat.eqb_eq in F2. subst id. apply in_map. exact F1.
  - intros I. destruct (find _ db) as [e|] eqn:F; [exists (snd e); reflexivity|]. apply in_map_iff in I. destruct I as (e & E & I). pose proof (find_none _ _ F e I) as X. cbn beta in X. rewrite E, Nat.eqb_refl in X. discriminate.
Qed.

(** * Derivatives *)
Definition d_at (f : R -> R) (t l : R) : Prop := derivable_pt_lim f t l.
Lemma d_eq f g t l l' : (forall x, g x = f x) -> l = l' -> d_at f t l -> d_at g t l'.
Proof. intros E <- D. apply (dpl_ext f); [intros y; symmetry; apply E|exact D]. Qed.
Lemma d_dot (u w : R -> vec) (u' w' : vec) t :
  (forall k, (k < 3)%nat -> d_at (fun s => u s k) t (u' k)) -> (forall k, (k < 3)%nat -> d_at (fun s => w s k) t (w' k)) ->
  d_at (fun s => dot 3 (u s) (w s)) t (dot 3 u' (w t) + dot 3 (u t) w').
Proof.
  intros U W. unfold d_at in *.
  pose proof (fun k H => derivable_pt_lim_mult _ _ t _ _ (U k H) (W k H)) as M.
  pose proof (derivable_pt_lim_plus _ _ t _ _ (derivable_pt_lim_plus _ _ t _ _ (M 0%nat ltac:(lia)) (M 1%nat ltac:(lia))) (M 2%nat ltac:(lia))) as P.
  eapply d_eq; [| |exact P].
  - intros s. unfold dot. rewrite sumn3. reflexivity.
  - unfold dot. rewrite !sumn3. ring.
Qed.
Lemma d_sub (u w : R -> vec) (u' w' : vec) t k : d_at (fun s => u s k) t (u' k) -> d_at (fun s => w s k) t (w' k) ->
  d_at (fun s => vsub (u s) (w s) k) t (vsub u' w' k).
Proof. intros U W. exact (derivable_pt_lim_minus _ _ t _ _ U W). Qed.
Lemma d_cross (u w : R -> vec) (u' w' : vec) t :
  (forall k, (k < 3)%nat -> d_at (fun s => u s k) t (u' k)) -> (forall k, (k < 3)%nat -> d_at (fun s => w s k) t (w' k)) ->
  forall k, (k < 3)%nat -> d_at (fun s => cross (u s) (w s) k) t (cross u' (w t) k + cross (u t) w' k).
Proof.
  intros U W k Hk. unfold d_at in *.
  assert (M : forall i j, (i < 3)%nat -> (j < 3)%nat -> d_at (fun s => u s i * w s j - u s j * w s i) t (u' i * w t j + u t i * w' j - (u' j * w t i + u t j * w' i))).
  { intros i j Hi Hj. exact (derivable_pt_lim_minus _ _ t _ _ (derivable_pt_lim_mult _ _ t _ _ (U i Hi) (W j Hj)) (derivable_pt_lim_mult _ _ t _ _ (U j Hj) (W i Hi))). }
  i3 k Hk.
  - eapply d_eq; [| |exact (M 1%nat 2%nat ltac:(lia) ltac:(lia))]; [intros s; reflexivity|cbn [cross]; ring].
  - eapply d_eq; [| |exact (M 2%nat 0%nat ltac:(lia) ltac:(lia))]; [intros s; reflexivity|cbn [cross]; ring].
  - eapply d_eq; [| |exact (M 0%nat 1%nat ltac:(lia) ltac:(lia))]; [intros s; reflexivity|cbn [cross]; ring].
Qed.
Lemma d_norm (u : R -> vec) (u' : vec) t : (forall k, (k < 3)%nat -> d_at (fun s => u s k) t (u' k)) -> 0 < norm 3 (u t) ->
  d_at (fun s => norm 3 (u s)) t (dot 3 (u t) u' / norm 3 (u t)).
Proof.
  intros U P. pose proof (d_dot u u u' u' t U U) as D.
  assert (Q : 0 < dot 3 (u t) (u t)). { change (0 < sq 3 (u t)). rewrite <- norm_sq. apply Rmult_lt_0_compat; exact P. }
  pose proof (derivable_pt_lim_comp _ sqrt t _ _ D (derivable_pt_lim_sqrt _ Q)) as C.
  eapply d_eq; [| |exact C]; [intros s; reflexivity|]. change (sqrt (dot 3 (u t) (u t))) with (norm 3 (u t)).
  assert (E : dot 3 u' (u t) = dot 3 (u t) u') by (unfold dot; rewrite !sumn3; ring). rewrite E. field. lra.
Qed.
Lemma d_div f g t f' g' : d_at f t f' -> d_at g t g' -> g t <> 0 -> d_at (fun s => f s / g s) t ((f' * g t - g' * f t) / (g t * g t)).
Proof. intros F G N. pose proof (derivable_pt_lim_div f g t f' g' F G N) as D. eapply d_eq; [| |exact D]; [intros; reflexivity|unfold Rsqr; reflexivity]. Qed.

(** * RTN coordinates *)
Lemma rtn_pos t r : 0 < norm 3 (mo_r r) -> 0 < norm 3 (cross (mo_r r) (mo_v r)) ->
  veq 3 (relative_position_rtn t r) (mvec 3 (lvlh_dcm (mo_r r) (mo_v r)) (vsub (mo_r t) (mo_r r))).
Proof.
  intros P Q k Hk. unfold relative_position_rtn. rewrite frame_dcm by exact Hk. destruct (lvlh_quaternion _ _ P Q) as [_ M].
  apply mvec_ext3; [exact M|intros ? ?; reflexivity|exact Hk].
Qed.
Definition corotating (t r : motion) : vec :=
  vsub (vsub (mo_v t) (mo_v r)) (cross (vscal (1 / (norm 3 (mo_r r) * norm 3 (mo_r r))) (cross (mo_r r) (mo_v r))) (vsub (mo_r t) (mo_r r))).
Lemma rtn_vel t r : 0 < norm 3 (mo_r r) -> 0 < norm 3 (cross (mo_r r) (mo_v r)) ->
  veq 3 (relative_velocity_rtn t r) (mvec 3 (lvlh_dcm (mo_r r) (mo_v r)) (corotating t r)).
Proof.
  intros P Q k Hk. unfold relative_velocity_rtn. rewrite frame_dcm by exact Hk. destruct (lvlh_quaternion _ _ P Q) as [_ M].
  apply mvec_ext3; [exact M|intros ? ?; reflexivity|exact Hk].
Qed.
Lemma radial_identity (r v p q : vec) n : n * n = dot 3 r r -> n <> 0 ->
  dot 3 r (vsub q (cross (vscal (1 / (n * n)) (cross r v)) p)) = dot 3 r q + dot 3 v p - dot 3 r p * dot 3 r v / (n * n).
Proof.
  intros N Z. assert (E : dot 3 r (cross (cross r v) p) = dot 3 r p * dot 3 r v - dot 3 v p * dot 3 r r) by (unfold dot; rewrite !sumn3; cbn [cross]; ring).
  transitivity (dot 3 r q - dot 3 r (cross (cross r v) p) / (n * n)).
  - unfold dot. rewrite !sumn3. unfold vsub, vscal. cbn [cross]. field. exact Z.
  - rewrite E, <- N. field. exact Z.
Qed.
Lemma transverse_identity (r v p q : vec) n : n * n = dot 3 r r -> n <> 0 ->
  let h := cross r v in
  dot 3 (cross h r) (vsub q (cross (vscal (1 / (n * n)) h) p)) = dot 3 (cross h r) q + dot 3 (cross h v) p - dot 3 (cross h r) p * dot 3 r v / (n * n).
Proof.
  intros N Z h. assert (E : dot 3 (cross h r) (cross h p) * 1 = dot 3 (cross h r) p * dot 3 r v - dot 3 (cross h v) p * dot 3 r r) by (unfold h, dot; rewrite !sumn3; cbn [cross]; ring).
  transitivity (dot 3 (cross h r) q - dot 3 (cross h r) (cross h p) / (n * n)).
  - clearbody h. unfold dot. rewrite !sumn3. unfold vsub, vscal. cbn [cross]. field. exact Z.
  - rewrite Rmult_1_r in E. rewrite E, <- N. field. exact Z.
Qed.
Lemma normal_identity (h p q : vec) c : dot 3 h (vsub q (cross (vscal c h) p)) = dot 3 h q.
Proof. unfold dot. rewrite !sumn3. unfold vsub, vscal. cbn [cross]. ring. Qed.
