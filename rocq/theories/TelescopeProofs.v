(** Lemmas for the telescope and the star catalogue. *)
From Coq Require Import Reals Lra Lia List Bool ZArith Psatz.
From Verif Require Import Base RBase VecModel VecProofs QuatModel QuatSpec QuatProofs Trig SunSensorProofs HillProofs GeoProofs WheelJitterProofs ActuatorProofs GnssRxProofs TelescopeModel.
Import ListNotations.
Open Scope R_scope.

Lemma tan_pos f : 0 < f < PI / 2 -> 0 < tan f.
Proof. intros H. apply tan_gt_0; lra. Qed.
Lemma atan_tan f : 0 < f < PI / 2 -> atan (tan f) = f.
Proof.
  intros H. pose proof (atan_open (tan f)) as B. pose proof (tan_is_inj (atan (tan f)) f ltac:(lra) ltac:(lra)) as I. apply I. apply tan_atan.
Qed.
(** being within f of the x axis *)
Lemma atan2_within y x f : 0 < f < PI / 2 -> (x <> 0 \/ y <> 0) -> (Rabs (atan2 y x) < f <-> 0 < x /\ Rabs y < x * tan f).
Proof.
  intros F N. pose proof (tan_pos f F) as T. unfold atan2. destruct (rlt_spec 0 x) as [X|X].
  - assert (E : Rabs (atan (y / x)) < f <-> Rabs (y / x) < tan f).
    { rewrite <- (atan_tan f F) at 1. split; intros H.
      - apply Rabs_def2 in H. destruct H as [H1 H2]. rewrite <- atan_opp in H2. apply Rabs_def1; apply Rnot_le_lt; intros C.
        + apply (Rlt_not_le _ _ H1). apply atan_mono. exact C.
        + apply (Rlt_not_le _ _ H2). apply atan_mono. exact C.
      - apply Rabs_def2 in H. destruct H as [H1 H2]. apply Rabs_def1; [apply atan_increasing; exact H1|]. rewrite <- atan_opp. apply atan_increasing. exact H2. }
    rewrite E. unfold Rdiv. rewrite Rabs_mult, (Rabs_right (/ x)) by (left; apply Rinv_0_lt_compat; exact X). split.
    + intros H. split; [exact X|]. apply (Rmult_lt_reg_r (/ x)); [apply Rinv_0_lt_compat; exact X|]. replace (x * tan f * / x) with (tan f) by (field; lra). exact H.
    + intros [_ H]. apply (Rmult_lt_reg_r x); [exact X|]. rewrite Rmult_assoc, Rinv_l by lra. lra.
  - split; [|intros [C _]; contradiction]. intros H. exfalso. pose proof (atan_open (y / x)) as B. destruct (rlt_spec x 0) as [Y|Y].
    + destruct (rle_spec 0 y) as [Z|Z].
      * assert (atan (y / x) + PI < f) by (eapply Rle_lt_trans; [apply Rle_abs|exact H]). lra.
      * assert (- (atan (y / x) - PI) < f) by (eapply Rle_lt_trans; [apply Rle_abs|]; rewrite Rabs_Ropp; exact H). lra.
    + assert (x = 0) by lra. subst x. destruct N as [N|N]; [contradiction N; reflexivity|]. destruct (rlt_spec 0 y).
      * rewrite Rabs_right in H by lra. lra.
      * rewrite rlt_true in H by lra. rewrite Rabs_left in H by lra. lra.
Qed.
Lemma atan2_within_eq y x f : 0 < f < PI / 2 -> (x <> 0 \/ y <> 0) -> (Rabs (atan2 y x) <= f <-> 0 < x /\ Rabs y <= x * tan f).
Proof.
  intros F N. pose proof (tan_pos f F) as T. unfold atan2. destruct (rlt_spec 0 x) as [X|X].
  - assert (E : Rabs (atan (y / x)) <= f <-> Rabs (y / x) <= tan f).
    { rewrite <- (atan_tan f F) at 1. split; intros H.
      - apply Rabs_le. pose proof (Rle_abs (atan (y / x))) as A1. pose proof (Rle_abs (- atan (y / x))) as A2. rewrite Rabs_Ropp in A2. split; apply Rnot_lt_le; intros C.
        + apply atan_increasing in C. rewrite atan_opp in C. lra.
        + apply atan_increasing in C. lra.
      - apply Rabs_le. pose proof (Rle_abs (y / x)) as A1. pose proof (Rle_abs (- (y / x))) as A2. rewrite Rabs_Ropp in A2. split; [rewrite <- atan_opp|]; apply atan_mono; lra. }
    rewrite E. unfold Rdiv. rewrite Rabs_mult, (Rabs_right (/ x)) by (left; apply Rinv_0_lt_compat; exact X). split.
    + intros H. split; [exact X|]. apply (Rmult_le_reg_r (/ x)); [apply Rinv_0_lt_compat; exact X|]. replace (x * tan f * / x) with (tan f) by (field; lra). exact H.
    + intros [_ H]. apply (Rmult_le_reg_r x); [exact X|]. rewrite Rmult_assoc, Rinv_l by lra. lra.
  - split; [|intros [C _]; contradiction]. intros H. exfalso. pose proof (atan_open (y / x)) as B. destruct (rlt_spec x 0) as [Y|Y].
    + destruct (rle_spec 0 y) as [Z|Z].
      * assert (atan (y / x) + PI <= f) by (eapply Rle_trans; [apply Rle_abs|exact H]). lra.
      * assert (- (atan (y / x) - PI) <= f) by (eapply Rle_trans; [apply Rle_abs|]; rewrite Rabs_Ropp; exact H). lra.
    + assert (x = 0) by lra. subst x. destruct N as [N|N]; [contradiction N; reflexivity|]. destruct (rlt_spec 0 y).
      * rewrite Rabs_right in H by lra. lra.
      * rewrite rlt_true in H by lra. rewrite Rabs_left in H by lra. lra.
Qed.
Lemma tan_atan2 y x : 0 < x -> tan (atan2 y x) = y / x.
Proof. intros X. unfold atan2. rewrite rlt_true by exact X. apply tan_atan. Qed.

(** * Stars *)
Fixpoint seen (t : tele) (q : quat) (cat : list hip) : list star :=
  match cat with [] => [] | s :: r => match observe_star t q s with Some o => o :: seen t q r | None => seen t q r end end.
Lemma stars_loop_spec t q : forall cat found, (length found <= tl_logged t)%nat -> (cat <> [] \/ length found = tl_logged t) ->
  stars_loop t q found cat = Ok (firstn (tl_logged t) (found ++ seen t q cat) ++ repeat no_star (tl_logged t - length (found ++ seen t q cat))).
Proof.
  set (n := tl_logged t). induction cat as [|s r IH]; intros found L H.
  - destruct H as [H|H]; [contradiction H; reflexivity|]. cbn [stars_loop seen]. fold n. rewrite (proj2 (Nat.ltb_ge _ _)) by lia. rewrite app_nil_r, H, Nat.sub_diag. cbn [repeat]. rewrite app_nil_r, <- H, firstn_all. reflexivity.
  - cbn [stars_loop]. fold n. destruct (Nat.ltb_spec (length found) n) as [B|B].
    + cbn [seen]. set (found' := match observe_star t q s with Some o => found ++ [o] | None => found end).
      assert (E : found ++ match observe_star t q s with Some o => o :: seen t q r | None => seen t q r end = found' ++ seen t q r).
      { unfold found'. destruct (observe_star t q s); [rewrite <- app_assoc; reflexivity|reflexivity]. }
      assert (L' : (length found' <= n)%nat) by (unfold found'; destruct (observe_star t q s); rewrite ?app_length; cbn [length]; lia).
      rewrite E. destruct r as [|s' r'].
      * cbn [seen]. rewrite app_nil_r. rewrite firstn_all2 by exact L'. reflexivity.
      * apply IH; [exact L'|left; discriminate].
    + assert (length found = n) by lia. f_equal. rewrite app_length. replace (n - (length found + length (seen t q (s :: r))))%nat with 0%nat by lia.
      cbn [repeat]. rewrite app_nil_r, firstn_app, H0, Nat.sub_diag. cbn [firstn]. rewrite app_nil_r, <- H0, firstn_all. reflexivity.
Qed.
Lemma in_seen t q cat o : In o (seen t q cat) <-> exists s, In s cat /\ observe_star t q s = Some o.
Proof.
  induction cat as [|s r IH]; cbn [seen].
  - split; [contradiction|]. intros (s & [] & _).
  - destruct (observe_star t q s) as [o'|] eqn:E.
    + cbn [In]. rewrite IH. split.
      * intros [<- | (s' & I & X)]; [exists s; split; [left; reflexivity|exact E]|exists s'; split; [right; exact I|exact X]].
      * intros (s' & [<- | I] & X); [left; congruence|right; exists s'; split; assumption].
    + rewrite IH. split.
      * intros (s' & I & X). exists s'. split; [right; exact I|exact X].
      * intros (s' & [<- | I] & X); [congruence|exists s'; split; assumption].
Qed.

(** * Catalogue *)
Fixpoint bright (max : R) (rows : list hip) : list hip :=
  match rows with [] => [] | s :: r => if rlt max (hp_mag s) then [] else s :: bright max r end.
Lemma hip_read_spec max trailing : forall rows acc,
  hip_read max rows trailing acc =
  if (trailing && Nat.eqb (length (bright max rows)) (length rows))%bool then UB else Ok (acc ++ bright max rows).
Proof.
  induction rows as [|s r IH]; intros acc.
  - cbn [hip_read bright length Nat.eqb]. destruct trailing; cbn; [reflexivity|]. rewrite app_nil_r. reflexivity.
  - cbn [hip_read bright]. destruct (rlt max (hp_mag s)).
    + cbn [length Nat.eqb]. rewrite andb_false_r, app_nil_r. reflexivity.
    + destruct r as [|s' r'].
      * cbn [bright length Nat.eqb]. destruct trailing; reflexivity.
      * rewrite IH. cbn [length]. replace (acc ++ s :: bright max (s' :: r')) with ((acc ++ [s]) ++ bright max (s' :: r')) by (rewrite <- app_assoc; reflexivity). reflexivity.
Qed.
