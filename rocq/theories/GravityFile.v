(** Spherical form of the potential, coefficient files. *)
From Coq Require Import Reals Lra Lia List Arith Bool ZArith.
From Verif Require Import Base RBase VecModel VecProofs GravitySpec GravityHarmonics GravityModel GravityProofs GravityGrad GravityJac.
Import ListNotations.
Open Scope R_scope.

Lemma cpow_polar a l m : cpow (a * cos l) (a * sin l) m = (a ^ m * cos (INR m * l), a ^ m * sin (INR m * l)).
Proof.
  induction m as [|m IH].
  - cbn [cpow pow INR]. rewrite Rmult_0_l, cos_0, sin_0. f_equal; ring.
  - cbn [cpow]. rewrite IH. rewrite S_INR. replace ((INR m + 1) * l) with (INR m * l + l) by ring. rewrite cos_plus, sin_plus. cbn [pow]. f_equal; ring.
Qed.
Lemma radius_polar r lat lon : 0 < r -> radius (r * cos lat * cos lon) (r * cos lat * sin lon) (r * sin lat) = r.
Proof.
  intros H. unfold radius. replace (_ + _ + _) with (r * r).
  - apply sqrt_square. lra.
  - pose proof (sin2_cos2 lat) as E1. pose proof (sin2_cos2 lon) as E2. unfold Rsqr in *.
    transitivity (r * r * (sin lat * sin lat + cos lat * cos lat * (sin lon * sin lon + cos lon * cos lon))); [rewrite E2; rewrite Rmult_1_r, E1; ring|ring].
Qed.
Lemma potential_polar mu rr deg c s r lat lon : 0 < r -> rr <> 0 ->
  potential mu rr deg c s (r * cos lat * cos lon) (r * cos lat * sin lon) (r * sin lat) = potential_spherical mu rr deg c s r lat lon.
Proof.
  intros H Hr. unfold potential, potential_spherical.
  rewrite <- !sum_to_scal. apply sum_to_ext. intros n _. rewrite <- !sum_to_scal. apply sum_to_ext. intros m _.
  unfold solid. cbv zeta. rewrite radius_polar by exact H. rewrite cpow_polar. cbn [fst snd]. unfold assoc_legendre.
  replace (r * sin lat / r) with (sin lat) by (field; lra). rewrite Rpow_mult_distr. rewrite (pow_add (rr / r) n 1). cbn [pow].
  assert (r ^ m <> 0) by (apply pow_nonzero; lra). field. repeat split; try lra; assumption.
Qed.
Lemma file_value_other l n m sn v : (forall i j c s, In (Some (i, j, c, s)) l -> (i, j) <> (Z.of_nat n, Z.of_nat m)) -> file_value l n m sn v = v.
Proof.
  revert v. induction l as [|[[[[i j] c] s]|] l IH]; intros v H; cbn [file_value]; [reflexivity| |].
  - replace ((i =? Z.of_nat n) && (j =? Z.of_nat m))%Z with false; [apply IH; intros i0 j0 c0 s0 I0; apply (H i0 j0 c0 s0); right; exact I0|].
    symmetry. apply andb_false_iff. specialize (H i j c s (or_introl eq_refl)). destruct (Z.eqb_spec i (Z.of_nat n)); [|now left]. destruct (Z.eqb_spec j (Z.of_nat m)); [|now right]. subst. congruence.
  - apply IH. intros i0 j0 c0 s0 I0. apply (H i0 j0 c0 s0). right. exact I0.
Qed.

(** square arrays *)
Definition square (d : nat) (c : list (list R)) : Prop := length c = (d + 1)%nat /\ forall n, (n <= d)%nat -> length (nth n c []) = (d + 1)%nat.
Lemma zeros_square d : square d (zeros d).
Proof.
  unfold zeros, square. split; [apply repeat_length|]. intros n Hn.
  rewrite (nth_indep _ [] (repeat 0 (d + 1))) by (rewrite repeat_length; lia). rewrite nth_repeat. apply repeat_length.
Qed.
Lemma nth_repeat0 {T} (a : T) k n : nth n (repeat a k) a = a. Proof. apply nth_repeat. Qed.
Lemma zeros_coefficient d n m : coefficient (zeros d) n m = 0.
Proof.
  unfold coefficient, zeros. destruct (le_lt_dec (d + 1) n).
  - rewrite (nth_overflow (repeat _ _)) by (rewrite repeat_length; lia). now destruct m.
  - rewrite (nth_indep _ [] (repeat 0 (d + 1))) by (rewrite repeat_length; lia). rewrite nth_repeat. apply nth_repeat.
Qed.
Lemma square_has d c deg : square d c -> (deg <= d)%nat -> has_coefficients deg c.
Proof. intros [_ H] L n m Hn. rewrite H by lia. lia. Qed.
Definition splice {T} (l : list T) (i : nat) (v : T) : list T := firstn i l ++ v :: skipn (S i) l.
Lemma splice_length {T} (l : list T) i v : (i < length l)%nat -> length (splice l i v) = length l.
Proof. intros H. unfold splice. rewrite app_length. cbn [length]. rewrite firstn_length, skipn_length. lia. Qed.
Lemma splice_nth {T} (l : list T) i v k d : (i < length l)%nat -> nth k (splice l i v) d = if (k =? i)%nat then v else nth k l d.
Proof.
  intros H. unfold splice. destruct (Nat.eqb_spec k i) as [->|Ne].
  - rewrite app_nth2 by (rewrite firstn_length; lia). rewrite firstn_length. replace (i - Nat.min i (length l))%nat with 0%nat by lia. reflexivity.
  - destruct (lt_dec k i).
    + rewrite app_nth1 by (rewrite firstn_length; lia). rewrite <- (firstn_skipn i l) at 2. rewrite app_nth1 by (rewrite firstn_length; lia). reflexivity.
    + rewrite app_nth2 by (rewrite firstn_length; lia). rewrite firstn_length. replace (k - Nat.min i (length l))%nat with (S (k - S i)) by lia. cbn [nth].
      rewrite <- (firstn_skipn (S i) l) at 2. rewrite app_nth2 by (rewrite firstn_length; lia). f_equal. rewrite firstn_length. lia.
Qed.
Lemma put_ok d c n m v : square d c -> (0 <= n <= Z.of_nat d)%Z -> (0 <= m <= Z.of_nat d)%Z ->
  exists c', put c n m v = Ok c' /\ square d c' /\ forall i j, (i <= d)%nat -> (j <= d)%nat -> coefficient c' i j = if ((n =? Z.of_nat i) && (m =? Z.of_nat j))%Z then v else coefficient c i j.
Proof.
  intros [L1 L2] Hn Hm. unfold put. replace ((n <? 0) || (m <? 0))%Z with false by (symmetry; apply orb_false_iff; split; apply Z.ltb_ge; lia).
  set (a := Z.to_nat n). set (b := Z.to_nat m). assert (Ha : (a <= d)%nat) by (unfold a; lia). assert (Hb : (b <= d)%nat) by (unfold b; lia).
  rewrite (nth_error_nth' c []) by (rewrite L1; lia). rewrite L2 by exact Ha. replace (b <? d + 1)%nat with true by (symmetry; apply Nat.ltb_lt; lia).
  fold (splice (nth a c []) b v). fold (splice c a (splice (nth a c []) b v)). eexists. split; [reflexivity|].
  assert (La : (a < length c)%nat) by (rewrite L1; lia). assert (Lb : (b < length (nth a c []))%nat) by (rewrite L2; lia). split.
  - split; [now rewrite splice_length|]. intros i Hi. rewrite splice_nth by exact La. destruct (Nat.eqb_spec i a); [rewrite splice_length by exact Lb; now apply L2|now apply L2].
  - intros i j Hi Hj. unfold coefficient. rewrite splice_nth by exact La. 
    destruct (Nat.eqb_spec i a) as [->|Ne].
    + rewrite splice_nth by exact Lb. replace (n =? Z.of_nat a)%Z with true by (symmetry; apply Z.eqb_eq; unfold a; lia). cbn [andb].
      destruct (Nat.eqb_spec j b) as [->|Nj]; [replace (m =? Z.of_nat b)%Z with true by (symmetry; apply Z.eqb_eq; unfold b; lia); reflexivity|].
      replace (m =? Z.of_nat j)%Z with false by (symmetry; apply Z.eqb_neq; unfold b in Nj; lia). reflexivity.
    + replace (n =? Z.of_nat i)%Z with false by (symmetry; apply Z.eqb_neq; unfold a in Ne; lia). reflexivity.
Qed.
Definition in_square (d : nat) (l : cline) : Prop := exists n m c s, l = Some (n, m, c, s) /\ (0 <= n <= Z.of_nat d)%Z /\ (0 <= m <= Z.of_nat d)%Z.
Lemma read_ok un d k : forall lines c s, square d c -> square d s -> (k <= length lines)%nat -> Forall (in_square d) (firstn k lines) ->
  exists c' s', read_lines un lines k c s = Ok (c', s') /\ square d c' /\ square d s' /\
    forall i j, (i <= d)%nat -> (j <= d)%nat -> coefficient c' i j = file_value (firstn k lines) i j false (coefficient c i j) /\ coefficient s' i j = file_value (firstn k lines) i j true (coefficient s i j).
Proof.
  induction k as [|k IH]; intros lines c s Sc Ss L F.
  - exists c, s. split; [reflexivity|]. repeat split; try apply Sc; try apply Ss.
  - destruct lines as [|l lines]; [cbn in L; lia|]. cbn [firstn] in F. inversion F as [|? ? (n & m & cv & sv & -> & Hn & Hm) F']. subst. cbn [read_lines].
    destruct (put_ok d c n m cv Sc Hn Hm) as (c1 & E1 & S1 & V1). destruct (put_ok d s n m sv Ss Hn Hm) as (s1 & E2 & S2 & V2). rewrite E1. cbn [bind]. rewrite E2. cbn [bind].
    destruct (IH lines c1 s1 S1 S2) as (c' & s' & E & Sc' & Ss' & Vf); [cbn in L; lia|exact F'|]. exists c', s'. split; [exact E|]. split; [exact Sc'|]. split; [exact Ss'|].
    intros i j Hi Hj. destruct (Vf i j Hi Hj) as [Va Vb]. rewrite Va, Vb, V1, V2 by assumption. split; reflexivity.
Qed.

(** ** Missing coefficients *)
Lemma for_up_ok {T} (body : nat -> T -> outcome T) lo k a b : for_up body lo k a = Ok b -> forall n, (lo <= n < lo + k)%nat -> exists x y, body n x = Ok y.
Proof.
  revert lo a. induction k as [|k IH]; intros lo a E n Hn; [lia|]. cbn [for_up] in E. destruct (body lo a) as [a1| | |] eqn:E1; cbn [bind] in E; try discriminate.
  destruct (Nat.eq_dec n lo) as [->|Ne]; [eauto|]. eapply IH; [exact E|lia].
Qed.
Lemma for_up_ub {T} (body : nat -> T -> outcome T) lo k a : (forall n x, (exists y, body n x = Ok y) \/ body n x = UB) -> (exists b, for_up body lo k a = Ok b) \/ for_up body lo k a = UB.
Proof.
  intros H. revert lo a. induction k as [|k IH]; intros lo a; cbn [for_up]; [left; eauto|]. destruct (H lo a) as [[y E]|E]; rewrite E; cbn [bind]; [apply IH|now right].
Qed.
Lemma coef_cases c n m : (exists v, coef c n m = Ok v) \/ coef c n m = UB.
Proof. unfold coef. destruct (nth_error c n) as [r|]; [destruct (nth_error r m)|]; eauto. Qed.
Lemma t_get_cases t n m : (exists v w, t_get t n m = Ok (v, w)) \/ t_get t n m = UB.
Proof. unfold t_get. destruct (_ && _); [left; destruct (t_at t n m) as [v w]; eauto|now right]. Qed.
Ltac ocases := repeat match goal with
  | |- context [coef ?c ?n ?m] => let E := fresh in destruct (coef_cases c n m) as [[? E]|E]; rewrite E; cbn [bind]; [|now right]
  | |- context [t_get ?t ?n ?m] => let E := fresh in destruct (t_get_cases t n m) as [(? & ? & E)|E]; rewrite E; cbn [bind]; [|now right]
  end.
Lemma acc_m_cases g t n m a : (exists b, acc_body_m g t n m a = Ok b) \/ acc_body_m g t n m a = UB.
Proof. destruct a as [[ax ay] az]. unfold acc_body_m. ocases. left. eauto. Qed.
Lemma acc_cases g t n a : (exists b, acc_body g t n a = Ok b) \/ acc_body g t n a = UB.
Proof. destruct a as [[ax ay] az]. unfold acc_body. ocases. apply for_up_ub. intros. apply acc_m_cases. Qed.
Lemma coef_has c n m v : coef c n m = Ok v -> (m < length (nth n c []))%nat.
Proof.
  unfold coef. destruct (nth_error c n) as [r|] eqn:E; [|discriminate]. rewrite (nth_error_nth c n [] E). destruct (nth_error r m) eqn:E2; [|discriminate]. intros _.
  apply nth_error_Some. congruence.
Qed.
Lemma acc_needs g t n a b : acc_body g t n a = Ok b -> forall m, (m <= n)%nat -> (m < length (nth n (gp_c g) []))%nat /\ (m < length (nth n (gp_s g) []))%nat.
Proof.
  destruct a as [[ax ay] az]. unfold acc_body. destruct (coef (gp_c g) n 0) as [c0| | |] eqn:E1; cbn [bind]; try discriminate.
  destruct (coef (gp_s g) n 0) as [s0| | |] eqn:E2; cbn [bind]; try discriminate.
  destruct (t_get_cases t (n + 1) 1) as [(? & ? & E3)|E3]; rewrite E3; cbn [bind]; try discriminate.
  destruct (t_get_cases t (n + 1) 0) as [(? & ? & E4)|E4]; rewrite E4; cbn [bind]; try discriminate.
  intros E m Hm. destruct m as [|m]; [split; eapply coef_has; eassumption|].
  destruct (for_up_ok _ _ _ _ _ E (S m)) as ([[px py] pz] & w & Ew); [lia|]. unfold acc_body_m in Ew.
  destruct (coef (gp_c g) n (S m)) as [c1| | |] eqn:E5; cbn [bind] in Ew; try discriminate.
  destruct (coef (gp_s g) n (S m)) as [s1| | |] eqn:E6; cbn [bind] in Ew; try discriminate. split; eapply coef_has; eassumption.
Qed.
Lemma acceleration_needs g x y z : off x y z -> (1 <= gp_degree g)%nat ->
  ~ (has_coefficients (gp_degree g) (gp_c g) /\ has_coefficients (gp_degree g) (gp_s g)) -> calc_acceleration g (v3 x y z) = UB.
Proof.
  intros H Hd M. unfold calc_acceleration. replace (gp_degree g <=? 0)%nat with false by (symmetry; apply Nat.leb_gt; lia). rewrite place_norm.
  destruct (table_run g x y z H (gp_degree g + 1)) as (t & E & _). rewrite E. cbn [bind].
  destruct (for_up_ub (acc_body g t) 0 (gp_degree g + 1) (0, 0, 0)) as [[b Eb]|Eb]; [intros; apply acc_cases| |rewrite Eb; reflexivity].
  exfalso. apply M. split; intros n m Hn; (destruct (for_up_ok _ _ _ _ _ Eb n) as (p & q & Eq); [lia|]); apply (acc_needs _ _ _ _ _ Eq m); lia.
Qed.
