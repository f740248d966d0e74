(** The recursive table holds the normalised solid harmonics. *)
From Coq Require Import Reals Lra Lia List Arith Bool ZArith.
From Verif Require Import Base RBase VecModel VecProofs GravitySpec GravityHarmonics GravityModel.
Import ListNotations.
Open Scope R_scope.

(** ** Normalisation factors *)
Definition fa (k : nat) : R := INR (fact k).
Lemma fa_S k : fa (S k) = (INR k + 1) * fa k.
Proof. unfold fa. rewrite fact_simpl, mult_INR, S_INR. reflexivity. Qed.
Lemma fa_pos k : 0 < fa k.
Proof. unfold fa. apply lt_0_INR, lt_O_fact. Qed.
Definition ee (m : nat) : R := match m with O => 1 | _ => 2 end.
Lemma ee_pos m : 0 < ee m. Proof. destruct m; cbn; lra. Qed.
Notation N := norm_factor.
Definition sqn (m k : nat) : R := ee m * (2 * (INR m + INR k) + 1) * fa k / fa (2 * m + k).
Lemma sqn_pos m k : 0 < sqn m k.
Proof.
  unfold sqn. pose proof (ee_pos m). pose proof (fa_pos k). pose proof (fa_pos (2 * m + k)). pose proof (pos_INR m). pose proof (pos_INR k).
  apply Rdiv_lt_0_compat; [|assumption]. apply Rmult_lt_0_compat; [|assumption]. apply Rmult_lt_0_compat; lra.
Qed.
Lemma N_sqn m k : N (m + k) m = sqrt (sqn m k).
Proof.
  unfold N, sqn, ee, fa. rewrite plus_INR. replace (m + k - m)%nat with k by lia. replace (m + k + m)%nat with (2 * m + k)%nat by lia. reflexivity.
Qed.
Lemma N_pos m k : 0 < N (m + k) m. Proof. rewrite N_sqn. apply sqrt_lt_R0, sqn_pos. Qed.
Lemma pos_sq_eq a b : 0 <= a -> 0 <= b -> a * a = b * b -> a = b.
Proof. intros. apply Rsqr_inj; [assumption..|assumption]. Qed.
(** comparing products of factors through their squares *)
Lemma N_ratio m k m' k' (f l : R) : 0 <= f -> 0 <= l -> sqn m' k' * (f * f) = l * l * sqn m k -> N (m' + k') m' * f = l * N (m + k) m.
Proof.
  intros Hf Hl E. rewrite !N_sqn. apply pos_sq_eq.
  - apply Rmult_le_pos; [apply sqrt_pos|exact Hf].
  - apply Rmult_le_pos; [exact Hl|apply sqrt_pos].
  - transitivity ((sqrt (sqn m' k') * sqrt (sqn m' k')) * (f * f)); [ring|]. rewrite sqrt_def by (pose proof (sqn_pos m' k'); lra). rewrite E.
    transitivity (l * l * (sqrt (sqn m k) * sqrt (sqn m k))); [|ring]. rewrite sqrt_def by (pose proof (sqn_pos m k); lra). ring.
Qed.
Lemma sq1 p : 0 <= p -> sqrt p * sqrt p = p. Proof. apply sqrt_def. Qed.
Lemma sq2 p q : 0 <= p -> 0 <= q -> sqrt p * sqrt q * (sqrt p * sqrt q) = p * q.
Proof. intros. transitivity ((sqrt p * sqrt p) * (sqrt q * sqrt q)); [ring|]. rewrite !sq1 by assumption. reflexivity. Qed.
Lemma tw1 m k : (2 * S m + k = S (S (2 * m + k)))%nat. Proof. lia. Qed.
Lemma tw2 m k : (2 * m + S k = S (2 * m + k))%nat. Proof. lia. Qed.
Ltac unsq := unfold sqn; rewrite ?tw1, ?tw2, ?tw1, ?tw2, ?tw1, ?tw2; rewrite ?fa_S; rewrite ?S_INR, ?plus_INR, ?mult_INR; rewrite ?S_INR, ?plus_INR, ?mult_INR.
Ltac posi := repeat first [lra | apply Rdiv_lt_0_compat | apply Rmult_lt_0_compat | apply Rmult_le_pos].

Lemma N00 : N 0 0 = 1.
Proof. unfold N. cbn [fact Nat.sub Nat.add INR]. replace (1 * (2 * 0 + 1) * 1 / 1) with 1 by field. apply sqrt_1. Qed.

Section Recursion.
  Variables (g : gravity) (x y z : R).
  Hypothesis Hoff : off x y z.
  Definition pl : place := mkPlace x y z (radius x y z).
  Notation rr := (gp_r g).
  Notation u := (inv_r x y z).
  Lemma tmp_u : rr / radius x y z ^ 2 = rr * u * u.
  Proof. unfold inv_r. pose proof (radius_pos x y z Hoff). cbn [pow]. field. lra. Qed.
  Definition spec (n m : nat) : R * R := (N n m * V rr n m x y z, N n m * W rr n m x y z).

  Lemma diag_norm m : (if (m + 1 =? 1)%nat then (2 * INR (m + 1) - 1) * sqrt (2 * INR (m + 1) + 1) else sqrt ((2 * INR (m + 1) + 1) / (2 * INR (m + 1)))) * N m m
    = (2 * INR m + 1) * N (m + 1) (m + 1).
  Proof.
    pose proof (pos_INR m) as Pm. pose proof (fa_pos (2 * m)) as Pf. rewrite plus_INR. cbn [INR]. destruct m as [|m].
    - cbn [Nat.eqb Nat.add INR]. pose proof (N_ratio 1 0 0 0 (sqrt 3) 1) as R. cbn [Nat.add] in R.
      replace (2 * (0 + 1) + 1) with 3 by ring. transitivity (N 0 0 * sqrt 3); [ring|]. rewrite R; [ring|apply sqrt_pos|lra|].
      rewrite sq1 by lra. unfold sqn, fa. cbn [ee Nat.mul Nat.add fact INR]. field.
    - replace (S m + 1 =? 1)%nat with false by (symmetry; apply Nat.eqb_neq; lia).
      pose proof (N_ratio (S m + 1) 0 (S m) 0 (sqrt ((2 * (INR (S m) + 1) + 1) / (2 * (INR (S m) + 1)))) (2 * INR (S m) + 1)) as R.
      rewrite !Nat.add_0_r in R. rewrite (Rmult_comm (sqrt _)). apply R; [apply sqrt_pos|lra|].
      rewrite sq1 by (apply Rlt_le; posi). replace (S m + 1)%nat with (S (S m)) by lia. cbn [ee]. unsq. replace (2 * m + 0)%nat with (2 * m)%nat by lia.
      pose proof (fa_pos (2 * m)). pose proof (pos_INR m). unfold fa at 1 3. cbn [fact INR ee].
      rewrite ?mult_INR. cbn [INR]. field. repeat split; lra.
  Qed.
  Lemma diag_step m : nn_update g pl (m + 1) (m + 1) (spec m m) = spec (m + 1) (m + 1).
  Proof.
    unfold nn_update, spec. cbn [fst snd pl p_x p_y p_z p_r]. rewrite tmp_u. pose proof (diag_norm m) as D. set (cn := if (m + 1 =? 1)%nat then _ else _) in *. clearbody cn.
    replace (m + 1)%nat with (S m) in * by lia. destruct (VW_diag rr m x y z Hoff) as [E1 E2]. rewrite E1, E2. f_equal.
    - transitivity (cn * N m m * ((rr * u * u) * (x * V rr m m x y z - y * W rr m m x y z))); [ring|]. rewrite D. ring.
    - transitivity (cn * N m m * ((rr * u * u) * (x * W rr m m x y z + y * V rr m m x y z))); [ring|]. rewrite D. ring.
  Qed.

  Definition cn (n m : nat) : R := sqrt (((2 * INR n + 1) * (INR n - INR m)) / ((2 * INR n - 1) * (INR n + INR m))).
  Lemma cn_ratio m k : cn (m + S k) m * N (m + k) m = N (m + S k) m.
  Proof.
    unfold cn. rewrite plus_INR, S_INR. pose proof (pos_INR m). pose proof (pos_INR k). pose proof (fa_pos k). pose proof (fa_pos (2 * m + k)).
    rewrite (Rmult_comm (sqrt _)). rewrite <- (Rmult_1_l (N (m + S k) m)). apply N_ratio; [apply sqrt_pos|lra|].
    rewrite sq1 by (apply Rlt_le; posi). unsq. cbn [INR]. field. repeat split; lra.
  Qed.
  Lemma col_first m : nm_update g pl (m + 1) m (spec m m) (0, 0) = spec (m + 1) m.
  Proof.
    unfold nm_update, spec. cbn [fst snd pl p_x p_y p_z p_r]. rewrite tmp_u. fold (cn (m + 1) m). pose proof (cn_ratio m 0) as C. rewrite Nat.add_0_r in C.
    set (c2n := if (m + 1 <=? 1)%nat then _ else _). clearbody c2n. set (c2 := (_ + _ - 1) / _). clearbody c2.
    replace ((2 * INR (m + 1) - 1) / (INR (m + 1) - INR m)) with (2 * INR m + 1) by (rewrite plus_INR; cbn [INR]; field; lra).
    rewrite <- C. replace (m + 1)%nat with (S m) in * by lia. destruct (VW_column1 rr m x y z) as [E1 E2]. rewrite E1, E2. f_equal; ring.
  Qed.
  Lemma col_next m k : nm_update g pl (m + S (S k)) m (spec (m + S k) m) (spec (m + k) m) = spec (m + S (S k)) m.
  Proof.
    unfold nm_update, spec. cbn [fst snd pl p_x p_y p_z p_r]. rewrite tmp_u. fold (cn (m + S (S k)) m).
    replace (m + S (S k) <=? 1)%nat with false by (symmetry; apply Nat.leb_gt; lia).
    assert (E : sqrt ((2 * INR (m + S (S k)) - 1) * (INR (m + S (S k)) - INR m - 1) / ((2 * INR (m + S (S k)) - 3) * (INR (m + S (S k)) + INR m - 1))) = cn (m + S k) m).
    { unfold cn. f_equal. rewrite !plus_INR, !S_INR. f_equal; [|f_equal]; ring. }
    rewrite E. clear E. rewrite <- (cn_ratio m (S k)), <- (cn_ratio m k).
    assert (HK : INR (m + S (S k)) - INR m = INR k + 2) by (rewrite plus_INR, !S_INR; ring). rewrite HK.
    pose proof (pos_INR k) as Pk. destruct (VW_column rr (m + k) m x y z) as [E1 E2].
    replace (S (S (m + k))) with (m + S (S k))%nat in * by lia. replace (S (m + k)) with (m + S k)%nat in * by lia.
    replace (INR (m + k) - INR m + 2) with (INR k + 2) in * by (rewrite plus_INR; ring).
    set (c1 := cn (m + S (S k)) m). set (c2 := cn (m + S k) m). set (nn := N (m + k) m).
    set (a := V rr (m + S (S k)) m x y z) in *. set (b := W rr (m + S (S k)) m x y z) in *.
    set (a1 := V rr (m + S k) m x y z) in *. set (b1 := W rr (m + S k) m x y z) in *.
    set (a0 := V rr (m + k) m x y z) in *. set (b0 := W rr (m + k) m x y z) in *.
    f_equal.
    - transitivity (c1 * (c2 * nn) * (((2 * INR (m + k) + 3) * (rr * u * u) * z * a1 - (INR (m + k) + INR m + 1) * (rr * (rr * u * u)) * a0) / (INR k + 2))).
      + rewrite !plus_INR, !S_INR. field. lra.
      + rewrite <- E1. field. lra.
    - transitivity (c1 * (c2 * nn) * (((2 * INR (m + k) + 3) * (rr * u * u) * z * b1 - (INR (m + k) + INR m + 1) * (rr * (rr * u * u)) * b0) / (INR k + 2))).
      + rewrite !plus_INR, !S_INR. field. lra.
      + rewrite <- E2. field. lra.
  Qed.
  Lemma first_cell : (rr / radius x y z, 0) = spec 0 0.
  Proof. unfold spec, V, W, F, A, B. rewrite N00. cbn [Nat.add cpow fst snd Q pow]. unfold inv_r. f_equal; [unfold Rdiv; ring|ring]. Qed.

  (** ** The loops *)
  Lemma for_up_app {T} (body : nat -> T -> outcome T) k lo a : for_up body lo (S k) a = bind (for_up body lo k a) (fun b => body (lo + k)%nat b).
  Proof.
    revert lo a. induction k as [|k IH]; intros lo a.
    - cbn [for_up bind]. rewrite Nat.add_0_r. destruct (body lo a); reflexivity.
    - change (for_up body lo (S (S k)) a) with (bind (body lo a) (fun b => for_up body (S lo) (S k) b)).
      change (for_up body lo (S k) a) with (bind (body lo a) (fun b => for_up body (S lo) k b)).
      destruct (body lo a); cbn [bind]; try reflexivity. rewrite IH. replace (S lo + k)%nat with (lo + S k)%nat by lia. reflexivity.
  Qed.
  Definition filled (d : nat) (t : table) (ok : nat -> nat -> Prop) : Prop := t_size t = (d + 1)%nat /\ forall i j, ok i j -> t_at t i j = spec i j.
  Lemma t_get_ok t d n m : t_size t = (d + 1)%nat -> (n <= d)%nat -> (m <= d)%nat -> t_get t n m = Ok (t_at t n m).
  Proof.
    intros S H1 H2. unfold t_get. rewrite S. replace (n <? d + 1)%nat with true by (symmetry; apply Nat.ltb_lt; lia).
    replace (m <? d + 1)%nat with true by (symmetry; apply Nat.ltb_lt; lia). reflexivity.
  Qed.
  Lemma t_set_ok t d n m v : t_size t = (d + 1)%nat -> (n <= d)%nat -> (m <= d)%nat ->
    exists t', t_set t n m v = Ok t' /\ t_size t' = (d + 1)%nat /\ t_at t' n m = v /\ (forall i j, (i, j) <> (n, m) -> t_at t' i j = t_at t i j).
  Proof.
    intros S H1 H2. unfold t_set. rewrite S. replace (n <? d + 1)%nat with true by (symmetry; apply Nat.ltb_lt; lia).
    replace (m <? d + 1)%nat with true by (symmetry; apply Nat.ltb_lt; lia). cbn [andb]. eexists. split; [reflexivity|]. cbn [t_size t_at].
    split; [reflexivity|]. split; [now rewrite !Nat.eqb_refl|]. intros i j Hn. destruct (Nat.eqb_spec i n); [|reflexivity]. destruct (Nat.eqb_spec j m); [|reflexivity]. subst. congruence.
  Qed.
  Lemma column_run d m k t : (m < d)%nat -> (k <= d - m)%nat -> filled d t (fun i j => (j < m /\ j <= i <= d) \/ (j = m /\ i = m))%nat ->
    exists t', for_up (column_body g pl m) (m + 1) k t = Ok t' /\ filled d t' (fun i j => (j < m /\ j <= i <= d) \/ (j = m /\ m <= i <= m + k))%nat.
  Proof.
    intros Hm. induction k as [|k IH]; intros Hk Ht.
    - exists t. split; [reflexivity|]. destruct Ht as [Hs Ht]. split; [exact Hs|]. intros i j H. apply Ht. lia.
    - destruct IH as (t' & E & [Hs Ht']); [lia|exact Ht|]. rewrite for_up_app, E. cbn [bind]. unfold column_body.
      rewrite (t_get_ok t' d) by (try exact Hs; lia). cbn [bind]. rewrite (Ht' (m + 1 + k - 1)%nat m) by lia.
      destruct k as [|k].
      + replace (m + 1 + 0 <=? m + 1)%nat with true by (symmetry; apply Nat.leb_le; lia). cbn [bind].
        replace (m + 1 + 0 - 1)%nat with m by lia. replace (m + 1 + 0)%nat with (m + 1)%nat by lia. rewrite col_first.
        destruct (t_set_ok t' d (m + 1) m (spec (m + 1) m) Hs) as (t2 & E2 & S2 & V2 & O2); [lia|lia|]. exists t2. split; [exact E2|]. split; [exact S2|].
        intros i j H. destruct (Nat.eq_dec i (m + 1)) as [->|Ni]; [destruct (Nat.eq_dec j m) as [->|Nj]|]; [exact V2| |]; (rewrite O2 by congruence; apply Ht'; lia).
      + replace (m + 1 + S k <=? m + 1)%nat with false by (symmetry; apply Nat.leb_gt; lia).
        rewrite (t_get_ok t' d) by (try exact Hs; lia). cbn [bind]. rewrite (Ht' (m + 1 + S k - 2)%nat m) by lia.
        replace (m + 1 + S k - 1)%nat with (m + S k)%nat by lia. replace (m + 1 + S k - 2)%nat with (m + k)%nat by lia. replace (m + 1 + S k)%nat with (m + S (S k))%nat by lia.
        rewrite col_next.
        destruct (t_set_ok t' d (m + S (S k)) m (spec (m + S (S k)) m) Hs) as (t2 & E2 & S2 & V2 & O2); [lia|lia|]. exists t2. split; [exact E2|]. split; [exact S2|].
        intros i j H. destruct (Nat.eq_dec i (m + S (S k))) as [->|Ni]; [destruct (Nat.eq_dec j m) as [->|Nj]|]; [exact V2| |]; (rewrite O2 by congruence; apply Ht'; lia).
  Qed.
  Lemma sweep_run d k t : (k <= d)%nat -> filled d t (fun i j => i = 0 /\ j = 0)%nat ->
    exists t', for_up (sweep_body g pl d) 0 k t = Ok t' /\ filled d t' (fun i j => (j < k /\ j <= i <= d) \/ (j = k /\ i = k))%nat.
  Proof.
    induction k as [|k IH]; intros Hk Ht.
    - exists t. split; [reflexivity|]. destruct Ht as [Hs Ht]. split; [exact Hs|]. intros i j H. apply Ht. lia.
    - destruct IH as (t' & E & F'); [lia|exact Ht|]. rewrite for_up_app, E. cbn [bind Nat.add]. unfold sweep_body.
      destruct (column_run d k (d - k) t') as (t2 & E2 & [S2 F2]); [lia|lia|exact F'|]. rewrite E2. cbn [bind].
      replace (k + 1 - 1)%nat with k by lia. rewrite (t_get_ok t2 d) by (try exact S2; lia). cbn [bind]. rewrite (F2 k k) by lia. rewrite diag_step.
      destruct (t_set_ok t2 d (k + 1) (k + 1) (spec (k + 1) (k + 1)) S2) as (t3 & E3 & S3 & V3 & O3); [lia|lia|]. exists t3. split; [exact E3|]. split; [exact S3|].
      intros i j H. destruct (Nat.eq_dec i (k + 1)) as [->|Ni]; [destruct (Nat.eq_dec j (k + 1)) as [->|Nj]|]; [exact V3| |]; (rewrite O3 by congruence; apply F2; lia).
  Qed.
  Lemma table_run d : exists t, vw_table g pl d = Ok t /\ t_size t = (d + 1)%nat /\ forall n m, (m <= n <= d)%nat -> t_at t n m = spec n m.
  Proof.
    unfold vw_table. destruct (t_set_ok (t_zero (d + 1)) d 0 0 (rr / radius x y z, 0)) as (t0 & E0 & S0 & V0 & _); [reflexivity|lia|lia|].
    cbn [pl p_r]. rewrite E0. cbn [bind]. destruct (sweep_run d d t0) as (t & E & [S1 F1]); [lia| |].
    - split; [exact S0|]. intros i j [-> ->]. rewrite V0. apply first_cell.
    - exists t. split; [exact E|]. split; [exact S1|]. intros n m H. apply F1. lia.
  Qed.
  Lemma table_get d t n m : t_size t = (d + 1)%nat -> (forall n m, (m <= n <= d)%nat -> t_at t n m = spec n m) -> (m <= n <= d)%nat -> t_get t n m = Ok (spec n m).
  Proof. intros S1 T H. rewrite (t_get_ok t d n m S1) by lia. now rewrite T. Qed.
End Recursion.
