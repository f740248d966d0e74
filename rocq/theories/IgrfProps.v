(** C116-C117: the IGRF main field. *)
From Coq Require Import Reals Lra Lia List Arith Bool ZArith.
From Verif Require Import Base RBase VecModel GravitySpec GravityHarmonics GravityGrad IgrfModel IgrfSpec IgrfProofs IgrfCoef IgrfField IgrfGrad IgrfPlace.
Import ListNotations.
Open Scope R_scope.

(** Whatever calls came before, every call at a place not closer than 1.5e-7 rad to the axis and not deeper than 6300 km
    returns minus the gradient of the potential of the file's coefficients, turned into the inertial frame.  The coefficients
    are those of the call's year on the straight lines around the year of the FIRST call. *)
Theorem C116_field :
  forall (f : coef_file) (junk : bool) (b : igrf_args) (l : list igrf_args),
    readable f -> complete f (ag_year b) ->
    exists s outs, igrf_run f junk igrf_new (b :: l) = Ok (s, outs) /\ length outs = length (b :: l) /\
      forall i a, nth_error (b :: l) i = Some a -> -6300 <= ag_alt a / 1000 -> 0.00000015 <= cos (kappa * ag_lat a) ->
        exists B gx gy gz, nth_error outs i = Some B /\
          gradient_at (magnetic_potential igrf_radius (f_max f) (igrf_g f (ag_year b) (ag_year a)) (igrf_h f (ag_year b) (ag_year a)))
            (call_x a) (call_y a) (call_z a) gx gy gz /\
          (B 0%nat, B 1%nat, B 2%nat) = turned (ag_lon a - kappa * ag_lon a + ag_side a) (- gx) (- gy) (- gz).
Proof.
  intros f junk b l Hf Hc. destruct (gigrf_ok f junk (ag_year b) Hf) as (co & Eg & Hco). destruct (run_all f junk b l co Eg) as (s & E).
  exists s, (map (value co) (b :: l)). split; [exact E|]. split; [apply map_length|]. intros i a Hi Hh Hl.
  destruct (field_full f junk (ag_year b) co a Hco Hc Hh Hl) as (gx & gy & gz & G & V). exists (value co a), gx, gy, gz.
  split; [apply map_nth_error, Hi|]. split; [exact G|exact V].
Qed.
Print Assumptions C116_field.

(** The result of a call does not depend on the calls before it, except for the year of the very first one - at every place,
    the poles included. *)
Theorem C116_history :
  forall (f : coef_file) (junk : bool) (b b' : igrf_args) (l l' : list igrf_args) s s' outs outs' i i' a,
    ag_year b = ag_year b' ->
    igrf_run f junk igrf_new (b :: l) = Ok (s, outs) -> igrf_run f junk igrf_new (b' :: l') = Ok (s', outs') ->
    nth_error (b :: l) i = Some a -> nth_error (b' :: l') i' = Some a -> nth_error outs i = nth_error outs' i'.
Proof.
  intros f junk b b' l l' s s' outs outs' i i' a Hy R1 R2 N1 N2.
  destruct (gigrf f junk (ag_year b)) as [co| | |] eqn:Eg.
  - destruct (run_all f junk b l co Eg) as (s1 & E1). rewrite R1 in E1. rewrite Hy in Eg. destruct (run_all f junk b' l' co Eg) as (s2 & E2). rewrite R2 in E2.
    inversion E1. inversion E2. subst.
    change (value co b :: map (value co) l) with (map (value co) (b :: l)). change (value co b' :: map (value co) l') with (map (value co) (b' :: l')).
    rewrite (map_nth_error (value co) _ _ N1), (map_nth_error (value co) _ _ N2). reflexivity.
  - cbn [igrf_run] in R1. unfold igrf_calc in R1. cbn [ig_coefs igrf_new] in R1. rewrite Eg in R1. discriminate.
  - cbn [igrf_run] in R1. unfold igrf_calc in R1. cbn [ig_coefs igrf_new] in R1. rewrite Eg in R1. discriminate.
  - cbn [igrf_run] in R1. unfold igrf_calc in R1. cbn [ig_coefs igrf_new] in R1. rewrite Eg in R1. discriminate.
Qed.
Print Assumptions C116_history.

(** The factor that the truncated pi puts on the angles is 1 up to 10^-12. *)
Theorem C116_angle_factor : 1 < kappa < 1 + / 10 ^ 12.
Proof.
  assert (P : 3.141592653589 < PI < 3.14159265359).
  { pose proof (PI_2_3_7_ineq 6) as [L U]. unfold PI_2_3_7_tg, Ratan_seq, tg_alt in *. cbn [Nat.mul Nat.add sum_f_R0 pow INR] in *. lra. }
  unfold kappa. split; apply (Rmult_lt_reg_r PI); try lra; unfold Rdiv; rewrite Rmult_assoc, Rinv_l by lra; lra.
Qed.
Print Assumptions C116_angle_factor.

(** ** C117: reading the coefficient file *)
(** A file that cannot be opened, with a degree or a number of columns out of range, or with too few lines: the program ends. *)
Theorem C117_bad_file :
  forall (f : coef_file) (junk : bool) (a : igrf_args),
    cf_opens f = false \/ (cf_maxod f < 8)%Z \/ (19 < cf_maxod f)%Z \/ (cf_ncol f < 2)%Z \/ (50 < cf_ncol f)%Z \/ cf_years f = [] \/
    (length (cf_rows f) < (f_max f + 1) * (f_max f + 1) - 1)%nat ->
    igrf_run f junk igrf_new [a] = Throw.
Proof.
  intros f junk a H. assert (G : gigrf f junk (ag_year a) = Throw).
  { unfold gigrf. destruct (cf_opens f); [|reflexivity]. cbn [negb].
    destruct (Z.ltb_spec (cf_maxod f) 8); [reflexivity|]. destruct (Z.ltb_spec 19 (cf_maxod f)); [reflexivity|]. destruct (Z.ltb_spec (cf_ncol f) 2); [reflexivity|].
    destruct (Z.ltb_spec 50 (cf_ncol f)); [reflexivity|]. cbn [orb]. cbv zeta. fold (f_max f) (f_ncol f).
    destruct (cf_years f) as [|y ys] eqn:Ey; [reflexivity|]. cbn [nth_error].
    assert (L : (length (cf_rows f) < (f_max f + 1) * (f_max f + 1) - 1)%nat) by (destruct H as [H|[H|[H|[H|[H|[H|H]]]]]]; first [discriminate H|lia]).
    assert (C : forall count rows l, (length rows < count)%nat -> columns rows l count = Throw).
    { induction count as [|k IH]; intros rows l0 Hl; [lia|]. cbn [columns]. destruct rows as [|row rows]; [reflexivity|]. cbn [length] in Hl.
      destruct (nth_error row (l0 - 2)); [|reflexivity]. destruct (nth_error row (l0 - 1)); [|reflexivity]. rewrite IH by lia. reflexivity. }
    assert (P : forall count l y1 y2, (exists x, pick (y :: ys) (ag_year a) count l y1 y2 = Ok x) \/ pick (y :: ys) (ag_year a) count l y1 y2 = Throw).
    { induction count as [|k IH]; intros l0 y1 y2; cbn [pick]; [left; eexists; reflexivity|]. destruct (nth_error (y :: ys) (l0 - 1)); [|right; reflexivity].
      destruct (rlt (ag_year a) r); [left; eexists; reflexivity|]. apply IH. }
    destruct (P (f_ncol f - 2)%nat 2%nat 0 y) as [[[[l0 y1] y2] E]|E]; rewrite E; cbn [bind]; [|reflexivity]. rewrite C by exact L. reflexivity. }
  cbn [igrf_run]. unfold igrf_calc. cbn [ig_coefs igrf_new]. rewrite G. reflexivity.
Qed.
Print Assumptions C117_bad_file.

(** A file of degree 19, which passes the checks, makes the program read behind the end of an array. *)
Theorem C117_degree_19 :
  forall (f : coef_file) (junk : bool) (a : igrf_args),
    cf_opens f = true -> cf_maxod f = 19%Z -> (2 <= cf_ncol f <= 50)%Z -> (f_ncol f - 1 <= length (cf_years f))%nat ->
    (399 <= length (cf_rows f))%nat -> (forall i, (i < 399)%nat -> (f_ncol f <= length (nth i (cf_rows f) []))%nat) ->
    igrf_run f junk igrf_new [a] = UB.
Proof.
  intros f junk a H1 H2 H3 H4 H5 H6. assert (G : gigrf f junk (ag_year a) = UB).
  { unfold gigrf. rewrite H1, H2. cbn [negb]. change (19 <? 8)%Z with false. change (19 <? 19)%Z with false.
    destruct (Z.ltb_spec (cf_ncol f) 2); [lia|]. destruct (Z.ltb_spec 50 (cf_ncol f)); [lia|]. cbn [orb]. cbv zeta. fold (f_ncol f). change (Z.to_nat 19) with 19%nat.
    change ((19 + 1) * (19 + 1) - 1)%nat with 399%nat. assert (Nc : (2 <= f_ncol f <= 50)%nat) by (unfold f_ncol; lia).
    rewrite (nth_error_nth' (cf_years f) 0) by lia.
    destruct (pick_ok (cf_years f) (ag_year a) (f_ncol f - 2) 2 0) as (l & y1 & y2 & E1 & E2 & _); [lia|lia|]. cbn [Nat.sub] in E1. rewrite E1. cbn [bind].
    destruct (columns_ok l 399 (cf_rows f)) as (cols & C1 & _); [lia|exact H5|intros i Hi; specialize (H6 i Hi); lia|]. rewrite C1. reflexivity. }
  cbn [igrf_run]. unfold igrf_calc. cbn [ig_coefs igrf_new]. rewrite G. reflexivity.
Qed.
Print Assumptions C117_degree_19.

(** ** Files for examples *)
(** degree 8, epochs and rows as given, the other coefficients zero *)
Definition small_file (years : list R) (g10 g11 : list R) : coef_file :=
  mkFile true 8 (Z.of_nat (S (length years))) years (g10 :: g11 :: repeat (repeat 0 (S (length years))) 78).
Lemma small_readable years g10 g11 : (1 <= length years <= 49)%nat -> length g10 = S (length years) -> length g11 = S (length years) -> readable (small_file years g10 g11).
Proof.
  intros H H0 H1. unfold readable, small_file, f_ncol, f_max. cbn [cf_opens cf_maxod cf_ncol cf_years cf_rows]. split; [reflexivity|]. split; [lia|]. split; [lia|].
  rewrite Nat2Z.id. split; [lia|]. cbn [length]. rewrite repeat_length. change (Z.to_nat 8) with 8%nat. split; [lia|]. intros i Hi.
  destruct i as [|[|i]]; cbn [nth]; [lia|lia|]. assert (E : nth i (repeat (repeat 0 (S (length years))) 78) [] = repeat 0 (S (length years))).
  { rewrite (nth_indep _ [] (repeat 0 (S (length years)))) by (rewrite repeat_length; lia). apply nth_repeat. }
  rewrite E, repeat_length. lia.
Qed.
Lemma in_time_zero first t : forall years row, (forall v, In v row -> v = 0) -> in_time years row first t = 0.
Proof.
  induction years as [|y ys IH]; intros row H; [reflexivity|]. destruct row as [|v vs]; [reflexivity|]. cbn [in_time].
  assert (v = 0) by (apply H; left; reflexivity). subst v. destruct ys as [|y1 ys], vs as [|v1 vs]; try reflexivity.
  - rewrite (H v1) by (right; left; reflexivity). ring.
  - destruct (Rlt_dec first y1); [rewrite (H v1) by (right; left; reflexivity); unfold Rdiv; ring|]. apply IH. intros v Hv. apply H. right. exact Hv.
Qed.
Lemma small_rest years g10 g11 i first t : (2 <= i)%nat -> in_time (f_years (small_file years g10 g11)) (nth i (cf_rows (small_file years g10 g11)) []) first t = 0.
Proof.
  intros Hi. apply in_time_zero. intros v Hv. destruct i as [|[|i]]; try lia. cbn [cf_rows small_file nth] in Hv.
  destruct (Nat.lt_ge_cases i 78) as [L|L].
  - rewrite (nth_indep _ [] (repeat 0 (S (length years)))) in Hv by (rewrite repeat_length; lia). rewrite nth_repeat in Hv. apply repeat_spec in Hv. exact Hv.
  - rewrite nth_overflow in Hv by (rewrite repeat_length; lia). destruct Hv.
Qed.
Lemma small_coefs years g10 g11 first t n m : (1 <= n)%nat -> (m <= n)%nat ->
  igrf_h (small_file years g10 g11) first t n m = 0 /\ ((2 <= n)%nat -> igrf_g (small_file years g10 g11) first t n m = 0).
Proof.
  intros Hn Hm. split.
  - unfold igrf_h, table_h. destruct m as [|m]; [reflexivity|]. apply small_rest. unfold row_h. nia.
  - intros H2. unfold igrf_g, table_g. apply small_rest. unfold row_g. destruct m; nia.
Qed.
Lemma small_years years g10 g11 : f_years (small_file years g10 g11) = years.
Proof. unfold f_years, small_file, f_ncol. cbn [cf_ncol cf_years]. rewrite Nat2Z.id. replace (S (length years) - 1)%nat with (length years) by lia. apply firstn_all. Qed.

(** the place longitude 0 on the equator at height 0 *)
Definition equator (year : R) : igrf_args := mkArgs year 0 0 0 0.
Lemma equator_place year : call_x (equator year) = 6378.137 /\ call_y (equator year) = 0 /\ call_z (equator year) = 0.
Proof.
  destruct (call_ok (equator year)) as (-> & -> & ->). unfold pxk, pyk, pzk, geodetic_x, geodetic_y, geodetic_z, equator, normal_w. cbn [ag_lat ag_lon ag_alt].
  rewrite !Rmult_0_r, cos_0, sin_0. replace (re_ * re_ * (1 * 1) + rp_ * rp_ * (0 * 0)) with (re_ * re_) by ring. pose proof re_val.
  rewrite sqrt_square by lra. repeat split; [|ring|ring]. unfold Rdiv. rewrite Rmult_0_l. rewrite <- H. field. lra.
Qed.
Lemma total_two N f : (1 <= N)%nat -> (forall n m, (2 <= n <= N)%nat -> (m <= n)%nat -> f n m = 0) -> total N f = f 1%nat 0%nat + f 1%nat 1%nat.
Proof.
  intros HN H. induction N as [|N IH]; [lia|]. destruct N as [|N]; [unfold total; cbn [sum_to]; ring|].
  change (total (S (S N)) f) with (total (S N) f + sum_to (S (S N)) (f (S (S N)))). rewrite IH; [|lia|intros; apply H; lia].
  rewrite (sum_to_ext (S (S N)) (f (S (S N))) (fun _ => 0 * 0)) by (intros m Hm; rewrite H by lia; ring). rewrite sum_to_scal. ring.
Qed.
Lemma schmidt_11 : schmidt 1 1 = 1.
Proof. unfold schmidt. cbn [Nat.sub Nat.add fact Nat.mul INR]. replace (2 * 1 / (1 + 1)) with 1 by field. apply sqrt_1. Qed.
Lemma small_equator junk years g10 g11 first co year : let f := small_file years g10 g11 in
  coefs_of f junk first co -> (1 <= co_max co)%nat ->
  value co (equator year) 0%nat = 2 * (igrf_radius / 6378.137) ^ 3 * igrf_g f first year 1%nat 1%nat /\
  value co (equator year) 2%nat = - (igrf_radius / 6378.137) ^ 3 * igrf_g f first year 1%nat 0%nat.
Proof.
  intros f Hco HN. destruct (field_ok f junk first co (equator year) Hco HN) as (gx & gy & gz & G & V).
  - unfold equator. cbn [ag_alt]. lra.
  - unfold equator. cbn [ag_lat]. rewrite Rmult_0_r, cos_0. lra.
  - destruct (call_ok (equator year)) as (C1 & C2 & C3). destruct (equator_place year) as (P1 & P2 & P3). rewrite C1 in P1. rewrite C2 in P2. rewrite C3 in P3.
    rewrite P1, P2, P3 in G. set (X0 := 6378.137) in *. assert (HX : 0 < X0) by (unfold X0; lra).
    assert (O : off X0 0 0) by (unfold off; nra).
    pose proof (potential_gradient ra_ (co_max co) (igrf_g f first year) (igrf_h f first year) X0 0 0 O) as (D1 & D2 & D3).
    destruct G as (G1 & G2 & G3). cbn [ag_year equator] in *.
    pose proof (uniqueness_limite _ _ _ _ G1 D1) as U1. pose proof (uniqueness_limite _ _ _ _ G3 D3) as U3.
    unfold equator in V at 4 5 6. cbn [ag_lon ag_side] in V. rewrite Rmult_0_r in V. replace (0 - 0 + 0) with 0 in V by ring. unfold turned in V. rewrite cos_0, sin_0 in V.
    injection V as V1 _ V3. rewrite V1, V3, U1, U3. clear U1 U3 V1 V3 G1 G2 G3 D1 D2 D3.
    assert (Zr : forall n m, (2 <= n <= co_max co)%nat -> (m <= n)%nat -> igrf_g f first year n m = 0 /\ igrf_h f first year n m = 0).
    { intros n m Hn Hm. destruct (small_coefs years g10 g11 first year n m ltac:(lia) Hm) as [Z1 Z2]. split; [apply Z2; lia|exact Z1]. }
    rewrite !total_two; try exact HN; try (intros n m Hn Hm; destruct (Zr n m Hn Hm) as [-> ->]; unfold tx, tz; ring).
    destruct (small_coefs years g10 g11 first year 1 0 ltac:(lia) ltac:(lia)) as [H10 _]. destruct (small_coefs years g10 g11 first year 1 1 ltac:(lia) ltac:(lia)) as [H11 _].
    fold f in H10, H11. rewrite H10, H11, schmidt_11, schmidt_0, igrf_radius_ok.
    assert (IR : inv_r X0 0 0 = / X0) by (unfold inv_r, radius; replace (X0 * X0 + 0 * 0 + 0 * 0) with (X0 * X0) by ring; rewrite sqrt_square by lra; reflexivity).
    unfold tx, tz, F. rewrite IR. unfold A, B. cbn [cpow fst snd Nat.sub Nat.add pow INR Q]. split; field; lra.
Qed.

(** The coefficients follow the interval of the first call: a table that grows by 200 nT/year before 2005 and by 400 nT/year
    after it.  The call for 2007 after a first call for 2002 gives another field than the same call after a first call for 2007. *)
Theorem C117_interval_refuted :
  exists f, readable f /\ complete f 2002 /\ complete f 2007 /\
    exists s s' B0 B B0' B', igrf_run f false igrf_new [equator 2002; equator 2007] = Ok (s, [B0; B]) /\
      igrf_run f false igrf_new [equator 2007; equator 2007] = Ok (s', [B0'; B']) /\
      B 0%nat = 2 * (igrf_radius / 6378.137) ^ 3 * 1400 /\ B' 0%nat = 2 * (igrf_radius / 6378.137) ^ 3 * 1800.
Proof.
  set (f := small_file [2000; 2005; 2010] [1; 1; 1; 0] [0; 1000; 3000; 0]).
  assert (Rd : readable f) by (apply small_readable; cbn [length]; lia).
  assert (V1 : igrf_g f 2002 2007 1%nat 1%nat = 1400).
  { unfold igrf_g, table_g, f. rewrite small_years. cbn [cf_rows small_file nth row_g Nat.mul Nat.add in_time]. destruct (Rlt_dec 2002 2005); [lra|lra]. }
  assert (V2 : igrf_g f 2007 2007 1%nat 1%nat = 1800).
  { unfold igrf_g, table_g, f. rewrite small_years. cbn [cf_rows small_file nth row_g Nat.mul Nat.add in_time]. destruct (Rlt_dec 2007 2005); [lra|]. destruct (Rlt_dec 2007 2010); lra. }
  assert (Cm : forall first, (igrf_g f first 2007 1%nat 1%nat <> 0) -> complete f first).
  { intros first Hne n t Hn H. destruct (Nat.eq_dec n 1) as [->|Ne].
    - exists 1%nat, 1%nat, 2007. split; [lia|]. split; [lia|]. left. exact Hne.
    - exfalso. apply H. apply (small_coefs [2000; 2005; 2010] [1; 1; 1; 0] [0; 1000; 3000; 0] first t n 0); lia. }
  exists f. split; [exact Rd|]. split; [apply Cm; lra|]. split; [apply Cm; lra|].
  destruct (gigrf_ok f false 2002 Rd) as (co & E & Hco). destruct (gigrf_ok f false 2007 Rd) as (co' & E' & Hco').
  assert (Max : forall first c, coefs_of f false first c -> igrf_g f first 2007 1%nat 1%nat <> 0 -> (1 <= co_max c)%nat).
  { intros first c (_ & _ & H3 & _) Hne. destruct (Nat.eq_dec (co_max c) 0) as [E0|]; [|lia]. exfalso. apply Hne. apply (H3 1%nat 1%nat 2007); [|lia].
    rewrite E0. change (f_max f) with 8%nat. lia. }
  destruct (run_all f false (equator 2002) [equator 2007] co E) as (s & R1). destruct (run_all f false (equator 2007) [equator 2007] co' E') as (s' & R2).
  exists s, s', (value co (equator 2002)), (value co (equator 2007)), (value co' (equator 2007)), (value co' (equator 2007)).
  split; [exact R1|]. split; [exact R2|]. split.
  - rewrite <- V1. apply (small_equator false [2000; 2005; 2010] [1; 1; 1; 0] [0; 1000; 3000; 0] 2002 co 2007 Hco). apply (Max 2002 co Hco). lra.
  - rewrite <- V2. apply (small_equator false [2000; 2005; 2010] [1; 1; 1; 0] [0; 1000; 3000; 0] 2007 co' 2007 Hco'). apply (Max 2007 co' Hco'). lra.
Qed.
Print Assumptions C117_interval_refuted.

(** A file whose only non-zero coefficient is the axial dipole g_1^0 = -30000 nT: whether the field is zero everywhere or that
    of the dipole depends on a memory cell that nothing has written. *)
Theorem C117_axial_dipole_refuted :
  exists f, readable f /\ (forall first t, igrf_g f first t 1%nat 0%nat = -30000) /\
    (forall a, exists s B, igrf_run f false igrf_new [a] = Ok (s, [B]) /\ (B 0%nat, B 1%nat, B 2%nat) = (0, 0, 0)) /\
    (forall year, exists s B, igrf_run f true igrf_new [equator year] = Ok (s, [B]) /\ B 2%nat = 30000 * (igrf_radius / 6378.137) ^ 3).
Proof.
  set (f := small_file [2000] [-30000; 0] [0; 0]).
  assert (Rd : readable f) by (apply small_readable; cbn [length]; lia).
  assert (G10 : forall first t, igrf_g f first t 1%nat 0%nat = -30000).
  { intros first t. unfold igrf_g, table_g, f. rewrite small_years. cbn [cf_rows small_file nth row_g Nat.mul Nat.add Nat.sub in_time]. ring. }
  assert (G11 : forall first t, igrf_g f first t 1%nat 1%nat = 0).
  { intros first t. unfold igrf_g, table_g, f. rewrite small_years. cbn [cf_rows small_file nth row_g Nat.mul Nat.add Nat.sub in_time]. ring. }
  exists f. split; [exact Rd|]. split; [exact G10|]. split.
  - intros a. destruct (gigrf_ok f false (ag_year a) Rd) as (co & E & Hco). destruct (run_all f false a [] co E) as (s & R1).
    exists s, (value co a). split; [exact R1|]. apply value_zero. destruct (Nat.eq_dec (co_max co) 0) as [E0|E0]; [exact E0|]. exfalso.
    destruct Hco as (_ & _ & _ & _ & _ & H6). destruct (H6 ltac:(lia) (or_introl eq_refl)) as (n & m & t & [(Hn & Hne)|(Hn & Hm & Hne)]).
    + destruct (small_coefs [2000] [-30000; 0] [0; 0] (ag_year a) t n m ltac:(lia) ltac:(lia)) as [Z1 Z2]. fold f in Z1, Z2. destruct Hne as [Hne|Hne]; [|exact (Hne Z1)].
      destruct (Nat.eq_dec n 1) as [->|Ne]; [|apply Hne, Z2; lia]. replace m with 1%nat in Hne by lia. apply Hne, G11.
    + apply Hne. apply (small_coefs [2000] [-30000; 0] [0; 0] (ag_year a) t n 0); lia.
  - intros year. destruct (gigrf_ok f true year Rd) as (co & E & Hco). destruct (run_all f true (equator year) [] co E) as (s & R1).
    exists s, (value co (equator year)). split; [exact R1|].
    assert (HN : (1 <= co_max co)%nat) by (destruct Hco as (_ & _ & _ & _ & H5 & _); rewrite H5 by reflexivity; change (f_max f) with 8%nat; lia).
    destruct (small_equator true [2000] [-30000; 0] [0; 0] year co year Hco HN) as [_ V]. rewrite V. fold f. rewrite G10. ring.
Qed.
Print Assumptions C117_axial_dipole_refuted.

(** ** Examples *)
(** a tilted dipole file, and a call at 35 degrees North, 400 km high, meet the hypotheses of C116 *)
Definition example_file : coef_file := small_file [2015; 2020] [-29441; -29404; 5] [-1501; -1450; 7].
Example example_readable : readable example_file. Proof. apply small_readable; cbn [length]; lia. Qed.
Example example_complete : complete example_file 2021.
Proof.
  intros n t Hn H. destruct (Nat.eq_dec n 1) as [->|Ne].
  - exists 1%nat, 1%nat, 2020. split; [lia|]. split; [lia|]. left. unfold igrf_g, table_g, example_file. rewrite small_years.
    cbn [cf_rows small_file nth row_g Nat.mul Nat.add in_time]. destruct (Rlt_dec 2021 2020); lra.
  - exfalso. apply H. apply (small_coefs [2015; 2020] [-29441; -29404; 5] [-1501; -1450; 7] 2021 t n 0); lia.
Qed.
Example example_place : -6300 <= ag_alt (mkArgs 2021 0.6 2.4 400000 1) / 1000 /\ 0.00000015 <= cos (kappa * ag_lat (mkArgs 2021 0.6 2.4 400000 1)).
Proof.
  cbn [ag_alt ag_lat]. split; [lra|]. destruct C116_angle_factor as [K1 K2]. pose proof PI_RGT_0.
  assert (P : 3 < PI) by (pose proof (PI_2_3_7_ineq 1) as [L U]; unfold PI_2_3_7_tg, Ratan_seq, tg_alt in *; cbn [Nat.mul Nat.add sum_f_R0 pow INR] in *; lra).
  assert (E : cos 1 <= cos (kappa * 0.6)) by (apply cos_decr_1; try lra; apply Rmult_le_pos; lra).
  assert (0.5 <= cos 1); [|lra]. pose proof (cos_bound 1 0) as [L _]; [lra|lra|]. unfold cos_approx in L. cbn [Nat.mul Nat.add sum_f_R0] in L. unfold cos_term in L. cbn [pow Nat.mul fact INR Nat.add] in L. lra.
Qed.
