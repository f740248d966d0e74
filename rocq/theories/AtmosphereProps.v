(** C86: air density. *)
From Coq Require Import Reals Lra Lia List Bool Arith String.
From Verif Require Import Base RBase VecModel VecProofs QuatModel QuatSpec QuatProofs OrbitProofs AttitudeProofs PointingProofs Trig AtmosphereModel AtmosphereSpec AtmosphereProofs.
Import ListNotations.
Open Scope R_scope.

(** ** The simple model *)
Fixpoint chain (hi : R) (l : list band) : Prop :=
  match l with [] => hi = 0 | b :: l => b_hi b = hi /\ b_base b = b_lo b /\ b_lo b < b_hi b /\ 0 < b_scale b /\ 0 < b_rho b /\ chain (b_lo b) l end.
Lemma bands_chain : chain 1000 simple_bands.
Proof. unfold simple_bands. cbn [chain b_lo b_hi b_base b_scale b_rho]. repeat split; lra. Qed.
Lemma chain_pos l : forall hi b, chain hi l -> In b l -> 0 < b_scale b /\ 0 < b_rho b /\ b_base b = b_lo b /\ b_hi b <= hi.
Proof.
  induction l as [|c l IH]; intros hi b H I; [contradiction|]. cbn [chain] in H. destruct H as (H1 & H2 & H3 & H4 & H5 & H6). destruct I as [<-|I]; [repeat split; lra|]. destruct (IH _ _ H6 I) as (A & B & C & D). repeat split; try assumption. lra.
Qed.
Lemma find_in l : forall a b, find_band a l = Some b -> In b l /\ b_lo b <= a < b_hi b.
Proof.
  induction l as [|c l IH]; intros a b H; [discriminate|]. cbn [find_band] in H. destruct (rle_spec (b_lo c) a) as [L|L]; destruct (rlt_spec a (b_hi c)) as [U|U]; cbn [andb] in H; try (destruct (IH _ _ H) as [A B]; split; [now right|exact B]).
  injection H as <-. split; [now left|lra].
Qed.
Lemma find_is l : forall hi a b, chain hi l -> In b l -> b_lo b <= a < b_hi b -> find_band a l = Some b.
Proof.
  induction l as [|c l IH]; intros hi a b H I AB; [contradiction|]. cbn [chain] in H. destruct H as (H1 & H2 & H3 & H4 & H5 & H6). cbn [find_band]. destruct I as [->|I].
  - rewrite rle_true, rlt_true by lra. reflexivity.
  - destruct (chain_pos _ _ _ H6 I) as (_ & _ & _ & D). rewrite (rle_false (b_lo c) a) by lra. cbn [andb]. exact (IH _ _ _ H6 I AB).
Qed.
Lemma find_some l : forall hi a, chain hi l -> 0 <= a < hi -> exists b, find_band a l = Some b.
Proof.
  induction l as [|c l IH]; intros hi a H AB; [cbn in H; lra|]. cbn [chain] in H. destruct H as (H1 & H2 & H3 & H4 & H5 & H6). cbn [find_band]. destruct (rle_spec (b_lo c) a) as [L|L].
  - rewrite rlt_true by lra. cbn [andb]. now exists c. - cbn [andb]. apply (IH (b_lo c)); [exact H6|lra].
Qed.
Lemma chain_lo l : forall hi b, chain hi l -> In b l -> 0 <= b_lo b.
Proof.
  assert (G : forall l hi, chain hi l -> 0 <= hi). { intro m. induction m as [|c m IH]; intros hi H; cbn [chain] in H; [lra|]. destruct H as (H1 & H2 & H3 & H4 & H5 & H6). specialize (IH _ H6). lra. }
  induction l as [|c l IH]; intros hi b H I; [contradiction|]. cbn [chain] in H. destruct H as (H1 & H2 & H3 & H4 & H5 & H6). destruct I as [<-|I]; [exact (G _ _ H6)|exact (IH _ _ H6 I)].
Qed.
(** the density is never negative, and positive exactly at altitudes from 0, except at exactly 1000 km *)
Theorem C86_simple_positive : forall h, 0 <= simple_density h /\ (0 < simple_density h <-> 0 <= h /\ h <> 1000000).
Proof.
  intro h. unfold simple_density. set (a := h / 1000). assert (H : h = 1000 * a) by (unfold a; field). destruct (rlt_spec 1000 a) as [T|T].
  - assert (P : 0 < band_density top_band a) by (apply Rmult_lt_0_compat; [cbn; lra|apply exp_pos]). split; [lra|]. split; [intros _; lra|tauto].
  - destruct (find_band a simple_bands) as [b|] eqn:E.
    + destruct (find_in _ _ _ E) as [I B]. destruct (chain_pos _ _ _ bands_chain I) as (S1 & R1 & _ & U). pose proof (chain_lo _ _ _ bands_chain I). assert (P : 0 < band_density b a) by (apply Rmult_lt_0_compat; [exact R1|apply exp_pos]). split; [lra|]. split; [intros _; lra|tauto].
    + split; [lra|]. split; [lra|]. intros [H0 H1]. exfalso. destruct (find_some _ 1000 a bands_chain) as [b Eb]; [lra|]. congruence.
Qed.
(** in each row of the table (and above 1000 km) the density starts at the row's density, falls strictly, by the factor e in
    each scale height *)
Theorem C86_simple_rows : forall b, In b simple_bands \/ (b = top_band) ->
  0 < b_scale b /\ forall a, (b_lo b <= a < b_hi b \/ (b = top_band /\ 1000 < a)) ->
  ln (simple_density (1000 * a)) = ln (b_rho b) - (a - b_lo b) / b_scale b /\
  forall a', (b_lo b <= a' < b_hi b \/ (b = top_band /\ 1000 < a')) -> a < a' -> simple_density (1000 * a') < simple_density (1000 * a).
Proof.
  intros b I. assert (P : 0 < b_scale b /\ 0 < b_rho b /\ b_base b = b_lo b). { destruct I as [I| ->]; [destruct (chain_pos _ _ _ bands_chain I) as (A & B & C & _); tauto|cbn; lra]. } destruct P as (S1 & R1 & BB). split; [exact S1|].
  assert (V : forall a, (b_lo b <= a < b_hi b \/ (b = top_band /\ 1000 < a)) -> simple_density (1000 * a) = b_rho b * exp (- (a - b_lo b) / b_scale b)).
  { intros a A. unfold simple_density. replace (1000 * a / 1000) with a by field. destruct A as [A|[-> A]]; [|rewrite rlt_true by lra; reflexivity].
    destruct I as [I| ->]; [|cbn in A; lra]. destruct (chain_pos _ _ _ bands_chain I) as (_ & _ & _ & D). rewrite rlt_false by lra. rewrite (find_is _ _ _ _ bands_chain I A). unfold band_density. now rewrite BB. }
  intros a A. rewrite (V a A). split.
  - rewrite ln_mult by (try apply exp_pos; exact R1). rewrite ln_exp. field. lra.
  - intros a' A' L. rewrite (V a' A'). apply Rmult_lt_compat_l; [exact R1|]. apply exp_increasing. unfold Rdiv. apply Rmult_lt_compat_r; [now apply Rinv_0_lt_compat|lra].
Qed.
(** the tables are the published ones: all rows of Harris-Priester *)
Theorem C86_published_harris_priester :
  hp_min = map (fun r => (fst (fst r), snd (fst r))) published_harris_priester /\
  hp_max = map (fun r => (fst (fst r), snd r)) published_harris_priester.
Proof. unfold hp_min, hp_max, published_harris_priester. cbn [map fst snd]. split; repeat first [reflexivity | apply f_equal2; [apply f_equal2; lra|]]. Qed.
Print Assumptions C86_published_harris_priester.
(** the exponential model: between two published base altitudes, and above the last, the density is the published base density
    falling with the published scale height; except between 350 km and 400 km *)
Lemma some_eq {A} (a b : A) : Some a = Some b -> a = b. Proof. congruence. Qed.
Ltac row_eq :=
  match goal with |- ?r1 * exp (?x / ?s1) = ?r2 * exp (?y / ?s2) => replace r1 with r2 by lra; replace s1 with s2 by lra; reflexivity end.
Ltac published_row F A :=
  match type of A with ?lo <= _ < ?hi => let t := eval unfold simple_bands in simple_bands in match t with context [mkBand lo hi ?sc ?ba ?rho] =>
    rewrite (F (mkBand lo hi sc ba rho)); [unfold band_density; cbn [b_rho b_base b_scale]; row_eq|unfold simple_bands; cbn [In]; tauto|exact A] end end.
Theorem C86_published_exponential : forall i h s m e a, nth_error published_exponential i = Some (h, s, m, e) -> h <> 350 ->
  (exists h2 s2 m2 e2, nth_error published_exponential (S i) = Some (h2, s2, m2, e2) /\ h <= a < h2) \/ (h = 1000 /\ 1000 < a) ->
  simple_density (1000 * a) = m / 10 ^ e * exp (- (a - h) / s).
Proof.
  intros i h s m e a E N A. unfold simple_density. replace (1000 * a / 1000) with a by field.
  assert (F : forall b, In b simple_bands -> b_lo b <= a < b_hi b -> find_band a simple_bands = Some b) by (intros b I J; exact (find_is _ _ _ _ bands_chain I J)).
  unfold published_exponential in E, A.
  do 28 (destruct i as [|i]; [cbn [nth_error] in E, A; apply some_eq, pair_equal_spec in E; destruct E as (E & E4); apply pair_equal_spec in E; destruct E as (E & E3);
    apply pair_equal_spec in E; destruct E as (E1 & E2); subst h s m e;
    destruct A as [(h2 & s2 & m2 & e2 & X & A)|(X & A)];
    [first [discriminate X | apply (f_equal (fun o => match o with Some (x, _, _, _) => x | None => 0 end)) in X; subst h2; first [now elim N |
       rewrite rlt_false by lra; published_row F A]]
    |first [exfalso; lra | rewrite rlt_true by lra; unfold band_density, top_band; cbn [b_rho b_base b_scale]; row_eq]]|]).
  destruct i; discriminate.
Qed.
Print Assumptions C86_published_exponential.
(** there the program has 9.158e-12 kg/m3 for the published 9.518e-12 *)
Theorem C86_published_350km_refuted : simple_density 350000 = 9.158 / 10 ^ 12 /\ In (350, 53.298, 9.518, 12%nat) published_exponential.
Proof.
  split; [|unfold published_exponential; cbn [In]; tauto]. unfold simple_density. replace (350000 / 1000) with 350 by field. rewrite rlt_false by lra.
  rewrite (find_is simple_bands 1000 350 (mkBand 350 400 (53298 / 10 ^ 3) 350 (9158 / 10 ^ 15)) bands_chain); [|unfold simple_bands; cbn [In]; tauto|cbn [b_lo b_hi]; lra].
  unfold band_density. cbn [b_rho b_base b_scale]. replace (- (350 - 350) / (53298 / 10 ^ 3)) with 0 by field. rewrite exp_0. lra.
Qed.
Print Assumptions C86_published_350km_refuted.
(** but the density does not fall everywhere: it is higher at 400 km than at 399.9 km *)
Lemma exp_lower y : 0 < y -> (1 + y / 16) ^ 16 <= exp y.
Proof.
  intro Y. replace (exp y) with (exp (y / 16) ^ 16). 2:{ rewrite <- (Rpower_pow 16) by apply exp_pos. unfold Rpower. rewrite ln_exp. f_equal. rewrite INR_IZR_INZ. cbn [Z.of_nat Pos.of_succ_nat Pos.succ]. field. }
  apply pow_incr. split; [lra|]. left. apply exp_ineq1. lra.
Qed.
Theorem C86_simple_falls_refuted : ~ (forall h h', 0 <= h -> h < h' -> simple_density h' <= simple_density h).
Proof.
  intro H. specialize (H 399900 400000 ltac:(lra) ltac:(lra)).
  assert (B1 : In (mkBand 350 400 (53298 / 10 ^ 3) 350 (9158 / 10 ^ 15)) simple_bands) by (unfold simple_bands; cbn [In]; tauto). assert (B2 : In (mkBand 400 450 (58515 / 10 ^ 3) 400 (3725 / 10 ^ 15)) simple_bands) by (unfold simple_bands; cbn [In]; tauto).
  unfold simple_density in H. replace (400000 / 1000) with 400 in H by field. rewrite !rlt_false in H by lra. rewrite (find_is _ _ _ _ bands_chain B2) in H by (cbn; lra). rewrite (find_is _ _ _ _ bands_chain B1) in H by (cbn; lra). unfold band_density in H. cbn [b_rho b_base b_scale] in H.
  replace (- (400 - 400) / (58515 / 10 ^ 3)) with 0 in H by field. rewrite exp_0 in H. replace (- (399900 / 1000 - 350) / (53298 / 10 ^ 3)) with (- (49900 / 53298)) in H by field. rewrite exp_Ropp in H.
  pose proof (exp_lower (49900 / 53298) ltac:(lra)) as L. set (x := exp (49900 / 53298)) in *. assert (X : 2459 / 1000 < x). { apply (Rlt_le_trans _ ((1 + 49900 / 53298 / 16) ^ 16)); [|exact L]. lra. }
  assert (I : / x < 1000 / 2459). { replace (1000 / 2459) with (/ (2459 / 1000)) by field. apply Rinv_lt_contravar; [|exact X]. apply Rmult_lt_0_compat; lra. } lra.
Qed.
Theorem C86_simple_density_at_every_altitude_refuted : ~ (forall h, 0 <= h -> 0 < simple_density h).
Proof. intro H. specialize (H 1000000 ltac:(lra)). apply C86_simple_positive in H. lra. Qed.
Print Assumptions C86_simple_positive.
Print Assumptions C86_simple_rows.
Print Assumptions C86_simple_falls_refuted.
Print Assumptions C86_simple_density_at_every_altitude_refuted.

(** ** The Harris-Priester model *)
Lemma cos_angle_range u v : 0 < norm 3 u -> unit 3 v -> dot 3 (normalize 3 u) v = cos_angle u v /\ - (1) <= cos_angle u v <= 1.
Proof.
  intros U V. pose proof (unit_norm v V) as NV. unfold cos_angle. rewrite NV, Rmult_1_r. split.
  - unfold normalize. rewrite req_false by lra. set (n := norm 3 u) in *. unfold dot, vdiv, vscal. rewrite !sumn3. field. lra.
  - pose proof (lagrange u v) as L. assert (D : 0 <= dot 3 (cross u v) (cross u v)) by (unfold dot; rewrite sumn3; nra). rewrite V, Rmult_1_r in L. pose proof (norm_dot 3 u) as N. assert (NN : norm 3 u * norm 3 u = dot 3 u u). { rewrite N. apply sqrt_sqrt. unfold dot; rewrite sumn3; nra. }
    set (d := dot 3 u v) in *. set (n := norm 3 u) in *. assert (DD : d * d <= n * n) by lra. assert (B : - n <= d <= n) by (split; nra). split; apply (Rmult_le_reg_r n); try exact U; unfold Rdiv; rewrite Rmult_assoc, Rinv_l by lra; lra.
Qed.
Lemma cpow_range x y : 0 <= x <= 1 -> 0 < y -> 0 <= cpow x y <= 1.
Proof.
  intros [X0 X1] Y. unfold cpow. destruct (req_spec x 0); [rewrite req_false by lra; lra|]. unfold Rpower. assert (L : ln x <= 0). { rewrite <- ln_1. destruct (Req_dec x 1) as [->|]; [lra|]. left. apply ln_increasing; lra. }
  split; [left; apply exp_pos|]. rewrite <- exp_0. destruct (Req_dec (y * ln x) 0) as [->|]; [lra|]. left. apply exp_increasing. nra.
Qed.
(** from 100 km to 1000 km: between the densities on the far side and at the top of the bulge, each interpolated on a
    logarithmic scale between the entries of the tables, with the weight ((1 + cos psi) / 2)^(n/2), where psi is the angle
    between the position and the direction 30 degrees east of the Sun *)
Theorem C86_harris_priester : forall alt pos sun n, 100000 <= alt < 1000000 -> 0 < norm 3 pos -> unit 3 sun -> 0 < n ->
  exists lo hi w rho, log_interpolated hp_min (alt / 1000) lo /\ log_interpolated hp_max (alt / 1000) hi /\ 0 < lo <= hi /\
    w = cpow ((1 + cos_angle pos (turned_z (30 * PI / 180) sun)) / 2) (n / 2) /\ 0 <= w <= 1 /\
    harris_priester alt pos sun n = Ok rho /\ rho = (lo + (hi - lo) * w) / 10 ^ 12 /\ lo / 10 ^ 12 <= rho <= hi / 10 ^ 12.
Proof.
  intros alt pos sun n A P U N. set (a := alt / 1000). assert (AA : 100 <= a < 1000) by (unfold a; lra). destruct (hp_count a AA) as [C CE].
  destruct (apex_density_spec hp_min hp_min_falling a) as (lo & EL & IL); [change (List.length hp_min) with 50%nat; exact C|]. destruct (apex_density_spec hp_max hp_max_falling a) as (hi & EH & IH); [change (List.length hp_max) with 50%nat; rewrite CE; exact C|].
  pose proof (min_le_max _ _ _ IL IH) as LE. assert (L0 : 0 < lo) by (destruct IL as (? & ? & ? & ? & ? & ? & ? & ? & L0 & _); exact L0).
  assert (LAG : lag_angle = 30 * PI / 180) by (unfold lag_angle; field). pose proof (turned_unit lag_angle sun U) as TU. destruct (cos_angle_range pos _ P TU) as [CA CR].
  set (w := cpow ((1 + cos_angle pos (turned_z lag_angle sun)) / 2) (n / 2)). assert (W : 0 <= w <= 1) by (apply cpow_range; lra).
  exists lo, hi, w, ((lo + (hi - lo) * w) / 10 ^ 12). split; [exact IL|]. split; [exact IH|]. split; [lra|]. split; [unfold w; now rewrite LAG|]. split; [exact W|]. split; [|split; [reflexivity|]].
  - unfold harris_priester. fold a. change (List.length hp_min) with 50%nat. destruct (Nat.eqb_spec (upper_bound a hp_min) 0) as [Z|_]; [lia|]. destruct (Nat.eqb_spec (upper_bound a hp_min) 50) as [Z|_]; [lia|]. rewrite EL, EH. cbn [bind].
    rewrite (dot_ext 3 (normalize 3 pos) (apex_direction sun) (normalize 3 pos) (turned_z lag_angle sun)); [|intros j Hj; reflexivity|exact (apex_turned sun U)]. rewrite CA. unfold w. replace (5 / 10 + cos_angle pos (turned_z lag_angle sun) / 2) with ((1 + cos_angle pos (turned_z lag_angle sun)) / 2) by field. f_equal. field.
  - assert (0 <= (hi - lo) * w <= hi - lo) by nra. lra.
Qed.
(** ... it falls strictly with the altitude in a fixed direction *)
Theorem C86_harris_priester_falls : forall alt alt' pos pos' sun n rho rho', 100000 <= alt -> alt < alt' -> alt' < 1000000 ->
  0 < norm 3 pos -> 0 < norm 3 pos' -> veq 3 (normalize 3 pos) (normalize 3 pos') -> unit 3 sun -> 0 < n ->
  harris_priester alt pos sun n = Ok rho -> harris_priester alt' pos' sun n = Ok rho' -> 0 < rho' < rho.
Proof.
  intros alt alt' pos pos' sun n rho rho' A0 A1 A2 P P' D U N H H'. destruct (C86_harris_priester alt pos sun n ltac:(lra) P U N) as (lo & hi & w & r & L & Hh & O & EW & W & E & ER & _). destruct (C86_harris_priester alt' pos' sun n ltac:(lra) P' U N) as (lo' & hi' & w' & r' & L' & Hh' & O' & EW' & W' & E' & ER' & _).
  assert (r = rho) as <- by congruence. assert (r' = rho') as <- by congruence. assert (ww : w' = w). { rewrite EW, EW'. pose proof (turned_unit (30 * PI / 180) sun U) as TU. destruct (cos_angle_range pos _ P TU) as [C _]. destruct (cos_angle_range pos' _ P' TU) as [C' _]. rewrite <- C, <- C'. rewrite (dot_ext 3 _ _ _ _ D (fun j _ => eq_refl)). reflexivity. }
  pose proof (interpolated_falls _ hp_min_falling _ _ _ _ L L' ltac:(lra)) as F1. pose proof (interpolated_falls _ hp_max_falling _ _ _ _ Hh Hh' ltac:(lra)) as F2. rewrite ER, ER', ww. assert (K : 0 < lo' + (hi' - lo') * w < lo + (hi - lo) * w); [|split; lra].
  split; [nra|]. replace (lo + (hi - lo) * w) with (lo * (1 - w) + hi * w) by ring. replace (lo' + (hi' - lo') * w) with (lo' * (1 - w) + hi' * w) by ring. destruct (Req_dec w 1) as [->|NW]; [lra|]. assert (lo' * (1 - w) < lo * (1 - w)) by (apply Rmult_lt_compat_r; lra). assert (hi' * w <= hi * w) by (apply Rmult_le_compat_r; lra). lra.
Qed.
(** the interpolation is determined by the table, agrees with its entries and lies between neighbouring ones *)
Theorem C86_tables : forall t, t = hp_min \/ t = hp_max ->
  (forall h v v', log_interpolated t h v -> log_interpolated t h v' -> v = v') /\
  (forall i h1 d1 h2 d2 h v, nth_error t i = Some (h1, d1) -> nth_error t (S i) = Some (h2, d2) -> h1 <= h < h2 -> log_interpolated t h v ->
     d2 < v <= d1 /\ (h = h1 -> v = d1)) /\
  (forall h, 100 <= h < 1000 -> exists v, log_interpolated t h v).
Proof.
  intros t T. assert (F : falling t) by (destruct T as [-> | ->]; [exact hp_min_falling|exact hp_max_falling]). split; [exact (interpolated_unique t F)|]. split.
  - intros i h1 d1 h2 d2 h v E1 E2 H I. destruct (F _ _ _ _ _ E1 E2) as (LH & D2 & D). set (u := exp (((h2 - h) * ln d1 + (h - h1) * ln d2) / (h2 - h1))). assert (U : log_interpolated t h u). { exists i, h1, d1, h2, d2. repeat split; try assumption; try lra; [apply exp_pos|]. unfold u. rewrite ln_exp. field. lra. }
    rewrite (interpolated_unique t F h v u I U). apply (segment_bounds t F i h1 d1 h2 d2 h u E1 E2 H); [apply exp_pos|]. unfold u. rewrite ln_exp. field. lra.
  - intros h H. destruct (hp_count h H) as [C CE]. destruct (apex_density_spec t F h) as (v & _ & I); [|now exists v]. destruct T as [-> | ->]; [exact C|change (List.length hp_max) with 50%nat; now rewrite CE].
Qed.
(** below 100 km the answer is the first entry of the table without conversion of units, from 1000 km on the end of the
    table is dereferenced *)
Theorem C86_harris_priester_outside : forall alt pos sun n,
  (alt < 100000 -> harris_priester alt pos sun n = Ok 497400) /\ (1000000 <= alt -> harris_priester alt pos sun n = UB).
Proof.
  intros alt pos sun n. split; intro A; unfold harris_priester; set (a := alt / 1000).
  - assert (upper_bound a hp_min = 0%nat) as ->. { unfold hp_min. cbn [upper_bound]. rewrite rlt_true; [reflexivity|unfold a; lra]. } cbn [Nat.eqb]. reflexivity.
  - assert (upper_bound a hp_min = 50%nat) as ->. { assert (1000 <= a) by (unfold a; lra). unfold hp_min. cbn [upper_bound]. do 50 (rewrite rlt_false by lra). reflexivity. } change (List.length hp_min) with 50%nat. cbn [Nat.eqb]. reflexivity.
Qed.
Theorem C86_harris_priester_continues_refuted : ~ (forall alt alt' pos sun n rho rho', 0 < norm 3 pos -> unit 3 sun -> 0 < n -> 99999 <= alt -> alt < alt' -> alt' <= 100000 ->
  harris_priester alt pos sun n = Ok rho -> harris_priester alt' pos sun n = Ok rho' -> rho <= 1000 * rho').
Proof.
  intro H. set (x := v3 1 0 0). assert (U : unit 3 x) by (unfold unit, dot; rewrite sumn3; cbn; ring). assert (N : 0 < norm 3 x) by (rewrite unit_norm by exact U; lra).
  destruct (C86_harris_priester 100000 x x 4 ltac:(lra) N U ltac:(lra)) as (lo & hi & w & r & L & Hh & O & _ & W & E & ER & B). specialize (H 99999 100000 x x 4 497400 r N U ltac:(lra) ltac:(lra) ltac:(lra) ltac:(lra) (proj1 (C86_harris_priester_outside 99999 x x 4) ltac:(lra)) E).
  replace (100000 / 1000) with 100 in Hh by field. destruct (proj1 (proj2 (C86_tables hp_max (or_intror eq_refl))) 0%nat 100 497400 120 24900 100 hi eq_refl eq_refl ltac:(lra) Hh) as [HB _]. lra.
Qed.
(** the Sun is taken in the inertial frame and the position in the Earth-fixed frame: the same place in space gets
    different densities as the Earth turns *)
Theorem C86_same_place_same_density_refuted : ~ (forall alt pos_i sun n a rho rho', 100000 <= alt < 1000000 -> 0 < norm 3 pos_i -> unit 3 sun -> 0 < n ->
  harris_priester alt pos_i sun n = Ok rho -> harris_priester alt (turned_z a pos_i) sun n = Ok rho' -> rho' = rho).
Proof.
  intro H. set (x := v3 1 0 0). set (p := turned_z (30 * PI / 180) x). assert (U : unit 3 x) by (unfold unit, dot; rewrite sumn3; cbn; ring). assert (UP : unit 3 p) by (now apply turned_unit). assert (UQ : unit 3 (turned_z PI p)) by (now apply turned_unit).
  assert (N : 0 < norm 3 p) by (rewrite unit_norm by exact UP; lra). assert (NQ : 0 < norm 3 (turned_z PI p)) by (rewrite unit_norm by exact UQ; lra).
  destruct (C86_harris_priester 300000 p x 4 ltac:(lra) N U ltac:(lra)) as (lo & hi & w & r & L & Hh & O & EW & W & E & ER & B). destruct (C86_harris_priester 300000 (turned_z PI p) x 4 ltac:(lra) NQ U ltac:(lra)) as (lo' & hi' & w' & r' & L' & Hh' & O' & EW' & W' & E' & ER' & B').
  specialize (H 300000 p x 4 PI r r' ltac:(lra) N U ltac:(lra) E E'). fold p in EW, EW'.
  assert (C1 : cos_angle p p = 1). { unfold cos_angle. rewrite (unit_norm p UP), UP. field. } assert (C2 : cos_angle (turned_z PI p) p = - (1)). { unfold cos_angle. rewrite (unit_norm p UP), (unit_norm _ UQ). assert (D : dot 3 (turned_z PI p) p = - dot 3 p p). { unfold dot. rewrite !sumn3. unfold turned_z. cbn [v3]. rewrite cos_PI, sin_PI. unfold p, turned_z, x. cbn [v3]. ring. } rewrite D, UP. field. }
  rewrite C1 in EW. rewrite C2 in EW'. assert (w = 1) as ->. { rewrite EW. unfold cpow. rewrite req_false by lra. unfold Rpower. replace ((1 + 1) / 2) with 1 by field. rewrite ln_1, Rmult_0_r. apply exp_0. }
  assert (w' = 0) as ->. { rewrite EW'. unfold cpow. rewrite req_true by field. rewrite req_false by lra. reflexivity. }
  replace (300000 / 1000) with 300 in * by field. pose proof (proj1 (C86_tables hp_min (or_introl eq_refl)) _ _ _ L L') as ->. destruct (proj1 (proj2 (C86_tables hp_min (or_introl eq_refl))) 19%nat 300 (1708 / 10 ^ 2) 320 (1099 / 10 ^ 2) 300 lo' eq_refl eq_refl ltac:(lra) L') as [_ HB]. destruct (proj1 (proj2 (C86_tables hp_max (or_intror eq_refl))) 19%nat 300 (3526 / 10 ^ 2) 320 (2511 / 10 ^ 2) 300 hi eq_refl eq_refl ltac:(lra) Hh) as [_ HB2]. specialize (HB eq_refl). specialize (HB2 eq_refl). rewrite ER, ER' in H. lra.
Qed.
Print Assumptions C86_harris_priester.
Print Assumptions C86_harris_priester_falls.
Print Assumptions C86_tables.
Print Assumptions C86_harris_priester_outside.
Print Assumptions C86_harris_priester_continues_refuted.
Print Assumptions C86_same_place_same_density_refuted.

(** ** The class: the density that can be read afterwards carries no noise; a model that is switched off returns 0 but keeps it *)
Theorem C86_stored_without_noise : forall model enabled alt ecef sun nrl sd z stored s v, calc_air_density model enabled alt ecef sun nrl sd z stored = Ok (s, v) ->
  (enabled = false -> v = 0 /\ s = stored) /\ (enabled = true -> v = s + s * sd * z /\
    (model = "STANDARD"%string -> s = simple_density alt) /\ (model = "NRLMSISE00"%string -> s = nrl) /\
    (model = "HARRIS_PRIESTER"%string -> harris_priester alt ecef (normalize 3 sun) 4 = Ok s) /\
    (~ In model ["STANDARD"; "NRLMSISE00"; "HARRIS_PRIESTER"]%string -> s = 0)) /\
  forall z', exists v', calc_air_density model enabled alt ecef sun nrl sd z' stored = Ok (s, v').
Proof.
  intros model enabled alt ecef sun nrl sd z stored s v. unfold calc_air_density. destruct enabled; cbn [negb].
  - destruct (String.eqb_spec model "STANDARD") as [->|N1]; [intro H; injection H as <- <-; split; [discriminate|]; split; [|intro z'; eexists; reflexivity]; intros _; split; [reflexivity|]; split; [reflexivity|]; split; [discriminate|]; split; [discriminate|]; intro K; exfalso; apply K; now left|].
    destruct (String.eqb_spec model "NRLMSISE00") as [->|N2]; [intro H; injection H as <- <-; split; [discriminate|]; split; [|intro z'; eexists; reflexivity]; intros _; split; [reflexivity|]; split; [discriminate|]; split; [reflexivity|]; split; [discriminate|]; intro K; exfalso; apply K; right; now left|].
    destruct (String.eqb_spec model "HARRIS_PRIESTER") as [->|N3].
    + destruct (harris_priester _ _ _ _) as [r| | |]; cbn [bind]; [|discriminate..]. intro H; injection H as <- <-; split; [discriminate|]; split; [|intro z'; eexists; reflexivity]; intros _; split; [reflexivity|]; split; [discriminate|]; split; [discriminate|]; split; [reflexivity|]; intro K; exfalso; apply K; right; right; now left.
    + intro H; injection H as <- <-; split; [discriminate|]; split; [|intro z'; eexists; reflexivity]; intros _; split; [ring|]; split; [contradiction|]; split; [contradiction|]; split; [contradiction|]; reflexivity.
  - intro H. injection H as <- <-. split; [now split|]. split; [discriminate|]. intro z'. eexists. reflexivity.
Qed.
Theorem C86_settings : forall model manual read x,
  (model = "NRLMSISE00"%string -> manual = false -> read = false -> effective_model model manual read = "STANDARD"%string) /\
  (model <> "NRLMSISE00"%string \/ manual = true \/ read = true -> effective_model model manual read = model) /\
  50 <= checked_f107 x /\ (50 <= x -> checked_f107 x = x).
Proof.
  intros. split; [intros -> -> ->; reflexivity|]. split; [unfold effective_model; destruct (String.eqb_spec model "NRLMSISE00"); intros [H|[-> | ->]]; try contradiction; try destruct manual; try destruct read; reflexivity|]. unfold checked_f107. destruct (rlt_spec x 50); split; lra. Qed.
Print Assumptions C86_stored_without_noise.
Print Assumptions C86_settings.

(** ** Non-trivial cases *)
Example ex86 : exists lo hi w rho, log_interpolated hp_min 305 lo /\ log_interpolated hp_max 305 hi /\ harris_priester 305000 (v3 0 0 6678000) (v3 0 1 0) 4 = Ok rho /\ rho = (lo + (hi - lo) * w) / 10 ^ 12.
Proof.
  destruct (C86_harris_priester 305000 (v3 0 0 6678000) (v3 0 1 0) 4) as (lo & hi & w & rho & A & B & _ & _ & _ & C & D & _); try lra.
  - rewrite norm_dot. unfold dot. rewrite sumn3. cbn [v3]. apply sqrt_lt_R0. lra.
  - unfold unit, dot. rewrite sumn3. cbn [v3]. ring.
  - replace (305000 / 1000) with 305 in * by field. now exists lo, hi, w, rho.
Qed.
