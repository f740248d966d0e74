From Coq Require Import Reals Lra Lia List Arith Bool ZArith.
From Verif Require Import Base RBase VecModel GravitySpec GravityHarmonics GravityGrad GravityFile IgrfModel IgrfSpec IgrfProofs IgrfCoef IgrfField IgrfGrad.
Import ListNotations.
Open Scope R_scope.

Lemma total_opp N f : - total N f = total N (fun n m => - f n m).
Proof. transitivity (-1 * total N f); [ring|]. rewrite <- total_scal. apply total_ext. intros. ring. Qed.
(** ** The geodetic place *)
Lemma re_val : re_ = 6378.137. Proof. unfold re_. lra. Qed.
Lemma rp_val : 6356.752 < rp_ < 6356.753. Proof. unfold rp_, re_. lra. Qed.
Lemma place_ok alat hi : let phi := alat / urad in let W := normal_w re_ rp_ phi in
  -6300 <= hi -> 0.00000015 <= cos phi ->
  0 < rad_of alat hi /\ rad_of alat hi * cth_of alat hi = (rp_ * rp_ / W + hi) * sin phi /\
  rad_of alat hi * sth_of alat hi = (re_ * re_ / W + hi) * cos phi /\ cth_of alat hi * cth_of alat hi + sth_of alat hi * sth_of alat hi = 1 /\
  0 < sth_of alat hi.
Proof.
  intros phi W Hh Hc.
  assert (Sc : sin phi * sin phi + cos phi * cos phi = 1) by (pose proof (sin2_cos2 phi) as T; unfold Rsqr in T; exact T).
  pose proof re_val as Re. pose proof rp_val as Rp.
  assert (W2 : W * W = re_ * re_ * (cos phi * cos phi) + rp_ * rp_ * (sin phi * sin phi)) by (unfold W, normal_w; apply sqrt_sqrt; nra).
  assert (Wp : 0 < W) by (unfold W, normal_w; apply sqrt_lt_R0; nra).
  assert (RR : rp_ * rp_ <= re_ * re_) by nra. pose proof (Rle_0_sqr (sin phi)) as S0. pose proof (Rle_0_sqr (cos phi)) as C0. unfold Rsqr in S0, C0.
  assert (Wle : W <= re_).
  { apply Rsqr_incr_0_var; [|lra]. unfold Rsqr. rewrite W2. replace (re_ * re_) with (re_ * re_ * (cos phi * cos phi) + re_ * re_ * (sin phi * sin phi)) at 2 by (rewrite <- Rmult_plus_distr_l; replace (cos phi * cos phi + sin phi * sin phi) with 1 by lra; ring).
    apply Rplus_le_compat_l, Rmult_le_compat_r; assumption. }
  assert (B1 : rp_ <= rp_ * rp_ / rp_) by (apply Req_le; field; lra).
  assert (Bb : 6335 <= rp_ * rp_ / W) by (apply (Rmult_le_reg_r W); [lra|]; replace (rp_ * rp_ / W * W) with (rp_ * rp_) by (field; lra); nra).
  assert (Ba : rp_ * rp_ / W <= re_ * re_ / W) by (apply Rmult_le_compat_r; [left; apply Rinv_0_lt_compat; lra|nra]).
  set (U := re_ * re_ / W + hi) in *. set (V := rp_ * rp_ / W + hi) in *. assert (HU : 0 < V <= U) by (unfold U, V; lra).
  assert (Er : rad_of alat hi = sqrt (U * U * (cos phi * cos phi) + V * V * (sin phi * sin phi))).
  { unfold rad_of, mfldg_place. cbn [ca_kg fresh cache_field Z.eqb Pos.eqb negb orb ca_r]. fold phi. replace (1 - sin phi * sin phi) with (cos phi * cos phi) by lra.
    change (sqrt (re_ * re_ * (cos phi * cos phi) + rp_ * rp_ * (sin phi * sin phi))) with W. rewrite <- W2. f_equal.
    transitivity (re_ * re_ * (re_ * re_) / (W * W) * (cos phi * cos phi) + rp_ * rp_ * (rp_ * rp_) / (W * W) * (sin phi * sin phi) + 2 * hi * (W * W) / W + hi * hi); [field; lra|].
    rewrite W2 at 3. unfold U, V. apply (Rplus_eq_reg_r (- (hi * hi))). 
    transitivity (re_ * re_ * (re_ * re_) / (W * W) * (cos phi * cos phi) + rp_ * rp_ * (rp_ * rp_) / (W * W) * (sin phi * sin phi) + 2 * hi * (re_ * re_ * (cos phi * cos phi) + rp_ * rp_ * (sin phi * sin phi)) / W); [ring|].
    transitivity (re_ * re_ * (re_ * re_) / (W * W) * (cos phi * cos phi) + rp_ * rp_ * (rp_ * rp_) / (W * W) * (sin phi * sin phi) + 2 * hi * (re_ * re_ * (cos phi * cos phi) + rp_ * rp_ * (sin phi * sin phi)) / W + hi * hi * (sin phi * sin phi + cos phi * cos phi - 1)); [rewrite Sc; ring|]. field. lra. }
  set (r := rad_of alat hi) in *.
  assert (Rpos : 0 < U * U * (cos phi * cos phi) + V * V * (sin phi * sin phi)).
  { assert (0 < U * cos phi) by (apply Rmult_lt_0_compat; lra). nra. }
  assert (Hr : 0 < r) by (rewrite Er; apply sqrt_lt_R0, Rpos).
  assert (Hr2 : r * r = U * U * (cos phi * cos phi) + V * V * (sin phi * sin phi)) by (rewrite Er; apply sqrt_sqrt; lra).
  assert (Ec : cth_of alat hi = sin phi * V / r).
  { unfold cth_of, mfldg_place. cbn [ca_kg fresh cache_field Z.eqb Pos.eqb negb orb ca_cth]. fold phi.
    unfold r, rad_of, mfldg_place. cbn [ca_kg fresh cache_field Z.eqb Pos.eqb negb orb ca_r]. fold phi. replace (1 - sin phi * sin phi) with (cos phi * cos phi) by lra.
    change (sqrt (re_ * re_ * (cos phi * cos phi) + rp_ * rp_ * (sin phi * sin phi))) with W. unfold V. do 2 f_equal. ring. }
  assert (Es0 : sqrt (1 - cth_of alat hi * cth_of alat hi) = U * cos phi / r).
  { assert (P : 0 <= U * cos phi / r) by (apply Rmult_le_pos; [apply Rmult_le_pos; lra|left; apply Rinv_0_lt_compat, Hr]).
    rewrite <- (sqrt_square (U * cos phi / r)) by exact P. f_equal. rewrite Ec. apply (Rmult_eq_reg_r (r * r)); [|nra].
    transitivity (r * r - V * V * (sin phi * sin phi)); [field; lra|]. transitivity (U * U * (cos phi * cos phi)); [rewrite Hr2; ring|]. field. lra. }
  assert (Rle : r <= U).
  { apply Rsqr_incr_0_var; [|lra]. unfold Rsqr. rewrite Hr2. replace (U * U) with (U * U * (cos phi * cos phi) + U * U * (sin phi * sin phi)) at 2 by (rewrite <- Rmult_plus_distr_l; replace (cos phi * cos phi + sin phi * sin phi) with 1 by lra; ring).
    apply Rplus_le_compat_l, Rmult_le_compat_r; [assumption|nra]. }
  assert (Slow : 0.00000015 <= U * cos phi / r).
  { apply (Rmult_le_reg_r r); [exact Hr|]. replace (U * cos phi / r * r) with (U * cos phi) by (field; lra). nra. }
  assert (Es : sth_of alat hi = U * cos phi / r).
  { rewrite <- Es0. unfold sth_of, mfldg_place. cbn [ca_kg fresh cache_field Z.eqb Pos.eqb negb orb ca_sth].
    change ((if rlt (sqrt (1 - cth_of alat hi * cth_of alat hi)) 0.00000015 then 0.00000015 else sqrt (1 - cth_of alat hi * cth_of alat hi))
      = sqrt (1 - cth_of alat hi * cth_of alat hi)). rewrite Es0, rlt_false by exact Slow. reflexivity. }
  rewrite Es, Ec. split; [exact Hr|]. split; [field; lra|]. split; [field; lra|]. split; [|lra].
  apply (Rmult_eq_reg_r (r * r)); [|nra]. transitivity (U * U * (cos phi * cos phi) + V * V * (sin phi * sin phi)); [field; lra|]. rewrite <- Hr2. ring.
Qed.

Lemma deg_kappa v : v * (180 / PI) / urad = kappa * v.
Proof. unfold urad, kappa. field. pose proof PI_RGT_0. lra. Qed.

(** ** North, East, Down *)
Definition pxk (a : igrf_args) : R := geodetic_x re_ rp_ (kappa * ag_lat a) (kappa * ag_lon a) (ag_alt a / 1000).
Definition pyk (a : igrf_args) : R := geodetic_y re_ rp_ (kappa * ag_lat a) (kappa * ag_lon a) (ag_alt a / 1000).
Definition pzk (a : igrf_args) : R := geodetic_z re_ rp_ (kappa * ag_lat a) (ag_alt a / 1000).

Lemma ned_sums N g lat lon hi gv hv : (1 <= N)%nat -> tri (S N) 0 g gv hv ->
  cth_of lat hi * cth_of lat hi + sth_of lat hi * sth_of lat hi = 1 -> 0 < sth_of lat hi ->
  let phi := lon / urad in let t := ra_ / rad_of lat hi in let c := cth_of lat hi in let s := sth_of lat hi in
  ned N g lat lon hi =
  (total N (fun n m => t ^ (n + 2) * (Ct phi m (gv n m) (hv n m) * Df c s n m)),
   total N (fun n m => t ^ (n + 2) * (Et phi m (gv n m) (hv n m) * Pf c s n m * INR m)) / s,
   total N (fun n m => t ^ (n + 2) * (- INR (n + 1) * (Ct phi m (gv n m) (hv n m) * Pf c s n m)))).
Proof.
  intros HN Hg Hcs Hs phi t c s. unfold ned. rewrite loop_sum. cbn [fst snd].
  unfold at_place. rewrite at_place_eq by reflexivity. cbn [ca_rar ca_csp ca_snp ca_p].
  pose proof (p_ok c s Hcs Hs N (ca_p fresh) HN) as HP. fold c s phi.
  assert (T : forall n m, (1 <= n <= N)%nat -> (m <= n)%nat ->
    rar_table N (rad_of lat hi) (ca_rar fresh) n = t ^ (n + 2) /\
    fst (ph_table N (cos phi) (sin phi) (ca_csp fresh, ca_snp fresh)) m = cos (INR m * phi) /\
    snd (ph_table N (cos phi) (sin phi) (ca_csp fresh, ca_snp fresh)) m = sin (INR m * phi) /\
    p_table N c s (ca_p fresh) m n = Pf c s n m /\ p_table N c s (ca_p fresh) (n + 1)%nat m = Df c s n m /\ g m n = gv n m /\ ((1 <= m)%nat -> g n (m - 1)%nat = hv n m)).
  { intros n m Hn Hm. split; [apply rar_ok; lia|]. destruct (ph_ok N phi (ca_csp fresh, ca_snp fresh) m ltac:(lia)) as [P1 P2]. split; [exact P1|]. split; [exact P2|].
    destruct (HP n m ltac:(lia)) as [P3 P4]. split; [exact P3|]. split; [exact P4|]. apply Hg; lia. }
  apply f_equal2; [apply f_equal2|].
  - apply total_ext. intros n m Hn Hm. destruct (T n m Hn Hm) as (T1 & T2 & T3 & T4 & T5 & T6 & T7). unfold Ct. destruct m as [|m].
    + rewrite T1, T5, T6. cbn [INR]. rewrite Rmult_0_l, cos_0, sin_0. ring.
    + rewrite T1, T2, T3, T5, T6, T7 by lia. reflexivity.
  - fold s. f_equal. apply total_ext. intros n m Hn Hm. destruct (T n m Hn Hm) as (T1 & T2 & T3 & T4 & T5 & T6 & T7). unfold Et. destruct m as [|m].
    + cbn [INR]. ring.
    + rewrite T1, T2, T3, T4, T6, T7 by lia. reflexivity.
  - apply total_ext. intros n m Hn Hm. destruct (T n m Hn Hm) as (T1 & T2 & T3 & T4 & T5 & T6 & T7). unfold Ct. destruct m as [|m].
    + rewrite T1, T4, T6. cbn [INR]. rewrite Rmult_0_l, cos_0, sin_0. ring.
    + rewrite T1, T2, T3, T4, T6, T7 by lia. ring.
Qed.

(** ** The field in the inertial frame *)
Lemma acos_sin c s : c * c + s * s = 1 -> 0 < s -> cos (acos c) = c /\ sin (acos c) = s.
Proof.
  intros H Hs. assert (-1 <= c <= 1) by nra. split; [apply cos_acos; assumption|]. rewrite sin_acos by assumption.
  replace (1 - c²) with (s * s) by (unfold Rsqr; lra). apply sqrt_square. lra.
Qed.
Lemma field_ok f junk first co a : coefs_of f junk first co -> (1 <= co_max co)%nat ->
  -6300 <= ag_alt a / 1000 -> 0.00000015 <= cos (kappa * ag_lat a) ->
  exists gx gy gz,
    gradient_at (magnetic_potential ra_ (co_max co) (igrf_g f first (ag_year a)) (igrf_h f first (ag_year a))) (pxk a) (pyk a) (pzk a) gx gy gz /\
    (value co a 0%nat, value co a 1%nat, value co a 2%nat) = turned (ag_lon a - kappa * ag_lon a + ag_side a) (- gx) (- gy) (- gz).
Proof.
  intros (Hco & _) HN Hh Hc.
  set (lat := ag_lat a * (180 / PI)). set (hi := ag_alt a / 1000) in *. set (phi := kappa * ag_lon a).
  assert (Elat : lat / urad = kappa * ag_lat a) by apply deg_kappa. assert (Elon : ag_lon a * (180 / PI) / urad = phi) by apply deg_kappa.
  pose proof (place_ok lat hi) as PL. cbv zeta in PL. rewrite Elat in PL. specialize (PL Hh Hc).
  set (r := rad_of lat hi) in *. set (c := cth_of lat hi) in *. set (s := sth_of lat hi) in *.
  destruct PL as (Pr & Pz & Ps & Pcs & Sp).
  assert (Ex : pxk a = r * s * cos phi) by (unfold pxk, geodetic_x; fold phi hi; rewrite Ps; reflexivity).
  assert (Ey : pyk a = r * s * sin phi) by (unfold pyk, geodetic_y; fold phi hi; rewrite Ps; reflexivity).
  assert (Ez : pzk a = r * c) by (unfold pzk, geodetic_z; fold hi; rewrite Pz; reflexivity).
  assert (Off : off (pxk a) (pyk a) (pzk a)) by (rewrite Ex, Ey, Ez; apply polar_off; assumption).
  eexists _, _, _. split; [apply potential_gradient; exact Off|].
  set (gv := fun n m => schmidt n m * igrf_g f first (ag_year a) n m). set (hv := fun n m => schmidt n m * igrf_h f first (ag_year a) n m).
  assert (Hg : tri (S (co_max co)) 0 (tyear co (ag_year a) g_zero) gv hv).
  { intros n m H1 H2 H3. destruct (tyear_ok co (ag_year a) g_zero n m H1 H2 H3) as [T1 T2]. destruct (Hco (ag_year a) n m) as [C1 C2]; [lia|exact H2|].
    rewrite T1. split; [exact C1|]. intros Hm. rewrite T2 by exact Hm. apply C2, Hm. }
  unfold value. fold lat hi. pose proof (ned_sums (co_max co) _ lat (ag_lon a * (180 / PI)) hi gv hv HN Hg Pcs Sp) as ND. cbv zeta in ND. rewrite Elon in ND. fold r c s in ND. rewrite ND. clear ND.
  set (X := total _ _). set (Y := total _ _). set (Z := total _ _).
  assert (Pw : forall n, (ra_ / r) ^ (n + 2) = ra_ ^ (n + 2) * (/ r) ^ (n + 2)) by (intros n; unfold Rdiv; apply Rpow_mult_distr).
  assert (Gz : s * X - c * Z = - total (co_max co) (fun n m => ra_ ^ (n + 2) * tz n m (gv n m) (hv n m) (pxk a) (pyk a) (pzk a))).
  { transitivity (s * X + - c * Z); [ring|]. unfold X, Z. rewrite <- !total_scal, <- !total_plus, total_opp. apply total_ext. intros n m _ _.
    rewrite Ex, Ey, Ez. pose proof (polar_tz r c s phi Pr Pcs n m (gv n m) (hv n m)) as P. cbv zeta in P. rewrite Pw.
    transitivity (ra_ ^ (n + 2) * - tz n m (gv n m) (hv n m) (r * s * cos phi) (r * s * sin phi) (r * c)); [rewrite <- P; ring|ring]. }
  assert (Gx : - c * cos phi * X - sin phi / s * Y - s * cos phi * Z = - total (co_max co) (fun n m => ra_ ^ (n + 2) * tx n m (gv n m) (hv n m) (pxk a) (pyk a) (pzk a))).
  { transitivity (- c * cos phi * X + - (sin phi / s) * Y + - (s * cos phi) * Z); [ring|]. unfold X, Y, Z. rewrite <- !total_scal, <- !total_plus.
    rewrite total_opp. apply total_ext. intros n m _ _.
    rewrite Ex, Ey, Ez. pose proof (polar_tx r c s phi Pr Pcs Sp n m (gv n m) (hv n m)) as P. cbv zeta in P. rewrite Pw.
    transitivity (ra_ ^ (n + 2) * - tx n m (gv n m) (hv n m) (r * s * cos phi) (r * s * sin phi) (r * c)); [rewrite <- P; ring|ring]. }
  assert (Gy : - c * sin phi * X + cos phi / s * Y - s * sin phi * Z = - total (co_max co) (fun n m => ra_ ^ (n + 2) * ty n m (gv n m) (hv n m) (pxk a) (pyk a) (pzk a))).
  { transitivity (- c * sin phi * X + (cos phi / s) * Y + - (s * sin phi) * Z); [ring|]. unfold X, Y, Z. rewrite <- !total_scal, <- !total_plus.
    rewrite total_opp. apply total_ext. intros n m _ _.
    rewrite Ex, Ey, Ez. pose proof (polar_ty r c s phi Pr Pcs Sp n m (gv n m) (hv n m)) as P. cbv zeta in P. rewrite Pw.
    transitivity (ra_ ^ (n + 2) * - ty n m (gv n m) (hv n m) (r * s * cos phi) (r * s * sin phi) (r * c)); [rewrite <- P; ring|ring]. }
  unfold gv, hv in Gx, Gy, Gz. rewrite <- Gx, <- Gy, <- Gz. destruct (acos_sin c s Pcs Sp) as [Ac As].
  unfold magaxis_to_eci, rotation_z, rotation_y, turned. cbn [v3]. fold phi lat hi. fold c.
  assert (P1 : cos (PI - acos c) = - c) by (rewrite Rtrigo_facts.cos_pi_minus, Ac; reflexivity).
  assert (P2 : sin (PI - acos c) = s) by (rewrite sin_PI_x; exact As).
  rewrite P1, P2. rewrite !cos_neg, !sin_neg.
  replace (ag_lon a - phi + ag_side a) with (ag_lon a + ag_side a - phi) by ring. rewrite cos_minus, sin_minus, cos_plus, sin_plus.
  pose proof (sin2_cos2 phi) as SC. unfold Rsqr in SC.
  set (cl := cos (ag_lon a)). set (sl := sin (ag_lon a)). set (cg := cos (ag_side a)). set (sg := sin (ag_side a)). set (cp := cos phi) in *. set (sp := sin phi) in *.
  apply f_equal2; [apply f_equal2|].
  - transitivity ((sp * sp + cp * cp) * (cg * (cl * (- c * X - s * Z) - sl * (Y / s)) - sg * (sl * (- c * X - s * Z) + cl * (Y / s)))); [rewrite SC; field; lra|field; lra].
  - transitivity ((sp * sp + cp * cp) * (sg * (cl * (- c * X - s * Z) - sl * (Y / s)) + cg * (sl * (- c * X - s * Z) + cl * (Y / s)))); [rewrite SC; field; lra|field; lra].
  - ring.
Qed.
Lemma potential_pad a N M g h x y z : (N <= M)%nat -> (forall n m, (N < n <= M)%nat -> (m <= n)%nat -> g n m = 0 /\ h n m = 0) ->
  magnetic_potential a M g h x y z = magnetic_potential a N g h x y z.
Proof.
  intros H Z. unfold magnetic_potential. f_equal. induction M as [|M IH]; [replace N with 0%nat by lia; reflexivity|].
  destruct (Nat.eq_dec N (S M)) as [->|Ne]; [reflexivity|]. cbn [sum_to]. rewrite IH; [|lia|intros n m Hn; apply Z; lia].
  change (sum_to M ?f + ?f (S M)) with (sum_to (S M) f).
  assert (E : sum_to (S M) (fun m => schmidt (S M) m * (g (S M) m * fst (solid a (S M) m x y z) + h (S M) m * snd (solid a (S M) m x y z))) = 0).
  { rewrite (sum_to_ext (S M) _ (fun _ => 0 * 0)); [rewrite sum_to_scal; ring|]. intros m Hm. destruct (Z (S M) m ltac:(lia) Hm) as [-> ->]. ring. }
  cbn [sum_to] in E. rewrite E. ring.
Qed.
Lemma complete_zero f junk first co : coefs_of f junk first co -> complete f first -> forall n m t, (co_max co < n <= f_max f)%nat -> (m <= n)%nat -> igrf_g f first t n m = 0 /\ igrf_h f first t n m = 0.
Proof.
  intros (_ & _ & H3 & _) Hc n [|m] t Hn Hm; [|apply H3; lia]. split; [|reflexivity].
  destruct (Req_dec (igrf_g f first t n 0%nat) 0) as [E|E]; [exact E|]. exfalso.
  destruct (Hc n t ltac:(lia) E) as (n' & m' & t' & A1 & A2 & A3). destruct (H3 n' m' t' ltac:(lia) A2) as [Z1 Z2]. destruct A3; contradiction.
Qed.

Lemma earth_a_ok : earth_a = re_. Proof. unfold earth_a, re_. lra. Qed.
Lemma earth_b_ok : earth_b = rp_. Proof. unfold earth_b, rp_. rewrite earth_a_ok. reflexivity. Qed.
Lemma igrf_radius_ok : igrf_radius = ra_. Proof. unfold igrf_radius, ra_. lra. Qed.
Lemma call_ok a : call_x a = pxk a /\ call_y a = pyk a /\ call_z a = pzk a.
Proof. unfold call_x, call_y, call_z, pxk, pyk, pzk. rewrite earth_a_ok, earth_b_ok. repeat split. Qed.
Lemma value_zero co a : co_max co = 0%nat -> (value co a 0%nat, value co a 1%nat, value co a 2%nat) = (0, 0, 0).
Proof.
  intros E. unfold value. rewrite E. unfold ned. cbn [loop fst snd]. unfold magaxis_to_eci, rotation_z, rotation_y. cbn [v3].
  unfold Rdiv. rewrite !Rmult_0_l. repeat apply f_equal2; ring.
Qed.
Lemma field_full f junk first co a : coefs_of f junk first co -> complete f first -> -6300 <= ag_alt a / 1000 -> 0.00000015 <= cos (kappa * ag_lat a) ->
  exists gx gy gz,
    gradient_at (magnetic_potential igrf_radius (f_max f) (igrf_g f first (ag_year a)) (igrf_h f first (ag_year a))) (call_x a) (call_y a) (call_z a) gx gy gz /\
    (value co a 0%nat, value co a 1%nat, value co a 2%nat) = turned (ag_lon a - kappa * ag_lon a + ag_side a) (- gx) (- gy) (- gz).
Proof.
  intros Hco Hc Hh Hl. destruct (call_ok a) as (-> & -> & ->). rewrite igrf_radius_ok.
  assert (Pad : forall x y z, magnetic_potential ra_ (co_max co) (igrf_g f first (ag_year a)) (igrf_h f first (ag_year a)) x y z = magnetic_potential ra_ (f_max f) (igrf_g f first (ag_year a)) (igrf_h f first (ag_year a)) x y z).
  { intros x y z. symmetry. apply potential_pad; [apply Hco|]. intros n m Hn Hm. apply (complete_zero f junk first co Hco Hc n m _ Hn Hm). }
  destruct (Nat.eq_dec (co_max co) 0) as [E0|E0].
  - exists 0, 0, 0. split.
    + unfold gradient_at. rewrite E0 in Pad. unfold magnetic_potential at 1 in Pad. cbn [sum_to] in Pad.
      split; [|split]; apply (dpl_ext (fun _ => ra_ * 0)); try (intros; apply Pad); apply derivable_pt_lim_const.
    + rewrite value_zero by exact E0. unfold turned. repeat apply f_equal2; ring.
  - destruct (field_ok f junk first co a Hco) as (gx & gy & gz & (G1 & G2 & G3) & V); [lia|exact Hh|exact Hl|]. exists gx, gy, gz. split; [|exact V].
    split; [|split]; [apply (dpl_ext _ _ _ _ (fun v => Pad v _ _) G1)|apply (dpl_ext _ _ _ _ (fun v => Pad _ v _) G2)|apply (dpl_ext _ _ _ _ (fun v => Pad _ _ v) G3)].
Qed.
