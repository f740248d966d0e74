(** Proofs for C162-C165: the terms of dscom and dsinit. *)
From Coq Require Import Reals Lra Lia Psatz List Bool ZArith.
From Verif Require Import RBase VecModel VecProofs Trig SensorModel JulianModel OeProofs Sgp4Model Sgp4Spec Sgp4Proofs Sgp4Geom Sgp4DeepModel Sgp4DeepSpec Sgp4Third.
Import ListNotations.
Open Scope R_scope.

(** ** One turn of the loop of dscom *)
Definition is_orb (o : dsorb) (n : R) (q : orb) : Prop :=
  o = mkDso (q_e q) (q_e q * q_e q) (1 - q_e q * q_e q) (sqrt (1 - q_e q * q_e q)) (1 / n) (sin (q_i q)) (cos (q_i q)) (sin (q_w q)) (cos (q_w q)) (sin (q_node q)) (cos (q_node q)).
Definition dirA (cg sg ci si ch sh : R) : vec := v3 (cg * ch - sg * ci * sh) (cg * sh + sg * ci * ch) (sg * si).
Definition dirB (cg sg ci si ch sh : R) : vec := v3 (- sg * ch - cg * ci * sh) (- sg * sh + cg * ci * ch) (cg * si).
(** s1-s7 and z1-z33 by the components along perigee, 90 degrees ahead and the normal *)
Section combos.
Variables (e sw cw : R).
Definition Iq (X Y : R) : R := (1 + 4 * e ^ 2) * X * cw - (1 - e ^ 2) * Y * sw.
Definition Hq (X Y : R) : R := (1 + 4 * e ^ 2) * X * sw + (1 - e ^ 2) * Y * cw.
Definition Zq (X Y X' Y' : R) : R := 12 * ((1 + 4 * e ^ 2) * X * X' + (1 - e ^ 2) * Y * Y') / 2 + (1 - e ^ 2) * (12 * X * X' - 3 * Y * Y').
End combos.
Lemma terms_facts o n q cg sg ci si ch sh cc d : is_orb o n q ->
  ds_terms o cg sg ci si (ch * o_cnodm o + sh * o_snodm o) (o_snodm o * ch - o_cnodm o * sh) cc = Val d ->
  let U := vU (q_w q) (q_node q) (q_i q) in let V := vV (q_w q) (q_node q) (q_i q) in let W := vW (q_node q) (q_i q) in
  let A := dirA cg sg ci si ch sh in let B := dirB cg sg ci si ch sh in
  let '(XA, YA, ZA, XB, YB, ZB) := (dot3 A U, dot3 A V, dot3 A W, dot3 B U, dot3 B V, dot3 B W) in
  let e := q_e q in let be := sqrt (1 - e ^ 2) in
  let I := Iq e (sin (q_w q)) (cos (q_w q)) in let H := Hq e (sin (q_w q)) (cos (q_w q)) in
  be <> 0 /\
  b_s1 d = - 15 * e * be * (cc / n) /\ b_s2 d = - (cc / n) / (2 * be) /\ b_s3 d = cc / n /\ b_s4 d = be * (cc / n) /\
  b_s5 d = XA * YA + XB * YB /\ b_s6 d = XB * YA + XA * YB /\ b_s7 d = XB * YB - XA * YA /\
  b_z31 d = 12 * XA ^ 2 - 3 * YA ^ 2 /\ b_z32 d = 24 * XA * XB - 6 * YA * YB /\ b_z33 d = 12 * XB ^ 2 - 3 * YB ^ 2 /\
  b_z1 d = Zq e XA YA XA YA /\ b_z2 d = 2 * Zq e XA YA XB YB /\ b_z3 d = Zq e XB YB XB YB /\
  b_z11 d = - 6 * I XA YA * ZA /\ b_z12 d = - 6 * (I XA YA * ZB + I XB YB * ZA) /\ b_z13 d = - 6 * I XB YB * ZB /\
  b_z21 d = 6 * H XA YA * ZA /\ b_z22 d = 6 * (H XA YA * ZB + H XB YB * ZA) /\ b_z23 d = 6 * H XB YB * ZB.
Proof.
  intros -> T. unfold ds_terms in T. cbn [o_em o_emsq o_betasq o_rtemsq o_xnoi o_sinim o_cosim o_sinomm o_cosomm o_snodm o_cnodm] in T.
  apply rbind_val in T. destruct T as (s2 & T2 & T). apply fdiv_val in T2. destruct T2 as (NZ & T2). apply Val_inj in T. subst d.
  cbn [b_s1 b_s2 b_s3 b_s4 b_s5 b_s6 b_s7 b_z1 b_z2 b_z3 b_z11 b_z12 b_z13 b_z21 b_z22 b_z23 b_z31 b_z32 b_z33]. cbn zeta.
  replace (q_e q ^ 2) with (q_e q * q_e q) by ring. set (be := sqrt (1 - q_e q * q_e q)) in *. set (e := q_e q) in *.
  pose proof (cs2 (q_w q)) as C. rewrite T2. clear T2.
  set (x1 := dot3 (dirA cg sg ci si ch sh) (vU (q_w q) (q_node q) (q_i q))). set (x3 := dot3 (dirA cg sg ci si ch sh) (vV (q_w q) (q_node q) (q_i q))).
  set (x2 := dot3 (dirB cg sg ci si ch sh) (vU (q_w q) (q_node q) (q_i q))). set (x4 := dot3 (dirB cg sg ci si ch sh) (vV (q_w q) (q_node q) (q_i q))).
  set (za := dot3 (dirA cg sg ci si ch sh) (vW (q_node q) (q_i q))). set (zb := dot3 (dirB cg sg ci si ch sh) (vW (q_node q) (q_i q))).
  set (zh := ch * cos (q_node q) + sh * sin (q_node q)). set (zs := sin (q_node q) * ch - cos (q_node q) * sh).
  set (a1 := cg * zh + sg * ci * zs). set (a3 := - sg * zh + cg * ci * zs).
  set (a7 := - cg * zs + sg * ci * zh). set (a9 := sg * zs + cg * ci * zh).
  set (a2 := cos (q_i q) * a7 + sin (q_i q) * (sg * si)). set (a4 := cos (q_i q) * a9 + sin (q_i q) * (cg * si)).
  assert (E1 : a1 * cos (q_w q) + a2 * sin (q_w q) = x1). { unfold x1. rewrite dot_U. unfold dirA, v3, a2, a1, a7, zh, zs. ring. }
  assert (E2 : a3 * cos (q_w q) + a4 * sin (q_w q) = x2). { unfold x2. rewrite dot_U. unfold dirB, v3, a4, a3, a9, zh, zs. ring. }
  assert (E3 : - a1 * sin (q_w q) + a2 * cos (q_w q) = x3). { unfold x3. rewrite dot_V. unfold dirA, v3, a2, a1, a7, zh, zs. ring. }
  assert (E4 : - a3 * sin (q_w q) + a4 * cos (q_w q) = x4). { unfold x4. rewrite dot_V. unfold dirB, v3, a4, a3, a9, zh, zs. ring. }
  assert (E5 : - sin (q_i q) * a7 + cos (q_i q) * (sg * si) = za). { unfold za. rewrite dot_W. unfold dirA, v3, a7, zh, zs. ring. }
  assert (E6 : - sin (q_i q) * a9 + cos (q_i q) * (cg * si) = zb). { unfold zb. rewrite dot_W. unfold dirB, v3, a9, zh, zs. ring. }
  rewrite E1, E2, E3, E4, E5, E6.
  set (sw := sin (q_w q)) in *. set (cw := cos (q_w q)) in *.
  assert (A1 : a1 = x1 * cw - x3 * sw). { rewrite <- E1, <- E3. transitivity (a1 * (cw ^ 2 + sw ^ 2)); [rewrite C|]; ring. }
  assert (A2 : a2 = x1 * sw + x3 * cw). { rewrite <- E1, <- E3. transitivity (a2 * (cw ^ 2 + sw ^ 2)); [rewrite C|]; ring. }
  assert (A3 : a3 = x2 * cw - x4 * sw). { rewrite <- E2, <- E4. transitivity (a3 * (cw ^ 2 + sw ^ 2)); [rewrite C|]; ring. }
  assert (A4 : a4 = x2 * sw + x4 * cw). { rewrite <- E2, <- E4. transitivity (a4 * (cw ^ 2 + sw ^ 2)); [rewrite C|]; ring. }
  clearbody x1 x2 x3 x4 za zb. clear E1 E2 E3 E4 E5 E6. clearbody a1 a2 a3 a4. subst a1 a2 a3 a4. clearbody sw cw be e.
  unfold Iq, Hq, Zq. split; [exact NZ|].
  repeat split; try (unfold Rdiv; ring); try (field; exact NZ).
  - unfold Rdiv. rewrite Rinv_mult. replace (- 0.5) with (- / 2) by lra. ring.
  - transitivity (6 * ((x1 ^ 2 + x3 ^ 2) * (cw ^ 2 + sw ^ 2)) + 2 * (12 * x1 * x1 - 3 * x3 * x3) * (e * e) + (1 - e * e) * (12 * x1 * x1 - 3 * x3 * x3)); [ring|rewrite C; field].
  - transitivity (12 * ((x1 * x2 + x3 * x4) * (cw ^ 2 + sw ^ 2)) + 2 * (24 * x1 * x2 - 6 * x3 * x4) * (e * e) + (1 - e * e) * (24 * x1 * x2 - 6 * x3 * x4)); [ring|rewrite C; field].
  - transitivity (6 * ((x2 ^ 2 + x4 ^ 2) * (cw ^ 2 + sw ^ 2)) + 2 * (12 * x2 * x2 - 3 * x4 * x4) * (e * e) + (1 - e * e) * (12 * x2 * x2 - 3 * x4 * x4)); [ring|rewrite C; field].
Qed.

(** ** Secular rates and periodic terms of one body *)
Definition f2 (f : R) : R := 0.5 * sin f * sin f - 0.25.
Definition f3 (f : R) : R := - 0.5 * sin f * cos f.
Definition terms_secular (d : dsbody) (zn e i : R) : rates :=
  let h := - zn * b_s2 d * (b_z21 d + b_z23 d) / sin i in
  mkRates (b_s1 d * zn * b_s5 d) (b_s2 d * zn * (b_z11 d + b_z13 d)) (b_s4 d * zn * (b_z31 d + b_z33 d - 6) - cos i * h) h
    (- zn * b_s3 d * (b_z1 d + b_z3 d - 14 - 6 * (e * e))).
Definition terms_periodic (d : dsbody) (ecc e : R) (f : R) : rates :=
  mkRates (2 * b_s1 d * b_s6 d * f2 f + 2 * b_s1 d * b_s7 d * f3 f) (2 * b_s2 d * b_z12 d * f2 f + 2 * b_s2 d * (b_z13 d - b_z11 d) * f3 f)
    (2 * b_s4 d * b_z32 d * f2 f + 2 * b_s4 d * (b_z33 d - b_z31 d) * f3 f + - 18 * b_s4 d * ecc * sin f)
    (- 2 * b_s2 d * b_z22 d * f2 f + - 2 * b_s2 d * (b_z23 d - b_z21 d) * f3 f)
    (- 2 * b_s3 d * b_z2 d * f2 f + - 2 * b_s3 d * (b_z3 d - b_z1 d) * f3 f + - 2 * b_s3 d * (- 21 - 9 * (e * e)) * ecc * sin f).
Lemma rates_eq5 x y : r_e x = r_e y -> r_i x = r_i y -> r_w x = r_w y -> r_node x = r_node y -> r_M x = r_M y -> x = y.
Proof. destruct x, y. cbn. congruence. Qed.
Lemma periodic_by b rate mean iso al ga de P : (forall f, P f = al * f2 f + ga * f3 f + de * sin f) -> b_n b <> 0 ->
  (forall f, rate f - mean = b_n b * (al * (sin f * cos f) - ga / 2 * (cos f ^ 2 - sin f ^ 2))) -> iso * (3 * b_ecc b) = b_n b * de ->
  periodic b rate mean iso P.
Proof.
  intros E N Q D. destruct (periodic_intro b rate mean iso al ga de N Q D) as (X & Y). split.
  - intros f. eapply deriv_ext; [|apply X]. intros z. apply E. - eapply mean_ext; [exact E|reflexivity|exact Y].
Qed.
Lemma body_ok o n q cg sg ci si ch sh cc zn ecc d : is_orb o n q -> 0 < q_a q -> 0 < q_e q < 1 -> n <> 0 -> sin (q_i q) <> 0 -> zn <> 0 ->
  ds_terms o cg sg ci si (ch * o_cnodm o + sh * o_snodm o) (o_snodm o * ch - o_cnodm o * sh) cc = Val d ->
  let b := mkBody (4 * cc * zn) zn ecc (dirA cg sg ci si ch sh) (dirB cg sg ci si ch sh) in
  lagrange (averaged2 b) n q (terms_secular d zn (q_e q) (q_i q)) /\ body_periodics b n q (terms_periodic d ecc (q_e q)).
Proof.
  intros IO A0 E0 N0 I0 ZN T. pose proof (terms_facts _ _ _ _ _ _ _ _ _ _ _ IO T) as F. clear T IO. cbn zeta in F. cbn zeta.
  set (A := dirA cg sg ci si ch sh) in *. set (B := dirB cg sg ci si ch sh) in *.
  set (b := mkBody (4 * cc * zn) zn ecc A B).
  pose proof (lagrange_averaged (4 * cc * zn) A n q A0 E0 N0 I0) as LA. pose proof (lagrange_averaged (4 * cc * zn) B n q A0 E0 N0 I0) as LB.
  pose proof (fun f => lagrange_averaged (4 * cc * zn) (toward b f) n q A0 E0 N0 I0) as LF.
  pose proof (lagrange_averaged (4 * cc * zn) (fun _ => 0) n q A0 E0 N0 I0) as L0.
  set (XA := dot3 A (vU (q_w q) (q_node q) (q_i q))) in *. set (YA := dot3 A (vV (q_w q) (q_node q) (q_i q))) in *. set (ZA := dot3 A (vW (q_node q) (q_i q))) in *.
  set (XB := dot3 B (vU (q_w q) (q_node q) (q_i q))) in *. set (YB := dot3 B (vV (q_w q) (q_node q) (q_i q))) in *. set (ZB := dot3 B (vW (q_node q) (q_i q))) in *.
  destruct F as (BE & S1 & S2 & S3 & S4 & S5 & S6 & S7 & Z31 & Z32 & Z33 & Z1 & Z2 & Z3 & Z11 & Z12 & Z13 & Z21 & Z22 & Z23).
  assert (B2 : sqrt (1 - q_e q ^ 2) ^ 2 = 1 - q_e q ^ 2) by (apply pow2_sqrt; nra).
  assert (SEC : lagrange (averaged2 b) n q (terms_secular d zn (q_e q) (q_i q))).
  { eapply lagrange_ext; [| |exact (lagrange_lin (1 / 2) _ _ _ _ _ _ LA LB)]; [intros q0; reflexivity|].
    unfold terms_secular, rates_at. apply rates_eq5; cbn [r_e r_i r_w r_node r_M]; rewrite ?B2; rewrite ?S1, ?S2, ?S3, ?S4, ?S5, ?Z31, ?Z33, ?Z1, ?Z3, ?Z11, ?Z13, ?Z21, ?Z23; unfold Iq, Hq, Zq; field; repeat split; assumption. }
  split; [exact SEC|].
  exists (fun f => rates_at (4 * cc * zn) n (q_e q) (q_i q) (q_w q) (cos f * XA + sin f * XB) (cos f * YA + sin f * YB) (cos f * ZA + sin f * ZB)).
  exists (terms_secular d zn (q_e q) (q_i q)), (rates_at (4 * cc * zn) n (q_e q) (q_i q) (q_w q) 0 0 0).
  split. { intros f. specialize (LF f). rewrite !toward_dot in LF. exact LF. }
  split; [exact SEC|]. split.
  { eapply lagrange_ext; [| |exact L0]; [intros q0; cbn [b b_k]; apply isotropic_averaged|]. f_equal; unfold dot3; ring. }
  clear LA LB LF L0 SEC. set (be := sqrt (1 - q_e q ^ 2)) in *. set (e := q_e q) in *.
  cbn zeta. unfold terms_periodic, terms_secular, rates_at. cbn [r_e r_i r_w r_node r_M]. fold be. split; [|split; [|split; [|split]]].
  1: apply (periodic_by b _ _ _ (2 * b_s1 d * b_s6 d) (2 * b_s1 d * b_s7 d) 0).
  5: apply (periodic_by b _ _ _ (2 * b_s2 d * b_z12 d) (2 * b_s2 d * (b_z13 d - b_z11 d)) 0).
  9: apply (periodic_by b _ _ _ (2 * b_s4 d * b_z32 d) (2 * b_s4 d * (b_z33 d - b_z31 d)) (- 18 * b_s4 d * ecc)).
  13: apply (periodic_by b _ _ _ (- 2 * b_s2 d * b_z22 d) (- 2 * b_s2 d * (b_z23 d - b_z21 d)) 0).
  17: apply (periodic_by b _ _ _ (- 2 * b_s3 d * b_z2 d) (- 2 * b_s3 d * (b_z3 d - b_z1 d)) (- 2 * b_s3 d * (- 21 - 9 * (e * e)) * ecc)).
  all: try (intros f; unfold f2, f3; ring).
  all: try exact ZN.
  all: try intros f; cbn [b b_n b_ecc]; rewrite ?B2; rewrite ?S1, ?S2, ?S3, ?S4, ?S5, ?S6, ?S7, ?Z31, ?Z32, ?Z33, ?Z1, ?Z2, ?Z3, ?Z11, ?Z12, ?Z13, ?Z21, ?Z22, ?Z23; unfold Iq, Hq, Zq.
  all: try (pose proof (cs2 f) as C; field [C]; repeat split; assumption).
  all: try (field; repeat split; assumption).
Qed.

Lemma body_plane o n q cg sg ci si ch sh cc zn ecc d : is_orb o n q -> 0 < q_a q -> 0 <= q_e q < 1 -> n <> 0 -> sin (q_i q) <> 0 ->
  ds_terms o cg sg ci si (ch * o_cnodm o + sh * o_snodm o) (o_snodm o * ch - o_cnodm o * sh) cc = Val d ->
  let b := mkBody (4 * cc * zn) zn ecc (dirA cg sg ci si ch sh) (dirB cg sg ci si ch sh) in
  let x := terms_secular d zn (q_e q) (q_i q) in plane_rates (averaged2 b) n q (r_i x) (r_node x).
Proof.
  intros IO A0 E0 N0 I0 T. pose proof (terms_facts _ _ _ _ _ _ _ _ _ _ _ IO T) as F. clear T IO. cbn zeta in F. cbn zeta.
  set (A := dirA cg sg ci si ch sh) in *. set (B := dirB cg sg ci si ch sh) in *.
  pose proof (plane_averaged (4 * cc * zn) A n q A0 E0 N0 I0) as LA. pose proof (plane_averaged (4 * cc * zn) B n q A0 E0 N0 I0) as LB. cbn zeta in LA, LB.
  set (XA := dot3 A (vU (q_w q) (q_node q) (q_i q))) in *. set (YA := dot3 A (vV (q_w q) (q_node q) (q_i q))) in *. set (ZA := dot3 A (vW (q_node q) (q_i q))) in *.
  set (XB := dot3 B (vU (q_w q) (q_node q) (q_i q))) in *. set (YB := dot3 B (vV (q_w q) (q_node q) (q_i q))) in *. set (ZB := dot3 B (vW (q_node q) (q_i q))) in *.
  destruct F as (BE & S1 & S2 & S3 & S4 & S5 & S6 & S7 & Z31 & Z32 & Z33 & Z1 & Z2 & Z3 & Z11 & Z12 & Z13 & Z21 & Z22 & Z23).
  assert (B2 : sqrt (1 - q_e q ^ 2) ^ 2 = 1 - q_e q ^ 2) by (apply pow2_sqrt; nra).
  eapply plane_ext; [| | |exact (plane_lin (1 / 2) _ _ _ _ _ _ _ _ LA LB)]; [intros q0; reflexivity| |];
    unfold terms_secular, rates_at; cbn [r_i r_node]; rewrite ?S2, ?Z11, ?Z13, ?Z21, ?Z23; unfold Iq, Hq; field; repeat split; assumption.
Qed.

(** ** The orbits of the Sun and the Moon *)
Lemma lunar_ok day : exists g i nd x k gam, ds_lunar day = Val (cos g, sin g, cos i, sin i, cos nd, sin nd, gam) /\
  gam = 5.8351514 + 0.0019443680 * day /\
  let D := 4.5236020 - 9.2422029e-4 * day in
  0 < i < PI /\ cos i = 0.91375164 - 0.03568096 * cos D /\ - (PI / 2) <= nd <= PI / 2 /\ sin i * sin nd = 0.089683511 * sin D /\
  0 < k /\ k * sin i * sin x = 0.39785416 * sin D /\ k * cos x = cos nd * cos D + 0.91744867 * sin nd * sin D /\
  g = gam + x - D.
Proof.
  unfold ds_lunar. set (D := 4.5236020 - 9.2422029e-4 * day). rewrite !sin_fmod, !cos_fmod.
  set (ci := 0.91375164 - 0.03568096 * cos D). pose proof (COS_bound D) as CB. pose proof (SIN_bound D) as SB.
  assert (CI : 0.87 <= ci <= 0.95) by (unfold ci; lra).
  rewrite fsqrt_ok by nra. cbn [rbind]. set (si := sqrt (1 - ci * ci)).
  assert (SI2 : si * si = 1 - ci * ci) by (apply sqrt_sqrt; nra). assert (SI0 : 0 <= si) by apply sqrt_pos. assert (SI : 0.3 < si) by nra.
  rewrite fdiv_ok by lra. cbn [rbind]. set (sn := 0.089683511 * sin D / si).
  assert (SN : si * sn = 0.089683511 * sin D) by (unfold sn; field; lra).
  assert (SNB : - 0.5 <= sn <= 0.5) by nra.
  rewrite fsqrt_ok by nra. cbn [rbind]. rewrite fdiv_ok by lra. cbn [rbind].
  set (cn := sqrt (1 - sn * sn)). assert (CN2 : cn * cn = 1 - sn * sn) by (apply sqrt_sqrt; nra). assert (CN0 : 0 <= cn) by apply sqrt_pos. assert (CN : 0.5 < cn) by nra.
  set (zx := 0.39785416 * sin D / si). set (zy := cn * cos D + 0.91744867 * sn * sin D).
  assert (ZX : si * zx = 0.39785416 * sin D) by (unfold zx; field; lra).
  assert (NZ : zy <> 0 \/ zx <> 0).
  { destruct (Req_dec (sin D) 0) as [Z|Z].
    - left. unfold zy. rewrite Z, Rmult_0_r, Rplus_0_r. pose proof (sin2_cos2 D) as P. unfold Rsqr in P. intros X. rewrite Z in P. nra.
    - right. intros X. rewrite X in ZX. apply Z. lra. }
  destruct (atan2_spec zy zx NZ) as (AC & AS). set (x := atan2 zx zy) in *.
  assert (K : 0 < sqrt (zy * zy + zx * zx)). { apply sqrt_lt_R0. destruct NZ; nra. }
  exists (5.8351514 + 0.0019443680 * day + x - D), (acos ci), (asin sn), x, (sqrt (zy * zy + zx * zx)), (5.8351514 + 0.0019443680 * day).
  assert (C1 : cos (acos ci) = ci) by (apply cos_acos; lra). assert (S1 : sin (acos ci) = si) by (rewrite sin_acos by lra; reflexivity).
  assert (S2 : sin (asin sn) = sn) by (apply sin_asin; lra). assert (C2 : cos (asin sn) = cn) by (rewrite cos_asin by lra; reflexivity).
  rewrite C1, S1, C2, S2.
  split. { do 7 f_equal; destruct (fmod_turns D) as (m & ->); [rewrite <- (cos_period_Z _ m)|rewrite <- (sin_period_Z _ m)]; f_equal; ring. }
  split; [reflexivity|]. cbn zeta. split. { pose proof (acos_bound_lt ci). lra. }
  split; [reflexivity|]. split. { pose proof (asin_bound sn). lra. }
  split; [exact SN|]. split; [exact K|]. split; [|split; [rewrite Rmult_comm; exact AC|reflexivity]].
  transitivity (si * (sin x * sqrt (zy * zy + zx * zx))); [ring|rewrite AS; exact ZX].
Qed.
Lemma dir_exact g i nd : dirA (cos g) (sin g) (cos i) (sin i) (cos nd) (sin nd) = vU g nd i /\ dirB (cos g) (sin g) (cos i) (sin i) (cos nd) (sin nd) = vV g nd i.
Proof.
  split; apply FunctionalExtensionality.functional_extensionality; intros [|[|[|k]]]; unfold dirA, dirB, vU, vV, vM, vN, v3; ring.
Qed.
Lemma sun_dirs : mkBody (4 * c1ss * zns) zns zes (dirA zcosgs zsings zcosis zsinis 1 0) (dirB zcosgs zsings zcosis zsinis 1 0) = sun.
Proof.
  assert (L : forall k n e cg sg ci si, mkBody k n e (dirA cg sg ci si 1 0) (dirB cg sg ci si 1 0) = mkBody k n e (v3 cg (sg * ci) (sg * si)) (v3 (- sg) (cg * ci) (cg * si))).
  { intros. f_equal; apply FunctionalExtensionality.functional_extensionality; intros [|[|[|m]]]; unfold dirA, dirB, v3; ring. }
  rewrite L. reflexivity.
Qed.

(** ** The record after deepinit *)
(** fields that dsinit writes *)
Definition by_dsinit (f : fld) : bool :=
  match f with dedt | didt | dmdt | domdt | dnodt | d2201 | d2211 | d3210 | d3222 | d4410 | d4422 | d5220 | d5232 | d5421 | d5433 | del1 | del2 | del3 | xlamo | xfact | xli | xni | atime => true | _ => false end.
Definition by_dscom (f : fld) : bool :=
  match f with peo | pinco | plo | pgho | pho | zmol | zmos | se2 | se3 | si2 | si3 | sl2 | sl3 | sl4 | sgh2 | sgh3 | sgh4 | sh2 | sh3 | ee2 | e3 | xi2 | xi3 | xl2 | xl3 | xl4 | xgh2 | xgh3 | xgh4 | xh2 | xh3 => true | _ => false end.
Ltac gs := repeat first [rewrite set_same | rewrite set_other by discriminate].
Lemma set_frame (P : fld -> bool) f x s g : P f = true -> P g = false -> num (set f x s) g = num s g.
Proof. intros A B. apply set_other. intros ->. congruence. Qed.
Lemma dscom_frame day gam emsq ss b s f : by_dscom f = false -> num (dscom_store day gam emsq ss b s) f = num s f.
Proof. intros H. unfold dscom_store. cbn zeta. repeat (rewrite (set_frame by_dscom) by (reflexivity || exact H)). reflexivity. Qed.
Lemma half_frame o nm aonv th s f : by_dsinit f = false -> num (ds_half o nm aonv th s) f = num s f.
Proof. intros H. unfold ds_half. cbn zeta. repeat (rewrite (set_frame by_dsinit) by (reflexivity || exact H)). reflexivity. Qed.
Lemma sync_frame o nm aonv th s f : by_dsinit f = false -> num (ds_sync o nm aonv th s) f = num s f.
Proof. intros H. unfold ds_sync. cbn zeta. repeat (rewrite (set_frame by_dsinit) by (reflexivity || exact H)). reflexivity. Qed.
Definition secular_fields (s : satrec) : rates := mkRates (num s dedt) (num s didt) (num s domdt) (num s dnodt) (num s dmdt).
(** what dsinit leaves *)
Definition start_facts (w : gravconst) (o : dsorb) (s s' : satrec) : Prop :=
  let n := num s' in
  irez s' = ds_irez (n no) (o_em o) /\
  (irez s' <> 0%Z -> 0 < n no / xke (getgravconst w) /\ n xli = n xlamo /\ n xni = n no /\ n atime = 0 /\
     let aonv := Rpower (n no / xke (getgravconst w)) (2 / 3) in
     (irez s' = 2%Z -> exists s1, (forall f, by_dsinit f = false \/ In f [dmdt; dnodt; domdt] -> num s1 f = n f) /\
        (forall f, In f [d2201; d2211; d3210; d3222; d4410; d4422; d5220; d5232; d5421; d5433; xlamo; xfact] -> n f = num (ds_half o (n no) aonv (fmod2pi (n gsto)) s1) f)) /\
     (irez s' = 1%Z -> exists s1, (forall f, by_dsinit f = false \/ In f [dmdt; dnodt; domdt] -> num s1 f = n f) /\
        (forall f, In f [del1; del2; del3; xlamo; xfact] -> n f = num (ds_sync o (n no) aonv (fmod2pi (n gsto)) s1) f))).
Lemma dsinit_ok w o ss b s s' : dsinit w o ss b s = Val s' ->
  isimp s' = isimp s /\ deep s' = deep s /\ error s' = error s /\ (forall f, by_dsinit f = false -> num s' f = num s f) /\
  ds_secular o (num s inclo) ss b = Val (num s' dedt, num s' didt, num s' dmdt, num s' domdt, num s' dnodt) /\ start_facts w o s s'.
Proof.
  unfold dsinit. intros H. apply rbind_val in H. destruct H as ([[[[de di] dm] dw] dn] & SE & H). cbn [set_irez num] in SE. rewrite SE. clear SE.
  match type of H with context [set dedt de ?x] => set (s2 := set dedt de x) in H end.
  assert (F2 : forall f, by_dsinit f = false -> num s2 f = num s f).
  { intros f F. unfold s2. repeat (rewrite (set_frame by_dsinit) by (reflexivity || exact F)). reflexivity. }
  assert (V2 : num s2 dedt = de /\ num s2 didt = di /\ num s2 dmdt = dm /\ num s2 domdt = dw /\ num s2 dnodt = dn) by (unfold s2; repeat split; gs; reflexivity).
  assert (M2 : isimp s2 = isimp s /\ deep s2 = deep s /\ error s2 = error s /\ irez s2 = ds_irez (num s no) (o_em o)) by (repeat split; reflexivity).
  clearbody s2. destruct V2 as (V1 & V2 & V3 & V4 & V5). destruct M2 as (M1 & M2 & M3 & M4).
  assert (NO : num s2 no = num s no) by (apply F2; reflexivity).
  unfold start_facts. destruct (Z.eqb_spec (irez s2) 0) as [Z|Z].
  - cbn [negb] in H. apply Val_inj in H. subst s'. rewrite V1, V2, V3, V4, V5. rewrite NO. repeat split; try assumption; contradiction.
  - cbn [negb] in H. apply rbind_val in H. destruct H as (q & Q & H). apply fdiv_val in Q. destruct Q as (_ & ->). apply rbind_val in H. destruct H as (an & A & H).
    apply fpow_val in A. destruct A as (QP & ->). rewrite Rmult_0_l, Rplus_0_r in H.
    apply Val_inj in H. rewrite <- NO in H, QP. set (an := Rpower (num s2 no / xke (getgravconst w)) (2 / 3)) in *. set (th := fmod2pi (num s2 gsto)) in *.
    destruct (Z.eqb_spec (irez s2) 2) as [Z2|Z2].
    + assert (I3 : irez (ds_half o (num s2 no) an th s2) = 2%Z) by exact Z2. rewrite I3 in H. cbn [Z.eqb Pos.eqb] in H.
      set (s3 := ds_half o (num s2 no) an th s2) in *.
      assert (F3 : forall f, by_dsinit f = false -> num s3 f = num s2 f) by (intros f F; apply half_frame; exact F).
      assert (K3 : num s3 dedt = de /\ num s3 didt = di /\ num s3 dmdt = dm /\ num s3 domdt = dw /\ num s3 dnodt = dn).
      { unfold s3, ds_half. cbn zeta. repeat split; gs; assumption. }
      destruct K3 as (K1 & K2 & K3 & K4 & K5).
      assert (FR : forall f, by_dsinit f = false -> num s' f = num s2 f).
      { intros f F. rewrite <- H. repeat (rewrite (set_frame by_dsinit) by (reflexivity || exact F)). now apply F3. }
      assert (NO' : num s' no = num s2 no) by (apply FR; reflexivity). assert (GS : num s' gsto = num s2 gsto) by (apply FR; reflexivity).
      assert (IR : irez s' = 2%Z) by (rewrite <- H; exact Z2).
      split; [rewrite <- H; exact M1|]. split; [rewrite <- H; exact M2|]. split; [rewrite <- H; exact M3|]. split; [intros f F; rewrite FR, F2 by exact F; reflexivity|].
      split. { rewrite <- H. gs. rewrite K1, K2, K3, K4, K5. reflexivity. }
      split. { rewrite NO', NO, <- M4, IR. symmetry. exact Z2. }
      intros _. rewrite NO', GS. split; [exact QP|]. split; [rewrite <- H; gs; reflexivity|]. split; [rewrite <- H; gs; apply F3; reflexivity|]. split; [rewrite <- H; gs; reflexivity|].
      split; [|intros X; rewrite IR in X; discriminate]. intros _. exists s2. split.
      * intros f [F|F]; [symmetry; now apply FR|]. destruct F as [<-|[<-|[<-|[]]]]; rewrite <- H; gs; congruence.
      * intros f F. change (num s' f = num s3 f). rewrite <- H. cbn [In] in F. repeat (destruct F as [<-|F]; [gs; reflexivity|]). destruct F.
    + destruct (Z.eqb_spec (irez s2) 1) as [Z1|Z1].
      2: { exfalso. rewrite M4 in Z, Z1, Z2. unfold ds_irez in Z, Z1, Z2. repeat match type of Z with context [if ?c then _ else _] => destruct c end; congruence. }
      set (s3 := ds_sync o (num s2 no) an th s2) in *.
      assert (F3 : forall f, by_dsinit f = false -> num s3 f = num s2 f) by (intros f F; apply sync_frame; exact F).
      assert (K3 : num s3 dedt = de /\ num s3 didt = di /\ num s3 dmdt = dm /\ num s3 domdt = dw /\ num s3 dnodt = dn).
      { unfold s3, ds_sync. cbn zeta. repeat split; gs; assumption. }
      destruct K3 as (K1 & K2 & K3 & K4 & K5).
      assert (FR : forall f, by_dsinit f = false -> num s' f = num s2 f).
      { intros f F. rewrite <- H. repeat (rewrite (set_frame by_dsinit) by (reflexivity || exact F)). now apply F3. }
      assert (NO' : num s' no = num s2 no) by (apply FR; reflexivity). assert (GS : num s' gsto = num s2 gsto) by (apply FR; reflexivity).
      assert (IR : irez s' = 1%Z) by (rewrite <- H; exact Z1).
      split; [rewrite <- H; exact M1|]. split; [rewrite <- H; exact M2|]. split; [rewrite <- H; exact M3|]. split; [intros f F; rewrite FR, F2 by exact F; reflexivity|].
      split. { rewrite <- H. gs. rewrite K1, K2, K3, K4, K5. reflexivity. }
      split. { rewrite NO', NO, <- M4, IR. symmetry. exact Z1. }
      intros _. rewrite NO', GS. split; [exact QP|]. split; [rewrite <- H; gs; reflexivity|]. split; [rewrite <- H; gs; apply F3; reflexivity|]. split; [rewrite <- H; gs; reflexivity|].
      split; [intros X; rewrite IR in X; discriminate|]. intros _. exists s2. split.
      * intros f [F|F]; [symmetry; now apply FR|]. destruct F as [<-|[<-|[<-|[]]]]; rewrite <- H; gs; congruence.
      * intros f F. change (num s' f = num s3 f). rewrite <- H. cbn [In] in F. repeat (destruct F as [<-|F]; [gs; reflexivity|]). destruct F.
Qed.
