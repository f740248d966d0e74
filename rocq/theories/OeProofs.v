(** Orbital elements from position and velocity, and back. *)
From Coq Require Import Reals Lra Lia List Bool Arith ZArith.
From Verif Require Import Base RBase VecModel VecProofs Trig QuatModel QuatSpec QuatProofs OrbitModel OrbitSpec KeplerProofs OrbitProofs.
Open Scope R_scope.

Lemma wrap_fuel fuel a : (1 <= fuel)%nat -> - (2 * PI) < a <= 4 * PI -> exists k x, wrap fuel a = Ok x /\ x = a + IZR k * (2 * PI) /\ 0 <= x <= 2 * PI.
Proof.
  intros F A. pose proof PI_RGT_0 as P. unfold wrap, wrap_to_2pi. destruct fuel as [|f]; [lia|].
  destruct (rlt_spec a 0) as [L|L].
  - exists 1%Z, (a + 2 * PI). cbn [wrap_up]. rewrite (rlt_true a 0) by exact L.
    assert (W : wrap_up Rplus (2 * PI) f (a + 2 * PI) = Some (a + 2 * PI)) by (destruct f; cbn [wrap_up]; rewrite rlt_false by lra; reflexivity).
    rewrite W. split; [reflexivity|]. split; [lra|lra].
  - destruct (rlt_spec (2 * PI) a) as [G|G].
    + exists (-1)%Z, (a - 2 * PI). cbn [wrap_down]. rewrite (rlt_true (2 * PI) a) by exact G.
      assert (W : wrap_down Rminus (2 * PI) f (a - 2 * PI) = Some (a - 2 * PI)) by (destruct f; cbn [wrap_down]; rewrite rlt_false by lra; reflexivity).
      rewrite W. split; [reflexivity|]. split; [lra|lra].
    + exists 0%Z, a. split; [reflexivity|]. split; [lra|lra].
Qed.
Lemma sin_period_Z x k : sin (x + IZR k * (2 * PI)) = sin x.
Proof.
  replace (x + IZR k * (2 * PI)) with (x + 2 * IZR k * PI) by ring. destruct k as [|p|p].
  - f_equal. ring.
  - replace (IZR (Z.pos p)) with (INR (Pos.to_nat p)) by (rewrite INR_IZR_INZ, positive_nat_Z; reflexivity). apply sin_period.
  - replace (sin x) with (sin (x + 2 * IZR (Z.neg p) * PI + 2 * INR (Pos.to_nat p) * PI)); [symmetry; apply sin_period|].
    f_equal. rewrite INR_IZR_INZ, positive_nat_Z. replace (IZR (Z.neg p)) with (- IZR (Z.pos p)) by (rewrite <- opp_IZR; reflexivity). ring.
Qed.
Lemma cos_period_Z x k : cos (x + IZR k * (2 * PI)) = cos x.
Proof.
  replace (x + IZR k * (2 * PI)) with (x + 2 * IZR k * PI) by ring. destruct k as [|p|p].
  - f_equal. ring.
  - replace (IZR (Z.pos p)) with (INR (Pos.to_nat p)) by (rewrite INR_IZR_INZ, positive_nat_Z; reflexivity). apply cos_period.
  - replace (cos x) with (cos (x + 2 * IZR (Z.neg p) * PI + 2 * INR (Pos.to_nat p) * PI)); [symmetry; apply cos_period|].
    f_equal. rewrite INR_IZR_INZ, positive_nat_Z. replace (IZR (Z.neg p)) with (- IZR (Z.pos p)) by (rewrite <- opp_IZR; reflexivity). ring.
Qed.

Lemma sin_acos_sqrt x : -1 <= x <= 1 -> sin (acos x) = sqrt (1 - x * x).
Proof. intro H. rewrite sin_acos by exact H. unfold Rsqr. reflexivity. Qed.

(** directions of the ascending node and of the orbit normal *)
Lemma node_frame (h : vec) : let H := norm 3 h in let om := calc_raan h in let i := acos (normalize 3 h 2%nat) in
  0 < H -> ((dbl_epsilon <= sqrt (h 0%nat * h 0%nat + h 1%nat * h 1%nat) /\ h 1%nat <= 0) \/ (h 0%nat = 0 /\ h 1%nat = 0)) ->
  h 0%nat = H * (sin om * sin i) /\ h 1%nat = H * (- cos om * sin i) /\ h 2%nat = H * cos i.
Proof.
  intros H om i HP C. subst om i. pose proof (norm_sq 3 h) as Q. unfold sq in Q. rewrite sumn3 in Q. fold H in Q.
  assert (NZ : normalize 3 h 2%nat = h 2%nat / H). { unfold normalize. fold H. rewrite req_false by lra. unfold vdiv, vscal. field. lra. }
  rewrite NZ. unfold calc_raan. set (x := h 0%nat) in *. set (y := h 1%nat) in *. set (z := h 2%nat) in *. clearbody x y z.
  assert (ZB : -1 <= z / H <= 1).
  { assert (z * z <= H * H) by nra. assert (- H <= z <= H) by nra. split; apply (Rmult_le_reg_r H); try lra; replace (z / H * H) with z by (field; lra); lra. }
  rewrite cos_acos by exact ZB. rewrite sin_acos_sqrt by exact ZB.
  set (g := sqrt (x * x + y * y)) in *.
  assert (GG : g * g = x * x + y * y) by (apply sqrt_sqrt; nra). assert (G0 : 0 <= g) by apply sqrt_pos.
  assert (SI : sqrt (1 - z / H * (z / H)) = g / H).
  { apply sq_eq; [apply sqrt_pos|apply Rmult_le_pos; [lra|left; apply Rinv_0_lt_compat; lra]|].
    rewrite sqrt_sqrt by nra. apply (Rmult_eq_reg_r (H * H)); [|nra].
    replace ((1 - z / H * (z / H)) * (H * H)) with (H * H - z * z) by (field; lra). replace (g / H * (g / H) * (H * H)) with (g * g) by (field; lra). rewrite GG. lra. }
  rewrite SI.
  replace (H * (z / H)) with z by (field; lra).
  destruct C as [(E & Y)|(X0 & Y0)].
  - rewrite rlt_false by exact E. assert (GP : 0 < g) by (pose proof eps_pos; lra).
    assert (XB : -1 <= x / g <= 1).
    { assert (- g <= x <= g) by nra. split; apply (Rmult_le_reg_r g); try lra; replace (x / g * g) with x by (field; lra); lra. }
    rewrite sin_asin by exact XB. rewrite cos_asin by exact XB. unfold Rsqr.
    assert (CO : sqrt (1 - x / g * (x / g)) = - y / g).
    { apply sq_eq; [apply sqrt_pos|apply Rmult_le_pos; [lra|left; apply Rinv_0_lt_compat; lra]|].
      rewrite sqrt_sqrt by nra. apply (Rmult_eq_reg_r (g * g)); [|nra].
      replace ((1 - x / g * (x / g)) * (g * g)) with (g * g - x * x) by (field; lra). replace (- y / g * (- y / g) * (g * g)) with (y * y) by (field; lra). lra. }
    rewrite CO. split; [field; lra|]. split; [field; lra|reflexivity].
  - assert (g = 0) by (unfold g; subst; replace (0 * 0 + 0 * 0) with 0 by ring; apply sqrt_0).
    split; [rewrite H0; subst; field; lra|]. split; [rewrite H0; subst; field; lra|reflexivity].
Qed.

(** the plane equations: everything in coordinates along the node and across it *)
Lemma plane_equations (mu x y dx dy : R) :
  let r := sqrt (x * x + y * y) in let H := x * dy - y * dx in let v2 := dx * dx + dy * dy in
  let a := mu / (2 * mu / r - v2) in
  let t1 := H / mu * dy - x / r in let t2 := - (H / mu) * dx - y / r in
  let e := sqrt (t1 * t1 + t2 * t2) in
  0 < mu -> 0 < r -> 0 < H -> v2 < 2 * mu / r ->
  0 < a /\ 0 <= e < 1 /\ H * H = mu * (a * (1 - e * e)) /\
  forall w phi f u, w = atan2 t2 t1 -> phi = atan2 y x -> cos f = cos (phi - w) -> sin f = sin (phi - w) ->
    cos u = cos (atan2 (r * sin f / sqrt (1 - e * e)) (r * cos f + a * e)) -> sin u = sin (atan2 (r * sin f / sqrt (1 - e * e)) (r * cos f + a * e)) ->
    let X := a * (cos u - e) in let Y := a * sqrt (1 - e * e) * sin u in
    let n := mean_motion mu a in
    let VX := -1 * a * n * sin u / (1 - e * cos u) in let VY := n * (a * sqrt (1 - e * e)) * cos u / (1 - e * cos u) in
    X * cos w - Y * sin w = x /\ X * sin w + Y * cos w = y /\ VX * cos w - VY * sin w = dx /\ VX * sin w + VY * cos w = dy.
Proof.
  intros r H v2 a t1 t2 e Mu Rp Hp V.
  assert (RR : r * r = x * x + y * y) by (apply sqrt_sqrt; nra).
  assert (D : 0 < 2 * mu / r - v2) by lra.
  assert (Ap : 0 < a) by (apply Rdiv_lt_0_compat; lra).
  assert (IA : mu / a = 2 * mu / r - v2) by (unfold a; clear - D Mu; set (d := 2 * mu / r - v2) in *; clearbody d; field; lra).
  assert (EE : e * e = 1 - H * H / (mu * a)).
  { unfold e. rewrite sqrt_sqrt by (pose proof (Rle_0_sqr t1) as Q1; pose proof (Rle_0_sqr t2) as Q2; unfold Rsqr in Q1, Q2; lra).
    transitivity (1 - H * H / (mu * mu) * (mu / a)); [|field; lra]. rewrite IA.
    transitivity (H * H / (mu * mu) * v2 - 2 * (H / (mu * r)) * (x * dy - y * dx) + (x * x + y * y) / (r * r)); [unfold t1, t2, v2; field; lra|].
    fold H. rewrite <- RR. field. lra. }
  assert (E0 : 0 <= e) by apply sqrt_pos.
  assert (HM : 0 < H * H / (mu * a)) by (apply Rdiv_lt_0_compat; apply Rmult_lt_0_compat; assumption).
  assert (E1 : e < 1). { apply Rnot_le_lt. intro G. assert (1 * 1 <= e * e) by (apply Rmult_le_compat; lra). lra. }
  assert (HH : H * H = mu * (a * (1 - e * e))) by (rewrite EE; field; lra).
  split; [exact Ap|]. split; [lra|]. split; [exact HH|].
  intros w phi f u Hw Hphi Cf Sf Cu Su X Y n VX VY.
  assert (T1 : t1 = e * cos w /\ t2 = e * sin w).
  { destruct (Req_dec e 0) as [Z|NZ].
    - rewrite Z. assert (ZZ : t1 * t1 + t2 * t2 = 0). { rewrite Z in EE. unfold e in Z. apply sqrt_eq_0 in Z; [exact Z|pose proof (Rle_0_sqr t1) as Q1; pose proof (Rle_0_sqr t2) as Q2; unfold Rsqr in Q1, Q2; lra]. } clear - ZZ. clearbody t1 t2. nra.
    - assert (OR : t1 <> 0 \/ t2 <> 0). { destruct (Req_dec t1 0) as [A|A]; [|now left]. right. intro B. apply NZ. unfold e. rewrite A, B. replace (0 * 0 + 0 * 0) with 0 by ring. apply sqrt_0. }
      destruct (atan2_spec t1 t2 OR) as (P1 & P2). rewrite <- Hw in P1, P2. fold e in P1, P2. lra. }
  destruct T1 as (T1 & T2).
  assert (PH : x = r * cos phi /\ y = r * sin phi).
  { assert (OR : x <> 0 \/ y <> 0). { destruct (Req_dec x 0) as [A|A]; [|now left]. right. intro B. rewrite A, B in RR. nra. }
    destruct (atan2_spec x y OR) as (P1 & P2). rewrite <- Hphi in P1, P2. fold r in P1, P2. lra. }
  destruct PH as (PX & PY).
  rewrite cos_minus in Cf. rewrite sin_minus in Sf.
  assert (EC : r * (e * cos f) = H * H / mu - r).
  { transitivity (x * t1 + y * t2); [rewrite Cf, T1, T2, PX, PY; ring|]. unfold t1, t2.
    transitivity (H / mu * (x * dy - y * dx) - (x * x + y * y) / r); [field; lra|]. fold H. rewrite <- RR. field. lra. }
  assert (EP : r + r * (e * cos f) = a * (1 - e * e)). { rewrite EC. replace (a * (1 - e * e)) with (H * H / mu) by (rewrite HH; field; lra). lra. }
  destruct (semi_minor e (conj E0 E1)) as (B0 & BB). set (b := sqrt (1 - e * e)) in *.
  pose proof (sc w) as SW. pose proof (sc phi) as SP.
  assert (SCF : sin f * sin f + cos f * cos f = 1).
  { rewrite Cf, Sf. transitivity ((sin phi * sin phi + cos phi * cos phi) * (sin w * sin w + cos w * cos w)); [ring|]. rewrite SW, SP. ring. }
  set (P := r * cos f) in *. set (Q := r * sin f) in *.
  assert (PQ : P * P + Q * Q = r * r). { unfold P, Q. transitivity (r * r * (sin f * sin f + cos f * cos f)); [ring|]. rewrite SCF. ring. }
  assert (EP' : r = a * (1 - e * e) - e * P) by (unfold P; lra).
  assert (QB : Q / b * (Q / b) = Q * Q / (1 - e * e)). { rewrite <- BB. field. lra. }
  assert (Ob : 0 < 1 - e * e) by nra.
  assert (HYP : (P + a * e) * (P + a * e) + Q / b * (Q / b) = a * a).
  { rewrite QB. apply (Rmult_eq_reg_r (1 - e * e)); [|lra].
    replace (((P + a * e) * (P + a * e) + Q * Q / (1 - e * e)) * (1 - e * e)) with ((P + a * e) * (P + a * e) * (1 - e * e) + Q * Q) by (field; lra).
    replace (Q * Q) with (r * r - P * P) by lra. rewrite EP'. ring. }
  assert (SQ : sqrt ((P + a * e) * (P + a * e) + Q / b * (Q / b)) = a) by (rewrite HYP; apply sqrt_square; lra).
  assert (OR : P + a * e <> 0 \/ Q / b <> 0). { destruct (Req_dec (P + a * e) 0) as [A|A]; [|now left]. right. intro B. rewrite A, B in HYP. nra. }
  destruct (atan2_spec (P + a * e) (Q / b) OR) as (U1 & U2). rewrite SQ in U1, U2. rewrite <- Cu in U1. rewrite <- Su in U2.
  assert (AC : a * cos u = P + a * e) by lra.
  assert (AS : a * b * sin u = Q). { transitivity (b * (sin u * a)); [ring|]. rewrite U2. field. lra. }
  assert (XP : X = P) by (unfold X; lra). assert (YQ : Y = Q) by exact AS.
  assert (XW : P * cos w - Q * sin w = x). { rewrite PX. unfold P, Q. rewrite Cf, Sf. transitivity (r * cos phi * (sin w * sin w + cos w * cos w)); [ring|]. rewrite SW. ring. }
  assert (YW : P * sin w + Q * cos w = y). { rewrite PY. unfold P, Q. rewrite Cf, Sf. transitivity (r * sin phi * (sin w * sin w + cos w * cos w)); [ring|]. rewrite SW. ring. }
  split; [rewrite XP, YQ; exact XW|]. split; [rewrite XP, YQ; exact YW|].
  assert (RU : a * (1 - e * cos u) = r). { rewrite EP'. replace (a * (1 - e * cos u)) with (a - e * (a * cos u)) by ring. rewrite AC. ring. }
  assert (SL : 0 < 1 - e * cos u) by nra.
  assert (Np : 0 < n) by (apply mean_motion_pos; assumption).
  assert (NN : n * n = mu / (a * a * a)) by (apply mean_motion_sq; assumption).
  assert (K : a * n * H = mu * b).
  { apply sq_eq; [left; apply Rmult_lt_0_compat; [apply Rmult_lt_0_compat|]; assumption|left; apply Rmult_lt_0_compat; lra|].
    transitivity (a * a * (n * n) * (H * H)); [ring|]. rewrite NN, HH. transitivity (mu * mu * (1 - e * e)); [field; lra|]. rewrite <- BB. ring. }
  assert (K2 : a * n / b = mu / H) by (apply (Rmult_eq_reg_r (b * H)); [replace (a * n / b * (b * H)) with (a * n * H) by (field; lra); replace (mu / H * (b * H)) with (mu * b) by (field; lra); exact K|nra]).
  assert (VXE : VX = - (mu / H) * (Q / r)).
  { rewrite <- K2. unfold VX. rewrite <- AS, <- RU. field. repeat split; try lra; apply Rgt_not_eq; assumption. }
  assert (VYE : VY = (mu / H) * (P / r + e)).
  { rewrite <- K2. unfold VY. transitivity (n * b * (a * (a * cos u)) / (a * (1 - e * cos u))); [field; lra|]. rewrite AC, RU.
    transitivity (a * n / b * ((b * b * (P + a * e)) / r)); [field; lra|]. f_equal. rewrite BB.
    apply (Rmult_eq_reg_r r); [|lra]. replace ((1 - e * e) * (P + a * e) / r * r) with ((1 - e * e) * (P + a * e)) by (field; lra).
    replace ((P / r + e) * r) with (P + e * r) by (field; lra). rewrite EP'. ring. }
  rewrite VXE, VYE. split.
  - transitivity (- (mu / H) * ((P * sin w + Q * cos w) / r + e * sin w)); [field; lra|]. rewrite YW, <- T2. unfold t2. field. lra.
  - transitivity ((mu / H) * ((P * cos w - Q * sin w) / r + e * cos w)); [field; lra|]. rewrite XW, <- T1. unfold t1. field. lra.
Qed.
Lemma cos_neg1 x : cos (-1 * x) = cos x.
Proof. replace (-1 * x) with (- x) by ring. apply cos_neg. Qed.
Lemma sin_neg1 x : sin (-1 * x) = - sin x.
Proof. replace (-1 * x) with (- x) by ring. apply sin_neg. Qed.
Lemma inplane_apply oe X Y : veq 3 (mvec 3 (inplane_to_i oe) (v3 X Y 0))
  (let x := X * cos (argp oe) - Y * sin (argp oe) in let y := X * sin (argp oe) + Y * cos (argp oe) in
   v3 (x * cos (raan oe) - y * (sin (raan oe) * cos (inc oe))) (x * sin (raan oe) + y * (cos (raan oe) * cos (inc oe))) (y * sin (inc oe))).
Proof.
  intros j Hj. unfold inplane_to_i. i3 j Hj; cbv [mvec mmul sumn rot_x rot_z m3 v3]; rewrite ?cos_neg1, ?sin_neg1; ring.
Qed.
Lemma frame_component (cO sO ci si a b c : R) : sO * sO + cO * cO = 1 -> si * si + ci * ci = 1 -> a * (sO * si) + b * (- cO * si) + c * ci = 0 ->
  let x := a * cO + b * sO in let y := (- a * sO + b * cO) * ci + c * si in
  x * cO - y * (sO * ci) = a /\ x * sO + y * (cO * ci) = b /\ y * si = c /\ x * x + y * y = a * a + b * b + c * c.
Proof.
  intros A B Z x y. unfold x, y. clear x y.
  assert (Y1 : a * sO * si = b * cO * si - c * ci) by lra.
  assert (X0 : (a * cO + b * sO) * cO - ((- a * sO + b * cO) * ci + c * si) * (sO * ci) = a).
  { transitivity (a * (sO * sO + cO * cO) + (b * cO * sO - a * sO * sO) * (1 - ci * ci) - c * si * sO * ci); [ring|].
    rewrite A. replace (1 - ci * ci) with (si * si) by lra.
    replace ((b * cO * sO - a * sO * sO) * (si * si)) with (sO * si * (b * cO * si - a * sO * si)) by ring. rewrite Y1. ring. }
  assert (X1 : (a * cO + b * sO) * sO + ((- a * sO + b * cO) * ci + c * si) * (cO * ci) = b).
  { transitivity (b * (sO * sO + cO * cO) + (a * cO * sO - b * cO * cO) * (1 - ci * ci) + c * si * cO * ci); [ring|].
    rewrite A. replace (1 - ci * ci) with (si * si) by lra.
    replace ((a * cO * sO - b * cO * cO) * (si * si)) with (cO * si * (a * sO * si - b * cO * si)) by ring. rewrite Y1. ring. }
  assert (X2 : ((- a * sO + b * cO) * ci + c * si) * si = c).
  { transitivity (ci * (b * cO * si - a * sO * si) + c * (si * si)); [ring|]. rewrite Y1. replace (si * si) with (1 - ci * ci) by lra. ring. }
  split; [exact X0|]. split; [exact X1|]. split; [exact X2|].
  set (x := a * cO + b * sO) in *. set (y := (- a * sO + b * cO) * ci + c * si) in *. rewrite <- X0, <- X1, <- X2. clearbody x y.
  transitivity (x * x * (sO * sO + cO * cO) + y * y * ((sO * sO + cO * cO) * (ci * ci) + si * si)); [|ring].
  rewrite A. replace (1 * (ci * ci) + si * si) with 1 by lra. ring.
Qed.
Lemma cross_orthogonal r v : dot 3 r (cross r v) = 0 /\ dot 3 v (cross r v) = 0.
Proof. unfold dot. rewrite !sumn3. cbn [cross]. split; ring. Qed.

Lemma round_trip fuel mu t r v : (1 <= fuel)%nat -> elliptic mu r v -> node_ok (cross r v) ->
  exists oe u, calc_oe fuel mu t r v = Ok oe /\ 0 < sma oe /\ 0 <= ecc oe < 1 /\ 0 <= u <= 2 * PI /\
    mean_anomaly mu oe t = u - ecc oe * sin u /\
    veq 3 (fst (state_at mu oe u)) r /\ veq 3 (snd (state_at mu oe u)) v.
Proof.
  intros F (Mu & Rp & Hp & V) C. pose proof (node_frame (cross r v) Hp C) as (H0 & H1 & H2).
  destruct (cross_orthogonal r v) as (O1 & O2).
  unfold calc_oe. set (H := norm 3 (cross r v)) in *. set (om := calc_raan (cross r v)) in *. set (i := acos (normalize 3 (cross r v) 2%nat)) in *.
  unfold dot in O1, O2. rewrite sumn3 in O1, O2. rewrite H0, H1, H2 in O1, O2.
  assert (O1' : r 0%nat * (sin om * sin i) + r 1%nat * (- cos om * sin i) + r 2%nat * cos i = 0) by (apply (Rmult_eq_reg_l H); [|lra]; rewrite Rmult_0_r, <- O1; ring).
  assert (O2' : v 0%nat * (sin om * sin i) + v 1%nat * (- cos om * sin i) + v 2%nat * cos i = 0) by (apply (Rmult_eq_reg_l H); [|lra]; rewrite Rmult_0_r, <- O2; ring).
  destruct (frame_component _ _ _ _ _ _ _ (sc om) (sc i) O1') as (R0 & R1 & R2 & RN).
  destruct (frame_component _ _ _ _ _ _ _ (sc om) (sc i) O2') as (V0 & V1 & V2 & VN).
  set (x := r 0%nat * cos om + r 1%nat * sin om) in *. set (y := (- r 0%nat * sin om + r 1%nat * cos om) * cos i + r 2%nat * sin i) in *.
  set (dx := v 0%nat * cos om + v 1%nat * sin om) in *. set (dy := (- v 0%nat * sin om + v 1%nat * cos om) * cos i + v 2%nat * sin i) in *.
  assert (RM : norm 3 r = sqrt (x * x + y * y)) by (rewrite RN; unfold norm; rewrite sumn3; reflexivity).
  assert (V2' : dot 3 v v = dx * dx + dy * dy) by (rewrite VN; unfold dot; rewrite sumn3; reflexivity).
  assert (HE : H = x * dy - y * dx).
  { cbn [cross] in H0, H1, H2. rewrite <- R1, <- R2, <- V1, <- V2 in H0. rewrite <- R0, <- R2, <- V0, <- V2 in H1. rewrite <- R0, <- R1, <- V0, <- V1 in H2. clearbody x y dx dy.
    pose proof (sc om) as A. pose proof (sc i) as B. clear - H0 H1 H2 A B.
    set (so := sin om) in *. set (co := cos om) in *. set (si := sin i) in *. set (ci := cos i) in *. clearbody so co si ci.
    set (K := x * dy - y * dx).
    assert (E0 : H * (so * si) = K * (so * si)) by (rewrite <- H0; unfold K; ring).
    assert (E1 : H * (- co * si) = K * (- co * si)) by (rewrite <- H1; unfold K; ring).
    assert (E2 : H * ci = K * ci). { rewrite <- H2. transitivity (K * ci * (so * so + co * co)); [unfold K; ring|]. rewrite A. ring. }
    transitivity (H * (so * si) * (so * si) + H * (- co * si) * (- co * si) + H * ci * ci).
    - transitivity (H * ((so * so + co * co) * (si * si) + ci * ci)); [|ring]. rewrite A. replace (1 * (si * si) + ci * ci) with 1 by lra. ring.
    - rewrite E0, E1, E2. transitivity (K * ((so * so + co * co) * (si * si) + ci * ci)); [ring|]. rewrite A. replace (1 * (si * si) + ci * ci) with 1 by lra. ring. }
  rewrite RM, V2' in V. rewrite RM in Rp. rewrite HE in Hp.
  pose proof (plane_equations mu x y dx dy Mu Rp Hp V) as (Ap & Ep & _ & PE). rewrite <- HE in Ep, PE. rewrite RM, V2'.
  set (rm := sqrt (x * x + y * y)) in *. set (a := mu / (2 * mu / rm - (dx * dx + dy * dy))) in *.
  set (t1 := H / mu * dy - x / rm) in *. set (t2 := - (H / mu) * dx - y / rm) in *. set (e := sqrt (t1 * t1 + t2 * t2)) in *.
  pose proof (atan2_range t2 t1) as W1. pose proof (atan2_range y x) as W2. pose proof PI_RGT_0 as PP.
  destruct (wrap_fuel fuel (atan2 y x - atan2 t2 t1) F) as (k & f & EF & FE & FB); [lra|]. rewrite EF. cbn [bind].
  pose proof (atan2_range (rm * sin f / sqrt (1 - e * e)) (rm * cos f + a * e)) as W3.
  destruct (wrap_fuel fuel (atan2 (rm * sin f / sqrt (1 - e * e)) (rm * cos f + a * e)) F) as (k2 & u & EU & UE & UB); [lra|]. rewrite EU. cbn [bind].
  eexists _, u. split; [reflexivity|]. cbn [sma ecc]. split; [exact Ap|]. split; [exact Ep|]. split; [exact UB|].
  specialize (PE _ _ f u eq_refl eq_refl). rewrite FE, cos_period_Z, sin_period_Z in PE. specialize (PE eq_refl eq_refl). rewrite <- (sin_period_Z (_ - _) k), <- (cos_period_Z (_ - _) k), <- FE in PE.
  rewrite UE, cos_period_Z, sin_period_Z in PE. specialize (PE eq_refl eq_refl). rewrite <- (sin_period_Z (atan2 _ (_ + _)) k2), <- (cos_period_Z (atan2 _ (_ + _)) k2), <- UE in PE.
  destruct PE as (P1 & P2 & P3 & P4).
  split.
  - unfold mean_anomaly. cbn [sma epoch]. pose proof (mean_motion_pos mu a Mu Ap). unfold day. field. lra.
  - cbn [state_at fst snd sma ecc]. unfold inplane_position, inplane_velocity. split; intros j Hj; rewrite inplane_apply by exact Hj; cbn [argp raan inc].
    + rewrite P1, P2. i3 j Hj; cbn [v3]; lra.
    + rewrite P3, P4. i3 j Hj; cbn [v3]; lra.
Qed.

(** with the angular momentum leaning to the other side the node comes out in the wrong quadrant *)
Lemma node_wrong_side fuel mu t r v oe : calc_oe fuel mu t r v = Ok oe -> 0 < cross r v 1%nat ->
  0 < norm 3 (cross r v) -> 0 < mu -> 0 < sma oe -> 0 <= ecc oe < 1 ->
  forall u, ~ (veq 3 (fst (state_at mu oe u)) r /\ veq 3 (snd (state_at mu oe u)) v).
Proof.
  intros E P Hp Mu Ha He u (R & V). pose proof (angular_momentum mu oe Mu Ha He u 1%nat ltac:(lia)) as A.
  assert (C : cross (fst (state_at mu oe u)) (snd (state_at mu oe u)) 1%nat = cross r v 1%nat).
  { cbn [cross]. rewrite !R, !V by lia. reflexivity. }
  rewrite C in A. unfold vscal in A.
  assert (I : exists h2, raan oe = calc_raan (cross r v) /\ inc oe = acos h2).
  { unfold calc_oe in E. repeat match type of E with bind ?x _ = _ => destruct x; cbn [bind] in E; try discriminate end.
    injection E as <-. cbn [raan inc]. eexists; split; reflexivity. }
  destruct I as (h2 & IR & II).
  assert (T : inplane_to_i oe 1%nat 2%nat = - cos (raan oe) * sin (inc oe)).
  { unfold inplane_to_i. cbv [mmul sumn rot_x rot_z m3 v3]. rewrite ?cos_neg1, ?sin_neg1. ring. }
  rewrite T, IR, II in A. pose proof (acos_bound h2) as B. assert (S0 : 0 <= sin (acos h2)) by (apply sin_ge_0; lra).
  assert (C0 : 0 <= cos (calc_raan (cross r v))).
  { unfold calc_raan. match goal with |- context [if ?c then _ else _] => destruct c end; [rewrite cos_0; lra|]. pose proof PI_RGT_0.
    apply cos_ge_0; match goal with |- context [asin ?x] => pose proof (asin_bound x) end; lra. }
  assert (SQ := sqrt_pos (mu * sma oe * (1 - ecc oe * ecc oe))).
  assert (0 <= cos (calc_raan (cross r v)) * sin (acos h2)) by (apply Rmult_le_pos; assumption).
  assert (0 <= sqrt (mu * sma oe * (1 - ecc oe * ecc oe)) * (cos (calc_raan (cross r v)) * sin (acos h2))) by (apply Rmult_le_pos; assumption).
  lra.
Qed.
