(** C82: the radiation a node takes in. *)
From Coq Require Import Reals Lra Lia List Bool Arith.
From Verif Require Import Base RBase VecModel VecProofs QuatModel QuatSpec QuatProofs OrbitProofs HillProofs PointingProofs DisturbanceSpec ThermalModel NodeModel NodeProofs.
Import ListNotations.
Open Scope R_scope.

(** sunlight: the part of the flux that hits the side of the normal, nothing from behind *)
Theorem C82_solar_load : forall sun normal flux area alpha, 0 <= flux -> 0 <= area -> 0 <= alpha -> unit 3 sun -> unit 3 normal ->
  let w := solar_radiation sun normal flux area alpha in
  (dot 3 sun normal <= 0 -> w = 0) /\ (0 <= dot 3 sun normal -> w = flux * area * alpha * dot 3 sun normal) /\
  0 <= w <= flux * area * alpha.
Proof.
  intros sun n f a al F A AL US UN w. assert (K : 0 <= f * a * al) by (repeat apply Rmult_le_pos; assumption). pose proof (lagrange sun n) as LG. unfold unit in US, UN. rewrite US, UN in LG.
  assert (CS : dot 3 sun n <= 1). { assert (0 <= dot 3 (cross sun n) (cross sun n)) by (unfold dot; rewrite sumn3; nra). nra. }
  unfold w, solar_radiation. cbv zeta. destruct (rlt_spec 0 (dot 3 sun n)) as [P|P].
  - split; [lra|split; [reflexivity|]]. set (k := f * a * al) in *. nra.
  - apply Rnot_lt_le in P. split; [reflexivity|split; [|lra]]. intro Q. replace (dot 3 sun n) with 0 by lra. ring.
Qed.
(** the view factor of a plate whose normal is [lamda] off the direction to the Earth, H radii from its center:
    between 0 and 1/H^2 everywhere outside the Earth *)
Theorem C82_view_factor_range : forall h H lamda, 1 < H -> 0 <= lamda <= PI -> 0 <= view_factor h H lamda <= 1 / (H * H).
Proof. exact vf_range. Qed.
(** below 1732 km: exact when the plate sees the whole Earth or nothing of it, and the more it turns away the less it sees *)
Theorem C82_view_factor_low : forall h H, h < 1732 * 10 ^ 3 -> 1 < H ->
  (forall l, 0 <= l -> l <= PI / 2 - asin (1 / H) -> view_factor h H l = cos l / (H * H)) /\
  (forall l, PI / 2 + asin (1 / H) <= l -> l <= PI -> view_factor h H l = 0) /\
  (forall l l', 0 <= l -> l <= l' -> l' <= PI -> view_factor h H l' <= view_factor h H l) /\
  view_factor h H (PI / 2) = (asin (1 / H) - 1 / H * cos (asin (1 / H))) / PI.
Proof.
  intros h H A H1. pose proof PI_RGT_0 as PP. pose proof (phi_range H H1) as PH. pose proof (S_range H H1) as SR. split; [|split; [|split]].
  - intros l L0 L1. rewrite vf_low_front by assumption. field. lra.
  - intros l L0 L1. destruct (Rlt_le_dec (PI / 2 + asin (1 / H)) l) as [G|G]; [apply vf_low_behind; lra|]. assert (E : l = PI / 2 + asin (1 / H)) by lra.
    rewrite vf_low_mid by lra. assert (CE : cos l = - (1 / H)). { rewrite E. rewrite cos_plus, cos_PI2, sin_PI2, sin_asin by lra. ring. }
    assert (SE : sin l = sqrt (1 - 1 / H * (1 / H))). { rewrite E. rewrite sin_plus, cos_PI2, sin_PI2, cos_asin by lra. unfold Rsqr. ring. }
    rewrite (b_HC H H1), CE, SE. pose proof (C_pos H H1). replace (- _) with 1 by (field; split; lra). rewrite acos_1, ffun_0. unfold Rdiv. ring.
  - intros. now apply vf_low_mono.
  - rewrite vf_low_mid by lra. rewrite cos_PI2, sin_PI2. replace (- (sqrt (H * H - 1) * 0 / 1)) with 0 by field. rewrite acos_0. unfold ffun, wfun. rewrite sin_PI2, cos_PI2. rewrite cos_asin by lra. unfold Rsqr.
    replace (1 - 1 / H * (1 / H) * (1 * 1)) with (1 - 1 / H * (1 / H)) by ring. pose proof (C_pos H H1) as CP. pose proof (C_sq H H1) as C2. set (c := sqrt (1 - 1 / H * (1 / H))) in *. rewrite <- C2. rewrite Rmult_1_r. field. split; lra.
Qed.
(** from 1732 km on: a quarter of 1/H^2 however the plate is turned, as long as the Earth's center is in front: at this altitude a plate that
    faces the Earth suddenly takes in a quarter *)
Theorem C82_view_factor_high : forall h H lamda, 1732 * 10 ^ 3 <= h ->
  view_factor h H lamda = if rlt lamda (PI / 2) then 1 / 4 / H / H else 0.
Proof. intros h H l A. unfold view_factor. now rewrite rlt_false by lra. Qed.
Theorem C82_continuous_in_altitude_refuted :
  ~ (forall radius lamda, 0 < radius -> 0 <= lamda <= PI -> forall eps, 0 < eps -> exists delta, 0 < delta /\
      forall h h', 0 < h -> 0 < h' -> Rabs (h - h') < delta -> Rabs (view_factor h (1 + h / radius) lamda - view_factor h' (1 + h' / radius) lamda) < eps).
Proof.
  intro C. set (z := 1732 * 10 ^ 3). assert (Z : 0 < z) by (unfold z; lra). pose proof PI_RGT_0 as PP.
  destruct (C z 0 Z ltac:(lra) (1 / 8) ltac:(lra)) as (d & D & L). set (h := Rmax (z / 2) (z - d / 2)).
  assert (HB : z / 2 <= h /\ z - d / 2 <= h /\ h < z). { unfold h. repeat split; [apply Rmax_l|apply Rmax_r|apply Rmax_lub_lt; lra]. }
  specialize (L h z ltac:(lra) Z). assert (DD : Rabs (h - z) < d) by (rewrite Rabs_left; lra). specialize (L DD).
  assert (H1 : 1 < 1 + h / z). { assert (0 < h / z) by (apply Rdiv_lt_0_compat; lra). lra. } pose proof (phi_range _ H1).
  rewrite vf_low_front in L; [|unfold z in *; lra|lra]. rewrite C82_view_factor_high in L by (unfold z; lra). rewrite rlt_true in L by lra. rewrite cos_0 in L.
  assert (U : 1 + h / z <= 2). { assert (h / z <= 1); [|lra]. apply (Rmult_le_reg_r z); [lra|]. field_simplify; lra. }
  assert (V : 1 / (1 + h / z) / (1 + h / z) >= 1 / 4). { set (x := 1 + h / z) in *. replace (1 / x / x) with (/ x * / x) by (field; lra). assert (1 / 2 <= / x). { apply (Rmult_le_reg_r x); [lra|]. rewrite Rinv_l by lra. lra. } nra. }
  replace (1 / 4 / (1 + z / z) / (1 + z / z)) with (1 / 16) in L by (field; lra). rewrite Rabs_right in L; lra.
Qed.
Print Assumptions C82_solar_load.
Print Assumptions C82_view_factor_range.
Print Assumptions C82_view_factor_low.
Print Assumptions C82_view_factor_high.
Print Assumptions C82_continuous_in_altitude_refuted.

Section node_facts.
Context (earth normal : vec).
Hypothesis OUT : earth_radius < norm 3 earth.
Hypothesis UN : unit 3 normal.
Lemma radius_pos : 0 < earth_radius. Proof. unfold earth_radius. lra. Qed.
Lemma H_big : 1 < norm 3 earth / earth_radius.
Proof. pose proof radius_pos. apply (Rmult_lt_reg_r earth_radius); [lra|]. unfold Rdiv. rewrite Rmult_assoc, Rinv_l by lra. lra. Qed.
Lemma inv_H : 1 / (norm 3 earth / earth_radius) = earth_radius / norm 3 earth.
Proof. pose proof radius_pos. field. lra. Qed.
Lemma dir_eq : dot 3 (normalize 3 earth) normal = dot 3 (direction earth) normal.
Proof. pose proof radius_pos. apply dot_ext; intros i Hi; [unfold direction; apply normalize_scal; lra|reflexivity]. Qed.
Lemma dir_unit : unit 3 (direction earth).
Proof.
  clear UN. pose proof radius_pos. assert (P : 0 < norm 3 earth) by lra. pose proof (dot_norm 3 earth) as D. unfold unit, dot, direction in *. rewrite sumn3 in *. transitivity ((earth 0%nat * earth 0%nat + earth 1%nat * earth 1%nat + earth 2%nat * earth 2%nat) / (norm 3 earth * norm 3 earth)); [field; lra|]. rewrite D. field. lra.
Qed.
Lemma dir_range : -1 <= dot 3 (direction earth) normal <= 1.
Proof.
  pose proof (lagrange (direction earth) normal) as LG. pose proof dir_unit as DU. unfold unit in *. rewrite DU, UN in LG. assert (0 <= dot 3 (cross (direction earth) normal) (cross (direction earth) normal)) by (unfold dot; rewrite sumn3; nra). split; nra.
Qed.
Lemma nvf_range : 0 <= node_view_factor earth normal <= (earth_radius / norm 3 earth) * (earth_radius / norm 3 earth).
Proof.
  pose proof radius_pos. unfold node_view_factor. cbv zeta. pose proof (vf_range (norm 3 earth - earth_radius) _ (acos (dot 3 (normalize 3 earth) normal)) H_big (acos_bound _)) as [A B]. split; [exact A|]. apply (Rle_trans _ _ _ B). right. field. split; lra.
Qed.
Lemma nvf_behind : dot 3 (direction earth) normal <= - (earth_radius / norm 3 earth) -> node_view_factor earth normal = 0.
Proof.
  intro D. unfold node_view_factor. cbv zeta. rewrite dir_eq. pose proof H_big as HB. pose proof (S_range _ HB) as SR. pose proof (phi_range _ HB) as PH. pose proof dir_range as DR.
  assert (L : PI / 2 + asin (1 / (norm 3 earth / earth_radius)) <= acos (dot 3 (direction earth) normal)).
  { rewrite acos_asin by exact DR. rewrite inv_H in *. destruct D as [D|D]; [|rewrite D, asin_opp; lra]. assert (asin (dot 3 (direction earth) normal) < asin (- (earth_radius / norm 3 earth))) by (apply asin_increasing; lra). rewrite asin_opp in H. lra. }
  destruct (Rlt_le_dec (norm 3 earth - earth_radius) (1732 * 10 ^ 3)) as [A|A].
  - apply (C82_view_factor_low _ _ A HB); [exact L|apply acos_bound].
  - rewrite C82_view_factor_high by exact A. rewrite rlt_false; [reflexivity|lra].
Qed.
Lemma nvf_front : norm 3 earth - earth_radius < 1732 * 10 ^ 3 -> earth_radius / norm 3 earth <= dot 3 (direction earth) normal ->
  node_view_factor earth normal = dot 3 (direction earth) normal * (earth_radius / norm 3 earth * (earth_radius / norm 3 earth)).
Proof.
  intros A D. unfold node_view_factor. cbv zeta. rewrite dir_eq. pose proof H_big as HB. pose proof (S_range _ HB) as SR. pose proof dir_range as DR. pose proof radius_pos.
  assert (L : acos (dot 3 (direction earth) normal) <= PI / 2 - asin (1 / (norm 3 earth / earth_radius))).
  { rewrite acos_asin by exact DR. rewrite inv_H in *. destruct D as [D|D]; [|rewrite D; lra]. assert (asin (earth_radius / norm 3 earth) < asin (dot 3 (direction earth) normal)) by (apply asin_increasing; lra). lra. }
  rewrite vf_low_front by assumption. rewrite cos_acos by exact DR. field. lra.
Qed.
End node_facts.

(** infrared: between nothing and the flux through the plate when it faces the whole Earth, nothing when the Earth is
    wholly behind, exactly the cosine law when it is wholly in front (below 1732 km) *)
Theorem C82_infrared_load : forall earth normal flux area epsilon, earth_radius < norm 3 earth -> unit 3 normal ->
  0 <= flux -> 0 <= area -> 0 <= epsilon ->
  let s := earth_radius / norm 3 earth in
  let c := dot 3 (direction earth) normal in
  let w := earth_infrared earth normal flux area epsilon in
  0 <= w <= flux * area * epsilon * (s * s) /\
  (c <= - s -> w = 0) /\
  (norm 3 earth - earth_radius < 1732 * 10 ^ 3 -> s <= c -> w = flux * area * epsilon * (s * s) * c).
Proof.
  intros earth n f a ep O U F A E s c w. unfold w, earth_infrared. assert (K : 0 <= f * a * ep) by (repeat apply Rmult_le_pos; assumption). set (k := f * a * ep) in *. pose proof (nvf_range earth n O) as R. fold s in R. split; [|split].
  - split; [apply Rmult_le_pos; tauto|apply Rmult_le_compat_l; tauto].
  - intro D. rewrite nvf_behind by assumption. ring.
  - intros L D. rewrite nvf_front by assumption. fold s c. ring.
Qed.
(** albedo: the same bounds; the angle to the Sun enters as half the angle between the local vertical and the Sun *)
Theorem C82_albedo_load : forall earth sun normal flux area alpha, earth_radius < norm 3 earth -> unit 3 normal -> unit 3 sun ->
  0 <= flux -> 0 <= area -> 0 <= alpha ->
  let s := earth_radius / norm 3 earth in
  let cos_zenith := - dot 3 (direction earth) sun in
  let w := albedo_radiation earth sun normal flux area alpha in
  0 <= w <= flux * area * alpha * (s * s) /\
  (dot 3 (direction earth) normal <= - s -> w = 0) /\
  w = flux * area * alpha * node_view_factor earth normal * (sqrt ((1 + cos_zenith) / 2) * sqrt ((1 + cos_zenith) / 2) * sqrt ((1 + cos_zenith) / 2)).
Proof.
  intros earth sun n f a al O U US F A AL s z w. assert (K : 0 <= f * a * al) by (repeat apply Rmult_le_pos; assumption). pose proof (nvf_range earth n O) as R. fold s in R. pose proof radius_pos as RP.
  pose proof (dir_unit earth O) as DU. pose proof (dir_range earth sun O US) as DR. assert (ZR : -1 <= z <= 1) by (unfold z; lra).
  assert (CE : exists c, c = sqrt ((1 + z) / 2) /\ w = f * a * al * (if rlt 0 c then node_view_factor earth n * (c * c * c) else 0)).
  { exists (dot 3 (vneg (normalize 3 earth)) (normalize 3 (vsub sun (normalize 3 earth)))). split; [|reflexivity].
    assert (NE : forall i, normalize 3 earth i = direction earth i) by (intro i; unfold direction; apply normalize_scal; lra).
    set (d := vsub sun (normalize 3 earth)). assert (DD : dot 3 d d = 2 + 2 * z).
    { unfold d, z. unfold unit, dot, vsub in *. rewrite !sumn3 in *. rewrite !NE. lra. }
    assert (DN : norm 3 d * norm 3 d = 2 + 2 * z) by (rewrite <- dot_norm; exact DD). pose proof (norm_nonneg 3 d) as NN.
    assert (ED : dot 3 (vneg (normalize 3 earth)) d = 1 + z). { unfold d, z. unfold unit, dot, vsub, vneg in *. rewrite !sumn3 in *. rewrite !NE. lra. }
    destruct (Req_dec (norm 3 d) 0) as [Z|NZ].
    - assert (Z1 : z = -1) by (rewrite Z in DN; lra). rewrite Z1. replace ((1 + -1) / 2) with 0 by lra. rewrite sqrt_0.
      pose proof (norm_0 3 d Z) as D0. assert (N0 : forall i, (i < 3)%nat -> normalize 3 d i = 0) by (intros i Hi; unfold normalize; rewrite req_true by exact Z; now apply D0).
      unfold dot. rewrite sumn3, !N0 by lia. ring.
    - assert (P : 0 < norm 3 d) by lra. transitivity (dot 3 (vneg (normalize 3 earth)) d / norm 3 d).
      { unfold dot. rewrite !sumn3. rewrite !(normalize_scal d) by exact P. field. lra. }
      rewrite ED. symmetry. apply sqrt_lem_1; [lra| |].
      + apply Rmult_le_pos; [lra|]. apply Rlt_le, Rinv_0_lt_compat, P.
      + transitivity ((1 + z) * (1 + z) / (norm 3 d * norm 3 d)); [field; lra|]. rewrite DN. field. nra. }
  destruct CE as (c & CE & WE). rewrite <- CE. assert (C0 : 0 <= c <= 1). { rewrite CE. split; [apply sqrt_pos|]. apply (Rle_trans _ (sqrt 1)); [apply sqrt_le_1_alt; lra|rewrite sqrt_1; lra]. }
  assert (W : w = f * a * al * node_view_factor earth n * (c * c * c)). { rewrite WE. destruct (rlt_spec 0 c) as [P|P]; [ring|]. assert (c = 0) as -> by lra. ring. }
  set (k := f * a * al) in *. assert (C3 : 0 <= c * c * c <= 1). { split; [repeat apply Rmult_le_pos; tauto|]. assert (c * c <= 1) by nra. nra. } set (v := node_view_factor earth n) in *. assert (KV : 0 <= k * v <= k * (s * s)). { split; [apply Rmult_le_pos; tauto|apply Rmult_le_compat_l; tauto]. }
  split; [|split].
  - rewrite W. split; [apply Rmult_le_pos; tauto|]. nra.
  - intro D. rewrite W. unfold v. rewrite nvf_behind by assumption. ring.
  - exact W.
Qed.
(** so a plate over the night side (the Sun below the horizon of the point below the spacecraft) takes in albedo *)
Theorem C82_no_albedo_at_night_refuted :
  ~ (forall earth sun normal flux area alpha, earth_radius < norm 3 earth -> unit 3 normal -> unit 3 sun -> 0 <= flux -> 0 <= area -> 0 <= alpha ->
       0 < dot 3 (direction earth) sun -> albedo_radiation earth sun normal flux area alpha = 0).
Proof.
  intro H. set (r := 2 * earth_radius). set (e := v3 r 0 0). set (sun := v3 (3 / 5) (4 / 5) 0). pose proof radius_pos as RP.
  assert (NE : norm 3 e = r). { unfold norm. rewrite sumn3. cbn. replace (r * r + 0 * 0 + 0 * 0) with (r * r) by ring. apply sqrt_square. unfold r. lra. }
  assert (O : earth_radius < norm 3 e) by (rewrite NE; unfold r; lra).
  assert (U : unit 3 (v3 1 0 0)) by (unfold unit, dot; rewrite sumn3; cbn; lra). assert (US : unit 3 sun) by (unfold unit, dot; rewrite sumn3; cbn; lra).
  assert (DN : dot 3 (direction e) (v3 1 0 0) = 1). { unfold dot, direction. rewrite sumn3, NE. cbn. field. unfold r. lra. }
  assert (DS : dot 3 (direction e) sun = 3 / 5). { unfold dot, direction. rewrite sumn3, NE. cbn. field. unfold r. lra. }
  specialize (H e sun (v3 1 0 0) 1 1 1 O U US ltac:(lra) ltac:(lra) ltac:(lra) ltac:(lra)). destruct (C82_albedo_load e sun (v3 1 0 0) 1 1 1 O U US ltac:(lra) ltac:(lra) ltac:(lra)) as (_ & _ & W). rewrite H, DS in W.
  assert (V : node_view_factor e (v3 1 0 0) = 1 / 16).
  { unfold node_view_factor. cbv zeta. rewrite dir_eq by exact O. rewrite DN, acos_1, NE. rewrite C82_view_factor_high by (unfold r, earth_radius; lra). pose proof PI_RGT_0. rewrite rlt_true by lra. unfold r. field. lra. }
  rewrite V in W. assert (P : 0 < sqrt ((1 + - (3 / 5)) / 2)) by (apply sqrt_lt_R0; lra). set (q := sqrt _) in *. assert (0 < q * q * q) by (repeat apply Rmult_lt_0_compat; assumption). lra.
Qed.
(** parameters out of range are set to 0, the others kept *)
Theorem C82_parameters : forall n, let m := assert_params n in
  0 <= n_temperature m /\ 0 <= n_capacity m /\ 0 <= n_alpha m <= 1 /\ 0 <= n_epsilon m <= 1 /\ 0 <= n_area m /\
  (0 <= n_temperature n -> n_temperature m = n_temperature n) /\ (0 <= n_capacity n -> n_capacity m = n_capacity n) /\
  (0 <= n_alpha n <= 1 -> n_alpha m = n_alpha n) /\ (0 <= n_epsilon n <= 1 -> n_epsilon m = n_epsilon n) /\ (0 <= n_area n -> n_area m = n_area n).
Proof.
  intros [t c al ep ar]. cbn. repeat match goal with |- context [rlt ?a ?b] => destruct (rlt_spec a b) end; cbn; repeat split; intros; lra.
Qed.
Print Assumptions C82_infrared_load.
Print Assumptions C82_albedo_load.
Print Assumptions C82_no_albedo_at_night_refuted.
Print Assumptions C82_parameters.

(** ** Non-trivial cases: a low orbit, the plate 60 degrees off nadir sees part of the Earth *)
Example ex82 : earth_radius < norm 3 (v3 (11 / 10 * earth_radius) 0 0) /\ unit 3 (v3 (1 / 2) (sqrt 3 / 2) 0) /\
  norm 3 (v3 (11 / 10 * earth_radius) 0 0) - earth_radius < 1732 * 10 ^ 3 /\
  PI / 2 - asin (1 / (11 / 10)) < PI / 3 < PI / 2 + asin (1 / (11 / 10)).
Proof.
  pose proof radius_pos as RP. assert (NE : norm 3 (v3 (11 / 10 * earth_radius) 0 0) = 11 / 10 * earth_radius).
  { unfold norm. rewrite sumn3. cbn. replace (11 / 10 * earth_radius * (11 / 10 * earth_radius) + 0 * 0 + 0 * 0) with ((11 / 10 * earth_radius) * (11 / 10 * earth_radius)) by ring. apply sqrt_square. lra. }
  rewrite NE. split; [lra|]. split. { unfold unit, dot. rewrite sumn3. cbn. pose proof (sqrt_sqrt 3 ltac:(lra)). lra. } split; [unfold earth_radius; lra|].
  assert (A : PI / 6 < asin (1 / (11 / 10))). { rewrite <- (asin_sin (PI / 6)) by (pose proof PI_RGT_0; lra). rewrite sin_PI6. apply asin_increasing; lra. } pose proof PI_RGT_0. lra.
Qed.
