(** From the perturbed elements to position and velocity: the equations of the report. *)
From Coq Require Import Reals Lra Lia List Bool ZArith.
From Verif Require Import RBase VecModel VecProofs Trig SensorModel JulianModel OrbitSpec KeplerProofs OeProofs Sgp4Model Sgp4Spec Sgp4Proofs Sgp4Kepler.
Import ListNotations.
Open Scope R_scope.

Lemma Val_inj {A} (a b : A) : Val a = Val b -> a = b. Proof. congruence. Qed.
Lemma fmod_turns x : exists k : Z, fmod2pi x = x + IZR k * (2 * PI).
Proof. exists (- trunc (x / twopi))%Z. unfold fmod2pi, twopi. rewrite opp_IZR. ring. Qed.
Lemma sin_fmod x : sin (fmod2pi x) = sin x.
Proof. destruct (fmod_turns x) as (k & ->). apply sin_period_Z. Qed.
Lemma cos_fmod x : cos (fmod2pi x) = cos x.
Proof. destruct (fmod_turns x) as (k & ->). apply cos_period_Z. Qed.

(** the direction computed from the eccentric longitude is a direction *)
Lemma unit_direction ax ay s c b : s * s + c * c = 1 -> 0 <= b -> b * b = 1 - (ax * ax + ay * ay) ->
  (s - ay - ax * ((ax * s - ay * c) / (1 + b))) * (s - ay - ax * ((ax * s - ay * c) / (1 + b))) +
  (c - ax + ay * ((ax * s - ay * c) / (1 + b))) * (c - ax + ay * ((ax * s - ay * c) / (1 + b))) =
  (1 - (ax * c + ay * s)) * (1 - (ax * c + ay * s)).
Proof.
  intros SC B0 B. set (k := / (1 + b)).
  assert (K : k * (1 + b) = 1) by (unfold k; field; lra).
  set (es := ax * s - ay * c). set (ec := ax * c + ay * s). set (e2 := ax * ax + ay * ay).
  assert (E : e2 = es * es + ec * ec) by (unfold e2, es, ec; nra).
  assert (KK : 2 * k - k * k * e2 = 1).
  { unfold e2 in *. replace (ax * ax + ay * ay) with (1 - b * b) by lra. replace (2 * k - k * k * (1 - b * b)) with
      (2 * k - (k * (1 + b)) * (k * (1 - b))) by ring. rewrite K. replace (2 * k - 1 * (k * (1 - b))) with (k * (1 + b)) by ring. exact K. }
  unfold Rdiv. fold k. transitivity (s * s + c * c - 2 * ec + e2 - 2 * k * (es * es) + k * k * (es * es) * e2).
  - unfold e2, es, ec. ring.
  - rewrite SC. replace (1 - 2 * ec + e2 - 2 * k * (es * es) + k * k * (es * es) * e2) with
      (1 - 2 * ec + e2 - (2 * k - k * k * e2) * (es * es)) by ring. rewrite KK, E. ring.
Qed.
Lemma atan2_unit y x : x * x + y * y = 1 -> sin (atan2 y x) = y /\ cos (atan2 y x) = x.
Proof.
  intros H. destruct (atan2_spec x y) as [A B].
  { destruct (Req_dec x 0) as [X|X]; [right|left; exact X]. intros Y. rewrite X, Y in H. lra. }
  rewrite H, sqrt_1, Rmult_1_r in A, B. now split.
Qed.

(** sgp4_periodic as far as position and velocity go, with the coefficients made explicit *)
Definition ay_coef (g : grav) (s : satrec) (i : R) : R := if deep s then - 0.5 * j3oj2 g * sin i else num s aycof.
Definition xl_coef (g : grav) (s : satrec) (i : R) : res R := if deep s then calc_xlcof g (sin i) (cos i) else Val (num s xlcof).
Definition consistent (s : satrec) (th : R) : Prop :=
  deep s = false -> num s con41 = 3 * th ^ 2 - 1 /\ num s x1mth2 = 1 - th ^ 2 /\ num s x7thm1 = 7 * th ^ 2 - 1.

Lemma periodic_inv g s am nm_ p s' out :
  sgp4_periodic g s am nm_ (sin (xincp p)) (cos (xincp p)) p = Val (s', out) -> 0 < am -> xke g <> 0 -> consistent s (cos (xincp p)) ->
  exists xlc x ax ay, xl_coef g s (xincp p) = Val xlc /\
    1 - ep p * ep p <> 0 /\
    ax = ep p * cos (argpp p) /\ ay = ep p * sin (argpp p) + ay_coef g s (xincp p) / (am * (1 - ep p * ep p)) /\
    kepler (fmod2pi (mp p + argpp p + nodep p + / (am * (1 - ep p * ep p)) * xlc * ax - nodep p)) ax ay = Val (sin x, cos x) /\
    let q := mkElems am nm_ ax ay x (xincp p) (nodep p) in
    (p_of q < 0 /\ out = None /\ error s' = 6%Z) \/
    (0 < p_of q /\ exists u r v, is_latitude_argument q u /\ out = Some (r, v) /\
       let '(r', v') := str3_state (j2 g / 2) (cos (xincp p)) (xke g) (radiusearthkm g) u q in
       same_vec r r' /\ same_vec v v' /\
       let '(rk, _, _, _, _, _) := short_period (j2 g / 2) (cos (xincp p)) (xke g) u q in
       error s' = (if rlt rk 1 then 6%Z else error s)).
Proof.
  intros H AM KN CO. unfold sgp4_periodic in H. apply rbind_val in H. destruct H as ([[s1 si] ci] & H1 & H).
  assert (P1 : exists xlc, xl_coef g s (xincp p) = Val xlc /\ num s1 xlcof = xlc /\ num s1 aycof = ay_coef g s (xincp p) /\ deep s1 = deep s /\
                 error s1 = error s /\ si = sin (xincp p) /\ ci = cos (xincp p) /\
                 (deep s = false -> num s1 con41 = num s con41 /\ num s1 x1mth2 = num s x1mth2 /\ num s1 x7thm1 = num s x7thm1)).
  { unfold xl_coef, ay_coef. destruct (deep s) eqn:DS.
    - apply rbind_val in H1. destruct H1 as (xl & X & H1). injection H1 as <- <- <-. exists xl. split; [exact X|].
      split; [apply set_same|]. split; [rewrite (set_other xlcof) by discriminate; apply set_same|]. cbn [set deep error]. repeat split; auto; discriminate.
    - injection H1 as <- <- <-. exists (num s xlcof). repeat split; auto. }
  destruct P1 as (xlc & XL & X1 & A1 & DP & ER & -> & -> & KE). clear H1.
  apply rbind_val in H. destruct H as (temp & T & H). apply fdiv_val in T. destruct T as (TN & ->).
  assert (EN : 1 - ep p * ep p <> 0) by nra.
  rewrite X1, A1 in H. apply rbind_val in H. destruct H as ([sE cE] & K & H).
  destruct (kepler_turns _ _ _ _ _ K) as (j & _ & SE & CE & _). set (x := estimate _ _ _ j) in *. clearbody x.
  rewrite SE, CE in H, K. clear SE CE sE cE.
  exists xlc, x, (ep p * cos (argpp p)), (ep p * sin (argpp p) + ay_coef g s (xincp p) / (am * (1 - ep p * ep p))).
  split; [exact XL|]. split; [exact EN|]. split; [reflexivity|]. split; [reflexivity|].
  assert (AYE : ep p * sin (argpp p) + 1 / (am * (1 - ep p * ep p)) * ay_coef g s (xincp p) =
                ep p * sin (argpp p) + ay_coef g s (xincp p) / (am * (1 - ep p * ep p))) by (unfold Rdiv; ring).
  rewrite AYE in H, K. clear AYE. replace (1 / (am * (1 - ep p * ep p))) with (/ (am * (1 - ep p * ep p))) in K by (unfold Rdiv; ring).
  split; [exact K|]. clear K XL X1.
  set (ax := ep p * cos (argpp p)) in *. set (ay := ep p * sin (argpp p) + _) in *. clearbody ax ay.
  intros q. unfold p_of. cbn [q e_a e_ax e_ay].
  destruct (rlt_spec (am * (1 - (ax * ax + ay * ay))) 0) as [NP|NP].
  { left. split; [exact NP|]. rewrite rlt_true in H by lra. injection H as <- <-. now split. }
  right. do 6 (apply rbind_val in H; destruct H as (? & ? & H)).
  repeat match goal with E : fdiv _ _ = Val _ |- _ => apply fdiv_val in E; destruct E as (? & ->) end.
  match goal with E : fsqrt _ = Val _ |- _ => apply fsqrt_val in E; destruct E as (B0 & ->) end.
  set (b := sqrt (1 - (ax * ax + ay * ay))) in *.
  assert (BP : 0 <= b) by apply sqrt_pos. assert (BB : b * b = 1 - (ax * ax + ay * ay)) by (apply sqrt_sqrt; exact B0).
  set (rl := am * (1 - (ax * cos x + ay * sin x))) in *.
  assert (RL : rl <> 0) by assumption.
  assert (PL : am * (1 - (ax * ax + ay * ay)) <> 0) by assumption.
  split; [lra|].
  set (es := ax * sin x - ay * cos x) in *.
  set (sinu := am / rl * (sin x - ay - ax * (es / (1 + b)))) in *.
  set (cosu := am / rl * (cos x - ax + ay * (es / (1 + b)))) in *.
  assert (U1 : cosu * cosu + sinu * sinu = 1).
  { pose proof (unit_direction ax ay (sin x) (cos x) b ltac:(pose proof (sin2_cos2 x) as SC; unfold Rsqr in SC; exact SC) BP BB) as U. fold es in U.
    unfold cosu, sinu. transitivity ((am / rl) * (am / rl) * ((1 - (ax * cos x + ay * sin x)) * (1 - (ax * cos x + ay * sin x)))).
    - rewrite <- U. ring.
    - assert (W : 1 - (ax * cos x + ay * sin x) <> 0) by (intros Z; apply RL; unfold rl; rewrite Z; ring).
      unfold rl. field. split; [exact W|lra]. }
  destruct (atan2_unit sinu cosu U1) as (SU & CU). set (u := atan2 sinu cosu) in *.
  assert (S2 : (cosu + cosu) * sinu = sin (2 * u)) by (rewrite sin_2a, SU, CU; ring).
  assert (C2 : 1 - 2 * sinu * sinu = cos (2 * u)) by (rewrite cos_2a_sin, SU; ring).
  rewrite S2, C2 in H. exists u.
  set (th := cos (xincp p)) in *.
  match type of H with Val (if rlt (_ * (1 - 1.5 * ?t2 * _ * num ?s2 _) + _) 1 then _ else _, _) = _ => set (s2' := s2) in * end.
  assert (CF : num s2' con41 = 3 * th ^ 2 - 1 /\ num s2' x1mth2 = 1 - th ^ 2 /\ num s2' x7thm1 = 7 * th ^ 2 - 1 /\ error s2' = error s).
  { unfold s2'. rewrite DP. destruct (deep s) eqn:DS.
    - rewrite !(set_other x7thm1 con41), !(set_other x7thm1 x1mth2), !(set_other x1mth2 con41) by discriminate. rewrite !set_same.
      cbn [set error]. repeat split; try exact ER; ring.
    - destruct (KE eq_refl) as (K1 & K2 & K3). rewrite K1, K2, K3. destruct (CO DS) as (O1 & O2 & O3). auto. }
  destruct CF as (F1 & F2 & F3 & F4). rewrite F1, F2, F3 in H.
  match type of H with Val (_, Some (posvel _ ?a ?b ?c ?d ?e ?f)) = _ => destruct (posvel g a b c d e f) as [r v] eqn:PV end.
  apply Val_inj, pair_equal_spec in H. destruct H as [<- <-]. exists r, v.
  split. { unfold is_latitude_argument, r_of. cbn [q e_a e_ax e_ay e_x]. fold es rl b. rewrite SU, CU. unfold sinu, cosu. split; field; split; lra. }
  split; [reflexivity|].
  unfold str3_state, short_period, rdot_of, rfdot_of, p_of, r_of. cbn [q e_a e_ax e_ay e_x e_i e_node e_n]. fold es rl b.
  set (pl := am * (1 - (ax * ax + ay * ay))) in *.
  unfold posvel in PV. apply pair_equal_spec in PV. destruct PV as [<- <-].
  match goal with |- context [if rlt ?m 1 then set_error 6 _ else _] => set (mrt := m) end.
  assert (X15 : 1.5 = 3 / 2) by lra. assert (X05 : 0.5 = 1 / 2) by lra. assert (X25 : 0.25 = 1 / 4) by lra.
  assert (M1 : mrt = rl * (1 - 3 / 2 * (j2 g / 2) * b / (pl * pl) * (3 * th ^ 2 - 1)) + j2 g / 2 / (2 * pl) * (1 - th ^ 2) * cos (2 * u))
    by (unfold mrt; rewrite X15, X05; field; exact PL).
  rewrite <- M1.
  assert (E1 : u - 0.25 * (0.5 * j2 g * (1 / pl) * (1 / pl)) * (7 * th ^ 2 - 1) * sin (2 * u) =
               u - j2 g / 2 / (4 * (pl * pl)) * (7 * th ^ 2 - 1) * sin (2 * u)) by (rewrite ?X15, ?X05, ?X25; field; exact PL).
  assert (E2 : nodep p + 1.5 * (0.5 * j2 g * (1 / pl) * (1 / pl)) * th * sin (2 * u) =
               nodep p + 3 * (j2 g / 2) * th / (2 * (pl * pl)) * sin (2 * u)) by (rewrite ?X15, ?X05, ?X25; field; exact PL).
  assert (E3 : xincp p + 1.5 * (0.5 * j2 g * (1 / pl) * (1 / pl)) * th * sin (xincp p) * cos (2 * u) =
               xincp p + 3 * (j2 g / 2) * th / (2 * (pl * pl)) * sin (xincp p) * cos (2 * u)) by (rewrite ?X15, ?X05, ?X25; field; exact PL).
  assert (E4 : sqrt am * es / rl - nm_ * (0.5 * j2 g * (1 / pl)) * (1 - th ^ 2) * sin (2 * u) / xke g =
               sqrt am * es / rl - j2 g / 2 * (nm_ / xke g) / pl * (1 - th ^ 2) * sin (2 * u)) by (rewrite ?X15, ?X05, ?X25; field; auto).
  assert (E5 : sqrt pl / rl + nm_ * (0.5 * j2 g * (1 / pl)) * ((1 - th ^ 2) * cos (2 * u) + 1.5 * (3 * th ^ 2 - 1)) / xke g =
               sqrt pl / rl + j2 g / 2 * (nm_ / xke g) / pl * ((1 - th ^ 2) * cos (2 * u) + 3 / 2 * (3 * th ^ 2 - 1))) by (rewrite ?X15, ?X05, ?X25; field; auto).
  rewrite E1, E2, E3, E4, E5. clearbody mrt.
  split; [|split].
  - intros i. unfold vec3, vU, vM, vN, v3. destruct i as [|[|[|i]]]; ring.
  - intros i. unfold vec3, vU, vV, vM, vN, v3. destruct i as [|[|[|i]]]; field; auto.
  - destruct (rlt mrt 1); [reflexivity|]. exact F4.
Qed.
