(** C85: when and from what the local environment is updated. *)
From Coq Require Import Reals Lra Lia List Bool Arith ZArith String.
From Verif Require Import Base RBase VecModel VecProofs QuatModel QuatSpec QuatProofs OrbitProofs OdeModel SensorProofs AttitudeSpec AttitudeProofs DisturbanceModel PointingProofs CelestialModel CelestialSpec CelestialProofs CelestialProps ShadowModel EnvModel EnvSpec.
Import ListNotations.
Open Scope R_scope.

Section props.
Context (naif : string -> option Z) (wz : nat -> nat -> R) (nz : nat -> R) (igrf : inputs -> vec) (density : celestial -> inputs -> R).
Notation update := (env_update naif wz nz igrf density).
Notation run := (env_run naif wz nz igrf density).

Lemma update_cases c g x st e e' st' : update c g x st e = Ok (e', st') ->
  exists e1, (if att_now x then exists l, update_local g (sc_position x) (sc_velocity x) (sc_quat x) (sc_rate x) (local_info e) = Ok l /\
       field_update wz nz igrf c x st (mkEnv l (field_i e) (field_b e) (pressure e) (coefficient e) (albedo_W e) (infrared_W e) (air_density e)) = (e1, st')
     else e1 = e /\ st' = st) /\
  (if orb_now x then exists p co, (if srp_on c then sunlight_update naif g (local_info e1) c else Ok (pressure e1, coefficient e1)) = Ok (p, co) /\
     e' = mkEnv (local_info e1) (field_i e1) (field_b e1) p co (if albedo_on c then match power p co with Some w => Some (w * albedo_factor c) | None => None end else albedo_W e1)
            (if infrared_on c then infrared_flux c co else infrared_W e1) (if air_on c then density g x else air_density e1)
   else e' = e1).
Proof.
  unfold env_update. destruct (att_now x).
  - destruct (update_local _ _ _ _ _ _) as [l| | |]; [|discriminate..]. cbn [bind]. destruct (field_update _ _ _ _ _ _ _) as [e1 st1] eqn:F. cbn [bind].
    destruct (orb_now x).
    + destruct (if srp_on c then _ else _) as [[p co]| | |] eqn:SL; [|discriminate..]. cbn [bind]. intro H. injection H as <- <-. exists e1. split; [exists l; now split|]. exists p, co. now split.
    + intro H. injection H as <- <-. exists e1. split; [exists l; now split|reflexivity].
  - cbn [bind]. destruct (orb_now x).
    + destruct (if srp_on c then _ else _) as [[p co]| | |] eqn:SL; [|discriminate..]. cbn [bind]. intro H. injection H as <- <-. exists e. split; [now split|]. exists p, co. now split.
    + intro H. injection H as <- <-. exists e. repeat split.
Qed.
Lemma field_update_rest c x st e e1 st1 : field_update wz nz igrf c x st e = (e1, st1) ->
  local_info e1 = local_info e /\ pressure e1 = pressure e /\ coefficient e1 = coefficient e /\ albedo_W e1 = albedo_W e /\ infrared_W e1 = infrared_W e /\ air_density e1 = air_density e /\
  (field_on c = false -> field_i e1 = field_i e /\ field_b e1 = field_b e /\ st1 = st) /\
  (field_on c = true -> exists st2, add_field_noise wz nz (field_par c) st (igrf x) = (field_i e1, st2) /\ st1 = st2 /\ field_b e1 = frame_conversion (sc_quat x) (field_i e1)).
Proof.
  unfold field_update. destruct (field_on c).
  - destruct (add_field_noise _ _ _ _ _) as [b st2] eqn:A. intro H. injection H as <- <-. cbn. repeat (split; [reflexivity|]). split; [discriminate|]. intros _. now exists st2.
  - intro H. injection H as <- <-. repeat (split; [reflexivity|]). split; [now repeat split|discriminate].
Qed.

(** what depends on the attitude changes only in attitude steps, what depends on the orbit only in orbit steps *)
Theorem C85_flags : forall c g x st e e' st', update c g x st e = Ok (e', st') ->
  (att_now x = false -> local_info e' = local_info e /\ field_i e' = field_i e /\ field_b e' = field_b e /\ st' = st) /\
  (orb_now x = false -> pressure e' = pressure e /\ coefficient e' = coefficient e /\ albedo_W e' = albedo_W e /\ infrared_W e' = infrared_W e /\ air_density e' = air_density e) /\
  (att_now x = false -> orb_now x = false -> e' = e).
Proof.
  intros c g x st e e' st' H. destruct (update_cases _ _ _ _ _ _ _ H) as (e1 & A & B). split; [|split].
  - intro F. rewrite F in A. destruct A as [-> ->]. destruct (orb_now x); [|subst e'; now repeat split]. destruct B as (p & co & _ & ->). cbn. now repeat split.
  - intro F. rewrite F in B. subst e'. destruct (att_now x); [|destruct A as [-> _]; now repeat split]. destruct A as (l & _ & U). apply field_update_rest in U. cbn in U. tauto.
  - intros F1 F2. rewrite F1 in A. rewrite F2 in B. destruct A as [-> _]. exact B.
Qed.
(** what is switched off keeps its value over any run *)
Theorem C85_disabled : forall c steps st e e' st', run c steps st e = Ok (e', st') ->
  (field_on c = false -> field_i e' = field_i e /\ field_b e' = field_b e /\ st' = st) /\
  (srp_on c = false -> pressure e' = pressure e /\ coefficient e' = coefficient e) /\
  (albedo_on c = false -> albedo_W e' = albedo_W e) /\ (infrared_on c = false -> infrared_W e' = infrared_W e) /\
  (air_on c = false -> air_density e' = air_density e).
Proof.
  intros c steps. induction steps as [|[g x] rest IH]; intros st e e' st' H; cbn [env_run] in H.
  - injection H as <- <-. now repeat split.
  - destruct (update c g x st e) as [[e1 st1]| | |] eqn:U; [|discriminate..]. cbn [bind fst snd] in H. destruct (IH _ _ _ _ H) as (A & B & C & D & E). clear IH H.
    assert (K : (field_on c = false -> field_i e1 = field_i e /\ field_b e1 = field_b e /\ st1 = st) /\ (srp_on c = false -> pressure e1 = pressure e /\ coefficient e1 = coefficient e) /\
      (albedo_on c = false -> albedo_W e1 = albedo_W e) /\ (infrared_on c = false -> infrared_W e1 = infrared_W e) /\ (air_on c = false -> air_density e1 = air_density e)).
    { destruct (update_cases _ _ _ _ _ _ _ U) as (e2 & P & Q).
      assert (K2 : pressure e2 = pressure e /\ coefficient e2 = coefficient e /\ albedo_W e2 = albedo_W e /\ infrared_W e2 = infrared_W e /\ air_density e2 = air_density e /\ (field_on c = false -> field_i e2 = field_i e /\ field_b e2 = field_b e /\ st1 = st)).
      { destruct (att_now x); [destruct P as (l & _ & P); apply field_update_rest in P; cbn in P; tauto|]. destruct P as [-> ->]. now repeat split. }
      destruct K2 as (K1 & K2 & K3 & K4 & K5 & K6). destruct (orb_now x); [|subst e1; repeat split; try (intros; apply K6; assumption); congruence].
      destruct Q as (p & co & SL & ->). cbn. split; [exact K6|]. split; [intro F; rewrite F in SL; injection SL as <- <-; now split|]. split; [intro F; now rewrite F|]. split; intro F; now rewrite F. }
    destruct K as (A1 & B1 & C1 & D1 & E1). split; [intro F; destruct (A F) as (? & ? & ?), (A1 F) as (? & ? & ?); repeat split; congruence|]. split; [intro F; destruct (B F), (B1 F); split; congruence|]. split; [intro F; now rewrite (C F), (C1 F)|]. split; [intro F; now rewrite (D F), (D1 F)|intro F; now rewrite (E F), (E1 F)].
Qed.
(** around another center body than the Earth there is no magnetic field and no air, whatever the settings say *)
Theorem C85_not_earth : forall center c g steps st e' st', center <> "EARTH"%string ->
  run (force_disable center c) steps st (new_environment g) = Ok (e', st') ->
  (forall i, field_i e' i = 0 /\ field_b e' i = 0) /\ air_density e' = 0 /\ st' = st.
Proof.
  intros center c g steps st e' st' N H. apply C85_disabled in H. destruct H as (A & _ & _ & _ & E). unfold force_disable in *. apply String.eqb_neq in N. rewrite N in *.
  destruct (A eq_refl) as (-> & -> & ->). rewrite (E eq_refl). repeat split.
Qed.
(** in every orbit step the reflected light is the factor times the sunlight of this step, and the infrared light is
    that of a black body at the cold temperature if something of the Sun is covered, else at the hot temperature *)
Theorem C85_albedo_infrared : forall c g x st e e' st', update c g x st e = Ok (e', st') -> orb_now x = true ->
  (albedo_on c = true -> forall k, coefficient e' = Some k -> albedo_W e' = Some (pressure e' * speed_of_light * k * albedo_factor c)) /\
  (albedo_on c = true -> coefficient e' = None -> albedo_W e' = None) /\
  (infrared_on c = true -> forall k, coefficient e' = Some k ->
     (k < 1 -> infrared_W e' = stefan_boltzmann * cold_K c ^ 4) /\ (1 <= k -> infrared_W e' = stefan_boltzmann * hot_K c ^ 4)) /\
  (infrared_on c = true -> coefficient e' = None -> infrared_W e' = stefan_boltzmann * cold_K c ^ 4) /\
  (air_on c = true -> air_density e' = density g x).
Proof.
  intros c g x st e e' st' U O. destruct (update_cases _ _ _ _ _ _ _ U) as (e1 & _ & Q). rewrite O in Q. destruct Q as (p & co & _ & ->). cbn [coefficient albedo_W pressure infrared_W air_density].
  split; [intros -> k ->; cbn [power]; unfold power_density; reflexivity|]. split; [now intros -> ->|]. split; [|split; [now intros -> ->|now intros ->]].
  intros -> k ->. unfold infrared_flux, eclipsed, is_eclipsed. split; intro K; [rewrite rle_false by lra|rewrite rle_true by lra]; reflexivity.
Qed.
(** the magnetic field of an attitude step: body components of the inertial ones, with the same strength; it differs
    from the model field by the noise of the process-wide generators, whose walk stays within the limit and one step *)
Theorem C85_field : forall c g x st e e' st' M, update c g x st e = Ok (e', st') -> att_now x = true -> field_on c = true ->
  veq 3 (field_b e') (mvec 3 (to_dcm (sc_quat x)) (field_i e')) /\
  (unit 4 (sc_quat x) -> norm 3 (field_b e') = norm 3 (field_i e')) /\
  exists s, s = match st with Some s => s | None => mkStatics (gf_walk_sd (field_par c)) (gf_walk_limit (field_par c)) (gf_noise_sd (field_par c)) 0 end /\
    st' = Some (mkStatics (st_walk_sd s) (st_limit s) (st_noise_sd s) (S (st_calls s))) /\
    (0 <= st_limit s -> (forall i k, (i < 3)%nat -> Rabs (st_walk_sd s * wz i k) <= M) ->
      forall i, (i < 3)%nat -> Rabs (field_i e' i - igrf x i - st_noise_sd s * nz (3 * st_calls s + i)%nat) <= st_limit s + 1 / 10 * M).
Proof.
  intros c g x st e e' st' M U A F. destruct (update_cases _ _ _ _ _ _ _ U) as (e1 & P & Q). rewrite A in P. destruct P as (l & _ & P). apply field_update_rest in P. destruct P as (_ & _ & _ & _ & _ & _ & _ & P). destruct (P F) as (st2 & N & -> & B). clear P.
  assert (EQ : field_i e' = field_i e1 /\ field_b e' = field_b e1). { destruct (orb_now x); [destruct Q as (p & co & _ & ->); now split|subst e'; now split]. } destruct EQ as [-> ->]. rewrite B. clear Q B U.
  split; [apply frame_dcm|]. split. { intro UQ. rewrite (norm_ext 3 _ _ (frame_dcm (sc_quat x) (field_i e1))). now rewrite rotation_norm by (now apply dcm_rotation). }
  eexists. split; [reflexivity|]. unfold add_field_noise in N. set (s := match st with Some s => s | None => _ end) in *. injection N as N1 N2. split; [now symmetry|]. intros L Z i Hi.
  pose proof (f_equal (fun f => f i) N1) as N3. cbv beta in N3. rewrite <- N3. change (st_calls s + (st_calls s + (st_calls s + 0)) + i)%nat with (3 * st_calls s + i)%nat. match goal with |- Rabs (?b + (?w + ?n) - ?b - ?n) <= _ => replace (b + (w + n) - b - n) with w by ring end.
  apply (walk_bound (vconst (st_limit s)) (fun i k => st_walk_sd s * wz i k) (1 / 10) i M (st_calls s)); [exact L|lra|]. intro k. now apply Z.
Qed.
(** in steps where the attitude and the orbit are both updated the sunlight is that of the bodies' present places *)
Theorem C85_sunlight_now : forall c g x st e e' st' s, well_sized g -> local_sized g (local_info e) ->
  update c g x st e = Ok (e', st') -> att_now x = true -> orb_now x = true -> srp_on c = true ->
  (forall n, n = "SUN"%string \/ In n (sources c) -> shows naif g (sc_position x) s n) -> sun_radius c = radius s "SUN" ->
  pressure e' = srp_pressure (to_body s "SUN") /\ all_shadows s (sources c) = Ok (coefficient e').
Proof.
  intros c g x st e e' st' s WS LS U A O SR SH RS. destruct (update_cases _ _ _ _ _ _ _ U) as (e1 & P & Q). rewrite A in P. rewrite O, SR in Q. destruct P as (l & UL & P). destruct Q as (p & co & SL & ->). cbn [pressure coefficient].
  apply field_update_rest in P. destruct P as (LI & _). cbn [local_info] in LI. rewrite LI in SL. clear LI.
  destruct (update_local_spec g (sc_position x) (sc_velocity x) (sc_quat x) (sc_rate x) (local_info e) WS LS) as (l' & UL' & LS' & H). assert (l' = l) as -> by congruence. clear UL'.
  assert (SEE : forall n, n = "SUN"%string \/ In n (sources c) -> exists u, seen_i naif g l n = Ok u /\ veq 3 u (to_body s n) /\ radius_of naif g n = Ok (radius s n)).
  { intros n Hn. destruct (SH n Hn) as (i & r & SEL & HR & RD & TB). destruct (selected_index _ _ _ _ SEL) as [BI LI]. destruct WS as (LP & LV & LR). destruct (holds_some (body_vel g) i ltac:(lia)) as (v & HV & _).
    destruct (H i r v LI HR HV) as (HP & _). unfold seen_i, radius_of. rewrite BI. cbn [bind]. destruct (aget3_holds _ _ _ HP) as (u & EU & UU). exists u. split; [exact EU|]. split; [intros j Hj; rewrite UU, TB by exact Hj; reflexivity|]. unfold aget. now rewrite RD. }
  unfold sunlight_update in SL. destruct (SEE "SUN"%string (or_introl eq_refl)) as (su & ES & US & _). rewrite ES in SL. cbn [bind] in SL.
  assert (NE : forall n u, veq 3 u (to_body s n) -> norm 3 u = norm 3 (to_body s n)) by (intros; now apply norm_ext).
  assert (FE : fold_left (fun o src => let! co := o in shadow_of naif g l c src co) (sources c) (Ok (Some 1)) = all_shadows s (sources c)).
  { unfold all_shadows. generalize (Ok (Some 1) : outcome (option R)). assert (IN : forall n, In n (sources c) -> n = "SUN"%string \/ In n (sources c)) by tauto. revert IN. generalize (sources c) at 1 3 4. induction l0 as [|n rest IH]; intros IN o; [reflexivity|]. cbn [fold_left].
    rewrite IH by (intros m M; apply IN; now right). f_equal. destruct o as [co0| | |]; cbn [bind]; try reflexivity. unfold shadow_of, calc_shadow. destruct (String.eqb n "SUN") eqn:EN; [reflexivity|].
    destruct (SEE n (IN n (or_introl eq_refl))) as (u & EU & UU & RU). rewrite ES, EU, RU. cbn [bind]. unfold apparent_radius, delta_angle. rewrite (NE "SUN"%string su US), (NE n u UU), RS.
    rewrite (norm_ext 3 (vsub su u) (vsub (to_body s "SUN") (to_body s n))) by (intros j Hj; unfold vsub; now rewrite US, UU).
    rewrite (dot_ext 3 u (vsub su u) (to_body s n) (vsub (to_body s "SUN") (to_body s n))); [reflexivity|exact UU|intros j Hj; unfold vsub; now rewrite US, UU]. }
  rewrite FE in SL. destruct (all_shadows s (sources c)) as [co1| | |]; [|discriminate..]. cbn [bind] in SL. injection SL as <- <-. split; [|reflexivity]. unfold srp_pressure. now rewrite (NE "SUN"%string su US).
Qed.
End props.
Print Assumptions C85_flags.
Print Assumptions C85_disabled.
Print Assumptions C85_not_earth.
Print Assumptions C85_albedo_infrared.
Print Assumptions C85_field.
Print Assumptions C85_sunlight_now.

(** ** What a user may expect and does not get *)
Definition earth_sun (d : R) : celestial := mkCelestial [10%Z] [d; 0; 0] [0; 0; 0] [1] "EARTH".
Definition plain_cfg : env_config := mkCfg true true true true true (mkField 0 0 0) [] 1 (1 / 3) 300 200.
Definition quiet : nat -> nat -> R := fun _ _ => 0.
Lemma sun_sel d : selected_at naif_names (earth_sun d) "SUN" 0.
Proof. exists 10%Z. repeat split. intros k K. lia. Qed.
Lemma sun_holds d : holds (body_pos (earth_sun d)) 0 (v3 d 0 0).
Proof. intros j Hj. i3 j Hj; reflexivity. Qed.
Lemma quiet_update d x e : local_sized (earth_sun d) (local_info e) -> att_now x = true -> orb_now x = true ->
  exists e' st', env_update naif_names quiet (fun _ => 0) (fun _ => v3 1 2 3) (fun _ _ => 7) plain_cfg (earth_sun d) x None e = Ok (e', st') /\ local_sized (earth_sun d) (local_info e') /\
    gives (seen_i naif_names (earth_sun d) (local_info e') "SUN") (fun j => v3 d 0 0 j - sc_position x j).
Proof.
  intros LS A O. destruct (update_local_spec (earth_sun d) (sc_position x) (sc_velocity x) (sc_quat x) (sc_rate x) (local_info e)) as (l & UL & LS' & H); [repeat split|exact LS|].
  destruct (H 0%nat (v3 d 0 0) (v3 0 0 0) ltac:(cbn; lia) (sun_holds d)) as (HP & _). { intros j Hj. i3 j Hj; reflexivity. }
  assert (GV : gives (seen_i naif_names (earth_sun d) l "SUN") (fun j => v3 d 0 0 j - sc_position x j)) by (exact (gives_slot _ _ _ _ 0 _ (sun_sel d) HP)).
  destruct GV as (u & EU & UU). unfold env_update. rewrite A, UL. cbn [bind field_update plain_cfg field_on]. unfold field_update. cbn [field_on]. unfold add_field_noise. rewrite O. cbn [srp_on local_info]. unfold sunlight_update. rewrite EU. cbn [bind sources fold_left]. do 2 eexists. split; [reflexivity|]. cbn [local_info]. split; [exact LS'|]. exists u. now split.
Qed.
(** in steps where only the orbit is updated, the sunlight is computed from the positions of an earlier step *)
Theorem C85_present_sunlight_refuted : ~ (forall naif wz nz igrf density c g0 x0 g x st e e1 st1 e2 st2 i r,
  well_sized g0 -> well_sized g -> local_sized g0 (local_info e) -> body_ids g = body_ids g0 -> srp_on c = true ->
  env_update naif wz nz igrf density c g0 x0 st e = Ok (e1, st1) -> att_now x0 = true -> orb_now x0 = true ->
  env_update naif wz nz igrf density c g x st1 e1 = Ok (e2, st2) -> orb_now x = true ->
  selected_at naif g "SUN" i -> holds (body_pos g) i r ->
  pressure e2 = srp_pressure (fun j => r j - sc_position x j)).
Proof.
  intro H. set (x0 := mkInputs true true (v3 0 0 0) (v3 0 0 0) half_turn (v3 0 0 0)). set (x := mkInputs false true (v3 1 0 0) (v3 0 0 0) half_turn (v3 0 0 0)).
  destruct (quiet_update 2 x0 (new_environment (earth_sun 2)) (C84_new _) eq_refl eq_refl) as (e1 & st1 & U & LS1 & (u & EU & UU)).
  assert (U2 : exists e2 st2, env_update naif_names quiet (fun _ => 0) (fun _ => v3 1 2 3) (fun _ _ => 7) plain_cfg (earth_sun 2) x st1 e1 = Ok (e2, st2) /\ pressure e2 = srp_pressure u).
  { unfold env_update. cbn [att_now x bind orb_now plain_cfg srp_on]. unfold sunlight_update. rewrite EU. cbn [bind sources fold_left]. do 2 eexists. split; reflexivity. }
  destruct U2 as (e2 & st2 & U2 & P). assert (P2 : pressure e2 = srp_pressure (fun j => v3 2 0 0 j - sc_position x j)).
  { eapply (H naif_names quiet (fun _ => 0) (fun _ => v3 1 2 3) (fun _ _ => 7) plain_cfg (earth_sun 2) x0 (earth_sun 2) x None (new_environment (earth_sun 2)) e1 st1 e2 st2 0%nat); try reflexivity; try (repeat split; fail); [apply C84_new|exact U|exact U2|apply sun_sel|apply sun_holds]. }
  rewrite P in P2. unfold srp_pressure in P2. rewrite (norm_ext 3 u (v3 2 0 0)) in P2. 2:{ intros j Hj. rewrite UU by exact Hj. unfold x0. cbn [sc_position]. i3 j Hj; cbn [v3]; ring. }
  rewrite (norm_ext 3 (fun j => v3 2 0 0 j - sc_position x j) (v3 1 0 0)) in P2. 2:{ intros j Hj. unfold x. cbn [sc_position]. i3 j Hj; cbn [v3]; ring. }
  assert (N2 : norm 3 (v3 2 0 0) = 2). { rewrite norm_dot. unfold dot. rewrite sumn3. cbn [v3]. replace (2 * 2 + 0 * 0 + 0 * 0) with (2 * 2) by ring. apply sqrt_square. lra. }
  assert (N1 : norm 3 (v3 1 0 0) = 1). { rewrite norm_dot. unfold dot. rewrite sumn3. cbn [v3]. replace (1 * 1 + 0 * 0 + 0 * 0) with (1 * 1) by ring. apply sqrt_square. lra. }
  rewrite N1, N2 in P2. unfold solar_constant, speed_of_light, astronomical_unit in P2. field_simplify in P2. lra.
Qed.
(** the noise of a second spacecraft's field is that of the first *)
Theorem C85_own_noise_refuted : ~ (forall wz nz p q b1 b2 f1 st1 f2 st2, add_field_noise wz nz p None b1 = (f1, st1) -> add_field_noise wz nz q st1 b2 = (f2, st2) ->
  gf_walk_sd q = 0 -> gf_walk_limit q = 0 -> gf_noise_sd q = 0 -> veq 3 f2 b2).
Proof.
  intro H. specialize (H quiet (fun _ => 1) (mkField 0 0 1) (mkField 0 0 0) (vconst 0) (vconst 0)). unfold add_field_noise in H. cbn [gf_walk_sd gf_walk_limit gf_noise_sd st_limit st_walk_sd st_noise_sd st_calls] in H.
  specialize (H _ _ _ _ eq_refl eq_refl eq_refl eq_refl eq_refl 0%nat ltac:(lia)). cbv beta in H.
  pose proof (walk_bound (vconst 0) (fun i k => 0 * quiet i k) (1 / 10) 0%nat 0 1 ltac:(unfold vconst; lra) ltac:(lra) ltac:(intro k; unfold quiet; rewrite Rmult_0_l, Rabs_R0; lra)) as B. change (vconst 0 0%nat + (walk_after (vconst 0) (fun i k : nat => 0 * quiet i k) (1 / 10) 1 0%nat + 1 * 1) = vconst 0 0%nat) in H. unfold vconst in *.
  set (w := walk_after _ _ _ _ _) in *. revert B. unfold Rabs. destruct (Rcase_abs w); lra.
Qed.
Print Assumptions C85_present_sunlight_refuted.
Print Assumptions C85_own_noise_refuted.

(** ** Non-trivial case: a step with everything on succeeds *)
Example ex85 : exists e' st', env_update naif_names quiet (fun _ => 0) (fun _ => v3 1 2 3) (fun _ _ => 7) plain_cfg (earth_sun 2)
  (mkInputs true true (v3 0 0 0) (v3 0 0 0) half_turn (v3 0 0 0)) None (new_environment (earth_sun 2)) = Ok (e', st') /\ air_density e' = 7.
Proof.
  destruct (quiet_update 2 (mkInputs true true (v3 0 0 0) (v3 0 0 0) half_turn (v3 0 0 0)) (new_environment (earth_sun 2)) (C84_new _) eq_refl eq_refl) as (e' & st' & U & _).
  exists e', st'. split; [exact U|]. now apply (C85_albedo_infrared _ _ _ _ _ _ _ _ _ _ _ _ U).
Qed.
