(** C150 - C153: environment, disturbances and time built from settings files. *)
From Coq Require Import Reals Lra Lia List Bool Arith ZArith Ascii String.
From Verif Require Import Base RBase VecModel QuatSpec StringModel SensorModel CompInitModel CelestialModel CelestialSpec CelestialProofs CelestialProps ShadowModel ShadowProps
  DisturbanceModel DisturbanceSpec DisturbanceProps GravityModel EarthRotModel AtmosphereModel EnvModel EnvSpec EnvProps SimTimeSpec SimTimeProofs SimTimeProps EnvInitModel EnvInitProofs.
From Verif Require SimTimeModel JulianModel SensorProofs ThermalProofs.
From Verif Require Import StringModel.
Import ListNotations.
Open Scope list_scope.
Open Scope R_scope.

(** * C150: the celestial bodies of the settings file *)
(** the name of body i in the file *)
Definition body_name (f : ini) (i : nat) : string := text_of (rd_string f (lit "CELESTIAL_INFORMATION") (element (lit "selected_body_name") i)).
Definition rotation_word (f : ini) (i : nat) : string := text_of (rd_string f (lit "CELESTIAL_INFORMATION") (element (lit "rotation_mode") i)).
Definition body_count (f : ini) : Z := rd_int f (lit "CELESTIAL_INFORMATION") (lit "number_of_selected_body").

(** C150: body number i is SPICE's body of the name selected_body_name(i); the arrays have a place for every body *)
Theorem C150_bodies : forall naif radii garbage f g em mm, init_celestial naif radii garbage f = Ok (g, em, mm) ->
  (0 <= body_count f)%Z /\ n_bodies g = Z.to_nat (body_count f) /\ well_sized g /\
  center_name g = text_of (rd_string f (lit "CELESTIAL_INFORMATION") (lit "center_object")) /\
  forall i, (i < n_bodies g)%nat -> exists p, naif (body_name f i) = Some p /\ nth_error (body_ids g) i = Some p /\
    (String.length (body_name f i) < 30)%nat /\
    (forall a b c r, radii p = (a, b, c) -> 0 < a -> 0 < b -> 0 < c -> nth_error (body_radius g) i = Some r -> 0 < r /\ r ^ 3 = (1000 * a) * (1000 * b) * (1000 * c)).
Proof.
  intros naif radii garbage f g em mm H. unfold init_celestial in H. change (rd_int f celestial_section (lit "number_of_selected_body")) with (body_count f) in H.
  destruct (Z.ltb_spec (body_count f) 0) as [L|L]; [discriminate|]. split; [exact L|].
  destruct (body_id_list naif (rd_names f celestial_section (lit "selected_body_name") (Z.to_nat (body_count f)))) as [ids| | |] eqn:E; try discriminate. cbn [bind] in H.
  set (g0 := mkCelestial ids _ _ _ _) in *. destruct (rotation_mode naif g0 _ "EARTH") as [e| | |]; try discriminate. cbn [bind] in H.
  destruct (rotation_mode naif g0 _ "MOON") as [m| | |]; try discriminate. cbn [bind] in H. assert (Qg : g = g0) by congruence. subst g. clear H.
  apply id_list_ok in E. assert (LI : List.length ids = Z.to_nat (body_count f)).
  { apply Forall2_length in E. rewrite rd_names_length in E. now symmetry. }
  assert (NB : n_bodies g0 = Z.to_nat (body_count f)) by exact LI.
  split; [exact NB|]. split.
  { unfold well_sized. rewrite NB. unfold g0. cbn [body_pos body_vel body_radius]. rewrite !map_length, !seq_length. repeat split; [exact LI]. }
  split; [reflexivity|]. intros i Hi. rewrite NB in Hi.
  assert (G : forall (A B : Type) (P : A -> B -> Prop) l m k x, Forall2 P l m -> nth_error l k = Some x -> exists y, nth_error m k = Some y /\ P x y).
  { clear. intros A B P l m k x F. revert k. induction F as [|a b l m H F IH]; intros [|k] K; try discriminate; cbn in *; [injection K as <-; eauto|now apply IH]. }
  destruct (G _ _ _ _ _ i _ E (rd_names_nth _ _ _ _ _ Hi)) as (p & P1 & P2 & P3).
  exists p. split; [exact P3|]. split; [exact P1|]. split; [exact P2|].
  intros a b c r Q A B C R0. unfold g0 in R0. cbn [body_radius] in R0. rewrite nth_error_map, P1 in R0. cbn in R0. injection R0 as <-.
  unfold mean_radius. rewrite Q. unfold cpow, req. 
  assert (0 < a * 1000 * (b * 1000) * (c * 1000)) by (repeat apply Rmult_lt_0_compat; lra).
  destruct (Req_EM_T (a * 1000 * (b * 1000) * (c * 1000)) 0); [lra|]. split; [apply exp_pos|].
  rewrite <- Rpower_pow by apply exp_pos. rewrite Rpower_mult. replace (1 / 3 * INR 3) with 1 by (cbn; lra). rewrite Rpower_1 by assumption. ring.
Qed.
Print Assumptions C150_bodies.

(** C150: when it is built.  (SPICE knows the Earth and the Moon.) *)
Theorem C150_outcome : forall naif radii garbage f pe pm, naif "EARTH"%string = Some pe -> naif "MOON"%string = Some pm ->
  let good i := (String.length (body_name f i) < 30)%nat /\ naif (body_name f i) <> None in
  ((0 <= body_count f)%Z -> (forall i, (Z.of_nat i < body_count f)%Z -> good i) -> exists r, init_celestial naif radii garbage f = Ok r) /\
  ((body_count f < 0)%Z -> init_celestial naif radii garbage f = Throw) /\
  (** the first bad name decides *)
  (forall i, (Z.of_nat i < body_count f)%Z -> (forall k, (k < i)%nat -> good k) ->
     ((30 <= String.length (body_name f i))%nat -> init_celestial naif radii garbage f = UB) /\
     ((String.length (body_name f i) < 30)%nat -> naif (body_name f i) = None -> init_celestial naif radii garbage f = Throw)).
Proof.
  intros naif radii garbage f pe pm NE NM good. unfold init_celestial. change (rd_int f celestial_section (lit "number_of_selected_body")) with (body_count f).
  set (names := rd_names f celestial_section (lit "selected_body_name") (Z.to_nat (body_count f))).
  assert (NL : List.length names = Z.to_nat (body_count f)) by apply rd_names_length.
  assert (NN : forall i, (i < Z.to_nat (body_count f))%nat -> nth_error names i = Some (body_name f i)) by (intros; now apply rd_names_nth).
  split; [|split].
  - intros L G. destruct (Z.ltb_spec (body_count f) 0); [lia|].
    destruct (body_id_list naif names) as [ids| | |] eqn:E.
    + cbn [bind]. set (g := mkCelestial _ _ _ _ _).
      assert (LI : n_bodies g = Z.to_nat (body_count f)) by (apply id_list_ok, Forall2_length in E; unfold n_bodies; cbn; congruence).
      destruct (rotation_ok naif g (rd_names f celestial_section (lit "rotation_mode") (Z.to_nat (body_count f))) _ _ NE) as (w & W); [now rewrite rd_names_length|].
      destruct (rotation_ok naif g (rd_names f celestial_section (lit "rotation_mode") (Z.to_nat (body_count f))) _ _ NM) as (v & V); [now rewrite rd_names_length|].
      rewrite W. cbn [bind]. rewrite V. cbn [bind]. eauto.
    + exfalso. destruct (id_list_fail naif names) as (pre & n & post & ids & Q & _ & F); [congruence|].
      assert (X : nth_error names (List.length pre) = Some n) by (rewrite Q, nth_error_app2, Nat.sub_diag by lia; reflexivity).
      assert (Y : (List.length pre < Z.to_nat (body_count f))%nat) by (rewrite <- NL, Q, app_length; cbn; lia).
      rewrite (NN _ Y) in X. injection X as <-. destruct (G (List.length pre)) as [G1 G2]; [lia|]. destruct F as [[F _]|(_ & F & _)]; [lia|congruence].
    + exfalso. destruct (id_list_fail naif names) as (pre & n & post & ids & Q & _ & F); [congruence|].
      assert (X : nth_error names (List.length pre) = Some n) by (rewrite Q, nth_error_app2, Nat.sub_diag by lia; reflexivity).
      assert (Y : (List.length pre < Z.to_nat (body_count f))%nat) by (rewrite <- NL, Q, app_length; cbn; lia).
      rewrite (NN _ Y) in X. injection X as <-. destruct (G (List.length pre)) as [G1 G2]; [lia|]. destruct F as [[F _]|(_ & F & _)]; [lia|congruence].
    + exfalso. destruct (id_list_fail naif names) as (pre & n & post & ids & Q & _ & F); [congruence|]. destruct F as [[_ F]|(_ & _ & F)]; congruence.
  - intros L. destruct (Z.ltb_spec (body_count f) 0); [reflexivity|lia].
  - intros i Hi G. destruct (Z.ltb_spec (body_count f) 0); [lia|].
    assert (Y : (i < Z.to_nat (body_count f))%nat) by lia.
    assert (K : forall l k, (forall j n, nth_error l j = Some n -> (j < k)%nat -> (String.length n < 30)%nat /\ naif n <> None) ->
      forall n, nth_error l k = Some n ->
      ((30 <= String.length n)%nat -> body_id_list naif l = UB) /\ ((String.length n < 30)%nat -> naif n = None -> body_id_list naif l = Throw)).
    { clear. intros l. induction l as [|x l IH]; intros k A n N; [destruct k; discriminate|]. destruct k as [|k]; cbn [nth_error] in N.
      - injection N as ->. cbn [body_id_list]. split.
        + intros L. now rewrite (proj2 (Nat.leb_le _ _) L).
        + intros L Q. now rewrite (proj2 (Nat.leb_gt _ _) L), Q.
      - destruct (A 0%nat x eq_refl) as [A1 A2]; [lia|]. cbn [body_id_list]. rewrite (proj2 (Nat.leb_gt _ _) A1).
        destruct (naif x); [|congruence]. destruct (IH k) with (n := n) as [I1 I2]; [intros j m M J; apply (A (S j)); [exact M|lia]|exact N|].
        split; intros; [rewrite I1 by assumption|rewrite I2 by assumption]; reflexivity. }
    destruct (K names i) with (n := body_name f i) as [K1 K2].
    + intros j n N J. rewrite NN in N by lia. injection N as <-. now apply G.
    + now apply NN.
    + split; intros; [rewrite K1 by assumption|rewrite K2 by assumption]; reflexivity.
Qed.
Print Assumptions C150_outcome.

(** C150: after the ephemeris of a step has been read, every body of the file is found by its name, at SPICE's position and
    velocity of that body (unless two names are the same body, this is its own entry: the first of the two otherwise) *)
Theorem C150_found_by_name : forall naif radii garbage f g em mm spk, init_celestial naif radii garbage f = Ok (g, em, mm) ->
  exists g', update_bodies spk g = Ok g' /\ well_sized g' /\ center_name g' = center_name g /\
  forall i p, (i < n_bodies g)%nat -> naif (body_name f i) = Some p ->
    gives (position_of naif g' (body_name f i)) (fun j => 1000 * fst (spk p) j) /\
    gives (velocity_of naif g' (body_name f i)) (fun j => 1000 * snd (spk p) j).
Proof.
  intros naif radii garbage f g em mm spk H. destruct (C150_bodies _ _ _ _ _ _ _ H) as (_ & _ & W & _ & B).
  destruct (C84_ephemeris spk g W) as (g' & E & W' & I & C & _ & P). exists g'. split; [exact E|]. split; [exact W'|]. split; [exact C|].
  intros i p Hi N. apply P; [exact N|]. destruct (B i Hi) as (q & Q & Z & _). assert (q = p) by congruence. subst q. eapply nth_error_In; eassumption.
Qed.
Print Assumptions C150_found_by_name.

(** C150: the Earth rotates by the word of its own entry; if the Earth is not selected, by the word of the first body *)
Theorem C150_rotation_modes : forall naif radii garbage f g em mm, init_celestial naif radii garbage f = Ok (g, em, mm) ->
  (forall i, selected_at naif g "EARTH" i -> em = earth_mode_of (rotation_word f i)) /\
  (forall i, selected_at naif g "MOON" i -> mm = moon_mode_of (rotation_word f i)) /\
  (forall p, naif "EARTH"%string = Some p -> ~ In p (body_ids g) -> (0 < n_bodies g)%nat -> em = earth_mode_of (rotation_word f 0)) /\
  (forall p, naif "MOON"%string = Some p -> ~ In p (body_ids g) -> (0 < n_bodies g)%nat -> mm = moon_mode_of (rotation_word f 0)) /\
  (n_bodies g = 0%nat -> em = EarthIdle /\ mm = MoonIdle).
Proof.
  intros naif radii garbage f g em mm H. pose proof (C150_bodies _ _ _ _ _ _ _ H) as (L & NB & _ & _ & _).
  unfold init_celestial in H. change (rd_int f celestial_section (lit "number_of_selected_body")) with (body_count f) in H. destruct (Z.ltb_spec (body_count f) 0); [discriminate|].
  destruct (body_id_list naif _) as [ids| | |] eqn:E; try discriminate. cbn [bind] in H.
  set (modes := rd_names f celestial_section (lit "rotation_mode") (Z.to_nat (body_count f))) in *.
  set (g0 := mkCelestial ids _ _ _ _) in *. destruct (rotation_mode naif g0 modes "EARTH") as [e| | |] eqn:EE; try discriminate. cbn [bind] in H.
  destruct (rotation_mode naif g0 modes "MOON") as [m| | |] eqn:EM; try discriminate. cbn [bind] in H. assert (Qg : g = g0) by congruence. assert (Qe : em = earth_mode_of e) by congruence. assert (Qm : mm = moon_mode_of m) by congruence. subst g em mm. clear H.
  assert (K : forall name i w, selected_at naif g0 name i -> rotation_mode naif g0 modes name = Ok w -> w = rotation_word f i).
  { intros name i w S0 R0. destruct (selected_index _ _ _ _ S0) as [B I]. unfold rotation_mode in R0. rewrite B in R0. cbn [bind] in R0.
    rewrite (proj2 (Nat.leb_gt _ _) I) in R0. rewrite NB in I. unfold modes in R0. rewrite (rd_names_nth _ _ _ _ _ I) in R0. now injection R0. }
  assert (N : forall name p w, naif name = Some p -> ~ In p (body_ids g0) -> (0 < n_bodies g0)%nat -> rotation_mode naif g0 modes name = Ok w -> w = rotation_word f 0).
  { intros name p w S0 I Z R0. unfold rotation_mode, body_index in R0. rewrite S0 in R0.
    destruct (index_of p (body_ids g0)) as [k|] eqn:X; [exfalso; apply I; apply index_of_some in X; destruct X as [X _]; eapply nth_error_In; exact X|].
    cbn [bind] in R0. rewrite (proj2 (Nat.leb_gt _ _) Z) in R0. unfold modes in R0. rewrite rd_names_nth in R0 by lia. now injection R0. }
  split; [intros i S0; now rewrite (K _ _ _ S0 EE)|]. split; [intros i S0; now rewrite (K _ _ _ S0 EM)|].
  split; [intros p P I Z; now rewrite (N _ _ _ P I Z EE)|]. split; [intros p P I Z; now rewrite (N _ _ _ P I Z EM)|].
  intros Z. assert (ids = []) by (destruct ids; [reflexivity|discriminate Z]).
  assert (Q : forall name w, rotation_mode naif g0 modes name = Ok w -> w = "Idle"%string).
  { intros name w R0. unfold rotation_mode, body_index in R0. unfold g0 in R0. cbn [body_ids] in R0. subst ids. cbn [index_of] in R0.
    destruct (naif name); cbn in R0; now injection R0. }
  now rewrite (Q _ _ EE), (Q _ _ EM).
Qed.
Print Assumptions C150_rotation_modes.

(** * C151: the local environment of the settings file *)
Definition flag (f : ini) (section : string) : Prop :=
  rd_string f (lit section) (lit "calculation") = lit "ENABLE" \/ rd_string f (lit section) (lit "calculation") = lit "1".
Lemma flag_iff f section : rd_enable f (lit section) calc = true <-> flag f section.
Proof.
  unfold rd_enable, flag, calc. rewrite Bool.orb_true_iff. destruct (str_eqb_spec (rd_string f (lit section) (lit "calculation")) (lit "ENABLE")); destruct (str_eqb_spec (rd_string f (lit section) (lit "calculation")) (lit "1")); split; intros H; tauto || (destruct H; discriminate) || auto.
Qed.
Lemma flag_not f section : ~ flag f section -> rd_enable f (lit section) calc = false.
Proof. intros N. destruct (rd_enable f (lit section) calc) eqn:E; [exfalso; apply N, flag_iff, E|reflexivity]. Qed.

(** C151: what is switched off in the file, and the geomagnetic field and the air when the center object is not called EARTH
    (in capital letters), keeps its initial value in every history *)
Theorem C151_switched_off : forall naif wz nz igrf density g f c g0 steps st e' st',
  init_env naif g f = Ok c -> env_run naif wz nz igrf density c steps st (new_environment g0) = Ok (e', st') ->
  (~ flag f "MAGNETIC_FIELD_ENVIRONMENT" \/ center_name g <> "EARTH"%string -> (forall i, field_i e' i = 0 /\ field_b e' i = 0) /\ st' = st) /\
  (~ flag f "ATMOSPHERE" \/ center_name g <> "EARTH"%string -> air_density e' = 0) /\
  (~ flag f "SOLAR_RADIATION_PRESSURE_ENVIRONMENT" -> pressure e' = 1366 / 299792458 /\ coefficient e' = Some 1) /\
  (~ flag f "EARTH_ALBEDO" -> albedo_W e' = Some 0) /\ (~ flag f "EARTH_INFRARED" -> infrared_W e' = 0).
Proof.
  intros naif wz nz igrf density g f c g0 steps st e' st' H R0. unfold init_env in H.
  destruct (radius_of naif g "SUN") as [sun| | |]; try discriminate. cbn [bind] in H.
  destruct (shadow_names f) as [names| | |]; try discriminate. cbn [bind] in H.
  set (c0 := mkCfg _ _ _ _ _ _ _ _ _ _ _) in *. assert (Qc : c = force_disable (center_name g) c0) by congruence. subst c. clear H.
  destruct (C85_disabled naif wz nz igrf density _ _ _ _ _ _ R0) as (D1 & D2 & D3 & D4 & D5).
  assert (F : forall x y, (center_name g <> "EARTH"%string -> x = false) -> x = false \/ y = true -> True) by auto. clear F.
  assert (K1 : (~ flag f "MAGNETIC_FIELD_ENVIRONMENT" \/ center_name g <> "EARTH"%string) -> field_on (force_disable (center_name g) c0) = false).
  { intros [N|N]; unfold force_disable; destruct (String.eqb_spec (center_name g) "EARTH"); try reflexivity; try contradiction. exact (flag_not f "MAGNETIC_FIELD_ENVIRONMENT" N). }
  assert (K2 : (~ flag f "ATMOSPHERE" \/ center_name g <> "EARTH"%string) -> air_on (force_disable (center_name g) c0) = false).
  { intros [N|N]; unfold force_disable; destruct (String.eqb_spec (center_name g) "EARTH"); try reflexivity; try contradiction. exact (flag_not f "ATMOSPHERE" N). }
  split; [intros N; destruct (D1 (K1 N)) as (A & B & C); split; [intros i; rewrite A, B; split; reflexivity|exact C]|].
  split; [intros N; now rewrite (D5 (K2 N))|].
  assert (P : srp_on (force_disable (center_name g) c0) = srp_on c0 /\ albedo_on (force_disable (center_name g) c0) = albedo_on c0 /\ infrared_on (force_disable (center_name g) c0) = infrared_on c0).
  { unfold force_disable. destruct (String.eqb _ _); repeat split. }
  destruct P as (P1 & P2 & P3). rewrite P1 in D2. rewrite P2 in D3. rewrite P3 in D4.
  split; [intros N; destruct D2 as [A B]; [exact (flag_not f "SOLAR_RADIATION_PRESSURE_ENVIRONMENT" N)|]; split; [exact A|exact B]|].
  split; [intros N; rewrite D3; [reflexivity|exact (flag_not f "EARTH_ALBEDO" N)]|intros N; rewrite D4; [reflexivity|exact (flag_not f "EARTH_INFRARED" N)]].
Qed.
Print Assumptions C151_switched_off.

(** C151: after a step with orbit update, albedo and infrared are those of the file's factor and temperatures, whatever the
    center body is, and the air density is the model's around the Earth *)
Theorem C151_albedo_infrared : forall naif wz nz igrf density g f c gs x st e e' st',
  init_env naif g f = Ok c -> env_update naif wz nz igrf density c gs x st e = Ok (e', st') -> orb_now x = true ->
  let temperature key := rd_double f (lit "EARTH_INFRARED") (lit key) in
  (flag f "EARTH_ALBEDO" -> forall k, coefficient e' = Some k ->
     albedo_W e' = Some (pressure e' * 299792458 * k * rd_double f (lit "EARTH_ALBEDO") (lit "earth_albedo_factor"))) /\
  (flag f "EARTH_INFRARED" -> forall k, coefficient e' = Some k ->
     (k < 1 -> infrared_W e' = 5670374419 / 10 ^ 17 * temperature "earth_infrared_temperature_cold_side_K"%string ^ 4) /\
     (1 <= k -> infrared_W e' = 5670374419 / 10 ^ 17 * temperature "earth_infrared_temperature_hot_side_K"%string ^ 4)) /\
  (flag f "ATMOSPHERE" -> center_name g = "EARTH"%string -> air_density e' = density gs x).
Proof.
  intros naif wz nz igrf density g f c gs x st e e' st' H U O temperature. unfold init_env in H.
  destruct (radius_of naif g "SUN") as [sun| | |]; try discriminate. cbn [bind] in H.
  destruct (shadow_names f) as [names| | |]; try discriminate. cbn [bind] in H.
  set (c0 := mkCfg _ _ _ _ _ _ _ _ _ _ _) in *. assert (Qc : c = force_disable (center_name g) c0) by congruence. subst c. clear H.
  destruct (C85_albedo_infrared naif wz nz igrf density _ _ _ _ _ _ _ U O) as (A1 & _ & A3 & _ & A5).
  assert (P : albedo_on (force_disable (center_name g) c0) = albedo_on c0 /\ infrared_on (force_disable (center_name g) c0) = infrared_on c0 /\
    albedo_factor (force_disable (center_name g) c0) = albedo_factor c0 /\ hot_K (force_disable (center_name g) c0) = hot_K c0 /\ cold_K (force_disable (center_name g) c0) = cold_K c0 /\
    (center_name g = "EARTH"%string -> air_on (force_disable (center_name g) c0) = air_on c0)).
  { unfold force_disable. destruct (String.eqb_spec (center_name g) "EARTH"); repeat split. intros Q. contradiction. }
  destruct P as (P1 & P2 & P3 & P4 & P5 & P6). rewrite P1, P3 in A1. rewrite P2, P4, P5 in A3.
  split; [intros F k K; apply (A1 (proj2 (flag_iff f _) F) k K)|]. split; [intros F k K; apply (A3 (proj2 (flag_iff f _) F) k K)|].
  intros F Q. apply A5. rewrite (P6 Q). apply (flag_iff f _), F.
Qed.
Print Assumptions C151_albedo_infrared.

(** C151: shadows are cast by the center object and by the first further source of the file only; a negative number of sources
    ends the program *)
Theorem C151_shadow_sources : forall naif g f c, init_env naif g f = Ok c ->
  let n := rd_int f (lit "SOLAR_RADIATION_PRESSURE_ENVIRONMENT") (lit "number_of_third_shadow_source") in
  (0 <= n)%Z /\ List.length (sources c) = (1 + Z.to_nat n)%nat /\ radius_of naif g "SUN" = Ok (sun_radius c) /\
  forall s, In s (sources c) <-> s = center_name g \/
    ((0 < n)%Z /\ s = text_of (rd_string f (lit "SOLAR_RADIATION_PRESSURE_ENVIRONMENT") (lit "third_shadow_source_name(0)"))).
Proof.
  intros naif g f c H n. unfold init_env in H.
  destruct (radius_of naif g "SUN") as [sun| | |] eqn:RS; try discriminate. cbn [bind] in H. unfold shadow_names in H. fold n in H.
  destruct (Z.ltb_spec n 0) as [L|L]; [discriminate|]. cbn [bind] in H.
  set (names := rd_names f _ _ _) in *. set (c0 := mkCfg _ _ _ _ _ _ _ _ _ _ _) in *.
  assert (Qc : c = force_disable (center_name g) c0) by congruence. subst c. clear H.
  assert (S0 : sources (force_disable (center_name g) c0) = shadow_sources (center_name g) names) by (unfold force_disable; destruct (String.eqb _ _); reflexivity).
  assert (S1 : sun_radius (force_disable (center_name g) c0) = sun) by (unfold force_disable; destruct (String.eqb _ _); reflexivity).
  assert (LN : List.length names = Z.to_nat n) by apply rd_names_length.
  split; [exact L|]. rewrite S0, S1. split; [unfold shadow_sources; cbn [List.length]; destruct names; cbn in *; [lia|rewrite map_length; lia]|].
  split; [reflexivity|]. intros s. rewrite C83_sources.
  assert (HD : hd_error names = Some s <-> (0 < n)%Z /\ s = text_of (rd_string f (lit "SOLAR_RADIATION_PRESSURE_ENVIRONMENT") (lit "third_shadow_source_name(0)"))).
  { unfold names, rd_names. destruct (Z.to_nat n) as [|k] eqn:K; cbn [seq map hd_error].
    - split; [discriminate|]. intros [Z _]. lia.
    - split; [intros E; injection E as <-; split; [lia|reflexivity]|intros [_ ->]; reflexivity]. }
  now rewrite HD.
Qed.
Print Assumptions C151_shadow_sources.
Theorem C151_negative_sources : forall naif g f r, radius_of naif g "SUN" = Ok r ->
  (rd_int f (lit "SOLAR_RADIATION_PRESSURE_ENVIRONMENT") (lit "number_of_third_shadow_source") < 0)%Z -> init_env naif g f = Throw.
Proof.
  intros naif g f r E N. unfold init_env, shadow_names. rewrite E. cbn [bind]. destruct (Z.ltb_spec (rd_int f (lit "SOLAR_RADIATION_PRESSURE_ENVIRONMENT") (lit "number_of_third_shadow_source")) 0); [reflexivity|lia].
Qed.
Print Assumptions C151_negative_sources.

(** C151: solar activity below 50 becomes 150 *)
Theorem C151_solar_activity : forall f,
  let a := init_atmosphere f in let key k := rd_double f (lit "ATMOSPHERE") (lit k) in
  as_daily a = (if Rlt_dec (key "manual_daily_f107"%string) 50 then 150 else key "manual_daily_f107"%string) /\
  as_average a = (if Rlt_dec (key "manual_average_f107"%string) 50 then 150 else key "manual_average_f107"%string) /\
  as_ap a = key "manual_ap"%string /\ 50 <= as_daily a /\ 50 <= as_average a /\
  as_model a = text_of (rd_string f (lit "ATMOSPHERE") (lit "model")).
Proof.
  intros f a key. unfold a, init_atmosphere, checked_f107, rlt. cbn [as_daily as_average as_ap as_model].
  fold (key "manual_daily_f107"%string) (key "manual_average_f107"%string) (key "manual_ap"%string).
  destruct (Rlt_dec (key "manual_daily_f107"%string) 50); destruct (Rlt_dec (key "manual_average_f107"%string) 50); repeat split; try reflexivity; lra.
Qed.
Print Assumptions C151_solar_activity.

(** * C152: the disturbances of the settings files *)
(** C152: a spacecraft has the disturbances that belong to its center object, each switched by its own section; the totals
    are the sums over the enabled ones, after every history *)
Theorem C152_totals : forall E X gm egm er geo lunar (run : kind -> made -> E -> X * values -> X * values) x0 g base dist l h s,
  init_disturbances gm egm er geo lunar run x0 g base dist = Ok l ->
  exists ms, make_all gm egm er geo lunar base dist (installed (center_name g)) = Ok ms /\ map fst ms = installed (center_name g) /\
  let object km := mkDist (rd_enable dist (section_of (fst km)) calc) (depends_on_attitude (fst km)) (run (fst km) (snd km)) (x0 (fst km) (snd km)) zero_values in
  let on := filter (fun km => rd_enable dist (section_of (fst km)) calc) ms in
  let t := snd (run_updates l (h ++ [s])) in
  veq 3 (tot_torque t) (vsum (map (fun km => torque_b (snd (held (object km) (h ++ [s])))) on)) /\
  veq 3 (tot_force t) (vsum (map (fun km => force_b (snd (held (object km) (h ++ [s])))) on)) /\
  veq 3 (tot_acc t) (vsum (map (fun km => acc_i (snd (held (object km) (h ++ [s])))) on)).
Proof.
  intros E X gm egm er geo lunar run x0 g base dist l h s H. unfold init_disturbances in H.
  destruct (make_all gm egm er geo lunar base dist (installed (center_name g))) as [ms| | |] eqn:M; try discriminate. cbn [bind] in H.
  injection H as <-. exists ms. split; [reflexivity|]. split.
  { clear - M. revert ms M. induction (installed (center_name g)) as [|k r IH]; intros ms M; cbn [make_all] in M; [injection M as <-; reflexivity|].
    destruct (make gm egm er geo lunar base dist k); try discriminate. cbn [bind] in M. destruct (make_all gm egm er geo lunar base dist r) eqn:Q; try discriminate.
    cbn [bind] in M. injection M as <-. cbn. f_equal. now apply IH. }
  intros object on t. subst t.
  change (map _ ms) with (map object ms).
  assert (F : Forall fresh (map object ms)) by (apply Forall_forall; intros d D; apply in_map_iff in D as (km & <- & _); reflexivity).
  destruct (C75_totals_sum_held_values E X (map object ms) h s F) as (_ & A & B & C). rewrite A, B, C.
  assert (K : forall (p : values -> vec), (forall i, p zero_values i = 0) ->
    veq 3 (vsum (map (fun d => p (snd (held d (h ++ [s])))) (map object ms))) (vsum (map (fun km => p (snd (held (object km) (h ++ [s])))) on))).
  { intros p P i Hi. unfold on. clear - P. induction ms as [|km ms IH]; [reflexivity|]. cbn [map filter]. unfold vsum in *. cbn [fold_right].
    destruct (rd_enable dist (section_of (fst km)) calc) eqn:Q.
    - cbn [map fold_right]. now rewrite IH.
    - rewrite IH. assert (Z : snd (held (object km) (h ++ [s])) = zero_values) by (unfold held; cbn [object enabled]; now rewrite Q). rewrite Z, P. lra. }
  split; [apply (K torque_b)|split; [apply (K force_b)|apply (K acc_i)]]; reflexivity.
Qed.
Print Assumptions C152_totals.

(** C152: the third bodies are the names of the disturbance file, once each; every one of them is a body of the base file that
    is not called like the center object, and is found by its name in the celestial information of the same base file *)
Theorem C152_third_bodies : forall naif radii garbage base dist g em mm bodies,
  init_celestial naif radii garbage base = Ok (g, em, mm) -> init_third_body base dist = Ok bodies ->
  let n := Z.to_nat (rd_int dist (lit "THIRD_BODY_GRAVITY") (lit "number_of_third_body")) in
  let name i := text_of (rd_string dist (lit "THIRD_BODY_GRAVITY") (element (lit "third_body_name") i)) in
  NoDup bodies /\
  (flag dist "THIRD_BODY_GRAVITY" -> forall b, In b bodies <-> exists i, (i < n)%nat /\ b = name i) /\
  (~ flag dist "THIRD_BODY_GRAVITY" -> bodies = []) /\
  forall b, In b bodies -> b <> center_name g /\ exists i p, selected_at naif g b i /\ naif b = Some p /\
    forall spk g', update_bodies spk g = Ok g' -> gives (position_of naif g' b) (fun j => 1000 * fst (spk p) j).
Proof.
  intros naif radii garbage base dist g em mm bodies HC HT n name.
  destruct (C150_bodies _ _ _ _ _ _ _ HC) as (BC & NB & WS & CN & BB).
  unfold init_third_body in HT. set (selected := rd_names base _ _ _) in HT. set (center := rd_name base _ _) in HT. set (names := rd_names dist _ _ _) in HT.
  destruct (C79_third_body_settings center selected names) as (T1 & T2 & T3).
  assert (NM : forall b, In b names <-> exists i, (i < n)%nat /\ b = name i).
  { intros b. unfold names, rd_names. rewrite in_map_iff. split; [intros (i & <- & I); exists i; apply in_seq in I; destruct I as [_ I]; split; [exact I|reflexivity]|].
    intros (i & I & ->). exists i. split; [reflexivity|]. apply in_seq. split; [lia|exact I]. }
  assert (SN : forall b, In b selected -> exists i, (i < n_bodies g)%nat /\ b = body_name base i).
  { intros b I. unfold selected, rd_names in I. apply in_map_iff in I as (i & <- & I). exists i. apply in_seq in I. destruct I as [_ I]. split; [|reflexivity]. rewrite NB. exact I. }
  destruct (rd_enable dist (section_of ThirdBody) calc) eqn:FL.
  - assert (FT : flag dist "THIRD_BODY_GRAVITY") by (apply flag_iff; exact FL).
    assert (OKN : forall b, In b names -> b <> center /\ In b selected).
    { intros b I. destruct (string_dec b center) as [->|N1]; [exfalso; rewrite T3 in HT by eauto; discriminate|]. split; [exact N1|].
      destruct (in_dec string_dec b selected) as [Y|N]; [exact Y|]. exfalso. rewrite T3 in HT by eauto. discriminate. }
    destruct (T2 OKN) as (r & R1 & R2 & R3). rewrite R1 in HT. injection HT as ->.
    split; [exact R2|]. split; [intros _ b; rewrite R3; apply NM|]. split; [intros NF; contradiction|].
    intros b I. apply R3 in I. destruct (OKN b I) as [C1 C2]. split; [rewrite CN; exact C1|].
    destruct (SN b C2) as (k & K & ->). destruct (BB k K) as (p & P1 & P2 & _).
    destruct (first_index p (body_ids g)) as (i & I1 & I2); [eapply nth_error_In; exact P2|].
    exists i, p. split; [exists p; auto|]. split; [exact P1|]. intros spk g' U.
    destruct (C84_ephemeris spk g WS) as (g'' & U2 & _ & _ & _ & _ & P). rewrite U in U2. injection U2 as <-. apply P; [exact P1|eapply nth_error_In; exact P2].
  - rewrite T1 in HT. injection HT as <-. assert (NF : ~ flag dist "THIRD_BODY_GRAVITY").
    { intros F. apply flag_iff in F. change (section_of ThirdBody) with (lit "THIRD_BODY_GRAVITY") in FL. congruence. }
    split; [constructor|]. split; [intros F; contradiction|]. split; [reflexivity|]. intros b [].
Qed.
Print Assumptions C152_third_bodies.
(** otherwise the program ends *)
Theorem C152_third_body_abort : forall base dist i,
  flag dist "THIRD_BODY_GRAVITY" -> (Z.of_nat i < rd_int dist (lit "THIRD_BODY_GRAVITY") (lit "number_of_third_body"))%Z ->
  let name := text_of (rd_string dist (lit "THIRD_BODY_GRAVITY") (element (lit "third_body_name") i)) in
  name = text_of (rd_string base (lit "CELESTIAL_INFORMATION") (lit "center_object")) \/
  (forall k, (Z.of_nat k < body_count base)%Z -> name <> body_name base k) ->
  init_third_body base dist = Throw.
Proof.
  intros base dist i F L name C. unfold init_third_body. set (selected := rd_names base _ _ _). set (center := rd_name base _ _). set (names := rd_names dist _ _ _).
  destruct (C79_third_body_settings center selected names) as (_ & _ & T3). rewrite (proj2 (flag_iff dist "THIRD_BODY_GRAVITY") F : rd_enable dist (section_of ThirdBody) calc = true).
  apply T3. exists name. split.
  - unfold names, rd_names. apply in_map_iff. exists i. split; [reflexivity|]. apply in_seq. unfold section_of. lia.
  - destruct C as [C|C]; [left; exact C|]. right. intros I. unfold selected, rd_names in I. apply in_map_iff in I as (k & E & I). apply in_seq in I.
    destruct I as [_ I]. change ((k < Z.to_nat (body_count base))%nat) in I. apply (C k); [lia|]. now symmetry.
Qed.
Print Assumptions C152_third_body_abort.

(** C152 (refuted): "the center body never acts as a third body", and "the Earth's environment is there whenever the Earth is the
    center body": names are compared as texts, while SPICE knows a body by several names.  Here naif knows "Earth" and "EARTH". *)
Definition spelled_ini (values : list (string * string)) (ints : list (string * Z)) : ini :=
  mkIni (fun _ key => match List.find (fun kv => str_eqb (lit (fst kv)) key) values with Some kv => lit (snd kv) | None => [] end) (fun _ _ => 0)
        (fun _ key => match List.find (fun kv => str_eqb (lit (fst kv)) key) ints with Some kv => snd kv | None => 0%Z end) (fun _ _ => false).
Definition ex_base : ini := spelled_ini [("center_object", "EARTH"); ("selected_body_name(0)", "Earth"); ("selected_body_name(1)", "SUN")]%string [("number_of_selected_body"%string, 2%Z)].
Definition ex_base2 : ini := spelled_ini [("center_object", "Earth"); ("selected_body_name(0)", "Earth"); ("selected_body_name(1)", "SUN")]%string [("number_of_selected_body"%string, 2%Z)].
Definition ex_dist : ini := spelled_ini [("calculation", "ENABLE"); ("third_body_name(0)", "Earth"); ("third_body_name(1)", "SUN"); ("third_body_name(2)", "SUN")]%string [("number_of_third_body"%string, 3%Z)].
Definition ex_naif (n : string) : option Z :=
  if String.eqb n "EARTH" || String.eqb n "Earth" then Some 399%Z else if String.eqb n "SUN" then Some 10%Z else if String.eqb n "MOON" then Some 301%Z else None.
Theorem C152_center_is_no_third_body_refuted : exists g em mm bodies b,
  init_celestial ex_naif (fun _ => (1, 1, 1)) (fun _ => 0) ex_base = Ok (g, em, mm) /\ init_third_body ex_base ex_dist = Ok bodies /\
  In b bodies /\ ex_naif b = ex_naif (center_name g) /\ ex_naif b <> None.
Proof. do 4 eexists. exists "Earth"%string. split; [reflexivity|]. split; [reflexivity|]. split; [now left|]. split; [reflexivity|discriminate]. Qed.
Print Assumptions C152_center_is_no_third_body_refuted.
Theorem C152_earth_by_any_name_refuted : exists g em mm,
  init_celestial ex_naif (fun _ => (1, 1, 1)) (fun _ => 0) ex_base2 = Ok (g, em, mm) /\
  ex_naif (center_name g) = ex_naif "EARTH"%string /\ ~ In AirDrag (installed (center_name g)) /\
  forall c, field_on (force_disable (center_name g) c) = false.
Proof. do 3 eexists. split; [reflexivity|]. split; [reflexivity|]. split; [intros H; cbn in H; intuition discriminate|reflexivity]. Qed.
Print Assumptions C152_earth_by_any_name_refuted.

(** C152: temperatures of the air drag are taken 0.15 K too low *)
Theorem C152_drag_temperatures : forall f,
  let a := init_air_drag f in let degC k := rd_double f (lit "AIR_DRAG") (lit k) in
  wall_K a = degC "wall_temperature_degC"%string + 273.15 - 0.15 /\ molecular_K a = degC "molecular_temperature_degC"%string + 273.15 - 0.15 /\
  molecular_weight a = degC "molecular_weight_g_mol"%string.
Proof. intros f a degC. unfold a, init_air_drag. cbn [wall_K molecular_K molecular_weight]. change (section_of AirDrag) with (lit "AIR_DRAG"). repeat split; unfold degC; lra. Qed.
Print Assumptions C152_drag_temperatures.

(** * C153: the simulation time of the settings file *)
(** a text of digits, and the number it stands for *)
Definition number (s : str) : Prop := s <> [] /\ forall c, In c s -> (48 <= Z.of_nat (nat_of_ascii c) <= 57)%Z.
Definition number_value (s : str) : Z := fold_left (fun a c => 10 * a + (Z.of_nat (nat_of_ascii c) - 48))%Z s 0%Z.
Definition blanks (s : str) : Prop := forall c, In c s -> c = " "%char.

Lemma digit_iff c : is_digit c = true <-> (48 <= Z.of_nat (nat_of_ascii c) <= 57)%Z.
Proof. unfold is_digit, code. rewrite Bool.andb_true_iff, !Z.leb_le. tauto. Qed.
Lemma digits_value_number s a rest : (forall c, In c s -> (48 <= Z.of_nat (nat_of_ascii c) <= 57)%Z) -> (forall c t, rest = c :: t -> is_digit c = false) ->
  digits_value a (s ++ rest) = (fold_left (fun a c => 10 * a + (Z.of_nat (nat_of_ascii c) - 48))%Z s a, rest).
Proof.
  revert a. induction s as [|c s IH]; intros a D N.
  - cbn [app fold_left]. destruct rest as [|c t]; [reflexivity|]. cbn [digits_value]. now rewrite (N c t eq_refl).
  - cbn [app digits_value fold_left]. rewrite (proj2 (digit_iff c)) by (apply D; now left). unfold code. apply IH; [intros x X; apply D; now right|exact N].
Qed.
Lemma skip_blanks b s : blanks b -> skip_space (b ++ s) = skip_space s.
Proof. intros B. induction b as [|c b IH]; [reflexivity|]. cbn [app skip_space]. rewrite (B c) by now left. cbn [is_space]. change (is_space " ") with true. apply IH. intros x X. apply B. now right. Qed.
Lemma scan_number b s rest : blanks b -> number s -> (forall c t, rest = c :: t -> is_digit c = false) -> scan_int (b ++ s ++ rest) = Some (number_value s, rest).
Proof.
  intros B [NE D] N. unfold scan_int. rewrite (skip_blanks _ _ B). destruct s as [|c s]; [contradiction|].
  assert (Dc := D c (or_introl eq_refl)). cbn [app skip_space].
  assert (SP : is_space c = false). { unfold is_space, code. destruct (Z.eqb_spec (Z.of_nat (nat_of_ascii c)) 32); [lia|]. destruct (Z.leb_spec 9 (Z.of_nat (nat_of_ascii c))); destruct (Z.leb_spec (Z.of_nat (nat_of_ascii c)) 13); try reflexivity; lia. }
  rewrite SP. assert (P1 : Ascii.eqb c "-" = false) by (destruct (Ascii.eqb_spec c "-"); [subst; cbn in Dc; lia|reflexivity]).
  assert (P2 : Ascii.eqb c "+" = false) by (destruct (Ascii.eqb_spec c "+"); [subst; cbn in Dc; lia|reflexivity]).
  rewrite P1, P2. unfold scan_digits. rewrite (proj2 (digit_iff c)) by lia. f_equal. change (c :: s ++ rest) with ((c :: s) ++ rest). now apply digits_value_number.
Qed.
Lemma scan_number0 s rest : number s -> (forall c t, rest = c :: t -> is_digit c = false) -> scan_int (s ++ rest) = Some (number_value s, rest).
Proof. intros N H. apply (scan_number [] s rest); [intros c []|exact N|exact H]. Qed.
Lemma skip_blanks_twice b s rest : blanks b -> number s -> scan_int (skip_space (b ++ s ++ rest)) = scan_int (s ++ rest).
Proof.
  intros B [NE D]. rewrite (skip_blanks _ _ B). unfold scan_int. destruct s as [|c s]; [contradiction|]. assert (Dc := D c (or_introl eq_refl)). cbn [app skip_space].
  assert (SP : is_space c = false). { unfold is_space, code. destruct (Z.eqb_spec (Z.of_nat (nat_of_ascii c)) 32); [lia|]. destruct (Z.leb_spec 9 (Z.of_nat (nat_of_ascii c))); destruct (Z.leb_spec (Z.of_nat (nat_of_ascii c)) 13); try reflexivity; lia. }
  now rewrite SP; cbn [skip_space]; rewrite SP.
Qed.

(** C153: a start time  year/month/day hour:minute:second  is read as these numbers *)
Theorem C153_date : forall (scan_real : str -> option R) b0 y mo d b1 h mi sec, blanks b0 -> number y -> number mo -> number d -> blanks b1 -> b1 <> [] -> number h -> number mi ->
  scan_date scan_real (b0 ++ y ++ lit "/" ++ mo ++ lit "/" ++ d ++ b1 ++ h ++ lit ":" ++ mi ++ lit ":" ++ sec) =
  option_map (fun s => JulianModel.mkStamp (number_value y) (number_value mo) (number_value d) (number_value h) (number_value mi) s) (scan_real sec).
Proof.
  intros sr b0 y mo d b1 h mi sec B0 Y MO D B1 N1 H MI. unfold scan_date. cbv [lit list_ascii_of_string]. cbn [app].
  rewrite (scan_number b0 y _ B0 Y) by (intros c t E; injection E as <- _; reflexivity). cbn [scan_char]. rewrite Ascii.eqb_refl.
  rewrite (scan_number0 mo _ MO) by (intros c t E; injection E as <- _; reflexivity). cbn [scan_char]. rewrite Ascii.eqb_refl.
  rewrite (scan_number0 d _ D).
  2:{ intros c t E. destruct b1 as [|x b1]; [contradiction|]. rewrite (B1 x) in E by now left. injection E as <- _. reflexivity. }
  rewrite (skip_blanks_twice b1 h _ B1 H).
  rewrite (scan_number0 h _ H) by (intros c t E; injection E as <- _; reflexivity). cbn [scan_char]. rewrite Ascii.eqb_refl.
  rewrite (scan_number0 mi _ MI) by (intros c t E; injection E as <- _; reflexivity). cbn [scan_char]. rewrite Ascii.eqb_refl.
  destruct (sr sec); reflexivity.
Qed.
Print Assumptions C153_date.
(** C153: any other separator, as in 2020-01-01T00:00:00, leaves the start time undefined *)
Theorem C153_wrong_separator : forall scan_real f b0 y c rest, blanks b0 -> number y -> c <> "/"%char -> ~ (48 <= Z.of_nat (nat_of_ascii c) <= 57)%Z ->
  rd_string f (lit "TIME") (lit "simulation_start_time_utc") = b0 ++ y ++ c :: rest -> init_simulation_time scan_real f = UB.
Proof.
  intros sr f b0 y c rest B Y C ND E. unfold init_simulation_time. rewrite E. unfold scan_date.
  rewrite (scan_number b0 y _ B Y) by (intros x t Q; injection Q as <- _; destruct (is_digit c) eqn:DD; [apply digit_iff in DD; contradiction|reflexivity]).
  cbn [scan_char]. destruct (Ascii.eqb_spec c "/"); [contradiction|]. destruct (_ || _)%bool; reflexivity.
Qed.
Print Assumptions C153_wrong_separator.

(** C153: which settings are accepted, and what they become *)
Definition usable_period (x : R) : Prop := x <> 0 /\ Rabs (1 / x) < 2147483648.
Lemma usable_test x : usable_period x -> (req x 0 || (2147483647 <? Z.abs (trunc (1 / x))))%Z%bool = false.
Proof.
  intros [N B]. rewrite req_false by exact N. cbn [orb]. apply Z.ltb_ge. destruct (SensorProofs.trunc_bounds (1 / x)) as (T & _). rewrite <- abs_IZR in T.
  enough (Z.abs (trunc (1 / x)) < 2147483648)%Z by lia. apply lt_IZR. lra.
Qed.
Theorem C153_accepted : forall scan_real f start,
  let key k := rd_double f (lit "TIME") (lit k) in
  let step := key "simulation_step_s"%string in
  usable_period (key "component_update_period_s"%string) ->
  scan_date scan_real (rd_string f (lit "TIME") (lit "simulation_start_time_utc")) = Some start ->
  let good := key "attitude_integral_step_s"%string <= key "attitude_update_period_s"%string /\
    key "orbit_integral_step_s"%string <= key "orbit_update_period_s"%string /\
    key "thermal_integral_step_s"%string <= key "thermal_update_period_s"%string /\
    step <= key "attitude_update_period_s"%string /\ step <= key "orbit_update_period_s"%string /\ step <= key "thermal_update_period_s"%string /\
    step <= key "component_update_period_s"%string /\ step <= key "log_output_period_s"%string in
  (good -> exists t, init_simulation_time scan_real f = Ok t /\ sm_start t = start /\
     SimTimeModel.end_sec _ (sm_params t) = key "simulation_duration_s"%string /\ SimTimeModel.step_sec _ (sm_params t) = step /\
     SimTimeModel.attitude_interval _ (sm_params t) = key "attitude_update_period_s"%string /\
     SimTimeModel.orbit_interval _ (sm_params t) = key "orbit_update_period_s"%string /\
     SimTimeModel.thermal_interval _ (sm_params t) = key "thermal_update_period_s"%string /\
     SimTimeModel.component_interval _ (sm_params t) = key "component_update_period_s"%string /\
     SimTimeModel.log_interval _ (sm_params t) = key "log_output_period_s"%string /\
     sm_attitude_rk t = key "attitude_integral_step_s"%string /\ sm_orbit_rk t = key "orbit_integral_step_s"%string /\
     sm_thermal_rk t = key "thermal_integral_step_s"%string /\ sm_speed t = key "simulation_speed_setting"%string) /\
  (~ good -> init_simulation_time scan_real f = Throw).
Proof.
  intros sr f start key step U D good. unfold init_simulation_time. fold (key "component_update_period_s"%string). rewrite (usable_test _ U), D.
  fold (key "attitude_integral_step_s"%string) (key "attitude_update_period_s"%string) (key "orbit_integral_step_s"%string) (key "orbit_update_period_s"%string)
    (key "thermal_integral_step_s"%string) (key "thermal_update_period_s"%string) (key "log_output_period_s"%string) (key "simulation_duration_s"%string)
    (key "simulation_speed_setting"%string) step. unfold good. clear good.
  repeat match goal with |- context [rle ?a ?b] => destruct (rle_spec a b) end; cbn [andb]; split; intros G; try reflexivity; try (exfalso; tauto).
  eexists. split; [reflexivity|]. repeat split; reflexivity.
Qed.
Print Assumptions C153_accepted.

(** C153: the rate given to components is the whole part of 1 / period: 0 for periods above one second *)
Theorem C153_component_rate : forall scan_real f t, init_simulation_time scan_real f = Ok t ->
  let period := rd_double f (lit "TIME") (lit "component_update_period_s") in
  (0 < period -> IZR (sm_component_hz t) <= 1 / period < IZR (sm_component_hz t) + 1) /\ (1 < period -> sm_component_hz t = 0%Z).
Proof.
  intros sr f t H period. unfold init_simulation_time in H. fold period in H. destruct (_ || _)%bool; [discriminate|]. destruct (scan_date _ _); [|discriminate].
  match type of H with (if ?b then _ else _) = _ => destruct b end; [|discriminate]. injection H as <-. cbn [sm_component_hz].
  assert (K : 0 < period -> IZR (trunc (1 / period)) <= 1 / period < IZR (trunc (1 / period)) + 1).
  { intros P. apply ThermalProofs.trunc_nonneg. apply Rlt_le. unfold Rdiv. rewrite Rmult_1_l. now apply Rinv_0_lt_compat. }
  split; [exact K|]. intros P. destruct K as [K1 K2]; [lra|].
  assert (1 / period < 1) by (unfold Rdiv; rewrite Rmult_1_l, <- Rinv_1; apply Rinv_1_lt_contravar; lra).
  assert (0 < 1 / period) by (unfold Rdiv; rewrite Rmult_1_l; apply Rinv_0_lt_compat; lra).
  assert (trunc (1 / period) < 1)%Z by (apply lt_IZR; lra). assert (-1 < trunc (1 / period))%Z by (apply lt_IZR; lra). lia.
Qed.
Print Assumptions C153_component_rate.

Lemma interval_steps step interval : 0 < step -> step <= interval -> exists k, steps_per_interval step interval k.
Proof.
  intros S0 L. set (q := interval / step). assert (Q : interval = q * step) by (unfold q; field; lra).
  exists (- Int_part (- q))%Z. destruct (base_Int_part (- q)) as [B1 B2]. assert (1 <= q) by (apply Rmult_le_reg_r with step; lra).
  split.
  - assert (Int_part (- q) < 0)%Z by (apply lt_IZR; lra). lia.
  - rewrite minus_IZR, opp_IZR, Q. split; [apply Rmult_lt_compat_r|apply Rmult_le_compat_r]; lra.
Qed.

(** C153: with a positive step and a duration >= 0, an accepted settings file gives a simulation that ends: it does the updates 1 ... N,
    N the first with N * step > duration, and writes a log row before update n + 1 iff the log period takes a divisor of n steps *)
Theorem C153_run : forall scan_real f t, init_simulation_time scan_real f = Ok t ->
  let step := rd_double f (lit "TIME") (lit "simulation_step_s") in let duration := rd_double f (lit "TIME") (lit "simulation_duration_s") in
  0 < step -> 0 <= duration ->
  exists kl N, steps_per_interval step (rd_double f (lit "TIME") (lit "log_output_period_s")) kl /\ first_beyond step duration N /\
    SimTimeModel.main_loop (sm_params t) (S N) 0 SimTimeModel.st_init =
    Ok (flat_map (fun n => (if (Z.of_nat n mod kl =? 0)%Z then [SimTimeModel.Log n] else []) ++ [SimTimeModel.Update (S n)]) (seq 0 N)).
Proof.
  intros sr f t H step duration P0 E0. unfold init_simulation_time in H. destruct (_ || _)%bool; [discriminate|]. destruct (scan_date _ _) as [start|]; [|discriminate].
  fold step duration in H.
  match type of H with (if ?b then _ else _) = _ => destruct b eqn:B end; [|discriminate]. injection H as <-. cbn [sm_params].
  rewrite !Bool.andb_true_iff in B. destruct B as [[[[[[[_ _] _] B1] B2] B3] B4] B5].
  assert (R0 : forall a b, rle a b = true -> a <= b) by (intros a b Q; destruct (rle_spec a b); [assumption|discriminate]).
  apply R0 in B1, B2, B3, B4, B5.
  destruct (interval_steps _ _ P0 B1) as [ka Ka]. destruct (interval_steps _ _ P0 B2) as [ko Ko]. destruct (interval_steps _ _ P0 B3) as [kt Kt].
  destruct (interval_steps _ _ P0 B4) as [kc Kc]. destruct (interval_steps _ _ P0 B5) as [kl Kl]. destruct (proj1 (C14_number_of_updates step duration P0 E0)) as [N HN].
  exists kl, N. split; [exact Kl|]. split; [exact HN|]. apply (C14_main_loop_runs_until_end _ ka ko kt kc kl N); assumption.
Qed.
Print Assumptions C153_run.

(** C153 (refuted): "an accepted simulation ends" and "accepted integration steps are positive": a missing entry is read as 0, which the
    checks let pass; with simulation_step_s = 0 the main loop goes on for ever *)
Definition only_periods (zero_key : string) : ini :=
  mkIni (fun _ _ => lit "2020/01/02 03:04:05") (fun _ key => if str_eqb key (lit zero_key) then 0 else 1) (fun _ _ => 0%Z) (fun _ _ => false).
Theorem C153_accepted_simulation_ends_refuted : exists t, init_simulation_time (fun _ => Some 5) (only_periods "simulation_step_s") = Ok t /\
  sm_start t = JulianModel.mkStamp 2020 1 2 3 4 5 /\ SimTimeModel.end_sec _ (sm_params t) = 1 /\
  forall fuel, SimTimeModel.main_loop (sm_params t) fuel 0 SimTimeModel.st_init = Hang.
Proof.
  destruct (C153_accepted (fun _ => Some 5) (only_periods "simulation_step_s") (JulianModel.mkStamp 2020 1 2 3 4 5)) as [A _].
  - split; [cbn; lra|]. cbn. rewrite Rabs_right; lra.
  - reflexivity.
  - destruct A as (t & T & T1 & T2 & T3 & _); [cbn; repeat split; lra|]. exists t. split; [exact T|]. split; [exact T1|]. split; [exact T2|].
    cbn in T2, T3. enough (G : forall fuel n (s : SimTimeModel.stime SimTimeModel.real_arith), SimTimeModel.finish _ s = false -> SimTimeModel.elapsed _ s = (0 : R) -> SimTimeModel.main_loop (sm_params t) fuel n s = Hang) by (intros fuel; now apply G).
    intros fuel. induction fuel as [|fuel IH]; intros n s F E; [reflexivity|]. cbn [SimTimeModel.main_loop]. rewrite F.
    rewrite IH; [reflexivity| |].
    + unfold SimTimeModel.update_time. repeat match goal with |- context [SimTimeModel.interval_test ?a ?b ?c ?d] => destruct (SimTimeModel.interval_test a b c d) end.
      cbn [SimTimeModel.finish]. cbn [SimTimeModel.gtb SimTimeModel.real_arith SimTimeModel.add SimTimeModel.elapsed]. rewrite T2, T3, E. destruct (Rgt_dec (0 + 0) 1); [lra|reflexivity].
    + unfold SimTimeModel.update_time. repeat match goal with |- context [SimTimeModel.interval_test ?a ?b ?c ?d] => destruct (SimTimeModel.interval_test a b c d) end.
      cbn [SimTimeModel.elapsed SimTimeModel.real_arith SimTimeModel.add]. rewrite T3, E. lra.
Qed.
Print Assumptions C153_accepted_simulation_ends_refuted.
Theorem C153_positive_integration_step_refuted : exists t, init_simulation_time (fun _ => Some 5) (only_periods "attitude_integral_step_s") = Ok t /\ sm_attitude_rk t = 0.
Proof.
  destruct (C153_accepted (fun _ => Some 5) (only_periods "attitude_integral_step_s") (JulianModel.mkStamp 2020 1 2 3 4 5)) as [A _].
  - split; [cbn; lra|]. cbn. rewrite Rabs_right; lra.
  - reflexivity.
  - destruct A as (t & T & _ & _ & _ & _ & _ & _ & _ & _ & T9 & _); [cbn; repeat split; lra|]. exists t. split; [exact T|]. exact T9.
Qed.
Print Assumptions C153_positive_integration_step_refuted.

(** * The hypotheses can be met *)
Definition ex_full : ini :=
  mkIni (fun sec key => if str_eqb key (lit "calculation") then (if str_eqb sec (lit "ATMOSPHERE") then lit "DISABLE" else lit "ENABLE")
           else if str_eqb key (lit "center_object") then lit "EARTH" else if str_eqb key (lit "selected_body_name(0)") then lit "EARTH"
           else if str_eqb key (lit "selected_body_name(1)") then lit "SUN" else if str_eqb key (lit "selected_body_name(2)") then lit "MOON"
           else if str_eqb key (lit "rotation_mode(0)") then lit "FULL" else if str_eqb key (lit "third_shadow_source_name(0)") then lit "MOON"
           else if str_eqb key (lit "third_body_name(0)") then lit "SUN" else lit "2020/01/02 03:04:05")
        (fun _ _ => 1) (fun _ key => if str_eqb key (lit "number_of_selected_body") then 3%Z else if str_eqb key (lit "degree") then 0%Z else 1%Z) (fun _ _ => false).
(** C150: three bodies, the Earth with the full rotation model, the Moon idle for want of a known word *)
Example C150_meets : exists g, init_celestial ex_naif (fun _ => (1, 1, 1)) (fun _ => 0) ex_full = Ok (g, EarthFull, moon_mode_of (rotation_word ex_full 2)) /\ body_ids g = [399; 10; 301]%Z.
Proof. eexists. split; reflexivity. Qed.
(** C151: an environment with the Earth and the Moon as shadow sources and without air *)
Example C151_meets : exists g c, init_celestial ex_naif (fun _ => (1, 1, 1)) (fun _ => 0) ex_full = Ok (g, EarthFull, moon_mode_of (rotation_word ex_full 2)) /\
  init_env ex_naif g ex_full = Ok c /\ sources c = ["EARTH"; "MOON"]%string /\ field_on c = true /\ air_on c = false /\ flag ex_full "MAGNETIC_FIELD_ENVIRONMENT" /\ ~ flag ex_full "ATMOSPHERE".
Proof. do 2 eexists. split; [reflexivity|]. split; [reflexivity|]. split; [reflexivity|]. split; [reflexivity|]. split; [reflexivity|]. split; [left; reflexivity|]. intros [H|H]; discriminate H. Qed.
(** C152: seven disturbances around the Earth *)
Example C152_meets : init_third_body ex_full ex_full = Ok ["SUN"%string] /\ flag ex_full "THIRD_BODY_GRAVITY" /\
  exists l, init_disturbances 1 1 1 (fun _ => None) (fun _ => None) (fun _ _ (_ : nat) x => x) (fun _ _ => true) (mkCelestial [] [] [] [] "EARTH") ex_full ex_full = Ok l /\ l <> [].
Proof. split; [reflexivity|]. split; [left; reflexivity|]. eexists. split; [reflexivity|discriminate]. Qed.
(** C153: one second for everything *)
Example C153_meets : exists t, init_simulation_time (fun _ => Some 5) ex_full = Ok t /\ 0 < rd_double ex_full (lit "TIME") (lit "simulation_step_s").
Proof.
  destruct (C153_accepted (fun _ => Some 5) ex_full (JulianModel.mkStamp 2020 1 2 3 4 5)) as [A _].
  - split; [cbn; lra|]. cbn. rewrite Rabs_right; lra.
  - reflexivity.
  - destruct A as (t & T & _); [cbn; repeat split; lra|]. exists t. split; [exact T|cbn; lra].
Qed.
