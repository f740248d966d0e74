(** C132, C133: the initial orbit and attitude, from the settings file. *)
From Coq Require Import Reals Lra Lia String List Bool Arith ZArith.
From Verif Require Import Base RBase VecModel VecProofs LuModel LuSpec LuProps QuatModel QuatSpec QuatProofs OdeModel OrbitModel OrbitSpec OrbitProofs KeplerProofs OeProofs
  HillProofs PropagateProofs OrbitProps AttitudeModel AttitudeSpec AttitudeProofs AttitudeProps PointingProofs PointingProps StartModel StartSpec.
From Verif Require RkModel.
Import ListNotations.
Open Scope R_scope.

Ltac word w := match goal with |- context [String.eqb w ?k] => let E := fresh "E" in destruct (String.eqb_spec w k) as [E|E] end.
Ltac wordin w H := match type of H with context [String.eqb w ?k] => let E := fresh "E" in destruct (String.eqb_spec w k) as [E|E] end.

(** ** C132 *)
(** the kind of the orbit is the one named; with any other word it is RK4 *)
Theorem C132_kind : forall fuel c step t mu sec rel o en, init_orbit fuel c step t mu sec rel = Ok (o, en) ->
  en = s_enable c sec "calculation" /\
  let w := s_string c sec "propagate_mode" in
  (In w orbit_words -> kind_word o = w) /\ (~ In w orbit_words -> kind_word o = "RK4"%string).
Proof.
  intros fuel c step t mu sec rel o en H. unfold init_orbit in H. cbv zeta in *. set (w := s_string c sec "propagate_mode") in *.
  assert (RK : forall X, bind (initialize_pos_vel fuel c t mu "ORBIT") (fun rv => let (r, v) := rv in Ok (ORk4 (rk4_new mu step r v 0))) = Ok X -> kind_word X = "RK4"%string).
  { intros X HX. destruct (initialize_pos_vel fuel c t mu "ORBIT") as [(r & v)| | |]; cbn [bind] in HX; try discriminate. injection HX as <-. reflexivity. }
  match type of H with bind ?m _ = _ => destruct m as [o1| | |] eqn:EM end; cbn [bind] in H; try discriminate. injection H as <- <-. split; [reflexivity|].
  assert (K : (In w orbit_words -> kind_word o1 = w) /\ (~ In w orbit_words -> kind_word o1 = "RK4"%string)); [|exact K].
  wordin w EM; [rewrite E; split; [intros _; now apply RK|intros _; now apply RK]|].
  wordin w EM; [injection EM as <-; rewrite E0; split; [reflexivity|intro X; elim X; cbn; tauto]|].
  wordin w EM. { destruct (reference_state rel _) as [(rr & rv)| | |]; cbn [bind] in EM; try discriminate. injection EM as <-. rewrite E1; split; [reflexivity|intro X; elim X; cbn; tauto]. }
  wordin w EM. { destruct (match set_orbit_initialize_mode _ with IPosVel => _ | _ => _ end) as [oe| | |]; cbn [bind] in EM; try discriminate. destruct (calc_orbit fuel mu oe t) as [(r & v)| | |]; cbn [bind] in EM; try discriminate.
    injection EM as <-. rewrite E2; split; [reflexivity|intro X; elim X; cbn; tauto]. }
  wordin w EM. { destruct (initialize_pos_vel fuel c t mu "ORBIT") as [(r & v)| | |]; cbn [bind] in EM; try discriminate. destruct (encke_new _ _ _ _ _ _ _) as [e| | |]; cbn [bind] in EM; try discriminate.
    injection EM as <-. rewrite E3; split; [reflexivity|intro X; elim X; cbn; tauto]. }
  wordin w EM; [injection EM as <-; rewrite E4; split; [reflexivity|intro X; elim X; cbn; tauto]|].
  split; [|intros _; now apply RK]. intro I. exfalso. unfold orbit_words in I. cbn [In] in I. intuition congruence.
Qed.
Print Assumptions C132_kind.

Lemma posvel_given fuel c t mu sec : s_string c sec "initialize_mode" <> "ORBITAL_ELEMENTS"%string ->
  initialize_pos_vel fuel c t mu sec = Ok (s_vector c sec "initial_position_i_m", s_vector c sec "initial_velocity_i_m_s").
Proof.
  intro N. unfold initialize_pos_vel, set_orbit_initialize_mode. word (s_string c sec "initialize_mode"); [reflexivity|].
  word (s_string c sec "initialize_mode"); [reflexivity|]. word (s_string c sec "initialize_mode"); [contradiction|reflexivity].
Qed.
Lemma posvel_elements fuel c t mu sec : s_string c sec "initialize_mode" = "ORBITAL_ELEMENTS"%string ->
  initialize_pos_vel fuel c t mu sec = calc_orbit fuel mu (read_elements c sec) t.
Proof. intro N. unfold initialize_pos_vel. rewrite N. reflexivity. Qed.
(** the integrating propagators start where InitializePosVel says *)
Lemma integrated_start fuel c step t mu rel o en sec : init_orbit fuel c step t mu sec rel = Ok (o, en) ->
  s_string c sec "propagate_mode" = "ENCKE"%string \/ kind_word o = "RK4"%string ->
  exists r v, initialize_pos_vel fuel c t mu "ORBIT" = Ok (r, v) /\ starts_at o r v.
Proof.
  intros H K. unfold init_orbit in H. cbv zeta in *. set (w := s_string c sec "propagate_mode") in *.
  assert (RK : forall X, bind (initialize_pos_vel fuel c t mu "ORBIT") (fun rv => let (r, v) := rv in Ok (ORk4 (rk4_new mu step r v 0))) = Ok X ->
    exists r v, initialize_pos_vel fuel c t mu "ORBIT" = Ok (r, v) /\ starts_at X r v).
  { intros X HX. destruct (initialize_pos_vel fuel c t mu "ORBIT") as [(r & v)| | |]; cbn [bind] in HX; try discriminate. injection HX as <-. exists r, v. split; [reflexivity|].
    exists r, v. repeat split. }
  match type of H with bind ?m _ = _ => destruct m as [o1| | |] eqn:EM end; cbn [bind] in H; try discriminate. injection H as <- <-.
  wordin w EM; [now apply RK|].
  wordin w EM; [injection EM as <-; destruct K as [K|K]; [congruence|discriminate]|].
  wordin w EM. { destruct (reference_state rel _) as [(rr & rv)| | |]; cbn [bind] in EM; try discriminate. injection EM as <-. destruct K as [K|K]; [congruence|discriminate]. }
  wordin w EM. { destruct (match set_orbit_initialize_mode _ with IPosVel => _ | _ => _ end) as [oe| | |]; cbn [bind] in EM; try discriminate. destruct (calc_orbit fuel mu oe t) as [(r & v)| | |]; cbn [bind] in EM; try discriminate.
    injection EM as <-. destruct K as [K|K]; [congruence|discriminate]. }
  wordin w EM. { destruct (initialize_pos_vel fuel c t mu "ORBIT") as [(r & v)| | |]; cbn [bind] in EM; try discriminate. exists r, v. split; [reflexivity|].
    unfold encke_new, encke_initialize in EM. cbn [en_mu] in EM. destruct (calc_oe fuel mu t r v) as [oe| | |]; cbn [bind] in EM; try discriminate. injection EM as <-.
    exists (vadd r (vconst 0)), (vadd v (vconst 0)). split; [reflexivity|]. split; intros i _; unfold vadd, vconst; ring. }
  wordin w EM; [injection EM as <-; destruct K as [K|K]; [congruence|discriminate]|]. now apply RK.
Qed.

(** without orbital elements the orbits that are integrated (RK4, ENCKE, an unknown word) start exactly at the position and velocity of the file *)
Theorem C132_given_state : forall fuel c step t mu rel o en, init_orbit fuel c step t mu "ORBIT" rel = Ok (o, en) ->
  s_string c "ORBIT" "initialize_mode" <> "ORBITAL_ELEMENTS"%string -> kind_word o = "RK4"%string \/ kind_word o = "ENCKE"%string ->
  starts_at o (s_vector c "ORBIT" "initial_position_i_m") (s_vector c "ORBIT" "initial_velocity_i_m_s").
Proof.
  intros fuel c step t mu rel o en H N K.
  assert (K' : s_string c "ORBIT" "propagate_mode" = "ENCKE"%string \/ kind_word o = "RK4"%string).
  { destruct K as [K|K]; [now right|left]. destruct (C132_kind _ _ _ _ _ _ _ _ _ H) as (_ & A & B). cbv zeta in A, B.
    destruct (in_dec string_dec (s_string c "ORBIT" "propagate_mode") orbit_words) as [I|I]; [rewrite <- (A I); exact K|rewrite (B I) in K; discriminate]. }
  destruct (integrated_start _ _ _ _ _ _ _ _ _ H K') as (r & v & E & ST). rewrite posvel_given in E by exact N. injection E as <- <-. exact ST.
Qed.
Print Assumptions C132_given_state.

(** with orbital elements, RK4, ENCKE and KEPLER start at the same state: that of the Kepler orbit with these elements at the current date;
    for eccentricities up to 0.2 the position is within 25e-6 semi-major axes of the exact one *)
Theorem C132_elements_state : forall fuel c step t mu rel o en, init_orbit fuel c step t mu "ORBIT" rel = Ok (o, en) ->
  s_string c "ORBIT" "initialize_mode" = "ORBITAL_ELEMENTS"%string ->
  kind_word o = "RK4"%string \/ kind_word o = "ENCKE"%string \/ kind_word o = "KEPLER"%string ->
  let oe := mkOe (s_double c "ORBIT" "semi_major_axis_m") (s_double c "ORBIT" "eccentricity") (s_double c "ORBIT" "inclination_rad")
              (s_double c "ORBIT" "raan_rad") (s_double c "ORBIT" "argument_of_perigee_rad") (s_double c "ORBIT" "epoch_jday") in
  exists r v, calc_orbit fuel mu oe t = Ok (r, v) /\ starts_at o r v /\
    (0 < sma oe -> 0 <= ecc oe <= 1 / 5 -> exists w, residual (ecc oe) (mean_motion mu (sma oe) * ((t - epoch oe) * 86400)) w = 0 /\
       norm 3 (vsub r (fst (state_at mu oe w))) <= 25 / 10 ^ 6 * sma oe).
Proof.
  intros fuel c step t mu rel o en H N K oe.
  assert (ST : exists r v, calc_orbit fuel mu oe t = Ok (r, v) /\ starts_at o r v).
  { destruct (C132_kind _ _ _ _ _ _ _ _ _ H) as (_ & A & B). cbv zeta in A, B.
    destruct (string_dec (kind_word o) "KEPLER") as [Q|Q].
    - assert (W : s_string c "ORBIT" "propagate_mode" = "KEPLER"%string) by (destruct (in_dec string_dec (s_string c "ORBIT" "propagate_mode") orbit_words) as [I|I]; [rewrite <- (A I); exact Q|rewrite (B I) in Q; discriminate]).
      unfold init_orbit in H. cbv zeta in H. rewrite W in H. cbn in H. rewrite N in H. cbn in H. change (read_elements c "ORBIT") with oe in H.
      destruct (calc_orbit fuel mu oe t) as [(r & v)| | |]; cbn [bind] in H; try discriminate. injection H as <- <-. exists r, v. split; [reflexivity|]. exists r, v. repeat split.
    - assert (K' : s_string c "ORBIT" "propagate_mode" = "ENCKE"%string \/ kind_word o = "RK4"%string).
      { destruct K as [K|[K|K]]; [now right|left|contradiction]. destruct (in_dec string_dec (s_string c "ORBIT" "propagate_mode") orbit_words) as [I|I]; [rewrite <- (A I); exact K|rewrite (B I) in K; discriminate]. }
      destruct (integrated_start _ _ _ _ _ _ _ _ _ H K') as (r & v & E & ST). rewrite posvel_elements in E by exact N. exists r, v. split; [exact E|exact ST]. }
  destruct ST as (r & v & E & ST). exists r, v. split; [exact E|]. split; [exact ST|]. intros HA HE.
  destruct (C63_position_accuracy fuel mu oe t r v HA HE E) as (u & w & _ & Z & _ & D). exists w. split; [|exact D].
  unfold mean_anomaly, day in Z. replace (24 * 60 * 60) with 86400 in Z by ring. exact Z.
Qed.
Print Assumptions C132_elements_state.

(** KEPLER from a given position and velocity (an ellipse whose ascending node is not on the wrong side, C64): the orbit object starts within 25e-6
    semi-major axes of that position, and never moves when the calculation is switched off *)
Theorem C132_kepler_from_state : forall fuel c step t mu rel o en, (1 <= fuel)%nat -> init_orbit fuel c step t mu "ORBIT" rel = Ok (o, en) ->
  s_string c "ORBIT" "initialize_mode" = "POSITION_VELOCITY_I"%string -> s_string c "ORBIT" "propagate_mode" = "KEPLER"%string ->
  let r := s_vector c "ORBIT" "initial_position_i_m" in let v := s_vector c "ORBIT" "initial_velocity_i_m_s" in
  elliptic mu r v -> node_ok (cross r v) ->
  exists oe p w, o = OKepler mu oe p w /\ calc_oe fuel mu t r v = Ok oe /\ (ecc oe <= 1 / 5 -> norm 3 (vsub p r) <= 25 / 10 ^ 6 * sma oe) /\
    forall t', kepler_propagate fuel false mu oe (p, w) t' = Ok (p, w).
Proof.
  intros fuel c step t mu rel o en F H N W r v EL NO. unfold init_orbit in H. cbv zeta in H. rewrite W in H. cbn in H. rewrite N in H. cbn in H.
  destruct (C64_round_trip fuel mu t r v F EL NO) as (oe & u & E & SA & EC & _ & RES & PP & _). fold r v in H. rewrite E in H. cbn [bind] in H.
  destruct (calc_orbit fuel mu oe t) as [(p & w)| | |] eqn:EO; cbn [bind] in H; try discriminate. injection H as <- <-. exists oe, p, w. split; [reflexivity|]. split; [exact E|]. split; [|reflexivity].
  intro E5. destruct (C63_position_accuracy fuel mu oe t p w SA ltac:(lra) EO) as (u' & w' & _ & Z & _ & D).
  destruct (C62_kepler_equation_solvable (ecc oe) (mean_anomaly mu oe t) EC) as (x & _ & _ & UNI). rewrite (UNI w' Z), <- (UNI u RES) in D.
  eapply Rle_trans; [|exact D]. right. apply norm_ext. intros i Hi. unfold vsub. now rewrite PP.
Qed.
Print Assumptions C132_kepler_from_state.

(** RELATIVE: the reference spacecraft has to be registered before (else the program ends with an exception); the orbit starts at the given place in its LVLH frame *)
Theorem C132_relative : forall fuel c step t mu sec db, s_string c sec "propagate_mode" = "RELATIVE"%string ->
  let id := s_int c sec "reference_satellite_id" in
  (db id = None -> init_orbit fuel c step t mu sec (Some db) = Throw) /\
  (forall rr rv, db id = Some (rr, rv) -> 0 < norm 3 rr -> 0 < norm 3 (cross rr rv) ->
     exists o, init_orbit fuel c step t mu sec (Some db) = Ok (ORelative id o, s_enable c sec "calculation") /\
       veq 3 (mvec 3 (lvlh_dcm rr rv) (vsub (ro_pos o) rr)) (s_vector c sec "initial_relative_position_lvlh_m") /\
       veq 3 (mvec 3 (lvlh_dcm rr rv) (vsub (ro_vel o) rv)) (s_vector c sec "initial_relative_velocity_lvlh_m_s") /\
       (ro_method o = URk4 <-> s_int c sec "relative_orbit_update_method" = 0%Z)).
Proof.
  intros fuel c step t mu sec db W id. unfold init_orbit. cbv zeta. rewrite W. cbn. fold id. unfold reference_state. split; [now intros ->|].
  intros rr rv -> P Q. cbn [bind]. eexists. split; [reflexivity|]. cbn [rel_new ro_pos ro_vel ro_method].
  assert (G : forall p q i, (i < 3)%nat -> mvec 3 (lvlh_dcm rr rv) (vsub (vadd (lvlh_to_i rr rv p) q) q) i = p i).
  { intros p q i Hi. rewrite (mvec_ext3 _ (lvlh_dcm rr rv) _ (lvlh_to_i rr rv p) (meq3_refl _)) by (exact Hi || (intros j Hj; unfold vsub, vadd; ring)). now apply lvlh_there_and_back. }
  split; [intros i Hi; now apply G|]. split; [intros i Hi; now apply G|]. destruct (Z.eqb_spec (s_int c sec "relative_orbit_update_method") 0) as [E|E]; split; intro X; try reflexivity; try discriminate; congruence.
Qed.
Print Assumptions C132_relative.

(** a settings file for the refutations: position (7e6, 0, 0) m and velocity (0, 7500, 0) m/s in section ORBIT, elements with a semi-major axis of 8e6 m *)
Definition demo (mode prop : string) : settings :=
  mkSettings (fun _ k => if String.eqb k "initialize_mode" then mode else if String.eqb k "propagate_mode" then prop else ""%string)
    (fun _ k => if String.eqb k "semi_major_axis_m" then 8000000 else 0) (fun _ _ => 0%Z) (fun _ _ => true)
    (fun s k => if String.eqb s "ORBIT" then (if String.eqb k "initial_position_i_m" then v3 7000000 0 0 else v3 0 7500 0) else v3 9000000 0 0)
    (fun _ _ => q4 0 0 0 1).
(** the initial state is not independent of the propagation method: with the initialisation mode DEFAULT (or any unknown word), RK4 starts from the position and KEPLER from the elements *)
Theorem C132_same_start_refuted : exists c c' fuel step t mu o o' r v r' v',
  (forall s k, k <> "propagate_mode"%string -> s_string c s k = s_string c' s k) /\ s_double c = s_double c' /\ s_int c = s_int c' /\ s_enable c = s_enable c' /\ s_vector c = s_vector c' /\
  s_string c "ORBIT" "initialize_mode" = "DEFAULT"%string /\
  init_orbit fuel c step t mu "ORBIT" None = Ok (o, true) /\ init_orbit fuel c' step t mu "ORBIT" None = Ok (o', true) /\
  orbit_state o = Some (r, v) /\ orbit_state o' = Some (r', v') /\ norm 3 r = 7000000 /\ norm 3 r' = 8000000.
Proof.
  set (oe := read_elements (demo "DEFAULT" "KEPLER") "ORBIT"). destruct (C63_calc_orbit_terminates 1 oe 0) as (f0 & (p & w) & T). specialize (T f0 (le_n _)).
  exists (demo "DEFAULT" "RK4"), (demo "DEFAULT" "KEPLER"), f0, 1, 0, 1, (ORk4 (rk4_new 1 1 (v3 7000000 0 0) (v3 0 7500 0) 0)), (OKepler 1 oe p w), (v3 7000000 0 0), (v3 0 7500 0), p, w.
  split. { intros s k N. unfold demo. cbn [s_string]. destruct (String.eqb k "initialize_mode"); [reflexivity|]. destruct (String.eqb_spec k "propagate_mode"); [contradiction|reflexivity]. }
  do 5 (split; [reflexivity|]). split; [reflexivity|]. split. { unfold init_orbit. cbv zeta. cbn -[read_elements calc_orbit]. fold oe. rewrite T. reflexivity. }
  split; [reflexivity|]. split; [reflexivity|]. split.
  - unfold norm. rewrite sumn3. cbn [v3]. replace (7000000 * 7000000 + 0 * 0 + 0 * 0) with (7000000 * 7000000) by ring. apply sqrt_square. lra.
  - unfold calc_orbit in T. destruct (wrap f0 (mean_anomaly 1 oe 0)) as [l| | |]; cbn [bind] in T; try discriminate. destruct (wrap f0 _) as [u| | |]; cbn [bind] in T; try discriminate. injection T as <- <-.
    destruct (C63_invariants 1 oe u) as (NR & _); [lra|cbn; lra|cbn; lra|]. cbv zeta in NR. refine (eq_trans NR _). cbn. ring.
Qed.
Print Assumptions C132_same_start_refuted.
(** the section argument is ignored for position and velocity *)
Theorem C132_section_refuted : exists c fuel step t mu sec o, init_orbit fuel c step t mu sec None = Ok (o, true) /\
  s_string c sec "initialize_mode" = "POSITION_VELOCITY_I"%string /\ ~ starts_at o (s_vector c sec "initial_position_i_m") (s_vector c sec "initial_velocity_i_m_s").
Proof.
  exists (demo "POSITION_VELOCITY_I" "RK4"), 1%nat, 1, 0, 1, "TARGET_ORBIT"%string. eexists. split; [reflexivity|]. split; [reflexivity|].
  intros (p & w & E & PP & _). cbn in E. injection E as <- <-. specialize (PP 0%nat ltac:(lia)). cbn in PP. lra.
Qed.
Print Assumptions C132_section_refuted.

(** ** C133 *)
(** the words of the control modes *)
Theorem C133_control_words : forall w m, In (w, m) control_words -> convert_ctrl_mode w = m.
Proof. intros w m I. unfold control_words in I. cbn [In] in I. repeat (destruct I as [I|I]; [injection I as <- <-; reflexivity|]). contradiction. Qed.
Theorem C133_other_words : forall w, ~ In w (map fst control_words) -> convert_ctrl_mode w = MNone.
Proof.
  intros w N. unfold control_words in N. cbn [map fst In] in N. unfold convert_ctrl_mode. do 7 (word w; [exfalso; apply N; clear N; subst w; tauto|]). reflexivity.
Qed.
Print Assumptions C133_control_words.
Print Assumptions C133_other_words.

Section att.
Context (coef0 : vec) (index0 : nat -> nat) (inverse0 : mat) (e0 : R) (q0 : quat) (w0 : vec).
Notation init := (init_attitude coef0 index0 inverse0 e0 q0 w0).
Notation ctl_step := (ctl_propagate coef0 index0 inverse0).

(** the state all objects but CONTROLLED start from *)
Lemma init_cases c c2 sur step inertia a : init c c2 sur step inertia = Ok a ->
  exists w q torque,
    (if String.eqb (s_string c "ATTITUDE" "initialize_mode") "CONTROLLED"
     then exists b, ctl_step inertia sur (controlled_of q0 w0 c) step = Ok b /\ w = vconst 0 /\ q = cm_q b /\ torque = vconst 0
     else w = s_vector c "ATTITUDE" "initial_angular_velocity_b_rad_s" /\ q = s_quaternion c "ATTITUDE" "initial_quaternion_i2b" /\ torque = s_vector c "ATTITUDE" "initial_torque_b_Nm") /\
    (if String.eqb (s_string c "ATTITUDE" "propagate_mode") "CONTROLLED" then a = AControlled (controlled_of q0 w0 c)
     else attitude_state a = (q, w, torque) /\ attitude_word a = (if String.eqb (s_string c "ATTITUDE" "propagate_mode") "CANTILEVER_VIBRATION" then "CANTILEVER_VIBRATION" else "RK4")%string).
Proof.
  unfold init_attitude. cbv zeta. intro H.
  assert (G : forall w q torque, (let rk4 := bind (att_new coef0 index0 inverse0 w q inertia torque step) (fun a => Ok (ARk4 a)) in
    if String.eqb (s_string c "ATTITUDE" "propagate_mode") "RK4" then rk4
    else if String.eqb (s_string c "ATTITUDE" "propagate_mode") "CANTILEVER_VIBRATION" then
      bind (cant_new coef0 index0 inverse0 e0 w q inertia (fun i j => s_vector c2 "CANTILEVER_PARAMETERS" "inertia_tensor_cantilever_kgm2" (i * 3 + j)%nat)
             (s_double c2 "CANTILEVER_PARAMETERS" "damping_ratio_cantilever") (s_double c2 "CANTILEVER_PARAMETERS" "intrinsic_angular_velocity_cantilever_rad_s") torque step) (fun a => Ok (ACantilever a))
    else if String.eqb (s_string c "ATTITUDE" "propagate_mode") "CONTROLLED" then Ok (AControlled (controlled_of q0 w0 c)) else rk4) = Ok a ->
    (if String.eqb (s_string c "ATTITUDE" "propagate_mode") "CONTROLLED" then a = AControlled (controlled_of q0 w0 c)
     else attitude_state a = (q, w, torque) /\ attitude_word a = (if String.eqb (s_string c "ATTITUDE" "propagate_mode") "CANTILEVER_VIBRATION" then "CANTILEVER_VIBRATION" else "RK4")%string)).
  { intros w q torque. cbv zeta. set (pm := s_string c "ATTITUDE" "propagate_mode").
    assert (RK : bind (att_new coef0 index0 inverse0 w q inertia torque step) (fun a => Ok (ARk4 a)) = Ok a -> attitude_state a = (q, w, torque) /\ attitude_word a = "RK4"%string).
    { unfold att_new. destruct (inverse3 coef0 index0 inverse0 inertia); cbn [bind]; intro X; try discriminate. injection X as <-. split; reflexivity. }
    destruct (String.eqb_spec pm "RK4") as [E1|E1]; [rewrite E1; exact RK|].
    destruct (String.eqb_spec pm "CANTILEVER_VIBRATION") as [E2|E2].
    - rewrite E2. cbn [String.eqb Ascii.eqb Bool.eqb]. unfold cant_new. destruct (inverse3 coef0 index0 inverse0 inertia); cbn [bind]; intro X; try discriminate.
      destruct (inverse3 coef0 index0 inverse0 (madd inertia _)); cbn [bind] in X; try discriminate. injection X as <-. split; reflexivity.
    - destruct (String.eqb_spec pm "CONTROLLED") as [E3|E3]; [intro X; injection X as <-; reflexivity|exact RK]. }
  destruct (String.eqb (s_string c "ATTITUDE" "initialize_mode") "CONTROLLED").
  - destruct (ctl_step inertia sur (controlled_of q0 w0 c) step) as [b| | |] eqn:EB; cbn [bind] in H; try discriminate.
    exists (vconst 0), (cm_q b), (vconst 0). split; [exists b; auto|]. now apply G.
  - cbn [bind] in H. eexists _, _, _. split; [repeat split; reflexivity|]. now apply G.
Qed.

(** the kind of the attitude is the one named; with any other word it is RK4 *)
Theorem C133_kind : forall c c2 sur step inertia a, init c c2 sur step inertia = Ok a ->
  let w := s_string c "ATTITUDE" "propagate_mode" in
  (In w attitude_words -> attitude_word a = w) /\ (~ In w attitude_words -> attitude_word a = "RK4"%string).
Proof.
  intros c c2 sur step inertia a H w. destruct (init_cases _ _ _ _ _ _ H) as (? & ? & ? & _ & K). fold w in K. unfold attitude_words. cbn [In].
  destruct (String.eqb_spec w "CONTROLLED") as [E|E]; [rewrite K, E; split; [reflexivity|intro N; elim N; tauto]|]. destruct K as (_ & ->).
  destruct (String.eqb_spec w "CANTILEVER_VIBRATION") as [E2|E2]; [rewrite E2; split; [reflexivity|intro N; elim N; tauto]|]. split; [|reflexivity]. intuition congruence.
Qed.

(** not initialised by control: the quaternion, angular velocity and torque of the file *)
Theorem C133_manual : forall c c2 sur step inertia a, init c c2 sur step inertia = Ok a ->
  s_string c "ATTITUDE" "initialize_mode" <> "CONTROLLED"%string -> attitude_word a <> "CONTROLLED"%string ->
  attitude_state a = (s_quaternion c "ATTITUDE" "initial_quaternion_i2b", s_vector c "ATTITUDE" "initial_angular_velocity_b_rad_s", s_vector c "ATTITUDE" "initial_torque_b_Nm").
Proof.
  intros c c2 sur step inertia a H N K. destruct (init_cases _ _ _ _ _ _ H) as (w & q & torque & I & P).
  destruct (String.eqb_spec (s_string c "ATTITUDE" "initialize_mode") "CONTROLLED"); [contradiction|]. destruct I as (-> & -> & ->).
  destruct (String.eqb (s_string c "ATTITUDE" "propagate_mode") "CONTROLLED"); [rewrite P in K; now elim K|exact (proj1 P)].
Qed.

(** initialised by control: at rest, and pointing as asked, with the directions seen at this moment (all celestial bodies still at
    zero in the local information, so that the inertial positions count) *)
Theorem C133_controlled_start : forall c c2 sur step inertia a dm ds, init c c2 sur step inertia = Ok a ->
  s_string c "ATTITUDE" "initialize_mode" = "CONTROLLED"%string -> attitude_word a <> "CONTROLLED"%string ->
  let main := convert_ctrl_mode (s_string c "CONTROLLED_ATTITUDE" "main_mode") in let sub := convert_ctrl_mode (s_string c "CONTROLLED_ATTITUDE" "sub_mode") in
  let mb := s_vector c "CONTROLLED_ATTITUDE" "main_pointing_direction_b" in let sb := s_vector c "CONTROLLED_ATTITUDE" "sub_pointing_direction_b" in
  main <> MNone -> sub <> MNone -> main <> MInertial -> main <> sub -> 0 < norm 3 mb -> 0 < norm 3 sb ->
  Rabs (dot 3 (normalize 3 mb) (normalize 3 sb)) <= cos (PI / 6) ->
  asked_direction sur main dm -> asked_direction sur sub ds -> 0 < norm 3 dm -> 0 < norm 3 ds -> not_parallel dm ds ->
  exists q, attitude_state a = (q, vconst 0, vconst 0) /\ unit 4 q /\ veq 3 (seen_from_body q (along dm)) (along mb) /\
    forall rot, rotation rot -> veq 3 (mvec 3 rot (along dm)) (along mb) -> dot 3 (mvec 3 rot (along ds)) (along sb) <= dot 3 (seen_from_body q (along ds)) (along sb).
Proof.
  intros c c2 sur step inertia a dm ds H N K main sub mb sb N1 N2 N3 N4 PM PS ANG AM AS P1 P2 NP. destruct (init_cases _ _ _ _ _ _ H) as (w & q & torque & I & P).
  rewrite N in I. rewrite String.eqb_refl in I. destruct I as (b & EB & -> & -> & ->).
  destruct (String.eqb (s_string c "ATTITUDE" "propagate_mode") "CONTROLLED"); [rewrite P in K; now elim K|]. destruct P as (P & _). exists (cm_q b). split; [exact P|].
  assert (EN : cm_enabled (ctl_new main sub (s_quaternion c "ATTITUDE" "initial_quaternion_i2b") mb sb q0 w0) = true) by (apply C74_accepted; auto).
  exact (C74_pointing coef0 index0 inverse0 main sub _ mb sb q0 w0 [] _ inertia sur step b dm ds EN N3 PM PS eq_refl EB AM AS P1 P2 NP).
Qed.
(** a configuration that the controlled attitude does not accept, or inertial stabilisation: the quaternion of the file *)
Theorem C133_controlled_start_idle : forall c c2 sur step inertia a, init c c2 sur step inertia = Ok a ->
  s_string c "ATTITUDE" "initialize_mode" = "CONTROLLED"%string ->
  cm_enabled (controlled_of q0 w0 c) = false \/ convert_ctrl_mode (s_string c "CONTROLLED_ATTITUDE" "main_mode") = MInertial ->
  fst (fst (attitude_state a)) = s_quaternion c "ATTITUDE" "initial_quaternion_i2b" /\ (forall i, snd (fst (attitude_state a)) i = 0).
Proof.
  intros c c2 sur step inertia a H N D. destruct (init_cases _ _ _ _ _ _ H) as (w & q & torque & I & P). rewrite N, String.eqb_refl in I. destruct I as (b & EB & -> & -> & ->).
  assert (NEW := C74_new (convert_ctrl_mode (s_string c "CONTROLLED_ATTITUDE" "main_mode")) (convert_ctrl_mode (s_string c "CONTROLLED_ATTITUDE" "sub_mode")) (s_quaternion c "ATTITUDE" "initial_quaternion_i2b")
    (s_vector c "CONTROLLED_ATTITUDE" "main_pointing_direction_b") (s_vector c "CONTROLLED_ATTITUDE" "sub_pointing_direction_b") q0 w0).
  cbv zeta in NEW. fold (controlled_of q0 w0 c) in NEW. destruct NEW as (M & _ & Q & Z).
  rewrite C74_idle in EB by (destruct D as [D|D]; [now left|right; congruence]). injection EB as <-.
  destruct (String.eqb (s_string c "ATTITUDE" "propagate_mode") "CONTROLLED").
  - subst a. cbn [attitude_state fst snd]. split; [exact Q|]. intro i. apply Z.
  - destruct P as (-> & _). cbn [fst snd]. split; [exact Q|reflexivity].
Qed.

(** propagated by control: the initialisation mode has no effect, the attitude at the beginning is the file's quaternion without rotation *)
Theorem C133_controlled_propagation : forall c c2 sur step inertia a, init c c2 sur step inertia = Ok a ->
  s_string c "ATTITUDE" "propagate_mode" = "CONTROLLED"%string ->
  fst (fst (attitude_state a)) = s_quaternion c "ATTITUDE" "initial_quaternion_i2b" /\ (forall i, snd (fst (attitude_state a)) i = 0 /\ snd (attitude_state a) i = 0).
Proof.
  intros c c2 sur step inertia a H N. destruct (init_cases _ _ _ _ _ _ H) as (w & q & torque & _ & P). rewrite N, String.eqb_refl in P. subst a. cbn [attitude_state fst snd].
  assert (NEW := C74_new (convert_ctrl_mode (s_string c "CONTROLLED_ATTITUDE" "main_mode")) (convert_ctrl_mode (s_string c "CONTROLLED_ATTITUDE" "sub_mode")) (s_quaternion c "ATTITUDE" "initial_quaternion_i2b")
    (s_vector c "CONTROLLED_ATTITUDE" "main_pointing_direction_b") (s_vector c "CONTROLLED_ATTITUDE" "sub_pointing_direction_b") q0 w0).
  cbv zeta in NEW. fold (controlled_of q0 w0 c) in NEW. destruct NEW as (_ & _ & Q & Z). split; [exact Q|exact Z].
Qed.

(** with an invertible inertia tensor a manually initialised RK4 attitude always comes into being *)
Theorem C133_manual_total : forall c c2 sur step inertia, s_string c "ATTITUDE" "initialize_mode" <> "CONTROLLED"%string -> ~ In (s_string c "ATTITUDE" "propagate_mode") ["CANTILEVER_VIBRATION"; "CONTROLLED"]%string ->
  ((exists inv, is_inverse 3 inertia inv) -> exists a, init c c2 sur step inertia = Ok a) /\ ((~ exists inv, is_inverse 3 inertia inv) -> init c c2 sur step inertia = Throw).
Proof.
  intros c c2 sur step inertia N K. unfold init_attitude. cbv zeta. destruct (String.eqb_spec (s_string c "ATTITUDE" "initialize_mode") "CONTROLLED"); [contradiction|]. cbn [bind].
  destruct (String.eqb_spec (s_string c "ATTITUDE" "propagate_mode") "CANTILEVER_VIBRATION") as [E|_]; [elim K; rewrite E; cbn; tauto|].
  destruct (String.eqb_spec (s_string c "ATTITUDE" "propagate_mode") "CONTROLLED") as [E|_]; [elim K; rewrite E; cbn; tauto|].
  match goal with |- context [att_new _ _ _ ?w ?q _ ?tq _] => pose proof (C72_new coef0 index0 inverse0 w q inertia tq step) as (A & B) end.
  split.
  - intro I. destruct (A I) as (a & -> & _). destruct (String.eqb _ _); eexists; reflexivity.
  - intro I. rewrite (B I). destruct (String.eqb _ _); reflexivity.
Qed.
End att.
Print Assumptions C133_kind.
Print Assumptions C133_manual.
Print Assumptions C133_controlled_start.
Print Assumptions C133_controlled_start_idle.
Print Assumptions C133_controlled_propagation.
Print Assumptions C133_manual_total.

(** the initial quaternion is not normalised: a file with (0, 0, 0, 2) gives an attitude that is none *)
Theorem C133_unit_refuted : exists c a, init_attitude (vconst 0) (fun i => i) (fun _ _ => 0) 0 (vconst 0) (vconst 0) c c (mkSur (vconst 0) (vconst 0) (vconst 0) (vconst 0) (vconst 0) (vconst 0) (vconst 0) (fun _ _ => 0) (vconst 0)) 1 ex_inertia = Ok a /\
  ~ unit 4 (fst (fst (attitude_state a))).
Proof.
  set (c := mkSettings (fun _ k => "RK4"%string) (fun _ _ => 0) (fun _ _ => 0%Z) (fun _ _ => true) (fun _ _ => vconst 0) (fun _ _ => q4 0 0 0 2)).
  destruct (C133_manual_total (vconst 0) (fun i => i) (fun _ _ => 0) 0 (vconst 0) (vconst 0) c c (mkSur (vconst 0) (vconst 0) (vconst 0) (vconst 0) (vconst 0) (vconst 0) (vconst 0) (fun _ _ => 0) (vconst 0)) 1 ex_inertia) as (T & _).
  - cbn. discriminate.
  - cbn. intros [X|[X|[]]]; discriminate.
  - destruct T as (a & E); [eexists; exact ex_inverse|]. exists c, a. split; [exact E|].
    assert (KW := C133_kind _ _ _ _ _ _ _ _ _ _ _ _ E). cbv zeta in KW. destruct KW as (KW & _). cbn in KW.
    rewrite (C133_manual _ _ _ _ _ _ _ _ _ _ _ _ E); [|cbn; discriminate|rewrite KW by (now left); discriminate]. cbn [fst c s_quaternion]. unfold unit, dot. cbn [sumn q4]. lra.
Qed.
Print Assumptions C133_unit_refuted.

(** Cases that meet the hypotheses. *)
Definition ex_file (mode prop : string) (r v : vec) : settings :=
  mkSettings (fun _ k => if String.eqb k "initialize_mode" then mode else if String.eqb k "propagate_mode" then prop else
                         if String.eqb k "main_mode" then "SUN_POINTING" else "EARTH_CENTER_POINTING")%string
    (fun _ k => if String.eqb k "semi_major_axis_m" then 8000000 else 0) (fun _ _ => 0%Z) (fun _ _ => true)
    (fun _ k => if String.eqb k "initial_position_i_m" then r else if String.eqb k "initial_velocity_i_m_s" then v else
                if String.eqb k "main_pointing_direction_b" then v3 1 0 0 else if String.eqb k "sub_pointing_direction_b" then v3 0 1 0 else v3 0 1 0)
    (fun _ _ => q4 0 0 0 1).
Example C132_example_given : exists o, init_orbit 1 (ex_file "POSITION_VELOCITY_I" "RK4" ex_r ex_v) 1 0 1 "ORBIT" None = Ok (o, true) /\ starts_at o ex_r ex_v.
Proof. eexists. split; [reflexivity|]. eexists _, _. repeat split. Qed.
Example C132_example_kepler : exists fuel o oe p w, init_orbit fuel (ex_file "POSITION_VELOCITY_I" "KEPLER" ex_r ex_v) 1 0 1 "ORBIT" None = Ok (o, true) /\
  o = OKepler 1 oe p w /\ (ecc oe <= 1 / 5 -> norm 3 (vsub p ex_r) <= 25 / 10 ^ 6 * sma oe).
Proof.
  destruct ex_elliptic as (EL & NO). destruct (C64_round_trip 1 1 0 ex_r ex_v (le_n _) EL NO) as (oe & u & EO & _).
  destruct (C63_calc_orbit_terminates 1 oe 0) as (f0 & (p & w) & T). specialize (T (S f0) ltac:(lia)).
  assert (I : init_orbit (S f0) (ex_file "POSITION_VELOCITY_I" "KEPLER" ex_r ex_v) 1 0 1 "ORBIT" None = Ok (OKepler 1 oe p w, true)).
  { unfold init_orbit. cbn -[calc_oe calc_orbit]. rewrite (calc_oe_mono (S f0) _ _ _ _ _ ltac:(lia) EO). cbn [bind]. rewrite T. reflexivity. }
  exists (S f0), (OKepler 1 oe p w), oe, p, w. split; [exact I|]. split; [reflexivity|].
  destruct (C132_kepler_from_state (S f0) _ 1 0 1 None _ _ ltac:(lia) I eq_refl eq_refl EL NO) as (oe' & p' & w' & E & _ & A & _). injection E as <- <- <-. exact A.
Qed.
Example C132_example_relative : exists o, init_orbit 1 (ex_file "DEFAULT" "RELATIVE" ex_r ex_v) 1 0 1 "ORBIT" (Some (fun _ => Some (ex_r, ex_v))) = Ok (ORelative 0 o, true) /\
  veq 3 (mvec 3 (lvlh_dcm ex_r ex_v) (vsub (ro_pos o) ex_r)) (v3 0 1 0).
Proof.
  destruct ex_elliptic as ((_ & P & Q & _) & _). destruct (C132_relative 1 (ex_file "DEFAULT" "RELATIVE" ex_r ex_v) 1 0 1 "ORBIT" (fun _ => Some (ex_r, ex_v)) eq_refl) as (_ & H).
  destruct (H ex_r ex_v eq_refl P Q) as (o & E & A & _). exists o. split; [exact E|exact A].
Qed.
(** controlled initialisation with the Sun along +y and the Earth along -x (local information still zero): the body x axis points to the Sun *)
Definition ex_sur : surroundings := mkSur (vconst 0) (v3 1 5 0) (vconst 0) (v3 0 0 0) (v3 1 0 0) (v3 0 1 0) (vconst 0) (fun _ _ => 0) (vconst 0).
Example C133_example : exists a q, init_attitude (vconst 0) (fun i => i) (fun _ _ => 0) 0 (vconst 0) (vconst 0) (ex_file "CONTROLLED" "RK4" ex_r ex_v) (ex_file "CONTROLLED" "RK4" ex_r ex_v) ex_sur 1 ex_inertia = Ok a /\
  attitude_state a = (q, vconst 0, vconst 0) /\ unit 4 q /\ veq 3 (seen_from_body q (along (vsub (v3 1 5 0) (v3 1 0 0)))) (along (v3 1 0 0)).
Proof.
  assert (NZ : norm 3 (vconst 0) = 0) by (unfold norm; rewrite sumn3; unfold vconst; replace (0 * 0 + 0 * 0 + 0 * 0) with 0 by ring; apply sqrt_0).
  assert (PN : forall x y z, 0 < x * x + y * y + z * z -> 0 < norm 3 (v3 x y z)) by (intros x y z X; unfold norm; rewrite sumn3; cbn [v3]; now apply sqrt_lt_R0).
  set (f := ex_file "CONTROLLED" "RK4" ex_r ex_v).
  assert (AM : asked_direction ex_sur MSun (vsub (v3 1 5 0) (v3 1 0 0))) by (right; split; [exact NZ|reflexivity]).
  assert (AS : asked_direction ex_sur MEarth (vsub (v3 0 0 0) (v3 1 0 0))) by (right; split; [exact NZ|reflexivity]).
  assert (ANG : Rabs (dot 3 (normalize 3 (v3 1 0 0)) (normalize 3 (v3 0 1 0))) <= cos (PI / 6)).
  { rewrite !normalize_unit by (apply norm_unit; unfold unit, dot; rewrite sumn3; cbn [v3]; ring). replace (dot 3 (v3 1 0 0) (v3 0 1 0)) with 0 by (unfold dot; rewrite sumn3; cbn [v3]; ring).
    rewrite Rabs_R0, cos_PI6. pose proof (sqrt_pos 3). lra. }
  assert (EX : exists a, init_attitude (vconst 0) (fun i => i) (fun _ _ => 0) 0 (vconst 0) (vconst 0) f f ex_sur 1 ex_inertia = Ok a).
  { unfold init_attitude. cbv zeta. change (String.eqb (s_string f "ATTITUDE" "initialize_mode") "CONTROLLED") with true. change (String.eqb (s_string f "ATTITUDE" "propagate_mode") "RK4") with true. cbv iota.
    assert (EN : cm_enabled (controlled_of (vconst 0) (vconst 0) f) = true) by (apply C74_accepted; split; [discriminate|]; split; [discriminate|]; right; split; [discriminate|exact ANG]).
    assert (NEW := C74_new MSun MEarth (q4 0 0 0 1) (v3 1 0 0) (v3 0 1 0) (vconst 0) (vconst 0)). cbv zeta in NEW. destruct NEW as (M & SB & _ & _).
    assert (PV : cm_prev_time (controlled_of (vconst 0) (vconst 0) f) = -1).
    { unfold controlled_of, ctl_new, ctl_initialize. repeat match goal with |- context [if ?b then _ else _] => destruct b end; reflexivity. }
    unfold ctl_propagate at 1. rewrite EN. cbn [negb]. change (cm_main (controlled_of (vconst 0) (vconst 0) f) = MSun) in M. change (cm_sub (controlled_of (vconst 0) (vconst 0) f) = MEarth) in SB.
    rewrite M, SB. cbn [mode_eqb]. cbn [target_direction bind]. unfold ctl_velocity. rewrite PV, rlt_false by lra. cbn [bind].
    match goal with |- context [att_new _ _ _ ?w ?q _ ?tq _] => destruct (C72_new (vconst 0) (fun i => i) (fun _ _ => 0) w q ex_inertia tq 1) as (A & _) end.
    destruct A as (a & E & _); [eexists; exact ex_inverse|]. rewrite E. cbn [bind]. eexists. reflexivity. }
  destruct EX as (a & E). assert (KW := C133_kind _ _ _ _ _ _ _ _ _ _ _ _ E). cbv zeta in KW. destruct KW as (KW & _).
  assert (W : attitude_word a <> "CONTROLLED"%string) by (rewrite KW by (now left); discriminate).
  assert (T := C133_controlled_start _ _ _ _ _ _ f f ex_sur 1 ex_inertia a (vsub (v3 1 5 0) (v3 1 0 0)) (vsub (v3 0 0 0) (v3 1 0 0)) E eq_refl W). cbv zeta in T.
  destruct T as (q & A & B & C & _); try discriminate; try exact ANG; try (apply PN; lra); try exact AM; try exact AS.
  - unfold norm. rewrite sumn3. apply sqrt_lt_R0. unfold vsub. cbn [v3]. lra.
  - unfold norm. rewrite sumn3. apply sqrt_lt_R0. unfold vsub. cbn [v3]. lra.
  - unfold not_parallel, norm. rewrite sumn3. apply sqrt_lt_R0. unfold vsub. cbn [cross v3]. lra.
  - exists a, q. auto.
Qed.
