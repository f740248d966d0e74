(** C84: positions and velocities of the celestial bodies, globally and as seen from the spacecraft. *)
From Coq Require Import Reals Lra Lia List Bool Arith ZArith String.
From Verif Require Import Base RBase VecModel VecProofs QuatModel QuatSpec QuatProofs OrbitProofs AttitudeSpec AttitudeProofs CelestialModel CelestialSpec CelestialProofs.
Import ListNotations.
Open Scope R_scope.

Lemma gives_slot naif g name a i v : selected_at naif g name i -> holds a i v -> gives (let! k := body_index naif g name in aget3 a k) v.
Proof. intros S1 H. destruct (selected_index _ _ _ _ S1) as [-> _]. cbn [bind]. destruct (aget3_holds a i v H) as (u & E & U). exists u. now split. Qed.

(** each selected body gets the state that SPICE gives for its id, in metres *)
Theorem C84_ephemeris : forall spk g, well_sized g -> exists g', update_bodies spk g = Ok g' /\ well_sized g' /\
  body_ids g' = body_ids g /\ center_name g' = center_name g /\ body_radius g' = body_radius g /\
  forall naif name p, naif name = Some p -> In p (body_ids g) ->
    gives (position_of naif g' name) (fun j => 1000 * fst (spk p) j) /\ gives (velocity_of naif g' name) (fun j => 1000 * snd (spk p) j).
Proof.
  intros spk g (LP & LV & LR). unfold update_bodies.
  match goal with |- context [for_upto (n_bodies g) ?body _] => destruct (for_upto_inv (fun m (pv : list R * list R) => List.length (fst pv) = (3 * n_bodies g)%nat /\ List.length (snd pv) = (3 * n_bodies g)%nat /\
    forall i, (i < m)%nat -> holds (fst pv) i (vscal 1000 (fst (spk (nth i (body_ids g) 0%Z)))) /\ holds (snd pv) i (vscal 1000 (snd (spk (nth i (body_ids g) 0%Z))))) body (n_bodies g) (body_pos g, body_vel g)) as ((p & v) & E & L1 & L2 & H) end.
  { split; [exact LP|]. split; [exact LV|]. intros i Hi. lia. }
  { intros m [p v] Hm (L1 & L2 & H). cbn [fst snd] in *. set (s := spk (nth m (body_ids g) 0%Z)).
    destruct (aset3_spec p m (vscal 1000 (fst s)) ltac:(lia)) as (a & EA & LA & HA & KA). destruct (aset3_spec v m (vscal 1000 (snd s)) ltac:(lia)) as (b & EB & LB & HB & KB).
    rewrite EA. cbn [bind]. rewrite EB. cbn [bind]. exists (a, b). split; [reflexivity|]. cbn [fst snd]. split; [lia|]. split; [lia|]. intros i Hi. destruct (Nat.eq_dec i m) as [->|NE]; [now split|].
    destruct (H i ltac:(lia)) as [A B]. split; intros j Hj; [rewrite KA by lia; now apply A|rewrite KB by lia; now apply B]. }
  rewrite E. cbn [bind]. eexists. split; [reflexivity|]. cbn [fst snd] in *. split; [split; [exact L1|split; [exact L2|exact LR]]|]. repeat (split; [reflexivity|]).
  intros naif name q N I. set (g' := mkCelestial _ p v _ _).
  assert (SEL : exists i, selected_at naif g' name i). { apply In_nth_error in I. destruct (index_of q (body_ids g)) as [i|] eqn:IX. - exists i. exists q. split; [exact N|]. cbn [g' body_ids]. now apply index_of_some.
    - exfalso. destruct I as [k K]. clear -IX K. revert k K. induction (body_ids g) as [|z l IH]; intros k K; [destruct k; discriminate|]. cbn [index_of] in IX. destruct (Z.eqb_spec z q) as [->|NE]; [discriminate|]. destruct k as [|k]; [cbn in K; congruence|]. destruct (index_of q l); [discriminate|]. exact (IH eq_refl k K). }
  destruct SEL as [i SEL]. destruct (selected_index _ _ _ _ SEL) as [BI LI]. destruct SEL as (q' & N' & NE & F). assert (q' = q) as -> by congruence. cbn [g' n_bodies body_ids] in LI, NE. change (n_bodies g') with (n_bodies g) in *.
  assert (NT : nth i (body_ids g) 0%Z = q) by (now apply nth_error_nth). destruct (H i LI) as [A B]. rewrite NT in A, B.
  unfold position_of, velocity_of. rewrite BI. cbn [bind]. rewrite !from_center_in by exact LI. split; [destruct (aget3_holds _ _ _ A) as (u & EU & U)|destruct (aget3_holds _ _ _ B) as (u & EU & U)]; exists u; (split; [exact EU|]); intros j Hj; rewrite U by exact Hj; reflexivity.
Qed.
(** the spacecraft sees each selected body at the difference of the positions, in inertial and in body components;
    nothing of the earlier contents of the arrays survives, and no access leaves the arrays *)
Theorem C84_seen_from_spacecraft : forall naif g sp sv q w l name i r v, well_sized g -> local_sized g l ->
  selected_at naif g name i -> holds (body_pos g) i r -> holds (body_vel g) i v ->
  gives (position_of naif g name) r /\ gives (velocity_of naif g name) v /\
  exists l', update_local g sp sv q w l = Ok l' /\ local_sized g l' /\
    gives (seen_i naif g l' name) (fun j => r j - sp j) /\
    gives (seen_b naif g l' name) (seen_from_body q (fun j => r j - sp j)) /\
    (unit 4 q -> forall ui ub, seen_i naif g l' name = Ok ui -> seen_b naif g l' name = Ok ub -> norm 3 ub = norm 3 ui).
Proof.
  intros naif g sp sv q w l name i r v WS LS SEL HR HV. destruct (selected_index _ _ _ _ SEL) as [BI LI].
  assert (POS : forall a u, holds a i u -> gives (let! k := body_index naif g name in from_center g a k) u). { intros a u H. rewrite BI. cbn [bind]. rewrite from_center_in by exact LI. destruct (aget3_holds _ _ _ H) as (x & E & X). exists x. now split. }
  split; [now apply POS|]. split; [now apply POS|]. destruct (update_local_spec g sp sv q w l WS LS) as (l' & E & LS' & H). exists l'. split; [exact E|]. split; [exact LS'|]. destruct (H i r v LI HR HV) as (A & _ & _ & B & _).
  assert (SI : gives (seen_i naif g l' name) (vsub r sp)) by (now apply (gives_slot _ _ _ _ i)). assert (SB : gives (seen_b naif g l' name) (frame_conversion q (vsub r sp))) by (now apply (gives_slot _ _ _ _ i)).
  split; [exact SI|]. split. { destruct SB as (u & EU & U). exists u. split; [exact EU|]. intros j Hj. rewrite U by exact Hj. now apply frame_dcm. }
  intros UQ ui ub EI EB. destruct SI as (a & EA & UA). destruct SB as (b & EB' & UB'). assert (a = ui) as -> by congruence. assert (b = ub) as -> by congruence.
  rewrite (norm_ext 3 ub (mvec 3 (to_dcm q) (vsub r sp))). 2:{ intros j Hj. rewrite UB' by exact Hj. now apply frame_dcm. } rewrite rotation_norm by (now apply dcm_rotation). symmetry. apply norm_ext. exact UA.
Qed.
(** the arrays made by the constructor have the right size *)
Theorem C84_new : forall g, local_sized g (new_local g).
Proof. intros g a H. unfold new_local in H. cbn [pc_b vc_b ps_i vs_i ps_b vs_b In] in H. destruct H as [<-|[<-|[<-|[<-|[<-|[<-|[]]]]]]]; rewrite repeat_length; lia. Qed.
(** and hold zero until the first update *)
Theorem C84_new_zero : forall g a i x, In a [pc_b (new_local g); vc_b (new_local g); ps_i (new_local g); vs_i (new_local g); ps_b (new_local g); vs_b (new_local g)] ->
  nth_error a i = Some x -> x = 0.
Proof.
  intros g a i x H E. unfold new_local in H. cbn [pc_b vc_b ps_i vs_i ps_b vs_b In] in H. apply nth_error_In in E.
  destruct H as [<-|[<-|[<-|[<-|[<-|[<-|[]]]]]]]; exact (repeat_spec _ _ _ E).
Qed.
Print Assumptions C84_new_zero.
(** relative positions and velocities of two selected bodies *)
Theorem C84_between : forall naif g t i r_t v_t c k r_c v_c, selected_at naif g t i -> selected_at naif g c k ->
  holds (body_pos g) i r_t -> holds (body_vel g) i v_t -> holds (body_pos g) k r_c -> holds (body_vel g) k v_c ->
  gives (position_between naif g t c) (fun j => r_t j - r_c j) /\ gives (velocity_between naif g t c) (fun j => v_t j - v_c j).
Proof.
  intros naif g t i rt vt c k rc vc ST SC HT HVT HC HVC. destruct (selected_index _ _ _ _ ST) as [BI LI]. destruct (selected_index _ _ _ _ SC) as [BK LK].
  unfold position_between, velocity_between, position_of, velocity_of. rewrite BI, BK. cbn [bind]. rewrite !from_center_in by assumption.
  destruct (aget3_holds _ _ _ HT) as (a & EA & A). destruct (aget3_holds _ _ _ HVT) as (b & EB & B). destruct (aget3_holds _ _ _ HC) as (d & ED & D). destruct (aget3_holds _ _ _ HVC) as (e & EE & E'). rewrite EA, EB, ED, EE. cbn [bind].
  split; eexists; (split; [reflexivity|]); intros j Hj; unfold vsub; rewrite ?A, ?B, ?D, ?E' by exact Hj; reflexivity.
Qed.
Print Assumptions C84_ephemeris.
Print Assumptions C84_seen_from_spacecraft.
Print Assumptions C84_new.
Print Assumptions C84_between.

(** the number of a body: below the number of bodies its position, above it zero, exactly at it a read behind the array *)
Theorem C84_by_number : forall g id, well_sized g ->
  ((id < n_bodies g)%nat -> exists v, from_center g (body_pos g) id = Ok v /\ holds (body_pos g) id v) /\
  ((n_bodies g < id)%nat -> from_center g (body_pos g) id = Ok (vconst 0)) /\
  (id = n_bodies g -> from_center g (body_pos g) id = UB).
Proof.
  intros g id (LP & _ & _). split; [|split].
  - intro H. destruct (holds_some (body_pos g) id ltac:(lia)) as (v & A & B). exists v. rewrite from_center_in by exact H. now split.
  - intro H. unfold from_center. now rewrite (proj2 (Nat.ltb_lt _ _) H).
  - intros ->. unfold from_center. rewrite (proj2 (Nat.ltb_ge _ _)) by lia. unfold aget3, aget. assert (nth_error (body_pos g) (n_bodies g * 3) = None) as -> by (apply nth_error_None; lia). reflexivity.
Qed.
(** a body that SPICE knows but that is not selected: the answer is the first selected body *)
Theorem C84_unselected_is_first : forall naif g name first i p, naif name = Some p -> ~ In p (body_ids g) ->
  naif first = Some i -> hd_error (body_ids g) = Some i ->
  position_of naif g name = position_of naif g first /\ velocity_of naif g name = velocity_of naif g first /\ radius_of naif g name = radius_of naif g first.
Proof.
  intros naif g name first i p N NI NF HD. assert (IX : index_of p (body_ids g) = None). { clear -NI. induction (body_ids g) as [|z l IH]; [reflexivity|]. cbn [index_of]. destruct (Z.eqb_spec z p) as [->|NE]; [exfalso; apply NI; now left|]. rewrite IH; [reflexivity|]. intro. apply NI. now right. }
  assert (BI : body_index naif g name = Ok 0%nat) by (unfold body_index; now rewrite N, IX). assert (BF : body_index naif g first = Ok 0%nat). { unfold body_index. rewrite NF. destruct (body_ids g) as [|z l]; [discriminate|]. cbn in HD. injection HD as ->. cbn [index_of]. now rewrite Z.eqb_refl. }
  unfold position_of, velocity_of, radius_of. now rewrite BI, BF.
Qed.
Definition sun_moon : celestial := mkCelestial [10%Z; 301%Z] [1; 0; 0; 0; 2; 0] [0; 0; 0; 0; 0; 0] [7; 2] "EARTH".
Definition naif_names (s : string) : option Z := if String.eqb s "SUN" then Some 10%Z else if String.eqb s "MOON" then Some 301%Z else if String.eqb s "MARS" then Some 499%Z else None.
Theorem C84_only_selected_bodies_refuted : ~ (forall naif g name v, well_sized g -> position_of naif g name = Ok v -> exists i, selected_at naif g name i).
Proof.
  intro H. destruct (H naif_names sun_moon "MARS"%string (v3 1 0 0)) as (i & p & N & E & F); [repeat split|reflexivity|]. cbn in N. injection N as <-. destruct i as [|[|i]]; cbn in E; [discriminate..|]. destruct i; discriminate.
Qed.
(** unknown names read an uninitialised id *)
Theorem C84_unknown_name : forall naif g name, naif name = None -> body_ids g <> [] -> position_of naif g name = UB.
Proof. intros naif g name N H. unfold position_of, body_index. rewrite N. destruct (body_ids g); [contradiction|reflexivity]. Qed.
Print Assumptions C84_by_number.
Print Assumptions C84_unselected_is_first.
Print Assumptions C84_only_selected_bodies_refuted.
Print Assumptions C84_unknown_name.

(** the logged velocity of a body: what it is, what the rate of change of the logged position would be, and that they differ *)
Theorem C84_logged_velocity : forall g sp sv q w l, well_sized g -> local_sized g l ->
  exists l' row, update_local g sp sv q w l = Ok l' /\ celestial_log g l' = Ok row /\ List.length row = (6 * n_bodies g)%nat /\
  forall i r v, (i < n_bodies g)%nat -> holds (body_pos g) i r -> holds (body_vel g) i v -> forall j, (j < 3)%nat ->
    nth_error row (6 * i + j) = Some (seen_from_body q (fun k => r k - sp k) j) /\
    nth_error row (6 * i + 3 + j) = Some (seen_from_body q (fun k => v k - sv k - cross w (fun m => r m - sp m) k) j).
Proof.
  intros g sp sv q w l WS LS. destruct (update_local_spec g sp sv q w l WS LS) as (l' & E & LS' & H). exists l'.
  assert (LPB : List.length (ps_b l') = (3 * n_bodies g)%nat) by (apply LS'; cbn; tauto). assert (LVB : List.length (vs_b l') = (3 * n_bodies g)%nat) by (apply LS'; cbn; tauto).
  unfold celestial_log. match goal with |- context [for_upto (n_bodies g) ?body _] => destruct (for_upto_inv (fun m row => List.length row = (6 * m)%nat /\ forall i p v, (i < m)%nat -> holds (ps_b l') i p -> holds (vs_b l') i v -> forall j, (j < 3)%nat -> nth_error row (6 * i + j) = Some (p j) /\ nth_error row (6 * i + 3 + j) = Some (v j)) body (n_bodies g) []) as (row & ER & LR & HR) end.
  { split; [reflexivity|]. intros; lia. }
  { intros m row Hm [LR HR]. destruct (holds_some (ps_b l') m ltac:(lia)) as (p & HP & EP). destruct (holds_some (vs_b l') m ltac:(lia)) as (v & HV & EV). rewrite EP, EV. cbn [bind]. eexists. split; [reflexivity|].
    split; [rewrite app_length; cbn; lia|]. intros i p' v' Hi HP' HV' j Hj. destruct (Nat.eq_dec i m) as [->|NE].
    - rewrite !nth_error_app2 by lia. rewrite LR. replace (6 * m + j - 6 * m)%nat with j by lia. replace (6 * m + 3 + j - 6 * m)%nat with (3 + j)%nat by lia. rewrite <- (holds_unique _ _ _ _ HP HP' j Hj), <- (holds_unique _ _ _ _ HV HV' j Hj). destruct j as [|[|[|j]]]; [now split..|lia].
    - destruct (HR i p' v' ltac:(lia) HP' HV' j Hj) as [A B]. rewrite !nth_error_app1 by lia. now split. }
  exists row. split; [exact E|]. split; [exact ER|]. split; [exact LR|]. intros i r v Hi Hr Hv j Hj. destruct (H i r v Hi Hr Hv) as (_ & _ & _ & A & _ & B). destruct (HR i _ _ Hi A B j Hj) as [C D]. rewrite C, D. split; f_equal; [now apply frame_dcm|]. unfold velocity_to_body. rewrite frame_dcm by exact Hj. reflexivity.
Qed.
(** for a spacecraft turning with w and a body with relative position r and velocity v: the rate of change of what is seen *)
Theorem C84_rate_of_seen_position : forall (w : R -> vec) (q : R -> quat) (r v : R -> vec) t i, turns_with w q ->
  (forall j, (j < 3)%nat -> derivable_pt_lim (fun s => r s j) t (v t j)) -> (i < 3)%nat ->
  derivable_pt_lim (fun s => seen_from_body (q s) (r s) i) t (seen_from_body (q t) (v t) i - cross (w t) (seen_from_body (q t) (r t)) i).
Proof. exact moving_seen. Qed.
(** ... which the logged velocity is exactly if the turning rate is taken in both frames alike, e.g. with no rotation *)
Theorem C84_velocity_when_right : forall q w r v, unit 4 q ->
  (veq 3 (seen_from_body q (fun k => v k - cross w r k)) (fun j => seen_from_body q v j - cross w (seen_from_body q r) j) <->
   veq 3 (cross (fun k => seen_from_body q w k - w k) (seen_from_body q r)) (vconst 0)).
Proof.
  intros q w r v UQ. pose proof (dcm_rotation q UQ) as RT.
  assert (K : forall j, (j < 3)%nat -> seen_from_body q (fun k => v k - cross w r k) j = seen_from_body q v j - cross w (seen_from_body q r) j - cross (fun k => seen_from_body q w k - w k) (seen_from_body q r) j).
  { intros j Hj. pose proof (rotation_cross _ w r RT j Hj) as C. fold (seen_from_body q w) (seen_from_body q r) (seen_from_body q (cross w r)) in C.
    assert (L : seen_from_body q (fun k => v k - cross w r k) j = seen_from_body q v j - seen_from_body q (cross w r) j) by (unfold seen_from_body, mvec; rewrite !sumn3; ring).
    rewrite L, <- C. set (a := seen_from_body q w). set (b := seen_from_body q r). i3 j Hj; cbn [cross v3]; ring. }
  split; intros H j Hj.
  - specialize (H j Hj). rewrite K in H by exact Hj. unfold vconst. lra.
  - rewrite K by exact Hj. specialize (H j Hj). unfold vconst in H. rewrite H. ring.
Qed.
(** a half turn about z, turning about x, a body along y *)
Definition half_turn : quat := q4 0 0 1 0.
Theorem C84_velocity_refuted : ~ (forall q w r v, unit 4 q ->
  veq 3 (seen_from_body q (fun k => v k - cross w r k)) (fun j => seen_from_body q v j - cross w (seen_from_body q r) j)).
Proof.
  intro H. specialize (H half_turn (v3 1 0 0) (v3 0 1 0) (v3 0 0 0)). assert (U : unit 4 half_turn) by (unfold unit, dot, half_turn; cbn; ring). specialize (H U 2%nat ltac:(lia)).
  revert H. unfold seen_from_body, mvec. rewrite !sumn3. unfold half_turn, to_dcm. cbn [q4 m3 v3 cross]. rewrite !sumn3. cbn [q4 m3 v3 cross]. intro H. lra.
Qed.
Print Assumptions C84_logged_velocity.
Print Assumptions C84_rate_of_seen_position.
Print Assumptions C84_velocity_when_right.
Print Assumptions C84_velocity_refuted.

(** ** Non-trivial cases *)
Example ex84 : well_sized sun_moon /\ selected_at naif_names sun_moon "MOON" 1 /\ holds (body_pos sun_moon) 1 (v3 0 2 0) /\
  exists l', update_local sun_moon (v3 0 0 0) (v3 0 0 0) half_turn (v3 0 0 0) (new_local sun_moon) = Ok l' /\ gives (seen_b naif_names sun_moon l' "MOON") (v3 0 (-2) 0).
Proof.
  assert (W : well_sized sun_moon) by (repeat split). assert (SEL : selected_at naif_names sun_moon "MOON" 1). { exists 301%Z. repeat split. intros [|k] K; [cbn; congruence|lia]. }
  assert (HP : holds (body_pos sun_moon) 1 (v3 0 2 0)) by (intros j Hj; i3 j Hj; reflexivity). assert (HV : holds (body_vel sun_moon) 1 (v3 0 0 0)) by (intros j Hj; i3 j Hj; reflexivity).
  split; [exact W|]. split; [exact SEL|]. split; [exact HP|]. destruct (C84_seen_from_spacecraft naif_names sun_moon (v3 0 0 0) (v3 0 0 0) half_turn (v3 0 0 0) (new_local sun_moon) "MOON" 1 _ _ W (C84_new _) SEL HP HV) as (_ & _ & l' & E & _ & _ & (u & EU & UU) & _).
  exists l'. split; [exact E|]. exists u. split; [exact EU|]. intros j Hj. rewrite UU by exact Hj. unfold seen_from_body, mvec. rewrite sumn3. unfold half_turn, to_dcm. i3 j Hj; cbn [q4 m3 v3]; ring.
Qed.
