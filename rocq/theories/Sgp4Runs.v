(** Runs of the propagator; error codes. *)
From Coq Require Import Reals Lra Lia Psatz List Bool ZArith.
From Verif Require Import RBase VecModel VecProofs Trig SensorModel JulianModel JulianProofs OeProofs Sgp4Model Sgp4Spec Sgp4Proofs Sgp4Loop Sgp4Kepler Sgp4Geom Sgp4Init
  Sgp4Near Sgp4Total Sgp4Fair.
Import ListNotations.
Open Scope R_scope.

(** sgp4 for the times of a list, in turn *)
Fixpoint sgp4_runs (w : gravconst) (s : satrec) (ts : list R) : res satrec :=
  match ts with
  | [] => Val s
  | t :: r => do (s', _) <- sgp4 w s t; sgp4_runs w s' r
  end.
Lemma runs_same w ts : forall s s', sgp4_runs w s ts = Val s' -> same s s'.
Proof.
  induction ts as [|t r IH]; intros s s' H; cbn [sgp4_runs] in H; [apply Val_inj in H; subst; apply same_refl|].
  apply rbind_val in H. destruct H as ([s1 o] & H1 & H). eapply same_trans; [apply (sgp4_keeps _ _ _ _ _ H1)|now apply IH].
Qed.
(** calls on the orbit object *)
Inductive call : Type := Enable (b : bool) | Propagate (jd : R).
Definition perform (o : sgp4orbit) (k : call) : res (option sgp4orbit) :=
  match k with Enable b => Val (Some (set_enabled b o)) | Propagate jd => propagate o jd end.
Fixpoint perform_all (o : sgp4orbit) (ks : list call) : res (option sgp4orbit) :=
  match ks with
  | [] => Val (Some o)
  | k :: r => do o' <- perform o k; match o' with Some o' => perform_all o' r | None => Val None end
  end.
(** what a caller sees *)
Definition seen (m : res (option sgp4orbit)) : res (option (vec * vec * vec * Z)) :=
  match m with
  | Val (Some o) => Val (Some (o_pos o, o_vel o, o_acc o, error (o_sat o)))
  | Val None => Val None | NotFinite => NotFinite | NoEnd => NoEnd
  end.
Lemma stable_jd b : stable b jdsatepoch = true. Proof. destruct b; reflexivity. Qed.
Lemma propagate_keeps o jd o' : propagate o jd = Val (Some o') -> o_wgs o' = o_wgs o /\ same (o_sat o) (o_sat o') /\ o_acc o' = o_acc o /\ o_enabled o' = o_enabled o.
Proof.
  unfold propagate. destruct (o_enabled o) eqn:E; intros H.
  - apply rbind_val in H. destruct H as ([s out] & H1 & H). apply sgp4_keeps in H1. apply Val_inj in H. destruct out as [[r v]|]; [|discriminate].
    injection H as <-. cbn [o_wgs o_sat o_acc o_enabled]. auto.
  - apply Val_inj in H. injection H as <-. repeat split; auto. 
Qed.
Lemma perform_keeps ks : forall o o', perform_all o ks = Val (Some o') -> o_wgs o' = o_wgs o /\ same (o_sat o) (o_sat o') /\ o_acc o' = o_acc o.
Proof.
  induction ks as [|k r IH]; intros o o' H; cbn [perform_all] in H.
  - apply Val_inj in H. injection H as <-. repeat split; auto.
  - apply rbind_val in H. destruct H as ([o1|] & H1 & H); [|discriminate]. destruct (IH _ _ H) as (A & B & C).
    assert (K : o_wgs o1 = o_wgs o /\ same (o_sat o) (o_sat o1) /\ o_acc o1 = o_acc o).
    { destruct k as [b|jd]; cbn [perform] in H1; [apply Val_inj in H1; injection H1 as <-; cbn [set_enabled o_wgs o_sat o_acc]; repeat split; auto|].
      destruct (propagate_keeps _ _ _ H1) as (X & Y & Z & _). auto. }
    destruct K as (X & Y & Z). split; [congruence|]. split; [eapply same_trans; eassumption|congruence].
Qed.
Lemma seen_same o o' jd : o_wgs o' = o_wgs o -> same (o_sat o) (o_sat o') -> o_acc o' = o_acc o ->
  seen (propagate (set_enabled true o') jd) = seen (propagate (set_enabled true o) jd).
Proof.
  intros W E A. unfold propagate. cbn [set_enabled o_enabled o_sat o_wgs o_acc].
  assert (J : num (o_sat o') jdsatepoch = num (o_sat o) jdsatepoch) by (destruct E as (_ & _ & _ & X); symmetry; apply X, stable_jd).
  rewrite J, W, A. set (t := (jd - num (o_sat o) jdsatepoch) * (24 * 60)).
  pose proof (sgp4_same (o_wgs o) (o_sat o) (o_sat o') t E) as R.
  destruct (sgp4 (o_wgs o) (o_sat o) t) as [[s out]| |], (sgp4 (o_wgs o) (o_sat o') t) as [[s' out']| |]; cbn [report rbind] in R |- *; try discriminate; try reflexivity.
  apply Val_inj, pair_equal_spec in R. destruct R as (R1 & <-). destruct out as [[r v]|]; cbn [seen o_pos o_vel o_acc o_sat]; [rewrite R1|]; reflexivity.
Qed.

(** ** Error codes *)
Lemma posvel_norm g mrt mvt rvdot su xnode xinc : sqnorm (fst (posvel g mrt mvt rvdot su xnode xinc)) = (mrt * radiusearthkm g) ^ 2.
Proof.
  unfold posvel. cbn [fst]. unfold sqnorm, vec3. pose proof (vU_unit su xnode xinc) as U. unfold vU, vM, vN, v3 in U.
  set (x := - sin xnode * cos xinc * sin su + cos xnode * cos su) in *. set (y := cos xnode * cos xinc * sin su + sin xnode * cos su) in *.
  assert (Z : sin xinc * sin su + 0 * cos su = sin xinc * sin su) by ring. rewrite Z in U. set (z := sin xinc * sin su) in *.
  set (re := radiusearthkm g).
  replace (mrt * x * re * (mrt * x * re) + mrt * y * re * (mrt * y * re) + mrt * z * re * (mrt * z * re)) with ((mrt * re) ^ 2 * (x * x + y * y + z * z)) by ring.
  rewrite U. ring.
Qed.
Lemma periodic_code g s am nm_ si ci p s' out : sgp4_periodic g s am nm_ si ci p = Val (s', out) ->
  (out = None /\ error s' = 6%Z) \/
  exists r v mrt, out = Some (r, v) /\ sqnorm r = (mrt * radiusearthkm g) ^ 2 /\ (mrt < 1 -> error s' = 6%Z) /\ (1 <= mrt -> error s' = error s).
Proof.
  unfold sgp4_periodic. intros H. apply rbind_val in H. destruct H as ([[s1 si1] ci1] & H1 & H).
  assert (E1 : error s1 = error s).
  { destruct (deep s); [apply rbind_val in H1; destruct H1 as (xl & _ & H1)|]; injection H1 as <- _ _; reflexivity. }
  clear H1. apply rbind_val in H. destruct H as (temp & _ & H). apply rbind_val in H. destruct H as ([sE cE] & _ & H).
  destruct (rlt _ 0).
  - left. apply Val_inj, pair_equal_spec in H. destruct H as (<- & <-). split; [reflexivity|]. rewrite rlt_true by lra. reflexivity.
  - right. do 6 (apply rbind_val in H; destruct H as (? & _ & H)). apply Val_inj, pair_equal_spec in H. destruct H as (<- & <-).
    match goal with |- context [rlt ?m 1] => set (mrt := m) end. match goal with |- context [posvel g mrt ?a ?b ?c ?d ?e] => set (pv := posvel g mrt a b c d e); pose proof (posvel_norm g mrt a b c d e) as PN; fold pv in PN end.
    exists (fst pv), (snd pv), mrt. split; [destruct pv; reflexivity|]. split; [exact PN|]. split; intros L.
    + rewrite rlt_true by exact L. reflexivity.
    + rewrite rlt_false by exact L. rewrite <- E1. destruct (deep s1); reflexivity.
Qed.
Lemma if_error (b : bool) e s : error (if b then set_error e s else s) = if b then e else error s. Proof. destruct b; reflexivity. Qed.
Lemma sgp4_code w s t s' out : sgp4 w s t = Val (s', out) ->
  exists s1, (error s1 = 0 \/ error s1 = 1 \/ (error s1 = 3 /\ deep s = true))%Z /\
  ((out = None /\ error s' = 6%Z) \/
   exists r v mrt, out = Some (r, v) /\ sqnorm r = (mrt * radiusearthkm (getgravconst w)) ^ 2 /\ (mrt < 1 -> error s' = 6%Z) /\ (1 <= mrt -> error s' = error s1)).
Proof.
  intros H. unfold sgp4 in H. set (s0 := set_error 0 (set tt t s)) in H.
  assert (E0 : error s0 = 0%Z) by reflexivity. assert (D0 : deep s0 = deep s) by reflexivity. clearbody s0.
  destruct (drag_terms s0 (num s0 tt)) as [[[[[mm0 argpm0] nodem0] tempa] tempe] templ].
  apply rbind_val in H. destruct H as ([s1 x] & H1 & H).
  assert (E1 : error s1 = 0%Z /\ deep s1 = deep s).
  { destruct (deep s0) eqn:DD; [|apply Val_inj, pair_equal_spec in H1; destruct H1 as (<- & _); split; congruence].
    unfold dspace in H1. cbn [set irez] in H1. destruct (negb (irez s0 =? 0)%Z).
    - apply rbind_val in H1. destruct H1 as ([[st [[a b] c]] ft] & _ & H1). apply Val_inj, pair_equal_spec in H1. destruct H1 as (<- & _). split; [exact E0|cbn [set deep]; congruence].
    - apply Val_inj, pair_equal_spec in H1. destruct H1 as (<- & _). split; [exact E0|cbn [set deep]; congruence]. }
  destruct E1 as (E1 & D1). clear H1.
  apply rbind_val in H. destruct H as (q & Q & H). apply fdiv_val in Q. destruct Q as (QN & ->).
  apply rbind_val in H. destruct H as (p & Q & H). apply fpow_val in Q. destruct Q as (QP & ->).
  assert (NP : 0 < nm x).
  { destruct (Rlt_dec 0 (nm x)) as [L|L]; [exact L|]. exfalso. pose proof (xke_pos w) as KP. assert (nm x < 0) by lra.
    pose proof (Rinv_lt_0_compat _ H0). unfold Rdiv in QP. nra. }
  rewrite (rle_false (nm x) 0) in H by exact NP.
  apply rbind_val in H. destruct H as (am15 & _ & H). apply rbind_val in H. destruct H as (nm' & _ & H).
  match type of H with context [if ?c then set_error 1 s1 else s1] => set (b := c) in H end.
  set (s2 := if b then set_error 1 s1 else s1) in H.
  assert (E2 : (error s2 = 0 \/ error s2 = 1)%Z) by (unfold s2; destruct b; cbn [set_error error]; auto).
  assert (D2 : deep s2 = deep s) by (unfold s2; destruct b; exact D1). clearbody s2.
  apply rbind_val in H. destruct H as ([s3 p3] & H3 & H).
  assert (E3 : (error s3 = 0 \/ error s3 = 1 \/ (error s3 = 3 /\ deep s = true))%Z).
  { destruct (deep s2) eqn:DD.
    - apply rbind_val in H3. destruct H3 as (p4 & _ & H3). apply Val_inj, pair_equal_spec in H3. destruct H3 as (<- & _). rewrite if_error.
      destruct (rlt _ 0 || rlt 1 _); [right; right; split; [reflexivity|congruence]|tauto].
    - apply Val_inj, pair_equal_spec in H3. destruct H3 as (<- & _). tauto. }
  exists s3. split; [exact E3|]. now apply periodic_code in H.
Qed.

(** ** Resonance rates *)
Definition half_day_terms (s : satrec) : list tesseral :=
  let n := num s in
  [mkTes (n d2201) 2 2 0 5.7686396; mkTes (n d2211) 2 2 1 5.7686396; mkTes (n d3210) 3 2 1 0.95240898; mkTes (n d3222) 3 2 2 0.95240898;
   mkTes (n d4410) 4 4 1 1.8014998; mkTes (n d4422) 4 4 2 1.8014998; mkTes (n d5220) 5 2 2 1.0508330; mkTes (n d5232) 5 2 3 1.0508330;
   mkTes (n d5421) 5 4 2 4.4108898; mkTes (n d5433) 5 4 3 4.4108898].
Definition one_day_terms (s : satrec) : list (R * R * R) :=
  let n := num s in [(n del1, 1, 0.13130908); (n del2, 2, 2.8843198); (n del3, 3, 0.37448087)].
Lemma half_day s lam mot t : irez s = 2%Z ->
  ds_dots s lam mot t = half_day_rates (half_day_terms s) (num s argpo + num s argpdot * t) lam (mot + num s xfact).
Proof.
  intros I. unfold ds_dots, half_day_rates, half_day_terms, sum_of, t_angle. rewrite I. cbn [Z.eqb Pos.eqb negb fold_right t_D t_l t_m t_p t_G].
  set (w := num s argpo + num s argpdot * t).
  replace (IZR (2 - 2 * 0)) with 2 by (f_equal; lia). replace (IZR (2 - 2 * 1)) with 0 by (f_equal; lia). replace (IZR (3 - 2 * 1)) with 1 by (f_equal; lia).
  replace (IZR (3 - 2 * 2)) with (-1) by (f_equal; lia). replace (IZR (4 - 2 * 1)) with 2 by (f_equal; lia). replace (IZR (4 - 2 * 2)) with 0 by (f_equal; lia).
  replace (IZR (5 - 2 * 2)) with 1 by (f_equal; lia). replace (IZR (5 - 2 * 3)) with (-1) by (f_equal; lia).
  replace (2 / 2) with 1 by lra. replace (4 / 2) with 2 by lra.
  assert (A1 : forall g, 2 * w + 1 * lam - g = w + w + lam - g) by (intros; ring).
  assert (A2 : forall g, 0 * w + 1 * lam - g = lam - g) by (intros; ring).
  assert (A3 : forall g, 1 * w + 1 * lam - g = w + lam - g) by (intros; ring).
  assert (A4 : forall g, -1 * w + 1 * lam - g = - w + lam - g) by (intros; ring).
  assert (A5 : forall g, 2 * w + 2 * lam - g = w + w + (lam + lam) - g) by (intros; ring).
  assert (A6 : forall g, 0 * w + 2 * lam - g = lam + lam - g) by (intros; ring).
  assert (A7 : forall g, 1 * w + 2 * lam - g = w + (lam + lam) - g) by (intros; ring).
  assert (A8 : forall g, -1 * w + 2 * lam - g = - w + (lam + lam) - g) by (intros; ring).
  rewrite ?A1, ?A2, ?A3, ?A4, ?A5, ?A6, ?A7, ?A8. clear.
  repeat match goal with |- context [sin ?x] => generalize (sin x); intros end.
  repeat match goal with |- context [cos ?x] => generalize (cos x); intros end.
  repeat match goal with |- (_, _) = (_, _) => apply pair_equal_spec; split end; ring.
Qed.
Lemma one_day s lam mot t : irez s <> 2%Z ->
  ds_dots s lam mot t = one_day_rates (one_day_terms s) lam (mot + num s xfact).
Proof.
  intros I. unfold ds_dots, one_day_rates, one_day_terms, sum_of. apply Z.eqb_neq in I. rewrite I. cbn [negb fold_right].
  assert (A1 : forall g, 1 * (lam - g) = lam - g) by (intros; ring). rewrite A1. clear.
  repeat match goal with |- context [sin ?x] => generalize (sin x); intros end.
  repeat match goal with |- context [cos ?x] => generalize (cos x); intros end.
  repeat match goal with |- (_, _) = (_, _) => apply pair_equal_spec; split end; ring.
Qed.
