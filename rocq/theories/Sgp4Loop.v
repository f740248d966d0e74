(** The deep space integrator: it always ends, after as many whole steps of 720 minutes as fit. *)
From Coq Require Import Reals Lra Lia List Bool ZArith.
From Verif Require Import RBase VecModel VecProofs Trig SensorModel JulianModel Sgp4Model Sgp4Spec Sgp4Proofs.
Import ListNotations.
Open Scope R_scope.

Definition hstep (t : R) : R := if rlt 0 t then 720 else - 720.
Lemma march_S rates h k x y : march rates h (S k) x y =
  let '(x, y) := march rates h k x y in
  let '(xndt, xldot, xnddt) := rates x y (INR k * h) in
  (x + xldot * h + xndt * (h * h / 2), y + xndt * h + xnddt * (h * h / 2)).
Proof. reflexivity. Qed.
Lemma hstep_sq t : hstep t * hstep t / 2 = step2.
Proof. unfold hstep, step2. destruct (rlt 0 t); lra. Qed.

(** after k steps, with m steps to go *)
Lemma loop_runs s t x0 y0 m : forall k fuel, (m < fuel)%nat -> INR (k + m) * 720 <= Rabs t < INR (k + m + 1) * 720 ->
  let '(x, y) := march (ds_dots s) (hstep t) (k + m) x0 y0 in
  let at_ := INR (k + m) * hstep t in
  ds_loop fuel s t false (mkDs (fst (march (ds_dots s) (hstep t) k x0 y0)) (snd (march (ds_dots s) (hstep t) k x0 y0)) (INR k * hstep t)) =
  Val (mkDs x y at_, ds_dots s x y at_, t - at_).
Proof.
  induction m as [|m IH]; intros k fuel F B.
  - destruct fuel as [|fuel]; [lia|]. rewrite Nat.add_0_r in *. destruct (march (ds_dots s) (hstep t) k x0 y0) as [x y]. cbn [fst snd]. cbn [ds_loop ds_atime ds_xli ds_xni].
    rewrite plus_INR in B. cbn [INR] in B. pose proof (pos_INR k) as PK.
    assert (AK : Rabs (INR k * hstep t) = INR k * 720).
    { rewrite Rabs_mult, (Rabs_right (INR k)) by lra. f_equal. unfold hstep. destruct (rlt 0 t); [rewrite Rabs_right; lra|rewrite Rabs_left; lra]. }
    rewrite AK. rewrite rlt_false by lra. cbn [orb].
    assert (D : Rabs (t - INR k * hstep t) < 720).
    { unfold hstep. destruct (rlt_spec 0 t) as [P|P].
      - rewrite (Rabs_right t) in B by lra. apply Rabs_def1; lra.
      - rewrite (Rabs_left1 t) in B by lra. apply Rabs_def1; lra. }
    unfold stepp. rewrite rle_false by exact D. destruct (ds_dots s x y (INR k * hstep t)) as [[a b] c]. reflexivity.
  - destruct fuel as [|fuel]; [lia|].
    specialize (IH (S k) fuel ltac:(lia)). replace (S k + m)%nat with (k + S m)%nat in IH by lia. specialize (IH B).
    destruct (march (ds_dots s) (hstep t) (k + S m) x0 y0) as [xf yf].
    cbn [ds_loop ds_atime ds_xli ds_xni].
    assert (INR k + 1 <= INR (k + S m)). { rewrite <- S_INR. apply le_INR. lia. }
    pose proof (pos_INR k) as PK.
    assert (AK : Rabs (INR k * hstep t) = INR k * 720).
    { rewrite Rabs_mult, (Rabs_right (INR k)) by lra. f_equal. unfold hstep. destruct (rlt 0 t); [rewrite Rabs_right; lra|rewrite Rabs_left; lra]. }
    rewrite AK. rewrite rlt_false by lra. cbn [orb].
    assert (D : 720 <= Rabs (t - INR k * hstep t)).
    { unfold hstep. destruct (rlt_spec 0 t) as [P|P].
      - rewrite (Rabs_right t) in B by lra. rewrite Rabs_right; lra.
      - rewrite (Rabs_left1 t) in B by lra. rewrite Rabs_left; lra. }
    unfold stepp at 1. rewrite rle_true by exact D.
    rewrite march_S in IH. destruct (march (ds_dots s) (hstep t) k x0 y0) as [x y]. cbn [fst snd] in *.
    destruct (ds_dots s x y (INR k * hstep t)) as [[a b] c]. cbn [fst snd] in IH.
    rewrite <- IH. f_equal. rewrite S_INR, hstep_sq. unfold hstep, stepp, stepn. f_equal. destruct (rlt 0 t); lra.
Qed.

Lemma whole_steps t : exists n, INR n * 720 <= Rabs t < INR (n + 1) * 720 /\ (n < ds_fuel t)%nat.
Proof.
  pose proof (Rabs_pos t) as P. destruct (base_Int_part (Rabs t / 720)) as [A B].
  assert (NN : (0 <= Int_part (Rabs t / 720))%Z).
  { apply Zlt_succ_le, lt_IZR. unfold Z.succ. rewrite plus_IZR. assert (0 <= Rabs t / 720) by lra. lra. }
  exists (Z.to_nat (Int_part (Rabs t / 720))). rewrite plus_INR, INR_IZR_INZ, Z2Nat.id by exact NN. cbn [INR]. split; [lra|].
  unfold ds_fuel, Int_part in *. generalize dependent (up (Rabs t / 720)). intros z _ _ _. lia.
Qed.
Lemma loop_result s t x0 y0 : exists n, INR n * 720 <= Rabs t < INR (n + 1) * 720 /\
  forall fuel, (n < fuel)%nat ->
  let '(x, y) := march (ds_dots s) (hstep t) n x0 y0 in
  let at_ := INR n * hstep t in
  ds_loop fuel s t false (mkDs x0 y0 0) = Val (mkDs x y at_, ds_dots s x y at_, t - at_).
Proof.
  destruct (whole_steps t) as (n & B & _). exists n. split; [exact B|]. intros fuel F.
  pose proof (loop_runs s t x0 y0 n 0 fuel F) as L. cbn [Nat.add march fst snd INR] in L. rewrite Rmult_0_l in L. exact (L B).
Qed.
Lemma dspace_result s t tc x : irez s <> 0%Z -> exists n s' x', dspace s t tc x = Val (s', x') /\
  INR n * 720 <= Rabs t < INR (n + 1) * 720 /\ (n < ds_fuel t)%nat /\
  let '(lam, mot) := march_to (ds_dots s) (hstep t) n (t - INR n * hstep t) (num s xlamo) (num s no) in
  let theta := fmod2pi (num s gsto + tc * 4.37526908801129966e-3) in
  nm x' = mot /\
  mm x' = (if (irez s =? 1)%Z then lam - nodem x' - argpm x' + theta else lam - 2 * nodem x' + 2 * theta) /\
  em x' = em x + num s dedt * t /\ inclm x' = inclm x + num s didt * t /\ argpm x' = argpm x + num s domdt * t /\ nodem x' = nodem x + num s dnodt * t.
Proof.
  intros I. unfold dspace. cbn [set irez]. destruct (Z.eqb_spec (irez s) 0) as [Z0|_]; [contradiction|]. cbn [negb].
  rewrite (loop_same _ _ s) by (apply same_sym, same_set; reflexivity).
  destruct (whole_steps t) as (n & B & F). 
  pose proof (loop_runs s t (num s xlamo) (num s no) n 0 (ds_fuel t) F) as L. cbn [Nat.add march fst snd INR] in L. rewrite Rmult_0_l in L. specialize (L B).
  exists n. unfold march_to. destruct (march (ds_dots s) (hstep t) n (num s xlamo) (num s no)) as [lam mot]. cbv zeta in L. rewrite L. cbn [rbind].
  destruct (ds_dots s lam mot (INR n * hstep t)) as [[xndt xldot] xnddt]. cbn [ds_xli ds_xni ds_atime].
  eexists. eexists. split; [reflexivity|]. cbn [em argpm inclm mm nodem nm]. repeat split; try (apply B); try exact F; try lra.
  destruct (irez s =? 1)%Z; cbn [negb]; lra.
Qed.
Lemma dspace_no_resonance s t tc x : irez s = 0%Z -> exists s', dspace s t tc x =
  Val (s', mkSec (em x + num s dedt * t) (argpm x + num s domdt * t) (inclm x + num s didt * t) (mm x + num s dmdt * t) (nodem x + num s dnodt * t) (nm x)).
Proof. intros I. unfold dspace. cbn [set irez]. rewrite I. cbn [Z.eqb negb]. eexists. reflexivity. Qed.
Lemma kepler_ends fuel : forall u a b e d s c, kepler_loop fuel u a b e d s c <> NoEnd.
Proof.
  induction fuel as [|k IH]; intros; cbn [kepler_loop]; [discriminate|]. destruct (rle 1e-12 (Rabs d)); [|discriminate].
  unfold fdiv at 1. destruct (req _ 0); cbn [rbind]; [discriminate|apply IH].
Qed.
Lemma rbind_ends {A B} (m : res A) (k : A -> res B) : m <> NoEnd -> (forall a, k a <> NoEnd) -> rbind m k <> NoEnd.
Proof. destruct m; cbn [rbind]; auto; discriminate. Qed.
Lemma fdiv_ends x y : fdiv x y <> NoEnd. Proof. unfold fdiv. destruct (req y 0); discriminate. Qed.
Lemma fpow_ends x y : fpow x y <> NoEnd. Proof. unfold fpow. destruct (rlt 0 x); discriminate. Qed.
Lemma fsqrt_ends x : fsqrt x <> NoEnd. Proof. unfold fsqrt. destruct (rlt x 0); discriminate. Qed.
Ltac ends := first [apply fdiv_ends | apply fpow_ends | apply fsqrt_ends | discriminate].
Lemma xlcof_ends g a b : calc_xlcof g a b <> NoEnd. Proof. unfold calc_xlcof. destruct (rlt _ _); ends. Qed.
Lemma periodic_ends g s am nm_ si ci p : sgp4_periodic g s am nm_ si ci p <> NoEnd.
Proof.
  unfold sgp4_periodic. apply rbind_ends.
  { destruct (deep s); [|discriminate]. apply rbind_ends; [apply xlcof_ends|discriminate]. }
  intros [[s1 a] b]. apply rbind_ends; [ends|]. intros temp. apply rbind_ends; [apply kepler_ends|]. intros [sE cE].
  destruct (rlt _ 0); [discriminate|]. repeat (apply rbind_ends; [ends|intros ?]). discriminate.
Qed.
Lemma dpper_ends s t p : dpper s t p <> NoEnd.
Proof. unfold dpper. destruct (rle 0.2 _); [apply rbind_ends; [ends|discriminate]|discriminate]. Qed.
Lemma dspace_ends s t tc x : dspace s t tc x <> NoEnd.
Proof.
  destruct (Z.eq_dec (irez s) 0) as [E|E].
  - destruct (dspace_no_resonance s t tc x E) as (s' & ->). discriminate.
  - destruct (dspace_result s t tc x E) as (n & s' & x' & -> & _). discriminate.
Qed.
Lemma sgp4_ends w s t : sgp4 w s t <> NoEnd.
Proof.
  unfold sgp4. destruct (drag_terms _ _) as [[[[[mm0 argpm0] nodem0] tempa] tempe] templ].
  apply rbind_ends; [destruct (deep _); [apply dspace_ends|discriminate]|]. intros [s1 x].
  do 4 (apply rbind_ends; [ends|intros ?]). apply rbind_ends.
  - destruct (deep _); [|discriminate]. apply rbind_ends; [apply dpper_ends|discriminate].
  - intros [s2 p]. apply periodic_ends.
Qed.
