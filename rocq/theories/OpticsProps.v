(** C118: the Gaussian beam. *)
From Coq Require Import Reals Lra Lia.
From Coquelicot Require Import Coquelicot.
From Verif Require Import Base RBase VecModel OpticsModel.
Open Scope R_scope.

(** a physically meaningful beam *)
Definition physical (b : beam) : Prop := 0 < b_wavelength b /\ 0 < b_waist b /\ 0 <= b_power b.
(** the power that passes a disc of the given radius centred on the optical axis, in the plane at the given distance:
    the integral of the intensity over rings of circumference 2 pi r *)
Definition power_through (b : beam) (distance radius p : R) : Prop :=
  is_RInt (fun r => intensity b distance r * (2 * PI * r)) 0 radius p.

Lemma width_sq : forall b z, physical b ->
  beam_width b z * beam_width b z = b_waist b * b_waist b + (b_wavelength b * z / (PI * b_waist b)) * (b_wavelength b * z / (PI * b_waist b)).
Proof.
  intros b z (L & W & _). unfold beam_width. set (u := z / _).
  replace (b_waist b * sqrt (1 + u * u) * (b_waist b * sqrt (1 + u * u))) with (b_waist b * b_waist b * (sqrt (1 + u * u) * sqrt (1 + u * u))) by ring.
  rewrite sqrt_sqrt by nra. unfold u. pose proof PI_RGT_0. field. lra.
Qed.
Lemma width_pos : forall b z, physical b -> 0 < beam_width b z.
Proof. intros b z (L & W & _). unfold beam_width. apply Rmult_lt_0_compat; [exact W|apply sqrt_lt_R0; nra]. Qed.

(** the beam is a hyperboloid of one sheet: narrowest at the waist, symmetric, widening, never narrower than its asymptotic cone
    of half angle wavelength/(pi waist) and closer to it than waist^2/(2 z tan) *)
Theorem C118_width : forall b z, physical b ->
  let w := beam_width b z in let c := b_wavelength b / (PI * b_waist b) in
  0 < w /\ w * w = b_waist b * b_waist b + (c * z) * (c * z) /\ beam_width b 0 = b_waist b /\ beam_width b (- z) = w /\
  b_waist b <= w /\ c * Rabs z < w /\ (z <> 0 -> w - c * Rabs z <= b_waist b * b_waist b / (2 * (c * Rabs z))) /\
  beam_width b (PI * b_waist b * b_waist b / b_wavelength b) = sqrt 2 * b_waist b.
Proof.
  intros b z P. cbv zeta. pose proof (width_sq b z P) as Q. pose proof (width_pos b z P) as W0. pose proof PI_RGT_0 as HPI.
  assert (P' := P). destruct P' as (L & W & _).
  set (c := b_wavelength b / (PI * b_waist b)). assert (C : 0 < c) by (unfold c; apply Rdiv_lt_0_compat; nra).
  assert (Qc : beam_width b z * beam_width b z = b_waist b * b_waist b + (c * z) * (c * z)).
  { rewrite Q. unfold c. field. lra. }
  assert (A2 : (c * Rabs z) * (c * Rabs z) = (c * z) * (c * z)) by (unfold Rabs; destruct (Rcase_abs z); ring).
  pose proof (Rabs_pos z) as A0. assert (CA : 0 <= c * Rabs z) by nra.
  split; [exact W0|]. split; [exact Qc|]. split.
  { unfold beam_width. unfold Rdiv. rewrite Rmult_0_l, Rmult_0_l, Rplus_0_r, sqrt_1. ring. }
  split. { unfold beam_width. do 2 f_equal. f_equal. unfold Rdiv. ring. }
  split; [nra|]. split; [nra|]. split.
  - intros NZ. assert (0 < c * Rabs z) by (apply Rmult_lt_0_compat; [exact C|now apply Rabs_pos_lt]).
    set (a := c * Rabs z) in *. set (w := beam_width b z) in *.
    apply (Rmult_le_reg_r (2 * a)); [lra|]. unfold Rdiv. rewrite Rmult_assoc, Rinv_l, Rmult_1_r by lra.
    assert (w * w - a * a = b_waist b * b_waist b) by lra. nra.
  - unfold beam_width. set (z0 := PI * b_waist b * b_waist b / b_wavelength b).
    assert (0 < z0) by (unfold z0; apply Rdiv_lt_0_compat; [apply Rmult_lt_0_compat; nra|exact L]).
    replace (1 + z0 / z0 * (z0 / z0)) with 2 by (field; lra). ring.
Qed.
Print Assumptions C118_width.

Theorem C118_width_grows : forall b z1 z2, physical b -> (beam_width b z1 < beam_width b z2 <-> Rabs z1 < Rabs z2).
Proof.
  intros b z1 z2 P. destruct (C118_width b z1 P) as (W1 & Q1 & _). destruct (C118_width b z2 P) as (W2 & Q2 & _).
  cbv zeta in *. set (c := b_wavelength b / (PI * b_waist b)) in *. destruct P as (L & W & _).
  assert (C : 0 < c) by (unfold c; pose proof PI_RGT_0; apply Rdiv_lt_0_compat; nra).
  assert (S1 : z1 * z1 = Rabs z1 * Rabs z1) by (unfold Rabs; destruct (Rcase_abs z1); ring).
  assert (S2 : z2 * z2 = Rabs z2 * Rabs z2) by (unfold Rabs; destruct (Rcase_abs z2); ring).
  pose proof (Rabs_pos z1). pose proof (Rabs_pos z2).
  set (w1 := beam_width b z1) in *. set (w2 := beam_width b z2) in *. set (a1 := Rabs z1) in *. set (a2 := Rabs z2) in *.
  assert (E : w2 * w2 - w1 * w1 = c * c * (a2 * a2 - a1 * a1)) by (replace (a2 * a2) with (z2 * z2); replace (a1 * a1) with (z1 * z1); nra).
  assert (CC : 0 < c * c) by nra. split; intros H1.
  - assert (0 < w2 * w2 - w1 * w1) by nra. assert (0 < a2 * a2 - a1 * a1) by (apply (Rmult_lt_reg_l (c * c)); lra). nra.
  - assert (0 < a2 * a2 - a1 * a1) by nra. assert (0 < w2 * w2 - w1 * w1) by (rewrite E; now apply Rmult_lt_0_compat). nra.
Qed.
Print Assumptions C118_width_grows.

(** power balance: at every distance the disc of radius rho receives P (1 - exp (-2 rho^2 / w^2)); so nothing is created or
    lost along the beam, 86.5 % of the power passes the disc of the beam's own width, and the whole plane receives P *)
Theorem C118_power : forall b z rho, physical b ->
  power_through b z rho (b_power b * (1 - exp (-2 * (rho * rho) / (beam_width b z * beam_width b z)))).
Proof.
  intros b z rho P. pose proof (width_pos b z P) as W. pose proof PI_RGT_0 as HPI. unfold power_through, intensity. set (w := beam_width b z) in *.
  set (G := fun r => - b_power b * exp (-2 * r * r / (w * w))).
  assert (I : is_RInt (fun r => 2 * b_power b / (PI * w * w) * exp (-2 * r * r / (w * w)) * (2 * PI * r)) 0 rho (minus (G rho) (G 0))).
  { apply (is_RInt_derive (V:=R_CompleteNormedModule) G).
    - intros r _. unfold G. auto_derive; [trivial|]. set (e := exp _) at 1. match goal with |- _ = ?R => change R with (2 * b_power b / (PI * w * w) * exp (-2 * r * r / (w * w)) * (2 * PI * r)) end. replace (exp (-2 * r * r / (w * w))) with e by (unfold e; f_equal; field; lra). field. lra.
    - intros r _. apply (ex_derive_continuous (fun r => 2 * b_power b / (PI * w * w) * exp (-2 * r * r / (w * w)) * (2 * PI * r))). auto_derive. trivial. }
  replace (b_power b * (1 - exp (-2 * (rho * rho) / (w * w)))) with (minus (G rho) (G 0)); [exact I|].
  unfold minus, plus, opp, G; cbn. replace (-2 * 0 * 0 / (w * w)) with 0 by (field; lra). rewrite exp_0.
  replace (-2 * (rho * rho) / (w * w)) with (-2 * rho * rho / (w * w)) by (field; lra). ring.
Qed.
Print Assumptions C118_power.

Theorem C118_total_power : forall b z, physical b -> forall eps, 0 < eps -> exists R0, forall rho p,
  R0 <= rho -> power_through b z rho p -> Rabs (p - b_power b) < eps.
Proof.
  intros b z P eps He. pose proof (width_pos b z P) as W. set (w := beam_width b z) in *.
  destruct P as (L & W0 & PP) eqn:EP. clear EP.
  set (K := b_power b / eps). exists (w * (1 + K)). intros rho p HR HP.
  pose proof (C118_power b z rho (conj L (conj W0 PP))) as HQ. fold w in HQ.
  assert (E : p = b_power b * (1 - exp (-2 * (rho * rho) / (w * w)))).
  { unfold power_through in *. exact (eq_trans (eq_sym (is_RInt_unique (V:=R_CompleteNormedModule) _ _ _ _ HP)) (is_RInt_unique (V:=R_CompleteNormedModule) _ _ _ _ HQ)). }
  rewrite E. set (u := rho / w). assert (HK : 0 <= K) by (unfold K; apply Rmult_le_pos; [exact PP|left; now apply Rinv_0_lt_compat]).
  assert (U : 1 + K <= u). { unfold u. apply (Rmult_le_reg_r w); [exact W|]. unfold Rdiv. rewrite Rmult_assoc, Rinv_l by lra. lra. }
  replace (-2 * (rho * rho) / (w * w)) with (- (2 * (u * u))) by (unfold u; field; lra).
  assert (X : 1 + 2 * (u * u) <= exp (2 * (u * u))) by apply exp_ineq1_le.
  rewrite exp_Ropp. assert (K < exp (2 * (u * u))) by nra.
  replace (b_power b * (1 - / exp (2 * (u * u))) - b_power b) with (- (b_power b / exp (2 * (u * u)))) by (unfold Rdiv; ring).
  rewrite Rabs_Ropp. pose proof (exp_pos (2 * (u * u))) as EPOS.
  rewrite Rabs_pos_eq by (apply Rmult_le_pos; [exact PP|left; now apply Rinv_0_lt_compat]).
  apply (Rmult_lt_reg_r (exp (2 * (u * u)))); [exact EPOS|]. unfold Rdiv. rewrite Rmult_assoc, Rinv_l, Rmult_1_r by lra.
  replace (b_power b) with (eps * K) by (unfold K; field; lra). nra.
Qed.
Print Assumptions C118_total_power.

(** the profile: non-negative, largest on the axis, falling with the distance from it, exp(-2) of the axis value at the beam width *)
Theorem C118_profile : forall b z r1 r2, physical b -> 0 < b_power b ->
  0 < intensity b z r1 /\ (intensity b z r2 < intensity b z r1 <-> Rabs r1 < Rabs r2) /\
  intensity b z (beam_width b z) = exp (-2) * intensity b z 0 /\
  intensity b z 0 = 2 * b_power b / (PI * (beam_width b z * beam_width b z)).
Proof.
  intros b z r1 r2 P PP. pose proof (width_pos b z P) as W. pose proof PI_RGT_0 as HPI. unfold intensity. set (w := beam_width b z) in *.
  set (k := 2 * b_power b / (PI * w * w)). assert (K : 0 < k) by (unfold k; apply Rdiv_lt_0_compat; [lra|]; apply Rmult_lt_0_compat; nra).
  assert (F : forall r, -2 * r * r / (w * w) = - (2 / (w * w)) * (Rabs r * Rabs r)).
  { intros r. unfold Rabs; destruct (Rcase_abs r); field; lra. }
  assert (C : 0 < 2 / (w * w)) by (apply Rdiv_lt_0_compat; nra).
  split; [apply Rmult_lt_0_compat; [exact K|apply exp_pos]|]. split.
  - rewrite !F. pose proof (Rabs_pos r1). pose proof (Rabs_pos r2). set (a := Rabs r1) in *. set (d := Rabs r2) in *. set (c := 2 / (w * w)) in *. split; intros H1.
    + apply Rmult_lt_reg_l in H1; [|exact K]. apply exp_lt_inv in H1. assert (c * (a * a) < c * (d * d)) by lra. apply Rmult_lt_reg_l in H2; [nra|exact C].
    + apply Rmult_lt_compat_l; [exact K|]. apply exp_increasing. assert (a * a < d * d) by nra. nra.
  - split.
    + replace (-2 * w * w / (w * w)) with (-2) by (field; lra). replace (-2 * 0 * 0 / (w * w)) with 0 by (field; lra). rewrite exp_0. ring.
    + replace (-2 * 0 * 0 / (w * w)) with 0 by (field; lra). rewrite exp_0. unfold k. field. lra.
Qed.
Print Assumptions C118_profile.

(** setters abort on impossible values and otherwise change only their own parameter; a sequence of accepted calls keeps the
    beam physical *)
Theorem C118_setters : forall b v,
  (set_wavelength b v = (if Rlt_dec 0 v then Ok (mkBeam v (b_waist b) (b_power b) (b_pointing b) (b_position b)) else Throw)) /\
  (set_waist b v = (if Rlt_dec 0 v then Ok (mkBeam (b_wavelength b) v (b_power b) (b_pointing b) (b_position b)) else Throw)) /\
  (set_power b v = (if Rle_dec 0 v then Ok (mkBeam (b_wavelength b) (b_waist b) v (b_pointing b) (b_position b)) else Throw)) /\
  (physical b -> forall b', (set_wavelength b v = Ok b' \/ set_waist b v = Ok b' \/ set_power b v = Ok b') -> physical b') /\
  (forall u z r, intensity (set_pointing b u) z r = intensity b z r /\ intensity (set_position b u) z r = intensity b z r).
Proof.
  intros b v. unfold set_wavelength, set_waist, set_power. destruct (rlt_spec 0 v); destruct (rle_spec 0 v); destruct (Rlt_dec 0 v); destruct (Rle_dec 0 v); try lra;
  (repeat split; try reflexivity; repeat (match goal with H : _ \/ _ |- _ => destruct H | H : Ok _ = Ok _ |- _ => injection H as <- | H : Throw = Ok _ |- _ => discriminate H end); cbn; try (destruct H as (? & ? & ?); tauto || lra)).
Qed.
Print Assumptions C118_setters.

(** example: a 1064 nm beam with a 1 cm waist and 1 W; the constructor itself checks nothing *)
(** a new beam has the given values, unchecked, no pointing direction and its waist at the origin *)
Theorem C118_new : forall wavelength waist power, let b := beam_new wavelength waist power in
  b_wavelength b = wavelength /\ b_waist b = waist /\ b_power b = power /\ (forall i, b_pointing b i = 0 /\ b_position b i = 0).
Proof. intros wavelength waist power b. repeat split. Qed.
Print Assumptions C118_new.
Example C118_example : physical (beam_new (1064 / 1000000000) (1 / 100) 1) /\ ~ physical (beam_new 0 0 (-1)).
Proof. unfold physical, beam_new; cbn [b_wavelength b_waist b_power]. split; [lra|]. intros (H & _); lra. Qed.
