(** C112-C115: gravity potential, its derivatives, and the two disturbances built on it. *)
From Coq Require Import Reals Lra Lia List Arith Bool ZArith.
From Verif Require Import Base RBase VecModel VecProofs QuatModel QuatSpec QuatProofs HillProofs GravitySpec GravityHarmonics GravityModel GravityProofs GravityGrad GravityJac GravityFile.
Import ListNotations.
Open Scope R_scope.

(** ** C112 *)
(** For every degree from 2 on, all coefficients and every position but the centre, the acceleration returned is the gradient of the
    spherical harmonic potential. *)
Theorem C112_acceleration_is_gradient :
  forall (deg : nat) (c s : list (list R)) (mu rr x y z : R),
    (2 <= deg)%nat -> has_coefficients deg c -> has_coefficients deg s -> rr <> 0 -> 0 < x * x + y * y + z * z ->
    exists a : vec, calc_acceleration (gravity_new deg c s mu rr) (v3 x y z) = Ok a /\
      gradient_at (potential mu rr deg (coefficient c) (coefficient s)) x y z (a 0%nat) (a 1%nat) (a 2%nat).
Proof.
  intros deg c s mu rr x y z Hd Hc Hs Hr H. set (g := gravity_new deg c s mu rr).
  assert (D : gp_degree g = deg) by (unfold g, gravity_new; cbn [gp_degree]; replace (deg <=? 1)%nat with false by (symmetry; apply Nat.leb_gt; lia); reflexivity).
  eexists. split; [apply acceleration_run; rewrite ?D; [exact H|exact Hc|exact Hs|lia]|]. cbn [v3]. rewrite D. apply (gradient_run g deg x y z H Hr).
Qed.
Print Assumptions C112_acceleration_is_gradient.

(** That potential is the textbook series in radius, latitude and longitude. *)
Theorem C112_potential_in_spherical_coordinates :
  forall (mu rr : R) (deg : nat) (c s : nat -> nat -> R) (r lat lon : R), 0 < r -> rr <> 0 ->
    potential mu rr deg c s (r * cos lat * cos lon) (r * cos lat * sin lon) (r * sin lat) = potential_spherical mu rr deg c s r lat lon.
Proof. exact potential_polar. Qed.
Print Assumptions C112_potential_in_spherical_coordinates.

(** A degree of 0 or 1 switches the field off, whatever the coefficients. *)
Theorem C112_low_degree :
  forall (deg : nat) (c s : list (list R)) (mu rr : R) (pos : vec), (deg <= 1)%nat ->
    calc_acceleration (gravity_new deg c s mu rr) pos = Ok (v3 0 0 0) /\ calc_partial (gravity_new deg c s mu rr) pos = Ok (m3 0 0 0 0 0 0 0 0 0).
Proof.
  intros deg c s mu rr pos H. unfold gravity_new. replace (deg <=? 1)%nat with true by (symmetry; apply Nat.leb_le; lia). split; reflexivity.
Qed.
Print Assumptions C112_low_degree.

(** A missing coefficient is not noticed: the call reads outside the arrays. *)
Theorem C112_missing_coefficient :
  forall (deg : nat) (c s : list (list R)) (mu rr x y z : R),
    (2 <= deg)%nat -> 0 < x * x + y * y + z * z -> ~ (has_coefficients deg c /\ has_coefficients deg s) ->
    calc_acceleration (gravity_new deg c s mu rr) (v3 x y z) = UB.
Proof.
  intros deg c s mu rr x y z Hd H M. set (g := gravity_new deg c s mu rr).
  assert (D : gp_degree g = deg) by (unfold g, gravity_new; cbn [gp_degree]; replace (deg <=? 1)%nat with false by (symmetry; apply Nat.leb_gt; lia); reflexivity).
  apply acceleration_needs; rewrite ?D; [exact H|lia|exact M].
Qed.
Print Assumptions C112_missing_coefficient.

(** ** C113 *)
Lemma sum_to_zero n f : (forall i, (i <= n)%nat -> f i = 0) -> sum_to n f = 0.
Proof. intros H. induction n as [|n IH]; cbn [sum_to]; [apply H; lia|]. rewrite IH by (intros; apply H; lia). rewrite H by lia. ring. Qed.
(** The matrix returned holds the partial derivatives of the acceleration (row: component, column: coordinate); it is symmetric
    and its trace vanishes. *)
Definition acc_component (g : gravity) (i : nat) (x y z : R) : R := match calc_acceleration g (v3 x y z) with Ok a => a i | _ => 0 end.
Theorem C113_partial_derivatives :
  forall (deg : nat) (c s : list (list R)) (mu rr x y z : R),
    (2 <= deg)%nat -> has_coefficients deg c -> has_coefficients deg s -> rr <> 0 -> 0 < x * x + y * y + z * z ->
    exists j : mat, calc_partial (gravity_new deg c s mu rr) (v3 x y z) = Ok j /\
      jacobian_at (acc_component (gravity_new deg c s mu rr)) x y z j /\
      (forall a b, (a < 3)%nat -> (b < 3)%nat -> j a b = j b a) /\ j 0%nat 0%nat + j 1%nat 1%nat + j 2%nat 2%nat = 0.
Proof.
  intros deg c s mu rr x y z Hd Hc Hs Hr H. set (g := gravity_new deg c s mu rr).
  assert (D : gp_degree g = deg) by (unfold g, gravity_new; cbn [gp_degree]; replace (deg <=? 1)%nat with false by (symmetry; apply Nat.leb_gt; lia); reflexivity).
  eexists. split; [apply partial_run; rewrite ?D; [exact H|exact Hc|exact Hs|lia]|].
  assert (AR : forall x y z, off x y z -> calc_acceleration g (v3 x y z) = Ok (v3 (tot (gp_degree g) (gx g) x y z * (gp_mu g / gp_r g ^ 2)) (tot (gp_degree g) (gy g) x y z * (gp_mu g / gp_r g ^ 2)) (tot (gp_degree g) (gz g) x y z * (gp_mu g / gp_r g ^ 2)))).
  { intros. apply acceleration_run; rewrite ?D; [assumption|exact Hc|exact Hs|lia]. }
  assert (S1 : tot (gp_degree g) (hyx g) x y z = tot (gp_degree g) (hxy g) x y z) by (unfold tot; apply sum_to_ext; intros; apply sum_to_ext; intros; apply sym_xy).
  assert (S2 : tot (gp_degree g) (hzx g) x y z = tot (gp_degree g) (hxz g) x y z) by (unfold tot; apply sum_to_ext; intros; apply sum_to_ext; intros; apply sym_xz).
  assert (S3 : tot (gp_degree g) (hzy g) x y z = tot (gp_degree g) (hyz g) x y z) by (unfold tot; apply sum_to_ext; intros; apply sum_to_ext; intros; apply sym_yz).
  split; [|split].
  - destruct (jac_x g x y z H Hr) as (X1 & X2 & X3). destruct (jac_y g x y z H Hr) as (Y1 & Y2 & Y3). destruct (jac_z g x y z H Hr) as (Z1 & Z2 & Z3).
    destruct (near_x x y z H) as (dx & Px & Ox). destruct (near_y x y z H) as (dy & Py & Oy). destruct (near_z x y z H) as (dz & Pz & Oz).
    rewrite S1 in X2. rewrite S2 in X3. rewrite S3 in Y3.
    intros i Hi. unfold gradient_at, acc_component. destruct i as [|[|[|i]]]; [| | |lia]; cbn [m3]; (split; [|split]).
    + eapply dpl_local; [exact Px| |exact X1]. intros e He. cbn beta. now rewrite AR by (apply Ox, He).
    + eapply dpl_local; [exact Py| |exact Y1]. intros e He. cbn beta. now rewrite AR by (apply Oy, He).
    + eapply dpl_local; [exact Pz| |exact Z1]. intros e He. cbn beta. now rewrite AR by (apply Oz, He).
    + eapply dpl_local; [exact Px| |exact X2]. intros e He. cbn beta. now rewrite AR by (apply Ox, He).
    + eapply dpl_local; [exact Py| |exact Y2]. intros e He. cbn beta. now rewrite AR by (apply Oy, He).
    + eapply dpl_local; [exact Pz| |exact Z2]. intros e He. cbn beta. now rewrite AR by (apply Oz, He).
    + eapply dpl_local; [exact Px| |exact X3]. intros e He. cbn beta. now rewrite AR by (apply Ox, He).
    + eapply dpl_local; [exact Py| |exact Y3]. intros e He. cbn beta. now rewrite AR by (apply Oy, He).
    + eapply dpl_local; [exact Pz| |exact Z3]. intros e He. cbn beta. now rewrite AR by (apply Oz, He).
  - intros a b Ha Hb. destruct a as [|[|[|a]]]; [| | |lia]; (destruct b as [|[|[|b]]]; [| | |lia]); reflexivity.
  - cbn [m3 v3]. assert (L : tot (gp_degree g) (hxx g) x y z + tot (gp_degree g) (hyy g) x y z + tot (gp_degree g) (hzz g) x y z = 0).
    { unfold tot. rewrite <- !sum_to_plus. apply sum_to_zero. intros n _. rewrite <- !sum_to_plus. apply sum_to_zero. intros m _. apply h_laplace. }
    transitivity ((tot (gp_degree g) (hxx g) x y z + tot (gp_degree g) (hyy g) x y z + tot (gp_degree g) (hzz g) x y z) * (gp_mu g / gp_r g ^ 3)); [ring|]. rewrite L. ring.
Qed.
Print Assumptions C113_partial_derivatives.

(** ** C114: the Earth's field *)
Lemma size_small d : (0 <= d < 18446744073709551616)%Z -> to_size d = d. Proof. apply Z.mod_small. Qed.
Lemma clamp_in l d : (2 <= d <= l)%Z -> (l <= 100000)%Z -> clamp_degree l d = Z.to_nat d.
Proof.
  intros H L. unfold clamp_degree. rewrite size_small by lia. replace (d >? l)%Z with false by (symmetry; rewrite Z.gtb_ltb; apply Z.ltb_ge; lia).
  replace (d <=? 1)%Z with false by (symmetry; apply Z.leb_gt; lia). reflexivity.
Qed.
Lemma potential_ext mu rr deg c s c' s' x y z : (forall n m, (m <= n <= deg)%nat -> c n m = c' n m /\ s n m = s' n m) -> potential mu rr deg c s x y z = potential mu rr deg c' s' x y z.
Proof. intros H. unfold potential. f_equal. apply sum_to_ext. intros n Hn. apply sum_to_ext. intros m Hm. destruct (H n m) as [-> ->]; [lia|reflexivity]. Qed.
Lemma gradient_ext f h x y z a b c : (forall x y z, f x y z = h x y z) -> gradient_at f x y z a b c -> gradient_at h x y z a b c.
Proof. intros E (D1 & D2 & D3). repeat split; (eapply dpl_ext; [|eassumption]); intros; apply E. Qed.

(** Built with a degree from 2 to 360 and a file with a readable line in range for each of the (d+1)(d+2)/2 - 3 coefficients (in any
    order), the object yields in the Earth-fixed frame the gradient of the potential with the file's coefficients (the last line
    wins, coefficients that no line gives are zero), and in the inertial frame that same vector turned back. *)
Theorem C114_geopotential :
  forall (mu rr : R) (d : Z) (lines : list cline) (dcm : mat) (x y z : R),
    (2 <= d <= 360)%Z -> rr <> 0 -> rotation dcm -> 0 < x * x + y * y + z * z ->
    let n := Z.to_nat d in let used := firstn ((n + 1) * (n + 2) / 2 - 3) lines in
    ((n + 1) * (n + 2) / 2 - 3 <= length lines)%nat -> Forall (in_square n) used ->
    exists (g : gravity) (a ai : vec), geopotential_new mu rr d (Some lines) = Ok g /\ geopotential_update g dcm (v3 x y z) = Ok (a, ai) /\
      gradient_at (potential mu rr n (fun i j => file_value used i j false 0) (fun i j => file_value used i j true 0)) x y z (a 0%nat) (a 1%nat) (a 2%nat) /\
      veq 3 (mvec 3 dcm ai) a.
Proof.
  intros mu rr d lines dcm x y z Hd Hr Hrot H n used L F. unfold geopotential_new. rewrite (clamp_in 360 d) by lia. fold n. rewrite size_small by lia. fold n.
  replace (2 <=? n)%nat with true by (symmetry; apply Nat.leb_le; unfold n; lia).
  destruct (read_ok UB n _ lines (zeros n) (zeros n) (zeros_square n) (zeros_square n) L F) as (c & s & E & Sc & Ss & Vf). rewrite E. cbn [bind].
  destruct (C112_acceleration_is_gradient n c s mu rr x y z) as (a & Ea & Ga); [unfold n; lia|apply (square_has n); [exact Sc|lia]|apply (square_has n); [exact Ss|lia]|exact Hr|exact H|].
  exists (gravity_new n c s mu rr), a, (mvec 3 (mtrans dcm) a). split; [reflexivity|]. unfold geopotential_update. rewrite Ea. split; [reflexivity|]. split.
  - eapply gradient_ext; [|exact Ga]. intros x' y' z'. apply potential_ext. intros i j Hij. destruct (Vf i j) as [E1 E2]; [lia|lia|]. rewrite E1, E2, !zeros_coefficient. split; reflexivity.
  - intros i Hi. apply (rotation_back dcm a Hrot i Hi).
Qed.
Print Assumptions C114_geopotential.

(** When the coefficient file cannot be opened (or the degree is 0 or 1), the object works and yields no acceleration. *)
Theorem C114_without_file :
  forall (mu rr : R) (d : Z) (file : option (list cline)) (dcm : mat) (x y z : R),
    0 < x * x + y * y + z * z -> rr <> 0 -> (0 <= d <= 1)%Z \/ ((2 <= d <= 360)%Z /\ file = None) ->
    exists (g : gravity) (a ai : vec), geopotential_new mu rr d file = Ok g /\ geopotential_update g dcm (v3 x y z) = Ok (a, ai) /\ veq 3 a (v3 0 0 0) /\ veq 3 ai (v3 0 0 0).
Proof.
  intros mu rr d file dcm x y z H Hr C.
  assert (Z0 : forall m : mat, forall a, veq 3 a (v3 0 0 0) -> veq 3 (mvec 3 m a) (v3 0 0 0)).
  { intros m a Ea i Hi. unfold mvec. cbn [sumn]. rewrite (Ea 0%nat), (Ea 1%nat), (Ea 2%nat) by lia. cbn [v3]. destruct i as [|[|[|i]]]; [| | |lia]; cbn; ring. }
  destruct C as [C|[C ->]].
  - assert (Ec : clamp_degree 360 d = 0%nat).
    { unfold clamp_degree. rewrite size_small by lia. replace (d >? 360)%Z with false by (symmetry; rewrite Z.gtb_ltb; apply Z.ltb_ge; lia). replace (d <=? 1)%Z with true by (symmetry; apply Z.leb_le; lia). reflexivity. }
    unfold geopotential_new. rewrite Ec. cbn [Nat.leb bind]. eexists. eexists. eexists. split; [reflexivity|]. unfold geopotential_update.
    destruct (C112_low_degree (Z.to_nat (to_size d)) (zeros 0) (zeros 0) mu rr (v3 x y z)) as [Ea _]; [rewrite size_small by lia; lia|]. rewrite Ea. split; [reflexivity|]. split; [intros i Hi; reflexivity|apply Z0; intros i Hi; reflexivity].
  - unfold geopotential_new. rewrite (clamp_in 360 d) by lia. rewrite size_small by lia. set (n := Z.to_nat d). replace (2 <=? n)%nat with true by (symmetry; apply Nat.leb_le; unfold n; lia). cbn [bind].
    set (g := gravity_new n (zeros n) (zeros n) mu rr).
    assert (D : gp_degree g = n) by (unfold g, gravity_new; cbn [gp_degree]; replace (n <=? 1)%nat with false by (symmetry; apply Nat.leb_gt; unfold n; lia); reflexivity).
    assert (Hz : has_coefficients n (zeros n)) by (apply (square_has n); [apply zeros_square|lia]).
    exists g. eexists. eexists. split; [reflexivity|]. unfold geopotential_update.
    rewrite (acceleration_run g x y z H) by (rewrite ?D; try exact Hz; unfold n; lia). cbn [bind]. split; [reflexivity|].
    assert (T : forall f, (forall i j, f i j x y z = 0) -> tot (gp_degree g) f x y z = 0) by (intros f Hf; unfold tot; apply sum_to_zero; intros; apply sum_to_zero; intros; apply Hf).
    assert (V0 : veq 3 (v3 (tot (gp_degree g) (gx g) x y z * (gp_mu g / gp_r g ^ 2)) (tot (gp_degree g) (gy g) x y z * (gp_mu g / gp_r g ^ 2)) (tot (gp_degree g) (gz g) x y z * (gp_mu g / gp_r g ^ 2))) (v3 0 0 0)).
    { rewrite !T; [intros i Hi; destruct i as [|[|[|i]]]; [| | |lia]; cbn [v3]; ring| | |]; intros i j; unfold gx, gy, gz; cbn [gp_c gp_s g gravity_new]; rewrite !zeros_coefficient; ring. }
    split; [exact V0|apply Z0; exact V0].
Qed.
Print Assumptions C114_without_file.

(** "A degree over 360 is limited to 360" (which is what the program prints) does not hold: the arrays are limited, the degree used
    is not, and every update reads outside the arrays. *)
Theorem C114_degree_is_limited_refuted :
  forall (mu rr : R) (d : Z) (file : option (list cline)) (dcm : mat) (x y z : R) (g : gravity),
    (360 < d <= 10000)%Z -> 0 < x * x + y * y + z * z -> geopotential_new mu rr d file = Ok g ->
    geopotential_update g dcm (v3 x y z) = UB.
Proof.
  intros mu rr d file dcm x y z g Hd H E. unfold geopotential_new in E.
  assert (Ec : clamp_degree 360 d = Z.to_nat 360).
  { unfold clamp_degree. rewrite size_small by lia. replace (d >? 360)%Z with true by (symmetry; rewrite Z.gtb_ltb; apply Z.ltb_lt; lia). reflexivity. }
  rewrite Ec in E. remember (Z.to_nat 360) as k eqn:Ek. replace (2 <=? k)%nat with true in E by (symmetry; apply Nat.leb_le; lia).
  set (rd := match file with None => _ | Some _ => _ end) in E.
  assert (X : exists c s, rd = Ok (c, s) /\ square k c).
  { destruct rd as [[c s]| | |] eqn:Er; cbn [bind] in E; try discriminate. exists c, s. split; [reflexivity|]. unfold rd in Er. destruct file as [lines|].
    - clear E. revert Er. generalize ((k + 1) * (k + 2) / 2 - 3)%nat as cnt. intros cnt.
      assert (G : forall cnt lines c0 s0, square k c0 -> read_lines UB lines cnt c0 s0 = Ok (c, s) -> square k c).
      { clear. induction cnt as [|cnt IH]; intros lines c0 s0 S0 Er; cbn [read_lines] in Er; [inversion Er; subst; exact S0|].
        destruct lines as [|[[[[n m] cv] sv]|] lines]; try discriminate. unfold put at 1 in Er. destruct ((n <? 0) || (m <? 0))%Z eqn:Eb; [discriminate|].
        apply orb_false_iff in Eb. destruct Eb as [B1 B2]. apply Z.ltb_ge in B1, B2.
        destruct (nth_error c0 (Z.to_nat n)) as [row|] eqn:En; [|discriminate]. destruct (Z.to_nat m <? length row)%nat eqn:Em; [|discriminate]. apply Nat.ltb_lt in Em. cbn [bind] in Er.
        destruct S0 as [L1 L2]. assert (La : (Z.to_nat n < length c0)%nat) by (apply nth_error_Some; congruence).
        assert (Lr : length row = (k + 1)%nat) by (rewrite <- (nth_error_nth c0 (Z.to_nat n) [] En); apply L2; lia).
        destruct (put s0 n m sv) as [s1| | |]; cbn [bind] in Er; try discriminate. eapply IH; [|exact Er].
        change (square k (splice c0 (Z.to_nat n) (splice row (Z.to_nat m) cv))). split; [rewrite splice_length by exact La; exact L1|].
        intros i Hi. rewrite splice_nth by exact La. destruct (i =? Z.to_nat n)%nat; [rewrite splice_length by exact Em; exact Lr|apply L2; exact Hi]. }
      intros Er. eapply G; [apply zeros_square|exact Er].
    - inversion Er; subst. apply zeros_square. }
  destruct X as (c & s & Er & Sq). rewrite Er in E. cbn [bind] in E. inversion E. subst g. unfold geopotential_update. rewrite size_small by lia.
  rewrite C112_missing_coefficient; [reflexivity|lia|exact H|]. intros [Hc _]. specialize (Hc 361%nat 0%nat). destruct Sq as [L1 _].
  rewrite nth_overflow in Hc by (rewrite L1; lia). cbn in Hc. lia.
Qed.
Print Assumptions C114_degree_is_limited_refuted.

(** ** C115: the Moon's field *)
(** Built with a degree from 2 to 1200 and a readable file, the field used with a rotation matrix yields the gradient, in the Moon-fixed
    frame, of the potential with the file's radius [km], gravity constant [km3/s2] and coefficients, turned back to the inertial frame. *)
Theorem C115_lunar_field :
  forall (d : Z) (radius_km mu_km3 : R) (lines : list cline) (dcm : mat) (pos : vec),
    (2 <= d <= 1200)%Z -> radius_km <> 0 -> rotation dcm ->
    let n := Z.to_nat d in let used := firstn ((n + 1) * (n + 2) / 2 - 1) lines in
    ((n + 1) * (n + 2) / 2 - 1 <= length lines)%nat -> Forall (in_square n) used ->
    let p := mvec 3 dcm pos in
    0 < p 0%nat * p 0%nat + p 1%nat * p 1%nat + p 2%nat * p 2%nat ->
    exists (g : gravity) (a ai : vec), lunar_new d (Some (mkLunarFile (Some (radius_km, mu_km3)) lines)) = Ok g /\ lunar_with g dcm pos = Ok (a, ai) /\
      gradient_at (potential (mu_km3 * 10 ^ 9) (radius_km * 1000) n (fun i j => file_value used i j false 0) (fun i j => file_value used i j true 0))
        (p 0%nat) (p 1%nat) (p 2%nat) (a 0%nat) (a 1%nat) (a 2%nat) /\
      veq 3 (mvec 3 dcm ai) a.
Proof.
  intros d rk mk lines dcm pos Hd Hr Hrot n used L F p H. unfold lunar_new. rewrite (clamp_in 1200 d) by lia. fold n. rewrite size_small by lia. fold n.
  replace (2 <=? n)%nat with true by (symmetry; apply Nat.leb_le; unfold n; lia). cbn [lf_header lf_lines].
  destruct (read_ok Throw n _ lines (zeros n) (zeros n) (zeros_square n) (zeros_square n) L F) as (c & s & E & Sc & Ss & Vf). rewrite E. cbn [bind].
  destruct (C112_acceleration_is_gradient n c s (mk * 10 ^ 9) (rk * 10 ^ 3) (p 0%nat) (p 1%nat) (p 2%nat)) as (a & Ea & Ga);
    [unfold n; lia|apply (square_has n); [exact Sc|lia]|apply (square_has n); [exact Ss|lia]|cbn [pow]; lra|exact H|].
  exists (gravity_new n c s (mk * 10 ^ 9) (rk * 10 ^ 3)), a, (mvec 3 (mtrans dcm) a). split; [reflexivity|]. unfold lunar_with. fold p.
  assert (Ep : calc_acceleration (gravity_new n c s (mk * 10 ^ 9) (rk * 10 ^ 3)) p = Ok a).
  { rewrite <- Ea. unfold calc_acceleration, place_of. cbn [v3]. replace (norm 3 (v3 (p 0%nat) (p 1%nat) (p 2%nat))) with (norm 3 p); [reflexivity|]. unfold norm, dot. cbn [sumn v3]. reflexivity. }
  rewrite Ep. split; [reflexivity|]. split.
  - replace (rk * 1000) with (rk * 10 ^ 3) by (cbn [pow]; ring). eapply gradient_ext; [|exact Ga]. intros x' y' z'. apply potential_ext. intros i j Hij. destruct (Vf i j) as [E1 E2]; [lia|lia|]. rewrite E1, E2, !zeros_coefficient. split; reflexivity.
  - intros i Hi. apply (rotation_back dcm a Hrot i Hi).
Qed.
Print Assumptions C115_lunar_field.

(** But the update takes the matrix from a copy of the celestial information whose pointer was never set: it is undefined for every
    field, state and position. *)
Theorem C115_update_refuted : forall (g : gravity) (c : celestial_moon) (pos : vec), lunar_update g c pos = UB.
Proof. reflexivity. Qed.
Print Assumptions C115_update_refuted.

(** Without a file, or with a degree of 0 or 1, already the construction reads the radius and gravity constant that nothing has set;
    a first line that is not two numbers ends in an exception. *)
Theorem C115_construction_failures :
  forall (d : Z) (file : option lunar_file), (0 <= d <= 1200)%Z ->
    ((d <= 1)%Z \/ file = None -> lunar_new d file = UB) /\
    (forall f, (2 <= d)%Z -> file = Some f -> lf_header f = None -> lunar_new d file = Throw).
Proof.
  intros d file Hd. split.
  - intros C. unfold lunar_new. destruct (2 <=? clamp_degree 1200 d)%nat eqn:E; [|reflexivity]. destruct C as [C|C]; [|now rewrite C].
    exfalso. apply Nat.leb_le in E. unfold clamp_degree in E. rewrite size_small in E by lia. replace (d >? 1200)%Z with false in E by (symmetry; rewrite Z.gtb_ltb; apply Z.ltb_ge; lia).
    replace (d <=? 1)%Z with true in E by (symmetry; apply Z.leb_le; lia). lia.
  - intros f H2 -> Hh. unfold lunar_new. rewrite (clamp_in 1200 d) by lia. replace (2 <=? Z.to_nat d)%nat with true by (symmetry; apply Nat.leb_le; lia). now rewrite Hh.
Qed.
Print Assumptions C115_construction_failures.

(** ** The hypotheses are met by concrete cases *)
(** the oblateness term alone: the potential is mu/r (R/r)^2 sqrt(5) C20 (3 sin^2 lat - 1)/2 *)
Example oblateness : forall mu rr c20 r lat lon, 0 < r -> rr <> 0 ->
  potential_spherical mu rr 2 (coefficient [[0; 0; 0]; [0; 0; 0]; [c20; 0; 0]]) (coefficient (zeros 2)) r lat lon
  = mu / r * (rr / r) ^ 2 * sqrt 5 * c20 * ((3 * sin lat ^ 2 - 1) / 2).
Proof.
  intros mu rr c20 r lat lon H Hr. unfold potential_spherical. cbn [sum_to]. unfold coefficient. cbn [nth]. rewrite !zeros_coefficient || idtac. unfold zeros. cbn [repeat Nat.add nth].
  unfold assoc_legendre, legendre_deriv, legendre. cbn [legendre_pair Nat.iter fst snd padd pscal map peval INR pow].
  replace (norm_factor 2 0) with (sqrt 5) by (unfold norm_factor; cbn [fact Nat.sub Nat.add Nat.mul INR]; f_equal; field).
  replace (0 * lon) with 0 by ring. rewrite cos_0, sin_0. change (Nat.iter 0 pderiv) with (fun l : list R => l). cbn beta. cbn [peval]. field. lra.
Qed.
Example coefficients_present : has_coefficients 2 [[0; 0; 0]; [0; 0; 0]; [1; 0; 0]].
Proof. intros n m H. destruct n as [|[|[|n]]]; cbn; lia. Qed.
Example gradient_case : exists a : vec, calc_acceleration (gravity_new 2 [[0; 0; 0]; [0; 0; 0]; [1; 0; 0]] (zeros 2) 1 1) (v3 1 2 3) = Ok a.
Proof. destruct (C112_acceleration_is_gradient 2 [[0; 0; 0]; [0; 0; 0]; [1; 0; 0]] (zeros 2) 1 1 1 2 3) as (a & E & _); [lia|apply coefficients_present|apply (square_has 2); [apply zeros_square|lia]|lra|lra|]. eauto. Qed.
Example file_case : let lines := [Some (2, 0, 1, 0); Some (2, 1, 3, 4); Some (2, 2, 5, 6)]%Z in
  exists g, geopotential_new 1 1 2 (Some (map (fun l => match l with Some (n, m, c, s) => Some (n, m, IZR c, IZR s) | None => None end) lines)) = Ok g /\ coefficient (gp_c g) 2 1 = 3 /\ coefficient (gp_s g) 2 2 = 6.
Proof. cbn. eexists. split; [reflexivity|]. split; reflexivity. Qed.
