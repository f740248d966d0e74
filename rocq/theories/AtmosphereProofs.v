From Coq Require Import Reals Lra Lia List Bool Arith String.
From Verif Require Import Base RBase VecModel VecProofs QuatSpec QuatProofs Trig AtmosphereModel AtmosphereSpec.
Import ListNotations.
Open Scope R_scope.

Ltac adj H1 H2 := cbn [nth_error] in H1, H2; first [discriminate|injection H1 as <- <-; injection H2 as <- <-; split; lra].
Lemma hp_min_falling : falling hp_min.
Proof. unfold falling, hp_min. intros i h1 d1 h2 d2 H1 H2. do 50 (destruct i as [|i]; [adj H1 H2|]). destruct i; discriminate. Qed.
Lemma hp_max_falling : falling hp_max.
Proof. unfold falling, hp_max. intros i h1 d1 h2 d2 H1 H2. do 50 (destruct i as [|i]; [adj H1 H2|]). destruct i; discriminate. Qed.
Lemma hp_aligned i h1 d1 : nth_error hp_min i = Some (h1, d1) -> exists d2, nth_error hp_max i = Some (h1, d2) /\ 0 < d1 <= d2.
Proof.
  unfold hp_min, hp_max. intros H. do 50 (destruct i as [|i]; [cbn [nth_error] in *; injection H as <- <-; eexists; split; [reflexivity|lra]|]). destruct i; discriminate.
Qed.
Section table.
Context (t : list (R * R)) (F : falling t).
Lemma falling_order : forall k i h1 d1 h2 d2, nth_error t i = Some (h1, d1) -> nth_error t (S k + i) = Some (h2, d2) -> h1 < h2 /\ d2 < d1.
Proof.
  induction k as [|k IH]; intros i h1 d1 h2 d2 H1 H2.
  - destruct (F i h1 d1 h2 d2 H1 H2). lra.
  - destruct (nth_error t (S k + i)) as [[h d]|] eqn:E.
    + destruct (IH _ _ _ _ _ H1 E). destruct (F _ _ _ _ _ E H2). lra.
    + exfalso. apply nth_error_None in E. assert (nth_error t (S (S k) + i) <> None) by congruence. apply nth_error_Some in H. lia.
Qed.
Lemma falling_pos i h d : nth_error t (S i) = Some (h, d) -> 0 < d.
Proof.
  intro H. destruct (nth_error t i) as [[h1 d1]|] eqn:E; [exact (proj1 (proj2 (F i h1 d1 h d E H)))|]. exfalso. apply nth_error_None in E. assert (nth_error t (S i) <> None) by congruence. apply nth_error_Some in H0. lia.
Qed.
Lemma segment_bounds i h1 d1 h2 d2 h v : nth_error t i = Some (h1, d1) -> nth_error t (S i) = Some (h2, d2) -> h1 <= h < h2 -> 0 < v ->
  (h2 - h1) * ln v = (h2 - h) * ln d1 + (h - h1) * ln d2 -> d2 < v <= d1 /\ (h = h1 -> v = d1).
Proof.
  intros H1 H2 HH V E. destruct (F _ _ _ _ _ H1 H2) as (L & D2 & D). pose proof (ln_increasing d2 d1 D2 D) as LL.
  assert (A : ln v <= ln d1) by (apply (Rmult_le_reg_l (h2 - h1)); [lra|]; rewrite E; nra). assert (B : ln d2 < ln v) by (apply (Rmult_lt_reg_l (h2 - h1)); [lra|]; rewrite E; nra).
  split; [split; [now apply ln_lt_inv|]|].
  - destruct A as [A|A]; [left; apply ln_lt_inv; lra|right; apply ln_inv; lra].
  - intros ->. apply ln_inv; [lra|lra|]. apply (Rmult_eq_reg_l (h2 - h1)); [|lra]. rewrite E. ring.
Qed.
Lemma interpolated_falls h h' v v' : log_interpolated t h v -> log_interpolated t h' v' -> h < h' -> v' < v.
Proof.
  intros (i & h1 & d1 & h2 & d2 & E1 & E2 & H & V & EV) (i' & h1' & d1' & h2' & d2' & E1' & E2' & H' & V' & EV') L.
  pose proof (segment_bounds _ _ _ _ _ _ _ E1 E2 H V EV) as [B _]. pose proof (segment_bounds _ _ _ _ _ _ _ E1' E2' H' V' EV') as [B' _].
  destruct (Nat.lt_trichotomy i i') as [O|[->|O]].
  - destruct (Nat.eq_dec i' (S i)) as [->|NE]; [rewrite E2 in E1'; injection E1' as <- <-; lra|]. destruct (falling_order (i' - S i - 1) (S i) h2 d2 h1' d1' E2) as [_ O2]; [rewrite <- E1'; f_equal; lia|lra].
  - rewrite E1 in E1'. injection E1' as <- <-. rewrite E2 in E2'. injection E2' as <- <-. destruct (F _ _ _ _ _ E1 E2) as (LH & D2 & D). pose proof (ln_increasing d2 d1 D2 D) as LL. apply ln_lt_inv; [assumption..|]. apply (Rmult_lt_reg_l (h2 - h1)); [lra|]. rewrite EV, EV'. nra.
  - exfalso. destruct (Nat.eq_dec i (S i')) as [->|NE]; [rewrite E2' in E1; injection E1 as <- <-; lra|]. destruct (falling_order (i - S i' - 1) (S i') h2' d2' h1 d1 E2') as [O2 _]; [rewrite <- E1; f_equal; lia|lra].
Qed.
Lemma interpolated_unique h v v' : log_interpolated t h v -> log_interpolated t h v' -> v = v'.
Proof.
  intros (i & h1 & d1 & h2 & d2 & E1 & E2 & H & V & EV) (i' & h1' & d1' & h2' & d2' & E1' & E2' & H' & V' & EV').
  assert (i = i') as <-.
  { destruct (Nat.lt_trichotomy i i') as [O|[->|O]]; [|reflexivity|]; exfalso.
    - destruct (Nat.eq_dec i' (S i)) as [->|NE]; [rewrite E2 in E1'; injection E1' as <- <-; lra|]. destruct (falling_order (i' - S i - 1) (S i) h2 d2 h1' d1' E2) as [O2 _]; [rewrite <- E1'; f_equal; lia|lra].
    - destruct (Nat.eq_dec i (S i')) as [->|NE]; [rewrite E2' in E1; injection E1 as <- <-; lra|]. destruct (falling_order (i - S i' - 1) (S i') h2' d2' h1 d1 E2') as [O2 _]; [rewrite <- E1; f_equal; lia|lra]. }
  rewrite E1 in E1'. injection E1' as <- <-. rewrite E2 in E2'. injection E2' as <- <-. apply ln_inv; [assumption..|]. apply (Rmult_eq_reg_l (h2 - h1)); [congruence|lra].
Qed.
Lemma ub_spec : forall x, let n := upper_bound x t in
  (forall i h d, (i < n)%nat -> nth_error t i = Some (h, d) -> h <= x) /\ (forall h d, nth_error t n = Some (h, d) -> x < h) /\ (n <= List.length t)%nat.
Proof.
  clear F. intro x. cbv zeta. induction t as [|[h0 d0] l IH]; cbn [upper_bound].
  - split; [intros; lia|]. split; [intros h d H; discriminate|cbn; lia].
  - destruct (rlt_spec x h0) as [L|L].
    + split; [intros; lia|]. split; [intros h d H; cbn in H; injection H as <- <-; exact L|cbn; lia].
    + destruct IH as (A & B & C). split; [|split].
      * intros [|i] h d Hi H; cbn in H; [injection H as <- <-; lra|]. exact (A i h d ltac:(lia) H).
      * intros h d H. exact (B h d H). * cbn. lia.
Qed.
Lemma apex_density_spec alt : let n := upper_bound alt t in (0 < n < List.length t)%nat -> exists v, apex_density t (n - 1) alt = Ok v /\ log_interpolated t alt v.
Proof.
  cbv zeta. intros [N0 N1]. destruct (ub_spec alt) as (A & B & _). cbv zeta in A, B. set (n := upper_bound alt t) in *.
  destruct (nth_error t (n - 1)) as [[h1 d1]|] eqn:E1; [|apply nth_error_None in E1; lia]. destruct (nth_error t n) as [[h2 d2]|] eqn:E2; [|apply nth_error_None in E2; lia].
  pose proof (A (n - 1)%nat h1 d1 ltac:(lia) E1) as L1. pose proof (B h2 d2 eq_refl) as L2. replace n with (S (n - 1)) in E2 by lia. destruct (F _ _ _ _ _ E1 E2) as (LH & D2 & D).
  unfold apex_density, entry. rewrite E1. cbn [bind]. rewrite E2. cbn [bind fst snd]. eexists. split; [reflexivity|]. exists (n - 1)%nat, h1, d1, h2, d2. split; [exact E1|]. split; [exact E2|]. split; [lra|].
  split; [apply Rmult_lt_0_compat; [lra|apply exp_pos]|]. rewrite ln_mult by (try apply exp_pos; lra). rewrite ln_exp. assert (LD : ln (d2 / d1) = ln d2 - ln d1). { unfold Rdiv. rewrite ln_mult, ln_Rinv by (try apply Rinv_0_lt_compat; lra). reflexivity. }
  rewrite LD. pose proof (ln_increasing d2 d1 D2 D) as LL. field. split; lra.
Qed.
End table.
Lemma hp_count alt : 100 <= alt < 1000 -> (0 < upper_bound alt hp_min < 50)%nat /\ upper_bound alt hp_max = upper_bound alt hp_min.
Proof.
  intros [L U]. assert (EQ : upper_bound alt hp_max = upper_bound alt hp_min).
  { unfold hp_min, hp_max. cbn [upper_bound]. repeat (match goal with |- context [rlt alt ?h] => destruct (rlt alt h) end; [reflexivity|f_equal]). }
  split; [|exact EQ]. destruct (ub_spec hp_min alt) as (A & B & C). cbv zeta in *. change (List.length hp_min) with 50%nat in C. set (n := upper_bound alt hp_min) in *. split.
  - destruct n; [|lia]. specialize (B 100 497400 eq_refl). lra.
  - destruct (Nat.eq_dec n 50) as [->|]; [|lia]. specialize (A 49%nat 1000 (115 / 10 ^ 5) ltac:(lia) eq_refl). lra.
Qed.
Lemma min_le_max h v v' : log_interpolated hp_min h v -> log_interpolated hp_max h v' -> v <= v'.
Proof.
  intros (i & h1 & d1 & h2 & d2 & E1 & E2 & H & V & EV) I. destruct (hp_aligned _ _ _ E1) as (e1 & F1 & P1). destruct (hp_aligned _ _ _ E2) as (e2 & F2 & P2).
  assert (EV' : exists v'', 0 < v'' /\ (h2 - h1) * ln v'' = (h2 - h) * ln e1 + (h - h1) * ln e2). { exists (exp (((h2 - h) * ln e1 + (h - h1) * ln e2) / (h2 - h1))). split; [apply exp_pos|]. rewrite ln_exp. field. lra. }
  destruct EV' as (v'' & V'' & EV''). assert (v' = v'') as ->. { apply (interpolated_unique hp_max hp_max_falling h); [exact I|]. exists i, h1, e1, h2, e2. now repeat split. }
  assert (LE : forall a b, 0 < a <= b -> ln a <= ln b). { intros a b [A [B|B]]; [left; now apply ln_increasing|right; now rewrite B]. } pose proof (LE _ _ P1). pose proof (LE _ _ P2).
  assert (K : ln v <= ln v''). { apply (Rmult_le_reg_l (h2 - h1)); [lra|]. rewrite EV, EV''. nra. } destruct K as [K|K]; [left; apply ln_lt_inv; lra|right; apply ln_inv; lra].
Qed.
(** the apex *)
Lemma apex_turned sun : unit 3 sun -> veq 3 (apex_direction sun) (turned_z lag_angle sun).
Proof.
  intro U. apply unit3 in U. unfold apex_direction, turned_z. set (x := sun 0%nat) in *. set (y := sun 1%nat) in *. set (z := sun 2%nat) in *. set (rho := sqrt (x * x + y * y)).
  assert (R2 : rho * rho = x * x + y * y) by (apply sqrt_sqrt; nra). assert (R0 : 0 <= rho) by apply sqrt_pos.
  assert (DEC : cos (atan2 z rho) = rho /\ sin (atan2 z rho) = z). { destruct (atan2_spec rho z) as [A B]; [destruct (Req_dec rho 0) as [Z|Z]; [right; nra|now left]|]. replace (rho * rho + z * z) with 1 in * by nra. rewrite sqrt_1 in *. lra. }
  destruct DEC as [DC DS]. rewrite DC, DS.
  assert (RA : rho * cos (atan2 y x) = x /\ rho * sin (atan2 y x) = y). { destruct (Req_dec rho 0) as [Z|Z]; [rewrite Z, !Rmult_0_l; split; nra|]. destruct (atan2_spec x y) as [A B]; [destruct (Req_dec x 0); [right; nra|now left]|]. fold rho in A, B. split; lra. }
  destruct RA as [RC RS]. intros j Hj. i3 j Hj; cbn [v3]; [rewrite cos_plus|rewrite sin_plus|reflexivity].
  - replace (rho * _) with (rho * cos (atan2 y x) * cos lag_angle - rho * sin (atan2 y x) * sin lag_angle) by ring. rewrite RC, RS. ring.
  - replace (rho * _) with (rho * sin (atan2 y x) * cos lag_angle + rho * cos (atan2 y x) * sin lag_angle) by ring. rewrite RC, RS. ring.
Qed.
Lemma turned_unit a v : unit 3 v -> unit 3 (turned_z a v).
Proof. intro U. apply unit3 in U. unfold unit, dot. rewrite sumn3. unfold turned_z. cbn [v3]. pose proof (sc a) as T. set (s := sin a) in *. set (c := cos a) in *. replace (_ + _ + _) with ((s * s + c * c) * (v 0%nat * v 0%nat + v 1%nat * v 1%nat) + v 2%nat * v 2%nat) by ring. rewrite T. lra. Qed.
