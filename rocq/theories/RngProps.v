(** C18, C19, C47, C48: random number generators. *)
From Coq Require Import List ZArith Bool Reals Lra Lia.
From Verif Require Import Base RngModel RngSpec RngProofs.
Import ListNotations.
Open Scope Z_scope.

(** C18: for every 64 bit seed no draw ever overflows, and the state is always congruent to the
    minimal standard sequence 16807^n * seed modulo 2^31-1. *)
Theorem C18_never_overflows : forall seed n, in_long seed ->
  exists x, lcg_iter n seed = Ok x /\ x mod (2 ^ 31 - 1) = min_std seed n.
Proof. exact lcg_never_overflows. Qed.
Print Assumptions C18_never_overflows.

(** C18: from the sixth draw on for every 64 bit seed, and from the first draw on for seeds of
    magnitude up to 9.67*10^10, the state is exactly that sequence reduced to [0, 2^31-1). *)
Theorem C18_minimal_standard : forall seed n, in_long seed ->
  (6 <= n)%nat \/ (Z.abs seed <= 96752654378 /\ (1 <= n)%nat) -> lcg_iter n seed = Ok (min_std seed n).
Proof.
  intros s n H [Hn|[Hs Hn]]; [now apply lcg_any|]. destruct n as [|n]; [lia|]. now apply lcg_small.
Qed.
Print Assumptions C18_minimal_standard.

(** C18: with a huge seed the first draws leave (0,1): the seed 2^62 gives a large negative value. *)
Theorem C18_huge_seed_first_draw_refuted :
  exists x, lcg_iter 1 (2 ^ 62) = Ok x /\ (lcg_out x < -40000000)%R.
Proof.
  eexists. split; [vm_compute; reflexivity|]. unfold lcg_out. change (IZR kM) with 2147483647%R. lra.
Qed.
Print Assumptions C18_huge_seed_first_draw_refuted.

(** C18: outputs lie strictly between 0 and 1 for every seed that is no multiple of 2^31-1. *)
Theorem C18_outputs_in_unit_interval : forall seed n x, in_long seed -> ~ (2 ^ 31 - 1 | seed) ->
  (6 <= n)%nat \/ (Z.abs seed <= 96752654378 /\ (1 <= n)%nat) -> lcg_iter n seed = Ok x ->
  (0 < lcg_out x < 1)%R /\ lcg_out x = unit_value x.
Proof.
  intros s n x H ND Hn E. rewrite (C18_minimal_standard s n H Hn) in E. injection E as <-.
  pose proof (min_std_pos s n ND) as [P1 P2]. split; [|apply lcg_out_unit].
  split; [|apply lcg_out_range; lia]. rewrite lcg_out_unit. unfold unit_value.
  apply Rmult_lt_0_compat; [apply (IZR_lt 0); lia|]. apply Rinv_0_lt_compat. apply (IZR_lt 0). reflexivity.
Qed.
Print Assumptions C18_outputs_in_unit_interval.

(** C18: full period: the states repeat after 2^31-2 draws, not earlier, and take every value
    1 .. 2^31-2. *)
Theorem C18_full_period : forall seed, ~ (2 ^ 31 - 1 | seed) ->
  (forall n, min_std seed (n + Z.to_nat (2 ^ 31 - 2)) = min_std seed n) /\
  (forall i j, (i < j)%nat -> Z.of_nat j - Z.of_nat i < 2 ^ 31 - 2 -> min_std seed i <> min_std seed j) /\
  (forall x, 1 <= x < 2 ^ 31 - 1 -> exists n, Z.of_nat n < 2 ^ 31 - 2 /\ min_std seed n = x).
Proof.
  intros s ND. split; [intros n; apply min_std_periodic|]. split; [intros i j; now apply min_std_distinct|].
  intros x; now apply min_std_reaches.
Qed.
Print Assumptions C18_full_period.

(** C18: seed 0 is rejected; other multiples of 2^31-1 are accepted and give 0 forever. *)
Theorem C18_bad_seeds :
  lcg_init 0 = Throw /\
  forall c n, c <> 0 -> in_long (c * (2 ^ 31 - 1)) -> (6 <= n)%nat ->
    lcg_init (c * (2 ^ 31 - 1)) = Ok (c * (2 ^ 31 - 1)) /\ lcg_iter n (c * (2 ^ 31 - 1)) = Ok 0.
Proof.
  split; [reflexivity|]. intros c n Hc H Hn. split.
  - unfold lcg_init. destruct (Z.eqb_spec (c * (2 ^ 31 - 1)) 0); [lia|reflexivity].
  - rewrite lcg_any by assumption. f_equal. apply min_std_stuck. now exists c.
Qed.
Print Assumptions C18_bad_seeds.

(** C19 (violated): for every seed the "shuffled" stream is the plain minimal standard sequence
    x_9, x_41, x_42, x_43, ...: the table slot is always 0 and slots 1..31 are never used. *)
Theorem C19_no_shuffle_refuted : forall seed n, in_long seed -> seed <> 0 ->
  exists sh sh', shuffle_new seed = Ok sh /\
    shuffle_stream (S n) sh =
    Ok (map unit_value (min_std seed 9 :: map (fun i => min_std seed (41 + i)) (seq 0 n)), sh').
Proof.
  intros s n H Hs. unfold shuffle_new, lcg_init. destruct (Z.eqb_spec s 0); [contradiction|]. cbn [bind].
  rewrite initialize_spec by assumption. 
  destruct (stream_spec n (min_std s 40) (lcg_out (min_std s 9)) (map (fun i => lcg_out (min_std s (9 + i))) (seq 1 31)))
    as (sh' & E); [apply min_std_range|apply lcg_out_range, min_std_range|].
  eexists _, sh'. split; [reflexivity|]. refine (eq_trans E _). f_equal. f_equal. cbn [map]. rewrite lcg_out_unit. f_equal.
  rewrite map_map. apply map_ext. intros i. now rewrite lcg_out_unit, min_std_add.
Qed.
Print Assumptions C19_no_shuffle_refuted.

(** C19: the table position computed is 0 for every value a generator can return. *)
Theorem C19_position_always_zero : forall x t0 tl, (0 <= x < kM) -> (0 <= t0 < 1)%R ->
  exists sh, shuffle_draw (mkShuffle x 0 (t0 :: tl)) = Ok (t0, sh) /\ position sh = 0.
Proof. intros x t0 tl Hx Ht. rewrite draw_spec by assumption. eexists. split; reflexivity. Qed.
Print Assumptions C19_position_always_zero.

(** C47: a NormalRand whose seed is no multiple of 2^31-1 delivers any number of values (the
    rejection loop always ends), all within sqrt(104 ln 2) < 8.5 standard deviations. *)
Theorem C47_normal_always_delivers : forall avg sd seed n, in_long seed -> ~ (2 ^ 31 - 1 | seed) -> (0 <= sd)%R ->
  exists nr values nr' fuel0, normal_new avg sd seed = Ok nr /\
    (forall fuel, (fuel0 <= fuel)%nat -> normal_run n fuel nr = Ok (values, nr')) /\
    length values = n /\ Forall (fun d => (Rabs (d - avg) <= sqrt (104 * ln 2) * sd)%R) values.
Proof.
  intros avg sd s n H ND Hsd. unfold normal_new, shuffle_new, lcg_init.
  destruct (Z.eqb_spec s 0) as [->|_]; [exfalso; apply ND; apply Z.divide_0_r|]. cbn [bind].
  destruct (initialize_live s H ND) as (sh & E & L). rewrite E. cbn [bind].
  destruct (normal_run_ok n (mkNormal avg sd sh 0 true)) as (ds & nr' & f0 & E2 & LL & F).
  - split; [exact L|]. cbn [holder]. rewrite Rabs_R0. apply sqrt_pos.
  - exact Hsd.
  - exists (mkNormal avg sd sh 0 true), ds, nr', f0. repeat split; assumption.
Qed.
Print Assumptions C47_normal_always_delivers.

(** C47: Box-Muller: two consecutive draws are (v2,v1) scaled by the same factor, with squared
    standardised sum -2 ln(v1^2+v2^2). *)
Theorem C47_box_muller_pair : forall nr fuel d1 nr1 d2 nr2 fuel2, live_normal nr -> is_empty nr = true ->
  normal_draw fuel nr = Ok (d1, nr1) -> normal_draw fuel2 nr1 = Ok (d2, nr2) -> deviation nr = 1%R -> average nr = 0%R ->
  (exists v1 v2 sh, polar_loop fuel (rng nr) = Ok (v1, v2, v1 * v1 + v2 * v2, sh)%R /\
    (d1 * v1 = d2 * v2 /\ d1 ^ 2 + d2 ^ 2 = -2 * ln (v1 * v1 + v2 * v2))%R) /\ is_empty nr2 = true.
Proof.
  intros nr fuel d1 nr1 d2 nr2 fuel2 [HL _] He E1 E2 Hsd Hav.
  destruct nr as [avg sd sh h em]. cbn [is_empty deviation average rng] in *. subst em sd avg.
  unfold normal_draw in E1. cbn [is_empty rng average deviation] in E1.
  destruct (polar_terminates sh HL) as (r & f0 & PE & PI).
  destruct (polar_loop fuel sh) as [[[[v1 v2] rsq] sh']| | |] eqn:E; try discriminate. cbn [bind] in E1.
  assert (RR : r = (v1, v2, rsq, sh')).
  { assert (M : forall f g s0 r0, (f <= g)%nat -> polar_loop f s0 = Ok r0 -> polar_loop g s0 = Ok r0).
    { clear. induction f as [|f IH]; intros g s0 r0 L EE; [discriminate|]. destruct g as [|g]; [lia|].
      cbn [polar_loop] in *. destruct (shuffle_draw s0) as [[o1 s1]| | |]; cbn [bind fst snd] in *; try discriminate.
      destruct (shuffle_draw s1) as [[o2 s2]| | |]; cbn [bind fst snd] in *; try discriminate.
      destruct (_ || _); [apply (IH g _ _ ltac:(lia) EE)|exact EE]. }
    specialize (PE (Nat.max f0 fuel) ltac:(lia)). rewrite (M fuel (Nat.max f0 fuel) sh _ ltac:(lia) E) in PE.
    now injection PE. }
  subst r. destruct PI as (P1 & P2 & _). injection E1 as <- <-. cbn in E2. injection E2 as <- <-.
  split; [|reflexivity]. exists v1, v2, sh'. subst rsq. split; [reflexivity|].
  destruct (deviate_bound v1 v2 _ eq_refl P2) as (S & _). cbv zeta in S. split; [ring|]. etransitivity; [|exact S]. ring.
Qed.
Print Assumptions C47_box_muller_pair.

(** C47: with a seed that is a non-zero multiple of 2^31-1 drawing never returns. *)
Theorem C47_stuck_seed_hangs_refuted : forall avg sd c, c <> 0 -> in_long (c * (2 ^ 31 - 1)) ->
  exists nr, normal_new avg sd (c * (2 ^ 31 - 1)) = Ok nr /\ forall fuel, normal_draw fuel nr = Hang.
Proof.
  intros avg sd c Hc H. unfold normal_new, shuffle_new, lcg_init.
  destruct (Z.eqb_spec (c * (2 ^ 31 - 1)) 0) as [|NE]; [lia|]. cbn [bind].
  rewrite initialize_spec by assumption. cbn [bind]. eexists. split; [reflexivity|]. intros fuel.
  unfold normal_draw. cbn [is_empty rng]. 
  assert (Z0 : forall n, min_std (c * (2 ^ 31 - 1)) n = 0) by (intros n; apply min_std_stuck; now exists c).
  rewrite (map_ext _ (fun _ : nat => 0%R)).
  - rewrite Z0. cbn [seq map]. now rewrite stuck_loop.
  - intros i. rewrite Z0. unfold lcg_out. lra.
Qed.
Print Assumptions C47_stuck_seed_hangs_refuted.

(** C47 (violated reproducibility): re-seeding through SetParameters keeps the value held back
    from the previous seed: if one is held, the next draw does not depend on the new seed. *)
Theorem C47_reseed_keeps_old_value_refuted : forall nr avg sd seed, in_long seed -> seed <> 0 ->
  is_empty nr = false ->
  exists nr' nr'', normal_set_parameters_seed nr avg sd seed = Ok nr' /\
    forall fuel, normal_draw fuel nr' = Ok ((holder nr * sd + avg)%R, nr'').
Proof.
  intros nr avg sd s H Hs He. unfold normal_set_parameters_seed, shuffle_init_seed, lcg_init.
  destruct (Z.eqb_spec s 0); [contradiction|]. cbn [bind]. rewrite initialize_spec by assumption. cbn [bind].
  rewrite He. eexists _, _. split; [reflexivity|]. intros fuel. reflexivity.
Qed.
Print Assumptions C47_reseed_keeps_old_value_refuted.

(** C48: however many seeds are drawn from the global generator (default or any seed of
    magnitude up to 9.67*10^10 that is no multiple of 2^31-1), every seed handed out is
    acceptable to every generator: non-zero, and no multiple of 2^31-1. *)
Theorem C48_global_seeds_are_good : forall n base, Z.abs base <= 96752654378 -> ~ (2 ^ 31 - 1 | base) ->
  exists seeds base', make_seeds n base = Ok (seeds, base') /\ length seeds = n /\
    Forall (fun seed => in_long seed /\ seed <> 0 /\ ~ (2 ^ 31 - 1 | seed)) seeds.
Proof. exact make_seeds_ok. Qed.
Print Assumptions C48_global_seeds_are_good.

(** C48: a global seed that is a multiple of 2^31-1 makes every seed handed out the multiple
    -(2^31-1), i.e. every normal generator seeded from it hangs. *)
Theorem C48_global_seed_multiple_refuted : forall n,
  exists seeds base', make_seeds n (2 ^ 31 - 1) = Ok (seeds, base') /\ seeds = repeat (- (2 ^ 31 - 1)) n.
Proof.
  assert (S : forall b, b = 0 \/ b = 2 ^ 31 - 1 -> make_seed b = Ok (0, - (2 ^ 31 - 1))).
  { intros b Hb. unfold make_seed. assert (lcg_step b = Ok 0) as -> by (destruct Hb as [->| ->]; reflexivity).
    cbn [bind]. unfold long_of_double. cbv zeta. unfold Rgeb.
    assert (O : lcg_out 0 = 0%R) by (unfold lcg_out; lra). rewrite O.
    destruct (Rle_dec 0 ((0 - 5 / 10) * 4294967295)) as [L|L]; [lra|].
    assert (Int_part (- ((0 - 5 / 10) * 4294967295)) = 2147483647) as ->.
    { destruct (base_Int_part (- ((0 - 5 / 10) * 4294967295))) as [B1 B2].
      assert (Int_part (- ((0 - 5 / 10) * 4294967295)) < 2147483648) by (apply lt_IZR; lra).
      assert (2147483646 < Int_part (- ((0 - 5 / 10) * 4294967295))) by (apply lt_IZR; lra). lia. }
    reflexivity. }
  assert (G : forall n b, b = 0 \/ b = 2 ^ 31 - 1 ->
    exists seeds base', make_seeds n b = Ok (seeds, base') /\ seeds = repeat (- (2 ^ 31 - 1)) n).
  { induction n as [|n IH]; intros b Hb; cbn [make_seeds]; [eauto|]. rewrite (S b Hb). cbn [bind fst snd].
    destruct (IH 0 ltac:(auto)) as (l & b' & E & ->). rewrite E. cbn [bind fst snd]. eauto. }
  intros n. apply G. auto.
Qed.
Print Assumptions C48_global_seed_multiple_refuted.

Example ex_seed : in_long 3735928559 /\ ~ (2 ^ 31 - 1 | 3735928559) /\ Z.abs 3735928559 <= 96752654378.
Proof.
  split; [unfold in_long; lia|]. split; [|lia]. intros D. apply Z.mod_divide in D; [|discriminate].
  vm_compute in D. discriminate.
Qed.
Example ex_draw : lcg_iter 1 1 = Ok 16807 /\ lcg_iter 2 1 = Ok 282475249.
Proof. split; reflexivity. Qed.
