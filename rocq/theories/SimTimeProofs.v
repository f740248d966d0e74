From Coq Require Import List ZArith Bool Reals Lia Lra SpecFloat.
From Verif Require Import Base SimTimeModel SimTimeSpec.
Import ListNotations.
Open Scope R_scope.

Local Notation RA := real_arith.

(** counter recurrence of one interval *)
Lemma interval_test_R step I k c : 0 < step -> steps_per_interval step I k ->
  interval_test RA step I c = if (k <=? c)%Z then (0%Z, true) else (c, false).
Proof.
  intros Hs (Hk & H1 & H2). unfold interval_test. cbn [geb mul of_int real_arith].
  destruct (Z.leb_spec k c) as [H|H].
  - destruct (Rge_dec (IZR c * step) I) as [|n]; [reflexivity|]. exfalso. apply n.
    apply IZR_le in H. apply Rle_ge. apply Rle_trans with (IZR k * step); [exact H2|].
    apply Rmult_le_compat_r; lra.
  - destruct (Rge_dec (IZR c * step) I) as [r|]; [|reflexivity]. exfalso.
    assert (IZR c <= IZR (k - 1)) by (apply IZR_le; lia).
    assert (IZR c * step <= IZR (k - 1) * step) by (apply Rmult_le_compat_r; lra). lra.
Qed.

(** closed form: counter starts at c0 with 0 <= c0 <= k (c0 = 0 or 1) and k >= 1 *)
Definition phase (k : Z) (c0 : Z) (n : nat) : Z := ((Z.of_nat n + c0) mod k)%Z.

Lemma phase_step k c0 n : (1 <= k)%Z ->
  let c := phase k c0 n in
  (if (k <=? c + 1)%Z then (0%Z, true) else (c + 1, false)%Z)
  = (phase k c0 (S n), (phase k c0 (S n) =? 0)%Z).
Proof.
  intros Hk. cbv zeta. unfold phase. rewrite Nat2Z.inj_succ.
  replace (Z.succ (Z.of_nat n) + c0)%Z with ((Z.of_nat n + c0) + 1)%Z by lia.
  set (a := (Z.of_nat n + c0)%Z). pose proof (Z.mod_pos_bound a k ltac:(lia)) as B.
  rewrite (Z.div_mod a k) at 3 4 by lia. set (q := (a / k)%Z). set (r := (a mod k)%Z) in *.
  destruct (Z.leb_spec k (r + 1)) as [H|H].
  - replace (k * q + r + 1)%Z with ((q + 1) * k)%Z by nia. rewrite Z.mod_mul by lia. reflexivity.
  - replace (k * q + r + 1)%Z with (r + 1 + q * k)%Z by ring. rewrite Z.mod_add, Z.mod_small by lia.
    destruct (Z.eqb_spec (r + 1) 0); [lia|reflexivity].
Qed.

(** initial counter 1 with k = 1 is outside [0,k): the counter is then 1 instead of 0 until the
    first update; the next step is the same. *)
Lemma phase_first k : (1 <= k)%Z ->
  (if (k <=? 1 + 1)%Z then (0%Z, true) else (1 + 1, false)%Z)
  = (phase k 1 1, (phase k 1 1 =? 0)%Z).
Proof.
  intros Hk. unfold phase. change (Z.of_nat 1 + 1)%Z with 2%Z. change (1 + 1)%Z with 2%Z.
  destruct (Z.leb_spec k 2).
  - assert (k = 1 \/ k = 2)%Z as [->| ->] by lia; reflexivity.
  - rewrite Z.mod_small by lia. reflexivity.
Qed.

Section Run.
Variables (p : params RA) (ka ko kt kc kl : Z).
Hypothesis Hs : 0 < step_sec _ p.
Hypothesis Ha : steps_per_interval (step_sec _ p) (attitude_interval _ p) ka.
Hypothesis Ho : steps_per_interval (step_sec _ p) (orbit_interval _ p) ko.
Hypothesis Ht : steps_per_interval (step_sec _ p) (thermal_interval _ p) kt.
Hypothesis Hc : steps_per_interval (step_sec _ p) (component_interval _ p) kc.
Hypothesis Hl : steps_per_interval (step_sec _ p) (log_interval _ p) kl.

Definition cnt (k : Z) (n : nat) : Z := match n with O => 1%Z | _ => phase k 1 n end.

Lemma cnt_step k n : (1 <= k)%Z ->
  (if (k <=? cnt k n + 1)%Z then (0%Z, true) else (cnt k n + 1, false)%Z)
  = (phase k 1 (S n), (phase k 1 (S n) =? 0)%Z).
Proof.
  intros Hk. destruct n as [|n]; [now apply phase_first|]. now apply (phase_step k 1 (S n)).
Qed.

Lemma after_flags calls :
  let n := length calls in let s := after p calls in
  att_counter _ s = cnt ka n /\ orb_counter _ s = cnt ko n /\ thm_counter _ s = cnt kt n /\
  cmp_counter _ s = cnt kc n /\ log_counter _ s = phase kl 0 n /\
  att_flag _ s = (match n with O => false | _ => (phase ka 1 n =? 0)%Z end) /\
  orb_flag _ s = (match n with O => false | _ => (phase ko 1 n =? 0)%Z end) /\
  thm_flag _ s = (match n with O => false | _ => (phase kt 1 n =? 0)%Z end) /\
  cmp_flag _ s = (match n with O => false | _ => (phase kc 1 n =? 0)%Z end) /\
  log_output _ s = (phase kl 0 n =? 0)%Z.
Proof.
  induction calls as [|c calls IH]; cbv zeta in *.
  - cbn [length after].
    assert (phase kl 0 0 = 0%Z) as -> by (unfold phase; destruct Hl; now apply Z.mod_0_l; lia).
    repeat split.
  - cbn [length after]. destruct IH as (E1 & E2 & E3 & E4 & E5 & _).
    unfold update_time.
    rewrite E1, E2, E3, E4, E5.
    rewrite (interval_test_R _ _ _ _ Hs Ha), (interval_test_R _ _ _ _ Hs Ho),
      (interval_test_R _ _ _ _ Hs Ht), (interval_test_R _ _ _ _ Hs Hc), (interval_test_R _ _ _ _ Hs Hl).
    rewrite !cnt_step by (match goal with |- (1 <= ?k)%Z => first [apply Ha|apply Ho|apply Ht|apply Hc] end).
    rewrite (phase_step kl 0 (length calls)) by apply Hl.
    cbn [att_counter orb_counter thm_counter cmp_counter log_counter att_flag orb_flag thm_flag cmp_flag log_output cnt].
    repeat split.
Qed.
End Run.

Lemma phase_divide k c0 n : (1 <= k)%Z -> (phase k c0 n =? 0)%Z = true <-> (k | Z.of_nat n + c0)%Z.
Proof.
  intros Hk. unfold phase. rewrite Z.eqb_eq. apply Z.mod_divide. lia.
Qed.

(** exact arithmetic: elapsed time and termination *)
Lemma after_elapsed (p : params RA) n :
  @eq R (elapsed _ (after p (repeat None n))) (INR n * step_sec _ p).
Proof.
  induction n as [|n IH]; [cbn; now rewrite Rmult_0_l|].
  cbn [repeat after]. unfold update_time.
  repeat (match goal with |- context[let (_, _) := ?t in _] => destruct t end).
  cbn [elapsed add real_arith]. rewrite IH, S_INR. ring.
Qed.

Lemma after_finish (p : params RA) n :
  finish _ (after p (repeat None (S n))) = true <-> INR (S n) * step_sec _ p > end_sec _ p.
Proof.
  rewrite <- (after_elapsed p (S n)). cbn [repeat after]. unfold update_time.
  repeat (match goal with |- context[let (_, _) := ?t in _] => destruct t end).
  cbn [elapsed finish gtb real_arith].
  match goal with |- context[Rgt_dec ?a ?b] => destruct (Rgt_dec a b) end; split; intros H; try assumption; try reflexivity; try discriminate; contradiction.
Qed.

Lemma after_finish0 (p : params RA) : finish _ (after p (repeat None 0)) = false.
Proof. reflexivity. Qed.

(** events of a run of N updates *)
Definition run_events (logs : nat -> bool) (N : nat) : list main_event :=
  flat_map (fun n => (if logs n then [Log n] else []) ++ [Update (S n)]) (seq 0 N).

Lemma main_loop_from (p : params RA) N : first_beyond (step_sec _ p) (end_sec _ p) N ->
  forall d n, (n + d = N)%nat -> (n <= N)%nat -> (n = 0%nat -> (0 < N)%nat) ->
  forall fuel, (d < fuel)%nat ->
  main_loop p fuel n (after p (repeat None n)) =
  Ok (flat_map (fun i => (if log_output _ (after p (repeat None i)) then [Log i] else []) ++ [Update (S i)]) (seq n d)).
Proof.
  intros [HN HF]. induction d as [|d IH]; intros n E Hle H0 fuel Hf.
  - destruct fuel as [|fuel]; [lia|]. cbn [main_loop].
    assert (n = N) as -> by lia. destruct N as [|N]; [specialize (H0 eq_refl); lia|].
    rewrite (proj2 (after_finish p N) HN). reflexivity.
  - destruct fuel as [|fuel]; [lia|]. cbn [main_loop].
    assert (F : finish _ (after p (repeat None n)) = false).
    { destruct n as [|n]; [reflexivity|]. destruct (finish _ (after p (repeat None (S n)))) eqn:EF; [|reflexivity].
      apply after_finish in EF. specialize (HF (S n) ltac:(lia)). lra. }
    rewrite F. change (update_time p None (after p (repeat None n))) with (after p (repeat None (S n))).
    rewrite IH by lia. cbn [bind seq flat_map]. now rewrite <- app_assoc.
Qed.

Lemma first_beyond_exists s e : 0 < s -> 0 <= e -> exists N, first_beyond s e N /\ (0 < N)%nat.
Proof.
  intros Hs He. destruct (archimed (e / s)) as [A1 A2].
  assert (P : (0 < up (e / s))%Z).
  { apply lt_IZR. apply Rle_lt_trans with (e / s); [|lra]. apply Rmult_le_pos; [lra|].
    left. now apply Rinv_0_lt_compat. }
  exists (Z.to_nat (up (e / s))). assert (EI : INR (Z.to_nat (up (e / s))) = IZR (up (e / s))).
  { rewrite INR_IZR_INZ, Z2Nat.id by lia. reflexivity. }
  assert (Q : e = e / s * s) by (field; lra).
  split; [split|].
  - rewrite EI. rewrite Q at 2. apply Rmult_gt_compat_r; lra.
  - intros m Hm. apply inj_lt in Hm. rewrite Z2Nat.id in Hm by lia.
    assert (INR m <= IZR (up (e / s)) - 1).
    { rewrite INR_IZR_INZ. rewrite <- minus_IZR. apply IZR_le. lia. }
    rewrite Q. apply Rmult_le_compat_r; lra.
  - lia.
Qed.

Lemma first_beyond_pos s e N : 0 <= e -> first_beyond s e N -> (0 < N)%nat.
Proof. intros He [H _]. destruct N as [|N]; [cbn in H; lra|lia]. Qed.

(** display *)
Lemma disp_small (p : params RA) c s : display_period _ p <= IZR (disp_counter _ s + 1) ->
  disp_output _ (update_time p c s) = true /\
  disp_counter _ (update_time p c s) = (disp_counter _ s + 1 - R_trunc (display_period _ p))%Z.
Proof.
  intros H. unfold update_time.
  repeat (match goal with |- context[let (_, _) := ?t in _] => destruct t end).
  cbn [disp_output disp_counter geb of_int to_int real_arith].
  destruct (Rge_dec (IZR (disp_counter RA s + 1)) (display_period RA p)) as [|nn]; [auto|].
  exfalso. apply nn. lra.
Qed.
Lemma disp_large (p : params RA) c s : IZR (disp_counter _ s + 1) < display_period _ p ->
  disp_output _ (update_time p c s) = false /\
  disp_counter _ (update_time p c s) = (disp_counter _ s + 1)%Z.
Proof.
  intros H. unfold update_time.
  repeat (match goal with |- context[let (_, _) := ?t in _] => destruct t end).
  cbn [disp_output disp_counter geb of_int to_int real_arith].
  destruct (Rge_dec (IZR (disp_counter RA s + 1)) (display_period RA p)) as [g|]; [|auto].
  exfalso. lra.
Qed.

(** f = floor P >= 1, c = ceil P *)
Lemma disp_closed (p : params RA) f c calls :
  (1 <= f)%Z -> (f <= c <= f + 1)%Z -> IZR (c - 1) < display_period _ p <= IZR c ->
  R_trunc (display_period _ p) = f ->
  let n := Z.of_nat (length calls) in let s := after p calls in
  (disp_counter _ s = if (n <? c)%Z then n else (c - f + (n - c) mod f)%Z) /\
  (calls <> [] -> disp_output _ s = ((c <=? n) && ((n - c) mod f =? 0))%Z%bool).
Proof.
  intros Hf Hc HP HT. induction calls as [|x calls IH]; cbv zeta in *.
  - cbn. split; [|congruence]. destruct (Z.ltb_spec 0 c); [reflexivity|lia].
  - cbn [length after]. rewrite Nat2Z.inj_succ, <- Z.add_1_r. set (n := Z.of_nat (length calls)) in *.
    assert (Hn : (0 <= n)%Z) by (unfold n; lia).
    destruct IH as [IH _]. set (s := after p calls) in *.
    assert (Cases : (disp_counter RA s + 1 < c \/ c <= disp_counter RA s + 1)%Z) by lia.
    destruct Cases as [L|L].
    + assert (HL : IZR (disp_counter RA s + 1) < display_period RA p).
      { apply Rle_lt_trans with (IZR (c - 1)); [apply IZR_le; lia|lra]. }
      destruct (disp_large p x s HL) as [E1 E2]. rewrite E1, E2, IH in *.
      destruct (Z.ltb_spec n c) as [H|H].
      * destruct (Z.ltb_spec (n + 1) c); [|lia]. split; [reflexivity|]. intros _.
        destruct (Z.leb_spec c (n + 1)); [lia|reflexivity].
      * destruct (Z.ltb_spec (n + 1) c); [lia|].
        pose proof (Z.mod_pos_bound (n - c) f ltac:(lia)).
        assert (M : ((n + 1 - c) mod f = (n - c) mod f + 1)%Z).
        { replace (n + 1 - c)%Z with ((n - c) + 1)%Z by lia.
          rewrite (Z.div_mod (n - c) f) at 1 by lia.
          replace (f * ((n - c) / f) + (n - c) mod f + 1)%Z with ((n - c) mod f + 1 + (n - c) / f * f)%Z by ring.
          rewrite Z.mod_add by lia. apply Z.mod_small. lia. }
        rewrite M. split; [lia|]. intros _. destruct (Z.eqb_spec ((n - c) mod f + 1) 0); [lia|]. now rewrite andb_false_r.
    + assert (HL : display_period RA p <= IZR (disp_counter RA s + 1)).
      { apply Rle_trans with (IZR c); [lra|apply IZR_le; lia]. }
      destruct (disp_small p x s HL) as [E1 E2]. rewrite E1, E2, HT. rewrite IH in *.
      destruct (Z.ltb_spec n c) as [H|H].
      * assert (n + 1 = c)%Z as -> by lia.
        destruct (Z.ltb_spec c c); [lia|]. rewrite Z.sub_diag, Z.mod_0_l by lia.
        split; [lia|]. intros _. now rewrite Z.leb_refl.
      * destruct (Z.ltb_spec (n + 1) c); [lia|].
        pose proof (Z.mod_pos_bound (n - c) f ltac:(lia)).
        assert (M : ((n + 1 - c) mod f = 0 /\ c - f + (n - c) mod f + 1 = c)%Z).
        { assert (((n - c) mod f + 1 = f)%Z) as HM by lia. split; [|lia].
          replace (n + 1 - c)%Z with ((n - c) + 1)%Z by lia.
          rewrite (Z.div_mod (n - c) f) at 1 by lia.
          replace (f * ((n - c) / f) + (n - c) mod f + 1)%Z with (((n - c) / f + 1) * f)%Z by lia.
          apply Z.mod_mul. lia. }
        destruct M as [M1 M2]. rewrite M1, M2. split; [lia|]. intros _.
        destruct (Z.leb_spec c (n + 1)); [reflexivity|lia].
Qed.

Lemma disp_below_one (p : params RA) x calls : display_period _ p <= 1 -> 0 <= display_period _ p ->
  disp_output _ (after p (x :: calls)) = true.
Proof.
  intros H H0.
  assert (C : (0 <= disp_counter RA (after p calls))%Z).
  { induction calls as [|y calls IH]; [cbn; lia|]. cbn [after].
    assert (HL : display_period RA p <= IZR (disp_counter RA (after p calls) + 1)).
    { apply Rle_trans with (IZR 1); [lra|apply IZR_le; lia]. }
    destruct (disp_small p y _ HL) as [_ ->].
    unfold R_trunc. destruct (Rle_dec 0 (display_period RA p)); [|contradiction].
    assert (Int_part (display_period RA p) <= 1)%Z; [|lia].
    apply le_IZR. destruct (base_Int_part (display_period RA p)). lra. }
  cbn [after]. apply disp_small. apply Rle_trans with (IZR 1); [lra|apply IZR_le; lia].
Qed.

Lemma flat_map_ext_in {A B} (f g : A -> list B) l : (forall a, In a l -> f a = g a) -> flat_map f l = flat_map g l.
Proof.
  induction l as [|a l IH]; intros H; [reflexivity|]. cbn. rewrite H by (left; reflexivity).
  rewrite IH; [reflexivity|]. intros b Hb. apply H. now right.
Qed.
