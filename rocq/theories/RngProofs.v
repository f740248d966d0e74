From Coq Require Import List ZArith Bool Reals Lia Lra Zpow_facts Znumtheory.
From Verif Require Import Base RngModel RngSpec.
Import ListNotations.
Open Scope Z_scope.

(** ** one step *)
Lemma chk_ok z : - 2 ^ 63 <= z < 2 ^ 63 -> chk z = Ok z.
Proof. intros H. unfold chk. destruct (Z.leb_spec (- 2 ^ 63) z); [|lia]. destruct (Z.ltb_spec z (2 ^ 63)); [reflexivity|lia]. Qed.

Definition raw (s : Z) : Z := kA * Z.rem s kQ - kR * Z.quot s kQ.

Lemma raw_congr s : raw s = kA * s - kM * Z.quot s kQ.
Proof.
  unfold raw. pose proof (Z.quot_rem s kQ ltac:(discriminate)). unfold kA, kR, kM, kQ in *. lia.
Qed.

Lemma quot_abs s : Z.abs (Z.quot s kQ) = Z.abs s / kQ.
Proof.
  rewrite <- Z.quot_abs by discriminate. change (Z.abs kQ) with kQ. apply Z.quot_div_nonneg; unfold kQ; lia.
Qed.

Lemma lcg_step_raw s : in_long s -> lcg_step s = Ok (if raw s <? 0 then raw s + kM else raw s).
Proof.
  unfold in_long. intros H. unfold lcg_step, raw.
  pose proof (Z.quot_rem s kQ ltac:(discriminate)) as E.
  assert (B : Z.abs (Z.rem s kQ) < kQ).
  { pose proof (Z.rem_bound_abs s kQ ltac:(discriminate)). unfold kQ in *. lia. }
  pose proof (quot_abs s) as Q.
  assert (HQ : Z.abs s / kQ <= 2 ^ 63 / 127773).
  { apply Z.div_le_mono; unfold kQ; lia. }
  change (2 ^ 63 / 127773) with 72185610706915 in HQ. rewrite <- Q in HQ.
  set (k := Z.quot s kQ) in *. set (d := Z.rem s kQ) in *. clearbody k d.
  unfold kA, kR, kM, kQ in *.
  rewrite (chk_ok (k * 127773)) by lia. cbn [bind].
  replace (s - k * 127773) with d by lia.
  rewrite (chk_ok d) by lia. cbn [bind]. rewrite (chk_ok (16807 * d)) by lia. cbn [bind].
  rewrite (chk_ok (2836 * k)) by lia. cbn [bind]. rewrite (chk_ok (16807 * d - 2836 * k)) by lia. cbn [bind].
  destruct (Z.ltb_spec (16807 * d - 2836 * k) 0); [|reflexivity]. rewrite chk_ok by lia. reflexivity.
Qed.

(** bound on the next state *)
Lemma raw_bounds s : 
  (0 <= s -> - (kR * (Z.abs s / kQ)) <= raw s < kM) /\ (s <= 0 -> - kM < raw s <= kR * (Z.abs s / kQ)).
Proof.
  pose proof (quot_abs s) as Q. rewrite <- Q. unfold raw.
  split; intros H.
  - pose proof (Z.rem_bound_pos s kQ H ltac:(unfold kQ; lia)).
    assert (0 <= Z.quot s kQ) by (apply Z.quot_pos; unfold kQ; lia).
    rewrite Z.abs_eq by lia. unfold kA, kR, kM, kQ in *. lia.
  - pose proof (Z.rem_bound_pos (- s) kQ ltac:(lia) ltac:(unfold kQ; lia)) as B.
    rewrite Z.rem_opp_l in B by (unfold kQ; lia).
    assert (0 <= Z.quot (- s) kQ) as B2 by (apply Z.quot_pos; unfold kQ; lia).
    rewrite Z.quot_opp_l in B2 by (unfold kQ; lia).
    rewrite Z.abs_neq by lia. unfold kA, kR, kM, kQ in *. lia.
Qed.

Definition next_bound (b : Z) : Z := Z.max kM (kR * (b / kQ)).

Lemma lcg_step_spec s : in_long s -> exists s', lcg_step s = Ok s' /\
  s' mod kM = (kA * s) mod kM /\ Z.abs s' <= next_bound (Z.abs s) /\
  (kR * (Z.abs s / kQ) < kM -> s' = (kA * s) mod kM).
Proof.
  intros H. rewrite (lcg_step_raw s H). eexists. split; [reflexivity|].
  assert (C : forall z, z = raw s \/ z = raw s + kM -> z mod kM = (kA * s) mod kM).
  { intros z [->| ->]; rewrite raw_congr.
    - replace (kA * s - kM * Z.quot s kQ) with (kA * s + (- Z.quot s kQ) * kM) by ring.
      apply Z.mod_add. discriminate.
    - replace (kA * s - kM * Z.quot s kQ + kM) with (kA * s + (1 - Z.quot s kQ) * kM) by ring.
      apply Z.mod_add. discriminate. }
  destruct (raw_bounds s) as [P N].
  assert (D : 0 <= Z.abs s / kQ) by (apply Z.div_pos; [lia|reflexivity]).
  assert (MM : kM = 2147483647) by reflexivity. assert (MR : kR = 2836) by reflexivity.
  unfold next_bound. split; [|split].
  - apply C. destruct (Z.ltb_spec (raw s) 0); auto.
  - destruct (Z.ltb_spec (raw s) 0); destruct (Z.le_ge_cases 0 s) as [Hs|Hs];
    (specialize (P Hs) || specialize (N Hs)); lia.
  - intros L. destruct (Z.ltb_spec (raw s) 0) as [Hr|Hr].
    + rewrite <- (C (raw s + kM)) by auto. symmetry. apply Z.mod_small.
      destruct (Z.le_ge_cases 0 s) as [Hs|Hs]; [specialize (P Hs)|specialize (N Hs)]; lia.
    + rewrite <- (C (raw s)) by auto. symmetry. apply Z.mod_small.
      destruct (Z.le_ge_cases 0 s) as [Hs|Hs]; [specialize (P Hs)|specialize (N Hs)]; lia.
Qed.

Lemma next_bound_mono a b : a <= b -> next_bound a <= next_bound b.
Proof.
  intros H. unfold next_bound. assert (a / kQ <= b / kQ) by (apply Z.div_le_mono; [reflexivity|assumption]).
  unfold kR. lia.
Qed.

(** n steps *)
Fixpoint iter_bound (n : nat) (b : Z) : Z := match n with O => b | S n' => next_bound (iter_bound n' b) end.

Lemma min_std_succ s n : min_std s (S n) = (kA * min_std s n) mod kM.
Proof.
  unfold min_std. change (2 ^ 31 - 1) with kM. change 16807 with kA.
  rewrite Nat2Z.inj_succ, Z.pow_succ_r by lia. rewrite Zmult_mod_idemp_r. f_equal. ring.
Qed.

Lemma min_std_0 s : min_std s 0 = s mod kM.
Proof. unfold min_std. change (2 ^ 31 - 1) with kM. cbn [Z.of_nat]. rewrite Z.pow_0_r, Z.mul_1_l. reflexivity. Qed.

Lemma lcg_iter_spec s n b : in_long s -> Z.abs s <= b -> (forall i, (i <= n)%nat -> iter_bound i b <= 2 ^ 63 - 1 \/ i = 0%nat) ->
  exists s', lcg_iter n s = Ok s' /\ in_long s' /\ s' mod kM = min_std s n /\ Z.abs s' <= iter_bound n b.
Proof.
  intros Hs Hb. induction n as [|n IH]; intros HB.
  - exists s. cbn. repeat split; try assumption; try apply Hs. now rewrite min_std_0.
  - destruct IH as (s1 & E1 & L1 & C1 & B1); [intros i Hi; apply HB; lia|].
    destruct (lcg_step_spec s1 L1) as (s2 & E2 & C2 & B2 & _).
    exists s2. cbn [lcg_iter]. rewrite E1. cbn [bind].
    assert (B3 : Z.abs s2 <= iter_bound (S n) b).
    { cbn [iter_bound]. eapply Z.le_trans; [exact B2|]. now apply next_bound_mono. }
    split; [exact E2|]. split; [|split; [|exact B3]].
    + destruct (HB (S n) ltac:(lia)) as [HH|HH]; [|discriminate]. unfold in_long. lia.
    + rewrite C2, min_std_succ, <- C1, Zmult_mod_idemp_r. reflexivity.
Qed.

Lemma lcg_iter_add a b s : lcg_iter (a + b) s = (let! s' := lcg_iter a s in lcg_iter b s').
Proof.
  induction b as [|b IH].
  - rewrite Nat.add_0_r. cbn. destruct (lcg_iter a s); reflexivity.
  - rewrite Nat.add_succ_r. cbn [lcg_iter]. rewrite IH. destruct (lcg_iter a s); reflexivity.
Qed.

Definition ok_range (s : Z) : Prop := Z.abs s <= 96752654378.  (* kR * (|s| / kQ) < kM *)

Lemma ok_range_bound s : ok_range s -> kR * (Z.abs s / kQ) < kM.
Proof.
  unfold ok_range. intros H. assert (Z.abs s / kQ <= 96752654378 / kQ) by (apply Z.div_le_mono; [reflexivity|assumption]).
  change (96752654378 / kQ) with 757222 in *. unfold kR, kM. lia.
Qed.

Lemma min_std_range s n : 0 <= min_std s n < kM.
Proof. unfold min_std. change (2 ^ 31 - 1) with kM. apply Z.mod_pos_bound. reflexivity. Qed.

Lemma lcg_small s n : ok_range s -> lcg_iter (S n) s = Ok (min_std s (S n)).
Proof.
  intros H. assert (L : in_long s) by (unfold ok_range in H; unfold in_long; lia).
  induction n as [|n IH].
  - cbn [lcg_iter bind]. destruct (lcg_step_spec s L) as (s' & E & _ & _ & F).
    rewrite E. f_equal. rewrite (F (ok_range_bound s H)), min_std_succ, min_std_0, Zmult_mod_idemp_r. reflexivity.
  - cbn [lcg_iter]. cbn [lcg_iter] in IH. rewrite IH. cbn [bind].
    pose proof (min_std_range s (S n)) as R. unfold kM in R.
    destruct (lcg_step_spec (min_std s (S n))) as (s' & E & _ & _ & F); [unfold in_long; lia|].
    rewrite E. f_equal. rewrite F; [now rewrite (min_std_succ s (S n))|].
    apply ok_range_bound. unfold ok_range. lia.
Qed.

(** any 64 bit seed: after at most 6 draws the generator is on the standard sequence *)
Lemma lcg_any s n : in_long s -> (6 <= n)%nat -> lcg_iter n s = Ok (min_std s n).
Proof.
  intros H Hn.
  destruct (lcg_iter_spec s 5 (2 ^ 63) H) as (s5 & E & L & C & B).
  - unfold in_long in H. lia.
  - intros i Hi. do 6 (destruct i as [|i]; [first [right; reflexivity | left; vm_compute; discriminate]|]). lia.
  - assert (O : ok_range s5).
    { unfold ok_range. eapply Z.le_trans; [exact B|]. vm_compute. discriminate. }
    replace n with (5 + S (n - 6))%nat by lia. rewrite lcg_iter_add, E. cbn [bind].
    rewrite lcg_small by assumption. f_equal. unfold min_std in *. change (2 ^ 31 - 1) with kM in *.
    rewrite <- Zmult_mod_idemp_r, C, Zmult_mod_idemp_r, Z.mul_assoc, <- Z.pow_add_r by lia.
    f_equal. f_equal. f_equal. lia.
Qed.

Lemma lcg_never_overflows s n : in_long s -> exists s', lcg_iter n s = Ok s' /\ s' mod kM = min_std s n.
Proof.
  intros H. destruct (Nat.le_gt_cases 6 n) as [L|L].
  - exists (min_std s n). split; [now apply lcg_any|]. pose proof (min_std_range s n). apply Z.mod_small. lia.
  - destruct (lcg_iter_spec s n (2 ^ 63) H) as (s' & E & _ & C & _); eauto.
    + unfold in_long in H. lia.
    + intros i Hi. do 6 (destruct i as [|i]; [first [right; reflexivity | left; vm_compute; discriminate]|]). lia.
Qed.

Lemma NoDup_map_in {X Y} (f : X -> Y) l :
  (forall a b, In a l -> In b l -> f a = f b -> a = b) -> NoDup l -> NoDup (map f l).
Proof.
  intros H N. induction N as [|x l Hx N IH]; [constructor|]. cbn. constructor.
  - intros I. apply in_map_iff in I. destruct I as (y & E & Hy). apply Hx.
    rewrite <- (H y x); [assumption|now right|now left|exact E].
  - apply IH. intros a b Ha Hb. apply H; now right.
Qed.

(** ** the multiplicative group *)
Section Cyclic.
Variables M A : Z.
Hypothesis HM : 1 < M.
Hypothesis Hper : A ^ (M - 1) mod M = 1.
Hypothesis Hord : forall k, 0 < k -> A ^ k mod M = 1 -> (M - 1 | k).

Lemma pow_unit k : 0 <= k -> rel_prime (A ^ k) M.
Proof.
  intros Hk. apply rel_prime_sym. apply rel_prime_Zpower_r; [lia|].
  apply rel_prime_sym. apply bezout_rel_prime.
  pose proof (Z.div_mod (A ^ (M - 1)) M ltac:(lia)) as D. rewrite Hper in D.
  apply Bezout_intro with (A ^ (M - 2)) (- (A ^ (M - 1) / M)).
  replace (A ^ (M - 2) * A) with (A ^ (M - 1)); [lia|].
  replace (M - 1) with (Z.succ (M - 2)) by lia. rewrite Z.pow_succ_r by lia. ring.
Qed.

Lemma pow_inj i j : 0 <= i < j -> j < M - 1 -> A ^ i mod M <> A ^ j mod M.
Proof.
  intros Hij Hj E.
  assert (D : (M | A ^ i * (A ^ (j - i) - 1))).
  { apply Z.mod_divide; [lia|]. rewrite Z.mul_sub_distr_l, <- Z.pow_add_r by lia.
    replace (i + (j - i)) with j by lia. rewrite Z.mul_1_r, Zminus_mod, E, Z.sub_diag. apply Z.mod_0_l. lia. }
  apply Gauss in D; [|apply rel_prime_sym; apply pow_unit; lia].
  assert (E1 : A ^ (j - i) mod M = 1).
  { destruct D as [c Hc]. replace (A ^ (j - i)) with (1 + c * M) by lia. rewrite Z.mod_add by lia. apply Z.mod_small. lia. }
  apply Hord in E1; [|lia]. apply Z.divide_pos_le in E1; lia.
Qed.

Lemma pow_nonzero k : 0 <= k -> A ^ k mod M <> 0.
Proof.
  intros Hk E. apply Z.mod_divide in E; [|lia].
  pose proof (pow_unit k Hk) as U. destruct U as [_ _ G]. specialize (G M E ltac:(apply Z.divide_refl)).
  apply Z.divide_1_r in G. lia.
Qed.

Lemma all_are_powers x : 1 <= x < M -> exists k, 0 <= k < M - 1 /\ A ^ k mod M = x.
Proof.
  intros Hx. set (N := Z.to_nat (M - 1)).
  set (l := map (fun k => A ^ Z.of_nat k mod M) (seq 0 N)).
  set (l' := map (fun i => Z.of_nat (S i)) (seq 0 N)).
  assert (ND : NoDup l).
  { unfold l. apply NoDup_map_in; [|apply seq_NoDup].
    intros a b Ha Hb E. apply in_seq in Ha, Hb. unfold N in *.
    destruct (Nat.lt_trichotomy a b) as [L|[L|L]]; [|assumption|]; exfalso.
    - apply (pow_inj (Z.of_nat a) (Z.of_nat b)); [lia|lia|exact E].
    - apply (pow_inj (Z.of_nat b) (Z.of_nat a)); [lia|lia|symmetry; exact E]. }
  assert (I : incl l l').
  { intros y Hy. unfold l in Hy. apply in_map_iff in Hy. destruct Hy as (k & <- & _).
    pose proof (Z.mod_pos_bound (A ^ Z.of_nat k) M ltac:(lia)). pose proof (pow_nonzero (Z.of_nat k) ltac:(lia)).
    unfold l'. apply in_map_iff. exists (Z.to_nat (A ^ Z.of_nat k mod M - 1)). split; [lia|].
    apply in_seq. unfold N. lia. }
  assert (I' : incl l' l).
  { apply NoDup_length_incl; [exact ND| |exact I]. unfold l, l'. now rewrite !map_length. }
  assert (In x l) as Hin.
  { apply I'. unfold l'. apply in_map_iff. exists (Z.to_nat (x - 1)). split; [lia|]. apply in_seq. unfold N. lia. }
  unfold l in Hin. apply in_map_iff in Hin. destruct Hin as (k & E & Hk). apply in_seq in Hk.
  exists (Z.of_nat k). split; [unfold N in *; lia|exact E].
Qed.

Lemma residue_unit x : 1 <= x < M -> rel_prime x M.
Proof.
  intros H. destruct (all_are_powers x H) as (k & Hk & <-).
  apply rel_prime_mod; [lia|]. apply pow_unit. lia.
Qed.

Lemma orbit_inj s i j : 1 <= s < M -> 0 <= i < j -> j - i < M - 1 -> (A ^ i * s) mod M <> (A ^ j * s) mod M.
Proof.
  intros Hs Hij Hj E.
  assert (D : (M | s * (A ^ i * (A ^ (j - i) - 1)))).
  { apply Z.mod_divide; [lia|]. rewrite Z.mul_sub_distr_l, <- Z.pow_add_r by lia.
    replace (i + (j - i)) with j by lia. 
    replace (s * (A ^ j - A ^ i * 1)) with (A ^ j * s - A ^ i * s) by ring.
    rewrite Zminus_mod, E, Z.sub_diag. apply Z.mod_0_l. lia. }
  apply Gauss in D; [|apply rel_prime_sym; now apply residue_unit].
  apply Gauss in D; [|apply rel_prime_sym; apply pow_unit; lia].
  assert (E1 : A ^ (j - i) mod M = 1).
  { destruct D as [c Hc]. replace (A ^ (j - i)) with (1 + c * M) by lia. rewrite Z.mod_add by lia. apply Z.mod_small. lia. }
  apply Hord in E1; [|lia]. apply Z.divide_pos_le in E1; lia.
Qed.

Lemma orbit_period s i : 0 <= i -> (A ^ (i + (M - 1)) * s) mod M = (A ^ i * s) mod M.
Proof.
  intros Hi. rewrite Z.pow_add_r by lia.
  replace (A ^ i * A ^ (M - 1) * s) with (A ^ i * s * A ^ (M - 1)) by ring.
  rewrite <- Zmult_mod_idemp_r, Hper, Z.mul_1_r. reflexivity.
Qed.

(** from s, every x is reached, at an exponent congruent to log x - log s *)
Lemma orbit_reaches s x : 1 <= s < M -> 1 <= x < M -> exists k, 0 <= k < M - 1 /\ (A ^ k * s) mod M = x.
Proof.
  intros Hs Hx. destruct (all_are_powers s Hs) as (a & Ha & Ea). destruct (all_are_powers x Hx) as (b & Hb & Eb).
  destruct (Z.le_gt_cases a b) as [L|L].
  - exists (b - a). split; [lia|]. rewrite <- Ea, Zmult_mod_idemp_r, <- Z.pow_add_r by lia.
    replace (b - a + a) with b by lia. exact Eb.
  - exists (b - a + (M - 1)). split; [lia|]. rewrite <- Ea, Zmult_mod_idemp_r, <- Z.pow_add_r by lia.
    replace (b - a + (M - 1) + a) with (b + (M - 1)) by lia.
    rewrite <- (Z.mul_1_r (A ^ (b + (M - 1)))), orbit_period, Z.mul_1_r by lia. exact Eb.
Qed.

Lemma unit_stays s k : ~ (M | s) -> 0 <= k -> (A ^ k * s) mod M <> 0.
Proof.
  intros Hs Hk E. apply Z.mod_divide in E; [|lia]. apply Gauss in E; [contradiction|].
  apply rel_prime_sym. now apply pow_unit.
Qed.
End Cyclic.

(** order of 16807 modulo 2^31-1 *)
Lemma prime_by_gcd p : 1 < p -> forallb (fun k => Z.gcd (Z.of_nat k) p =? 1) (seq 1 (Z.to_nat p - 1)) = true -> prime p.
Proof.
  intros Hp S. apply prime_intro; [exact Hp|]. intros n Hn. rewrite forallb_forall in S.
  specialize (S (Z.to_nat n)). rewrite in_seq, Z2Nat.id in S by lia. specialize (S ltac:(lia)).
  apply Z.eqb_eq in S. apply Zgcd_1_rel_prime. exact S.
Qed.

(** A^a = A^b = 1 -> A^(a mod b) = 1: Euclid by strong induction *)
Lemma pow_sub_one A M a b : 1 < M -> 0 <= b <= a -> A ^ a mod M = 1 -> A ^ b mod M = 1 -> A ^ (a - b) mod M = 1.
Proof.
  intros HM H Ea Eb. replace a with (a - b + b) in Ea by lia. rewrite Z.pow_add_r in Ea by lia.
  rewrite <- Zmult_mod_idemp_r, Eb, Z.mul_1_r in Ea. exact Ea.
Qed.
Lemma pow_mul_one A M a c : 1 < M -> 0 <= a -> 0 <= c -> A ^ a mod M = 1 -> A ^ (a * c) mod M = 1.
Proof.
  intros HM Ha Hc E. rewrite Z.pow_mul_r by lia. rewrite Zpower_mod, E, Z.pow_1_l by lia. apply Z.mod_small. lia.
Qed.
Lemma pow_gcd A M : 1 < M -> forall n a b, (Z.to_nat (a + b) < n)%nat -> 0 < a -> 0 < b ->
  A ^ a mod M = 1 -> A ^ b mod M = 1 -> A ^ (Z.gcd a b) mod M = 1.
Proof.
  intros HM. induction n as [|n IH]; intros a b Hn Ha Hb Ea Eb; [lia|].
  destruct (Z.lt_trichotomy a b) as [L|[L|L]].
  - rewrite <- (Z.gcd_sub_diag_r a b). apply IH; try assumption; try lia. apply pow_sub_one; try assumption; lia.
  - subst b. rewrite Z.gcd_diag, Z.abs_eq by lia. exact Ea.
  - rewrite Z.gcd_comm, <- (Z.gcd_sub_diag_r b a). apply IH; try assumption; try lia. apply pow_sub_one; try assumption; lia.
Qed.

Lemma order_from_factors A M n : 1 < M -> 0 < n -> A ^ n mod M = 1 ->
  forall ps, fold_right Z.mul 1 ps = n ->
  (forall p, In p ps -> prime p /\ A ^ (n / p) mod M <> 1) ->
  forall k, 0 < k -> A ^ k mod M = 1 -> (n | k).
Proof.
  intros HM Hn En ps Hps Hp k Hk Ek.
  pose proof (pow_gcd A M HM _ k n (Nat.lt_succ_diag_r _) Hk Hn Ek En) as Eg.
  set (g := Z.gcd k n) in *.
  assert (Gk : (g | k)) by apply Z.gcd_divide_l. assert (Gn : (g | n)) by apply Z.gcd_divide_r.
  assert (0 <= g) by apply Z.gcd_nonneg.
  destruct Gn as [e He].
  assert (Hgp : 0 < g) by (destruct (Z.eq_dec g 0) as [Z0|]; [rewrite Z0 in He; lia|lia]).
  assert (He0 : 0 < e) by nia.
  assert (RP : forall p, In p ps -> rel_prime e p).
  { intros p Hin. destruct (Hp p Hin) as [Pp Ne]. apply rel_prime_sym. apply prime_rel_prime; [exact Pp|].
    intros [c Hc]. apply Ne. assert (1 < p) by apply Pp.
    assert (n / p = g * c) as -> by (rewrite He, Hc; replace (c * p * g) with (g * c * p) by ring; apply Z.div_mul; lia).
    apply pow_mul_one; try lia; assumption. }
  assert (RPn : rel_prime e n).
  { rewrite <- Hps. clear - RP. induction ps as [|p ps IH]; cbn [fold_right].
    - apply rel_prime_sym, rel_prime_1.
    - apply rel_prime_mult; [apply RP; now left|]. apply IH. intros q Hq. apply RP. now right. }
  destruct RPn as [_ _ G]. specialize (G e ltac:(apply Z.divide_refl) ltac:(exists g; lia)).
  apply Z.divide_1_r_nonneg in G; [|lia]. subst e. rewrite Z.mul_1_l in He. rewrite He. exact Gk.
Qed.

Lemma powmod_eq a m n v : 0 < n -> Zpow_mod a m n = v -> a ^ m mod n = v.
Proof. intros Hn E. rewrite Zpow_mod_correct in E by lia. exact E. Qed.

Lemma kA_period : kA ^ (kM - 1) mod kM = 1.
Proof. apply powmod_eq; [reflexivity|]. vm_compute. reflexivity. Qed.

Lemma kA_order : forall k, 0 < k -> kA ^ k mod kM = 1 -> (kM - 1 | k).
Proof.
  apply (order_from_factors kA kM (kM - 1) ltac:(reflexivity) ltac:(reflexivity) kA_period [2; 3; 3; 7; 11; 31; 151; 331]);
    [reflexivity|].
  assert (Q : forall p, 0 < kM -> Zpow_mod kA ((kM - 1) / p) kM <> 1 -> kA ^ ((kM - 1) / p) mod kM <> 1).
  { intros p H N E. apply N. rewrite Zpow_mod_correct by lia. exact E. }
  intros p Hp. cbn [In] in Hp.
  repeat (destruct Hp as [<-|Hp];
   [split; [apply prime_by_gcd; [lia|vm_compute; reflexivity]|apply Q; [reflexivity|vm_compute; discriminate]]|]).
  destruct Hp.
Qed.

Lemma kM_gt1 : 1 < kM. Proof. reflexivity. Qed.

Definition std_inj := orbit_inj kM kA kM_gt1 kA_period kA_order.
Definition std_reaches := orbit_reaches kM kA kM_gt1 kA_period kA_order.
Definition std_nonzero := unit_stays kM kA kM_gt1 kA_period.

Lemma min_std_mod s n : min_std (s mod kM) n = min_std s n.
Proof. unfold min_std. change (2 ^ 31 - 1) with kM. apply Zmult_mod_idemp_r. Qed.

Lemma mod_range s : ~ (kM | s) -> 1 <= s mod kM < kM.
Proof.
  intros H. pose proof (Z.mod_pos_bound s kM ltac:(reflexivity)).
  assert (s mod kM <> 0); [|lia]. intros E. apply H. now apply Z.mod_divide.
Qed.

Lemma min_std_pos s n : ~ (kM | s) -> 1 <= min_std s n < kM.
Proof.
  intros H. pose proof (min_std_range s n). pose proof (std_nonzero s (Z.of_nat n) H ltac:(lia)) as N.
  change (kA ^ Z.of_nat n * s mod kM) with (min_std s n) in N. lia.
Qed.

Lemma min_std_periodic s n : min_std s (n + Z.to_nat (kM - 1)) = min_std s n.
Proof.
  unfold min_std. change (2 ^ 31 - 1) with kM. rewrite Nat2Z.inj_add, Z2Nat.id by (vm_compute; discriminate).
  apply (orbit_period kM kA kM_gt1 kA_period). lia.
Qed.

Lemma min_std_distinct s i j : ~ (kM | s) -> (i < j)%nat -> Z.of_nat j - Z.of_nat i < kM - 1 -> min_std s i <> min_std s j.
Proof.
  intros H L B E. rewrite <- (min_std_mod s i), <- (min_std_mod s j) in E.
  apply (std_inj (s mod kM) (Z.of_nat i) (Z.of_nat j) (mod_range s H)); [lia|lia|exact E].
Qed.

Lemma min_std_reaches s x : ~ (kM | s) -> 1 <= x < kM -> exists n, Z.of_nat n < kM - 1 /\ min_std s n = x.
Proof.
  intros H Hx. destruct (std_reaches (s mod kM) x (mod_range s H) Hx) as (k & Hk & E).
  exists (Z.to_nat k). rewrite Z2Nat.id by lia. split; [lia|]. rewrite <- min_std_mod. unfold min_std.
  rewrite Z2Nat.id by lia. exact E.
Qed.

Lemma min_std_stuck s n : (kM | s) -> min_std s n = 0.
Proof.
  intros [c ->]. unfold min_std. change (2 ^ 31 - 1) with kM. rewrite Z.mul_assoc. apply Z.mod_mul. discriminate.
Qed.

Lemma min_std_add s a b : min_std (min_std s a) b = min_std s (a + b).
Proof.
  unfold min_std. change (2 ^ 31 - 1) with kM. rewrite Zmult_mod_idemp_r, Z.mul_assoc, <- Z.pow_add_r by lia.
  f_equal. f_equal. f_equal. lia.
Qed.

(** ** shuffle *)
Lemma lcg_step_std x : 0 <= x < kM -> lcg_step x = Ok (min_std x 1).
Proof.
  intros H. pose proof (lcg_small x 0) as L. cbn [lcg_iter bind] in L. apply L.
  unfold ok_range, kM in *. lia.
Qed.

Lemma fill_spec n : forall x, 0 <= x < kM ->
  fill n x = Ok (min_std x n, map (fun i => lcg_out (min_std x (S i))) (seq 0 n)).
Proof.
  induction n as [|n IH]; intros x Hx; cbn [fill].
  - rewrite min_std_0, Z.mod_small by assumption. reflexivity.
  - rewrite lcg_step_std by assumption. cbn [bind]. rewrite IH by apply min_std_range. cbn [bind fst snd].
    rewrite min_std_add. change (1 + n)%nat with (S n). do 2 f_equal.
    cbn [seq map]. f_equal. rewrite <- seq_shift, map_map. apply map_ext. intros i. now rewrite min_std_add.
Qed.

Lemma initialize_spec s pos : in_long s ->
  shuffle_initialize s pos =
  Ok (mkShuffle (min_std s 40) pos (map (fun i => lcg_out (min_std s (9 + i))) (seq 0 32))).
Proof.
  intros H. unfold shuffle_initialize. rewrite lcg_any by (try assumption; lia). cbn [bind].
  rewrite fill_spec by apply min_std_range. cbn [bind fst snd]. rewrite min_std_add. do 2 f_equal.
  apply map_ext. intros i. now rewrite min_std_add.
Qed.

Open Scope R_scope.
Lemma lcg_out_unit x : lcg_out x = unit_value x.
Proof. unfold lcg_out, unit_value, Rdiv. change (2 ^ 31 - 1)%Z with kM. ring. Qed.
Lemma lcg_out_range x : (0 <= x < kM)%Z -> 0 <= lcg_out x < 1.
Proof.
  intros [H1 H2]. rewrite lcg_out_unit. unfold unit_value. change (2 ^ 31 - 1)%Z with kM.
  apply IZR_le in H1. apply IZR_lt in H2. assert (0 < IZR kM) by (apply (IZR_lt 0); reflexivity).
  split; [apply Rmult_le_pos; [assumption|left; now apply Rinv_0_lt_compat]|].
  apply Rmult_lt_reg_r with (IZR kM); [assumption|]. unfold Rdiv. rewrite Rmult_assoc, Rinv_l by lra. lra.
Qed.

Lemma size_t_unit x : 0 <= x < 1 -> size_t_of_double x = Ok 0%Z.
Proof.
  intros H. unfold size_t_of_double, Rltb. destruct (Rlt_dec x 0); [lra|]. rewrite andb_false_r.
  assert (Int_part x = 0)%Z as ->.
  { destruct (base_Int_part x) as [B1 B2].
    assert (Int_part x < 1)%Z by (apply lt_IZR; lra).
    assert (-1 < Int_part x)%Z by (apply lt_IZR; lra). lia. }
  reflexivity.
Qed.

Lemma draw_spec x t0 tl : (0 <= x < kM)%Z -> 0 <= t0 < 1 ->
  shuffle_draw (mkShuffle x 0 (t0 :: tl)) = Ok (t0, mkShuffle (min_std x 1) 0 (lcg_out (min_std x 1) :: tl)).
Proof.
  intros Hx Ht. unfold shuffle_draw. cbn [table position Z.to_nat nth_error lcg].
  rewrite lcg_step_std by assumption. cbn [bind]. rewrite size_t_unit by assumption. reflexivity.
Qed.

Lemma stream_spec n : forall x t0 tl, (0 <= x < kM)%Z -> 0 <= t0 < 1 ->
  exists sh, shuffle_stream (S n) (mkShuffle x 0 (t0 :: tl)) =
  Ok (t0 :: map (fun i => lcg_out (min_std x (S i))) (seq 0 n), sh).
Proof.
  induction n as [|n IH]; intros x t0 tl Hx Ht; cbn [shuffle_stream].
  - rewrite draw_spec by assumption. cbn [bind fst snd]. eexists. reflexivity.
  - rewrite draw_spec by assumption. cbn [bind fst snd].
    destruct (IH (min_std x 1) (lcg_out (min_std x 1)) tl (min_std_range x 1) (lcg_out_range _ (min_std_range x 1))) as (sh & E).
    change (shuffle_stream (S n)) with (fun sh => shuffle_stream (S n) sh) in E. cbn [shuffle_stream] in E. rewrite E.
    cbn [bind fst snd]. eexists. do 3 f_equal. cbn [seq map]. f_equal. rewrite <- seq_shift, map_map. apply map_ext.
    intros i. now rewrite min_std_add.
Qed.

(** ** the polar loop *)
Definition good_pair (y : Z) : Prop :=
  let v1 := 2 * lcg_out y - 1 in let v2 := 2 * lcg_out (min_std y 1) - 1 in
  dbl_epsilon <= v1 * v1 + v2 * v2 < 1.

Lemma loop_step_good fuel x t0 tl : (0 <= x < kM)%Z -> 0 <= t0 < 1 ->
  let v1 := 2 * t0 - 1 in let v2 := 2 * lcg_out (min_std x 1) - 1 in
  polar_loop (S fuel) (mkShuffle x 0 (t0 :: tl)) =
  (if Rgeb (v1 * v1 + v2 * v2) 1 || Rltb (v1 * v1 + v2 * v2) dbl_epsilon
   then polar_loop fuel (mkShuffle (min_std x 2) 0 (lcg_out (min_std x 2) :: tl))
   else Ok (v1, v2, v1 * v1 + v2 * v2, mkShuffle (min_std x 2) 0 (lcg_out (min_std x 2) :: tl))).
Proof.
  intros Hx Ht. cbv zeta. cbn [polar_loop]. rewrite draw_spec by assumption. cbn [bind fst snd].
  rewrite draw_spec by (try apply min_std_range; apply lcg_out_range, min_std_range). cbn [bind fst snd].
  rewrite min_std_add. reflexivity.
Qed.

Lemma loop_until_good tl : forall d x, (0 <= x < kM)%Z -> good_pair (min_std x (2 * d)) ->
  forall fuel, (d < fuel)%nat ->
  exists r, polar_loop fuel (mkShuffle x 0 (lcg_out x :: tl)) = Ok r /\
    forall fuel', (d < fuel')%nat -> polar_loop fuel' (mkShuffle x 0 (lcg_out x :: tl)) = Ok r.
Proof.
  induction d as [|d IH]; intros x Hx G fuel Hf.
  - destruct fuel as [|fuel]; [lia|]. rewrite loop_step_good by (try assumption; now apply lcg_out_range).
    change (2 * 0)%nat with 0%nat in G. rewrite min_std_0, Z.mod_small in G by assumption. unfold good_pair in G. cbv zeta in G.
    unfold Rgeb, Rltb. destruct (Rle_dec 1 _); [lra|]. destruct (Rlt_dec _ _); [lra|]. cbn [orb].
    eexists. split; [reflexivity|]. intros fuel' Hf'. destruct fuel' as [|fuel']; [lia|].
    rewrite loop_step_good by (try assumption; now apply lcg_out_range).
    unfold Rgeb, Rltb. destruct (Rle_dec 1 _); [lra|]. destruct (Rlt_dec _ _); [lra|]. reflexivity.
  - destruct fuel as [|fuel]; [lia|]. rewrite loop_step_good by (try assumption; now apply lcg_out_range).
    destruct (Rgeb _ 1 || Rltb _ dbl_epsilon) eqn:C.
    + replace (2 * S d)%nat with (2 + 2 * d)%nat in G by lia. rewrite <- min_std_add in G.
      destruct (IH (min_std x 2) (min_std_range x 2) G fuel ltac:(lia)) as (r & E & Eall).
      exists r. split; [exact E|]. intros fuel' Hf'. destruct fuel' as [|fuel']; [lia|].
      rewrite loop_step_good by (try assumption; now apply lcg_out_range). rewrite C. apply Eall. lia.
    + eexists. split; [reflexivity|]. intros fuel' Hf'. destruct fuel' as [|fuel']; [lia|].
      rewrite loop_step_good by (try assumption; now apply lcg_out_range). rewrite C. reflexivity.
Qed.

Definition y0 : Z := 500000001.

Lemma eps_pos : 0 < dbl_epsilon < / 1000.
Proof.
  unfold dbl_epsilon. split; [apply Rinv_0_lt_compat; apply pow_lt; lra|].
  apply Rinv_1_lt_contravar; [lra|]. apply Rlt_le_trans with (2 ^ 10); [cbn; lra|].
  apply Rle_pow; [lra|lia].
Qed.

Lemma good_y0 : good_pair y0 /\ good_pair (min_std y0 1).
Proof.
  pose proof eps_pos as E. unfold good_pair.
  change (min_std (min_std y0 1) 1) with 436198831%Z. change (min_std y0 1) with 396506096%Z.
  unfold lcg_out, y0. change (IZR kM) with 2147483647. cbv zeta. split; split; nra.
Qed.

(** after every even (resp. odd) offset a good pair comes *)
Lemma good_comes x : (1 <= x < kM)%Z -> exists d, good_pair (min_std x (2 * d)).
Proof.
  intros Hx. assert (ND : ~ (kM | x)%Z).
  { intros D. apply Z.divide_pos_le in D; lia. }
  destruct (min_std_reaches x y0 ND ltac:(vm_compute; split; congruence)) as (k & Hk & E).
  destruct good_y0 as [G0 G1]. rewrite <- E in G0, G1. rewrite min_std_add in G1.
  destruct (Nat.Even_or_Odd k) as [[j Hj]|[j Hj]].
  - exists j. now rewrite <- Hj.
  - exists (S j). replace (2 * S j)%nat with (k + 1)%nat by lia. exact G1.
Qed.

(** generator states from which the polar loop is started *)
Definition live (sh : shuffle) : Prop :=
  (1 <= lcg sh < kM)%Z /\ position sh = 0%Z /\ exists t0 tl, table sh = t0 :: tl /\ 0 <= t0 < 1.

Lemma polar_terminates sh : live sh -> exists r fuel0,
  (forall fuel, (fuel0 <= fuel)%nat -> polar_loop fuel sh = Ok r) /\
  (let '(v1, v2, rsq, sh') := r in rsq = v1 * v1 + v2 * v2 /\ dbl_epsilon <= rsq < 1 /\ live sh').
Proof.
  destruct sh as [x p t]. unfold live. cbn [lcg position table]. intros (Hx & -> & t0 & tl & -> & Ht).
  assert (ND : ~ (kM | x)%Z) by (intros D; apply Z.divide_pos_le in D; lia).
  assert (LV : forall y tl, (1 <= y < kM)%Z -> live (mkShuffle (min_std y 2) 0 (lcg_out (min_std y 2) :: tl))).
  { intros y tl' Hy. assert (~ (kM | y)%Z) by (intros D; apply Z.divide_pos_le in D; lia).
    split; [now apply min_std_pos|]. split; [reflexivity|]. eexists _, _. split; [reflexivity|].
    apply lcg_out_range, min_std_range. }
  (* every result of the loop has the stated form *)
  assert (Inv : forall fuel y u tl, (1 <= y < kM)%Z -> 0 <= u < 1 -> forall r,
     polar_loop fuel (mkShuffle y 0 (u :: tl)) = Ok r ->
     let '(v1, v2, rsq, sh') := r in rsq = v1 * v1 + v2 * v2 /\ dbl_epsilon <= rsq < 1 /\ live sh').
  { induction fuel as [|fuel IH]; intros y u tl' Hy Hu r E; [discriminate|].
    rewrite loop_step_good in E by (try assumption; lia).
    assert (~ (kM | y)%Z) by (intros D; apply Z.divide_pos_le in D; lia).
    unfold Rgeb, Rltb in E. destruct (Rle_dec 1 _) in E; cbn [orb] in E.
    - eapply IH; [|apply lcg_out_range, min_std_range|exact E]. now apply min_std_pos.
    - destruct (Rlt_dec _ dbl_epsilon) in E.
      + eapply IH; [|apply lcg_out_range, min_std_range|exact E]. now apply min_std_pos.
      + injection E as <-. split; [reflexivity|]. split; [lra|]. now apply LV. }
  destruct (good_comes (min_std x 2) (min_std_pos x 2 ND)) as (d & G).
  destruct (loop_until_good tl d (min_std x 2) (min_std_range x 2) G (S d) ltac:(lia)) as (r & _ & E).
  destruct (polar_loop (S (S d)) (mkShuffle x 0 (t0 :: tl))) as [r0| | |] eqn:E0.
  - exists r0, (S (S d)). split; [|exact (Inv _ _ _ _ Hx Ht _ E0)].
    intros fuel Hf. destruct fuel as [|fuel]; [lia|]. rewrite loop_step_good by (try assumption; lia).
    rewrite loop_step_good in E0 by (try assumption; lia).
    destruct (Rgeb _ 1 || Rltb _ dbl_epsilon); [|exact E0].
    rewrite E in E0 by lia. rewrite E by lia. exact E0.
  - rewrite loop_step_good in E0 by (try assumption; lia). destruct (Rgeb _ 1 || Rltb _ dbl_epsilon); [|discriminate].
    rewrite E in E0 by lia. discriminate.
  - rewrite loop_step_good in E0 by (try assumption; lia). destruct (Rgeb _ 1 || Rltb _ dbl_epsilon); [|discriminate].
    rewrite E in E0 by lia. discriminate.
  - rewrite loop_step_good in E0 by (try assumption; lia). destruct (Rgeb _ 1 || Rltb _ dbl_epsilon); [|discriminate].
    rewrite E in E0 by lia. discriminate.
Qed.

Lemma initialize_live s : in_long s -> ~ (kM | s)%Z ->
  exists sh, shuffle_initialize s 0 = Ok sh /\ live sh.
Proof.
  intros H ND. rewrite initialize_spec by assumption. eexists. split; [reflexivity|].
  split; cbn [lcg position table]; [now apply min_std_pos|]. split; [reflexivity|].
  cbn [seq map]. eexists _, _. split; [reflexivity|]. apply lcg_out_range, min_std_range.
Qed.

(** stuck generator *)
Lemma stuck_loop fuel : forall tl, polar_loop fuel (mkShuffle 0 0 (0 :: tl)) = Hang.
Proof.
  induction fuel as [|fuel IH]; intros tl; [reflexivity|].
  rewrite loop_step_good by (try lra; unfold kM; lia).
  change (min_std 0 1) with 0%Z. change (min_std 0 2) with 0%Z.
  assert (Z0 : lcg_out 0 = 0) by (unfold lcg_out; lra). rewrite Z0.
  unfold Rgeb. destruct (Rle_dec 1 _) as [L|L]; [cbn [orb]; apply IH|]. exfalso. apply L. lra.
Qed.

(** size of a normal deviate *)
Lemma deviate_bound v1 v2 rsq : rsq = v1 * v1 + v2 * v2 -> dbl_epsilon <= rsq < 1 ->
  let fac := sqrt (-2 * ln rsq / rsq) in
  (v1 * fac) ^ 2 + (v2 * fac) ^ 2 = -2 * ln rsq /\
  Rabs (v1 * fac) <= sqrt (104 * ln 2) /\ Rabs (v2 * fac) <= sqrt (104 * ln 2).
Proof.
  intros E H. cbv zeta. pose proof eps_pos as P. assert (Hr : 0 < rsq) by lra.
  assert (L : ln rsq <= 0).
  { rewrite <- ln_1. left. apply ln_increasing; lra. }
  assert (L2 : - (52 * ln 2) <= ln rsq).
  { replace (- (52 * ln 2)) with (ln dbl_epsilon).
    - destruct (Req_dec dbl_epsilon rsq) as [->|Ne]; [lra|]. left. apply ln_increasing; lra.
    - unfold dbl_epsilon. rewrite ln_Rinv by (apply pow_lt; lra). f_equal. rewrite ln_pow by lra.
      rewrite INR_IZR_INZ. reflexivity. }
  assert (Q : 0 <= -2 * ln rsq / rsq).
  { apply Rmult_le_pos; [lra|]. left. now apply Rinv_0_lt_compat. }
  set (fac := sqrt (-2 * ln rsq / rsq)).
  assert (F2 : fac * fac = -2 * ln rsq / rsq) by (unfold fac; now apply sqrt_sqrt).
  assert (S : (v1 * fac) ^ 2 + (v2 * fac) ^ 2 = -2 * ln rsq).
  { replace ((v1 * fac) ^ 2 + (v2 * fac) ^ 2) with ((v1 * v1 + v2 * v2) * (fac * fac)) by ring.
    rewrite F2, <- E. field. lra. }
  assert (B : -2 * ln rsq <= 104 * ln 2) by lra.
  split; [exact S|]. split.
  - rewrite <- sqrt_Rsqr_abs. apply sqrt_le_1_alt. unfold Rsqr. pose proof (pow2_ge_0 (v2 * fac)). nra.
  - rewrite <- sqrt_Rsqr_abs. apply sqrt_le_1_alt. unfold Rsqr. pose proof (pow2_ge_0 (v1 * fac)). nra.
Qed.

(** ** MakeSeed *)
Lemma trunc_bound x b : (0 <= b)%Z -> - IZR b - 1 < x < IZR b + 1 ->
  exists t, (if Rgeb x 0 then Int_part x else - Int_part (- x))%Z = t /\ (- b <= t <= b)%Z.
Proof.
  intros Hb H. eexists. split; [reflexivity|]. unfold Rgeb. destruct (Rle_dec 0 x) as [L|L].
  - destruct (base_Int_part x) as [B1 B2].
    assert (Int_part x < b + 1)%Z by (apply lt_IZR; rewrite plus_IZR; lra).
    assert (-1 < Int_part x)%Z by (apply lt_IZR; lra). lia.
  - destruct (base_Int_part (- x)) as [B1 B2].
    assert (Int_part (- x) < b + 1)%Z by (apply lt_IZR; rewrite plus_IZR; lra).
    assert (-1 < Int_part (- x))%Z by (apply lt_IZR; lra). lia.
Qed.

Lemma make_seed_spec base : ok_range base -> ~ (kM | base)%Z ->
  exists seed, make_seed base = Ok (min_std base 1, seed) /\ in_long seed /\ seed <> 0%Z /\ ~ (kM | seed)%Z.
Proof.
  intros H ND. unfold make_seed. pose proof (lcg_small base 0 H) as L. cbn [lcg_iter bind] in L. rewrite L.
  cbn [bind]. pose proof (min_std_pos base 1 ND) as [P1 P2]. set (x := min_std base 1) in *.
  assert (X1 : 1 <= IZR x) by (apply (IZR_le 1); assumption).
  assert (X2 : IZR x <= 2147483646) by (apply (IZR_le x 2147483646); unfold kM in P2; lia).
  destruct (trunc_bound ((lcg_out x - 5 / 10) * 4294967295) 2147483645 ltac:(lia)) as (t & E & B).
  { unfold lcg_out. change (IZR kM) with 2147483647. lra. }
  unfold long_of_double. cbv zeta. rewrite E. rewrite chk_ok by lia. cbn [bind]. eexists. split; [reflexivity|].
  destruct (Z.eqb_spec t 0) as [Z0|Z0].
  - split; [unfold in_long; lia|]. split; [discriminate|]. intros D. apply Z.mod_divide in D; [|discriminate].
    vm_compute in D. discriminate.
  - split; [unfold in_long; lia|]. split; [exact Z0|]. intros D. unfold kM in D.
    assert (2147483647 <= Z.abs t)%Z; [|lia]. apply Z.divide_pos_le; [lia|]. now apply Z.divide_abs_r.
Qed.

Definition live_normal (nr : normal) : Prop :=
  live (rng nr) /\ Rabs (holder nr) <= sqrt (104 * ln 2).

Lemma sqrt_bound_nonneg : 0 <= sqrt (104 * ln 2).
Proof. apply sqrt_pos. Qed.

Lemma scaled_bound z sd avg : 0 <= sd -> Rabs z <= sqrt (104 * ln 2) ->
  Rabs (z * sd + avg - avg) <= sqrt (104 * ln 2) * sd.
Proof.
  intros H B. replace (z * sd + avg - avg) with (z * sd) by ring. rewrite Rabs_mult, (Rabs_right sd) by lra.
  now apply Rmult_le_compat_r.
Qed.

Lemma normal_draw_ok nr : live_normal nr -> 0 <= deviation nr ->
  exists d nr' fuel0, (forall fuel, (fuel0 <= fuel)%nat -> normal_draw fuel nr = Ok (d, nr')) /\
    live_normal nr' /\ deviation nr' = deviation nr /\ average nr' = average nr /\
    Rabs (d - average nr) <= sqrt (104 * ln 2) * deviation nr.
Proof.
  intros [HL HH] Hsd. destruct nr as [avg sd sh h em]. cbn [rng holder deviation average] in *.
  unfold normal_draw. cbn [is_empty rng average deviation holder]. destruct em.
  - destruct (polar_terminates sh HL) as ([[[v1 v2] rsq] sh'] & fuel0 & E & E1 & E2 & L').
    destruct (deviate_bound v1 v2 rsq E1 E2) as (_ & B1 & B2).
    eexists _, _, fuel0. split.
    { intros fuel Hf. rewrite (E fuel Hf). cbn [bind]. reflexivity. }
    split; [split; [exact L'|exact B1]|]. split; [reflexivity|]. split; [reflexivity|]. now apply scaled_bound.
  - eexists _, _, 0%nat. split; [reflexivity|]. split; [split; assumption|]. split; [reflexivity|].
    split; [reflexivity|]. now apply scaled_bound.
Qed.

Lemma normal_run_ok n : forall nr, live_normal nr -> 0 <= deviation nr ->
  exists ds nr' fuel0, (forall fuel, (fuel0 <= fuel)%nat -> normal_run n fuel nr = Ok (ds, nr')) /\
    length ds = n /\ Forall (fun d => Rabs (d - average nr) <= sqrt (104 * ln 2) * deviation nr) ds.
Proof.
  induction n as [|n IH]; intros nr HL Hsd.
  - exists [], nr, 0%nat. repeat split; constructor.
  - destruct (normal_draw_ok nr HL Hsd) as (d & nr1 & f1 & E1 & L1 & D1 & A1 & B1).
    destruct (IH nr1 L1 ltac:(now rewrite D1)) as (ds & nr2 & f2 & E2 & LL & F).
    exists (d :: ds), nr2, (Nat.max f1 f2). split; [|split].
    + intros fuel Hf. cbn [normal_run]. rewrite E1 by lia. cbn [bind fst snd]. rewrite E2 by lia. reflexivity.
    + cbn. now f_equal.
    + constructor; [exact B1|]. now rewrite A1, D1 in F.
Qed.

Lemma ok_range_std x n : ok_range (min_std x n).
Proof. pose proof (min_std_range x n) as H. unfold ok_range, kM in *. lia. Qed.

Lemma make_seeds_ok n : forall base, ok_range base -> ~ (kM | base)%Z ->
  exists seeds base', make_seeds n base = Ok (seeds, base') /\ length seeds = n /\
   Forall (fun seed => in_long seed /\ seed <> 0%Z /\ ~ (kM | seed)%Z) seeds.
Proof.
  induction n as [|n IH]; intros base H ND.
  - exists [], base. repeat split; constructor.
  - destruct (make_seed_spec base H ND) as (seed & E & P).
    destruct (IH (min_std base 1) (ok_range_std _ _)) as (seeds & b' & E2 & LL & F).
    { intros D. pose proof (min_std_pos base 1 ND). apply Z.divide_pos_le in D; lia. }
    exists (seed :: seeds), b'. cbn [make_seeds]. rewrite E. cbn [bind fst snd]. rewrite E2. cbn [bind fst snd].
    split; [reflexivity|]. split; [cbn; now f_equal|]. constructor; assumption.
Qed.
