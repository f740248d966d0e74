From Coq Require Import List ZArith Bool Lia.
From Verif Require Import Base ClockModel ClockSpec.
Import ListNotations.
Open Scope Z_scope.

Lemma checked_prescaler_pos p : 0 < checked_prescaler p.
Proof. unfold checked_prescaler. destruct (Z.ltb_spec 0 p); lia. Qed.

Lemma tick_char p on k : 0 < p -> 0 <= k ->
  tick p on k = if k mod p =? 0 then [if on then Main k else PowerOff] else [].
Proof.
  intros Hp Hk. unfold tick. pose proof (Z.mod_pos_bound k p Hp).
  destruct (Z.ltb_spec 0 (k mod p)); destruct (Z.eqb_spec (k mod p) 0); try lia; destruct on; reflexivity.
Qed.

(** activations over n consecutive counts starting at 0 *)
Fixpoint run_ticks (p : Z) (on : Z -> bool) (n : nat) : list event :=
  match n with
  | O => []
  | S n' => run_ticks p on n' ++ tick p (on (Z.of_nat n')) (Z.of_nat n')
  end.

Lemma ceil_div_succ n p : 0 < p -> 0 <= n ->
  ceil_div (n + 1) p = ceil_div n p + (if n mod p =? 0 then 1 else 0).
Proof.
  intros Hp Hn. unfold ceil_div.
  pose proof (Z.div_mod n p ltac:(lia)) as E. pose proof (Z.mod_pos_bound n p Hp) as B.
  set (q := n / p) in *. set (r := n mod p) in *. rewrite E.
  destruct (Z.eqb_spec r 0) as [->|Hr].
  - replace (p * q + 0 + 1 + p - 1) with ((q + 1) * p) by ring.
    replace (p * q + 0 + p - 1) with ((p - 1) + q * p) by ring.
    rewrite Z.div_mul, Z.div_add by lia. rewrite Z.div_small by lia. lia.
  - replace (p * q + r + 1 + p - 1) with (r + (q + 1) * p) by ring.
    replace (p * q + r + p - 1) with ((r - 1) + (q + 1) * p) by ring.
    rewrite !Z.div_add by lia. rewrite !Z.div_small by lia. lia.
Qed.

Lemma run_ticks_count p on n : 0 < p ->
  Z.of_nat (length (run_ticks p on n)) = ceil_div (Z.of_nat n) p.
Proof.
  intros Hp. induction n as [|n IH].
  - cbn. unfold ceil_div. rewrite Z.div_small by lia. reflexivity.
  - cbn [run_ticks]. rewrite app_length, Nat2Z.inj_add, IH.
    rewrite Nat2Z.inj_succ, <- Z.add_1_r, ceil_div_succ by lia.
    rewrite tick_char by lia. destruct (Z.of_nat n mod p =? 0); reflexivity.
Qed.

Lemma run_ticks_events p on n e : 0 < p ->
  In e (run_ticks p on n) <->
  exists k, 0 <= k < Z.of_nat n /\ (p | k) /\ e = if on k then Main k else PowerOff.
Proof.
  intros Hp. induction n as [|n IH].
  - cbn. split; [tauto|]. intros (k & Hk & _). lia.
  - cbn [run_ticks]. rewrite in_app_iff, IH, tick_char by lia. split.
    + intros [(k & Hk & Hd & He)|H].
      * exists k. repeat split; try assumption; lia.
      * destruct (Z.eqb_spec (Z.of_nat n mod p) 0) as [Hm|Hm]; [|destruct H].
        destruct H as [<-|[]]. exists (Z.of_nat n). repeat split; try lia.
        apply Z.mod_divide in Hm; [exact Hm|lia].
    + intros (k & Hk & Hd & He). destruct (Z.eq_dec k (Z.of_nat n)) as [->|Hne].
      * right. apply Z.mod_divide in Hd; [|lia]. rewrite Hd. cbn. left. now symmetry.
      * left. exists k. repeat split; try assumption; lia.
Qed.

Lemma remove_first_drop l id : remove_first l id = drop_first l id.
Proof. induction l as [|x l IH]; [reflexivity|]. cbn. now rewrite IH. Qed.

Lemma tick_one_expected attr on k id : 0 <= k ->
  tick_one attr on k id = map (pair id) (expected (attr id) (on id) k).
Proof.
  intros Hk. unfold tick_one, expected. f_equal.
  assert (E : forall p, checked_prescaler p = at_least_1 p).
  { intros p. unfold checked_prescaler, at_least_1. destruct (Z.ltb_spec 0 p); lia. }
  rewrite !E. assert (P : forall p, 0 < at_least_1 p) by (intros p; unfold at_least_1; lia).
  f_equal; [now apply tick_char|].
  destruct (needs_fast (attr id)); [|reflexivity]. unfold fast_tick. cbn [andb].
  pose proof (Z.mod_pos_bound k _ (P (fast_prescaler (attr id)))) as B.
  destruct (Z.ltb_spec 0 (k mod at_least_1 (fast_prescaler (attr id))));
  destruct (Z.eqb_spec (k mod at_least_1 (fast_prescaler (attr id))) 0); try lia; now destruct (on id).
Qed.

(** clock generator *)
Section C.
Variable attr : nat -> attrs.

Definition cagree (c : clock) (past : list cop) : Prop :=
  comps c = registered past /\
  (existsb is_clear past = true -> count c = Some (Z.of_nat (ticks_since_clear past) mod 2 ^ 32)).

Lemma cstep_agree c past o : cagree c past -> existsb is_clear past = true ->
  exists c', cstep attr c o = Ok (c',
     match o with
     | UpdateComponents true on =>
         flat_map (fun id => map (pair id) (expected (attr id) (on id) (Z.of_nat (ticks_since_clear past) mod 2 ^ 32))) (registered past)
     | _ => []
     end) /\ cagree c' (o :: past).
Proof.
  intros [H1 H2] Hc. specialize (H2 Hc).
  destruct o as [id|id| |flag on]; cbn [cstep].
  - eexists. split; [reflexivity|]. split; cbn [comps register registered]; [now rewrite H1|]. intros _. exact H2.
  - eexists. split; [reflexivity|]. split; cbn [comps remove registered]; [now rewrite H1, remove_first_drop|]. intros _. exact H2.
  - eexists. split; [reflexivity|]. split; cbn; [exact H1|]. reflexivity.
  - destruct flag.
    + unfold tick_all. rewrite H2, H1. eexists. split.
      { f_equal. f_equal. apply flat_map_ext. intros id. apply tick_one_expected.
        apply Z.mod_pos_bound. lia. }
      split; cbn [comps registered count]; [reflexivity|]. intros _. cbn [ticks_since_clear].
      rewrite Nat2Z.inj_succ, <- Z.add_1_r. f_equal. now rewrite Zplus_mod_idemp_l.
    + eexists. split; [reflexivity|]. split; cbn; [exact H1|]. intros _. exact H2.
Qed.

(** Before the first Clear, as long as nothing is registered and ticked, fine. *)
Lemma cstep_agree0 c past o : cagree c past -> 
  (forall on, o <> UpdateComponents true on) ->
  exists c', cstep attr c o = Ok (c', []) /\ cagree c' (o :: past).
Proof.
  intros [H1 H2] Hn. destruct o as [id|id| |flag on]; cbn [cstep].
  - eexists. split; [reflexivity|]. split; cbn [comps register registered]; [now rewrite H1|exact H2].
  - eexists. split; [reflexivity|]. split; cbn [comps remove registered]; [now rewrite H1, remove_first_drop|exact H2].
  - eexists. split; [reflexivity|]. split; cbn; [exact H1|reflexivity].
  - destruct flag; [exfalso; now apply (Hn on)|].
    eexists. split; [reflexivity|]. split; cbn; [exact H1|exact H2].
Qed.

Lemma crun_app ops1 : forall ops2 c, crun attr c (ops1 ++ ops2) =
  let! r := crun attr c ops1 in
  let! r' := crun attr (fst r) ops2 in Ok (fst r', snd r ++ snd r').
Proof.
  induction ops1 as [|o os IH]; intros ops2 c; cbn [crun app bind fst snd].
  - destruct (crun attr c ops2) as [[c' l]| | |]; reflexivity.
  - destruct (cstep attr c o) as [[c' l]| | |]; cbn [bind fst snd]; try reflexivity.
    rewrite IH. destruct (crun attr c' os) as [[c1 l1]| | |]; cbn [bind fst snd]; try reflexivity.
    destruct (crun attr c1 ops2) as [[c2 l2]| | |]; reflexivity.
Qed.

Lemma crun_agree ops : forall c past, cagree c past -> existsb is_clear past = true ->
  exists c' outs, crun attr c ops = Ok (c', outs) /\ cagree c' (rev ops ++ past).
Proof.
  induction ops as [|o os IH]; intros c past H Hc.
  - exists c, []. split; [reflexivity|exact H].
  - destruct (cstep_agree c past o H Hc) as (c1 & E1 & A1).
    destruct (IH c1 (o :: past) A1) as (c2 & outs & E2 & A2).
    { cbn [existsb]. rewrite Hc. apply orb_true_r. }
    eexists c2, (_ :: outs). split.
    + cbn [crun]. rewrite E1. cbn [bind fst snd]. rewrite E2. reflexivity.
    + cbn [rev]. rewrite <- app_assoc. exact A2.
Qed.

(** any history starting with Clear: what the last operation makes the components do *)
Lemma clock_history ops o :
  exists c outs, crun attr clock_new (Clear :: ops ++ [o]) = Ok (c, outs ++ [
     match o with
     | UpdateComponents true on =>
         flat_map (fun id => map (pair id)
                    (expected (attr id) (on id) (Z.of_nat (ticks_since_clear (rev ops)) mod 2 ^ 32)))
                  (registered (rev ops))
     | _ => []
     end]).
Proof.
  assert (A0 : cagree clock_new []) by (split; [reflexivity|discriminate]).
  destruct (cstep_agree0 clock_new [] Clear A0 ltac:(discriminate)) as (c0 & E0 & A1).
  destruct (crun_agree ops c0 [Clear] A1 eq_refl) as (c1 & outs & E1 & A2).
  assert (Hcl : existsb is_clear (rev ops ++ [Clear]) = true).
  { rewrite existsb_app. cbn. apply orb_true_r. }
  destruct (cstep_agree c1 _ o A2 Hcl) as (c2 & E2 & A3).
  assert (T : ticks_since_clear (rev ops ++ [Clear]) = ticks_since_clear (rev ops)).
  { clear. induction (rev ops) as [|x l IH]; [reflexivity|]. cbn [app ticks_since_clear].
    destruct x as [| | |[] on]; auto. }
  assert (R : registered (rev ops ++ [Clear]) = registered (rev ops)).
  { clear. induction (rev ops) as [|x l IH]; [reflexivity|]. cbn [app registered].
    destruct x; now rewrite ?IH. }
  rewrite T, R in E2.
  exists c2, ([] :: outs). cbn [crun]. rewrite E0. cbn [bind fst snd].
  rewrite crun_app, E1. cbn [bind fst snd crun]. rewrite E2. cbn [bind fst snd].
  reflexivity.
Qed.
End C.

(** The counter is 32 bits: at the wrap-around the cadence of a prescaler that does not
    divide 2^32 is disturbed. *)
Lemma wrap_disturbs_cadence :
  let k := (2 ^ 32 - 1) mod 2 ^ 32 in let k' := (k + 1) mod 2 ^ 32 in
  tick 3 true k = [Main k] /\ tick 3 true k' = [Main k'].
Proof. vm_compute. auto. Qed.

Lemma mod_mod_divide k p M : 0 < p -> 0 < M -> (p | M) -> (k mod M) mod p = k mod p.
Proof.
  intros Hp HM [m ->].
  assert (Hm : m <> 0) by (intros ->; lia).
  rewrite (Z.mod_eq k (m * p)) by lia.
  replace (k - m * p * (k / (m * p))) with (k + (- (m * (k / (m * p)))) * p) by ring.
  apply Z.mod_add. lia.
Qed.

Lemma no_disturbance p k : 0 < p -> (p | 2 ^ 32) -> 0 <= k ->
  forall on, (tick p on (k mod 2 ^ 32) <> []) <-> (p | k).
Proof.
  intros Hp Hd Hk on. pose proof (Z.mod_pos_bound k (2 ^ 32) ltac:(lia)).
  rewrite tick_char by lia. rewrite mod_mod_divide by (try assumption; lia).
  destruct (Z.eqb_spec (k mod p) 0) as [E|E].
  - apply Z.mod_divide in E; [|lia]. split; [auto|discriminate].
  - split; [congruence|]. intros D. apply Z.mod_divide in D; [congruence|lia].
Qed.
