(** C11, C12: component scheduling. *)
From Coq Require Import List ZArith Bool Lia.
From Verif Require Import Base ClockModel ClockSpec ClockProofs.
Import ListNotations.
Open Scope Z_scope.

(** C11: the number of activations over n consecutive counts 0..n-1 is ceil(n/p), with
    0 taken as prescaler 1, whatever the power history. *)
Theorem C11_activation_count : forall prescaler (on : Z -> bool) (n : nat),
  Z.of_nat (length (run_ticks (checked_prescaler prescaler) on n))
  = ceil_div (Z.of_nat n) (if prescaler <=? 0 then 1 else prescaler).
Proof.
  intros p on n. rewrite (run_ticks_count _ on n (checked_prescaler_pos p)).
  unfold checked_prescaler. destruct (Z.ltb_spec 0 p), (Z.leb_spec p 0); try lia; reflexivity.
Qed.
Print Assumptions C11_activation_count.

(** C11: exactly at the multiples of the prescaler, the main routine if and only if the
    power port is on at that count. *)
Theorem C11_activation_times : forall p on n e, 0 < p ->
  In e (run_ticks p on n) <->
  exists k, 0 <= k < Z.of_nat n /\ (p | k) /\ e = if on k then Main k else PowerOff.
Proof. exact run_ticks_events. Qed.
Print Assumptions C11_activation_times.

(** C11: the counter wraps at 2^32; the cadence survives the wrap for prescalers dividing
    2^32 ... *)
Theorem C11_cadence_across_counter_wrap : forall p k, 0 < p -> (p | 2 ^ 32) -> 0 <= k ->
  forall on, (tick p on (k mod 2 ^ 32) <> []) <-> (p | k).
Proof. exact no_disturbance. Qed.
Print Assumptions C11_cadence_across_counter_wrap.

(** ... and not for others: with prescaler 3 two consecutive ticks activate. *)
Theorem C11_cadence_across_counter_wrap_refuted :
  let k := (2 ^ 32 - 1) mod 2 ^ 32 in let k' := (k + 1) mod 2 ^ 32 in
  tick 3 true k = [Main k] /\ tick 3 true k' = [Main k'].
Proof. exact wrap_disturbs_cadence. Qed.
Print Assumptions C11_cadence_across_counter_wrap_refuted.

(** C12: after ClearTimerCount and any history, an update with the flag set ticks exactly
    the registered components, once per registration, in registration order, with the
    number of updates so far (mod 2^32); any other operation ticks nothing. *)
Theorem C12_clock_ticks_registered_components : forall attr (history : list cop) (o : cop),
  exists c outs, crun attr clock_new (Clear :: history ++ [o]) = Ok (c, outs ++ [
     match o with
     | UpdateComponents true on =>
         flat_map (fun id => map (pair id)
                    (expected (attr id) (on id) (Z.of_nat (ticks_since_clear (rev history)) mod 2 ^ 32)))
                  (registered (rev history))
     | _ => []
     end]).
Proof. exact clock_history. Qed.
Print Assumptions C12_clock_ticks_registered_components.

(** C12: without ClearTimerCount the first tick of a registered component reads an
    uninitialised counter. *)
Theorem C12_counter_initialised_refuted : forall attr id on,
  crun attr clock_new [Register id; UpdateComponents true on] = UB.
Proof. reflexivity. Qed.
Print Assumptions C12_counter_initialised_refuted.

Example ex_clock : exists c outs,
  crun (fun id => mkAttrs (Z.of_nat id) 1 (Nat.eqb id 2)) clock_new
   (Clear :: [Register 2; Register 3; Register 2; UpdateComponents true (fun _ => true);
    UpdateComponents false (fun _ => true); Remove 2; UpdateComponents true (fun _ => true)]
    ++ [UpdateComponents true (fun i => Nat.eqb i 3)])
  = Ok (c, outs ++ [[(2%nat, PowerOff); (2%nat, PowerOff)]]).
Proof. eexists. exists [[];[];[];[]; [(2%nat,Main 0);(2%nat,Fast);(3%nat,Main 0);(2%nat,Main 0);(2%nat,Fast)];[];[]; [(2%nat,Fast)]]. vm_compute. reflexivity. Qed.
