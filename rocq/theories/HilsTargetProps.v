(** C135: telemetry frames stored in the I2C-USB converter of a HILS target. *)
From Coq Require Import List ZArith Lia Bool Arith.
From Verif Require Import Base RegistryModel HilsTargetModel.
Import ListNotations.
Open Scope Z_scope.

(** one telemetry frame: the registers from the selected one on *)
Definition frame_of (t : i2c_target) (size : Z) : list Z := map (fun i => registers t (saved t + Z.of_nat i)) (seq 0 (Z.to_nat size)).
(** the selected register leaves room for a frame *)
Definition fits (t : i2c_target) (size : Z) : Prop := saved t + size <= max_reg t.

Lemma to_int_small x : 0 <= x < 2 ^ 31 -> to_int x = x.
Proof. intros H. unfold to_int. rewrite Z.mod_small by lia. destruct (Z.ltb_spec x (2 ^ 31)); [reflexivity|lia]. Qed.
Lemma to_int_neg x : - 2 ^ 31 <= x < 0 -> to_int x = x.
Proof.
  intros H. unfold to_int. cbv zeta. replace (x mod 2 ^ 32) with (x + 2 ^ 32) by (rewrite <- (Z.mod_small (x + 2 ^ 32) (2 ^ 32)) by lia; replace (x + 2 ^ 32) with (x + 1 * 2 ^ 32) by lia; rewrite Z.mod_add by lia; reflexivity).
  destruct (Z.ltb_spec (x + 2 ^ 32) (2 ^ 31)); lia.
Qed.
Lemma send_spec n : forall t size, 0 <= size -> 0 <= frames t -> frames t + Z.of_nat n < 2 ^ 32 ->
  (fits t size -> send_times t size n = (mkTarget (max_reg t) (saved t) (frames t + Z.of_nat n) (registers t) (command t), repeat (frame_of t size) n)) /\
  (~ fits t size -> send_times t size n = (t, [])).
Proof.
  unfold fits. induction n as [|n IH]; intros t size S0 F0 FB.
  - split; [|reflexivity]. intros _. cbn [send_times repeat]. rewrite Z.add_0_r. destruct t; reflexivity.
  - split.
    + intros H. cbn [send_times]. unfold target_send at 1. destruct (Z.ltb_spec (max_reg t) (saved t + size)); [lia|].
      rewrite Z.mod_small by lia. destruct (IH (mkTarget (max_reg t) (saved t) (frames t + 1) (registers t) (command t)) size) as (A & _); [lia|cbn [frames]; lia|cbn [frames]; lia|].
      rewrite A by (cbn [saved max_reg]; lia). cbn [max_reg saved frames registers command repeat]. f_equal. f_equal. lia.
    + intros H. cbn [send_times]. unfold target_send at 1. destruct (Z.ltb_spec (max_reg t) (saved t + size)); [|lia].
      destruct (IH t size S0 F0 ltac:(lia)) as (_ & A). rewrite A by lia. reflexivity.
Qed.

(** Refilling up to n frames: if there are n already, -1 and nothing happens; otherwise exactly the missing frames are sent, each with the
    registers from the selected one on, and the counter is n; if the frame does not fit behind the selected register nothing is sent, and
    still the call reports success. *)
Theorem C135_store : forall t n size, 0 <= frames t < 2 ^ 31 -> 0 <= n < 2 ^ 31 -> 0 <= size ->
  (n <= frames t -> store_telemetry (Some t) n size = (-1, Some t, [])) /\
  (frames t < n -> fits t size -> exists t', store_telemetry (Some t) n size = (0, Some t', repeat (frame_of t size) (Z.to_nat (n - frames t))) /\
     frames t' = n /\ saved t' = saved t /\ max_reg t' = max_reg t /\ registers t' = registers t /\ command t' = command t) /\
  (frames t < n -> ~ fits t size -> store_telemetry (Some t) n size = (0, Some t, [])).
Proof.
  intros t n size F N S0. unfold store_telemetry. rewrite (to_int_small (frames t)) by lia. split; [|split].
  - intros H. assert (D : to_int (n - frames t) = n - frames t) by (destruct (Z.eq_dec n (frames t)); [apply to_int_small; lia|apply to_int_neg; lia]). rewrite D.
    destruct (Z.leb_spec (n - frames t) 0); [reflexivity|lia].
  - intros H FT. rewrite to_int_small by lia. destruct (Z.leb_spec (n - frames t) 0); [lia|].
    destruct (send_spec (Z.to_nat (n - frames t)) t size S0 (proj1 F) ltac:(lia)) as (A & _). rewrite (A FT). eexists. split; [reflexivity|]. cbn [frames saved max_reg registers command]. repeat split; lia.
  - intros H FT. rewrite to_int_small by lia. destruct (Z.leb_spec (n - frames t) 0); [lia|].
    destruct (send_spec (Z.to_nat (n - frames t)) t size S0 (proj1 F) ltac:(lia)) as (_ & A). rewrite (A FT). reflexivity.
Qed.
Print Assumptions C135_store.

(** Success is also reported with no port connected at all. *)
Theorem C135_unconnected_refuted : forall n size, 0 <= n < 2 ^ 31 - 1 -> store_telemetry None n size = (0, None, []).
Proof. intros n size N. unfold store_telemetry. rewrite to_int_small by lia. destruct (Z.leb_spec (n - -1) 0); [lia|reflexivity]. Qed.
Print Assumptions C135_unconnected_refuted.

(** The receive/refill cycle.  Inputs: what the converter delivered in each step ([None] nothing).  As long as the registers the host selects
    leave room for a frame, n frames are stored after every step, and the number of frames sent is n minus the number at the start plus
    one for every read request (one-byte command): none lost, none too many. *)
Definition selects_ok (max size : Z) (b : option (list Z)) : Prop :=
  match b with Some [a] | Some [a; _] => 0 <= a /\ (a + size <= max \/ max <= a) | _ => True end.
Definition requests (inputs : list (option (list Z))) : nat :=
  length (filter (fun b => match b with Some [_] => true | _ => false end) inputs).
Lemma receive_frames t b : 0 <= frames t -> 
  frames (target_receive t b) = (match b with [_] => Z.max 0 (frames t - 1) | _ => frames t end) /\ max_reg (target_receive t b) = max_reg t.
Proof.
  intros F. unfold target_receive. destruct b as [|a [|v [|w b]]]; cbn [frames max_reg].
  - split; reflexivity.
  - unfold select_register. cbn [max_reg]. destruct (max_reg t <=? a); cbn [frames max_reg]; (destruct (Z.ltb_spec 0 (frames t)); cbn [frames max_reg]; (split; [lia|reflexivity])).
  - unfold write_register. cbn [max_reg]. destruct (max_reg t <=? a); cbn [frames max_reg]; split; reflexivity.
  - split; reflexivity.
Qed.
Lemma receive_fits t b size : selects_ok (max_reg t) size (Some b) -> fits t size -> fits (target_receive t b) size.
Proof.
  unfold fits, target_receive, selects_ok. destruct b as [|a [|v [|w b]]]; cbn [saved max_reg]; try tauto.
  - intros (A & B) H. unfold select_register. cbn [max_reg frames]. destruct (Z.leb_spec (max_reg t) a); cbn [frames saved max_reg]; destruct (0 <? frames t); cbn [saved max_reg]; lia.
  - intros (A & B) H. unfold write_register. cbn [max_reg]. destruct (Z.leb_spec (max_reg t) a); cbn [saved max_reg]; lia.
Qed.
Theorem C135_cycle : forall inputs t n size, frames t = n -> 1 <= n < 2 ^ 31 -> 0 <= size -> fits t size -> Forall (selects_ok (max_reg t) size) inputs ->
  frames (fst (hils_run t inputs n size)) = n /\ length (snd (hils_run t inputs n size)) = requests inputs.
Proof.
  assert (STEP : forall t b n size, frames t = n -> 1 <= n < 2 ^ 31 -> 0 <= size -> fits t size -> selects_ok (max_reg t) size b ->
    exists t' f, hils_step t b n size = (t', f) /\ frames t' = n /\ max_reg t' = max_reg t /\ fits t' size /\ length f = (match b with Some [_] => 1 | _ => 0 end)%nat).
  { intros t b n size F N S0 FT SO. unfold hils_step. set (t1 := match b with Some b => target_receive t b | None => t end).
    assert (T1 : frames t1 = (match b with Some [_] => n - 1 | _ => n end) /\ max_reg t1 = max_reg t /\ fits t1 size).
    { subst t1. destruct b as [b|]; [|auto]. destruct (receive_frames t b ltac:(lia)) as (A & B). split; [|split; [exact B|now apply receive_fits]]. rewrite A. destruct b as [|? [|? ?]]; lia. }
    destruct T1 as (A & B & C). assert (F1 : 0 <= frames t1 <= n) by (rewrite A; destruct b as [[|? [|? ?]]|]; lia).
    destruct (C135_store t1 n size ltac:(lia) ltac:(lia) S0) as (S1 & S2 & _).
    destruct (Z.eq_dec (frames t1) n) as [E|E].
    - rewrite S1 by lia. exists t1, []. split; [reflexivity|]. split; [exact E|]. split; [exact B|]. split; [exact C|].
      rewrite E in A. destruct b as [[|? [|? ?]]|]; try reflexivity. lia.
    - destruct (S2 ltac:(lia) C) as (t2 & E2 & G1 & G2 & G3 & G4 & G5). rewrite E2. eexists t2, _. split; [reflexivity|]. split; [exact G1|]. split; [congruence|]. split; [unfold fits in *; rewrite G2, G3; exact C|].
      rewrite repeat_length, A. destruct b as [[|? [|? ?]]|]; try lia. }
  induction inputs as [|b inputs IH]; intros t n size F N S0 FT SO.
  - cbn. split; [exact F|reflexivity].
  - inversion SO; subst. cbn [hils_run]. destruct (STEP t b (frames t) size eq_refl N S0 FT ltac:(assumption)) as (t1 & f & E1 & G1 & G2 & G3 & G4). rewrite E1.
    destruct (IH t1 (frames t) size G1 N S0 G3 ltac:(rewrite G2; assumption)) as (I1 & I2). destruct (hils_run t1 inputs (frames t) size) as (t2, fs). cbn [fst snd] in *.
    split; [exact I1|]. rewrite app_length, G4, I2. unfold requests. cbn [filter]. destruct b as [[|? [|? ?]]|]; reflexivity.
Qed.
Print Assumptions C135_cycle.
(** A host that selects a register too near the end starves: from then on read requests use up the stored frames and nothing is stored any more,
    while every refill reports success. *)
Theorem C135_starved_refuted : exists t inputs n size, frames t = n /\ fits t size /\ frames (fst (hils_run t inputs n size)) = 0 /\
  snd (hils_run t inputs n size) = [] /\ fst (fst (store_telemetry (Some (fst (hils_run t inputs n size))) n size)) = 0.
Proof.
  exists (mkTarget 255 0 3 (fun _ => 7) (fun _ => 0)), (repeat (Some [250]) 4), 3, 10. repeat split. unfold fits. cbn. lia.
Qed.
Print Assumptions C135_starved_refuted.

(** Cases that meet the hypotheses: 5 frames wanted, three read requests of register 16 in six steps. *)
Example C135_example : let t := snd (fst (store_telemetry (Some target_new) 5 8)) in
  match t with Some t => frames t = 5 /\ fits t 8 /\ Forall (selects_ok (max_reg t) 8) [Some [16]; None; Some [16; 3]; Some [16]; None; Some [16]] /\
    length (snd (hils_run t [Some [16]; None; Some [16; 3]; Some [16]; None; Some [16]] 5 8)) = 3%nat | None => False end.
Proof. cbn. repeat split; try (unfold fits; cbn; lia). repeat constructor; cbn; lia. Qed.
