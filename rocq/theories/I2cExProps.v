(** C160: the example I2C devices in a hardware in the loop simulation. *)
From Coq Require Import List ZArith Lia Bool Arith.
From Verif Require Import Base RegistryModel HilsTargetModel HilsTargetProps I2cExModel.
Import ListNotations.
Open Scope Z_scope.

(** Specification.  Between activations the host asks for nothing or for one register [a].  In activation n (from 0) the device shows five
    successive letters, ABCDE, BCDEF, ..., VWXYZ, ABCDE, ... in its registers 0 to 4, all others are 0. *)
Definition letters (n : nat) (j : Z) : Z := if j <? 5 then 65 + Z.of_nat (n mod 22) + j else 0.
(** the converter is to hold three frames; [missing] it does not hold *)
Fixpoint sp_frames (n missing : nat) (requests : list (option Z)) : list (list (list Z)) :=
  match requests with
  | [] => []
  | r :: rest =>
      let missing := match r with Some _ => Nat.min 3 (missing + 1) | None => missing end in
      let first := match r with Some a => if a <? 255 then a else 4 | None => 4 end in      (* first register of the frame *)
      if first + 5 <=? 255
      then repeat (map (fun i => letters n (first + i)) [0; 1; 2; 3; 4]) missing :: sp_frames (S n) 0 rest
      else [] :: sp_frames (S n) missing rest
  end.

Lemma sent_spec t k : (k <= 3)%nat -> max_reg t = 255 -> frames t = 3 - Z.of_nat k -> saved t < 255 ->
  exists t', store_telemetry (Some t) 3 5 = (if Nat.eqb k 0 then -1 else 0, Some t', if saved t + 5 <=? 255 then repeat (frame_of t 5) k else []) /\
    max_reg t' = 255 /\ registers t' = registers t /\ frames t' = (if saved t + 5 <=? 255 then 3 else 3 - Z.of_nat k).
Proof.
  intros K M F SV. destruct (C135_store t 3 5 ltac:(lia) ltac:(lia) ltac:(lia)) as (A & B & C).
  destruct k as [|k].
  - exists t. rewrite A by lia. cbn [Nat.eqb repeat]. destruct (saved t + 5 <=? 255); cbn; repeat split; auto; lia.
  - cbn [Nat.eqb]. destruct (Z.leb_spec (saved t + 5) 255) as [L|L].
    + destruct (B ltac:(lia) ltac:(unfold fits; lia)) as (t' & E & F' & _ & M' & R' & _). exists t'. rewrite E. rewrite F. replace (Z.to_nat (3 - (3 - Z.of_nat (S k)))) with (S k) by lia.
      repeat split; congruence.
    + rewrite C by (unfold fits; lia). exists t. repeat split; auto.
Qed.

Definition bytes_of (r : option Z) : option (list Z) := match r with Some a => Some [a] | None => None end.
Definition stands (e : example_target) (n missing : nat) : Prop :=
  (missing <= 3)%nat /\ max_reg (target e) = 255 /\ frames (target e) = 3 - Z.of_nat missing /\ tlm_counter e = Z.of_nat (n mod 22) /\ (forall j, 5 <= j -> registers (target e) j = 0).

Lemma step_ok e n missing r : stands e n missing -> match r with Some a => 0 <= a | None => True end ->
  let missing' := match r with Some _ => Nat.min 3 (missing + 1) | None => missing end in
  let first := match r with Some a => if a <? 255 then a else 4 | None => 4 end in
  exists e', example_routine e (bytes_of r) =
    (e', if first + 5 <=? 255 then repeat (map (fun i => letters n (first + i)) [0; 1; 2; 3; 4]) missing' else []) /\
    stands e' (S n) (if first + 5 <=? 255 then 0%nat else missing').
Proof.
  intros (K & M & F & C & RG) RA. cbv zeta. unfold example_routine.
  pose proof (Nat.mod_upper_bound n 22 ltac:(lia)) as CB.
  set (tlm := map _ (seq 0 5)). set (t1 := write_registers (target e) 0 tlm).
  assert (TL : tlm = map (letters n) [0; 1; 2; 3; 4]).
  { unfold tlm, letters. rewrite C. cbn [seq map Z.ltb Z.compare Pos.compare Pos.compare_cont]. rewrite !Z.mod_small by lia. reflexivity. }
  assert (T1 : max_reg t1 = 255 /\ saved t1 = 4 /\ frames t1 = frames (target e) /\ forall j, 0 <= j -> registers t1 j = letters n j).
  { unfold t1. rewrite TL. cbn [map write_registers]. unfold write_register. rewrite M.
    repeat (change (255 <=? _) with false; cbn [max_reg]). cbn [max_reg saved frames registers]. repeat split.
    intros j Hj. change (0 mod 256) with 0; change ((0 + 1) mod 256) with 1; change ((0 + 1 + 1) mod 256) with 2; change ((0 + 1 + 1 + 1) mod 256) with 3; change ((0 + 1 + 1 + 1 + 1) mod 256) with 4.
    destruct (Z.eqb_spec j 4); [now subst|]. destruct (Z.eqb_spec j 3); [now subst|]. destruct (Z.eqb_spec j 2); [now subst|]. destruct (Z.eqb_spec j 1); [now subst|].
    destruct (Z.eqb_spec j 0); [now subst|]. rewrite RG by lia. unfold letters. destruct (Z.ltb_spec j 5); [lia|reflexivity]. }
  destruct T1 as (M1 & S1 & F1 & R1). clearbody t1. clear tlm TL.
  assert (CN : (if 26 - 5 <? (tlm_counter e + 1) mod 256 then 0 else (tlm_counter e + 1) mod 256) = Z.of_nat (S n mod 22)).
  { rewrite C. rewrite Z.mod_small by lia. change (26 - 5) with 21.
    replace (S n mod 22)%nat with ((n mod 22 + 1) mod 22)%nat by (rewrite Nat.add_mod_idemp_l by lia; f_equal; lia).
    set (c := (n mod 22)%nat) in *. clearbody c. destruct (Z.ltb_spec 21 (Z.of_nat c + 1)).
    - assert (c = 21%nat) as -> by lia. reflexivity.
    - rewrite Nat.mod_small by lia. lia. }
  rewrite CN. unfold hils_step.
  set (t2 := match bytes_of r with Some b => target_receive t1 b | None => t1 end).
  set (missing' := match r with Some _ => Nat.min 3 (missing + 1) | None => missing end).
  set (first := match r with Some a => if a <? 255 then a else 4 | None => 4 end).
  assert (T2 : (missing' <= 3)%nat /\ max_reg t2 = 255 /\ saved t2 = first /\ frames t2 = 3 - Z.of_nat missing' /\ registers t2 = registers t1 /\ 0 <= first < 255).
  { unfold t2, missing', first, bytes_of. destruct r as [a|]; [|repeat split; auto; lia].
    unfold target_receive, select_register. cbn [max_reg]. rewrite M1. cbn [saved frames registers].
    rewrite <- Z.leb_antisym || idtac. destruct (Z.leb_spec 255 a) as [L|L], (Z.ltb_spec a 255) as [L'|L']; try lia; cbn [frames saved max_reg registers];
      destruct (Z.ltb_spec 0 (frames t1)) as [P|P]; cbn [frames saved max_reg registers]; repeat split; auto; try lia. }
  destruct T2 as (K2 & M2 & S2 & F2 & R2 & FB). clearbody t2.
  destruct (sent_spec t2 missing' K2 M2 F2 ltac:(lia)) as (t3 & E & M3 & R3 & F3). rewrite E. rewrite S2 in *.
  exists (mkExample t3 (Z.of_nat (S n mod 22))).
  assert (FR : frame_of t2 5 = map (fun i => letters n (first + i)) [0; 1; 2; 3; 4]).
  { unfold frame_of. rewrite S2, R2. change (Z.to_nat 5) with 5%nat. cbn [seq map]. rewrite !R1 by lia. reflexivity. }
  rewrite FR. split; [reflexivity|]. unfold stands. cbn [target tlm_counter]. rewrite M3, F3, R3, R2.
  split; [destruct (first + 5 <=? 255); lia|]. split; [reflexivity|]. split; [destruct (first + 5 <=? 255); lia|]. split; [reflexivity|].
  intros j Hj. rewrite R1 by lia. unfold letters. destruct (Z.ltb_spec j 5); [lia|reflexivity].
Qed.

(** For every sequence of requests, one or none between two activations, the frames sent are those of the specification. *)
Theorem C160_frames : forall requests, Forall (fun r => match r with Some a => 0 <= a | None => True end) requests ->
  example_run example_new (map bytes_of requests) = sp_frames 0 3 requests.
Proof.
  intros requests. assert (G : forall e n missing, stands e n missing -> Forall (fun r => match r with Some a => 0 <= a | None => True end) requests ->
    example_run e (map bytes_of requests) = sp_frames n missing requests).
  { induction requests as [|r rest IH]; intros e n missing H FA; [reflexivity|]. inversion FA as [|? ? RA FA']; subst. cbn [map example_run sp_frames].
    destruct (step_ok e n missing r H RA) as (e' & E & H'). rewrite E. rewrite (IH e' _ _ H' FA').
    destruct (_ + 5 <=? 255); reflexivity. }
  apply G. unfold stands. repeat split; cbn; lia.
Qed.
Print Assumptions C160_frames.

(** A host that asks for register 0 once before every activation is sent ABCDE three times and then one frame for every request, with the
    letters of that activation. *)
Theorem C160_steady : forall n, example_run example_new (repeat (Some [0]) (S n)) =
  repeat (map (letters 0) [0; 1; 2; 3; 4]) 3 :: map (fun k => [map (letters k) [0; 1; 2; 3; 4]]) (seq 1 n).
Proof.
  intros n. assert (RM : repeat (Some [0]) (S n) = map bytes_of (repeat (Some 0) (S n))) by (induction (S n) as [|m IH]; [reflexivity|]; cbn [repeat map]; now rewrite IH). rewrite RM, C160_frames.
  - assert (G : forall m k, sp_frames k 0 (repeat (Some 0) m) = map (fun k => [map (letters k) [0; 1; 2; 3; 4]]) (seq k m)).
    { induction m as [|m IH]; intros k; [reflexivity|]. cbn [repeat sp_frames map seq]. rewrite IH. reflexivity. }
    cbn [repeat sp_frames]. rewrite G. reflexivity.
  - apply Forall_forall. intros x Hx. apply repeat_spec in Hx. subst. lia.
Qed.
Print Assumptions C160_steady.

(** That the frames carry the five letters is refuted when the host's first request comes after the first activation, as with a device
    that is activated before the host: three frames with the fifth letter and four zeros wait in the converter and are read first. *)
Theorem C160_first_frames_refuted : forall n, exists rest, example_run example_new (None :: repeat (Some [0]) n) = repeat [69; 0; 0; 0; 0] 3 :: rest.
Proof. intros n. cbn [example_run]. unfold example_routine at 1. destruct (hils_step _ None 3 5) as [t fs] eqn:E. vm_compute in E. injection E as <- <-. eexists. reflexivity. Qed.
Print Assumptions C160_first_frames_refuted.

(** That a frame is sent for every request is refuted for two requests between two activations: the port takes the two bytes for a
    write to the register and sends nothing, however often this happens. *)
Theorem C160_two_requests_refuted : forall n, exists first, example_run example_new (Some [0] :: repeat (Some [0; 0]) n) = first :: repeat [] n.
Proof.
  intros n. cbn [example_run]. destruct (example_routine example_new (Some [0])) as [e fs] eqn:E. exists fs. f_equal.
  assert (P : frames (target e) = 3 /\ max_reg (target e) = 255) by (vm_compute in E; injection E as <- _; split; reflexivity). clear E.
  revert e P. induction n as [|n IH]; intros e (F & M); [reflexivity|]. cbn [repeat example_run].
  unfold example_routine. set (t1 := write_registers _ _ _).
  assert (T1 : frames t1 = 3 /\ max_reg t1 = 255).
  { unfold t1. cbn [seq map write_registers]. unfold write_register. rewrite M. repeat (change (255 <=? _) with false; cbn [max_reg frames]). split; [exact F|reflexivity]. }
  destruct T1 as (F1 & M1). clearbody t1. unfold hils_step, target_receive, write_register. cbn [max_reg]. rewrite M1. change (255 <=? 0) with false. cbn iota.
  unfold store_telemetry. cbn [frames]. rewrite F1. cbn. rewrite IH; [reflexivity|]. cbn. split; reflexivity.
Qed.
Print Assumptions C160_two_requests_refuted.

(** The controller: two frames in the converter's format, write of register address 0 and read of five bytes, whatever comes back; what is
    printed is what was received; without HILS nothing is sent and nothing printed. *)
Theorem C160_controller : forall recv,
  fst (controller_routine true recv) = [[83; 68; 1; 0; 80]; [83; 69; 5; 80]] /\
  (0 <= fst (recv 5%nat) -> snd (controller_routine true recv) = firstn (Z.to_nat (fst (recv 5%nat))) (snd (recv 5%nat))) /\
  (fst (recv 5%nat) < 0 -> snd (controller_routine true recv) = []) /\
  controller_routine false recv = ([], []).
Proof.
  intros recv. unfold controller_routine, request_tlm, receive_tlm, controller_send, controller_receive. destruct (recv 5%nat) as [ret buf]. cbn [fst snd].
  repeat split; intros; destruct (Z.leb_spec ret 0); try reflexivity; try lia. replace ret with 0 by lia. reflexivity.
Qed.
Print Assumptions C160_controller.

(** the first frames with the host's request waiting *)
Example ex160 : example_run example_new [Some [0]; None; Some [0]; Some [2]] =
  [repeat [65; 66; 67; 68; 69] 3; []; [[67; 68; 69; 70; 71]]; [[70; 71; 72; 0; 0]]].
Proof. vm_compute. reflexivity. Qed.
