(** C158, C159: the example devices on a serial line to the on board computer. *)
From Coq Require Import List Arith ZArith Bool Lia.
From Verif Require Import Base RingBufferModel RingBufferSpec ObcModel ObcSpec ObcProofs SerialExModel SerialExSpec SerialExProofs.
Import ListNotations.
Open Scope Z_scope.

Lemma firstn_repeat_app (l : list Z) n m : (n <= m)%nat -> firstn n (l ++ repeat 0 m) = firstn n (l ++ repeat 0 n).
Proof.
  intros H. rewrite !firstn_app. f_equal.
  assert (E : forall j k, (j <= k)%nat -> firstn j (repeat 0 k) = repeat 0 j).
  { induction j as [|j IH]; intros k Hk; [reflexivity|]. destruct k; [lia|]. cbn [repeat firstn]. f_equal. apply IH. lia. }
  rewrite !E by lia. reflexivity.
Qed.
Lemma eo_parse_spec chunk rest mem : (1 <= List.length chunk)%nat -> eo_parse (List.length chunk) (chunk ++ rest) mem =
  match set_command chunk with [x] => firstn 99 (x :: removelast mem) ++ [10] | _ => mem end.
Proof.
  intros _. unfold eo_parse, set_command.
  destruct chunk as [|a [|b [|c [|x t]]]]; cbn [List.length]; try reflexivity. cbn [app nth].
  cbn [Nat.ltb Nat.leb]. destruct (a =? 83), (b =? 69), (c =? 84); cbn [negb orb andb]; reflexivity.
Qed.
Lemma removelast_firstn_len (l : list Z) : removelast l = firstn (List.length l - 1) l.
Proof. destruct l as [|x l]; [reflexivity|]. rewrite removelast_firstn_len. f_equal. cbn. lia. Qed.

(** (The port is the one of uart_communication_with_obc.cpp, its memory m1, m2 arbitrary.)  For every history of bytes sent by the flight software, reads and activations of the device, the reads deliver what the
    specification with two queues and the list of parameters says; no step is undefined. *)
Theorem C158_serial_device : forall (m1 m2 : list Z) (acts : list act), List.length m1 = 1024%nat -> List.length m2 = 1024%nat ->
  exists s, srun eo (start eo_start m1 m2) acts = Ok (s, sp_run 5 eo_react ([], [], []) acts).
Proof.
  intros m1 m2 acts H1 H2.
  apply (refines eo 5 eo_react (fun params mem rxb txb => List.length mem = 100%nat /\ firstn 99 mem = firstn 99 (params ++ repeat 0 99) /\ List.length txb = 1024%nat)).
  - split; [reflexivity|lia].
  - intros m s rxb txb qt (L & F & Lt). cbv zeta. cbn [generate eo eo_generate parse].
    set (k := Nat.min 5 (List.length qt)). set (buf := firstn k qt ++ skipn k (resize 0 rxb 5)).
    set (s1 := if Nat.eqb k 0 then s else eo_parse k buf s). unfold eo_react.
    assert (K : List.length (firstn 5 qt) = k) by apply firstn_length.
    assert (E1 : s1 = match set_command (firstn 5 qt) with [x] => firstn 99 (x :: removelast s) ++ [10] | _ => s end).
    { unfold s1. destruct (Nat.eqb_spec k 0) as [Z0|Z0].
      - destruct qt; [reflexivity|]. cbn in Z0. unfold k in Z0. cbn in Z0. lia.
      - unfold buf. unfold k at 2. rewrite firstn_min, <- K. apply eo_parse_spec. lia. }
    assert (A : List.length s1 = 100%nat /\ firstn 99 s1 = firstn 99 ((set_command (firstn 5 qt) ++ m) ++ repeat 0 99)).
    { rewrite E1. assert (SC : set_command (firstn 5 qt) = [] \/ exists x, set_command (firstn 5 qt) = [x]).
      { unfold set_command. destruct (firstn 5 qt) as [|a [|b [|c [|x t]]]]; try (now left). destruct (_ && _ && _)%bool; [right; now exists x|now left]. }
      destruct SC as [->|[x ->]]; [split; assumption|].
      assert (LR : List.length (removelast s) = 99%nat) by (rewrite removelast_firstn_len, firstn_length; lia).
      assert (L9 : List.length (firstn 99 (x :: removelast s)) = 99%nat) by (rewrite firstn_length; cbn [List.length]; lia).
      split; [rewrite app_length, L9; reflexivity|].
      rewrite firstn_app, L9, Nat.sub_diag, firstn_O, app_nil_r, firstn_firstn, Nat.min_id.
      cbn [app firstn]. f_equal. rewrite removelast_firstn_len, L. change (100 - 1)%nat with 99%nat.
      change (firstn 98 (firstn 99 s) = firstn 98 (m ++ repeat 0 99)). rewrite F. now rewrite firstn_firstn. }
    destruct A as [A1 A2]. clearbody s1. clear E1.
    assert (LT : List.length (s1 ++ skipn 100 txb) = 1024%nat) by (rewrite app_length, skipn_length; lia).
    split; [split; [exact A1|split; [exact A2|exact LT]]|]. split; [intros E; rewrite E in LT; discriminate|].
    split; [lia|]. split; [rewrite LT; lia|]. change (Z.to_nat 24) with 24%nat.
    rewrite firstn_app. rewrite A1. change (24 - 100)%nat with 0%nat. rewrite firstn_O, app_nil_r.
    transitivity (firstn 24 (firstn 99 s1)); [now rewrite firstn_firstn|]. rewrite A2, firstn_firstn. change (Nat.min 24 99) with 24%nat.
    apply firstn_repeat_app. lia.
  - split; [reflexivity|]. split; [reflexivity|apply repeat_length].
  - now apply holds_start.
Qed.
Print Assumptions C158_serial_device.

Lemma q_write_short (l : list Z) : (List.length l < 1024)%nat -> q_write 1024 [] l = l.
Proof.
  intros L. unfold q_write. cbn [List.length app Nat.add]. rewrite Nat.mod_small by exact L. unfold lastn.
  rewrite Nat.sub_diag. reflexivity.
Qed.
Lemma sp_round q done rest : sp_run 5 eo_react (done, [], []) (ObcSends [83; 69; 84; q] :: Routine :: ObcReads 100 :: rest) =
  [] :: [] :: firstn 24 ((q :: done) ++ repeat 0 24) :: sp_run 5 eo_react (q :: done, [], []) rest.
Proof.
  set (ans := firstn 24 ((q :: done) ++ repeat 0 24)).
  assert (LA : List.length ans = 24%nat) by (unfold ans; rewrite firstn_length, app_length, repeat_length; lia).
  assert (S1 : sp_step 5 eo_react (done, [], []) (ObcSends [83; 69; 84; q]) = ((done, [83; 69; 84; q], []), [])) by reflexivity.
  assert (S2 : sp_step 5 eo_react (done, [83; 69; 84; q], []) Routine = ((q :: done, [], ans), [])).
  { transitivity ((q :: done, @nil Z, q_write 1024 [] ans), @nil Z); [reflexivity|]. rewrite q_write_short by lia. reflexivity. }
  assert (S3 : sp_step 5 eo_react (q :: done, [], ans) (ObcReads 100) = ((q :: done, [], []), ans)).
  { cbn [sp_step]. rewrite LA. change (Nat.min 100 24) with 24%nat. rewrite (firstn_all2 ans) by lia. rewrite (skipn_all2 ans) by lia. reflexivity. }
  cbn [sp_run]. rewrite S1, S2, S3. reflexivity.
Qed.
(** One command per activation, with the answer read each time: the n-th answer read shows the parameters 1 to n, newest first. *)
Theorem C158_one_command_at_a_time : forall (m1 m2 : list Z) (ps : list Z), List.length m1 = 1024%nat -> List.length m2 = 1024%nat ->
  exists s, srun eo (start eo_start m1 m2) (flat_map (fun x => [ObcSends [83; 69; 84; x]; Routine; ObcReads 100]) ps) =
    Ok (s, flat_map (fun n => [[]; []; firstn 24 (rev (firstn n ps) ++ repeat 0 24)]) (seq 1 (List.length ps))).
Proof.
  intros m1 m2 ps H1 H2. destruct (C158_serial_device m1 m2 (flat_map (fun x => [ObcSends [83; 69; 84; x]; Routine; ObcReads 100]) ps) H1 H2) as (s & E).
  exists s. rewrite E. do 2 f_equal. clear E s.
  assert (G : forall qs done, sp_run 5 eo_react (done, [], []) (flat_map (fun x => [ObcSends [83; 69; 84; x]; Routine; ObcReads 100]) qs) =
    flat_map (fun n => [[]; []; firstn 24 (rev (firstn n qs) ++ done ++ repeat 0 24)]) (seq 1 (List.length qs))).
  { induction qs as [|q qs IH]; intros done; [reflexivity|].
    cbn [flat_map List.length seq app]. rewrite sp_round, IH. cbn [rev app firstn]. do 3 f_equal.
    rewrite <- (seq_shift (List.length qs) 1). rewrite !flat_map_concat_map, map_map.
    f_equal. apply map_ext. intros n. do 3 f_equal. change (firstn (S n) (q :: qs)) with (q :: firstn n qs). cbn [rev]. rewrite <- !app_assoc. reflexivity. }
  rewrite G. reflexivity.
Qed.
Print Assumptions C158_one_command_at_a_time.

(** That every command sent takes effect is refuted: of two commands sent between two activations the second is lost, because
    five bytes are taken at a time. *)
Theorem C158_every_command_refuted : forall m1 m2 : list Z, List.length m1 = 1024%nat -> List.length m2 = 1024%nat ->
  exists s, srun eo (start eo_start m1 m2) [ObcSends [83; 69; 84; 97]; ObcSends [83; 69; 84; 98]; Routine; Routine; Routine; ObcReads 100] =
    Ok (s, [[]; []; []; []; []; firstn 72 (97 :: repeat 0 23 ++ 97 :: repeat 0 23 ++ 97 :: repeat 0 23)]).
Proof.
  intros m1 m2 H1 H2. destruct (C158_serial_device m1 m2 [ObcSends [83; 69; 84; 97]; ObcSends [83; 69; 84; 98]; Routine; Routine; Routine; ObcReads 100] H1 H2) as (s & E).
  exists s. rewrite E. do 2 f_equal.
Qed.
Print Assumptions C158_every_command_refuted.

(** C159: the sender (mode 0) answers every activation with ABC, BCD, ..., XYZ, ABC, ... and a zero, whatever it receives. *)
Theorem C159_sender : forall (m1 m2 : list Z) (acts : list act), List.length m1 = 1024%nat -> List.length m2 = 1024%nat ->
  exists s, srun (eh 0) (start eh_start m1 m2) acts = Ok (s, sp_run 4 sender_react (0%nat, [], []) acts).
Proof.
  intros m1 m2 acts H1 H2.
  apply (refines (eh 0) 4 sender_react (fun n s _ _ => eh_counter s = Z.of_nat n mod 24)).
  - split; [reflexivity|lia].
  - intros m s rxb txb qt HC. cbv zeta. cbn [generate eh parse]. unfold eh_parse, eh_generate, sender_react. cbn [Z.eqb].
    replace (if Nat.eqb (Nat.min 4 (List.length qt)) 0 then s else s) with s by (destruct (Nat.eqb _ _); reflexivity).
    cbn [eh_counter]. rewrite HC. pose proof (Z.mod_pos_bound (Z.of_nat m) 24 ltac:(lia)) as B.
    split; [|split; [discriminate|split; [lia|split; [cbn; lia|]]]].
    + assert (NX : Z.of_nat (S m) mod 24 = (Z.of_nat m mod 24 + 1) mod 24) by (rewrite Zplus_mod_idemp_l; f_equal; lia).
      rewrite NX. set (c := Z.of_nat m mod 24) in *. clearbody c. change (26 - 3) with 23.
      destruct (Z.ltb_spec 23 (c + 1)) as [L|L].
      * assert (c = 23) as -> by lia. reflexivity.
      * now rewrite Z.mod_small by lia.
    + change (Z.to_nat 4) with 4%nat. cbn [firstn]. f_equal. f_equal; [lia|]. f_equal. lia.
  - reflexivity.
  - now apply holds_start.
Qed.
Print Assumptions C159_sender.

(** C159: the responder (mode 1) answers every activation with the first three of the four bytes it took last, and a zero; where
    fewer than three came, older bytes remain. *)
Theorem C159_responder : forall (m1 m2 : list Z) (acts : list act), List.length m1 = 1024%nat -> List.length m2 = 1024%nat ->
  exists s, srun (eh 1) (start eh_start m1 m2) acts = Ok (s, sp_run 4 responder_react ([0; 0; 0; 0], [], []) acts).
Proof.
  intros m1 m2 acts H1 H2.
  apply (refines (eh 1) 4 responder_react (fun l s rxb _ => List.length l = 4%nat /\ resize 0 rxb 4 = l /\ eh_memory s = firstn 3 l ++ [0])).
  - split; [reflexivity|lia].
  - intros m s rxb txb qt (L & HX & HM). cbv zeta. cbn [generate eh parse]. unfold eh_parse, eh_generate, responder_react. cbn [Z.eqb].
    rewrite HX. set (k := Nat.min 4 (List.length qt)).
    assert (K : List.length (firstn 4 qt) = k) by apply firstn_length. rewrite K.
    assert (EB : firstn k qt = firstn 4 qt) by (unfold k; apply firstn_min). rewrite EB.
    set (now := firstn 4 qt ++ skipn k m). assert (LN : List.length now = 4%nat) by (unfold now; rewrite app_length, skipn_length, K; unfold k; lia).
    assert (EM : eh_memory (if Nat.eqb k 0 then s else mkEh [nth 0 now 0; nth 1 now 0; nth 2 now 0; 0] (eh_tx s) (eh_counter s)) = firstn 3 now ++ [0]).
    { destruct (Nat.eqb_spec k 0) as [Z0|Z0].
      - assert (qt = []) as -> by (destruct qt; [reflexivity|unfold k in Z0; cbn in Z0; lia]). unfold now. cbn [firstn app]. rewrite Z0. cbn [skipn]. exact HM.
      - cbn [eh_memory]. destruct now as [|a [|b [|c [|e [|]]]]]; cbn in LN; try lia. reflexivity. }
    change (1 =? 1)%positive with true. cbn iota. rewrite EM. split; [|split; [|split; [lia|split]]].
    + split; [exact LN|]. split; [unfold resize; rewrite firstn_all2 by lia; rewrite LN; cbn [Nat.sub repeat]; now rewrite app_nil_r|reflexivity].
    + destruct (firstn 3 now); discriminate.
    + rewrite app_length, firstn_length, LN. cbn. lia.
    + apply firstn_all2. rewrite app_length, firstn_length, LN. cbn. lia.
  - repeat split.
  - now apply holds_start.
Qed.
Print Assumptions C159_responder.

(** three letters sent to the responder come back *)
Example ex159 : exists s, srun (eh 1) (start eh_start (repeat 7 1024) (repeat 7 1024)) [ObcSends [65; 66; 67; 0]; Routine; ObcReads 4] = Ok (s, [[]; []; [65; 66; 67; 0]]).
Proof. destruct (C159_responder (repeat 7 1024) (repeat 7 1024) [ObcSends [65; 66; 67; 0]; Routine; ObcReads 4] (repeat_length _ _) (repeat_length _ _)) as (s & E). exists s. rewrite E. reflexivity. Qed.
