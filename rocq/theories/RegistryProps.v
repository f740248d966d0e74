(** C40, C44: port registries of the power control unit and of the HILS port manager. *)
From Coq Require Import List ZArith Bool Arith Lia Reals Lra.
From Verif Require Import Base PowerPortModel RegistryModel RegistrySpec RegistryProofs.
Import ListNotations.
Open Scope Z_scope.

(** C40/C44: for every history of operations on a fresh registry there is no undefined behaviour
    and every return value is the one of the plain id -> port map: connecting a used id (or with
    illegal parameters) and closing or using an unused one return -1 and change nothing. *)
Theorem C40_registry_refines_map : forall (A : Type) (ops : list (rop A)),
  exists r, rrun reg_empty ops = Ok (fst (spec_run (fun _ => None) ops), r) /\
    (forall k a, snd (spec_run (fun _ => None) ops) k = Some a <->
       exists p, get r k = Ok (Some p) /\ deref r p = Ok a) /\
    (forall k, snd (spec_run (fun _ => None) ops) k = None <-> (get r k = Throw \/ get r k = Ok None)) /\
    (* no leak, no sharing: the objects alive are exactly those registered, one id each *)
    (forall p, (exists a, deref r p = Ok a) <-> exists k, get r k = Ok (Some p)) /\
    (forall k k' p, get r k = Ok (Some p) -> get r k' = Ok (Some p) -> k = k').
Proof.
  intros A ops. destruct (rrun_spec ops reg_empty (fun _ => None) rep_empty) as (r & E & H).
  exists r. split; [exact E|]. set (m := snd (spec_run (fun _ => None) ops)) in *.
  assert (G : forall k p, get r k = Ok (Some p) <-> entry r k = Some (Some p)).
  { intros k p. unfold get, at_. destruct (entry r k) as [[q|]|]; split; congruence. }
  assert (D : forall p a, deref r p = Ok a <-> heap r p = Live a).
  { intros p a. unfold deref. destruct (heap r p); split; congruence. }
  repeat split.
  - intros M. destruct (rep_Some_entry r m k a H M) as (p & E1 & E2). exists p. now rewrite G, D.
  - intros (p & E1 & E2). rewrite G in E1. rewrite D in E2. destruct (rep_some _ _ H k p E1) as (a' & L & M). congruence.
  - intros M. pose proof (rep_None_entry r m k H M) as N. unfold get, at_. destruct (entry r k) as [[p|]|]; auto.
    exfalso. exact (N p eq_refl).
  - intros X. apply (rep_none _ _ H). intros p Ep. apply G in Ep. destruct X; congruence.
  - intros (a & L). rewrite D in L. destruct (rep_live _ _ H p a L) as (k & Ek). exists k. now rewrite G.
  - intros (k & Ek). rewrite G in Ek. destruct (rep_some _ _ H k p Ek) as (a & L & _). exists a. now rewrite D.
  - intros k k' p. rewrite !G. apply (rep_inj _ _ H).
Qed.
Print Assumptions C40_registry_refines_map.

(** C40: a port handed out stays the same object as long as its id is not closed, and is gone for
    good once it is (a component still holding it has a dangling pointer). *)
Theorem C40_port_lifetime : forall (A : Type) (ops1 ops2 ops3 : list (rop A)) r vs k p,
  rrun reg_empty ops1 = Ok (vs, r) -> get r k = Ok (Some p) -> Forall (fun o => ~ closes k o) ops2 ->
  exists vs2 r2, rrun r ops2 = Ok (vs2, r2) /\ get r2 k = Ok (Some p) /\
    exists v r3 vs4 r4, rstep r2 (Close k) = Ok (v, r3) /\ v = 0 /\ rrun r3 ops3 = Ok (vs4, r4) /\ deref r4 p = UB.
Proof.
  intros A ops1 ops2 ops3 r vs k p E1 G F.
  destruct (rrun_spec ops1 reg_empty (fun _ => None) rep_empty) as (r' & E & H). rewrite E1 in E. injection E as _ <-.
  assert (Ek : entry r k = Some (Some p)) by (unfold get, at_ in G; destruct (entry r k) as [[q|]|]; congruence).
  destruct (keep_pointer ops2 r _ k p H Ek F) as (vs2 & r2 & E2 & K). exists vs2, r2. split; [exact E2|].
  split; [unfold get, at_; now rewrite K|].
  destruct (rrun_spec ops2 r _ H) as (r2' & E2' & H2). rewrite E2 in E2'. injection E2' as _ <-.
  destruct (rstep_spec r2 _ (Close k) H2) as (v & r3 & E3 & V & H3 & _ & _ & D & _).
  destruct (freed_stays ops3 r3 _ p H3 (D k p K eq_refl)) as (vs4 & r4 & E4 & F4).
  exists v, r3, vs4, r4. split; [exact E3|]. split.
  - rewrite V. cbn [spec_step]. destruct (rep_some _ _ H2 k p K) as (a & _ & M). now rewrite M.
  - split; [exact E4|]. unfold deref. now rewrite F4.
Qed.
Print Assumptions C40_port_lifetime.

(** C40: what GetPowerPort does for an id that is not connected depends on the history: it throws,
    unless the last operation concerning that id was a refused one, in which case it returns null. *)
Theorem C40_get_unconnected : forall (A : Type) (ops : list (rop A)) o k r vs r' v,
  rrun reg_empty ops = Ok (vs, r) -> rstep r o = Ok (v, r') ->
  let m := snd (spec_run (fun _ => None) ops) in
  snd (spec_step m o) k = None ->
  (refused m k o -> get r' k = Ok None) /\
  (~ refused m k o -> m k = None -> get r' k = get r k) /\
  (m k <> None -> get r' k = Throw).
Proof.
  intros A ops o k r vs r' v E1 E2 m N.
  destruct (rrun_spec ops reg_empty (fun _ => None) rep_empty) as (r0 & E & H). rewrite E1 in E. injection E as _ <-.
  fold m in H. destruct (rstep_spec r m o H) as (v' & r1 & E3 & _ & R1 & B & _). rewrite E2 in E3. injection E3 as <- <-.
  specialize (B k). pose proof (rep_None_entry _ _ k R1 N) as P. unfold get, at_. repeat split.
  - intros X. now rewrite (proj2 B (or_introl X)).
  - intros NX Mk. pose proof (rep_None_entry _ _ k H Mk) as P0.
    destruct (entry r' k) as [[p|]|] eqn:Er'; [exfalso; exact (P p eq_refl)| |].
    + destruct (proj1 B eq_refl) as [X|[X _]]; [contradiction|]. now rewrite X.
    + destruct (entry r k) as [[p|]|] eqn:Er; [exfalso; exact (P0 p eq_refl)| |reflexivity].
      pose proof (proj2 B (or_intror (conj eq_refl N))). discriminate.
  - intros Mk. destruct (entry r' k) as [[p|]|] eqn:Er'; [exfalso; exact (P p eq_refl)| |reflexivity].
    destruct (proj1 B eq_refl) as [[X _]|[X _]]; [contradiction|]. exfalso. apply Mk. apply (rep_none _ _ H). congruence.
Qed.
Print Assumptions C40_get_unconnected.

(** C40: ConnectPort itself, stated for the power control unit. *)
Theorem C40_connect_port : forall ops k limit minv w vs r,
  rrun reg_empty ops = Ok (vs, r) ->
  (forall p, get r k = Ok (Some p) -> fst (pcu_connect_full r k limit minv w) = -1 /\ snd (pcu_connect_full r k limit minv w) = r) /\
  ((forall p, get r k <> Ok (Some p)) -> fst (pcu_connect_full r k limit minv w) = 0 /\
     exists p, get (snd (pcu_connect_full r k limit minv w)) k = Ok (Some p) /\
       deref (snd (pcu_connect_full r k limit minv w)) p = Ok (port_full limit minv w)).
Proof.
  intros ops k limit minv w vs r E1.
  destruct (rrun_spec ops reg_empty (fun _ => None) rep_empty) as (r0 & E & H). rewrite E1 in E. injection E as _ <-.
  set (m := snd (spec_run (fun _ => None) ops)) in *. unfold pcu_connect_full. split.
  - intros p G. assert (Ek : entry r k = Some (Some p)) by (unfold get, at_ in G; destruct (entry r k) as [[q|]|]; congruence).
    unfold connect, index. rewrite Ek. split; reflexivity.
  - intros G. assert (M : m k = None).
    { apply (rep_none _ _ H). intros p Ep. apply (G p). unfold get, at_. now rewrite Ep. }
    destruct (rstep_spec r m (Connect k true (port_full limit minv w)) H) as (v & r' & E2 & V & R1 & _).
    cbn [rstep] in E2. injection E2 as E2. cbn [spec_step] in V, R1. rewrite M in V, R1. cbn [fst snd] in V, R1.
    rewrite E2. cbn [fst snd]. split; [exact V|].
    destruct (rep_Some_entry r' _ k (port_full limit minv w) R1) as (p & A1 & A2).
    + unfold upd. now rewrite Z.eqb_refl.
    + exists p. unfold get, at_, deref. now rewrite A1, A2.
Qed.
Print Assumptions C40_connect_port.

(** C40: ConnectPort with a current limit only, stated for the power control unit. *)
Theorem C40_connect_port_limit : forall ops k limit vs r,
  rrun reg_empty ops = Ok (vs, r) ->
  (forall p, get r k = Ok (Some p) -> fst (pcu_connect r k limit) = -1 /\ snd (pcu_connect r k limit) = r) /\
  ((forall p, get r k <> Ok (Some p)) -> fst (pcu_connect r k limit) = 0 /\
     exists p, get (snd (pcu_connect r k limit)) k = Ok (Some p) /\
       deref (snd (pcu_connect r k limit)) p = Ok (port_id_limit limit)).
Proof.
  intros ops k limit vs r E1.
  destruct (rrun_spec ops reg_empty (fun _ => None) rep_empty) as (r0 & E & H). rewrite E1 in E. injection E as _ <-.
  set (m := snd (spec_run (fun _ => None) ops)) in *. unfold pcu_connect. split.
  - intros p G. assert (Ek : entry r k = Some (Some p)) by (unfold get, at_ in G; destruct (entry r k) as [[q|]|]; congruence).
    unfold connect, index. rewrite Ek. split; reflexivity.
  - intros G. assert (M : m k = None).
    { apply (rep_none _ _ H). intros p Ep. apply (G p). unfold get, at_. now rewrite Ep. }
    destruct (rstep_spec r m (Connect k true (port_id_limit limit)) H) as (v & r' & E2 & V & R1 & _).
    cbn [rstep] in E2. injection E2 as E2. cbn [spec_step] in V, R1. rewrite M in V, R1. cbn [fst snd] in V, R1.
    rewrite E2. cbn [fst snd]. split; [exact V|].
    destruct (rep_Some_entry r' _ k (port_id_limit limit) R1) as (p & A1 & A2).
    + unfold upd. now rewrite Z.eqb_refl.
    + exists p. unfold get, at_, deref. now rewrite A1, A2.
Qed.
Print Assumptions C40_connect_port_limit.

(** C44: the HILS UART ports, I2C controllers (same table) and I2C targets are such registries:
    connect/close/use for every history.  (Statement of C40_registry_refines_map at these types;
    the value returned by a port operation is whatever the device operation [f] returns.) *)
Theorem C44_hils_ports : forall (ops : list (rop i2c_target)),
  exists r, rrun reg_empty ops = Ok (fst (spec_run (fun _ => None) ops), r) /\
    (forall k a, snd (spec_run (fun _ => None) ops) k = Some a <->
       exists p, get r k = Ok (Some p) /\ deref r p = Ok a).
Proof.
  intros ops. destruct (C40_registry_refines_map i2c_target ops) as (r & E & H & _). eauto.
Qed.
Print Assumptions C44_hils_ports.

(** C44: register writes are read back, and nothing else changes, as long as the block ends at or
    below the register count (255 for a device opened by the manager). *)
Theorem C44_register_read_back : forall t a data, 0 <= a -> max_reg t <= 256 ->
  a + Z.of_nat (length data) <= max_reg t ->
  fst (read_registers (write_registers t a data) a (length data)) = data /\
  forall j, (j < a \/ a + Z.of_nat (length data) <= j) -> registers (write_registers t a data) j = registers t j.
Proof.
  intros t a data Ha Hm Hl. destruct (write_registers_spec data t a Ha Hl Hm) as (M & W).
  destruct (read_registers_spec (length data) (write_registers t a data) a Ha ltac:(lia) ltac:(lia)) as (E & _).
  split.
  - rewrite E. apply nth_ext with (d := 0) (d' := 0); [now rewrite map_length, seq_length|].
    intros n Hn. rewrite map_length, seq_length in Hn.
    rewrite nth_indep with (d' := registers (write_registers t a data) (a + Z.of_nat (length data))) by now rewrite map_length, seq_length.
    rewrite (map_nth (fun i => registers (write_registers t a data) (a + Z.of_nat i))).
    rewrite seq_nth by exact Hn. rewrite W. cbn [Nat.add].
    destruct (Z.leb_spec a (a + Z.of_nat n)), (Z.ltb_spec (a + Z.of_nat n) (a + Z.of_nat (length data))); try lia.
    cbn [andb]. f_equal. lia.
  - intros j Hj. rewrite W. destruct (Z.leb_spec a j), (Z.ltb_spec j (a + Z.of_nat (length data))); cbn [andb]; try reflexivity; lia.
Qed.
Print Assumptions C44_register_read_back.

(** C44 (violated beyond that): a block running past address 255 wraps and overwrites register 0,
    and the byte for address 255 is dropped. *)
Theorem C44_register_wrap_refuted : forall t x y z, max_reg t = 255 ->
  let t' := write_registers t 254 [x; y; z] in
  registers t' 254 = x /\ registers t' 255 = registers t 255 /\ registers t' 0 = z /\ saved t' = 0.
Proof.
  intros [m s f rg c] x y z Hm. cbn [max_reg] in Hm. subst m. cbn. repeat split; reflexivity.
Qed.
Print Assumptions C44_register_wrap_refuted.

(** C44: Send transmits exactly the registers from the selected address on, and refuses blocks
    that run past the register count; every successful Send counts one stored frame, every
    one-byte command consumes one, never below zero. *)
Theorem C44_send : forall t n, 0 <= n ->
  (max_reg t < saved t + n -> target_send t n = (None, t)) /\
  (saved t + n <= max_reg t ->
     exists bytes, fst (target_send t n) = Some bytes /\ length bytes = Z.to_nat n /\
       (forall i, (i < Z.to_nat n)%nat -> nth i bytes 0 = registers t (saved t + Z.of_nat i)) /\
       frames (snd (target_send t n)) = (frames t + 1) mod 2 ^ 32).
Proof.
  intros t n Hn. unfold target_send. split.
  - intros H. destruct (Z.ltb_spec (max_reg t) (saved t + n)); [reflexivity|lia].
  - intros H. destruct (Z.ltb_spec (max_reg t) (saved t + n)); [lia|]. eexists. cbn [fst snd]. split; [reflexivity|].
    rewrite map_length, seq_length. split; [reflexivity|]. split; [|reflexivity].
    intros i Hi. rewrite nth_indep with (d' := registers t (saved t + Z.of_nat 0)) by now rewrite map_length, seq_length.
    rewrite (map_nth (fun i => registers t (saved t + Z.of_nat i))). now rewrite seq_nth.
Qed.
Print Assumptions C44_send.

Theorem C44_receive : forall t bytes, 0 <= frames t ->
  let t' := target_receive t bytes in
  max_reg t' = max_reg t /\
  (forall i, (i < length bytes)%nat -> command t' (Z.of_nat i) = nth i bytes 0) /\
  (length bytes <> 1%nat -> frames t' = frames t) /\
  (length bytes = 1%nat -> frames t' = Z.max 0 (frames t - 1)) /\
  (length bytes <> 2%nat -> registers t' = registers t).
Proof.
  intros t bytes Hf t'. unfold t', target_receive.
  set (c := fun j => if (0 <=? j) && (j <? Z.of_nat (length bytes)) then nth (Z.to_nat j) bytes 0 else command t j).
  assert (C : forall i, (i < length bytes)%nat -> c (Z.of_nat i) = nth i bytes 0).
  { intros i Hi. unfold c. destruct (Z.leb_spec 0 (Z.of_nat i)), (Z.ltb_spec (Z.of_nat i) (Z.of_nat (length bytes))); try lia.
    cbn [andb]. now rewrite Nat2Z.id. }
  clearbody c. destruct bytes as [|a [|v [|w l]]].
  - cbn. repeat split; try congruence; try lia; try (intros i Hi; cbn in Hi; lia).
  - unfold select_register. cbn [max_reg saved frames registers command].
    destruct (max_reg t <=? a), (Z.ltb_spec 0 (frames t)); cbn [frames max_reg saved registers command];
      destruct (Z.ltb_spec 0 (frames t)); try lia; cbn [frames max_reg saved registers command];
      repeat split; try exact C; try congruence; try (intros; cbn in *; lia).
  - unfold write_register. cbn [max_reg saved frames registers command].
    destruct (max_reg t <=? a); cbn [frames max_reg saved registers command];
      repeat split; try exact C; try congruence; try (intros; cbn in *; lia); try (intros X; now elim X).
  - cbn [frames max_reg saved registers command]. repeat split; try exact C; try congruence; try (intros; cbn in *; lia).
Qed.
Print Assumptions C44_receive.

(** Non-vacuity *)
Example ex_ops :
  exists r, rrun (A:=nat) reg_empty [Connect 3 true 7%nat; Connect 3 true 8%nat; Close 4; Use 3 (fun a => (Z.of_nat a, S a)); Close 3; Close 3; Get 3]
    = Ok ([0; -1; -1; 7; 0; -1; 0], r) /\ get r 4 = Ok None /\ get r 5 = Throw.
Proof. eexists. split; [reflexivity|]. split; reflexivity. Qed.
Example ex_regs : max_reg target_new = 255 /\ fst (read_registers (write_registers target_new 10 [1;2;3]) 10 3) = [1;2;3].
Proof. split; reflexivity. Qed.
