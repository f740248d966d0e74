From Coq Require Import List Arith ZArith Bool Lia.
From Verif Require Import Base RingBufferModel RingBufferSpec ObcModel ObcSpec ObcProofs SerialExModel SerialExSpec.
Import ListNotations.
Open Scope Z_scope.

Lemma holds_start (m1 m2 : list Z) : List.length m1 = 1024%nat -> List.length m2 = 1024%nat ->
  holds (make_uart m1 m2) 1024 [] 1024 [].
Proof. intros H1 H2. exists m1, m2, [], []. repeat split; try assumption; try lia; constructor. Qed.

Lemma firstn_min {A} n (l : list A) : firstn (Nat.min n (List.length l)) l = firstn n l.
Proof. destruct (Nat.le_ge_cases n (List.length l)); [now rewrite Nat.min_l by lia|]. rewrite Nat.min_r, firstn_all by lia. symmetry. now apply firstn_all2. Qed.

Lemma q_step_write {A} s (q b : list A) : fst (q_step s q (OWrite b 0 (List.length b))) = q_write s q b.
Proof. cbn [q_step fst]. unfold slice. cbn [skipn]. now rewrite firstn_all. Qed.

Section dev.
Context {S T : Type} (d : device S) (size : nat) (react : list Z -> T -> T * list Z).
(** [R m s rx tx]: the device state s with its buffers stands for the specification state m *)
Context (R : T -> S -> list Z -> list Z -> Prop).
Hypothesis Hsize : rec_size d = Z.of_nat size /\ (0 < size <= 1024)%nat.
Hypothesis Hreact : forall m s rxb txb qt, R m s rxb txb ->
  let k := Nat.min size (List.length qt) in
  let buf := firstn k qt ++ skipn k (resize 0 rxb size) in
  let s1 := if Nat.eqb k 0 then s else parse d k buf s in
  let '(s2, tx', n) := generate d s1 txb in
  let '(m', ans) := react (firstn size qt) m in
  R m' s2 buf tx' /\ tx' <> [] /\ 0 <= n <= 1024 /\ n <= Z.of_nat (List.length tx') /\ firstn (Z.to_nat n) tx' = ans.

Lemma routine_ok m s rxb txb (u : uart Z) qt qr : R m s rxb txb -> holds u 1024 qt 1024 qr ->
  exists s' rx' tx' u', routine d (mkState s rxb txb u) = Ok (mkState s' rx' tx' u') /\
   let '(m', ans) := react (firstn size qt) m in
   R m' s' rx' tx' /\ holds u' 1024 (skipn (Nat.min size (List.length qt)) qt) 1024 (q_write 1024 qr ans).
Proof.
  intros HR Hu. unfold routine. cbn [port rx tx dev]. destruct Hsize as [E0 E1]. rewrite E0.
  destruct (receive_command_ok 0 u 1024 qt 1024 qr 1024 rxb (Z.of_nat size) Hu ltac:(lia) ltac:(lia)) as (u1 & E & H1).
  rewrite E. cbn [bind]. rewrite Nat2Z.id in H1 |- *.
  pose proof (Hreact m s rxb txb qt HR) as K. cbv zeta in K.
  destruct (generate d _ txb) as [[s2 tx'] n]. destruct (react (firstn size qt) m) as [m' ans].
  destruct K as (K1 & K2 & K3 & K4 & K5).
  destruct (send_telemetry_ok u1 1024 (skipn (Nat.min size (List.length qt)) qt) 1024 qr 1024 tx' 0 n H1 K2 ltac:(lia) ltac:(lia) ltac:(lia) ltac:(lia) ltac:(lia)) as (u2 & E2 & H2).
  rewrite E2. cbn [bind]. exists s2, (firstn (Nat.min size (List.length qt)) qt ++ skipn (Nat.min size (List.length qt)) (resize 0 rxb size)), tx', u2.
  split; [reflexivity|]. split; [exact K1|]. unfold slice in H2. cbn [Z.to_nat skipn] in H2. rewrite K5 in H2. exact H2.
Qed.

Lemma refines acts : forall m s rxb txb u qt qr, R m s rxb txb -> holds u 1024 qt 1024 qr ->
  exists s', srun d (mkState s rxb txb u) acts = Ok (s', sp_run size react (m, qt, qr) acts).
Proof.
  induction acts as [|a acts IH]; intros m s rxb txb u qt qr HR Hu; cbn [srun sp_run].
  - eexists. reflexivity.
  - destruct a as [b|n|]; cbn [sstep sp_step port dev rx tx].
    + destruct (holds_both _ _ _ _ _ Hu) as [HB _].
      assert (CK : exists u', uart_step u (Tx, OWrite b 0 (List.length b)) = Ok (u', WCount (List.length b))).
      { destruct (uart_step_ok u (mkChan (1024, qt) (1024, qr))%nat Tx (OWrite b 0 (List.length b))) as (u' & E & _).
        - exact (holds_both _ _ _ _ _ Hu).
        - cbn. lia.
        - exists u'. rewrite E. reflexivity. }
      destruct CK as (u' & E). pose proof (holds_step u 1024 qt 1024 qr Tx (OWrite b 0 (List.length b)) u' _ Hu ltac:(cbn; lia) E) as H'. cbn beta iota in H'.
      rewrite q_step_write in H'. cbn [uart_step] in E. destruct (write_tx u b 0 (List.length b)) as [[u1 w]| | |]; cbn [bind fst snd] in *; try discriminate.
      injection E as -> _. destruct (IH m s rxb txb u' _ _ HR H') as (s' & E'). rewrite E'. cbn [bind fst snd]. eexists. reflexivity.
    + assert (CK : exists u', uart_step u (Rx, ORead (repeat 0 n) 0 n) = Ok (u', snd (q_step 1024 qr (ORead (repeat 0 n) 0 n)))).
      { destruct (uart_step_ok u (mkChan (1024, qt) (1024, qr))%nat Rx (ORead (repeat 0 n) 0 n)) as (u' & E & _).
        - exact (holds_both _ _ _ _ _ Hu).
        - cbn. rewrite repeat_length. lia.
        - exists u'. exact E. }
      destruct CK as (u' & E). pose proof (holds_step u 1024 qt 1024 qr Rx (ORead (repeat 0 n) 0 n) u' _ Hu ltac:(cbn; rewrite repeat_length; lia) E) as H'. cbn beta iota in H'.
      cbn [q_step fst snd] in H', E. cbn [uart_step] in E. destruct (read_rx u (repeat 0 n) 0 n) as [[[u1 ds] k]| | |]; cbn [bind fst snd] in *; try discriminate.
      injection E as -> -> ->. destruct (IH m s rxb txb u' _ _ HR H') as (s' & E'). rewrite E'. cbn [bind fst snd]. eexists. do 3 f_equal.
      unfold patched. cbn [firstn app]. rewrite firstn_min.
      rewrite <- (firstn_length n qr). rewrite firstn_app, firstn_all, Nat.sub_diag. cbn [firstn]. now rewrite app_nil_r.
    + destruct (routine_ok m s rxb txb u qt qr HR Hu) as (s1 & rx1 & tx1 & u1 & E & K). rewrite E. cbn [bind fst snd].
      destruct (react (firstn size qt) m) as [m' ans]. destruct K as [K1 K2].
      destruct (IH m' s1 rx1 tx1 u1 _ _ K1 K2) as (s' & E'). rewrite E'. cbn [bind fst snd]. eexists. reflexivity.
Qed.
End dev.
