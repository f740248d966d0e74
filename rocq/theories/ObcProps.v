(** C35, C36: OBC UART channels and the component side of command/telemetry. *)
From Coq Require Import List Arith ZArith Bool Lia.
From Verif Require Import Base RingBufferModel RingBufferSpec RingBufferProofs ObcModel ObcSpec ObcProofs.
Import ListNotations.

(** C35: any history of connect/close/send/receive calls over any port ids behaves like a
    table of pairs of queues. *)
Theorem C35_obc_uart_channels : forall (A : Type) (junk : nat -> list A),
  (forall n, length (junk n) = n) ->
  forall ops : list (oop A), Forall buffers_ok ops ->
  exists t', orun junk obc_new ops = Ok (t', spec_run (fun _ => None) ops).
Proof. exact @obc_history. Qed.
Print Assumptions C35_obc_uart_channels.

(** C36: reception at offset 0 is safe and returns the oldest unread bytes. *)
Theorem C36_receive_command_offset_zero : forall (A : Type) (z : A) u nt qt nr qr rx_size buf rec_size,
  holds u nt qt nr qr -> (0 < rec_size <= rx_size)%Z -> (rx_size <= 1024)%Z ->
  let k := Nat.min (Z.to_nat rec_size) (length qt) in
  exists u', receive_command z u rx_size buf 0 rec_size
     = Ok (Some (u', firstn k qt ++ skipn k (resize z buf (Z.to_nat rec_size)), k)) /\
     holds u' nt (skipn k qt) nr qr.
Proof. exact @receive_command_ok. Qed.
Print Assumptions C36_receive_command_offset_zero.

(** C36: with any positive offset and enough received bytes the accepted call writes
    outside the receive buffer. *)
Theorem C36_receive_command_in_bounds_refuted :
  forall (A : Type) (z : A) u nt qt nr qr rx_size buf offset rec_size,
  holds u nt qt nr qr -> (0 < offset)%Z -> (0 < rec_size)%Z -> (offset + rec_size <= rx_size)%Z ->
  (rx_size <= 1024)%Z -> Z.to_nat rec_size <= length qt ->
  receive_command z u rx_size buf offset rec_size = UB.
Proof. exact @receive_command_oob. Qed.
Print Assumptions C36_receive_command_in_bounds_refuted.

(** C36: requests beyond the buffer are rejected as long as offset + size does not wrap ... *)
Theorem C36_receive_command_rejects_too_large :
  forall (A : Type) (z : A) u rx_size buf offset rec_size,
  (0 <= offset)%Z -> (0 <= rec_size)%Z -> (offset + rec_size < 2 ^ 32)%Z ->
  (rx_size < offset + rec_size)%Z ->
  receive_command z u rx_size buf offset rec_size = Ok None.
Proof. exact @receive_command_rejects. Qed.
Print Assumptions C36_receive_command_rejects_too_large.

(** ... but accepted when the 32-bit sum wraps. *)
Theorem C36_receive_command_size_check_refuted :
  forall (A : Type) (z : A) u rx_size buf offset,
  (0 < offset <= rx_size)%Z -> (rx_size <= 1024)%Z ->
  exists r : outcome (option (uart A * list A * nat)),
  receive_command z u rx_size buf offset (2 ^ 32 - offset) = r /\ r <> Ok None.
Proof. exact @receive_command_wrap. Qed.
Print Assumptions C36_receive_command_size_check_refuted.

(** C36: telemetry that fits both buffers is appended to the channel to the OBC. *)
Theorem C36_send_telemetry : forall (A : Type) (u : uart A) nt qt nr qr rx_size txbuf offset tlm,
  holds u nt qt nr qr -> txbuf <> [] -> (0 <= offset)%Z -> (0 <= tlm)%Z -> (offset + tlm <= rx_size)%Z ->
  (rx_size <= 1024)%Z -> (offset + tlm <= Z.of_nat (length txbuf))%Z ->
  exists u', send_telemetry u rx_size txbuf offset tlm = Ok (Some (u', Z.to_nat tlm)) /\
    holds u' nt qt nr (q_write nr qr (slice txbuf (Z.to_nat offset) (Z.to_nat tlm))).
Proof. exact @send_telemetry_ok. Qed.
Print Assumptions C36_send_telemetry.

(** C36: the check uses the receive size, so a larger telemetry than the transmit buffer
    is read out of bounds whenever the receive buffer is larger. *)
Theorem C36_send_telemetry_in_bounds_refuted :
  forall (A : Type) (u : uart A) nt qt nr qr rx_size txbuf offset tlm,
  holds u nt qt nr qr -> (0 <= offset)%Z -> (0 < tlm)%Z -> (offset + tlm <= rx_size)%Z ->
  (rx_size <= 1024)%Z -> (Z.of_nat (length txbuf) < offset + tlm)%Z ->
  send_telemetry u rx_size txbuf offset tlm = UB.
Proof. exact @send_telemetry_oob. Qed.
Print Assumptions C36_send_telemetry_in_bounds_refuted.

Example ex_obc : exists t, orun (fun n => repeat 0 n) obc_new
   [Connect 3 8 8; Connect 3 4 4; SendFromObc 3 [1;2;3] 0 3; SendFromCompo 3 [9;9] 0 2;
    ReceivedByCompo 3 [0;0;0;0] 0 4; ReceivedByObc 5 [0] 0 1; Close 3; Close 3; ReceivedByObc 3 [0] 0 1]
   = Ok (t, [Code 0; Code (-1); Xfer (WCount 3); Xfer (WCount 2); Xfer (RData [1;2;3;0] 3);
             Code (-1); Code 0; Code (-1); Code (-1)]).
Proof. eexists. vm_compute. reflexivity. Qed.
(** A port that meets [holds]: 3 unread bytes towards the component. *)
Example ex_holds : exists u : uart nat, holds u 8 [1;2;3] 8 [] /\
  receive_command 0 u 16 [] 1 2 = UB.
Proof.
  assert (H : exists u, holds u 8 [1;2;3] 8 []).
  { eexists. exists (repeat 0 8), (repeat 0 8), [(Tx, OWrite [1;2;3] 0 3)]. eexists.
    repeat split; try lia; repeat constructor; cbn; lia. }
  destruct H as [u H]. exists u. split; [exact H|].
  apply (receive_command_oob 0 _ _ _ _ _ _ _ _ _ H); cbn; lia.
Qed.
