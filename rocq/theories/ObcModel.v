(** Model of the UART side of src/components/real/cdh/on_board_computer.cpp and of
    ReceiveCommand/SendTelemetry of src/components/base/uart_communication_with_obc.cpp. *)
From Coq Require Import List Arith ZArith Bool.
From Verif Require Import Base RingBufferModel.
Import ListNotations.

Section Obc.
Context {A : Type}.
(** Contents of freshly allocated memory of a given size (unspecified by C++). *)
Variable junk : nat -> list A.

(** on_board_computer.hpp:207: std::map<int, UartPort*>; an absent key and a null pointer
    are the same ([None]). *)
Definition obc := Z -> option (uart A).

Definition set_port (t : obc) (id : Z) (u : option (uart A)) : obc :=
  fun i => if Z.eqb i id then u else t i.

(** What a call returns: an int, or for data transfers the int and the buffer. *)
Inductive ret : Type := Code (z : Z) | Xfer (o : out A).

(** on_board_computer.cpp:30-37; UartPort's constructor takes (rx size, tx size)
    (uart_port.cpp:12) and is given (tx_buffer_size, rx_buffer_size).  Sizes are
    non-negative here. *)
Definition connect (t : obc) (id : Z) (tx_size rx_size : nat) : obc * ret :=
  match t id with
  | Some _ => (t, Code (-1))
  | None => (set_port t id (Some (make_uart (junk (checked_size tx_size)) (junk (checked_size rx_size)))),
             Code 0)
  end.

(** on_board_computer.cpp:40-48 *)
Definition close (t : obc) (id : Z) : obc * ret :=
  match t id with None => (t, Code (-1)) | Some _ => (set_port t id None, Code 0) end.

(** on_board_computer.cpp:50-72 *)
Definition xfer (t : obc) (id : Z) (o : side * op A) : outcome (obc * ret) :=
  match t id with
  | None => Ok (t, Code (-1))
  | Some u => let! r := uart_step u o in Ok (set_port t id (Some (fst r)), Xfer (snd r))
  end.

Inductive oop : Type :=
| Connect (id : Z) (tx_size rx_size : nat)
| Close (id : Z)
| SendFromObc (id : Z) (src : list A) (off len : nat)
| ReceivedByCompo (id : Z) (dst : list A) (off len : nat)
| SendFromCompo (id : Z) (src : list A) (off len : nat)
| ReceivedByObc (id : Z) (dst : list A) (off len : nat).

Definition ostep (t : obc) (o : oop) : outcome (obc * ret) :=
  match o with
  | Connect id a b => Ok (connect t id a b)
  | Close id => Ok (close t id)
  | SendFromObc id s f l => xfer t id (Tx, OWrite s f l)        (* WriteTx *)
  | ReceivedByCompo id d f l => xfer t id (Tx, ORead d f l)     (* ReadTx *)
  | SendFromCompo id s f l => xfer t id (Rx, OWrite s f l)      (* WriteRx *)
  | ReceivedByObc id d f l => xfer t id (Rx, ORead d f l)       (* ReadRx *)
  end.

Fixpoint orun (t : obc) (ops : list oop) : outcome (obc * list ret) :=
  match ops with
  | [] => Ok (t, [])
  | o :: os => let! r := ostep t o in
               let! r' := orun (fst r) os in Ok (fst r', snd r :: snd r')
  end.

Definition obc_new : obc := fun _ => None.

(** std::vector::resize(n) on rx_buffer_ (new elements value-initialised). *)
Definition resize (zero : A) (l : list A) (n : nat) : list A :=
  firstn n l ++ repeat zero (n - length l).

(** uart_communication_with_obc.cpp:139-160, SILS mode.  [rx_size] is rx_buffer_size_,
    [buf] is rx_buffer_; offset and rec_size are unsigned int: their sum wraps modulo 2^32.
    &rx_buffer_.front() of an empty vector is undefined.  Result: None for -1 (rejected),
    otherwise the port's answer: number of bytes passed to ParseCommand and the buffer
    contents it sees. *)
Definition receive_command (zero : A) (u : uart A) (rx_size : Z) (buf : list A) (offset rec_size : Z)
  : outcome (option (uart A * list A * nat)) :=
  if (rx_size <? offset)%Z then Ok None else
  if (rx_size <? (offset + rec_size) mod 2 ^ 32)%Z then Ok None else
  let buf := resize zero buf (Z.to_nat rec_size) in
  match buf with
  | [] => UB
  | _ => let! r := read_tx u buf (Z.to_nat offset) (Z.to_nat rec_size) in Ok (Some r)
  end.

(** uart_communication_with_obc.cpp:161-178, SILS mode; [txbuf] and [tlm] are the transmit
    buffer and the size returned by GenerateTelemetry (user code). *)
Definition send_telemetry (u : uart A) (rx_size : Z) (txbuf : list A) (offset tlm : Z)
  : outcome (option (uart A * nat)) :=
  if (rx_size <? offset)%Z then Ok None else
  if (rx_size <? (offset + tlm) mod 2 ^ 32)%Z then Ok None else
  match txbuf with
  | [] => UB
  | _ => let! r := write_rx u txbuf (Z.to_nat offset) (Z.to_nat tlm) in Ok (Some r)
  end.
End Obc.
Arguments oop : clear implicits.
Arguments ret : clear implicits.
