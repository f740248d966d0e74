(** Model of src/utilities/ring_buffer.cpp and src/components/ports/uart_port.cpp. *)
From Coq Require Import List Arith Lia Bool.
From Verif Require Import Base.
Import ListNotations.

Section RingBuffer.
(** Element type (the code uses unsigned char and never inspects it). *)
Context {A : Type}.

(** ring_buffer.hpp:51-54 (members).  Pointers and sizes are unsigned int in the
    code; they are [nat] here: every value computed stays <= buffer_size_ or
    data_length, so no 32-bit wrap can occur. *)
Record rb : Type := mkRb { size : nat; buf : list A; rp : nat; wp : nat }.

(** ring_buffer.cpp:15-19.  [new byte[n]] leaves the contents unspecified, so the
    initial contents are a parameter of length n. *)
Definition make (contents : list A) : rb := mkRb (length contents) contents 0 0.

(** ring_buffer.cpp:25-30, the while loop of Write; [fuel] bounds the iterations. *)
Fixpoint write_loop (fuel : nat) (b : rb) (src : list A) (off len cnt : nat)
  : outcome (rb * nat) :=
  match fuel with
  | 0 => Hang
  | S fuel' =>
    if cnt =? len then Ok (b, cnt) else
    let n := Nat.min (size b - wp b) (len - cnt) in
    let! nb := memcpy (buf b) (wp b) src (off + cnt) n in
    let wp' := if wp b + n =? size b then 0 else wp b + n in
    write_loop fuel' (mkRb (size b) nb (rp b) wp') src off len (cnt + n)
  end.

(** ring_buffer.cpp:23-33.  Returns the new buffer and write_count. *)
Definition write (b : rb) (src : list A) (off len : nat) : outcome (rb * nat) :=
  write_loop (S len) b src off len 0.

(** ring_buffer.cpp:39-45, the while loop of Read. *)
Fixpoint read_loop (fuel : nat) (b : rb) (dst : list A) (off len cnt : nat)
  : outcome (rb * list A * nat) :=
  match fuel with
  | 0 => Hang
  | S fuel' =>
    if (cnt =? len) || (wp b =? rp b) then Ok (b, dst, cnt) else
    let n := if rp b <? wp b then Nat.min (wp b - rp b) (len - cnt)
             else Nat.min (size b - rp b) (len - cnt) in
    let! nd := memcpy dst (off + cnt) (buf b) (rp b) n in
    let rp' := if rp b + n =? size b then 0 else rp b + n in
    read_loop fuel' (mkRb (size b) (buf b) rp' (wp b)) nd off len (cnt + n)
  end.

(** ring_buffer.cpp:35-48.  Returns the new buffer, the destination and read_count. *)
Definition read (b : rb) (dst : list A) (off len : nat) : outcome (rb * list A * nat) :=
  read_loop (S len) b dst off len 0.

(** Calls of the public interface. *)
Inductive op : Type :=
| OWrite (src : list A) (off len : nat)
| ORead (dst : list A) (off len : nat).

(** What the caller sees: the return value, and for Read its buffer. *)
Inductive out : Type :=
| WCount (n : nat)
| RData (dst : list A) (n : nat).

Definition step (b : rb) (o : op) : outcome (rb * out) :=
  match o with
  | OWrite src off len => let! r := write b src off len in Ok (fst r, WCount (snd r))
  | ORead dst off len =>
      let! r := read b dst off len in Ok (fst (fst r), RData (snd (fst r)) (snd r))
  end.

Fixpoint run (b : rb) (ops : list op) : outcome (rb * list out) :=
  match ops with
  | [] => Ok (b, [])
  | o :: os =>
    let! r := step b o in
    let! r' := run (fst r) os in
    Ok (fst r', snd r :: snd r')
  end.

(** uart_port.cpp:12-19 with kDefaultBufferSize = 1024 (uart_port.hpp): a size of 0
    is replaced by 1024.  [checked_size] is the size passed to RingBuffer. *)
Definition checked_size (n : nat) : nat := if n <=? 0 then 1024 else n.

(** uart_port.hpp: the two ring buffers of a UART port. *)
Record uart : Type := mkUart { rxb : rb; txb : rb }.

(** uart_port.cpp:12-19; contents unspecified as above. *)
Definition make_uart (rx_contents tx_contents : list A) : uart :=
  mkUart (make rx_contents) (make tx_contents).

(** uart_port.cpp:26-40. *)
Definition write_tx (u : uart) src off len : outcome (uart * nat) :=
  let! r := write (txb u) src off len in Ok (mkUart (rxb u) (fst r), snd r).
Definition write_rx (u : uart) src off len : outcome (uart * nat) :=
  let! r := write (rxb u) src off len in Ok (mkUart (fst r) (txb u), snd r).
Definition read_tx (u : uart) dst off len : outcome (uart * list A * nat) :=
  let! r := read (txb u) dst off len in
  Ok (mkUart (rxb u) (fst (fst r)), snd (fst r), snd r).
Definition read_rx (u : uart) dst off len : outcome (uart * list A * nat) :=
  let! r := read (rxb u) dst off len in
  Ok (mkUart (fst (fst r)) (txb u), snd (fst r), snd r).

Inductive side : Type := Tx | Rx.

(** A call of the port: direction and ring-buffer operation. *)
Definition uart_step (u : uart) (o : side * op) : outcome (uart * out) :=
  match o with
  | (Tx, OWrite src off len) => let! r := write_tx u src off len in Ok (fst r, WCount (snd r))
  | (Rx, OWrite src off len) => let! r := write_rx u src off len in Ok (fst r, WCount (snd r))
  | (Tx, ORead dst off len) =>
      let! r := read_tx u dst off len in Ok (fst (fst r), RData (snd (fst r)) (snd r))
  | (Rx, ORead dst off len) =>
      let! r := read_rx u dst off len in Ok (fst (fst r), RData (snd (fst r)) (snd r))
  end.

Fixpoint uart_run (u : uart) (ops : list (side * op)) : outcome (uart * list (side * out)) :=
  match ops with
  | [] => Ok (u, [])
  | o :: os =>
    let! r := uart_step u o in
    let! r' := uart_run (fst r) os in
    Ok (fst r', (fst o, snd r) :: snd r')
  end.
End RingBuffer.
Arguments rb : clear implicits.
Arguments op : clear implicits.
Arguments out : clear implicits.
Arguments uart : clear implicits.
