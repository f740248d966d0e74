(** C01, C02, C03: ring buffer and UART port. *)
From Coq Require Import List Arith Lia.
From Verif Require Import Base RingBufferModel RingBufferSpec RingBufferProofs.
Import ListNotations.

(** C01: any history of in-bounds calls on a freshly made buffer of size >= 1 (any
    initial contents) behaves like the queue; in particular no call has undefined
    behaviour or fails to terminate. *)
Theorem C01_ring_buffer_is_queue :
  forall (A : Type) (contents : list A) (ops : list (op A)),
  0 < length contents -> Forall in_bounds ops ->
  exists b', run (make contents) ops = Ok (b', snd (q_run (length contents) [] ops)).
Proof. exact @ring_queue. Qed.
Print Assumptions C01_ring_buffer_is_queue.

(** C02: below the bound nothing is lost: the buffer is the ideal unbounded queue. *)
Theorem C02_ring_buffer_lossless :
  forall (A : Type) (contents : list A) (ops : list (op A)),
  0 < length contents -> Forall in_bounds ops -> never_full (length contents) [] ops ->
  exists b', run (make contents) ops = Ok (b', snd (ideal_run [] ops)).
Proof. exact @ring_lossless. Qed.
Print Assumptions C02_ring_buffer_lossless.

(** C02: filling the advertised size exactly loses everything, silently. *)
Theorem C02_exact_fill_is_lossless_refuted :
  forall (A : Type) (contents src : list A),
  0 < length contents -> length src = length contents ->
  forall dst n, n <= length dst ->
  exists b', run (make contents) [OWrite src 0 (length src); ORead dst 0 n]
             = Ok (b', [WCount (length src); RData dst 0]).
Proof. exact @ring_exact_fill_empties. Qed.
Print Assumptions C02_exact_fill_is_lossless_refuted.

(** C02: a buffer of size 0 never finishes a non-empty write, whatever the fuel. *)
Theorem C02_size_zero_never_terminates :
  forall (A : Type) fuel (src : list A) off len cnt,
  cnt < len -> off + len <= length src ->
  write_loop fuel (make []) src off len cnt = Hang.
Proof. exact @write_size0_hangs. Qed.
Print Assumptions C02_size_zero_never_terminates.

(** C03: each side of a UART port is a queue of its own; a requested size 0 is 1024. *)
Theorem C03_uart_directions_are_independent_queues :
  forall (A : Type) (rxn txn : nat) (rc tc : list A) (ops : list (side * op A)),
  length rc = checked_size rxn -> length tc = checked_size txn ->
  Forall in_bounds (map snd ops) ->
  exists u' outs, uart_run (make_uart rc tc) ops = Ok (u', outs) /\
    map fst outs = map fst ops /\
    on_side Tx outs = snd (q_run (if txn =? 0 then 1024 else txn) [] (on_side Tx ops)) /\
    on_side Rx outs = snd (q_run (if rxn =? 0 then 1024 else rxn) [] (on_side Rx ops)).
Proof. exact @uart_queues. Qed.
Print Assumptions C03_uart_directions_are_independent_queues.

(** Non-vacuity: a wrapping history that meets the hypotheses. *)
Definition ex_ops : list (op nat) :=
  [OWrite [1;2;3] 0 3; ORead [0;0;0;0] 1 2; OWrite [9;4;5;6] 1 3; ORead [0;0;0;0] 0 4;
   OWrite [1;2;3;4;5;6;7] 0 7; ORead [0;0;0] 0 3].
Example ex_in_bounds : Forall in_bounds ex_ops.
Proof. repeat constructor; simpl; lia. Qed.
Example ex_run : exists b, run (make [0;0;0;0;0]) ex_ops
  = Ok (b, [WCount 3; RData [0;1;2;0] 2; WCount 3; RData [3;4;5;6] 4; WCount 7; RData [6;7;0] 2]).
Proof. eexists. vm_compute. reflexivity. Qed.
Example ex_never_full : never_full 5 [] (firstn 4 ex_ops).
Proof. simpl. lia. Qed.
Example ex_uart : exists u, uart_run (make_uart [0;0;0;0] [7;7;7])
   [(Tx, OWrite [1;2] 0 2); (Rx, OWrite [5;6;7] 0 3); (Tx, ORead [0;0] 0 2); (Rx, ORead [0;0;0] 0 3)]
   = Ok (u, [(Tx, WCount 2); (Rx, WCount 3); (Tx, RData [1;2] 2); (Rx, RData [5;6;7] 3)]).
Proof. eexists. vm_compute. reflexivity. Qed.
