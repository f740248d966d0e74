(** Model of src/components/examples/example_serial_communication_with_obc.cpp (EO) and
    example_serial_communication_for_hils.cpp (EH), as components on a UART port of the on board computer (SILS), on top of
    ReceiveCommand and SendTelemetry of ObcModel (uart_communication_with_obc.cpp, UC). *)
From Coq Require Import List Arith ZArith Bool.
From Verif Require Import Base RingBufferModel ObcModel.
Import ListNotations.
Open Scope Z_scope.

(** A component with UART communication: its state, ParseCommand (given the number of bytes and rx_buffer_; the return value is
    not used), GenerateTelemetry (changes tx_buffer_, returns a size), the size MainRoutine asks for. *)
Record device (S : Type) : Type := mkDevice {
  parse : nat -> list Z -> S -> S;
  generate : S -> list Z -> S * list Z * Z;
  rec_size : Z }.
Arguments parse {S}. Arguments generate {S}. Arguments rec_size {S}.

Section device.
Context {S : Type} (d : device S).
(** the component with its buffers and the port *)
Record state : Type := mkState { dev : S; rx : list Z; tx : list Z; port : uart Z }.
(** UC 11-21 and 106-108 (both buffers 1024 = kDefaultBufferSize, value-initialised); the port is connected with the same sizes
    (on_board_computer.cpp 30-37), its memory arbitrary *)
Definition start (s : S) (m1 m2 : list Z) : state := mkState s (repeat 0 1024) (repeat 0 1024) (make_uart m1 m2).
(** EO 50-54, EH 59-64: ReceiveCommand(0, n) then SendTelemetry(0) (UC 139-178) *)
Definition routine (s : state) : outcome state :=
  let! r := receive_command 0 (port s) 1024 (rx s) 0 (rec_size d) in
  match r with
  | None => Ok s
  | Some (u, buf, k) =>
      let s1 := if Nat.eqb k 0 then dev s else parse d k buf (dev s) in
      let '(s2, tx', n) := generate d s1 (tx s) in
      let! w := send_telemetry u 1024 tx' 0 n in
      match w with
      | None => Ok (mkState s2 buf tx' u)
      | Some (u', _) => Ok (mkState s2 buf tx' u')
      end
  end.
(** what happens: the flight software sends bytes or asks for up to n bytes (into a zeroed buffer of that size), or the
    component's main routine runs *)
Inductive act : Type := ObcSends (bytes : list Z) | ObcReads (n : nat) | Routine.
Definition sstep (s : state) (a : act) : outcome (state * list Z) :=
  match a with
  | ObcSends b => let! r := write_tx (port s) b 0 (List.length b) in Ok (mkState (dev s) (rx s) (tx s) (fst r), [])
  | ObcReads n => let! r := read_rx (port s) (repeat 0 n) 0 n in
                  Ok (mkState (dev s) (rx s) (tx s) (fst (fst r)), firstn (snd r) (snd (fst r)))
  | Routine => let! s' := routine s in Ok (s', [])
  end.
(** the bytes each action delivers to the flight software *)
Fixpoint srun (s : state) (acts : list act) : outcome (state * list (list Z)) :=
  match acts with
  | [] => Ok (s, [])
  | a :: rest => let! r := sstep s a in let! r' := srun (fst r) rest in Ok (fst r', snd r :: snd r')
  end.
End device.
Arguments state : clear implicits.

(** EO: memory_ of kMaxMemoryLength = 100 chars (as bytes; char and unsigned char are converted to and fro) *)
Definition eo_parse (k : nat) (buf : list Z) (mem : list Z) : list Z :=
  if Nat.ltb k 4 then mem                                                            (* EO 32-34 *)
  else if negb (nth 0 buf 0 =? 83) || negb (nth 1 buf 0 =? 69) || negb (nth 2 buf 0 =? 84) then mem  (* 35-37 *)
  else firstn 99 (nth 3 buf 0 :: removelast mem) ++ [10].                            (* 38-40: pop_back, insert, [99] = newline *)
(** 43-49: tx_buffer_[i] = memory_[i] for i < 100; the size is sizeof(std::vector), 24 on the 64 bit platforms *)
Definition eo_generate (mem : list Z) (txb : list Z) : list Z * list Z * Z := (mem, mem ++ skipn 100 txb, 24).
Definition eo : device (list Z) := mkDevice _ eo_parse eo_generate 5.
(** 22-27 *)
Definition eo_start : list Z := repeat 0 100.

(** EH: memory_, tx_ (4 bytes), counter_ *)
Record eh_state : Type := mkEh { eh_memory : list Z; eh_tx : list Z; eh_counter : Z }.
Definition eh_start : eh_state := mkEh [0; 0; 0; 0] [0; 0; 0; 0] 0.
(** 19-33 *)
Definition eh_parse (mode : Z) (k : nat) (buf : list Z) (s : eh_state) : eh_state :=
  if mode =? 1 then mkEh [nth 0 buf 0; nth 1 buf 0; nth 2 buf 0; 0] (eh_tx s) (eh_counter s) else s.
(** 35-57 *)
Definition eh_generate (mode : Z) (s : eh_state) (txb : list Z) : eh_state * list Z * Z :=
  if mode =? 0 then
    let t := [65 + eh_counter s; 65 + eh_counter s + 1; 65 + eh_counter s + 2; 0] in
    let c := eh_counter s + 1 in
    (mkEh (eh_memory s) t (if 26 - 3 <? c then 0 else c), t, 4)
  else if mode =? 1 then (mkEh (eh_memory s) (eh_memory s) (eh_counter s), eh_memory s, 4)
  else (s, txb, 0).
Definition eh (mode : Z) : device eh_state := mkDevice _ (eh_parse mode) (eh_generate mode) 4.
