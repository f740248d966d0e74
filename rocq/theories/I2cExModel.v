(** Model of src/components/examples/example_i2c_target_for_hils.cpp (ET) in HILS mode, on top of RegistryModel (HilsI2cTargetPort and its
    manager) and HilsTargetModel.  Simplified: WriteTx to the converter always succeeds; what the converter delivers between two activations is
    an arbitrary list of bytes.  Printing is not modelled. *)
From Coq Require Import List ZArith Bool Arith.
From Verif Require Import Base RegistryModel HilsTargetModel.
Import ListNotations.
Open Scope Z_scope.

(** the port and tlm_counter_ (unsigned char, ET.hpp 54) *)
Record example_target : Type := mkExample { target : i2c_target; tlm_counter : Z }.
Definition example_new : example_target := mkExample target_new 0.
(** ET 17-43: the frames handed to the converter in this activation; kStoredFrameSize = 3, kNumAlphabet = 26, kTlmSize = 5 *)
Definition example_routine (e : example_target) (bytes : option (list Z)) : example_target * list (list Z) :=
  let tlm := map (fun i => (65 + tlm_counter e + Z.of_nat i) mod 256) (seq 0 5) in      (* 21-25 *)
  let t1 := write_registers (target e) 0 tlm in                                         (* 26 *)
  let c := (tlm_counter e + 1) mod 256 in                                               (* 27 *)
  let c := if 26 - 5 <? c then 0 else c in                                              (* 28-30 *)
  let (t2, fs) := hils_step t1 bytes 3 5 in                                             (* 32-40 *)
  (mkExample t2 c, fs).
(** successive activations, the frames of each *)
Fixpoint example_run (e : example_target) (inputs : list (option (list Z))) : list (list (list Z)) :=
  match inputs with
  | [] => []
  | b :: rest => let (e1, fs) := example_routine e b in fs :: example_run e1 rest
  end.

(** Model of src/components/base/i2c_controller.cpp (IC) and examples/example_i2c_controller_for_hils.cpp (EC).  [hils] is USE_HILS; [recv n]
    what the serial port gives when asked for n bytes (result and the bytes); the result is what is written to the serial port, in order, and
    what is printed as received. *)
Definition controller_send (hils : bool) (data : list Z) (length : nat) : list (list Z) := if hils then [firstn length data] else [].  (* IC 49-52 *)
Definition controller_receive (hils : bool) (recv : nat -> Z * list Z) (length : nat) : Z * list Z := if hils then recv length else (-1, repeat 0 length).  (* IC 44-47 *)
(** EC 25-37: kCmdHeader_ 'S', kWriteCmd_ 0x44, kCmdFooter_ 'P' (EC.hpp) *)
Definition request_tlm (hils : bool) : list (list Z) := controller_send hils [83; 68; 1; 0; 80] 5.
(** EC 39-59 *)
Definition receive_tlm (hils : bool) (recv : nat -> Z * list Z) : list (list Z) * list Z :=
  let sent := controller_send hils [83; 69; 5; 80] 4 in
  let (ret, buf) := controller_receive hils recv 5 in
  (sent, if ret <=? 0 then [] else firstn (Z.to_nat ret) buf).
(** EC 17-23 *)
Definition controller_routine (hils : bool) (recv : nat -> Z * list Z) : list (list Z) * list Z :=
  let s1 := request_tlm hils in
  let (s2, printed) := receive_tlm hils recv in (s1 ++ s2, printed).
