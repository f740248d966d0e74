(** Model of StoreTelemetry and the receive/refill cycle of src/components/base/i2c_target_communication_with_obc.cpp (TC) in HILS mode, on
    top of RegistryModel (HilsI2cTargetPort).  Simplified: WriteTx to the converter always succeeds; the bytes the converter delivers
    are an arbitrary list. *)
From Coq Require Import List ZArith Bool Arith.
From Verif Require Import Base RegistryModel.
Import ListNotations.
Open Scope Z_scope.

(** int from unsigned (2's complement) *)
Definition to_int (x : Z) : Z := let y := x mod 2 ^ 32 in if y <? 2 ^ 31 then y else y - 2 ^ 32.
(** TC 148-151 SendTelemetry repeated: the frames that were handed to the converter *)
Fixpoint send_times (t : i2c_target) (size : Z) (n : nat) : i2c_target * list (list Z) :=
  match n with
  | O => (t, [])
  | S m => let (o, t1) := target_send t size in let (t2, fs) := send_times t1 size m in (t2, match o with Some f => f :: fs | None => fs end)
  end.
(** TC 153-167 in HILS mode; [port] is None when the manager has no port of this id: the counter is then -1 and every send -1 *)
Definition store_telemetry (port : option i2c_target) (n size : Z) : Z * option i2c_target * list (list Z) :=
  let counter := match port with Some t => to_int (frames t) | None => -1 end in
  let additional := to_int (n - counter) in
  if additional <=? 0 then (-1, port, [])
  else match port with
       | Some t => let (t', fs) := send_times t size (Z.to_nat additional) in (0, Some t', fs)
       | None => (0, None, [])
       end.
(** one step of a HILS component: receive what the converter delivered ([None]: no bytes), then refill *)
Definition hils_step (t : i2c_target) (bytes : option (list Z)) (n size : Z) : i2c_target * list (list Z) :=
  let t1 := match bytes with Some b => target_receive t b | None => t end in
  match store_telemetry (Some t1) n size with
  | (_, Some t2, fs) => (t2, fs)
  | (_, None, fs) => (t1, fs)
  end.
Fixpoint hils_run (t : i2c_target) (inputs : list (option (list Z))) (n size : Z) : i2c_target * list (list Z) :=
  match inputs with
  | [] => (t, [])
  | b :: rest => let (t1, f) := hils_step t b n size in let (t2, fs) := hils_run t1 rest n size in (t2, f ++ fs)
  end.
