(** What an I2C register file and a GPIO line return, as functions of the history of
    calls.  Histories are newest call first. *)
From Coq Require Import List ZArith Bool.
From Verif Require Import PortsModel.
Import ListNotations.
Open Scope Z_scope.

Section I2cSpec.
Variable max : Z.   (* number of registers of the port *)

(** Value of register r of device a: the latest call that set it decides; 0 if none. *)
Fixpoint reg_value (past : list i2c_op) (a r : Z) : Z :=
  match past with
  | [] => 0
  | WriteRegister a' r' v :: older =>
      if (a' =? a) && (r' =? r) && (r <? max) then v else reg_value older a r
  | WriteCommand a' [r'; v] :: older =>
      if (a' =? a) && (r' =? r) && (r <? max) then v else reg_value older a r
  | RegisterDevice a' :: older =>
      if (a' =? a) && (r <? max) then 0 else reg_value older a r
  | _ :: older => reg_value older a r
  end.

(** The pointer: last register addressed; a pointer read moves it one on, wrapping. *)
Fixpoint pointer (past : list i2c_op) : Z :=
  match past with
  | [] => 0
  | WritePointer _ r :: older | WriteRegister _ r _ :: older | ReadRegister _ r :: older
  | WriteCommand _ [r] :: older | WriteCommand _ [r; _] :: older =>
      if r <? max then r else pointer older
  | ReadNext _ :: older => if pointer older + 1 <? max then pointer older + 1 else 0
  | _ :: older => pointer older
  end.

(** Byte i of the latest command sent to device a that is long enough. *)
Fixpoint cmd_value (past : list i2c_op) (a : Z) (i : nat) : Z :=
  match past with
  | [] => 0
  | WriteCommand a' d :: older =>
      if a' =? a then match nth_error d i with Some x => x | None => cmd_value older a i end
      else cmd_value older a i
  | RegisterDevice a' :: older => if a' =? a then 0 else cmd_value older a i
  | _ :: older => cmd_value older a i
  end.

(** Result of a call after a history. *)
Definition answer (past : list i2c_op) (o : i2c_op) : i2c_out :=
  match o with
  | RegisterDevice _ => Nothing
  | WritePointer _ r => Ret (if r <? max then 1 else 0)
  | WriteRegister _ r _ => Ret (if r <? max then 1 else 0)
  | ReadNext a => Ret (reg_value past a (pointer past))
  | ReadRegister a r => Ret (if r <? max then reg_value past a r else 0)
  | WriteCommand _ d => Ret (Z.of_nat (length d))
  | ReadCommand a n => Data (map (cmd_value past a) (seq 0 n))
  end.
End I2cSpec.

Definition byte (x : Z) : Prop := 0 <= x < 256.
Definition i2c_args_ok (o : i2c_op) : Prop :=
  match o with
  | RegisterDevice a | ReadNext a => byte a
  | WritePointer a r | ReadRegister a r => byte a /\ byte r
  | WriteRegister a r v => byte a /\ byte r /\ byte v
  | WriteCommand a d => byte a /\ Forall byte d /\ Z.of_nat (length d) < 256
  | ReadCommand a n => byte a /\ Z.of_nat n < 256
  end.

(** GPIO: the changes of level in a sequence of writes that starts at [cur]. *)
Fixpoint changes (cur : bool) (ws : list bool) : list bool :=
  match ws with
  | [] => []
  | w :: ws' => if Bool.eqb cur w then changes cur ws' else w :: changes w ws'
  end.

(** Level of OBC line id after a history (newest first): None if not connected. *)
Fixpoint line (past : list gpio_op) (id : Z) : option bool :=
  match past with
  | [] => None
  | GConnect i :: older =>
      if i =? id then match line older id with None => Some false | s => s end else line older id
  | GWrite i h :: older =>
      if i =? id then match line older id with None => None | Some _ => Some h end else line older id
  end.
