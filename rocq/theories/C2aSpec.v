(** C134, C135: what users expect of I2C devices on a flight computer with C2A and of the frames stored in a HILS converter. *)
From Coq Require Import List ZArith Bool.
From Verif Require Import PortsModel PortsSpec C2aModel.
Import ListNotations.
Open Scope Z_scope.

(** the elementary bus operations a call stands for *)
Definition writes_from (a r : Z) (data : list Z) : list i2c_op :=
  map (fun ix => WriteRegister a ((r + Z.of_nat (fst ix)) mod 256) (snd ix)) (combine (seq 0 (length data)) data).
Definition ops_of (c : call) : list i2c_op :=
  match c with
  | CConnect a => [RegisterDevice a]
  | CDestroy => []
  | CWrite a r data => writes_from a r data
  | CRead a r n => map (fun i => ReadRegister a ((r + Z.of_nat i) mod 256)) (seq 0 n)
  | CReadCommand a n => [ReadCommand a n]
  | OCommand a data => [WriteCommand a data]
  | OWrite a [r] => [WritePointer a r]
  | OWrite a (r :: data) => writes_from a r data
  | OWrite a [] => []
  | ORead a n => repeat (ReadNext a) n
  end.
(** the bus operations on port k since it was last opened ([None]: not open); calls newest last; the computer does not matter *)
Fixpoint bus (h : option (list i2c_op)) (k : Z) (cs : list (Z * Z * call)) : option (list i2c_op) :=
  match cs with
  | [] => h
  | (_, j, c) :: rest =>
      bus (if j =? k then
             match c, h with
             | CDestroy, _ => None
             | CConnect a, None => Some [RegisterDevice a]
             | _, None => None
             | _, Some l => Some (l ++ ops_of c)
             end
           else h) k rest
  end.
(** the bytes a list of bus operations hands back after a history, by the register file specification of C07 *)
Definition bytes_of (o : i2c_op) (x : i2c_out) : list Z :=
  match o, x with
  | ReadNext _, Ret v | ReadRegister _ _, Ret v => [v]
  | ReadCommand _ _, Data d => d
  | _, _ => []
  end.
Fixpoint bus_bytes (past : list i2c_op) (ops : list i2c_op) : list Z :=
  match ops with
  | [] => []
  | o :: rest => bytes_of o (answer 255 past o) ++ bus_bytes (o :: past) rest
  end.
(** the bytes the last call hands back *)
Definition expected (cs : list (Z * Z * call)) (k : Z) (c : call) : list Z :=
  match bus None k cs with Some l => bus_bytes (rev l) (ops_of c) | None => [] end.
(** arguments are unsigned chars *)
Definition call_ok (c : call) : Prop :=
  match c with
  | CConnect a => byte a
  | CDestroy => True
  | CWrite a r data => byte a /\ byte r /\ Forall byte data /\ Z.of_nat (length data) < 256
  | CRead a r n => byte a /\ byte r /\ Z.of_nat n < 256
  | CReadCommand a n | ORead a n => byte a /\ Z.of_nat n < 256
  | OCommand a data | OWrite a data => byte a /\ Forall byte data /\ Z.of_nat (length data) < 256
  end.
(** calls that dereference the port *)
Definition touches (c : call) : Prop :=
  match c with
  | CConnect _ | CDestroy => False
  | CWrite _ _ data | OWrite _ data => data <> []
  | CRead _ _ n | ORead _ n => n <> O
  | CReadCommand _ _ | OCommand _ _ => True
  end.
Definition is_open (cs : list (Z * Z * call)) (k : Z) : Prop := bus None k cs <> None.
