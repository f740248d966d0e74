(** Model of the pointer registries of
    src/components/real/power/power_control_unit.cpp (class PowerControlUnit) and
    src/simulation/hils/hils_port_manager.cpp (class HilsPortManager, built with USE_HILS).
    Both keep a std::map<int, T*> of owning raw pointers and test "map[id] != nullptr", which
    inserts a null entry when the id is absent. *)
From Coq Require Import List ZArith Bool Arith Lia Reals.
From Verif Require Import Base PowerPortModel.
Import ListNotations.
Open Scope Z_scope.

(** A heap cell: an object made by new, until delete. *)
Inductive cell (A : Type) : Type := Unallocated | Live (a : A) | Freed.
Arguments Unallocated {A}. Arguments Live {A} a. Arguments Freed {A}.

Section reg.
Context {A : Type}.
(** std::map<int, A*>: [None] no entry, [Some None] a null pointer, [Some (Some p)] address p.
    [brk] is the next address new will return. *)
Record reg : Type := mkReg { entry : Z -> option (option nat); heap : nat -> cell A; brk : nat }.
Definition reg_empty : reg := mkReg (fun _ => None) (fun _ => Unallocated) 0.

Definition set_entry (r : reg) (k : Z) (v : option (option nat)) : reg :=
  mkReg (fun j => if j =? k then v else entry r j) (heap r) (brk r).
(** map[k] as an rvalue: the pointer, and the map with the (null) entry inserted *)
Definition index (r : reg) (k : Z) : option nat * reg :=
  match entry r k with Some p => (p, r) | None => (None, set_entry r k (Some None)) end.
Definition new_cell (r : reg) (a : A) : nat * reg :=
  (brk r, mkReg (entry r) (fun p => if Nat.eqb p (brk r) then Live a else heap r p) (S (brk r))).
(** delete: deleting something that is not a live object is undefined behaviour *)
Definition delete_cell (r : reg) (p : nat) : outcome reg :=
  match heap r p with
  | Live _ => Ok (mkReg (entry r) (fun q => if Nat.eqb q p then Freed else heap r q) (brk r))
  | _ => UB
  end.
(** map.at(k) *)
Definition at_ (r : reg) (k : Z) : outcome (option nat) :=
  match entry r k with Some p => Ok p | None => Throw end.
(** p-> ... : dereferencing anything but a live object is undefined behaviour *)
Definition deref (r : reg) (p : nat) : outcome A :=
  match heap r p with Live a => Ok a | _ => UB end.
Definition store (r : reg) (p : nat) (a : A) : reg :=
  mkReg (entry r) (fun q => if Nat.eqb q p then Live a else heap r q) (brk r).

(** power_control_unit.cpp:21-36 and hils_port_manager.cpp:19-30, 112-120: connect.
    [legal] is the additional parameter check of UartConnectComPort (line 25). *)
Definition connect (r : reg) (k : Z) (legal : bool) (a : A) : Z * reg :=
  let (p, r1) := index r k in
  match p with
  | Some _ => (-1, r1)
  | None => if legal then
              let (q, r2) := new_cell r1 a in (0, set_entry r2 k (Some (Some q)))
            else (-1, r1)
  end.
(** power_control_unit.cpp:38-46, hils_port_manager.cpp:42-53, 128-138: close *)
Definition close (r : reg) (k : Z) : outcome (Z * reg) :=
  let (p, r1) := index r k in
  match p with
  | None => Ok (-1, r1)
  | Some _ =>
      let! q := at_ r1 k in
      match q with
      | None => UB
      | Some q => let! r2 := delete_cell r1 q in Ok (0, set_entry r2 k None)
      end
  end.
(** hils_port_manager.cpp:61-75, 86-100, 146-246: look the port up, -1 if null, else call a
    method [f] on it, which returns a value and the changed object. *)
Definition use (r : reg) (k : Z) (f : A -> Z * A) : outcome (Z * reg) :=
  let (p, r1) := index r k in
  match p with
  | None => Ok (-1, r1)
  | Some q => let! a := deref r1 q in let (v, a') := f a in Ok (v, store r1 q a')
  end.
(** power_control_unit.hpp:66-67 GetPowerPort *)
Definition get (r : reg) (k : Z) : outcome (option nat) := at_ r k.

Inductive rop : Type :=
| Connect (k : Z) (legal : bool) (a : A)
| Close (k : Z)
| Use (k : Z) (f : A -> Z * A)
| Get (k : Z).
Definition rstep (r : reg) (o : rop) : outcome (Z * reg) :=
  match o with
  | Connect k l a => Ok (connect r k l a)
  | Close k => close r k
  | Use k f => use r k f
  | Get k => match get r k with Ok _ => Ok (0, r) | Throw => Ok (0, r) | UB => UB | Hang => Hang end
             (* the exception of .at() leaves the map unchanged *)
  end.
Fixpoint rrun (r : reg) (ops : list rop) : outcome (list Z * reg) :=
  match ops with
  | [] => Ok ([], r)
  | o :: t => let! (v, r1) := rstep r o in let! (vs, r2) := rrun r1 t in Ok (v :: vs, r2)
  end.
End reg.
Arguments reg : clear implicits.
Arguments rop : clear implicits.

(** power_control_unit.cpp:21-27 and 29-36 *)
Definition pcu_connect (r : reg port) (k : Z) (limit : R) : Z * reg port :=
  connect r k true (port_id_limit limit).
Definition pcu_connect_full (r : reg port) (k : Z) (limit minv w : R) : Z * reg port :=
  connect r k true (port_full limit minv w).

(** src/components/ports/hils_i2c_target_port.{hpp,cpp}: the register file of a target device.
    [saved] saved_register_address_, [frames] stored_frame_counter_ (unsigned int). *)
Record i2c_target : Type := mkTarget {
  max_reg : Z; saved : Z; frames : Z; registers : Z -> Z; command : Z -> Z }.
(** cpp:13-28 (RegisterDevice); the constructor used by the manager leaves max_register_number_ = 0xff *)
Definition target_new : i2c_target := mkTarget 255 0 0 (fun _ => 0) (fun _ => 0).
(** cpp:36-41 *)
Definition write_register (t : i2c_target) (a v : Z) : i2c_target :=
  if max_reg t <=? a then t
  else mkTarget (max_reg t) a (frames t) (fun j => if j =? a then v else registers t j) (command t).
(** cpp:30-34 *)
Definition select_register (t : i2c_target) (a : Z) : i2c_target :=
  if max_reg t <=? a then t else mkTarget (max_reg t) a (frames t) (registers t) (command t).
(** cpp:43-48 *)
Definition read_register (t : i2c_target) (a : Z) : Z * i2c_target :=
  if max_reg t <=? a then (0, t)
  else (registers t a, mkTarget (max_reg t) a (frames t) (registers t) (command t)).
(** hils_port_manager.cpp:146-154; register_address + i is converted to unsigned char *)
Fixpoint write_registers (t : i2c_target) (a : Z) (data : list Z) : i2c_target :=
  match data with
  | [] => t
  | d :: tl => write_registers (write_register t (a mod 256) d) (a + 1) tl
  end.
(** hils_port_manager.cpp:165-173 *)
Fixpoint read_registers (t : i2c_target) (a : Z) (n : nat) : list Z * i2c_target :=
  match n with
  | O => ([], t)
  | S m => let (v, t1) := read_register t (a mod 256) in
           let (vs, t2) := read_registers t1 (a + 1) m in (v :: vs, t2)
  end.
(** cpp:60-89 with [bytes] the bytes the serial port delivered (at most 255) *)
Definition target_receive (t : i2c_target) (bytes : list Z) : i2c_target :=
  let t1 := mkTarget (max_reg t) (saved t) (frames t) (registers t)
              (fun j => if (0 <=? j) && (j <? Z.of_nat (length bytes)) then nth (Z.to_nat j) bytes 0 else command t j) in
  match bytes with
  | [a] => let t2 := select_register t1 a in
           if 0 <? frames t2 then mkTarget (max_reg t2) (saved t2) (frames t2 - 1) (registers t2) (command t2) else t2
  | [a; v] => write_register t1 a v
  | _ => t1
  end.
(** cpp:91-107: [None] = refused (-1), otherwise the bytes sent *)
Definition target_send (t : i2c_target) (n : Z) : option (list Z) * i2c_target :=
  if max_reg t <? saved t + n then (None, t)
  else (Some (map (fun i => registers t (saved t + Z.of_nat i)) (seq 0 (Z.to_nat n))),
        mkTarget (max_reg t) (saved t) ((frames t + 1) mod 2 ^ 32) (registers t) (command t)).
