(** Model of src/components/ports/i2c_port.cpp, gpio_port.cpp and of the I2C and GPIO
    wrappers of src/components/real/cdh/on_board_computer.cpp. *)
From Coq Require Import List ZArith Bool.
From Verif Require Import Base.
Import ListNotations.
Open Scope Z_scope.

(** i2c_port.hpp:102-110.  The std::map members are total functions: operator[] of an
    absent key inserts (and yields) 0, which is not observable otherwise.  All values
    are unsigned char, i.e. 0..255; kDefaultCmdBufferSize = 0xff. *)
Record i2c : Type := mkI2c {
  max_reg : Z; saved : Z; regs : Z -> Z -> Z; cmds : Z -> Z -> Z }.

(** i2c_port.cpp:12-14; the default max_register_number_ is 0xff. *)
Definition i2c_new (max : Z) : i2c := mkI2c max 0 (fun _ _ => 0) (fun _ _ => 0).

Definition upd (f : Z -> Z -> Z) (a r v : Z) : Z -> Z -> Z :=
  fun a' r' => if (a' =? a) && (r' =? r) then v else f a' r'.

(** i2c_port.cpp:16-23: zeroes registers i < max and command bytes i < 0xff.  The loop
    over i is written as one conditional update. *)
Definition register_device (p : i2c) (a : Z) : i2c :=
  mkI2c (max_reg p) (saved p)
    (fun a' r => if (a' =? a) && (0 <=? r) && (r <? max_reg p) then 0 else regs p a' r)
    (fun a' i => if (a' =? a) && (0 <=? i) && (i <? 255) then 0 else cmds p a' i).

(** i2c_port.cpp:25-31 *)
Definition write_pointer (p : i2c) (a r : Z) : i2c * Z :=
  if max_reg p <=? r then (p, 0) else (mkI2c (max_reg p) r (regs p) (cmds p), 1).

(** i2c_port.cpp:33-38 *)
Definition write_register (p : i2c) (a r v : Z) : i2c * Z :=
  if max_reg p <=? r then (p, 0)
  else (mkI2c (max_reg p) r (upd (regs p) a r v) (cmds p), 1).

(** i2c_port.cpp:55-60; ++ on unsigned char wraps modulo 256. *)
Definition read_next (p : i2c) (a : Z) : i2c * Z :=
  let ret := regs p a (saved p) in
  let s := (saved p + 1) mod 256 in
  let s := if max_reg p <=? s then 0 else s in
  (mkI2c (max_reg p) s (regs p) (cmds p), ret).

(** i2c_port.cpp:62-67 *)
Definition read_register (p : i2c) (a r : Z) : i2c * Z :=
  if max_reg p <=? r then (p, 0)
  else (mkI2c (max_reg p) r (regs p) (cmds p), regs p a r).

(** i2c_port.cpp:73-75: stores tx_data[i] at command byte i. *)
Fixpoint store_cmd (c : Z -> Z -> Z) (a i : Z) (d : list Z) : Z -> Z -> Z :=
  match d with [] => c | x :: d' => store_cmd (upd c a i x) a (i + 1) d' end.

(** i2c_port.cpp:69-87; [d] is tx_data[0..length), length is an unsigned char so the
    check length > 0xff never fires for representable lengths. *)
Definition write_command (p : i2c) (a : Z) (d : list Z) : i2c * Z :=
  let len := Z.of_nat (length d) in
  if 255 <? len then (p, 0) else
  let p1 := mkI2c (max_reg p) (saved p) (regs p) (store_cmd (cmds p) a 0 d) in
  let p2 := match d with [r] => fst (write_pointer p1 a r) | _ => p1 end in
  let p3 := match d with [r; v] => fst (write_register p2 a r v) | _ => p2 end in
  (p3, len).

(** i2c_port.cpp:89-97: returns the bytes stored in rx_data. *)
Definition read_command (p : i2c) (a : Z) (n : nat) : list Z :=
  if 255 <? Z.of_nat n then []
  else map (fun i => cmds p a (Z.of_nat i)) (seq 0 n).

Inductive i2c_op : Type :=
| RegisterDevice (a : Z)
| WritePointer (a r : Z)
| WriteRegister (a r v : Z)
| ReadNext (a : Z)
| ReadRegister (a r : Z)
| WriteCommand (a : Z) (d : list Z)
| ReadCommand (a : Z) (n : nat).

Inductive i2c_out : Type := Nothing | Ret (v : Z) | Data (d : list Z).

Definition i2c_step (p : i2c) (o : i2c_op) : i2c * i2c_out :=
  match o with
  | RegisterDevice a => (register_device p a, Nothing)
  | WritePointer a r => let (p', x) := write_pointer p a r in (p', Ret x)
  | WriteRegister a r v => let (p', x) := write_register p a r v in (p', Ret x)
  | ReadNext a => let (p', x) := read_next p a in (p', Ret x)
  | ReadRegister a r => let (p', x) := read_register p a r in (p', Ret x)
  | WriteCommand a d => let (p', x) := write_command p a d in (p', Ret x)
  | ReadCommand a n => (p, Data (read_command p a n))
  end.

Fixpoint i2c_run (p : i2c) (ops : list i2c_op) : i2c :=
  match ops with [] => p | o :: os => i2c_run (fst (i2c_step p o)) os end.

(** on_board_computer.cpp:95-102; the port pointer is null when the id is unknown and is
    dereferenced in the first iteration.  [data] is data[0..length). *)
Fixpoint obc_write_loop (p : i2c) (a r : Z) (data : list Z) : i2c :=
  match data with [] => p | x :: d => obc_write_loop (fst (write_register p a r x)) a r d end.
Definition obc_i2c_write_register (port : option i2c) (a r : Z) (data : list Z)
  : outcome (option i2c) :=
  match port, data with
  | None, [] => Ok None
  | None, _ :: _ => UB
  | Some p, _ => Ok (Some (obc_write_loop p a r data))
  end.

(** on_board_computer.cpp:103-110: note the argument order of the call,
    ReadRegister(register_address, i2c_address). *)
Fixpoint obc_read_loop (p : i2c) (a r : Z) (n : nat) : i2c * list Z :=
  match n with
  | O => (p, [])
  | S n' => let (p1, x) := read_register p r a in
            let (p2, xs) := obc_read_loop p1 a r n' in (p2, x :: xs)
  end.
Definition obc_i2c_read_register (port : option i2c) (a r : Z) (n : nat)
  : outcome (option i2c * list Z) :=
  match port, n with
  | None, O => Ok (None, [])
  | None, S _ => UB
  | Some p, _ => let (p', d) := obc_read_loop p a r n in Ok (Some p', d)
  end.

(** on_board_computer.cpp:74-83: new I2cPort() has max 0xff. *)
Definition obc_i2c_connect (port : option i2c) (a : Z) : option i2c :=
  match port with
  | Some p => Some (register_device p a)
  | None => Some (register_device (i2c_new 255) a)
  end.

(** gpio_port.cpp:10-13: GPIO port with a component attached ([has_compo]) or not. *)
Record gpio : Type := mkGpio { level : bool; has_compo : bool }.
Definition gpio_new (has_compo : bool) : gpio := mkGpio false has_compo.

(** gpio_port.cpp:17-26: new state and the callback GpioStateChanged(id, is_high), if any. *)
Definition digital_write (g : gpio) (is_high : bool) : gpio * list bool :=
  (mkGpio is_high (has_compo g),
   if negb (Bool.eqb (level g) is_high) then (if has_compo g then [is_high] else []) else []).

(** gpio_port.cpp:28 *)
Definition digital_read (g : gpio) : bool := level g.

Fixpoint gpio_run (g : gpio) (ws : list bool) : gpio * list bool :=
  match ws with
  | [] => (g, [])
  | w :: ws' => let (g1, c1) := digital_write g w in
                let (g2, c2) := gpio_run g1 ws' in (g2, c1 ++ c2)
  end.

(** on_board_computer.cpp:117-136: the GPIO table of the OBC (ports without component). *)
Definition obc_gpio := Z -> option gpio.
Definition obc_gpio_connect (t : obc_gpio) (id : Z) : obc_gpio * Z :=
  match t id with
  | Some _ => (t, -1)
  | None => (fun i => if i =? id then Some (gpio_new false) else t i, 0)
  end.
Definition obc_gpio_write (t : obc_gpio) (id : Z) (h : bool) : obc_gpio * Z :=
  match t id with
  | None => (t, -1)
  | Some g => (fun i => if i =? id then Some (fst (digital_write g h)) else t i, 0)
  end.
Definition obc_gpio_read (t : obc_gpio) (id : Z) : bool :=
  match t id with None => false | Some g => digital_read g end.
Inductive gpio_op : Type := GConnect (id : Z) | GWrite (id : Z) (h : bool).
Definition obc_gpio_step (t : obc_gpio) (o : gpio_op) : obc_gpio * Z :=
  match o with GConnect id => obc_gpio_connect t id | GWrite id h => obc_gpio_write t id h end.
Fixpoint obc_gpio_run (t : obc_gpio) (ops : list gpio_op) : obc_gpio :=
  match ops with [] => t | o :: os => obc_gpio_run (fst (obc_gpio_step t o)) os end.
