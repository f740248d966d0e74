(** Model of the I2C and main routine parts of src/components/real/cdh/on_board_computer_with_c2a.cpp (OC) and of
    src/components/base/i2c_target_communication_with_obc.cpp (TC) and gpio_connection_with_obc.cpp (GC), on top of
    PortsModel (I2cPort, GpioPort).
    A table of ports is a function from port ids to ports; an absent entry and a null pointer are both [None] (operator[] inserts
    null, which nothing can tell apart).  Simplified: the C2A flight software is the list of calls it makes; what it does inside its
    own tick is not modelled. *)
From Coq Require Import List ZArith Bool Arith.
From Verif Require Import Base PortsModel.
Import ListNotations.
Open Scope Z_scope.

(** calls that reach one port.  The component side (C...) is TC 94-135 in SILS mode, the flight software side (O...) OC 251-260. *)
Inductive call : Type :=
| CConnect (a : Z)                       (* TC 11-21, 38-53: a component with device address a is constructed *)
| CDestroy                               (* TC 66-75: a component on this port is destroyed *)
| CWrite (a r : Z) (data : list Z)
| CRead (a r : Z) (n : nat)
| CReadCommand (a : Z) (n : nat)
| OCommand (a : Z) (data : list Z)
| OWrite (a : Z) (data : list Z)
| ORead (a : Z) (n : nat).

(** OC 186-193 (loop): register_address + i is converted to unsigned char *)
Fixpoint comp_write_loop (p : i2c) (a r : Z) (data : list Z) : i2c :=
  match data with [] => p | x :: d => comp_write_loop (fst (write_register p a (r mod 256) x)) a (r + 1) d end.
(** OC 194-201 (loop) *)
Fixpoint comp_read_loop (p : i2c) (a r : Z) (n : nat) : i2c * list Z :=
  match n with
  | O => (p, [])
  | S n' => let (p1, x) := read_register p a (r mod 256) in let (p2, xs) := comp_read_loop p1 a (r + 1) n' in (p2, x :: xs)
  end.
(** OC 178-184 (loop) *)
Fixpoint obc_next_loop (p : i2c) (a : Z) (n : nat) : i2c * list Z :=
  match n with
  | O => (p, [])
  | S n' => let (p1, x) := read_next p a in let (p2, xs) := obc_next_loop p1 a n' in (p2, x :: xs)
  end.

(** OC 138-207.  The result: the port afterwards and the bytes handed back. *)
Definition port_call (port : option i2c) (c : call) : outcome (option i2c * list Z) :=
  match c with
  (* OC 138-147 *)
  | CConnect a => Ok (Some (register_device (match port with Some p => p | None => i2c_new 255 end) a), [])
  (* OC 149-157: -1 if there is no port, which the destructor ignores *)
  | CDestroy => Ok (None, [])
  (* OC 186-193 *)
  | CWrite a r data => match port, data with
                       | None, [] => Ok (None, [])
                       | None, _ => UB
                       | Some p, _ => Ok (Some (comp_write_loop p a r data), [])
                       end
  (* OC 194-201 *)
  | CRead a r n => match port, n with
                   | None, O => Ok (None, [])
                   | None, _ => UB
                   | Some p, _ => let (p', d) := comp_read_loop p a r n in Ok (Some p', d)
                   end
  (* OC 203-207 *)
  | CReadCommand a n => match port with None => UB | Some p => Ok (Some p, read_command p a n) end
  (* OC 159-163 *)
  | OCommand a data => match port with None => UB | Some p => Ok (Some (fst (write_command p a data)), []) end
  (* OC 165-176 *)
  | OWrite a data => match port, data with
                     | None, [] => Ok (None, [])
                     | None, _ => UB
                     | Some p, [] => Ok (Some p, [])
                     | Some p, [r] => Ok (Some (fst (write_pointer p a r)), [])
                     | Some p, r :: d => Ok (Some (comp_write_loop p a r d), [])
                     end
  (* OC 178-184 *)
  | ORead a n => match port, n with
                 | None, O => Ok (None, [])
                 | None, _ => UB
                 | Some p, _ => let (p', d) := obc_next_loop p a n in Ok (Some p', d)
                 end
  end.

(** OC 32: i2c_com_ports_c2a_ is static: the computer whose method is called ([obc]) does not matter *)
Definition table : Type := Z -> option i2c.
Definition set_port (t : table) (k : Z) (p : option i2c) : table := fun j => if j =? k then p else t j.
Definition c2a_call (t : table) (obc k : Z) (c : call) : outcome (table * list Z) :=
  let! (p, d) := port_call (t k) c in Ok (set_port t k p, d).
Fixpoint c2a_run (t : table) (cs : list (Z * Z * call)) : outcome (table * list (list Z)) :=
  match cs with
  | [] => Ok (t, [])
  | (obc, k, c) :: rest => let! (t1, d) := c2a_call t obc k c in let! (t2, ds) := c2a_run t1 rest in Ok (t2, d :: ds)
  end.
Definition no_ports : table := fun _ => None.

(** OC 64-81: one MainRoutine; [inited] is is_initialized *)
Inductive c2a_event : Type := EInit | ECountUp | EExecute.
Definition main_routine (regulator : Z) (inited : bool) : bool * list c2a_event :=
  (true, (if inited then [] else [EInit]) ++ concat (repeat [ECountUp; EExecute] (Z.to_nat regulator))).
Fixpoint main_routines (regulator : Z) (inited : bool) (n : nat) : bool * list c2a_event :=
  match n with
  | O => (inited, [])
  | S m => let (b, e) := main_routine regulator inited in let (b', e') := main_routines regulator b m in (b', e ++ e')
  end.

(** GC: a component with several lines *)
Definition gpio_connect_all (t : obc_gpio) (ids : list Z) : obc_gpio :=
  fold_left (fun t id => fst (obc_gpio_connect t id)) ids t.
(** GC 20-22: port_id_[index], a std::vector: out of range is undefined *)
Definition gpio_conn_read (t : obc_gpio) (ids : list Z) (i : Z) : outcome bool :=
  if i <? 0 then UB else match nth_error ids (Z.to_nat i) with Some id => Ok (obc_gpio_read t id) | None => UB end.
Definition gpio_conn_write (t : obc_gpio) (ids : list Z) (i : Z) (h : bool) : outcome obc_gpio :=
  if i <? 0 then UB else match nth_error ids (Z.to_nat i) with Some id => Ok (fst (obc_gpio_write t id h)) | None => UB end.
