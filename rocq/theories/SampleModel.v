(** Model of example/src/simulation/spacecraft/sample_components.cpp (SM): the devices of the sample spacecraft, their power
    ports and their order at the clock, and the force and torque they give. *)
From Coq Require Import Reals List ZArith Bool Ascii String.
From Verif Require Import Base RBase VecModel QuatModel StringModel PowerPortModel CompInitModel ClockModel.
From Coq Require Import List.
Import ListNotations.
Open Scope R_scope.

(** the settings files of the devices with a port of the power control unit *)
Record files : Type := mkFiles { f_gyro : ini; f_magnetometer : ini; f_stt : ini; f_ss : ini; f_gnss : ini; f_mtq : ini; f_rw : ini; f_thruster : ini }.

(** SM 29-31, 38-89 (the Init functions call InitializeWithInitializeFile on the port they get), 129-131 *)
Definition sample_port (f : files) (id : nat) : option port :=
  match id with
  | 0%nat => Some (fst (set_voltage (port_full (1/2) (33/10) 1) (33/10)))
  | 1%nat => Some (fst (set_voltage (port_from_file (f_gyro f) (port_id_limit 1)) (33/10)))
  | 2%nat => Some (fst (set_voltage
      (port_from_file (f_thruster f) (port_from_file (f_rw f) (port_from_file (f_mtq f) (port_from_file (f_gnss f)
      (port_from_file (f_ss f) (port_from_file (f_stt f) (port_from_file (f_magnetometer f) (port_id_limit 1)))))))) (33/10)))
  | _ => None
  end.

(** A device made by [new X(InitX(...))]: the object built in InitX and every copy made on the way (how many depends on the
    compiler) registers at the clock, and unregisters when it dies, after its successor is there (component.cpp 11-35). *)
Fixpoint moves (prev : nat) (rest : list nat) : list cop :=
  match rest with
  | [] => []
  | x :: r => Register x :: Remove prev :: moves x r
  end.
Definition build_device (temps : list nat) (id : nat) : list cop :=
  match temps ++ [id] with
  | c :: r => Register c :: moves c r
  | [] => []
  end.
(** SM 28, 34, 38-116 in this order: PCU 0, OBC 1, gyro 2, magnetometer 3, star sensor 4, sun sensor 5, GNSS receiver 6,
    magnetorquer 7, reaction wheel 8, torque generator 9, thruster 10, telescope 11, force generator 12, angular velocity
    observer 13, attitude observer 14, orbit observer 15 (the antenna is no Component).  [temps i]: the temporary objects of
    device i; the PCU and the OBC have none. *)
Definition build_all (temps : nat -> list nat) : list cop :=
  Register 0 :: Register 1 :: flat_map (fun i => build_device (temps i) i) (seq 2 14).

Section outputs.
Context {C : Type} (mtq_torque rw_torque thruster_torque generator_torque thruster_force generator_force : C -> vec).
(** SM 196-210 *)
Definition sample_force (c : C) : vec * C := (vadd (vadd (vconst 0) (thruster_force c)) (generator_force c), c).
Definition sample_torque (c : C) : vec * C :=
  (vadd (vadd (vadd (vadd (vconst 0) (mtq_torque c)) (rw_torque c)) (thruster_torque c)) (generator_torque c), c).
End outputs.
