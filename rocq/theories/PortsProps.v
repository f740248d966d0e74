(** C07, C08, C09: I2C register file, OBC I2C access, GPIO. *)
From Coq Require Import List ZArith Lia.
From Verif Require Import Base PortsModel PortsSpec PortsProofs.
Import ListNotations.
Open Scope Z_scope.

(** C07: after any history, any call answers as the history-based specification says. *)
Theorem C07_i2c_register_file : forall max, 0 <= max < 256 ->
  forall (history : list i2c_op) (o : i2c_op),
  Forall i2c_args_ok history -> i2c_args_ok o ->
  snd (i2c_step (i2c_run (i2c_new max) history) o) = answer max (rev history) o.
Proof. exact i2c_history. Qed.
Print Assumptions C07_i2c_register_file.

(** C08: what the OBC bulk write really does: only the addressed register changes and
    it gets the last byte. *)
Theorem C08_obc_i2c_write_effect : forall port a r data, data <> [] -> r < max_reg port ->
  exists p', obc_i2c_write_register (Some port) a r data = Ok (Some p') /\
    regs p' a r = List.last data 0 /\
    forall a' r', (a', r') <> (a, r) -> regs p' a' r' = regs port a' r'.
Proof. exact obc_write_effect. Qed.
Print Assumptions C08_obc_i2c_write_effect.

(** C08: what the OBC bulk read really does: n copies of register [a] of device [r]. *)
Theorem C08_obc_i2c_read_effect : forall port a r n, a < max_reg port ->
  exists p', obc_i2c_read_register (Some port) a r n = Ok (p', repeat (regs port r a) n).
Proof. exact obc_read_effect. Qed.
Print Assumptions C08_obc_i2c_read_effect.

(** C08: writing a byte and reading it back with the same addresses on a fresh port
    yields 0, not the byte, whenever device address and register number differ. *)
Theorem C08_obc_i2c_read_back_refuted : forall a r v, 0 <= a < 255 -> 0 <= r < 255 ->
  exists p p', obc_i2c_write_register (obc_i2c_connect None a) a r [v] = Ok p /\
    obc_i2c_read_register p a r 1 = Ok (p', [if a =? r then v else 0]).
Proof. exact obc_roundtrip_single. Qed.
Print Assumptions C08_obc_i2c_read_back_refuted.

(** C08: access through an unknown OBC port id dereferences a null pointer. *)
Theorem C08_obc_i2c_unknown_port_refuted : forall a r x d n,
  obc_i2c_write_register None a r (x :: d) = UB /\ obc_i2c_read_register None a r (S n) = UB.
Proof. exact obc_null_port. Qed.
Print Assumptions C08_obc_i2c_unknown_port_refuted.

(** C09: last level written, callbacks exactly at the changes of level. *)
Theorem C09_gpio_level_and_callbacks : forall (ws : list bool) (has_component : bool),
  let r := gpio_run (gpio_new has_component) ws in
  digital_read (fst r) = List.last ws false /\
  snd r = if has_component then changes false ws else [].
Proof. intros ws h. exact (gpio_run_char ws (gpio_new h)). Qed.
Print Assumptions C09_gpio_level_and_callbacks.

(** C09: the OBC's table of GPIO lines, every history. *)
Theorem C09_obc_gpio_history : forall (history : list gpio_op) (o : gpio_op) (id : Z),
  let t := obc_gpio_run (fun _ => None) history in
  obc_gpio_read t id = (match line (rev history) id with Some h => h | None => false end) /\
  snd (obc_gpio_step t o) =
    match o with
    | GConnect id => if line (rev history) id then -1 else 0
    | GWrite id _ => if line (rev history) id then 0 else -1
    end.
Proof. exact obc_gpio_history. Qed.
Print Assumptions C09_obc_gpio_history.

Definition ex_hist : list i2c_op :=
  [RegisterDevice 16; WriteRegister 16 2 7; WriteRegister 17 3 9; WriteCommand 16 [3; 5];
   WriteCommand 16 [2]; ReadNext 16; ReadNext 16].
Example ex_hist_ok : Forall i2c_args_ok ex_hist.
Proof. unfold ex_hist. repeat constructor; unfold byte; simpl; try lia; repeat constructor; lia. Qed.
Example ex_i2c : snd (i2c_step (i2c_run (i2c_new 4) ex_hist) (ReadNext 16)) = Ret 0
  /\ snd (i2c_step (i2c_run (i2c_new 5) (firstn 6 ex_hist)) (ReadNext 16)) = Ret 5
  /\ snd (i2c_step (i2c_run (i2c_new 4) ex_hist) (ReadRegister 16 3)) = Ret 5.
Proof. vm_compute. auto. Qed.
Example ex_gpio : snd (gpio_run (gpio_new true) [false; true; true; false; true]) = [true; false; true].
Proof. reflexivity. Qed.
