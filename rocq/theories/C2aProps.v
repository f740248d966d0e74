(** C134: I2C devices, GPIO lines and the flight software tick of the on-board computer with C2A. *)
From Coq Require Import List ZArith Lia Bool Arith.
From Verif Require Import Base PortsModel PortsSpec PortsProofs C2aModel C2aSpec C2aProofs.
Import ListNotations.
Open Scope Z_scope.

(** After any history of calls on any computers and ports, a call hands back exactly the bytes that the register file specification
    (C07) of its port yields, or, when it touches a port with no component on it, is undefined. *)
Theorem C134_histories : forall cs t ds o k c, c2a_run no_ports cs = Ok (t, ds) -> Forall (fun x => call_ok (snd x)) cs -> call_ok c ->
  (is_open cs k \/ ~ touches c -> exists t', c2a_call t o k c = Ok (t', expected cs k c)) /\
  (~ is_open cs k -> touches c -> c2a_call t o k c = UB).
Proof.
  intros cs t ds o k c R F C. pose proof (run_follows cs no_ports (fun _ => None) t ds ltac:(reflexivity) R k) as T. cbv beta in T.
  pose proof (bus_ok cs None k F ltac:(discriminate)) as B. unfold c2a_call, is_open, expected. rewrite T.
  destruct (bus None k cs) as [l|]; cbn [port_of option_map].
  - split; [|intros N; elim N; discriminate]. intros _. rewrite <- model_spec_bytes; [|now apply B|now apply ops_ok].
    destruct (match c with CDestroy => true | _ => false end) eqn:E.
    + destruct c; try discriminate. cbn [port_call bind]. eexists. reflexivity.
    + rewrite open_call by (intros ->; discriminate). cbn [bind]. eexists. reflexivity.
  - split.
    + intros [N|N]; [now elim N|]. destruct c as [a| |a r d|a r n|a n|a d|a d|a n]; cbn [port_call touches] in *; try tauto; try (eexists; reflexivity).
      * destruct d; [eexists; reflexivity|elim N; discriminate].
      * destruct n; [eexists; reflexivity|elim N; discriminate].
      * destruct d; [eexists; reflexivity|elim N; discriminate].
      * destruct n; [eexists; reflexivity|elim N; discriminate].
    + intros _ N. destruct c as [a| |a r d|a r n|a n|a d|a d|a n]; cbn [port_call touches] in *; try tauto.
      * destruct d; [now elim N|reflexivity].
      * destruct n; [now elim N|reflexivity].
      * destruct d; [now elim N|reflexivity].
      * destruct n; [now elim N|reflexivity].
Qed.
Print Assumptions C134_histories.

(** Sequences of calls *)
Lemma run_app cs : forall t cs' t1 d1, c2a_run t cs = Ok (t1, d1) -> c2a_run t (cs ++ cs') = (let! (t2, d2) := c2a_run t1 cs' in Ok (t2, d1 ++ d2)).
Proof.
  induction cs as [|((o & k) & c) cs IH]; intros t cs' t1 d1 H; cbn [c2a_run app] in *.
  - injection H as <- <-. destruct (c2a_run t cs') as [(? & ?)| | |]; reflexivity.
  - destruct (c2a_call t o k c) as [(t2 & d)| | |]; cbn [bind] in *; try discriminate.
    destruct (c2a_run t2 cs) as [(t3 & ds)| | |] eqn:E; cbn [bind] in H; try discriminate. injection H as <- <-. rewrite (IH _ _ _ _ E).
    destruct (c2a_run t3 cs') as [(? & ?)| | |]; reflexivity.
Qed.
Lemma run_snoc cs t ds o k c : c2a_run no_ports cs = Ok (t, ds) -> Forall (fun x => call_ok (snd x)) cs -> call_ok c -> is_open cs k ->
  exists t', c2a_run no_ports (cs ++ [(o, k, c)]) = Ok (t', ds ++ [expected cs k c]).
Proof.
  intros R F C P. destruct (C134_histories cs t ds o k c R F C) as (H & _). destruct (H (or_introl P)) as (t' & E).
  exists t'. rewrite (run_app _ _ _ _ _ R). cbn [c2a_run]. rewrite E. reflexivity.
Qed.
Lemma open_snoc cs o k c l : bus None k cs = Some l -> c <> CDestroy -> bus None k (cs ++ [(o, k, c)]) = Some (l ++ ops_of c).
Proof. intros B D. rewrite bus_app, B, bus_cons, Z.eqb_refl. cbn [bus]. destruct c; try reflexivity. now elim D. Qed.
Lemma snoc_ok cs o k c : Forall (fun x => call_ok (snd x)) cs -> call_ok c -> Forall (fun x : Z * Z * call => call_ok (snd x)) (cs ++ [(o, k, c)]).
Proof. intros F C. apply Forall_app. split; [exact F|]. constructor; [exact C|constructor]. Qed.
Lemma run_two cs t ds k l o1 c1 o2 c2 : c2a_run no_ports cs = Ok (t, ds) -> Forall (fun x => call_ok (snd x)) cs -> bus None k cs = Some l -> call_ok c1 -> call_ok c2 -> c1 <> CDestroy ->
  exists t', c2a_run no_ports (cs ++ [(o1, k, c1); (o2, k, c2)]) = Ok (t', ds ++ [bus_bytes (rev l) (ops_of c1); bus_bytes (rev (ops_of c1) ++ rev l) (ops_of c2)]).
Proof.
  intros R F B C1 C2 D. destruct (run_snoc cs t ds o1 k c1 R F C1) as (t1 & E1); [unfold is_open; rewrite B; discriminate|].
  destruct (run_snoc _ _ _ o2 k c2 E1 (snoc_ok _ _ _ _ F C1) C2) as (t2 & E2); [unfold is_open; rewrite (open_snoc _ _ _ _ _ B D); discriminate|].
  exists t2. rewrite <- app_assoc in E2. cbn [app] in E2. rewrite E2. unfold expected. rewrite B, (open_snoc _ _ _ _ _ B D), rev_app_distr, <- app_assoc. reflexivity.
Qed.

(** Writing registers and reading them back: component to component, component to flight software, flight software to component. *)
Theorem C134_component_read_back : forall cs t ds o1 o2 k a r data, c2a_run no_ports cs = Ok (t, ds) -> Forall (fun x => call_ok (snd x)) cs -> is_open cs k ->
  byte a -> 0 <= r -> Forall byte data -> r + Z.of_nat (length data) <= 255 ->
  exists t', c2a_run no_ports (cs ++ [(o1, k, CWrite a r data); (o2, k, CRead a r (length data))]) = Ok (t', ds ++ [[]; data]).
Proof.
  intros cs t ds o1 o2 k a r data R F P A R0 D L. unfold is_open in P. destruct (bus None k cs) as [l|] eqn:B; [|now elim P].
  assert (BR : byte r \/ data = []). { destruct data as [|x d]; [now right|left]. cbn [length] in L. unfold byte. lia. }
  destruct BR as [BR| ->].
  - destruct (run_two cs t ds k l o1 (CWrite a r data) o2 (CRead a r (length data)) R F B) as (t' & E); [cbn [call_ok]; repeat split; auto; unfold byte in *; lia|cbn [call_ok]; repeat split; unfold byte in *; lia|discriminate|].
    exists t'. rewrite E. cbn [ops_of]. rewrite reads_bytes by assumption.
    replace (bus_bytes (rev l) (writes_from a r data)) with (@nil Z).
    + rewrite (map_ext_in _ (fun i => nth i data 0)); [rewrite map_nth_seq; reflexivity|]. intros i I. apply in_seq in I. apply reg_value_writes; [assumption|assumption|lia].
    + clear. generalize (rev l). revert r. induction data as [|x d IH]; intros r l0; [reflexivity|]. rewrite writes_cons. cbn [bus_bytes answer bytes_of app]. apply IH.
  - cbn [length Z.of_nat] in L. destruct (Z.eq_dec r 255) as [->|N].
    + destruct (run_two cs t ds k l o1 (CWrite a 255 []) o2 (CRead a 255 0) R F B) as (t' & E); [cbn; repeat split; auto; unfold byte in *; lia|cbn; repeat split; unfold byte in *; lia|discriminate|]. exists t'. exact E.
    + destruct (run_two cs t ds k l o1 (CWrite a r []) o2 (CRead a r 0) R F B) as (t' & E); [cbn; repeat split; auto; unfold byte in *; lia|cbn; repeat split; unfold byte in *; lia|discriminate|]. exists t'. exact E.
Qed.
Print Assumptions C134_component_read_back.

Theorem C134_flight_software_reads : forall cs t ds o1 o2 o3 k a r data, c2a_run no_ports cs = Ok (t, ds) -> Forall (fun x => call_ok (snd x)) cs -> is_open cs k ->
  byte a -> 0 <= r < 255 -> Forall byte data -> r + Z.of_nat (length data) <= 255 ->
  exists t', c2a_run no_ports (cs ++ [(o1, k, CWrite a r data); (o2, k, OWrite a [r]); (o3, k, ORead a (length data))]) = Ok (t', ds ++ [[]; []; data]).
Proof.
  intros cs t ds o1 o2 o3 k a r data R F P A R0 D L. unfold is_open in P. destruct (bus None k cs) as [l|] eqn:B; [|now elim P].
  assert (C1 : call_ok (CWrite a r data)) by (cbn [call_ok]; repeat split; auto; unfold byte in *; lia).
  destruct (run_snoc cs t ds o1 k _ R F C1) as (t1 & E1); [unfold is_open; rewrite B; discriminate|].
  destruct (run_two _ t1 _ k _ o2 (OWrite a [r]) o3 (ORead a (length data)) E1 (snoc_ok _ _ _ _ F C1) (open_snoc cs o1 k (CWrite a r data) l B ltac:(discriminate))) as (t' & E).
  - cbn [call_ok length]. repeat split; try (unfold byte in *; lia). constructor; [unfold byte; lia|constructor].
  - cbn [call_ok]. split; [assumption|lia].
  - discriminate.
  - exists t'. rewrite <- app_assoc in E. cbn [app] in E. rewrite E. rewrite <- app_assoc. cbn [app ops_of rev]. unfold expected. rewrite B. cbn [ops_of].
    replace (bus_bytes (rev l) (writes_from a r data)) with (@nil Z).
    + rewrite (nexts_bytes a (length data) _ r); [|cbn [pointer]; destruct (Z.ltb_spec r 255); lia|lia|assumption].
      rewrite (map_ext_in _ (fun i => nth i data 0)); [rewrite map_nth_seq; reflexivity|]. intros i I. apply in_seq in I. cbn [reg_value]. rewrite rev_app_distr. apply reg_value_writes; [lia|assumption|lia].
    + clear. generalize (rev l). revert r. induction data as [|x d IH]; intros r l0; [reflexivity|]. rewrite writes_cons. cbn [bus_bytes answer bytes_of app]. apply IH.
Qed.
Print Assumptions C134_flight_software_reads.

Theorem C134_flight_software_writes : forall cs t ds o1 o2 k a r data, c2a_run no_ports cs = Ok (t, ds) -> Forall (fun x => call_ok (snd x)) cs -> is_open cs k ->
  byte a -> 0 <= r -> data <> [] -> Forall byte data -> r + Z.of_nat (length data) <= 255 -> (length data <= 254)%nat ->
  exists t', c2a_run no_ports (cs ++ [(o1, k, OWrite a (r :: data)); (o2, k, CRead a r (length data))]) = Ok (t', ds ++ [[]; data]).
Proof.
  intros cs t ds o1 o2 k a r data R F P A R0 N D L L2. unfold is_open in P. destruct (bus None k cs) as [l|] eqn:B; [|now elim P].
  assert (BR : byte r). { destruct data as [|x d]; [now elim N|]. cbn [length] in L. unfold byte. lia. }
  destruct (run_two cs t ds k l o1 (OWrite a (r :: data)) o2 (CRead a r (length data)) R F B) as (t' & E).
  - cbn [call_ok length]. repeat split; auto; unfold byte in *; lia.
  - cbn [call_ok]. repeat split; unfold byte in *; lia.
  - discriminate.
  - exists t'. rewrite E. destruct data as [|x d]; [now elim N|]. cbn [ops_of]. rewrite reads_bytes by assumption.
    replace (bus_bytes (rev l) (writes_from a r (x :: d))) with (@nil Z).
    + rewrite (map_ext_in _ (fun i => nth i (x :: d) 0)); [rewrite map_nth_seq; reflexivity|]. intros i I. apply in_seq in I. apply reg_value_writes; [assumption|assumption|lia].
    + clear. generalize (rev l) (x :: d). intros l0 l1. revert r l0. induction l1 as [|y l1 IH]; intros r l0; [reflexivity|]. rewrite writes_cons. cbn [bus_bytes answer bytes_of app]. apply IH.
Qed.
Print Assumptions C134_flight_software_writes.

(** A command of the flight software is what the component reads. *)
Theorem C134_command : forall cs t ds o1 o2 k a data, c2a_run no_ports cs = Ok (t, ds) -> Forall (fun x => call_ok (snd x)) cs -> is_open cs k ->
  byte a -> Forall byte data -> Z.of_nat (length data) < 256 ->
  exists t', c2a_run no_ports (cs ++ [(o1, k, OCommand a data); (o2, k, CReadCommand a (length data))]) = Ok (t', ds ++ [[]; data]).
Proof.
  intros cs t ds o1 o2 k a data R F P A D L. unfold is_open in P. destruct (bus None k cs) as [l|] eqn:B; [|now elim P].
  destruct (run_two cs t ds k l o1 (OCommand a data) o2 (CReadCommand a (length data)) R F B) as (t' & E); [cbn [call_ok]; tauto|cbn [call_ok]; tauto|discriminate|].
  exists t'. rewrite E. cbn [ops_of rev app bus_bytes answer bytes_of]. rewrite app_nil_r.
  rewrite (map_ext_in _ (fun i => nth i data 0)); [rewrite map_nth_seq; reflexivity|]. intros i I. apply in_seq in I. cbn [cmd_value]. rewrite Z.eqb_refl.
  destruct (nth_error data i) eqn:E1; [symmetry; now apply nth_error_nth|]. apply nth_error_None in E1. lia.
Qed.
Print Assumptions C134_command.

(** Another component connecting to the port leaves the registers of other devices alone and clears those of its own address. *)
Theorem C134_connect : forall cs t ds o1 o2 k a b r n, c2a_run no_ports cs = Ok (t, ds) -> Forall (fun x => call_ok (snd x)) cs -> is_open cs k ->
  byte a -> byte b -> 0 <= r -> r + Z.of_nat n <= 255 -> (1 <= n)%nat ->
  (a <> b -> exists t', c2a_run no_ports (cs ++ [(o1, k, CConnect b); (o2, k, CRead a r n)]) = Ok (t', ds ++ [[]; expected cs k (CRead a r n)])) /\
  (a = b -> exists t', c2a_run no_ports (cs ++ [(o1, k, CConnect b); (o2, k, CRead a r n)]) = Ok (t', ds ++ [[]; repeat 0 n])).
Proof.
  intros cs t ds o1 o2 k a b r n R F P A Bb R0 L N. unfold is_open in P. destruct (bus None k cs) as [l|] eqn:B; [|now elim P].
  destruct (run_two cs t ds k l o1 (CConnect b) o2 (CRead a r n) R F B) as (t' & E); [exact Bb|cbn [call_ok]; repeat split; unfold byte in *; lia|discriminate|].
  unfold expected. rewrite B. cbn [ops_of rev app] in E. cbn [bus_bytes answer bytes_of app] in E. rewrite reads_bytes in E by assumption. cbn [ops_of]. rewrite reads_bytes by assumption. split.
  - intros AB. exists t'. rewrite E. do 5 f_equal. apply map_ext. intros i. cbn [reg_value]. destruct (Z.eqb_spec b a); [congruence|reflexivity].
  - intros <-. exists t'. rewrite E. do 5 f_equal. transitivity (map (fun _ : nat => 0) (seq 0 n)).
    + apply map_ext_in. intros i I. apply in_seq in I. cbn [reg_value]. rewrite Z.eqb_refl. destruct (Z.ltb_spec (r + Z.of_nat i) 255); [reflexivity|lia].
    + clear. generalize 0%nat. induction n as [|n IH]; intros s; [reflexivity|]. cbn [seq map repeat]. f_equal. apply IH.
Qed.
Print Assumptions C134_connect.

(** But: destroying one component takes the port away from all of them: the next access of any other is undefined ... *)
Theorem C134_destroy_refuted : forall cs t ds o o' k c, c2a_run no_ports cs = Ok (t, ds) -> touches c ->
  c2a_run no_ports (cs ++ [(o, k, CDestroy); (o', k, c)]) = UB.
Proof.
  intros cs t ds o o' k c R C. rewrite (run_app _ _ _ _ _ R). cbn [c2a_run]. unfold c2a_call at 1. cbn [port_call bind]. unfold c2a_call, set_port. rewrite Z.eqb_refl.
  destruct c as [a| |a r d|a r n|a n|a d|a d|a n]; cbn [touches port_call] in *; try tauto.
  - destruct d; [now elim C|reflexivity].
  - destruct n; [now elim C|reflexivity].
  - destruct d; [now elim C|reflexivity].
  - destruct n; [now elim C|reflexivity].
Qed.
Print Assumptions C134_destroy_refuted.
(** ... and the ports are shared by all computers: what one computer's component writes another computer reads, although nothing was
    ever connected to that computer. *)
Theorem C134_own_ports_refuted : exists cs t ds, c2a_run no_ports cs = Ok (t, ds ++ [[42]]) /\
  Forall (fun x => call_ok (snd x)) cs /\ (forall k c, In (2, k, c) cs -> c = CRead 16 3 1).
Proof.
  exists [(1, 0, CConnect 16); (1, 0, CWrite 16 3 [42]); (2, 0, CRead 16 3 1)]. eexists. exists [[]; []]. split; [reflexivity|]. split.
  - repeat constructor; cbn [snd call_ok length]; unfold byte; repeat split; try lia.
  - intros k c I. cbn [In] in I. destruct I as [I|[I|[I|[]]]]; injection I; intros; subst; try discriminate; reflexivity.
Qed.
Print Assumptions C134_own_ports_refuted.
(** Past the last register the addresses wrap: register 255 is dropped and the next byte goes to register 0. *)
Theorem C134_wrap_refuted : exists cs t ds, Forall (fun x => call_ok (snd x)) cs /\
  c2a_run no_ports (cs ++ [(1, 0, CWrite 16 254 [1; 2; 3]); (1, 0, CRead 16 254 3); (1, 0, CRead 16 0 1)]) = Ok (t, ds ++ [[1; 0; 3]; [3]]).
Proof.
  exists [(1, 0, CConnect 16)]. eexists. exists [[]; []]. split; [|reflexivity]. repeat constructor; cbn; unfold byte; lia.
Qed.
Print Assumptions C134_wrap_refuted.

(** The flight software is initialised exactly once, before its first tick, and each activation of the computer gives it exactly as many
    ticks as the timing regulator says (none if that is not positive). *)
Theorem C134_main_routine : forall regulator n, (1 <= n)%nat ->
  snd (main_routines regulator false n) = EInit :: concat (repeat [ECountUp; EExecute] (n * Z.to_nat regulator)).
Proof.
  intros regulator n N. destruct n as [|n]; [lia|]. cbn [main_routines main_routine].
  assert (H : forall m, main_routines regulator true m = (true, concat (repeat [ECountUp; EExecute] (m * Z.to_nat regulator)))).
  { induction m as [|m IH]; [reflexivity|]. cbn [main_routines main_routine]. rewrite IH. cbn [app]. f_equal. cbn [Nat.mul]. rewrite repeat_app, concat_app. reflexivity. }
  rewrite H. cbn [snd app Nat.mul]. rewrite repeat_app, concat_app. reflexivity.
Qed.
Print Assumptions C134_main_routine.

(** A component with several GPIO lines: after connecting, writing line i is seen on exactly the indices with the same port id, and an
    index outside the list is undefined. *)
Lemma connect_all_level ids : forall t id, obc_gpio_read (gpio_connect_all t ids) id = obc_gpio_read t id.
Proof.
  induction ids as [|x ids IH]; intros t id; [reflexivity|]. unfold gpio_connect_all. cbn [fold_left]. fold (gpio_connect_all (fst (obc_gpio_connect t x)) ids). rewrite IH.
  unfold obc_gpio_read, obc_gpio_connect. destruct (t x) eqn:E; [reflexivity|]. cbn [fst]. destruct (Z.eqb_spec id x) as [->|]; [rewrite E; reflexivity|reflexivity].
Qed.
Lemma connect_all_some ids : forall t id, (In id ids \/ t id <> None) -> gpio_connect_all t ids id <> None.
Proof.
  induction ids as [|x ids IH]; intros t id H; [destruct H as [[]|H]; exact H|]. unfold gpio_connect_all. cbn [fold_left]. fold (gpio_connect_all (fst (obc_gpio_connect t x)) ids).
  destruct (in_dec Z.eq_dec id ids) as [I|I]; [apply IH; now left|]. apply IH. right. unfold obc_gpio_connect.
  destruct (t x) eqn:E.
  - cbn [fst]. destruct H as [[->|H]|H]; [congruence|contradiction|exact H].
  - cbn [fst]. destruct (Z.eqb_spec id x); [discriminate|]. destruct H as [[->|H]|H]; [congruence|contradiction|exact H].
Qed.
Theorem C134_gpio_lines : forall t ids i h, 0 <= i < Z.of_nat (length ids) ->
  let t1 := gpio_connect_all t ids in
  exists t2, gpio_conn_write t1 ids i h = Ok t2 /\
    (forall j, 0 <= j < Z.of_nat (length ids) -> nth (Z.to_nat j) ids 0 = nth (Z.to_nat i) ids 0 -> gpio_conn_read t2 ids j = Ok h) /\
    (forall j, 0 <= j < Z.of_nat (length ids) -> nth (Z.to_nat j) ids 0 <> nth (Z.to_nat i) ids 0 -> gpio_conn_read t2 ids j = Ok (obc_gpio_read t (nth (Z.to_nat j) ids 0))) /\
    (forall j, j < 0 \/ Z.of_nat (length ids) <= j -> gpio_conn_read t2 ids j = UB /\ gpio_conn_write t2 ids j h = UB).
Proof.
  intros t ids i h I t1. unfold gpio_conn_write. destruct (Z.ltb_spec i 0); [lia|].
  rewrite (nth_error_nth' ids 0) by lia. set (id := nth (Z.to_nat i) ids 0). eexists. split; [reflexivity|].
  assert (C : t1 id <> None) by (apply connect_all_some; left; apply nth_In; lia).
  assert (RD : forall j, 0 <= j < Z.of_nat (length ids) -> gpio_conn_read (fst (obc_gpio_write t1 id h)) ids j = Ok (if nth (Z.to_nat j) ids 0 =? id then h else obc_gpio_read t (nth (Z.to_nat j) ids 0))).
  { intros j J. unfold gpio_conn_read. destruct (Z.ltb_spec j 0); [lia|]. rewrite (nth_error_nth' ids 0) by lia. f_equal. unfold obc_gpio_write. destruct (t1 id) as [g|] eqn:E; [|now elim C]. cbn [fst].
    unfold obc_gpio_read at 1. destruct (Z.eqb_spec (nth (Z.to_nat j) ids 0) id); [reflexivity|]. rewrite <- (connect_all_level ids t). reflexivity. }
  repeat split.
  - intros j J E. rewrite RD by exact J. rewrite E. fold id. rewrite Z.eqb_refl. reflexivity.
  - intros j J E. rewrite RD by exact J. fold id in E. destruct (Z.eqb_spec (nth (Z.to_nat j) ids 0) id); [contradiction|reflexivity].
  - unfold gpio_conn_read. destruct (Z.ltb_spec j 0); [reflexivity|]. destruct (nth_error ids (Z.to_nat j)) eqn:E; [|reflexivity]. assert (X : nth_error ids (Z.to_nat j) <> None) by congruence. apply nth_error_Some in X. lia.
  - unfold gpio_conn_write. destruct (Z.ltb_spec j 0); [reflexivity|]. destruct (nth_error ids (Z.to_nat j)) eqn:E; [|reflexivity]. assert (X : nth_error ids (Z.to_nat j) <> None) by congruence. apply nth_error_Some in X. lia.
Qed.
Print Assumptions C134_gpio_lines.

(** Cases that meet the hypotheses: two devices on one port, one of them read through the flight software. *)
Definition ex_calls : list (Z * Z * call) := [(1, 7, CConnect 16); (1, 7, CConnect 17); (1, 7, CWrite 17 0 [9])].
Example C134_example_open : is_open ex_calls 7 /\ Forall (fun x => call_ok (snd x)) ex_calls /\ exists t, c2a_run no_ports ex_calls = Ok (t, [[]; []; []]).
Proof.
  split; [unfold is_open; cbn; discriminate|]. split; [|eexists; reflexivity]. repeat constructor; cbn; unfold byte; repeat split; try lia.
Qed.
Example C134_example_read : exists t, c2a_run no_ports (ex_calls ++ [(1, 7, CWrite 16 3 [1; 2]); (1, 7, OWrite 16 [3]); (1, 7, ORead 16 2)]) = Ok (t, [[]; []; []; []; []; [1; 2]]).
Proof. eexists. reflexivity. Qed.
