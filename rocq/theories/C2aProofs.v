From Coq Require Import List ZArith Lia Bool Arith.
From Verif Require Import Base PortsModel PortsSpec PortsProofs C2aModel C2aSpec.
Import ListNotations.
Open Scope Z_scope.

Lemma i2c_run_app l1 : forall p l2, i2c_run p (l1 ++ l2) = i2c_run (i2c_run p l1) l2.
Proof. induction l1 as [|o l1 IH]; intros p l2; cbn [i2c_run app]; [reflexivity|apply IH]. Qed.

Lemma writes_cons a r x d : writes_from a r (x :: d) = WriteRegister a (r mod 256) x :: writes_from a (r + 1) d.
Proof.
  unfold writes_from. cbn [length seq combine map fst snd]. f_equal; [f_equal; f_equal; lia|].
  rewrite <- seq_shift. generalize (seq 0 (length d)). intros l. revert d. induction l as [|i l IH]; intros d; cbn [combine map]; [reflexivity|].
  destruct d as [|y d]; cbn [combine map]; [reflexivity|]. rewrite IH. cbn [fst snd]. f_equal. f_equal. f_equal. lia.
Qed.
Lemma comp_write_run a d : forall p r, comp_write_loop p a r d = i2c_run p (writes_from a r d).
Proof.
  induction d as [|x d IH]; intros p r; [reflexivity|]. rewrite writes_cons. cbn [comp_write_loop i2c_run i2c_step].
  rewrite IH. destruct (write_register p a (r mod 256) x); reflexivity.
Qed.
Lemma reads_cons a r n : map (fun i => ReadRegister a ((r + Z.of_nat i) mod 256)) (seq 0 (S n)) =
  ReadRegister a (r mod 256) :: map (fun i => ReadRegister a ((r + 1 + Z.of_nat i) mod 256)) (seq 0 n).
Proof.
  cbn [seq map]. f_equal; [f_equal; f_equal; lia|]. rewrite <- seq_shift, map_map. apply map_ext. intros i. f_equal. f_equal. lia.
Qed.
(** the bytes the low level operations return, from the model *)
Fixpoint model_bytes (p : i2c) (ops : list i2c_op) : list Z :=
  match ops with [] => [] | o :: rest => bytes_of o (snd (i2c_step p o)) ++ model_bytes (fst (i2c_step p o)) rest end.
Lemma comp_read_run a n : forall p r, let l := map (fun i => ReadRegister a ((r + Z.of_nat i) mod 256)) (seq 0 n) in
  comp_read_loop p a r n = (i2c_run p l, model_bytes p l).
Proof.
  induction n as [|n IH]; intros p r; cbv zeta in *; [reflexivity|]. rewrite reads_cons. cbn [comp_read_loop i2c_run model_bytes i2c_step].
  destruct (read_register p a (r mod 256)) as (p1, x). rewrite IH. cbn [fst snd bytes_of app]. reflexivity.
Qed.
Lemma next_run a n : forall p, obc_next_loop p a n = (i2c_run p (repeat (ReadNext a) n), model_bytes p (repeat (ReadNext a) n)).
Proof.
  induction n as [|n IH]; intros p; [reflexivity|]. cbn [obc_next_loop repeat i2c_run model_bytes i2c_step].
  destruct (read_next p a) as (p1, x). rewrite IH. reflexivity.
Qed.
Lemma writes_no_bytes a d : forall p r, model_bytes p (writes_from a r d) = [].
Proof. induction d as [|x d IH]; intros p r; [reflexivity|]. rewrite writes_cons. cbn [model_bytes bytes_of app]. apply IH. Qed.

(** one call on an open port *)
Lemma open_call p c : c <> CDestroy ->
  port_call (Some p) c = Ok (Some (i2c_run p (ops_of c)), model_bytes p (ops_of c)).
Proof.
  intros D. destruct c as [a| |a r d|a r n|a n|a d|a d|a n]; cbn [port_call ops_of].
  - reflexivity.
  - now elim D.
  - rewrite comp_write_run, writes_no_bytes. reflexivity.
  - rewrite comp_read_run. reflexivity.
  - cbn [i2c_run model_bytes i2c_step fst snd bytes_of app]. rewrite app_nil_r. reflexivity.
  - cbn [i2c_run model_bytes i2c_step]. destruct (write_command p a d). reflexivity.
  - destruct d as [|r [|x d]]; [reflexivity| |].
    + cbn [i2c_run model_bytes i2c_step]. destruct (write_pointer p a r). reflexivity.
    + rewrite comp_write_run, writes_no_bytes. reflexivity.
  - rewrite next_run. reflexivity.
Qed.

(** the table follows the bus histories *)
Definition port_of (h : option (list i2c_op)) : option i2c := option_map (i2c_run (i2c_new 255)) h.
Definition bus_step (h : option (list i2c_op)) (c : call) : option (list i2c_op) :=
  match c, h with
  | CDestroy, _ => None
  | CConnect a, None => Some [RegisterDevice a]
  | _, None => None
  | _, Some l => Some (l ++ ops_of c)
  end.
Lemma bus_cons h k o j c cs : bus h k ((o, j, c) :: cs) = bus (if j =? k then bus_step h c else h) k cs.
Proof. reflexivity. Qed.
Lemma bus_app cs : forall h k cs', bus h k (cs ++ cs') = bus (bus h k cs) k cs'.
Proof. induction cs as [|((o & j) & c) cs IH]; intros h k cs'; [reflexivity|]. cbn [app]. rewrite !bus_cons. apply IH. Qed.

Lemma call_follows h c p d : port_call (port_of h) c = Ok (p, d) -> p = port_of (bus_step h c) /\
  d = match h with Some l => model_bytes (i2c_run (i2c_new 255) l) (ops_of c) | None => [] end.
Proof.
  destruct h as [l|]; cbn [port_of option_map].
  - destruct (match c with CDestroy => true | _ => false end) eqn:E.
    + destruct c; try discriminate. cbn [port_call bus_step ops_of]. intros [= <- <-]. split; reflexivity.
    + rewrite open_call by (intros ->; discriminate). intros [= <- <-]. split; [|reflexivity].
      rewrite <- i2c_run_app. destruct c; try discriminate; reflexivity.
  - destruct c as [a| |a r d'|a r n|a n|a d'|a d'|a n]; cbn [port_call bus_step]; try discriminate.
    + intros [= <- <-]. split; reflexivity.
    + intros [= <- <-]. split; reflexivity.
    + destruct d'; [|discriminate]. intros [= <- <-]. split; reflexivity.
    + destruct n; [|discriminate]. intros [= <- <-]. split; reflexivity.
    + destruct d'; [|discriminate]. intros [= <- <-]. split; reflexivity.
    + destruct n; [|discriminate]. intros [= <- <-]. split; reflexivity.
Qed.

Lemma run_follows cs : forall t hs t' ds, (forall k, t k = port_of (hs k)) -> c2a_run t cs = Ok (t', ds) ->
  forall k, t' k = port_of (bus (hs k) k cs).
Proof.
  induction cs as [|((o & j) & c) cs IH]; intros t hs t' ds T H k; cbn [c2a_run] in H.
  - injection H as <- <-. apply T.
  - unfold c2a_call in H. destruct (port_call (t j) c) as [(p & d)| | |] eqn:E; cbn [bind] in H; try discriminate.
    destruct (c2a_run (set_port t j p) cs) as [(t2 & ds2)| | |] eqn:E2; cbn [bind] in H; try discriminate. injection H as <- <-.
    rewrite T in E. destruct (call_follows _ _ _ _ E) as (-> & _). rewrite bus_cons.
    assert (K := IH (set_port t j (port_of (bus_step (hs j) c))) (fun i => if j =? i then bus_step (hs i) c else hs i) _ _ ltac:(intros i; unfold set_port; rewrite (Z.eqb_sym i j); destruct (Z.eqb_spec j i) as [->|]; [reflexivity|apply T]) E2 k). exact K.
Qed.

(** arguments *)
Lemma ops_ok c : call_ok c -> Forall i2c_args_ok (ops_of c).
Proof.
  assert (W : forall a d r, byte a -> Forall byte d -> Forall i2c_args_ok (writes_from a r d)).
  { intros a d. induction d as [|x d IH]; intros r Ha Hd; [constructor|]. rewrite writes_cons. inversion Hd; subst. constructor; [|now apply IH].
    cbn [i2c_args_ok]. unfold byte in *. pose proof (Z.mod_pos_bound r 256). lia. }
  destruct c as [a| |a r d|a r n|a n|a d|a d|a n]; cbn [call_ok ops_of].
  - intros H. repeat constructor; apply H.
  - constructor.
  - intros (A & _ & D & _). now apply W.
  - intros (A & _ & _). apply Forall_forall. intros x I. apply in_map_iff in I. destruct I as (i & <- & _). cbn [i2c_args_ok]. unfold byte in *. pose proof (Z.mod_pos_bound (r + Z.of_nat i) 256). lia.
  - intros H. repeat constructor; apply H.
  - intros H. constructor; [|constructor]. cbn [i2c_args_ok]. tauto.
  - destruct d as [|r [|x d]]; [constructor| |].
    + intros (A & D & _). inversion D; subst. constructor; [|constructor]. cbn [i2c_args_ok]. tauto.
    + intros (A & D & _). inversion D; subst. now apply W.
  - intros (A & _). apply Forall_forall. intros x I. apply repeat_spec in I. subst x. exact A.
Qed.
Lemma bus_ok cs : forall h k, Forall (fun x => call_ok (snd x)) cs -> (forall l, h = Some l -> Forall i2c_args_ok l) ->
  forall l, bus h k cs = Some l -> Forall i2c_args_ok l.
Proof.
  induction cs as [|((o & j) & c) cs IH]; intros h k F H l E; [now apply H|]. rewrite bus_cons in E. inversion F; subst. cbn [snd] in *.
  refine (IH _ _ _ _ _ E); [assumption|]. intros l' E'. destruct (j =? k); [|now apply H].
  pose proof (ops_ok c ltac:(assumption)) as O. destruct h as [l0|].
  - assert (B : forall x, Some (l0 ++ ops_of c) = Some x -> Forall i2c_args_ok x) by (intros x [= <-]; apply Forall_app; split; [now apply H|exact O]).
    destruct c; try discriminate; now apply B.
  - destruct c; try discriminate. injection E' as <-. exact O.
Qed.
Lemma model_spec_bytes ops : forall past, Forall i2c_args_ok past -> Forall i2c_args_ok ops ->
  model_bytes (i2c_run (i2c_new 255) past) ops = bus_bytes (rev past) ops.
Proof.
  induction ops as [|o ops IH]; intros past P O; [reflexivity|]. inversion O; subst. cbn [model_bytes bus_bytes].
  rewrite (i2c_history 255 ltac:(lia) past o) by assumption. f_equal.
  specialize (IH (past ++ [o])). rewrite i2c_run_app, rev_app_distr in IH. cbn [i2c_run rev app] in IH. apply IH; [|assumption]. apply Forall_app. auto.
Qed.

(** reading registers through the specification *)
Lemma reg_value_writes_other a d : forall past r r' a', (a' <> a \/ forall i, (i < length d)%nat -> (r + Z.of_nat i) mod 256 <> r') ->
  reg_value 255 (rev (writes_from a r d) ++ past) a' r' = reg_value 255 past a' r'.
Proof.
  induction d as [|x d IH]; intros past r r' a' H; [reflexivity|]. rewrite writes_cons. cbn [rev]. rewrite <- app_assoc. cbn [app].
  rewrite IH.
  - cbn [reg_value]. destruct (Z.eqb_spec a a'), (Z.eqb_spec (r mod 256) r'); cbn [andb]; try reflexivity.
    exfalso. destruct H as [H|H]; [congruence|]. apply (H 0%nat); [cbn [length]; lia|]. rewrite Z.add_0_r. assumption.
  - destruct H as [H|H]; [now left|right]. intros i Hi E. apply (H (S i)); [cbn [length]; lia|]. rewrite <- E. f_equal. lia.
Qed.
Lemma reg_value_writes a d : forall past r i, 0 <= r -> r + Z.of_nat (length d) <= 255 -> (i < length d)%nat ->
  reg_value 255 (rev (writes_from a r d) ++ past) a (r + Z.of_nat i) = nth i d 0.
Proof.
  induction d as [|x d IH]; intros past r i R L I; [cbn [length] in I; lia|]. cbn [length] in *. rewrite writes_cons. cbn [rev]. rewrite <- app_assoc. cbn [app].
  destruct i as [|i].
  - rewrite Z.add_0_r, reg_value_writes_other.
    + cbn [reg_value nth]. rewrite Z.mod_small by lia. rewrite !Z.eqb_refl. destruct (Z.ltb_spec r 255); [reflexivity|lia].
    + right. intros j J. rewrite Z.mod_small by lia. lia.
  - replace (r + Z.of_nat (S i)) with (r + 1 + Z.of_nat i) by lia. rewrite IH by lia. reflexivity.
Qed.
Lemma reads_bytes a n : forall past r, 0 <= r -> r + Z.of_nat n <= 255 ->
  bus_bytes past (map (fun i => ReadRegister a ((r + Z.of_nat i) mod 256)) (seq 0 n)) = map (fun i => reg_value 255 past a (r + Z.of_nat i)) (seq 0 n).
Proof.
  induction n as [|n IH]; intros past r R L; [reflexivity|]. rewrite reads_cons. cbn [bus_bytes answer bytes_of]. rewrite Z.mod_small by lia.
  destruct (Z.ltb_spec r 255); [|lia]. cbn [seq map app]. rewrite Z.add_0_r. f_equal. rewrite IH by lia. rewrite <- seq_shift, map_map. apply map_ext. intros i.
  cbn [reg_value]. f_equal. lia.
Qed.
Lemma nexts_bytes a n : forall past r, pointer 255 past = r -> 0 <= r -> r + Z.of_nat n <= 255 ->
  bus_bytes past (repeat (ReadNext a) n) = map (fun i => reg_value 255 past a (r + Z.of_nat i)) (seq 0 n).
Proof.
  induction n as [|n IH]; intros past r P R L; [reflexivity|]. cbn [repeat bus_bytes answer bytes_of]. rewrite P.
  cbn [seq map app]. rewrite Z.add_0_r. f_equal. destruct n as [|n]; [reflexivity|].
  rewrite (IH _ (r + 1)); [|cbn [pointer]; rewrite P; destruct (Z.ltb_spec (r + 1) 255); lia|lia|lia].
  rewrite <- (seq_shift (S n) 0), map_map. apply map_ext. intros i. cbn [reg_value]. f_equal. lia.
Qed.
Lemma map_nth_seq {A} (l : list A) d : map (fun i => nth i l d) (seq 0 (length l)) = l.
Proof.
  induction l as [|x l IH]; [reflexivity|]. cbn [length seq map nth]. f_equal. rewrite <- seq_shift, map_map. exact IH.
Qed.
