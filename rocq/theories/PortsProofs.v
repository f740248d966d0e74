From Coq Require Import List ZArith Lia Bool.
From Verif Require Import Base PortsModel PortsSpec.
Import ListNotations.
Open Scope Z_scope.

Section I.
Variable max : Z.
Hypothesis Hmax : 0 <= max < 256.

Definition agree (p : i2c) (past : list i2c_op) : Prop :=
  max_reg p = max /\ saved p = pointer max past /\ 0 <= saved p /\ (saved p < max \/ saved p = 0) /\
  (forall a r, 0 <= r -> regs p a r = reg_value max past a r) /\
  (forall a i, (i < 255)%nat -> cmds p a (Z.of_nat i) = cmd_value past a i).

Lemma store_cmd_other d : forall c a i a' j, (a' <> a \/ j < i \/ i + Z.of_nat (length d) <= j) ->
  store_cmd c a i d a' j = c a' j.
Proof.
  induction d as [|x d IH]; intros c a i a' j H; cbn [store_cmd]; [reflexivity|].
  cbn [length] in H. rewrite IH by lia. unfold upd.
  destruct (Z.eqb_spec a' a); destruct (Z.eqb_spec j i); simpl; try reflexivity. lia.
Qed.

Lemma store_cmd_at d : forall c a i k, (k < length d)%nat ->
  store_cmd c a i d a (i + Z.of_nat k) = nth k d 0.
Proof.
  induction d as [|x d IH]; intros c a i k H; cbn [length] in H; [lia|].
  cbn [store_cmd]. destruct k as [|k].
  - rewrite store_cmd_other by lia. unfold upd.
    replace (i + Z.of_nat 0) with i by lia. now rewrite !Z.eqb_refl.
  - replace (i + Z.of_nat (S k)) with (i + 1 + Z.of_nat k) by lia.
    rewrite IH by lia. reflexivity.
Qed.

Lemma cmds_store past c a d : (forall a i, (i < 255)%nat -> c a (Z.of_nat i) = cmd_value past a i) ->
  forall a' i, (i < 255)%nat ->
  store_cmd c a 0 d a' (Z.of_nat i) = cmd_value (WriteCommand a d :: past) a' i.
Proof.
  intros H a' i Hi. cbn [cmd_value].
  destruct (Z.eqb_spec a a') as [->|Ha].
  - destruct (nth_error d i) as [x|] eqn:E.
    + assert (i < length d)%nat by (apply nth_error_Some; congruence).
      change (Z.of_nat i) with (0 + Z.of_nat i). rewrite store_cmd_at by assumption.
      now apply nth_error_nth.
    + apply nth_error_None in E. rewrite store_cmd_other by lia. now apply H.
  - rewrite store_cmd_other by lia. now apply H.
Qed.

Ltac boolcase := repeat match goal with
  | |- context [?a =? ?b] => destruct (Z.eqb_spec a b)
  | |- context [?a <? ?b] => destruct (Z.ltb_spec a b)
  | |- context [?a <=? ?b] => destruct (Z.leb_spec a b)
  end; cbn [andb]; try lia; try congruence; try reflexivity.

Lemma step_agree p past o : agree p past -> i2c_args_ok o ->
  snd (i2c_step p o) = answer max past o /\ agree (fst (i2c_step p o)) (o :: past).
Proof.
  intros (Em & Es & S0 & S1 & Hr & Hc) Ho.
  assert (Hread : forall a, regs p a (saved p) = reg_value max past a (pointer max past)).
  { intros a. rewrite <- Es. apply Hr. assumption. }
  destruct o as [a|a r|a r v|a|a r|a d|a n]; cbn [i2c_step answer i2c_args_ok] in *; unfold byte in *.
  - split; [reflexivity|]. unfold agree, register_device; cbn [fst max_reg saved regs cmds pointer reg_value cmd_value].
    repeat split; try assumption.
    + intros a' r Hr0. rewrite Em, <- Hr by assumption.
      boolcase.
    + intros a' i Hi. rewrite <- Hc by assumption. boolcase.
  - unfold write_pointer. rewrite Em. destruct (Z.leb_spec max r); cbn [fst snd].
    + split; [boolcase|]. unfold agree; cbn [pointer reg_value cmd_value].
      repeat split; try assumption; try (now rewrite <- ?Es; boolcase).
    + split; [boolcase|]. unfold agree; cbn [max_reg saved regs cmds pointer reg_value cmd_value].
      repeat split; try assumption; try lia. boolcase.
  - unfold write_register. rewrite Em. destruct (Z.leb_spec max r); cbn [fst snd].
    + split; [boolcase|]. unfold agree; cbn [pointer reg_value cmd_value].
      repeat split; try assumption; try (now rewrite <- ?Es; boolcase).
      intros a' r' Hr'. rewrite Hr by assumption. boolcase.
    + split; [boolcase|]. unfold agree; cbn [max_reg saved regs cmds pointer reg_value cmd_value].
      repeat split; try assumption; try lia; try boolcase.
      intros a' r' Hr'. unfold upd. rewrite Hr by assumption. boolcase.
  - unfold read_next. cbn [fst snd]. split; [f_equal; apply Hread|].
    unfold agree; cbn [max_reg saved regs cmds pointer reg_value cmd_value]. rewrite <- Es, Em.
    assert (Hmod : (saved p + 1) mod 256 = saved p + 1) by (apply Z.mod_small; lia).
    rewrite Hmod. repeat split; try assumption; boolcase.
  - unfold read_register. rewrite Em. destruct (Z.leb_spec max r); cbn [fst snd].
    + split; [boolcase|]. unfold agree; cbn [pointer reg_value cmd_value].
      repeat split; try assumption; try (now rewrite <- ?Es; boolcase).
    + split; [rewrite Hr by lia; boolcase|]. unfold agree; cbn [max_reg saved regs cmds pointer reg_value cmd_value].
      repeat split; try assumption; try lia. boolcase.
  - destruct Ho as (Ha & Hd & Hl). unfold write_command.
    destruct (Z.ltb_spec 255 (Z.of_nat (length d))); [lia|].
    split; [reflexivity|]. cbn [fst].
    pose proof (cmds_store past (cmds p) a d Hc) as Hcs.
    destruct d as [|r [|v [|w d]]].
    + unfold agree; cbn [max_reg saved regs cmds pointer reg_value]. repeat split; try assumption.
    + unfold write_pointer; cbn [max_reg regs cmds saved]. rewrite Em.
      inversion Hd; subst. unfold byte in *.
      destruct (Z.leb_spec max r); unfold agree; cbn [fst max_reg saved regs cmds pointer reg_value];
      repeat split; try assumption; try lia; try (rewrite <- ?Es; boolcase).
    + unfold write_register; cbn [max_reg regs cmds saved]. rewrite Em.
      inversion Hd; subst. unfold byte in *.
      destruct (Z.leb_spec max r); unfold agree; cbn [fst max_reg saved regs cmds pointer reg_value];
      repeat split; try assumption; try lia; try (rewrite <- ?Es; boolcase);
      intros a' r' Hr'; unfold upd; rewrite ?Hr by assumption; boolcase.
    + unfold agree; cbn [max_reg saved regs cmds pointer reg_value]. repeat split; try assumption.
  - split; [|unfold agree; cbn [fst pointer reg_value cmd_value]; tauto].
    cbn [snd]. unfold read_command. destruct (Z.ltb_spec 255 (Z.of_nat n)); [lia|].
    f_equal. apply map_ext_in. intros i Hi. apply in_seq in Hi. apply Hc. lia.
Qed.

Lemma run_agree ops : forall p past, agree p past -> Forall i2c_args_ok ops ->
  agree (i2c_run p ops) (rev ops ++ past).
Proof.
  induction ops as [|o os IH]; intros p past H Ho; [exact H|].
  inversion Ho; subst. cbn [i2c_run rev]. rewrite <- app_assoc. apply IH; [|assumption].
  now apply step_agree.
Qed.

Lemma new_agree : agree (i2c_new max) [].
Proof. unfold agree, i2c_new; cbn. repeat split; try reflexivity; lia. Qed.

Lemma i2c_history ops o : Forall i2c_args_ok ops -> i2c_args_ok o ->
  snd (i2c_step (i2c_run (i2c_new max) ops) o) = answer max (rev ops) o.
Proof.
  intros H Ho. pose proof (run_agree ops _ _ new_agree H) as A. rewrite app_nil_r in A.
  now apply step_agree.
Qed.
End I.

(** OBC wrappers *)
Lemma obc_write_loop_char data : forall p a r, 
  max_reg (obc_write_loop p a r data) = max_reg p /\
  forall a' r', regs (obc_write_loop p a r data) a' r' =
    if (a' =? a) && (r' =? r) && (r <? max_reg p)
    then List.last data (regs p a r) else regs p a' r'.
Proof.
  induction data as [|x d IH]; intros p a r; cbn [obc_write_loop].
  - split; [reflexivity|]. intros a' r'. cbn [List.last].
    destruct (Z.eqb_spec a' a) as [->|]; destruct (Z.eqb_spec r' r) as [->|]; cbn [andb]; try reflexivity.
    now destruct (r <? max_reg p).
  - destruct (IH (fst (write_register p a r x)) a r) as [IHm IHr]. clear IH.
    assert (Em : max_reg (fst (write_register p a r x)) = max_reg p).
    { unfold write_register. now destruct (max_reg p <=? r). }
    rewrite IHm, Em. split; [reflexivity|]. intros a' r'. rewrite IHr, Em.
    unfold write_register.
    destruct (Z.ltb_spec r (max_reg p)) as [H|H]; destruct (Z.leb_spec (max_reg p) r) as [H'|H']; try lia;
      cbn [fst regs].
    + unfold upd. rewrite !Z.eqb_refl. cbn [andb].
      destruct (Z.eqb_spec a' a) as [->|]; destruct (Z.eqb_spec r' r) as [->|]; cbn [andb]; try reflexivity.
      destruct d as [|y d]; [reflexivity|]. cbn [List.last].
      clear. revert y. induction d as [|z d IH]; intros y; [reflexivity|]. cbn [List.last] in *. apply IH.
    + rewrite !andb_false_r. reflexivity.
Qed.

Lemma obc_read_loop_char n : forall p a r, a < max_reg p ->
  snd (obc_read_loop p a r n) = repeat (regs p r a) n.
Proof.
  induction n as [|n IH]; intros p a r H; [reflexivity|]. cbn [obc_read_loop repeat].
  unfold read_register. destruct (Z.leb_spec (max_reg p) a); [lia|].
  match goal with |- context [obc_read_loop ?q a r n] => specialize (IH q a r); destruct (obc_read_loop q a r n) as [p2 xs] end.
  cbn [snd max_reg regs] in *. now rewrite IH.
Qed.

Lemma obc_write_effect port a r data : data <> [] -> r < max_reg port ->
  exists p', obc_i2c_write_register (Some port) a r data = Ok (Some p') /\
    regs p' a r = List.last data 0 /\
    forall a' r', (a', r') <> (a, r) -> regs p' a' r' = regs port a' r'.
Proof.
  intros Hd Hr. eexists. split; [reflexivity|].
  destruct (obc_write_loop_char data port a r) as [_ H]. split.
  - rewrite H, !Z.eqb_refl. destruct (Z.ltb_spec r (max_reg port)); [|lia]. cbn [andb].
    destruct data as [|x d]; [congruence|]. clear. cbn [List.last]. revert x.
    induction d as [|y d IH]; intros x; [reflexivity|]. apply IH.
  - intros a' r' Hne. rewrite H.
    destruct (Z.eqb_spec a' a) as [->|]; destruct (Z.eqb_spec r' r) as [->|]; cbn [andb]; try reflexivity.
    congruence.
Qed.

Lemma obc_read_effect port a r n : a < max_reg port ->
  exists p', obc_i2c_read_register (Some port) a r n = Ok (p', repeat (regs port r a) n).
Proof.
  intros H. unfold obc_i2c_read_register. destruct (obc_read_loop port a r n) as [p' d] eqn:E.
  exists (Some p'). f_equal. f_equal. pose proof (obc_read_loop_char n port a r H) as X.
  rewrite E in X. destruct n; exact X.
Qed.

(** write one byte then read it back through the same addresses on a fresh port *)
Lemma obc_roundtrip_single a r v : 0 <= a < 255 -> 0 <= r < 255 ->
  exists p p', obc_i2c_write_register (obc_i2c_connect None a) a r [v] = Ok p /\
    obc_i2c_read_register p a r 1 = Ok (p', [if a =? r then v else 0]).
Proof.
  intros Ha Hr. unfold obc_i2c_connect, obc_i2c_write_register.
  set (q := register_device (i2c_new 255) a).
  exists (Some (obc_write_loop q a r [v])).
  destruct (obc_write_loop_char [v] q a r) as [Hm H].
  destruct (obc_read_effect (obc_write_loop q a r [v]) a r 1) as [p' E].
  { rewrite Hm. simpl. lia. }
  exists p'. split; [reflexivity|]. rewrite E. f_equal. f_equal. cbn [repeat]. f_equal.
  rewrite H. cbn [List.last]. rewrite (Z.eqb_sym r a).
  destruct (Z.eqb_spec a r) as [->|Hne]; cbn [andb].
  - destruct (Z.ltb_spec r (max_reg q)) as [|X]; [reflexivity|].
    simpl in X. lia.
  - unfold q, register_device; cbn [regs i2c_new max_reg].
    now destruct ((r =? a) && (0 <=? a) && (a <? 255)).
Qed.

Lemma obc_null_port a r x d n :
  obc_i2c_write_register None a r (x :: d) = UB /\ obc_i2c_read_register None a r (S n) = UB.
Proof. split; reflexivity. Qed.

(** GPIO *)
Lemma last_cons' {A} (d : list A) : forall x y, List.last (x :: d) y = List.last d x.
Proof. induction d as [|z d IH]; intros x y; [reflexivity|]. change (List.last (z :: d) y = List.last (z :: d) x). now rewrite !IH. Qed.

Lemma gpio_run_char ws : forall g,
  digital_read (fst (gpio_run g ws)) = List.last ws (level g) /\
  snd (gpio_run g ws) = if has_compo g then changes (level g) ws else [].
Proof.
  induction ws as [|w ws IH]; intros g; cbn [gpio_run].
  - cbn. split; [reflexivity|now destruct (has_compo g)].
  - destruct (digital_write g w) as [g1 c1] eqn:E1. unfold digital_write in E1. injection E1 as <- <-.
    destruct (IH (mkGpio w (has_compo g))) as [A B]. cbn [level has_compo] in *.
    destruct (gpio_run (mkGpio w (has_compo g)) ws) as [g2 c2]. cbn [fst snd] in *.
    split; [rewrite A; symmetry; apply last_cons'|]. rewrite B. cbn [changes].
    destruct (Bool.eqb (level g) w) eqn:E; cbn [negb].
    + apply eqb_prop in E. subst w. reflexivity.
    + now destruct (has_compo g).
Qed.

Definition gagree (t : obc_gpio) (past : list gpio_op) : Prop :=
  forall id, match t id, line past id with
             | None, None => True | Some g, Some h => level g = h | _, _ => False end.

Lemma gstep_agree t past o : gagree t past ->
  gagree (fst (obc_gpio_step t o)) (o :: past) /\
  snd (obc_gpio_step t o) =
    match o with
    | GConnect id => if line past id then -1 else 0
    | GWrite id _ => if line past id then 0 else -1
    end.
Proof.
  intros H. destruct o as [id|id h]; cbn [obc_gpio_step]; unfold obc_gpio_connect, obc_gpio_write;
  pose proof (H id) as Hid; destruct (t id) as [g|] eqn:Et; destruct (line past id) as [l|] eqn:El;
  try contradiction; cbn [fst snd]; (split; [|reflexivity]); intros i; cbn [line];
  rewrite ?El; specialize (H i); rewrite ?(Z.eqb_sym i id); destruct (Z.eqb_spec id i) as [<-|Hne];
  rewrite ?Et, ?El in *; try exact H; try reflexivity; try exact Hid; exact I.
Qed.

Lemma obc_gpio_history ops o id :
  let t := obc_gpio_run (fun _ => None) ops in
  obc_gpio_read t id = (match line (rev ops) id with Some h => h | None => false end) /\
  snd (obc_gpio_step t o) =
    match o with
    | GConnect id => if line (rev ops) id then -1 else 0
    | GWrite id _ => if line (rev ops) id then 0 else -1
    end.
Proof.
  assert (R : forall ops t past, gagree t past -> gagree (obc_gpio_run t ops) (rev ops ++ past)).
  { clear. induction ops as [|o os IH]; intros t past H; [exact H|].
    cbn [obc_gpio_run rev]. rewrite <- app_assoc. apply IH. now apply gstep_agree. }
  intros t. assert (A : gagree t (rev ops)).
  { rewrite <- (app_nil_r (rev ops)). apply R. intros i. exact I. }
  split.
  - specialize (A id). unfold obc_gpio_read, digital_read.
    destruct (t id), (line (rev ops) id); try contradiction; auto.
  - now apply gstep_agree.
Qed.
