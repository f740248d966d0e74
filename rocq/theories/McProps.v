(** C22, C23, C61: Monte-Carlo simulation. *)
From Coq Require Import Reals List ZArith Bool Ascii String Lia Lra Permutation Sorted.
From Verif Require Import Base RBase StringModel VecModel VecProofs QuatModel QuatSpec QuatProofs McModel McSpec McProofs.
Import ListNotations.
Open Scope R_scope.

(** ** C22: the number of cases *)
Lemma cases_enabled n : forall e fuel, enabled e = true -> (0 <= done e)%Z -> (total e < 2 ^ 64)%Z -> (total e = done e + Z.of_nat n)%Z ->
  (n <= fuel)%nat -> exists e', cases fuel e = Ok (map (fun i => (done e + Z.of_nat i)%Z) (seq 0 n), e') /\
    e' = mkExec (total e) (total e) (enabled e) (save_log_history e) (init_parameter_list e).
Proof.
  induction n as [|n IH]; intros e fuel E D T N F.
  - exists e. assert (W : will_execute_next_case e = false).
    { unfold will_execute_next_case. rewrite E. cbn [negb]. apply Z.ltb_ge. lia. }
    destruct fuel; cbn [cases]; rewrite W; (split; [reflexivity|]); destruct e as [t d en sl pl]; cbn [total done enabled save_log_history init_parameter_list] in *; f_equal; lia.
  - assert (W : will_execute_next_case e = true).
    { unfold will_execute_next_case. rewrite E. cbn [negb]. apply Z.ltb_lt. lia. }
    destruct fuel as [|fuel]; [lia|]. cbn [cases]. rewrite W.
    assert (DE : done (at_the_end_of_each_case e) = (done e + 1)%Z).
    { unfold at_the_end_of_each_case, u64. cbn [done]. apply Z.mod_small. lia. }
    destruct (IH (at_the_end_of_each_case e) fuel) as (e' & C & E').
    + exact E.
    + rewrite DE. lia.
    + exact T.
    + rewrite DE. cbn [total at_the_end_of_each_case]. lia.
    + lia.
    + rewrite C. cbn [bind]. exists e'. split; [|exact E']. f_equal. f_equal. cbn [seq map]. f_equal; [lia|].
      rewrite <- seq_shift, map_map. apply map_ext. intro i. rewrite DE. lia.
Qed.
(** Enabled: exactly [total] cases, numbered 0, 1, ..., total - 1, and then WillExecuteNextCase stays false. *)
Theorem C22_enabled_runs_total : forall e fuel, enabled e = true -> done e = 0%Z -> (0 <= total e < 2 ^ 64)%Z ->
  (Z.to_nat (total e) <= fuel)%nat ->
  exists e', cases fuel e = Ok (map Z.of_nat (seq 0 (Z.to_nat (total e))), e') /\
    done e' = total e /\ will_execute_next_case e' = false.
Proof.
  intros e fuel E D T F. destruct (cases_enabled (Z.to_nat (total e)) e fuel) as (e' & C & E'); try assumption; try lia.
  exists e'. split; [|split].
  - rewrite C. f_equal. f_equal. apply map_ext. intro i. lia.
  - now subst e'.
  - subst e'. unfold will_execute_next_case. cbn [enabled done total]. rewrite E. cbn [negb]. apply Z.ltb_irrefl.
Qed.
Print Assumptions C22_enabled_runs_total.
(** Disabled: exactly one case, whatever the total. *)
Theorem C22_disabled_runs_once : forall e fuel, enabled e = false -> done e = 0%Z -> (1 <= fuel)%nat ->
  exists e', cases fuel e = Ok ([0%Z], e') /\ done e' = 1%Z /\ will_execute_next_case e' = false.
Proof.
  intros e fuel E D F. destruct fuel as [|fuel]; [lia|]. cbn [cases]. unfold will_execute_next_case at 1. rewrite E, D. cbn [negb].
  change (0 <? 1)%Z with true. cbn iota.
  assert (W : will_execute_next_case (at_the_end_of_each_case e) = false).
  { unfold will_execute_next_case. cbn [enabled at_the_end_of_each_case]. rewrite E. cbn [negb]. apply Z.ltb_ge.
    unfold at_the_end_of_each_case, u64. cbn [done]. rewrite D. now vm_compute. }
  exists (at_the_end_of_each_case e). destruct fuel; cbn [cases]; rewrite W; cbn [bind];
    (split; [reflexivity|]; split; [unfold at_the_end_of_each_case, u64; cbn [done]; rewrite D; reflexivity|first [exact W | reflexivity]]).
Qed.
Print Assumptions C22_disabled_runs_once.
(** The constructor enables Monte-Carlo exactly when more than one execution is asked for. *)
Theorem C22_constructor : forall n, done (executor_new n) = 0%Z /\ total (executor_new n) = n /\
  (enabled (executor_new n) = true <-> (1 < n)%Z) /\ get_save_log (executor_new n) = negb (enabled (executor_new n)).
Proof.
  intro n. split; [reflexivity|]. split; [reflexivity|]. split; [apply Z.ltb_lt|].
  unfold get_save_log, executor_new. cbn [enabled save_log_history]. apply orb_diag.
Qed.
Print Assumptions C22_constructor.
(** From the ini file: number_of_executions k, monte_carlo_enable.  Enabled: k cases if k >= 0 (none for
    k = 0); disabled: one case. *)
Theorem C22_ini_number_of_cases : forall k enable log l e fuel, (0 <= k < 2 ^ 31)%Z ->
  init_monte_carlo k enable log l = Ok e -> (Z.to_nat k <= fuel)%nat -> (1 <= fuel)%nat ->
  exists e', cases fuel e = Ok (if enable then map Z.of_nat (seq 0 (Z.to_nat k)) else [0%Z], e').
Proof.
  intros k enable log l e fuel K I F1 F2.
  assert (G : forall l e0 e, add_all e0 l = Ok e -> total e = total e0 /\ done e = done e0 /\ enabled e = enabled e0).
  { clear. induction l as [|x l IH]; intros e0 e H.
    - injection H as <-. tauto.
    - cbn [add_all] in H. destruct (parse_name (ename x)) as (so, ip).
      unfold add_parameter in H. destruct (find (key so ip) (init_parameter_list e0)); [discriminate|]. cbn [bind] in H.
      apply IH in H. cbn [total done enabled] in H. exact H. }
  destruct (G _ _ _ I) as (T & D & En). cbn in T, D, En.
  assert (U : u64 k = k) by (unfold u64; apply Z.mod_small; lia). rewrite U in T.
  destruct enable.
  - destruct (C22_enabled_runs_total e fuel En D) as (e' & C & _); [rewrite T; lia|rewrite T; exact F1|].
    exists e'. rewrite C, T. reflexivity.
  - destruct (C22_disabled_runs_once e fuel En D F2) as (e' & C & _). now exists e'.
Qed.
Print Assumptions C22_ini_number_of_cases.
(** refuted: a negative number_of_executions is rejected or runs nothing.  It is converted to an unsigned
    64-bit number: -k asks for 2^64 - k cases. *)
Theorem C22_negative_executions_refuted : forall k enable log e, (- 2 ^ 31 <= k < 0)%Z ->
  init_monte_carlo k enable log [] = Ok e -> total e = (2 ^ 64 + k)%Z.
Proof.
  intros k enable log e K H. injection H as <-. cbn [total set_save_log set_enable executor_new].
  unfold u64. symmetry. apply (Z.mod_unique _ _ (-1)); lia.
Qed.
Print Assumptions C22_negative_executions_refuted.
(** Each case of an enabled run has its own log file name. *)
Theorem C22_log_files_distinct : forall e e', (0 <= done e)%Z -> (0 <= done e')%Z ->
  log_file_name e = log_file_name e' -> done e = done e'.
Proof.
  intros e e' D D' H. unfold log_file_name in H. apply app_inv_head, app_inv_tail in H. now apply to_string_inj.
Qed.
Print Assumptions C22_log_files_distinct.
(** The log is saved when Monte-Carlo is disabled, or when log_enable is set. *)
Theorem C22_save_log : forall e, get_save_log e = true <-> (enabled e = false \/ save_log_history e = true).
Proof. intro e. unfold get_save_log. destruct (enabled e), (save_log_history e); cbn; intuition congruence. Qed.
Print Assumptions C22_save_log.

(** ** C23: the parameter registry *)
(** AddInitializedMonteCarloParameter with the exception caught by the caller *)
Definition add_caught (e : executor) (a : addition) : executor :=
  let '(so, ip, (mean, sigma, t)) := a in match add_parameter e so ip mean sigma t with Ok e' => e' | _ => e end.
Lemma find_add_same e so ip m s t e' : add_parameter e so ip m s t = Ok e' ->
  find (key so ip) (init_parameter_list e) = None /\
  forall k, find k (init_parameter_list e') = if str_eqb k (key so ip) then Some (mkParam m s t []) else find k (init_parameter_list e).
Proof.
  unfold add_parameter. destruct (find (key so ip) (init_parameter_list e)) eqn:F; [discriminate|]. intro H. injection H as <-.
  split; [reflexivity|]. intro k. cbn [init_parameter_list]. rewrite find_insert by exact F. reflexivity.
Qed.
(** After any history of additions to a new executor, a lookup finds exactly the first configuration added
    for that object and parameter (object names without dots, as InitMonteCarloSimulation produces them). *)
Theorem C23_registry_history : forall n (h : list addition) so ip,
  Forall (fun a => dot_free (fst (fst a))) h -> dot_free so ->
  option_map config_of (find (key so ip) (init_parameter_list (fold_left add_caught h (executor_new n)))) = first_added so ip h.
Proof.
  intros n h so ip F D.
  assert (G : forall h e, Forall (fun a => dot_free (fst (fst a))) h ->
    option_map config_of (find (key so ip) (init_parameter_list (fold_left add_caught h e))) =
    match find (key so ip) (init_parameter_list e) with Some p => Some (config_of p) | None => first_added so ip h end).
  { clear h F. induction h as [|((a, b), ((m, s), t)) h IH]; intros e F.
    - cbn. now destruct (find (key so ip) (init_parameter_list e)).
    - inversion F as [|? ? F1 F2]; subst. cbn [fst] in F1. cbn [fold_left first_added]. rewrite IH by exact F2. unfold add_caught.
      destruct (add_parameter e a b m s t) as [e'| | |] eqn:A.
      + destruct (find_add_same _ _ _ _ _ _ _ A) as (N & FA). rewrite FA.
        destruct (str_eqb_spec (key so ip) (key a b)) as [K|K].
        * destruct (key_inj _ _ _ _ D F1 K) as (-> & ->). rewrite N.
          destruct (str_eqb_spec a a); [|congruence]. destruct (str_eqb_spec b b); [|congruence]. reflexivity.
        * destruct (find (key so ip) (init_parameter_list e)); [reflexivity|].
          destruct (str_eqb_spec so a) as [->|]; cbn [andb]; [|reflexivity]. destruct (str_eqb_spec ip b) as [->|]; [congruence|reflexivity].
      + unfold add_parameter in A. destruct (find (key a b) (init_parameter_list e)) as [p|] eqn:FE; [|discriminate].
        destruct (find (key so ip) (init_parameter_list e)) eqn:FS; [reflexivity|].
        destruct (str_eqb_spec so a) as [->|]; cbn [andb]; [|reflexivity]. destruct (str_eqb_spec ip b) as [->|]; [congruence|reflexivity].
      + unfold add_parameter in A. destruct (find (key a b) (init_parameter_list e)); discriminate.
      + unfold add_parameter in A. destruct (find (key a b) (init_parameter_list e)); discriminate. }
  rewrite G by exact F. reflexivity.
Qed.
Print Assumptions C23_registry_history.
(** A second addition throws; nothing changes.  A first one succeeds. *)
Theorem C23_duplicate_throws : forall e so ip m s t,
  add_parameter e so ip m s t = Throw <-> find (key so ip) (init_parameter_list e) <> None.
Proof.
  intros e so ip m s t. unfold add_parameter. destruct (find (key so ip) (init_parameter_list e)); split; congruence.
Qed.
Print Assumptions C23_duplicate_throws.
(** refuted: without the condition on dots.  ("a.b", "c") and ("a", "b.c") are the same entry. *)
Theorem C23_names_with_dots_refuted : key (lit "a.b") (lit "c") = key (lit "a") (lit "b.c").
Proof. reflexivity. Qed.
Print Assumptions C23_names_with_dots_refuted.
(** InitMonteCarloSimulation reads "object.parameter" as that pair, and every object name it registers is
    free of dots. *)
Theorem C23_ini_names : forall so ip, dot_free so -> dot_free ip -> so <> [] -> ip <> [] -> parse_name (so ++ lit "." ++ ip) = (so, ip).
Proof.
  intros so ip D1 D2 N1 N2. unfold parse_name.
  change (so ++ lit "." ++ ip) with (join "."%char [so; ip]). rewrite getlines_join.
  - destruct so; [congruence|]. destruct ip; [congruence|]. reflexivity.
  - repeat constructor; assumption.
  - discriminate.
  - exact N2.
Qed.
Print Assumptions C23_ini_names.
Theorem C23_ini_names_dot_free : forall s, dot_free (fst (parse_name s)) /\ dot_free (snd (parse_name s)).
Proof.
  intro s. pose proof (getlines_no_delim "."%char s) as F. unfold parse_name.
  assert (G : forall l, Forall (fun f => ~ In "."%char f) l -> Forall (fun f => ~ In "."%char f) (filter (fun i : list ascii => match i with [] => false | _ :: _ => true end) l)).
  { intros l H. rewrite Forall_forall in *. intros x Hx. apply filter_In in Hx. now apply H. }
  apply G in F. set (fl := filter _ _) in F. fold fl. clearbody fl. destruct fl as [|a [|b r]].
  - split; intros [].
  - split; [|intros []]. inversion F; subst. assumption.
  - inversion F as [|? ? Fa Fb]; subst. inversion Fb; subst. split; assumption.
Qed.
Print Assumptions C23_ini_names_dot_free.

(** A variable is left unchanged when Monte-Carlo is disabled, when nothing was added for it, or when its type
    is NoRandomization -- except that a quaternion is normalized in the last case. *)
Theorem C23_unchanged : forall e so ip,
  enabled e = false \/ find (key so ip) (init_parameter_list e) = None \/
    (exists p, find (key so ip) (init_parameter_list e) = Some p /\ randomization_type p = kNoRandomization) ->
  (forall x, get_double e so ip x = Ok x) /\ (forall v, get_vector e so ip v = Ok v) /\
  (forall q, unit 4 q -> exists q', get_quaternion e so ip q = Ok q' /\ veq 4 q' q).
Proof.
  intros e so ip H. unfold get_double, get_vector, get_quaternion.
  destruct (enabled e); cbn [negb].
  - destruct H as [H|[H|(p & H & T)]]; [discriminate| |]; rewrite H.
    + split; [reflexivity|]. split; [reflexivity|]. intros q _. exists q. split; [reflexivity|]. intros i _. reflexivity.
    + unfold get_randomized_scalar, get_randomized_vector, get_randomized_quaternion. rewrite T.
      split; [reflexivity|]. split; [reflexivity|]. intros q U. exists (qnormalize q). split; [reflexivity|].
      intros i _. unfold qnormalize. cbv zeta. apply unit4 in U. rewrite !Rplus_0_l. rewrite U. rewrite req_false by lra. rewrite sqrt_1. field.
  - split; [reflexivity|]. split; [reflexivity|]. intros q _. exists q. split; [reflexivity|]. intros i _. reflexivity.
Qed.
Print Assumptions C23_unchanged.
(** refuted: for every quaternion *)
Theorem C23_quaternion_unchanged_refuted : exists e so ip p,
  enabled e = true /\ find (key so ip) (init_parameter_list e) = Some p /\ randomization_type p = kNoRandomization /\
  exists q', get_quaternion e so ip (q4 0 0 0 2) = Ok q' /\ q' 3%nat = 1.
Proof.
  exists (mkExec 2 0 true false [(key (lit "a") (lit "b"), param_new)]), (lit "a"), (lit "b"), param_new.
  split; [reflexivity|]. split; [reflexivity|]. split; [reflexivity|]. exists (qnormalize (q4 0 0 0 2)). split; [reflexivity|].
  unfold qnormalize. cbv zeta. cbv [q4]. rewrite req_false by lra. replace (0 + 0 * 0 + 0 * 0 + 0 * 0 + 2 * 2) with (2 * 2) by ring.
  rewrite sqrt_square by lra. field.
Qed.
Print Assumptions C23_quaternion_unchanged_refuted.

(** RandomizeAllParameters visits every registered parameter once, changes no configuration and no name, and
    with three-element vectors (what the ini reader passes) never throws. *)
Lemma randomize_list_spec o l : forall n l' n', randomize_list o n l = Ok (l', n') ->
  Forall2 (fun a b => fst a = fst b /\ exists k k', randomize o k (snd a) = Ok (snd b, k') /\ (n <= k)%nat) l l'.
Proof.
  induction l as [|(k, p) l IH]; intros n l' n' H.
  - injection H as <- <-. constructor.
  - cbn [randomize_list] in H. destruct (randomize o n p) as [(p', n1)| | |] eqn:R; try discriminate. cbn [bind] in H.
    destruct (randomize_list o n1 l) as [(r, n2)| | |] eqn:RL; try discriminate. cbn [bind] in H. injection H as <- <-.
    assert (M : (n <= n1)%nat).
    { revert R. unfold randomize. destruct (randomization_type p); intro R.
      - injection R as _ <-. lia.
      - destruct (cartesian (uniform_1d o) n (mean_or_min p) (sigma_or_max p)) as [(v, k')| | |] eqn:C; try discriminate. cbn [bind] in R. injection R as _ <-.
        revert C. generalize (sigma_or_max p) as ss. clear. revert n v k'. generalize (mean_or_min p) as ms.
        induction ms as [|m ms IH]; intros n v k' ss C; [cbn in C; injection C as _ <-; lia|]. destruct ss as [|s ss]; [discriminate|].
        cbn [cartesian] in C. destruct (cartesian _ (S n) ms ss) as [(v1, k1)| | |] eqn:C1; try discriminate. cbn [bind] in C. injection C as _ <-. apply IH in C1. lia.
      - destruct (cartesian (McModel.normal_1d o) n (mean_or_min p) (sigma_or_max p)) as [(v, k')| | |] eqn:C; try discriminate. cbn [bind] in R. injection R as _ <-.
        revert C. generalize (sigma_or_max p) as ss. clear. revert n v k'. generalize (mean_or_min p) as ms.
        induction ms as [|m ms IH]; intros n v k' ss C; [cbn in C; injection C as _ <-; lia|]. destruct ss as [|s ss]; [discriminate|].
        cbn [cartesian] in C. destruct (cartesian _ (S n) ms ss) as [(v1, k1)| | |] eqn:C1; try discriminate. cbn [bind] in C. injection C as _ <-. apply IH in C1. lia.
      - destruct (Nat.ltb _ 2 || Nat.ltb _ 2)%bool; [discriminate|]. injection R as _ <-. lia.
      - destruct (Nat.ltb _ 2 || Nat.ltb _ 2)%bool; [discriminate|]. injection R as _ <-. lia.
      - destruct (Nat.ltb _ 3 || Nat.ltb _ 3)%bool; [discriminate|]. injection R as _ <-. lia.
      - destruct (Nat.ltb _ 3 || Nat.ltb _ 2)%bool; [discriminate|]. injection R as _ <-. lia.
      - injection R as _ <-. lia.
      - destruct (Nat.ltb _ 1); [discriminate|]. injection R as _ <-. lia. }
    constructor.
    + cbn [fst snd]. split; [reflexivity|]. exists n, n1. split; [exact R|lia].
    + apply IH in RL. clear - RL M. induction RL as [|a b la lb (E & k1 & k2 & R1 & L1) F IHF]; constructor; [|exact IHF].
      split; [exact E|]. exists k1, k2. split; [exact R1|lia].
Qed.
Theorem C23_randomize_all : forall o n e e' n', randomize_all o n e = Ok (e', n') ->
  enabled e' = enabled e /\ total e' = total e /\ done e' = done e /\
  map fst (init_parameter_list e') = map fst (init_parameter_list e) /\
  (forall k, option_map config_of (find k (init_parameter_list e')) = option_map config_of (find k (init_parameter_list e))) /\
  (forall k p, find k (init_parameter_list e') = Some p -> List.length (randomized_value p) = value_count (config_of p)).
Proof.
  intros o n e e' n' H. unfold randomize_all in H. destruct (randomize_list o n (init_parameter_list e)) as [(l, n1)| | |] eqn:R; try discriminate.
  cbn [bind] in H. injection H as <- <-. cbn [enabled total done init_parameter_list]. apply randomize_list_spec in R.
  split; [reflexivity|]. split; [reflexivity|]. split; [reflexivity|].
  induction R as [|(ka, pa) (kb, pb) la lb (E & k1 & k2 & R1 & L1) F IH].
  - split; [reflexivity|]. split; [reflexivity|]. intros k p X. discriminate.
  - cbn [fst snd] in *. subst kb. destruct IH as (I1 & I2 & I3). destruct (randomize_spec _ _ _ _ _ R1) as (C & V).
    split; [cbn [map fst]; now rewrite I1|]. split.
    + intro k. cbn [find]. destruct (str_eqb k ka); [cbn [option_map]; now rewrite C|apply I2].
    + intros k p X. cbn [find] in X. destruct (str_eqb k ka); [injection X as <-; now rewrite V, C|now apply (I3 k p)].
Qed.
Print Assumptions C23_randomize_all.
Theorem C23_randomize_all_no_throw : forall o n e,
  (forall k p, In (k, p) (init_parameter_list e) -> List.length (mean_or_min p) = 3%nat /\ List.length (sigma_or_max p) = 3%nat) ->
  exists e' n', randomize_all o n e = Ok (e', n').
Proof.
  intros o n e H. unfold randomize_all.
  assert (G : forall l n, (forall k p, In (k, p) l -> List.length (mean_or_min p) = 3%nat /\ List.length (sigma_or_max p) = 3%nat) ->
    exists l' n', randomize_list o n l = Ok (l', n')).
  { clear. induction l as [|(k, p) l IH]; intros n H; [eexists; eexists; reflexivity|]. cbn [randomize_list].
    destruct (H k p (or_introl eq_refl)) as (L1 & L2). destruct (randomize_ok o n p L1 L2) as (p' & n1 & R). rewrite R. cbn [bind].
    destruct (IH n1) as (l' & n2 & RL); [intros k' p'' X; apply (H k' p''); now right|]. rewrite RL. cbn [bind]. eexists; eexists; reflexivity. }
  destruct (G (init_parameter_list e) n H) as (l' & n' & R). rewrite R. cbn [bind]. eexists; eexists; reflexivity.
Qed.
Print Assumptions C23_randomize_all_no_throw.
(** A registered, randomized parameter: the getters return its first values if there are enough of them for
    the destination, and throw otherwise (so also before the first RandomizeAllParameters). *)
Theorem C23_getters : forall e so ip p, enabled e = true -> find (key so ip) (init_parameter_list e) = Some p ->
  randomization_type p <> kNoRandomization ->
  (forall v, get_vector e so ip v = if Nat.leb (List.length v) (List.length (randomized_value p)) then Ok (firstn (List.length v) (randomized_value p)) else Throw) /\
  (forall x, get_double e so ip x = if Nat.leb 1 (List.length (randomized_value p)) then Ok (nth 0 (randomized_value p) 0) else Throw) /\
  (forall q, get_quaternion e so ip q = if Nat.leb 4 (List.length (randomized_value p))
     then Ok (qnormalize (q4 (nth 0 (randomized_value p) 0) (nth 1 (randomized_value p) 0) (nth 2 (randomized_value p) 0) (nth 3 (randomized_value p) 0))) else Throw).
Proof.
  intros e so ip p E F T. unfold get_vector, get_double, get_quaternion. rewrite E, F. cbn [negb].
  unfold get_randomized_vector, get_randomized_scalar, get_randomized_quaternion.
  destruct (randomization_type p); [congruence|..];
    (split; [intro v; rewrite Nat.ltb_antisym; now destruct (Nat.leb (List.length v) (List.length (randomized_value p)))|];
     split; [intro x; now destruct (randomized_value p)|]; intro q; destruct (randomized_value p) as [|a [|b [|c [|d r]]]]; reflexivity).
Qed.
Print Assumptions C23_getters.

(** The object list: after any history of constructions and destructions, in which addresses of objects alive
    at the same time differ, the list maps exactly the live objects' names to their addresses; a construction
    under a used name throws and changes nothing; SetAllParameters calls each live object exactly once. *)
Definition run_event (s : objects * list (nat * str)) (e : event) : objects * list (nat * str) :=
  (match e with
   | Construct name this => match construct (fst s) name this with Ok l => l | _ => fst s end
   | Destruct this => match List.find (fun x => Nat.eqb (fst x) this) (snd s) with
                      | Some x => destruct_object (fst s) (snd x)   (* only a constructed object is destroyed *)
                      | None => fst s
                      end
   end, live_step (snd s) e).
Definition obj_inv (l : objects) (lv : list (nat * str)) : Prop :=
  NoDup (map fst l) /\ NoDup (map fst lv) /\ NoDup (map snd lv) /\ Permutation (map (fun x => (snd x, fst x)) lv) l.
Lemma obj_step l lv e : obj_inv l lv -> match e with Construct _ this => ~ In this (map fst lv) | Destruct _ => True end ->
  obj_inv (fst (run_event (l, lv) e)) (snd (run_event (l, lv) e)).
Proof.
  intros (N1 & N2 & N3 & P) F. unfold run_event. cbn [fst snd].
  assert (IFF : forall name, find name l = None <-> existsb (fun x : nat * str => str_eqb name (snd x)) lv = false).
  { intro name. split; intro H.
    - destruct (existsb _ lv) eqn:X; [|reflexivity]. exfalso. apply existsb_exists in X. destruct X as ((a, b) & I & Q). cbn [snd] in Q.
      destruct (str_eqb_spec name b) as [->|]; [|discriminate]. apply (in_map (fun x => (snd x, fst x))) in I. cbn [fst snd] in I.
      apply (Permutation_in _ P) in I. apply (in_map fst) in I. now apply (find_none_notin b l H).
    - destruct (find name l) as [a|] eqn:X; [|reflexivity]. exfalso. apply find_some_in in X. apply (Permutation_in _ (Permutation_sym P)) in X.
      apply in_map_iff in X. destruct X as ((a', b) & Q & I). cbn [fst snd] in Q. injection Q as -> ->.
      assert (Y : existsb (fun x : nat * str => str_eqb name (snd x)) lv = true).
      { apply existsb_exists. exists (a, name). split; [exact I|]. cbn [snd]. now destruct (str_eqb_spec name name). }
      congruence. }
  destruct e as [name this|this]; cbn [live_step].
  - unfold construct. destruct (find name l) as [a|] eqn:X.
    + assert (Y : existsb (fun x : nat * str => str_eqb name (snd x)) lv = true).
      { destruct (existsb _ lv) eqn:Y; [reflexivity|]. apply IFF in Y. congruence. }
      rewrite Y. split; [exact N1|]. split; [exact N2|]. split; [exact N3|exact P].
    + rewrite (proj1 (IFF name) X). split; [now apply insert_nodup|]. split; [cbn [map fst]; constructor; assumption|]. split.
      * cbn [map snd]. constructor; [|exact N3]. intro I. apply in_map_iff in I. destruct I as ((a, b) & Q & I). cbn [snd] in Q. subst b.
        assert (Y : existsb (fun x : nat * str => str_eqb name (snd x)) lv = true).
        { apply existsb_exists. exists (a, name). split; [exact I|]. cbn [snd]. now destruct (str_eqb_spec name name). }
        rewrite (proj1 (IFF name) X) in Y. discriminate.
      * cbn [map fst snd]. rewrite (insert_in name this l). now constructor.
  - assert (ND : forall (f : nat * str -> bool) (B : Type) (g : nat * str -> B), NoDup (map g lv) -> NoDup (map g (filter f lv))).
    { clear. intros f B g. induction lv as [|x lv IH]; intro N; [constructor|]. cbn [map] in N. inversion N as [|? ? M1 M2]; subst. cbn [filter].
      destruct (f x); [|now apply IH]. cbn [map]. constructor; [|now apply IH]. intro I. apply M1. apply in_map_iff in I.
      destruct I as (y & E & I). apply filter_In in I. apply in_map_iff. exists y. tauto. }
    destruct (List.find (fun x => Nat.eqb (fst x) this) lv) as [(a, name)|] eqn:X.
    + apply find_some in X. destruct X as (I & Q). cbn [fst] in Q. apply Nat.eqb_eq in Q. subst a. cbn [snd].
      split; [now apply erase_nodup|]. split; [now apply ND|]. split; [now apply ND|].
      unfold destruct_object, erase.
      assert (E : map (fun x : nat * str => (snd x, fst x)) (filter (fun x => negb (Nat.eqb (fst x) this)) lv)
                  = filter (fun e : str * nat => negb (str_eqb name (fst e))) (map (fun x : nat * str => (snd x, fst x)) lv)).
      { clear - N2 N3 I.
        assert (K : forall y, In y lv -> Nat.eqb (fst y) this = str_eqb name (snd y)).
        { intros (b, nm) J. cbn [fst snd]. destruct (Nat.eqb_spec b this) as [->|D].
          - destruct (str_eqb_spec name nm) as [|D]; [reflexivity|]. exfalso. apply D.
            assert (G : forall l : list (nat * str), NoDup (map fst l) -> In (this, name) l -> In (this, nm) l -> name = nm).
            { clear. induction l as [|(x, y) l IH]; intros N I J; [destruct I|]. cbn [map fst] in N. inversion N as [|? ? M1 M2]; subst.
              destruct I as [I|I], J as [J|J]; try congruence.
              - injection I as -> ->. exfalso. apply M1. apply (in_map fst) in J. exact J.
              - injection J as -> ->. exfalso. apply M1. apply (in_map fst) in I. exact I.
              - now apply IH. }
            now apply (G lv).
          - destruct (str_eqb_spec name nm) as [->|]; [|reflexivity]. exfalso. apply D.
            assert (G : forall l : list (nat * str), NoDup (map snd l) -> In (this, nm) l -> In (b, nm) l -> b = this).
            { clear. induction l as [|(x, y) l IH]; intros N I J; [destruct I|]. cbn [map snd] in N. inversion N as [|? ? M1 M2]; subst.
              destruct I as [I|I], J as [J|J]; try congruence.
              - injection I as -> ->. exfalso. apply M1. apply (in_map snd) in J. exact J.
              - injection J as -> ->. exfalso. apply M1. apply (in_map snd) in I. exact I.
              - now apply IH. }
            now apply (G lv). }
        clear - K. induction lv as [|y lv IH]; [reflexivity|]. cbn [filter map fst].
        rewrite (K y (or_introl eq_refl)). destruct (str_eqb name (snd y)); cbn [negb]; [apply IH; intros; apply K; now right|].
        cbn [map]. f_equal. apply IH. intros z J. apply K. now right. }
      rewrite E. clear - P. induction P as [|x l1 l2 P IH|x y l1|l1 l2 l3 P1 IH1 P2 IH2]; cbn [filter]; try reflexivity.
      * destruct (negb _); [now constructor|exact IH].
      * destruct (negb (str_eqb name (fst x))), (negb (str_eqb name (fst y))); try reflexivity. apply perm_swap.
      * now transitivity (filter (fun e : str * nat => negb (str_eqb name (fst e))) l2).
    + assert (E : filter (fun x => negb (Nat.eqb (fst x) this)) lv = lv).
      { clear - X. induction lv as [|y lv IH]; [reflexivity|]. cbn [List.find filter] in *. destruct (Nat.eqb (fst y) this); [discriminate|]. cbn [negb]. now rewrite IH. }
      rewrite E. split; [exact N1|]. split; [exact N2|]. split; [exact N3|exact P].
Qed.
Theorem C23_object_list : forall h, fresh_from [] h ->
  let l := fst (fold_left run_event h ([], [])) in
  (forall name this, find name l = Some this <-> In (this, name) (live h)) /\
  Permutation (set_all_parameters l) (map fst (live h)) /\ NoDup (set_all_parameters l).
Proof.
  intros h F l.
  assert (G : forall h s, obj_inv (fst s) (snd s) -> fresh_from (snd s) h ->
    obj_inv (fst (fold_left run_event h s)) (snd (fold_left run_event h s)) /\ snd (fold_left run_event h s) = fold_left live_step h (snd s)).
  { clear. induction h as [|e h IH]; intros s I F; [split; [exact I|reflexivity]|]. destruct F as (F1 & F2). cbn [fold_left]. apply IH.
    - destruct s as (l, lv). now apply obj_step.
    - exact F2. }
  destruct (G h ([], [])) as ((N1 & N2 & N3 & P) & E).
  - split; [constructor|]. split; [constructor|]. split; constructor.
  - exact F.
  - cbn [snd] in E. fold (live h) in E. rewrite E in *. fold l in N1, P. split; [|split].
    + intros name this. split; intro H.
      * apply find_some_in in H. apply (Permutation_in _ (Permutation_sym P)) in H. apply in_map_iff in H.
        destruct H as ((a, b) & Q & I). cbn [fst snd] in Q. injection Q as <- <-. exact I.
      * apply in_find; [exact N1|]. apply (Permutation_in _ P). apply in_map_iff. exists (this, name). split; [reflexivity|exact H].
    + unfold set_all_parameters. rewrite <- P, map_map. reflexivity.
    + unfold set_all_parameters. apply (Permutation_NoDup (l := map fst (live h))); [|exact N2].
      rewrite <- P, map_map. reflexivity.
Qed.
Print Assumptions C23_object_list.
Theorem C23_object_duplicate_throws : forall l name this, construct l name this = Throw <-> find name l <> None.
Proof. intros l name this. unfold construct. destruct (find name l); split; congruence. Qed.
Print Assumptions C23_object_duplicate_throws.

(** ** C61: what the randomization produces *)
(** Cartesian: component i is min_i + u (max_i - min_i), in [min_i, max_i); or mean_i + z sigma_i *)
Theorem C61_cartesian_uniform : forall o n p, proper o -> randomization_type p = kCartesianUniform ->
  (List.length (mean_or_min p) <= List.length (sigma_or_max p))%nat ->
  exists p' n', randomize o n p = Ok (p', n') /\ List.length (randomized_value p') = List.length (mean_or_min p) /\
  forall i, (i < List.length (mean_or_min p))%nat ->
    let lo := nth i (mean_or_min p) 0 in let hi := nth i (sigma_or_max p) 0 in let x := nth i (randomized_value p') 0 in
    (lo < hi -> lo <= x < hi) /\ (hi < lo -> hi < x <= lo) /\ (lo = hi -> x = lo).
Proof.
  intros o n p PO T L. unfold randomize. rewrite T. destruct (cartesian_ok (uniform_1d o) (mean_or_min p) n (sigma_or_max p) L) as (r & E & LR & N).
  rewrite E. cbn [bind]. eexists. eexists. split; [reflexivity|]. cbn [randomized_value]. split; [exact LR|].
  intros i Hi. rewrite (N i Hi). set (lo := nth i (mean_or_min p) 0). set (hi := nth i (sigma_or_max p) 0). clearbody lo hi. unfold uniform_1d.
  pose proof (PO (n + i)%nat) as U. set (u := uniform o (n + i)) in *. clearbody u. split; [|split]; intro H; [nra|nra|subst; ring].
Qed.
Print Assumptions C61_cartesian_uniform.
Theorem C61_cartesian_normal : forall o n p, randomization_type p = kCartesianNormal ->
  (List.length (mean_or_min p) <= List.length (sigma_or_max p))%nat ->
  exists p' n', randomize o n p = Ok (p', n') /\ List.length (randomized_value p') = List.length (mean_or_min p) /\
  forall i, (i < List.length (mean_or_min p))%nat ->
    nth i (randomized_value p') 0 = nth i (mean_or_min p) 0 + normal o (n + i) * nth i (sigma_or_max p) 0.
Proof.
  intros o n p T L. unfold randomize. rewrite T. destruct (cartesian_ok (McModel.normal_1d o) (mean_or_min p) n (sigma_or_max p) L) as (r & E & LR & N).
  rewrite E. cbn [bind]. eexists. eexists. split; [reflexivity|]. cbn [randomized_value]. split; [exact LR|]. exact N.
Qed.
Print Assumptions C61_cartesian_normal.
(** Circular: the point at distance |r| in direction theta, r normal, theta uniform in [min, max) or normal *)
Theorem C61_circular : forall o n p, proper o ->
  randomization_type p = kCircularNormalUniform \/ randomization_type p = kCircularNormalNormal ->
  (2 <= List.length (mean_or_min p))%nat -> (2 <= List.length (sigma_or_max p))%nat ->
  exists p' n' r theta, randomize o n p = Ok (p', n') /\ randomized_value p' = [r * cos theta; r * sin theta] /\
    r = nth 0 (mean_or_min p) 0 + normal o n * nth 0 (sigma_or_max p) 0 /\
    (r * cos theta) * (r * cos theta) + (r * sin theta) * (r * sin theta) = r * r /\
    (randomization_type p = kCircularNormalUniform -> nth 1 (mean_or_min p) 0 < nth 1 (sigma_or_max p) 0 ->
       nth 1 (mean_or_min p) 0 <= theta < nth 1 (sigma_or_max p) 0) /\
    (randomization_type p = kCircularNormalUniform -> theta = nth 1 (mean_or_min p) 0 + uniform o (S n) * (nth 1 (sigma_or_max p) 0 - nth 1 (mean_or_min p) 0)) /\
    (randomization_type p = kCircularNormalNormal -> theta = nth 1 (mean_or_min p) 0 + normal o (S n) * nth 1 (sigma_or_max p) 0).
Proof.
  intros o n p PO T L1 L2. unfold randomize.
  assert (B : (Nat.ltb (List.length (mean_or_min p)) 2 || Nat.ltb (List.length (sigma_or_max p)) 2)%bool = false).
  { apply orb_false_intro; apply Nat.ltb_ge; assumption. }
  assert (Q : forall r t, (r * cos t) * (r * cos t) + (r * sin t) * (r * sin t) = r * r).
  { intros r t. pose proof (sc t) as H. transitivity (r * r * (sin t * sin t + cos t * cos t)); [ring|]. rewrite H. ring. }
  destruct T as [T|T]; rewrite T; cbv zeta; rewrite B; eexists; eexists; eexists; eexists; (split; [reflexivity|]); cbn [randomized_value]; unfold circular;
    (split; [reflexivity|]; split; [reflexivity|]; split; [apply Q|]; split; [|split]; intro C; try discriminate).
  - intro H. unfold uniform_1d. pose proof (PO (S n)) as U. set (u := uniform o (S n)) in *. clearbody u. nra.
  - reflexivity.
  - reflexivity.
Qed.
Print Assumptions C61_circular.
(** Spherical, uniform direction: distance |r|, polar angle within [theta_min, theta_max] (cos uniform), azimuth
    within [phi_min, phi_max) *)
Theorem C61_spherical_uniform : forall o n p, proper o -> randomization_type p = kSphericalNormalUniformUniform ->
  List.length (mean_or_min p) = 3%nat -> List.length (sigma_or_max p) = 3%nat ->
  let tmin := nth 1 (mean_or_min p) 0 in let tmax := nth 1 (sigma_or_max p) 0 in
  let pmin := nth 2 (mean_or_min p) 0 in let pmax := nth 2 (sigma_or_max p) 0 in
  0 <= tmin <= tmax -> tmax <= PI -> pmin < pmax ->
  exists p' n' r theta phi, randomize o n p = Ok (p', n') /\
    randomized_value p' = [r * sin theta * cos phi; r * sin theta * sin phi; r * cos theta] /\
    r = nth 0 (mean_or_min p) 0 + normal o n * nth 0 (sigma_or_max p) 0 /\
    tmin <= theta <= tmax /\ pmin <= phi < pmax /\
    cos theta = cos tmin + uniform o (S n) * (cos tmax - cos tmin) /\ phi = pmin + uniform o (S (S n)) * (pmax - pmin).
Proof.
  intros o n p PO T L1 L2 tmin tmax pmin pmax Ht Hp Hq. unfold randomize. rewrite T. cbv zeta. rewrite L1, L2. cbn [Nat.ltb Nat.leb orb].
  eexists; eexists; eexists; eexists; eexists. split; [reflexivity|]. cbn [randomized_value]. unfold calc_spherical_uniform. cbv zeta. unfold spherical.
  split; [reflexivity|]. split; [reflexivity|]. fold tmin tmax pmin pmax.
  pose proof (PO (S n)) as U. pose proof (PO (S (S n))) as U2.
  assert (C1 : cos tmax <= cos tmin) by (destruct (Req_dec tmin tmax) as [->|N]; [lra|]; left; apply cos_decreasing_1; lra).
  pose proof (COS_bound tmin) as B1. pose proof (COS_bound tmax) as B2.
  unfold uniform_1d. set (u := uniform o (S n)) in *. set (w := uniform o (S (S n))) in *. clearbody u w.
  set (c := cos tmin - (cos tmin - cos tmax) * (0 + u * (1 - 0))).
  assert (CB : cos tmax <= c <= cos tmin) by (unfold c; nra).
  assert (CC : cos (acos c) = c) by (apply cos_acos; lra). pose proof (acos_bound c) as AB.
  split; [|split; [nra|]].
  - split.
    + destruct (Rle_dec tmin (acos c)) as [|N]; [assumption|]. exfalso. assert (X : cos tmin < cos (acos c)) by (apply cos_decreasing_1; lra). lra.
    + destruct (Rle_dec (acos c) tmax) as [|N]; [assumption|]. exfalso. assert (X : cos (acos c) < cos tmax) by (apply cos_decreasing_1; lra). lra.
  - split; [rewrite CC; unfold c; ring|reflexivity].
Qed.
Print Assumptions C61_spherical_uniform.
(** Spherical around a mean vector: length |r| with r normal around the mean's length, and the angle to the mean
    vector is the normally distributed angle b: the inner product is |mean| r cos b. *)
Theorem C61_spherical_normal : forall o n p, randomization_type p = kSphericalNormalNormal ->
  (3 <= List.length (mean_or_min p))%nat -> (2 <= List.length (sigma_or_max p))%nat ->
  let m i := nth i (mean_or_min p) 0 in let s i := nth i (sigma_or_max p) 0 in
  let mean := v3 (m 0%nat) (m 1%nat) (m 2%nat) in
  (exists i, (i < 3)%nat /\ mean i <> 0) ->
  exists p' n' x y z, randomize o n p = Ok (p', n') /\ randomized_value p' = [x; y; z] /\
    let r := norm 3 mean + normal o (S (S n)) * s 0%nat in let b := normal o (S n) * s 1%nat in
    x * x + y * y + z * z = r * r /\ m 0%nat * x + m 1%nat * y + m 2%nat * z = norm 3 mean * r * cos b.
Proof.
  intros o n p T L1 L2 m s mean NZ. unfold randomize. rewrite T. cbv zeta.
  assert (B : (Nat.ltb (List.length (mean_or_min p)) 3 || Nat.ltb (List.length (sigma_or_max p)) 2)%bool = false).
  { apply orb_false_intro; apply Nat.ltb_ge; assumption. }
  rewrite B. fold (m 0%nat) (m 1%nat) (m 2%nat) (s 0%nat) (s 1%nat). fold mean.
  destruct (spherical_normal_spec o n mean (s 0%nat) (s 1%nat) NZ) as (A & C). cbv zeta in A, C.
  set (v := calc_spherical_normal o n mean (s 0%nat) (s 1%nat)) in *. clearbody v.
  exists (mkParam (mean_or_min p) (sigma_or_max p) kSphericalNormalNormal (list3 v)), (n + 3)%nat, (v 0%nat), (v 1%nat), (v 2%nat).
  split; [reflexivity|]. split; [reflexivity|].
  unfold McModel.normal_1d in A, C. rewrite Rplus_0_l in C.
  replace (norm 3 (v3 (m 0%nat) (m 1%nat) (m 2%nat))) with (norm 3 mean) by reflexivity.
  unfold dot in A, C. rewrite sumn3 in A, C. split; [exact A|]. rewrite <- C. unfold mean. cbv [v3]. ring.
Qed.
Print Assumptions C61_spherical_normal.
(** Quaternions: always of unit length, so GetRandomizedQuaternion's normalization changes nothing; the normal
    kind is a rotation by the normally distributed angle about a unit axis. *)
Theorem C61_quaternion_normal : forall o n sigma,
  exists axis, unit 3 axis /\ let q := calc_quaternion_normal o n sigma in
    unit 4 q /\ q = q_axis_angle axis (0 + normal o (S (S n)) * sigma) /\
    forall v, veq 3 (inverse_frame_conversion q v) (rodrigues axis (0 + normal o (S (S n)) * sigma) v).
Proof.
  intros o n sigma. exists (sphere_direction o n). pose proof (sphere_unit o n) as U. split; [exact U|]. cbv zeta.
  split; [now apply axis_angle_unit|]. split; [reflexivity|]. intro v. now apply axis_angle_rodrigues.
Qed.
Print Assumptions C61_quaternion_normal.
Lemma first_unit v : unit 3 v -> unit 4 (first_conversion v).
Proof. intro U. apply unit3 in U. unfold unit, first_conversion. cbv zeta. qunf. lra. Qed.
Theorem C61_quaternion_uniform_unit : forall o n, unit 4 (calc_quaternion_uniform o n).
Proof.
  intros o n. unfold calc_quaternion_uniform. cbv zeta. unfold unit. rewrite qmul_norm.
  rewrite (first_unit _ (sphere_unit o n)). rewrite (axis_angle_unit (v3 1 0 0)); [ring|]. unfold unit. qunf. ring.
Qed.
Print Assumptions C61_quaternion_uniform_unit.
(** refuted: QuaternionUniform first turns the x axis onto a uniformly distributed direction v.  The half angle
    is missing in first_cnv: the x axis is turned by twice the angle to v, to the mirror image 2 (x.v) v - x.
    In particular no draw turns x into -x through v = -x: both v = x and v = -x leave x where it is. *)
Theorem C61_first_conversion_is_double_angle : forall v, unit 3 v ->
  veq 3 (inverse_frame_conversion (first_conversion v) (v3 1 0 0)) (vsub (vscal (2 * v 0%nat) v) (v3 1 0 0)).
Proof.
  intros v U i Hi. apply unit3 in U. unfold first_conversion. cbv zeta. i3 i Hi; qunf; unfold vsub, vscal; [|ring|ring].
  replace (v 0%nat * v 0%nat) with (1 - v 1%nat * v 1%nat - v 2%nat * v 2%nat) by lra. cbn [v3]. nra.
Qed.
Print Assumptions C61_first_conversion_is_double_angle.
Theorem C61_quaternion_uniform_direction_refuted : exists v, unit 3 v /\
  ~ veq 3 (inverse_frame_conversion (first_conversion v) (v3 1 0 0)) v /\ ~ veq 3 (frame_conversion (first_conversion v) (v3 1 0 0)) v.
Proof.
  exists (v3 (-1) 0 0). split; [unfold unit; qunf; ring|]. unfold first_conversion. cbv zeta.
  split; intro H; specialize (H 0%nat ltac:(lia)); revert H; qunf; lra.
Qed.
Print Assumptions C61_quaternion_uniform_direction_refuted.

(** the axis of the normal kind and the direction of the uniform kind are uniform on the sphere: the first two draws are height and longitude; the
    third draw is the angle.  The values kept are the four components. *)
Lemma direction_on_sphere o n : proper o -> veq 3 (sphere_direction o n) (on_sphere (uniform o n) (uniform o (S n))).
Proof.
  intros P i Hi. pose proof (P n) as U. unfold sphere_direction, on_sphere, uniform_1d, tau. cbv zeta. set (u := uniform o n) in *. set (v := uniform o (S n)).
  replace (1 - (1 - -1) * (0 + u * (1 - 0))) with (1 - 2 * u) by ring. replace (0 + v * (2 * PI - 0)) with (2 * PI * v) by ring.
  rewrite sin_acos, cos_acos by lra. unfold Rsqr. i3 i Hi; reflexivity.
Qed.
Theorem C61_quaternion_values : forall o n p, proper o -> let d := on_sphere (uniform o n) (uniform o (S n)) in
  (randomization_type p = kQuaternionUniform -> exists p' q, randomize o n p = Ok (p', (n + 3)%nat) /\ randomized_value p' = [q 0%nat; q 1%nat; q 2%nat; q 3%nat] /\
     let a := 2 * PI * uniform o (S (S n)) in veq 4 q (qmul (q4 0 (- d 2%nat) (d 1%nat) (d 0%nat)) (q4 (sin (a / 2)) 0 0 (cos (a / 2))))) /\
  (randomization_type p = kQuaternionNormal -> (1 <= List.length (sigma_or_max p))%nat ->
     exists p' q, randomize o n p = Ok (p', (n + 3)%nat) /\ randomized_value p' = [q 0%nat; q 1%nat; q 2%nat; q 3%nat] /\
     let a := normal o (S (S n)) * nth 0 (sigma_or_max p) 0 in veq 4 q (q4 (sin (a / 2) * d 0%nat) (sin (a / 2) * d 1%nat) (sin (a / 2) * d 2%nat) (cos (a / 2)))).
Proof.
  intros o n p P d. pose proof (direction_on_sphere o n P) as D. fold d in D. pose proof (D 0%nat ltac:(lia)) as D0. pose proof (D 1%nat ltac:(lia)) as D1. pose proof (D 2%nat ltac:(lia)) as D2. clearbody d. split.
  - intros T. exists (mkParam (mean_or_min p) (sigma_or_max p) kQuaternionUniform (list4 (calc_quaternion_uniform o n))), (calc_quaternion_uniform o n). unfold randomize. rewrite T. split; [reflexivity|]. split; [reflexivity|].
    unfold calc_quaternion_uniform, first_conversion, uniform_1d, tau. cbv zeta. set (v := sphere_direction o n) in *. clearbody v.
    intros i Hi. replace ((0 + uniform o (S (S n)) * (2 * PI - 0))) with (2 * PI * uniform o (S (S n))) by ring. set (a := 2 * PI * uniform o (S (S n))).
    unfold q_axis_angle. cbv zeta. replace (a * (1 / 2)) with (a / 2) by field. destruct i as [|[|[|[|i]]]]; [| | | |lia]; qunf; rewrite ?D0, ?D1, ?D2; ring.
  - intros T L. exists (mkParam (mean_or_min p) (sigma_or_max p) kQuaternionNormal (list4 (calc_quaternion_normal o n (nth 0 (sigma_or_max p) 0)))), (calc_quaternion_normal o n (nth 0 (sigma_or_max p) 0)).
    unfold randomize. rewrite T. cbv zeta. replace (Nat.ltb (List.length (sigma_or_max p)) 1) with false by (symmetry; apply Nat.ltb_ge; exact L). split; [reflexivity|]. split; [reflexivity|].
    unfold calc_quaternion_normal, McModel.normal_1d, q_axis_angle. cbv zeta. set (v := sphere_direction o n) in *. clearbody v. intros i Hi.
    set (s := nth 0 (sigma_or_max p) 0). set (x := normal o (S (S n))). replace ((0 + x * s) * (1 / 2)) with (x * s / 2) by field.
    destruct i as [|[|[|[|i]]]]; [| | | |lia]; qunf; rewrite ?D0, ?D1, ?D2; ring.
Qed.
Print Assumptions C61_quaternion_values.
(** the deviation from the mean vector is in a direction uniform around it: a full turn, by the first draw, from a perpendicular vector that
    depends on the mean only *)
Theorem C61_spherical_normal_azimuth : forall mean : vec, (exists i, (i < 3)%nat /\ mean i <> 0) ->
  let d := vscal (1 / norm 3 mean) mean in
  exists u v, unit 3 u /\ unit 3 v /\ dot 3 d u = 0 /\ dot 3 d v = 0 /\ dot 3 u v = 0 /\
  forall o n s0 s1, let phi := 2 * PI * uniform o n in let b := normal o (S n) * s1 in let r := norm 3 mean + normal o (S (S n)) * s0 in
    veq 3 (calc_spherical_normal o n mean s0 s1)
          (fun i => r * (cos b * d i + sin b * (cos phi * u i + sin phi * v i))).
Proof.
  intros mean NZ d. pose proof (nonzero_norm mean NZ) as P. assert (Ud : unit 3 d) by (apply normalized_unit; exact P).
  destruct (start_perp d Ud) as (Un & Dn). cbv zeta in Un, Dn.
  set (nu := if rlt (norm 3 (cross d (v3 0 1 0))) (norm 3 (cross d (v3 1 0 0))) then normalize 3 (cross d (v3 1 0 0)) else normalize 3 (cross d (v3 0 1 0))) in *.
  exists (cross nu d), nu.
  assert (U1 : d 0%nat * d 0%nat + d 1%nat * d 1%nat + d 2%nat * d 2%nat = 1) by (apply unit3 in Ud; lra).
  assert (U2 : nu 0%nat * nu 0%nat + nu 1%nat * nu 1%nat + nu 2%nat * nu 2%nat = 1) by (apply unit3 in Un; lra).
  assert (U3 : d 0%nat * nu 0%nat + d 1%nat * nu 1%nat + d 2%nat * nu 2%nat = 0) by (revert Dn; qunf; lra).
  split; [|split; [exact Un|split; [|split; [exact Dn|split]]]].
  - unfold unit. qunf. set (a := d 0%nat) in *. set (b := d 1%nat) in *. set (c := d 2%nat) in *. set (x := nu 0%nat) in *. set (y := nu 1%nat) in *. set (z := nu 2%nat) in *.
    transitivity ((a * a + b * b + c * c) * (x * x + y * y + z * z) - (a * x + b * y + c * z) * (a * x + b * y + c * z)); [ring|]. rewrite U1, U2, U3. ring.
  - qunf. ring.
  - qunf. ring.
  - intros o n s0 s1 phi b r. unfold calc_spherical_normal. cbv zeta. fold d. fold nu.
    set (a := uniform_1d o n 0 tau). assert (AP : a = phi) by (unfold a, phi, uniform_1d, tau; ring). clearbody a. subst a.
    set (axis := frame_conversion (q_axis_angle d (- phi)) nu).
    assert (EA : veq 3 axis (rodrigues d phi nu)) by (apply turn; exact Ud).
    destruct (rodrigues_unit_dot d phi nu Ud Un Dn) as (Ua & _ & Da). cbv zeta in Ua, Da.
    assert (Uax : unit 3 axis) by (apply (unit_ext _ _ EA Ua)).
    replace (McModel.normal_1d o (S n) 0 s1) with b by (unfold McModel.normal_1d, b; ring).
    change (McModel.normal_1d o (S (S n)) (norm 3 mean) s0) with r.
    set (ret := frame_conversion (q_axis_angle axis (- b)) d). assert (ER : veq 3 ret (rodrigues axis b d)) by (apply turn; exact Uax).
    assert (Dax : dot 3 axis d = 0).
    { rewrite (dot_ext 3 axis (rodrigues d phi nu) d d EA (fun i _ => eq_refl)).
      transitivity (dot 3 d (rodrigues d phi nu)); [unfold dot; apply sumn_ext; intros; ring|exact Da]. }
    intros i Hi. unfold vscal at 1. f_equal. rewrite (ER i Hi). unfold rodrigues at 1. unfold vadd, vscal. rewrite Dax.
    assert (CX : cross axis d i = cos phi * cross nu d i + sin phi * nu i).
    { pose proof (EA 0%nat ltac:(lia)) as A0. pose proof (EA 1%nat ltac:(lia)) as A1. pose proof (EA 2%nat ltac:(lia)) as A2. unfold rodrigues, vadd, vscal in A0, A1, A2. rewrite Dn in A0, A1, A2.
      clearbody ret axis. clear ER EA. revert A0 A1 A2. i3 i Hi; qunf; intros A0 A1 A2; rewrite ?A0, ?A1, ?A2; clear A0 A1 A2; generalize (sin phi), (cos phi); intros sp cp; clear - U1 U3;
        set (a0 := d 0%nat) in *; set (a1 := d 1%nat) in *; set (a2 := d 2%nat) in *; set (x := nu 0%nat) in *; set (y := nu 1%nat) in *; set (z := nu 2%nat) in *; clearbody a0 a1 a2 x y z.
      - transitivity (cp * (y * a2 - z * a1) + sp * (x * (a0 * a0 + a1 * a1 + a2 * a2) - a0 * (a0 * x + a1 * y + a2 * z))); [ring|rewrite U1, U3; ring].
      - transitivity (cp * (z * a0 - x * a2) + sp * (y * (a0 * a0 + a1 * a1 + a2 * a2) - a1 * (a0 * x + a1 * y + a2 * z))); [ring|rewrite U1, U3; ring].
      - transitivity (cp * (x * a1 - y * a0) + sp * (z * (a0 * a0 + a1 * a1 + a2 * a2) - a2 * (a0 * x + a1 * y + a2 * z))); [ring|rewrite U1, U3; ring]. }
    rewrite CX. ring.
Qed.
Print Assumptions C61_spherical_normal_azimuth.
(** the parameters are kept, and randomized, in the order of their names, whatever the order of the additions *)
Lemma ltb_before a : forall b, if str_ltb a b then before a b else a = b \/ before b a.
Proof.
  induction a as [|x a IH]; intros [|y b]; cbn [str_ltb]; [now left|constructor|right; constructor|].
  destruct (Z.ltb_spec (code x) (code y)) as [L|L]; cbn [orb]; [now constructor|]. destruct (Z.eqb_spec (code x) (code y)) as [E|E]; cbn [andb].
  - assert (x = y) by (rewrite <- (ascii_nat_embedding x), <- (ascii_nat_embedding y); f_equal; unfold code in E; lia). subst y. specialize (IH b). destruct (str_ltb a b); [now apply before_rest|]. destruct IH as [->|H]; [now left|right; now apply before_rest].
  - right. apply before_char. lia.
Qed.
Lemma before_trans a : forall b c, before a b -> before b c -> before a c.
Proof.
  induction a as [|x a IH]; intros b c H K.
  - inversion H; subst; inversion K; subst; constructor.
  - inversion H as [|? y ? b' L|? ? b' L]; subst; inversion K as [|? z ? c' M|? ? c' M]; subst.
    + apply before_char. lia. + now apply before_char. + now apply before_char. + apply before_rest. eapply IH; eassumption.
Qed.
Theorem C23_name_order : forall n (h : list addition),
  StronglySorted before (map fst (init_parameter_list (fold_left add_caught h (executor_new n)))).
Proof.
  intros n h. assert (G : forall h e, StronglySorted before (map fst (init_parameter_list e)) -> StronglySorted before (map fst (init_parameter_list (fold_left add_caught h e)))).
  { clear h. induction h as [|((a, b), ((m, s), t)) h IH]; intros e SO; [exact SO|]. cbn [fold_left]. apply IH. unfold add_caught, add_parameter.
    destruct (find (key a b) (init_parameter_list e)) eqn:F; [exact SO|]. cbn [init_parameter_list]. revert F SO. generalize (key a b) as k, (set_random_configuration param_new m s t) as v. generalize (init_parameter_list e) as l.
    clear. intros l k v. induction l as [|(j, x) l IH]; intros F SO; cbn [find insert map fst] in *; [repeat constructor|].
    destruct (str_eqb_spec k j) as [->|N]; [discriminate|]. pose proof (ltb_before k j) as B. destruct (str_ltb k j).
    - constructor; [exact SO|]. constructor; [exact B|]. inversion SO as [|? ? _ FA]; subst. eapply Forall_impl; [|exact FA]. intros c. now apply before_trans.
    - destruct B as [B|B]; [congruence|]. inversion SO as [|? ? SO' FA]; subst. cbn [map fst]. constructor; [now apply IH|].
      assert (X : forall l, Forall (before j) (map fst l) -> Forall (before j) (map fst (insert k v l))).
      { clear - B. induction l as [|(i, y) l IH]; intros FA; cbn [insert map fst] in *; [repeat constructor; exact B|]. inversion FA; subst. destruct (str_ltb k i); cbn [map fst]; constructor; auto. }
      now apply X. }
  apply G. constructor.
Qed.
Print Assumptions C23_name_order.

(** examples *)
Definition ex_oracle : oracle := mkOracle (fun _ => 1 / 2) (fun _ => 1).
Example ex_proper : proper ex_oracle.
Proof. intro n. cbn. lra. Qed.
Example ex_cases : cases 5 (set_enable (executor_new 3) true) = Ok ([0; 1; 2]%Z, mkExec 3 3 true false []).
Proof. reflexivity. Qed.
Example ex_ini : exists e, init_monte_carlo 3 true false [mkEntry (lit "ATT0.omega_b") (lit "CartesianUniform") [1; 2; 3] [2; 3; 4]] = Ok e /\
  enabled e = true /\ find (key (lit "ATT0") (lit "omega_b")) (init_parameter_list e) = Some (mkParam [1; 2; 3] [2; 3; 4] kCartesianUniform []).
Proof. eexists. split; [reflexivity|]. split; reflexivity. Qed.
Example ex_history : fresh_from [] [Construct (lit "a") 1%nat; Construct (lit "b") 2%nat; Construct (lit "a") 3%nat; Destruct 1%nat; Construct (lit "a") 3%nat] /\
  live [Construct (lit "a") 1%nat; Construct (lit "b") 2%nat; Construct (lit "a") 3%nat; Destruct 1%nat; Construct (lit "a") 3%nat] = [(3%nat, lit "a"); (2%nat, lit "b")].
Proof. split; [|reflexivity]. cbn. repeat split; intuition discriminate. Qed.
