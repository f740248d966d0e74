From Coq Require Import Reals List Lra.
From Verif Require Import Base PowerPortModel.
Import ListNotations.
Open Scope R_scope.

Lemma eps_pos : 0 < DBL_EPSILON.
Proof. unfold DBL_EPSILON. apply Rinv_0_lt_compat. apply pow_lt. lra. Qed.

(** off means no current: holds in every state reachable from every constructor *)
Definition off_no_current (s : port) := is_on s = Some false -> current_A s = 0.

Lemma update_off s : off_no_current (fst (update s)).
Proof.
  unfold off_no_current, update.
  destruct (Rgeb (voltage_V s) _); cbn [current_A limit_A min_V power_W];
  destruct (Rgeb _ _); cbn [fst is_on current_A]; try reflexivity; discriminate.
Qed.

Lemma pstep_off s o : off_no_current s -> off_no_current (pstep s o).
Proof.
  intros H. destruct o; cbn [pstep]; unfold set_voltage;
  try apply update_off; exact H.
Qed.

Lemma prun_off ops : forall s, off_no_current s -> off_no_current (prun s ops).
Proof.
  induction ops as [|o os IH]; intros s H; [exact H|]. cbn. apply IH. now apply pstep_off.
Qed.

(** Exact outcome of applying a voltage. *)
Lemma set_voltage_char s v : DBL_EPSILON < min_V s -> DBL_EPSILON < limit_A s ->
  let s' := fst (set_voltage s v) in
  (is_on s' = Some (snd (set_voltage s v))) /\
  limit_A s' = limit_A s /\ min_V s' = min_V s /\ power_W s' = power_W s /\
  (snd (set_voltage s v) = true <->
     min_V s - DBL_EPSILON <= v /\ power_W s / v < limit_A s - DBL_EPSILON) /\
  (snd (set_voltage s v) = true ->
     voltage_V s' = v /\ current_A s' * voltage_V s' = power_W s /\
     current_A s' < limit_A s - DBL_EPSILON) /\
  (snd (set_voltage s v) = false ->
     current_A s' = 0 /\
     voltage_V s' = if Rle_dec (min_V s - DBL_EPSILON) v then 0 else v).
Proof.
  intros Hm Hl. pose proof eps_pos as He.
  unfold set_voltage, update, Rgeb. cbn [voltage_V min_V limit_A power_W current_A is_on].
  destruct (Rle_dec (min_V s - DBL_EPSILON) v) as [Hv|Hv];
  cbn [current_A limit_A min_V power_W voltage_V is_on].
  - destruct (Rle_dec (limit_A s - DBL_EPSILON) (power_W s / v)) as [Hc|Hc];
    cbn [fst snd is_on current_A limit_A min_V power_W voltage_V];
    repeat split; try reflexivity; try discriminate; try lra; try assumption;
    match goal with |- _ * _ = _ => field; lra end.
  - destruct (Rle_dec (limit_A s - DBL_EPSILON) 0) as [Hc|Hc]; [lra|].
    cbn [fst snd is_on current_A limit_A min_V power_W voltage_V].
    repeat split; try reflexivity; try discriminate; try lra.
Qed.

(** Over-current latches: from a tripped state nothing but SetVoltage, or lowering the
    minimum voltage, can turn the port on again. *)
Definition latched (s : port) := voltage_V s = 0 /\ is_on s = Some false /\ current_A s = 0 /\ DBL_EPSILON < min_V s.

Definition keeps_latch (o : pop) : Prop :=
  match o with
  | SetVoltage _ => False
  | SetMinV m => DBL_EPSILON < m
  | _ => True
  end.

Lemma latched_step s o : latched s -> keeps_latch o -> latched (pstep s o).
Proof.
  intros (Hv & Ho & Hc & Hm) Hk. destruct o; cbn [pstep keeps_latch] in *; try contradiction;
  try (now repeat split).
  unfold update, Rgeb. rewrite Hv.
  destruct (Rle_dec (min_V s - DBL_EPSILON) 0) as [X|X]; [lra|].
  cbn [current_A limit_A min_V power_W voltage_V].
  destruct (Rle_dec (limit_A s - DBL_EPSILON) 0); cbn [fst]; repeat split; assumption.
Qed.

Lemma latched_run ops : forall s, latched s -> Forall keeps_latch ops -> latched (prun s ops).
Proof.
  induction ops as [|o os IH]; intros s H HF; [exact H|]. inversion HF; subst. cbn.
  apply IH; [|assumption]. now apply latched_step.
Qed.

Lemma overcurrent_latches s v ops :
  DBL_EPSILON < min_V s -> DBL_EPSILON < limit_A s ->
  min_V s - DBL_EPSILON <= v -> limit_A s - DBL_EPSILON <= power_W s / v ->
  Forall keeps_latch ops ->
  let s' := prun s (SetVoltage v :: ops) in
  is_on s' = Some false /\ voltage_V s' = 0 /\ current_A s' = 0.
Proof.
  intros Hm Hl Hv Hc HF s'.
  assert (L : latched (pstep s (SetVoltage v))).
  { cbn [pstep]. destruct (set_voltage_char s v Hm Hl) as (H1 & _ & H2 & _ & H3 & _ & H4).
    destruct (snd (set_voltage s v)) eqn:E.
    - destruct (proj1 H3 eq_refl). lra.
    - destruct (H4 eq_refl) as [H5 H6]. destruct (Rle_dec (min_V s - DBL_EPSILON) v); [|lra].
      repeat split; try assumption. now rewrite H2. }
  pose proof (latched_run ops _ L HF) as (A & B & C & _). unfold s'. cbn. auto.
Qed.

Lemma subtract_nonneg s p : 0 <= power_W (subtract_power s p).
Proof. unfold subtract_power, set_power; cbn. unfold Rltb. destruct (Rlt_dec (power_W s - p) 0); lra. Qed.

Lemma subtract_exact s p : p <= power_W s -> power_W (subtract_power s p) = power_W s - p.
Proof. intros H. unfold subtract_power, set_power; cbn. unfold Rltb. destruct (Rlt_dec (power_W s - p) 0); lra. Qed.

(** power consumption stays non-negative over histories with non-negative arguments *)
Definition nonneg_args (o : pop) : Prop :=
  match o with SetPower p | AddPower p => 0 <= p | _ => True end.

Lemma pstep_power_nonneg s o : 0 <= power_W s -> nonneg_args o -> 0 <= power_W (pstep s o).
Proof.
  intros H Hn. destruct o; cbn [pstep nonneg_args] in *; try exact H; try assumption.
  - unfold set_voltage, update; cbn [voltage_V min_V]. destruct (Rgeb _ _); cbn [current_A limit_A]; destruct (Rgeb _ _); exact H.
  - unfold update. destruct (Rgeb _ _); cbn [current_A limit_A]; destruct (Rgeb _ _); exact H.
  - cbn. lra.
  - apply subtract_nonneg.
Qed.

Lemma prun_power_nonneg ops : forall s, 0 <= power_W s -> Forall nonneg_args ops -> 0 <= power_W (prun s ops).
Proof.
  induction ops as [|o os IH]; intros s H HF; [exact H|]. inversion HF; subst. cbn.
  apply IH; [|assumption]. now apply pstep_power_nonneg.
Qed.

(** the switch state is defined once a voltage was applied (or Update called) *)
Definition is_update (o : pop) := match o with SetVoltage _ | Update => True | _ => False end.

Lemma update_defined s : exists b, is_on (fst (update s)) = Some b.
Proof.
  unfold update. destruct (Rgeb _ _); cbn [current_A limit_A]; destruct (Rgeb _ _); cbn; eauto.
Qed.
Lemma pstep_defined s o b : is_on s = Some b -> exists b', is_on (pstep s o) = Some b'.
Proof.
  intros H. destruct o; cbn [pstep]; unfold set_voltage; try apply update_defined; exists b; exact H.
Qed.
Lemma prun_defined ops : forall s, (exists b, is_on s = Some b) \/ Exists is_update ops ->
  exists b, is_on (prun s ops) = Some b.
Proof.
  induction ops as [|o os IH]; intros s [[b H]|H].
  - exists b. exact H.
  - inversion H.
  - cbn. apply IH. left. now apply pstep_defined with (b := b).
  - cbn. apply IH. inversion H; subst.
    + left. destruct o; cbn [pstep is_update] in *; unfold set_voltage; try contradiction; apply update_defined.
    + now right.
Qed.

Lemma is_on_uninit limit minv p ops : ~ Exists is_update ops ->
  get_is_on (prun (port_full limit minv p) ops) = UB.
Proof.
  intros H. unfold get_is_on.
  assert (E : is_on (prun (port_full limit minv p) ops) = None).
  { assert (G : forall s, is_on s = None -> is_on (prun s ops) = None).
    { clear limit minv p. induction ops as [|o os IH]; intros s Hs; [exact Hs|]. cbn. apply IH.
      - intros X. apply H. now right.
      - destruct o; cbn [pstep]; try exact Hs; exfalso; apply H; left; exact I. }
    now apply G. }
  now rewrite E.
Qed.
