From Coq Require Import Reals Lra Lia List Bool ZArith.
From Verif Require Import Base RBase VecModel SensorModel SensorProofs ThermalModel ThermalSpec.
Import ListNotations.
Open Scope R_scope.

(** * heater *)
Lemma control_run_app c h l1 l2 : control_run c h (l1 ++ l2) = control_run c (control_run c h l1) l2.
Proof. unfold control_run. apply fold_left_app. Qed.

Lemma control_inv c h t : output h = (if is_on h then rating h else 0) ->
  let h' := control c h t in output h' = (if is_on h' then rating h' else 0) /\ rating h' = rating h.
Proof.
  intros H. unfold control, set_status. destruct (is_on h) eqn:E.
  - destruct (rlt (upper c) t); cbn; [auto|]. rewrite E. auto.
  - destruct (rlt t (lower c)); cbn; [auto|]. rewrite E. auto.
Qed.
Lemma control_run_inv c temps : forall h, output h = (if is_on h then rating h else 0) ->
  let h' := control_run c h temps in output h' = (if is_on h' then rating h' else 0) /\ rating h' = rating h.
Proof.
  induction temps as [|t l IH]; intros h H; [cbn; auto|].
  destruct (control_inv c h t H) as [A B]. destruct (IH _ A) as [C D].
  cbn. cbn in C, D. split; [exact C|]. unfold control_run in D. now rewrite D.
Qed.
Lemma stays_on c temps : forall h, is_on h = true -> Forall (fun x => x <= upper c) temps ->
  is_on (control_run c h temps) = true.
Proof.
  induction temps as [|t l IH]; intros h H F; [exact H|].
  inversion F as [|? ? A B]; subst. cbn. apply IH; [|exact B].
  unfold control. rewrite H, rlt_false by lra. exact H.
Qed.
Lemma control_run_spec c temps : lower c <= upper c -> forall p,
  is_on (control_run c (heater_new p) temps) = true <-> should_heat (lower c) (upper c) temps.
Proof.
  intros L p. split.
  - induction temps as [|t l IH] using rev_ind; intros H; [discriminate H|].
    rewrite control_run_app in H. cbn in H. unfold control in H.
    change (fold_left (control c) l (heater_new p)) with (control_run c (heater_new p) l) in H.
    destruct (is_on (control_run c (heater_new p) l)) eqn:E.
    + destruct (rlt_spec (upper c) t) as [G|G]; [discriminate H|].
      destruct (IH eq_refl) as (a & x & b & E1 & E2 & E3). exists a, x, (b ++ [t]).
      split; [rewrite E1, <- app_assoc; reflexivity|]. split; [exact E2|].
      apply Forall_app. split; [exact E3|]. constructor; [lra|constructor].
    + destruct (rlt_spec t (lower c)) as [G|G]; [|rewrite E in H; discriminate H].
      exists l, t, []. split; [reflexivity|]. split; [exact G|constructor].
  - intros (a & t & b & -> & E2 & E3).
    change (t :: b) with ([t] ++ b). rewrite app_assoc, control_run_app. apply stays_on; [|exact E3].
    rewrite control_run_app. cbn. unfold control.
    change (fold_left (control c) a (heater_new p)) with (control_run c (heater_new p) a).
    destruct (is_on (control_run c (heater_new p) a)) eqn:E.
    + rewrite rlt_false by lra. exact E.
    + rewrite rlt_true by lra. reflexivity.
Qed.
Lemma controller_new_ordered lo up : lower (controller_new lo up) <= upper (controller_new lo up).
Proof. unfold controller_new. cbn. destruct (rlt_spec up lo); lra. Qed.

(** * heat load *)
Lemma trunc_nonneg x : 0 <= x -> IZR (trunc x) <= x < IZR (trunc x) + 1.
Proof.
  intros H. unfold trunc. rewrite rle_true by exact H.
  destruct (base_Int_part x) as [A B]. lra.
Qed.
Lemma fmod_spec x p : 0 <= x -> 0 < p -> exists r, fmod x p = Some r /\ time_in_period p x r.
Proof.
  intros Hx Hp. unfold fmod. rewrite req_false by lra. eexists. split; [reflexivity|].
  exists (trunc (x / p)). 
  assert (D : 0 <= x / p) by (unfold Rdiv; apply Rmult_le_pos; [lra|left; apply Rinv_0_lt_compat; lra]).
  destruct (trunc_nonneg _ D) as [A B].
  assert (E : x / p * p = x) by (field; lra).
  assert (A' := Rmult_le_compat_r p _ _ (Rlt_le _ _ Hp) A).
  assert (B' := Rmult_lt_compat_r p _ _ Hp B).
  rewrite E in A', B'. split; [ring|]. split; lra.
Qed.
Lemma time_in_period_unique p t r r' : time_in_period p t r -> time_in_period p t r' -> r = r'.
Proof.
  intros (k & E & B) (k' & E' & B').
  assert (Hk : k = k'); [|subst; lra].
  assert (P : 0 < p) by lra.
  assert (IZR (k - k') * p < 1 * p /\ - 1 * p < IZR (k - k') * p) as [U V].
  { rewrite minus_IZR. split; lra. }
  apply Rmult_lt_reg_r in U; [|exact P]. apply Rmult_lt_reg_r in V; [|exact P].
  apply lt_IZR in U. replace (-1) with (IZR (-1)) in V by (cbn; lra). apply lt_IZR in V. lia.
Qed.

Lemma nth_error_nth_R (l : list R) i : (i < length l)%nat -> nth_error l i = Some (nth i l 0).
Proof. intros H. now apply nth_error_nth'. Qed.

(** the loop stops at the first index at or after the current one whose upper end is not exceeded *)
Lemma index_loop_spec ts r : forall fuel i,
  (S i < length ts)%nat -> (length ts <= fuel + i)%nat -> r <= nth (length ts - 1) ts 0 ->
  exists j, index_loop fuel ts (Some r) i = Ok j /\ (i <= j)%nat /\ (S j < length ts)%nat /\
    r <= nth (S j) ts 0 /\ (forall m, (i <= m < j)%nat -> nth (S m) ts 0 < r).
Proof.
  induction fuel as [|f IH]; intros i Hi Hf Hr; [lia|].
  cbn [index_loop]. rewrite nth_error_nth_R by lia.
  destruct (rlt_spec (nth (S i) ts 0) r) as [L|L].
  - assert (NE : S i <> (length ts - 1)%nat) by (intros E; rewrite E in L; lra).
    replace (Nat.ltb (length ts - 1) (S i)) with false by (symmetry; apply Nat.ltb_ge; lia).
    destruct (IH (S i)) as (j & E & A & B & C & D); [lia|lia|exact Hr|].
    exists j. split; [exact E|]. split; [lia|]. split; [exact B|]. split; [exact C|].
    intros m Hm. destruct (Nat.eq_dec m i) as [->|N]; [exact L|]. apply D. lia.
  - exists i. split; [reflexivity|]. split; [lia|]. split; [lia|]. split; [lra|]. intros m Hm. lia.
Qed.

Lemma last_nth (l : list R) : last l 0 = nth (length l - 1) l 0.
Proof.
  induction l as [|a [|b l] IH]; [reflexivity|reflexivity|].
  change (last (a :: b :: l) 0) with (last (b :: l) 0). rewrite IH.
  cbn [length]. replace (S (S (length l)) - 1)%nat with (S (S (length l) - 1)) by lia. reflexivity.
Qed.
Definition period_of (ts : list R) : R := nth (length ts - 1) ts 0.
Lemma period_pos ts ws : profile ts ws -> 0 < period_of ts.
Proof. intros (L & _ & Z & I). unfold period_of. rewrite <- Z at 1. apply I. lia. Qed.

(** invariant of a history of calls: the index is the first segment not yet overrun by any residual *)
Definition index_inv (ts : list R) (i : nat) (seen : list R) : Prop :=
  (S i < length ts)%nat /\ Forall (fun r => r <= nth (S i) ts 0) seen /\
  (i = 0%nat \/ Exists (fun r => nth i ts 0 < r) seen).

Lemma set_elapsed_spec h seen t : profile (times h) (watts h) -> index_inv (times h) (idx h) seen -> 0 <= t ->
  exists h' r, set_elapsed h t = Ok h' /\ times h' = times h /\ watts h' = watts h /\
    time_in_period (period_of (times h)) t r /\ residual h' = Some r /\
    index_inv (times h) (idx h') (seen ++ [r]).
Proof.
  intros P (I1 & I2 & I3) Ht. unfold set_elapsed. rewrite last_nth.
  destruct (fmod_spec t _ Ht (period_pos _ _ P)) as (r & E & (k & K1 & K2)).
  unfold period_of in E, K1, K2. rewrite E.
  destruct (index_loop_spec (times h) r (S (length (times h))) (idx h)) as (j & E1 & A & B & C & D); [lia|lia|lra|].
  rewrite E1. cbn [bind]. eexists. exists r. split; [reflexivity|]. cbn [times watts idx residual].
  split; [reflexivity|]. split; [reflexivity|]. split; [exists k; split; assumption|]. split; [reflexivity|].
  destruct P as (_ & _ & _ & Inc).
  split; [exact B|]. split.
  - apply Forall_app. split; [|constructor; [exact C|constructor]].
    eapply Forall_impl; [|exact I2]. intros a Ha. cbn in Ha.
    destruct (Nat.eq_dec (idx h) j) as [<-|N]; [exact Ha|].
    pose proof (Inc (S (idx h)) (S j) ltac:(lia)). lra.
  - destruct (Nat.eq_dec (idx h) j) as [<-|N].
    + destruct I3 as [I3|I3]; [left; exact I3|right]. apply Exists_app. left. exact I3.
    + right. apply Exists_app. right. constructor.
      destruct j as [|j]; [lia|]. apply (D j). lia.
Qed.
Lemma elapsed_run_spec tl : forall h seen, profile (times h) (watts h) -> index_inv (times h) (idx h) seen ->
  Forall (fun t => 0 <= t) tl ->
  exists h' rs, elapsed_run h tl = Ok h' /\ times h' = times h /\ watts h' = watts h /\
    Forall2 (time_in_period (period_of (times h))) tl rs /\ index_inv (times h) (idx h') (seen ++ rs) /\
    (tl <> [] -> exists rs0 r, rs = rs0 ++ [r] /\ residual h' = Some r).
Proof.
  induction tl as [|t tl IH]; intros h seen P I F.
  - exists h, []. rewrite app_nil_r. split; [reflexivity|]. split; [reflexivity|]. split; [reflexivity|]. split; [constructor|]. split; [exact I|]. intros N. now destruct N.
  - inversion F as [|? ? F1 F2]; subst.
    destruct (set_elapsed_spec h seen t P I F1) as (h1 & r & E & T1 & W1 & PR & R1 & I1).
    destruct (IH h1 (seen ++ [r])) as (h2 & rs & E2 & T2 & W2 & PR2 & I2 & R2).
    { rewrite T1, W1. exact P. } { rewrite T1. exact I1. } { exact F2. }
    exists h2, (r :: rs). cbn [elapsed_run]. rewrite E. cbn [bind]. rewrite E2.
    split; [reflexivity|]. rewrite T1 in T2, PR2, I2. rewrite W1 in W2.
    split; [exact T2|]. split; [exact W2|]. split; [constructor; assumption|].
    split; [rewrite <- app_assoc in I2; exact I2|].
    intros _. destruct tl as [|t' tl].
    + inversion PR2; subst. cbn in E2. injection E2 as <-. exists [], r. split; [reflexivity|exact R1].
    + destruct R2 as (rs0 & r' & -> & R2'); [discriminate|]. exists (r :: rs0), r'. split; [reflexivity|exact R2'].
Qed.
Lemma internal_load_spec h r : profile (times h) (watts h) -> (S (idx h) < length (times h))%nat ->
  residual h = Some r -> internal_load h = Ok (Some (on_segment (times h) (watts h) (idx h) r)).
Proof.
  intros (L & W & _ & Inc) I R. unfold internal_load.
  rewrite !nth_error_nth_R by lia. rewrite R.
  rewrite req_false; [reflexivity|]. pose proof (Inc (idx h) (S (idx h)) ltac:(lia)). lra.
Qed.
(** neighbouring segments agree at the common point *)
Lemma on_segment_knot ts ws j r : profile ts ws -> (S (S j) < length ts)%nat -> r = nth (S j) ts 0 ->
  on_segment ts ws j r = on_segment ts ws (S j) r.
Proof.
  intros (_ & _ & _ & Inc) H ->. unfold on_segment.
  pose proof (Inc j (S j) ltac:(lia)). pose proof (Inc (S j) (S (S j)) ltac:(lia)).
  field. split; lra.
Qed.
Lemma on_segment_same ts ws i j r : profile ts ws -> (S i < length ts)%nat -> (S j < length ts)%nat ->
  nth i ts 0 <= r <= nth (S i) ts 0 -> nth j ts 0 <= r <= nth (S j) ts 0 ->
  on_segment ts ws i r = on_segment ts ws j r.
Proof.
  intros P Hi Hj Ri Rj.
  assert (K : forall a b, (a < b)%nat -> (S b < length ts)%nat -> nth a ts 0 <= r <= nth (S a) ts 0 ->
              nth b ts 0 <= r <= nth (S b) ts 0 -> on_segment ts ws a r = on_segment ts ws b r).
  { intros a b L Hb Ra Rb. destruct (Nat.eq_dec (S a) b) as [<-|N].
    - apply on_segment_knot; [exact P|lia|lra].
    - destruct P as (_ & _ & _ & Inc). pose proof (Inc (S a) b ltac:(lia)). lra. }
  destruct (lt_eq_lt_dec i j) as [[L|E]|G]; [now apply K|now subst|]. symmetry. now apply K.
Qed.

(** * network *)
Lemma exchange_sum net T : symmetric (node_num net) (conductance net) -> symmetric (node_num net) (radiation net) ->
  sumn (node_num net) (exchange net T) = 0.
Proof.
  intros SC SR. unfold exchange. rewrite sumn_plus.
  assert (A : forall n (w : mat) (f : vec), symmetric n w ->
    sumn n (fun i => sumn n (fun j => w i j * (f j - f i))) = 0).
  { clear. intros n w f Sy.
    assert (E : sumn n (fun i => sumn n (fun j => w i j * (f j - f i)))
              = sumn n (fun i => sumn n (fun j => w i j * f j)) - sumn n (fun i => sumn n (fun j => w i j * f i))).
    { rewrite <- sumn_minus. apply sumn_ext. intros i _. rewrite <- sumn_minus. apply sumn_ext. intros; ring. }
    rewrite E, (sumn_swap n n (fun i j => w i j * f j)).
    rewrite (sumn_ext n (fun j => sumn n (fun i => w i j * f j)) (fun i => sumn n (fun j => w i j * f i))); [lra|].
    intros j Hj. apply sumn_ext. intros i Hi. now rewrite (Sy i j) by assumption. }
  rewrite (A _ (conductance net) T SC).
  rewrite (A _ (fun i j => stefan_boltzmann * radiation net i j) (fun i => T i ^ 4)); [lra|].
  intros i j Hi Hj. now rewrite (SR i j).
Qed.

Section step.
Context {S : Type} (load : S -> R -> vec * S) (net : network).
(** the four loads seen by one step *)
Definition stage_loads (s : S) (t h : R) : vec * vec * vec * vec * S :=
  let (q1, s1) := load s t in let (q2, s2) := load s1 (t + h / 2) in
  let (q3, s3) := load s2 (t + h / 2) in let (q4, s4) := load s3 (t + h) in (q1, q2, q3, q4, s4).
Lemma runge_step_spec s T t h :
  let '(q1, q2, q3, q4, s4) := stage_loads s t h in
  let (T', s') := runge_one_step load net s T t h in
  s' = s4 /\
  (forall i, ntype net i = Diffusive ->
     T' i = T i + h * ((exchange net T i + (q1 i + 2 * q2 i + 2 * q3 i + q4 i) / 6) / capacity net i)) /\
  (forall i, ntype net i <> Diffusive -> T' i = T i).
Proof.
  unfold stage_loads, runge_one_step, differentials.
  destruct (load s t) as [q1 s1]. destruct (load s1 (t + h / 2)) as [q2 s2].
  destruct (load s2 (t + h / 2)) as [q3 s3]. destruct (load s3 (t + h)) as [q4 s4].
  split; [reflexivity|]. split; intros i Hi.
  - rewrite Hi. unfold Rdiv. generalize (/ capacity net i). intros c. field.
  - destruct (ntype net i); [congruence| |]; ring.
Qed.
End step.

Section const.
(** heat loads that do not vary within a Propagate call *)
Context (net : network) (q : vec).
Definition const_load (s : unit) (t : R) : vec * unit := (q, s).
Definition rhs (T : vec) : vec := fun i =>
  match ntype net i with Diffusive => (exchange net T i + q i) / capacity net i | _ => 0 end.
Lemma const_step s T t h i : fst (runge_one_step const_load net s T t h) i = T i + h * rhs T i.
Proof.
  unfold runge_one_step, differentials, const_load, rhs. cbn [fst].
  destruct (ntype net i); try (unfold Rdiv; ring).
  unfold Rdiv. generalize (/ capacity net i). intros c. field.
Qed.

Definition energy (T : vec) : R := sumn (node_num net) (fun i => capacity net i * T i).
Lemma energy_step s T t h :
  symmetric (node_num net) (conductance net) -> symmetric (node_num net) (radiation net) ->
  (forall i, (i < node_num net)%nat -> ntype net i = Diffusive /\ capacity net i <> 0) ->
  energy (fst (runge_one_step const_load net s T t h)) = energy T + h * sumn (node_num net) q.
Proof.
  intros SC SR D. unfold energy.
  rewrite (sumn_ext _ _ (fun i => capacity net i * T i + h * (exchange net T i + q i))).
  - rewrite sumn_plus, sumn_scal, sumn_plus, (exchange_sum net T SC SR). lra.
  - intros i Hi. destruct (D i Hi) as [D1 D2]. rewrite const_step. unfold rhs. rewrite D1. field. exact D2.
Qed.
Lemma energy_loop fuel step tend : 
  symmetric (node_num net) (conductance net) -> symmetric (node_num net) (radiation net) ->
  (forall i, (i < node_num net)%nat -> ntype net i = Diffusive /\ capacity net i <> 0) ->
  forall s T t s' T' t', propagate_loop const_load net fuel step tend s T t = Ok (s', T', t') ->
  energy T' = energy T + (t' - t) * sumn (node_num net) q.
Proof.
  intros SC SR D. induction fuel as [|f IH]; intros s T t s' T' t' E; [discriminate E|].
  cbn [propagate_loop] in E. destruct (rlt (1 / 10 ^ 6) (tend - t - step)).
  - destruct (runge_one_step const_load net s T t step) as [T1 s1] eqn:E1.
    apply IH in E. rewrite E. pose proof (energy_step s T t step SC SR D) as G. rewrite E1 in G. cbn [fst] in G.
    rewrite G. ring.
  - injection E as -> -> ->. ring.
Qed.
End const.

Section term.
Context {S : Type} (load : S -> R -> vec * S) (net : network).
Lemma loop_terminates step tend : 0 < step -> forall n s T t, tend - t <= INR n * step ->
  exists r, propagate_loop load net (Datatypes.S n) step tend s T t = Ok r.
Proof.
  intros H. induction n as [|n IH]; intros s T t B.
  - cbn [INR] in B. cbn [propagate_loop]. rewrite rlt_false; [eauto|].
    assert (0 < 1 / 10 ^ 6) by (apply Rdiv_lt_0_compat; lra). lra.
  - cbn [propagate_loop]. destruct (rlt (1 / 10 ^ 6) (tend - t - step)); [|eauto].
    destruct (runge_one_step load net s T t step) as [T1 s1]. apply IH. rewrite S_INR in B. lra.
Qed.
Lemma loop_hangs step tend : step <= 0 -> forall n s T t, 1 / 10 ^ 6 < tend - t ->
  propagate_loop load net n step tend s T t = Hang.
Proof.
  intros H. induction n as [|n IH]; intros s T t B; [reflexivity|].
  cbn [propagate_loop]. rewrite rlt_true by lra.
  destruct (runge_one_step load net s T t step) as [T1 s1]. apply IH. lra.
Qed.
Lemma loop_time fuel step tend : 0 < step -> forall s T t s' T' t',
  propagate_loop load net fuel step tend s T t = Ok (s', T', t') ->
  (exists n, t' = t + INR n * step) /\ tend - t' <= step + 1 / 10 ^ 6 /\ (t' = t \/ 1 / 10 ^ 6 < tend - t').
Proof.
  intros H. induction fuel as [|f IH]; intros s T t s' T' t' E; [discriminate E|].
  cbn [propagate_loop] in E. destruct (rlt_spec (1 / 10 ^ 6) (tend - t - step)) as [L|L].
  - destruct (runge_one_step load net s T t step) as [T1 s1].
    destruct (IH _ _ _ _ _ _ E) as [(n & A) [B C]]. split; [|split].
    + exists (Datatypes.S n). rewrite S_INR, A. ring.
    + exact B.
    + right. destruct C as [->|C]; lra.
  - injection E as -> -> ->. split; [exists 0%nat; cbn; ring|]. split; [lra|]. left. reflexivity.
Qed.
(** boundary and arithmetic nodes *)
Lemma fixed_step s T t h i : ntype net i <> Diffusive -> fst (runge_one_step load net s T t h) i = T i.
Proof.
  intros N. pose proof (runge_step_spec load net s T t h) as G.
  destruct (stage_loads load s t h) as [[[[q1 q2] q3] q4] s4].
  destruct (runge_one_step load net s T t h) as [T' s']. cbn. now apply G.
Qed.
Lemma fixed_loop i : ntype net i <> Diffusive -> forall fuel step tend s T t s' T' t',
  propagate_loop load net fuel step tend s T t = Ok (s', T', t') -> T' i = T i.
Proof.
  intros N. induction fuel as [|f IH]; intros step tend s T t s' T' t' E; [discriminate E|].
  cbn [propagate_loop] in E. destruct (rlt (1 / 10 ^ 6) (tend - t - step)).
  - pose proof (fixed_step s T t step i N) as G.
    destruct (runge_one_step load net s T t step) as [T1 s1]. cbn [fst] in G. rewrite <- G. eapply IH, E.
  - now injection E as -> -> ->.
Qed.
End term.

(** * heaters of the network *)
Lemma nth_error_set_nth {A} (l : list A) : forall k j a, (k < length l)%nat ->
  nth_error (set_nth k a l) j = if Nat.eqb j k then Some a else nth_error l j.
Proof.
  induction l as [|x l IH]; intros k j a H; [cbn in H; lia|].
  destruct k as [|k]; destruct j as [|j]; cbn [set_nth nth_error Nat.eqb]; try reflexivity.
  apply IH. cbn in H. lia.
Qed.
Lemma set_nth_length {A} (l : list A) : forall k a, length (set_nth k a l) = length l.
Proof. induction l as [|x l IH]; intros [|k] a; cbn; auto. Qed.

(** readings of heater k during one update: the temperatures of its nodes in node order *)
Definition readings (net : network) (T : vec) (k : nat) (nodes : list nat) : list R :=
  map (fun i => T i - 27315 / 100) (filter (fun i => Nat.eqb (heater_id net i) (S k)) nodes).
Lemma update_heaters_spec net cs T nodes : forall hs, length cs = length hs ->
  (forall i, In i nodes -> (heater_id net i <= length hs)%nat) ->
  exists hs', update_heaters net cs T nodes hs = Ok hs' /\ length hs' = length hs /\
    forall k c h, nth_error cs k = Some c -> nth_error hs k = Some h ->
      nth_error hs' k = Some (control_run c h (readings net T k nodes)).
Proof.
  induction nodes as [|i nodes IH]; intros hs L B.
  - exists hs. split; [reflexivity|]. split; [reflexivity|]. intros; assumption.
  - cbn [update_heaters]. unfold readings. cbn [filter].
    pose proof (B i (or_introl eq_refl)) as Bi.
    destruct (heater_id net i) as [|m] eqn:E.
    + destruct (IH hs L) as (hs' & E1 & E2 & E3); [intros j Hj; apply B; now right|].
      exists hs'. split; [exact E1|]. split; [exact E2|]. intros k c h H1 H2. cbn [Nat.eqb]. now apply E3.
    + destruct (nth_error hs m) as [h0|] eqn:Eh; [|apply nth_error_None in Eh; lia].
      destruct (nth_error cs m) as [c0|] eqn:Ec; [|apply nth_error_None in Ec; lia].
      destruct (IH (set_nth m (control c0 h0 (T i - 27315 / 100)) hs)) as (hs' & E1 & E2 & E3).
      { rewrite set_nth_length. exact L. } { intros j Hj. rewrite set_nth_length. apply B. now right. }
      exists hs'. split; [exact E1|]. split; [rewrite E2; apply set_nth_length|].
      intros k c h H1 H2. cbn [Nat.eqb]. destruct (Nat.eqb_spec m k) as [->|NE].
      * rewrite Eh in H2. rewrite Ec in H1. injection H1 as ->. injection H2 as ->.
        cbn [map]. rewrite (E3 k c (control c h (T i - 27315 / 100)) Ec).
        -- reflexivity.
        -- rewrite nth_error_set_nth by lia. now rewrite Nat.eqb_refl.
      * apply E3; [exact H1|]. rewrite nth_error_set_nth by lia.
        destruct (Nat.eqb_spec k m) as [->|_]; [congruence|exact H2].
Qed.
Lemma exchange_heat_flow net T i :
  exchange net T i = heat_flow (node_num net) (conductance net) (radiation net) stefan_boltzmann T i.
Proof. unfold exchange, heat_flow. now rewrite sumn_plus. Qed.
