From Coq Require Import Reals Lra Lia List Bool ZArith Sorting.
From Verif Require Import Base RBase VecModel PowerModel PowerSpec.
Import ListNotations.
Open Scope R_scope.

Lemma curve_from_poly coef x : forall i acc, curve_from i coef x acc = acc + x ^ i * polynomial coef x.
Proof.
  induction coef as [|c t IH]; intros i acc; cbn [curve_from polynomial]; [lra|].
  rewrite IH. cbn [pow]. ring.
Qed.

Lemma battery_run_spec currents : forall b i, capacity_Ah b <> 0 -> n_parallel b <> 0%Z -> charge_current b = Some i ->
  exists b', battery_run b currents = Ok b' /\
    dod b' = dod b - charge_sum i currents * (step_s b * IZR (prescaler b)) / 3600 / (capacity_Ah b * IZR (n_parallel b)) * 100 /\
    capacity_Ah b' = capacity_Ah b /\ curve b' = curve b /\ n_series b' = n_series b /\
    (currents <> [] -> bat_voltage b' = Some (polynomial (curve b) (dod b' / 100 * capacity_Ah b) * IZR (n_series b))).
Proof.
  induction currents as [|c t IH]; intros b i HC HN HI; cbn [battery_run charge_sum].
  - exists b. repeat split; auto; [|congruence]. unfold Rdiv. ring.
  - set (i' := match c with Some i' => i' | None => i end).
    set (b1 := match c with Some i' => set_charge_current b i' | None => b end).
    assert (E1 : charge_current b1 = Some i') by (unfold b1, i'; destruct c; [reflexivity|exact HI]).
    assert (EQ : n_series b1 = n_series b /\ n_parallel b1 = n_parallel b /\ capacity_Ah b1 = capacity_Ah b /\ curve b1 = curve b
      /\ dod b1 = dod b /\ step_s b1 = step_s b /\ prescaler b1 = prescaler b) by (unfold b1; destruct c; repeat split).
    clearbody b1. destruct EQ as (Q1 & Q2 & Q3 & Q4 & Q5 & Q6 & Q7).
    unfold battery_main. rewrite E1. cbn [bind].
    match goal with |- context [battery_run ?x t] => destruct (IH x i') as (b' & R1 & R2 & R3 & R4 & R5 & R6) end;
      [cbn; congruence|cbn; congruence|reflexivity|].
    cbn [update_voltage dod capacity_Ah curve n_series n_parallel step_s prescaler] in *.
    exists b'. split; [exact R1|]. rewrite Q1, Q2, Q3, Q4, Q5, Q6, Q7 in *. repeat split; auto.
    + rewrite R2. field. split; [intros H; apply HN; now apply eq_IZR|exact HC].
    + intros _. destruct t as [|c' t'].
      * cbn [battery_run] in R1. injection R1 as <-. cbn [update_voltage bat_voltage dod capacity_Ah]. rewrite curve_from_poly.
        f_equal. cbn [pow dod capacity_Ah curve n_series]. ring.
      * apply R6. discriminate.
Qed.

Lemma sum_fold gen : forall a, fold_left Rplus gen a = a + fold_left Rplus gen 0.
Proof.
  induction gen as [|x t IH]; intros a; cbn [fold_left]; [lra|]. rewrite IH, (IH (0 + x)). lra.
Qed.

Lemma pcu_char v res cc cv gen cons : 0 < res ->
  let p := fold_left Rplus gen 0 - cons in
  0 <= v * v + 4 * res * p ->
  let nat := (- v + sqrt (v * v + 4 * res * p)) / (2 * res) in
  let r := pcu_update v res cc cv gen cons in
  fst r = Rmin (Rmin nat cc) ((cv - v) / res) /\ snd r = v + res * fst r.
Proof.
  intros HR p HD nat r. unfold r, pcu_update, sqrt_d. fold p.
  destruct (rlt_spec (v * v + 4 * res * p) 0) as [X|_]; [lra|]. fold nat.
  assert (CV : v + res * (cv - v) / res = v + res * ((cv - v) / res)) by (field; lra).
  assert (D : forall x, x * res < cv - v -> x < (cv - v) / res).
  { intros x Hx. apply Rmult_lt_reg_r with res; [exact HR|]. unfold Rdiv. rewrite Rmult_assoc, Rinv_l, Rmult_1_r by lra. exact Hx. }
  assert (D2 : forall x, cv - v <= x * res -> (cv - v) / res <= x).
  { intros x Hx. apply Rmult_le_reg_r with res; [exact HR|]. unfold Rdiv. rewrite Rmult_assoc, Rinv_l, Rmult_1_r by lra. exact Hx. }
  clearbody nat. unfold Rmin.
  destruct (rle_spec cc nat) as [A|A].
  - destruct (rlt_spec (v + cc * res) cv) as [B|B]; cbn [fst snd].
    + specialize (D cc ltac:(lra)). split; [|reflexivity]. repeat destruct (Rle_dec _ _); lra.
    + specialize (D2 cc ltac:(lra)). split; [|exact CV]. repeat destruct (Rle_dec _ _); lra.
  - destruct (rlt_spec (v + nat * res) cv) as [B|B]; cbn [fst snd].
    + specialize (D nat ltac:(lra)). split; [|reflexivity]. repeat destruct (Rle_dec _ _); lra.
    + specialize (D2 nat ltac:(lra)). split; [|exact CV]. repeat destruct (Rle_dec _ _); lra.
Qed.

Lemma natural_balance v res p : 0 < res -> 0 <= v * v + 4 * res * p ->
  let i := (- v + sqrt (v * v + 4 * res * p)) / (2 * res) in (v + res * i) * i = p.
Proof.
  intros HR HD i. pose proof (sqrt_sqrt _ HD) as S. set (s := sqrt _) in *.
  unfold i. apply Rmult_eq_reg_r with (4 * res); [|lra].
  transitivity (s * s - v * v); [field; lra|]. rewrite S. ring.
Qed.

(** CSV map: the last entry with key <= t *)
Fixpoint lookup_le (m : dmap) (t : R) : option (R * R) :=
  match m with
  | [] => None
  | (k, v) :: tl => if rlt t k then None
                    else match lookup_le tl t with Some x => Some x | None => Some (k, v) end
  end.
Lemma get_value_lookup m t :
  get_value m t = match lookup_le m t with Some (_, v) => Ok v | None => UB end.
Proof.
  assert (G : match lookup_le m t with
              | None => upper_bound t m = O
              | Some x => exists i, upper_bound t m = S i /\ nth_error m i = Some x end).
  { induction m as [|[k v] m IH]; cbn [lookup_le upper_bound]; [reflexivity|].
    destruct (rlt t k); [reflexivity|]. destruct (lookup_le m t) as [x|].
    - destruct IH as (i & E1 & E2). exists (S i). rewrite E1. split; [reflexivity|exact E2].
    - rewrite IH. exists O. split; reflexivity. }
  unfold get_value. destruct (lookup_le m t) as [[k v]|].
  - destruct G as (i & E1 & E2). now rewrite E1, E2.
  - now rewrite G.
Qed.

Fixpoint sorted_from (lo : option R) (m : dmap) : Prop :=
  match m with
  | [] => True
  | (k, v) :: tl => match lo with Some l => l < k | None => True end /\ sorted_from (Some k) tl
  end.
Lemma sorted_weaken m lo lo' : (match lo', lo with Some a, Some b => a <= b | Some _, None => False | None, _ => True end) ->
  sorted_from lo m -> sorted_from lo' m.
Proof.
  destruct m as [|[k v] tl]; cbn; [trivial|]. intros H [H1 H2]. split; [|exact H2].
  destruct lo', lo; try tauto; lra.
Qed.
Lemma insert_sorted k v m : forall lo, sorted_from lo m -> match lo with Some l => l < k | None => True end ->
  sorted_from lo (insert k v m).
Proof.
  induction m as [|[k0 v0] tl IH]; intros lo H L; cbn [insert]; [cbn; auto|].
  destruct H as [H1 H2]. destruct (rlt_spec k k0) as [A|A]; [cbn; auto|].
  destruct (rlt_spec k0 k) as [B|B]; cbn [sorted_from].
  - split; [exact H1|]. apply IH; [exact H2|exact B].
  - assert (k = k0) by lra. subst k0. split; [exact H1|exact H2].
Qed.
Lemma lookup_above m t : forall lo, sorted_from (Some lo) m -> t <= lo -> lookup_le m t = None.
Proof.
  destruct m as [|[k v] tl]; intros lo H L; cbn [lookup_le]; [reflexivity|]. destruct H as [H _].
  destruct (rlt_spec t k); [reflexivity|lra].
Qed.
Lemma lookup_key m t : forall lo k v, sorted_from lo m -> lookup_le m t = Some (k, v) ->
  k <= t /\ match lo with Some l => l < k | None => True end.
Proof.
  induction m as [|[k0 v0] tl IH]; intros lo k v H; cbn [lookup_le]; [discriminate|].
  destruct H as [H1 H2]. destruct (rlt_spec t k0) as [A|A]; [discriminate|].
  destruct (lookup_le tl t) as [[k1 v1]|] eqn:E.
  - intros [= <- <-]. destruct (IH (Some k0) k1 v1 H2 eq_refl) as [B C]. split; [exact B|]. destruct lo; [lra|trivial].
  - intros [= <- <-]. split; [lra|exact H1].
Qed.
Lemma lookup_insert k v m t : forall lo, sorted_from lo m ->
  lookup_le (insert k v m) t =
  if rle k t then match lookup_le m t with
                  | Some (k0, v0) => if rle k0 k then Some (k, v) else Some (k0, v0)
                  | None => Some (k, v) end
  else lookup_le m t.
Proof.
  induction m as [|[k0 v0] tl IH]; intros lo H; cbn [insert lookup_le].
  - destruct (rlt_spec t k), (rle_spec k t); try reflexivity; lra.
  - destruct H as [H1 H2]. destruct (rlt_spec k k0) as [A|A]; [|destruct (rlt_spec k0 k) as [B|B]]; cbn [lookup_le].
    + destruct (rlt_spec t k) as [C|C], (rle_spec k t) as [D|D]; try lra.
      * destruct (rlt_spec t k0); [reflexivity|lra].
      * destruct (rlt_spec t k0); [reflexivity|].
        destruct (lookup_le tl t) as [[k1 v1]|] eqn:E.
        -- destruct (lookup_key tl t _ _ _ H2 E). destruct (rle_spec k1 k); [lra|reflexivity].
        -- destruct (rle_spec k0 k); [lra|reflexivity].
    + destruct (rlt_spec t k0) as [C|C].
      * destruct (rle_spec k t); [lra|reflexivity].
      * rewrite (IH _ H2). destruct (rle_spec k t) as [D|D]; [|reflexivity].
        destruct (lookup_le tl t) as [[k1 v1]|] eqn:E; [destruct (rle_spec k1 k); reflexivity|].
        destruct (rle_spec k0 k); [reflexivity|lra].
    + assert (k = k0) by lra. subst k0. destruct (rlt_spec t k) as [C|C], (rle_spec k t) as [D|D]; try lra; [reflexivity|].
      destruct (lookup_le tl t) as [[k1 v1]|] eqn:E.
      * destruct (lookup_key tl t _ _ _ H2 E). destruct (rle_spec k1 k); [lra|reflexivity].
      * destruct (rle_spec k k); [reflexivity|lra].
Qed.

Fixpoint insert_all (rows : list (R * R)) (m : dmap) : dmap :=
  match rows with [] => m | (k, v) :: t => insert_all t (insert k v m) end.

(** the entry found after inserting rows into a map representing the rows [old] *)
Definition represents (m : dmap) (old : list (R * R)) : Prop :=
  sorted_from None m /\
  forall t, match lookup_le m t with
            | Some (k, v) => exists pre post, old = pre ++ (k, v) :: post /\ k <= t /\
                (forall k' v', In (k', v') pre -> k' <= t -> k' <= k) /\
                (forall k' v', In (k', v') post -> k' <= t -> k' < k)
            | None => before_all old t
            end.
Lemma represents_nil : represents [] [].
Proof. split; [exact I|]. intros t. cbn. intros k v []. Qed.
Lemma represents_insert m old k v : represents m old -> represents (insert k v m) (old ++ [(k, v)]).
Proof.
  intros [S H]. split; [apply insert_sorted; auto|]. intros t. rewrite (lookup_insert k v m t None S).
  specialize (H t). destruct (rle_spec k t) as [A|A].
  - assert (NEW : forall (Hpre : forall k' v', In (k', v') old -> k' <= t -> k' <= k),
      exists pre post, old ++ [(k, v)] = pre ++ (k, v) :: post /\ k <= t /\
        (forall k' v', In (k', v') pre -> k' <= t -> k' <= k) /\
        (forall k' v', In (k', v') post -> k' <= t -> k' < k)).
    { intros Hp. exists old, []. repeat split; auto. intros k' v' []. }
    destruct (lookup_le m t) as [[k0 v0]|].
    + destruct H as (pre & post & E & L & H1 & H2). destruct (rle_spec k0 k) as [B|B].
      * apply NEW. intros k' v' Hin Ht. rewrite E in Hin. apply in_app_or in Hin. destruct Hin as [Hin|[Hin|Hin]].
        -- specialize (H1 _ _ Hin Ht). lra.
        -- injection Hin as -> ->. exact B.
        -- specialize (H2 _ _ Hin Ht). lra.
      * exists pre, (post ++ [(k, v)]). rewrite E, <- app_assoc. repeat split; auto.
        intros k' v' Hin Ht. apply in_app_or in Hin. destruct Hin as [Hin|[Hin|[]]]; [now apply (H2 k' v')|].
        injection Hin as -> ->. lra.
    + apply NEW. intros k' v' Hin Ht. specialize (H _ _ Hin). lra.
  - destruct (lookup_le m t) as [[k0 v0]|].
    + destruct H as (pre & post & E & L & H1 & H2). exists pre, (post ++ [(k, v)]). rewrite E, <- app_assoc. repeat split; auto.
      intros k' v' Hin Ht. apply in_app_or in Hin. destruct Hin as [Hin|[Hin|[]]]; [now apply (H2 k' v')|].
      injection Hin as -> ->. lra.
    + intros k' v' Hin. apply in_app_or in Hin. destruct Hin as [Hin|[Hin|[]]]; [exact (H k' v' Hin)|].
      injection Hin as -> ->. lra.
Qed.

(** the (time, value) pairs of a column, when every row is long enough *)
Definition column (col : nat) (rows : list (list R)) : list (R * R) := map (fun r => (nth 0 r 0, nth col r 0)) rows.

Lemma store_buffer_spec col rows : forall m old, represents m old ->
  (Forall (fun r => (col < length r)%nat /\ (0 < length r)%nat) rows ->
     exists m', store_buffer col rows m = Ok m' /\ represents m' (old ++ column col rows)) /\
  (~ Forall (fun r => (col < length r)%nat /\ (0 < length r)%nat) rows -> store_buffer col rows m = UB).
Proof.
  induction rows as [|r rows IH]; intros m old H; cbn [store_buffer column map].
  - split; [intros _; exists m; rewrite app_nil_r; auto|]. intros X. exfalso. apply X. constructor.
  - split.
    + intros F. inversion F as [|x y [L1 L2] F']; subst.
      rewrite (nth_error_nth' r 0 L2), (nth_error_nth' r 0 L1).
      destruct (proj1 (IH _ _ (represents_insert m old (nth 0 r 0) (nth col r 0) H)) F') as (m' & E & R').
      exists m'. split; [exact E|]. now rewrite <- app_assoc in R'.
    + intros NF. destruct (nth_error r 0) as [k|] eqn:E0; [|reflexivity].
      destruct (nth_error r col) as [v|] eqn:E1; [|reflexivity].
      apply (proj2 (IH _ _ (represents_insert m old k v H))). intros F. apply NF. constructor; [|exact F].
      split; apply nth_error_Some; congruence.
Qed.
