(** Proofs about the bounds of a thermal network. *)
From Coq Require Import Reals Lra Lia List Bool Arith ZArith.
From Verif Require Import Base RBase VecModel OdeModel SensorModel ThermalModel ThermalSpec ThermalProofs HeatSpec.
Import ListNotations.
Open Scope R_scope.

Lemma sigma_pos : 0 < stefan_boltzmann.
Proof. unfold stefan_boltzmann. apply Rdiv_lt_0_compat; [lra|apply pow_lt; lra]. Qed.
Lemma others_sum n i c r k x : sumn n (fun j => (if Nat.eqb j i then 0 else c j + k * r j) * x) = (others n i c + k * others n i r) * x.
Proof. rewrite sumn_scal_r. f_equal. unfold others. rewrite <- sumn_scal, <- sumn_plus. apply sumn_ext. intros j _. destruct (Nat.eqb j i); ring. Qed.
Lemma exchange_one net T i : exchange net T i = sumn (node_num net) (fun j => conductance net i j * (T j - T i) + stefan_boltzmann * radiation net i j * (T j ^ 4 - T i ^ 4)).
Proof. unfold exchange. now rewrite <- sumn_plus. Qed.
Lemma quart a b B : 0 <= a -> a <= b -> b <= B -> b ^ 4 - a ^ 4 <= 4 * B ^ 3 * (b - a).
Proof.
  intros A1 A2 A3. replace (b ^ 4 - a ^ 4) with ((b + a) * (b ^ 2 + a ^ 2) * (b - a)) by ring. apply Rmult_le_compat_r; [lra|].
  assert (b ^ 2 <= B ^ 2) by (apply pow_incr; lra). assert (a ^ 2 <= B ^ 2) by (apply pow_incr; lra). pose proof (pow2_ge_0 a). pose proof (pow2_ge_0 b).
  replace (4 * B ^ 3) with ((B + B) * (B ^ 2 + B ^ 2)) by ring. apply Rmult_le_compat; lra.
Qed.
Lemma quart_nonneg a b : 0 <= a -> a <= b -> 0 <= b ^ 4 - a ^ 4.
Proof. intros A1 A2. pose proof (pow_incr a b 4 (conj A1 A2)). lra. Qed.
Section one.
Context (net : network) (PA : passive net) (B : R).
Notation n := (node_num net).
Notation sb := stefan_boltzmann.
(** the exchange of node i against that of another temperature field *)
Lemma exchange_order T U i : (i < n)%nat -> (forall j, (j < n)%nat -> 0 <= T j <= U j /\ U j <= B) ->
  exchange net T i <= exchange net U i + (others n i (conductance net i) + 4 * sb * B ^ 3 * others n i (radiation net i)) * (U i - T i).
Proof.
  intros Hi H. rewrite !exchange_one, <- others_sum, <- sumn_plus. apply sumn_le. intros j Hj.
  destruct (Nat.eqb_spec j i) as [->|N]; [lra|]. destruct (PA i Hi) as (_ & NN). destruct (NN j Hj ltac:(congruence)) as (C0 & R0).
  destruct (H j Hj) as ((J1 & J2) & J3). destruct (H i Hi) as ((I1 & I2) & I3). pose proof sigma_pos as SP.
  assert (SR : 0 <= sb * radiation net i j) by (apply Rmult_le_pos; lra).
  pose proof (quart_nonneg (T j) (U j) J1 J2) as Q1. pose proof (quart (T i) (U i) B I1 I2 I3) as Q2.
  set (sr := sb * radiation net i j) in *. replace (4 * sb * B ^ 3 * radiation net i j) with (sr * (4 * B ^ 3)) by (unfold sr; ring).
  assert (E1 : 0 <= conductance net i j * (U j - T j)) by (apply Rmult_le_pos; lra). assert (E2 : 0 <= sr * (U j ^ 4 - T j ^ 4)) by (apply Rmult_le_pos; lra).
  assert (E3 : sr * (U i ^ 4 - T i ^ 4) <= sr * (4 * B ^ 3 * (U i - T i))) by (apply Rmult_le_compat_l; lra).
  lra.
Qed.
Lemma exchange_uniform c i : exchange net (fun _ => c) i = 0.
Proof. rewrite exchange_one. rewrite (sumn_ext n _ (fun _ => 0)) by (intros; ring). apply sumn_0. reflexivity. Qed.
(** one explicit step *)
Lemma euler_order T U qt qu h i : 0 <= h -> mild_step net h B -> (i < n)%nat -> ntype net i = Diffusive -> (forall j, (j < n)%nat -> 0 <= T j <= U j /\ U j <= B) -> qt <= qu ->
  T i + h * ((exchange net T i + qt) / capacity net i) <= U i + h * ((exchange net U i + qu) / capacity net i).
Proof.
  intros H0 MS Hi D H Q. destruct (PA i Hi) as (CP & _). specialize (CP D). specialize (MS i Hi D). pose proof (exchange_order T U i Hi H) as X.
  set (g := others n i (conductance net i) + 4 * sb * B ^ 3 * others n i (radiation net i)) in *. destruct (H i Hi) as ((I1 & I2) & _).
  apply Rmult_le_reg_r with (capacity net i); [exact CP|]. rewrite !Rmult_plus_distr_r.
  replace (h * ((exchange net T i + qt) / capacity net i) * capacity net i) with (h * (exchange net T i + qt)) by (field; lra).
  replace (h * ((exchange net U i + qu) / capacity net i) * capacity net i) with (h * (exchange net U i + qu)) by (field; lra).
  assert (h * (exchange net T i + qt) <= h * (exchange net U i + g * (U i - T i) + qu)) by (apply Rmult_le_compat_l; lra).
  assert (h * g * (U i - T i) <= capacity net i * (U i - T i)) by (apply Rmult_le_compat_r; lra). lra.
Qed.
End one.

(** ** Steps with loads *)
Section load.
Context {S : Type} (load : S -> R -> vec * S) (net : network) (PA : passive net).
Notation n := (node_num net).
Lemma step_form s T t h : exists q : vec, (forall q1 q2, loads_within load net q1 q2 -> forall i, (i < n)%nat -> ntype net i = Diffusive -> - q1 * capacity net i <= q i <= q2 * capacity net i) /\
  (forall i, ntype net i = Diffusive -> fst (runge_one_step load net s T t h) i = T i + h * ((exchange net T i + q i) / capacity net i)) /\
  (forall i, ntype net i <> Diffusive -> fst (runge_one_step load net s T t h) i = T i).
Proof.
  pose proof (runge_step_spec load net s T t h) as H. unfold stage_loads in H.
  destruct (load s t) as [a1 s1] eqn:E1. destruct (load s1 (t + h / 2)) as [a2 s2] eqn:E2. destruct (load s2 (t + h / 2)) as [a3 s3] eqn:E3. destruct (load s3 (t + h)) as [a4 s4] eqn:E4.
  destruct (runge_one_step load net s T t h) as [T' s']. destruct H as (_ & A & C). exists (fun i => (a1 i + 2 * a2 i + 2 * a3 i + a4 i) / 6). cbn [fst]. split; [|split; assumption].
  intros q1 q2 L i Hi D. pose proof (L s t i Hi D) as L1. pose proof (L s1 (t + h / 2) i Hi D) as L2. pose proof (L s2 (t + h / 2) i Hi D) as L3. pose proof (L s3 (t + h) i Hi D) as L4.
  rewrite E1 in L1. rewrite E2 in L2. rewrite E3 in L3. rewrite E4 in L4. cbn [fst] in *. lra.
Qed.
Lemma mild_less B h k : 0 <= B -> 0 <= h <= k -> mild_step net k B -> mild_step net h B.
Proof.
  intros B0 (H0 & H1) M i Hi D. eapply Rle_trans; [|apply (M i Hi D)]. apply Rmult_le_compat_r; [|exact H1]. destruct (PA i Hi) as (_ & N). pose proof sigma_pos.
  assert (G : forall f : nat -> R, (forall j, (j < n)%nat -> i <> j -> 0 <= f j) -> 0 <= others n i f).
  { intros f F. unfold others. apply sumn_nonneg. intros j Hj. destruct (Nat.eqb_spec j i); [lra|]. apply F; [exact Hj|congruence]. }
  apply Rplus_le_le_0_compat; [apply G; intros j Hj X; now apply N|]. apply Rmult_le_pos; [|apply G; intros j Hj X; now apply N].
  apply Rmult_le_pos; [lra|now apply pow_le].
Qed.
Lemma step_bounds q1 q2 B m M s T t h : loads_within load net q1 q2 -> 0 <= q1 -> 0 <= q2 -> 0 <= h -> mild_step net h B -> 0 <= m -> M <= B ->
  (forall i, (i < n)%nat -> m <= T i <= M) -> forall i, (i < n)%nat -> m - q1 * h <= fst (runge_one_step load net s T t h) i <= M + q2 * h.
Proof.
  intros L Q1 Q2 H0 MS M0 MB H i Hi. destruct (step_form s T t h) as (q & QL & A & C). specialize (QL q1 q2 L i Hi).
  assert (P1 : 0 <= q1 * h) by (apply Rmult_le_pos; lra). assert (P2 : 0 <= q2 * h) by (apply Rmult_le_pos; lra).
  destruct (ntype net i) eqn:D; [|rewrite C by congruence; pose proof (H i Hi); lra|rewrite C by congruence; pose proof (H i Hi); lra].
  rewrite A by exact D. specialize (QL eq_refl). destruct (PA i Hi) as (CP & _). specialize (CP D). split.
  - pose proof (euler_order net PA B (fun _ => m) T (- q1 * capacity net i) (q i) h i H0 MS Hi D) as X. rewrite exchange_uniform in X.
    replace (h * ((0 + - q1 * capacity net i) / capacity net i)) with (- (q1 * h)) in X by (field; lra). cut (m + - (q1 * h) <= T i + h * ((exchange net T i + q i) / capacity net i)); [lra|]. apply X; [|lra].
    intros j Hj. pose proof (H j Hj). lra.
  - pose proof (euler_order net PA B T (fun _ => M) (q i) (q2 * capacity net i) h i H0 MS Hi D) as X. rewrite exchange_uniform in X.
    replace (h * ((0 + q2 * capacity net i) / capacity net i)) with (q2 * h) in X by (field; lra). apply X; [|lra].
    intros j Hj. pose proof (H j Hj). lra.
Qed.
Section run.
Context (q1 q2 : R) (L : loads_within load net q1 q2) (Q1 : 0 <= q1) (Q2 : 0 <= q2) (step B t0 tf lo hi : R) (S0 : 0 <= step) (MS : mild_step net (step + 1 / 10 ^ 6) B)
  (LO : 0 <= lo - q1 * (tf - t0)) (HI : hi + q2 * (tf - t0) <= B) (ORD : lo <= hi).
Definition within (T : vec) (t : R) : Prop := forall i, (i < n)%nat -> lo - q1 * (t - t0) <= T i <= hi + q2 * (t - t0).
Lemma B_nonneg t : t0 <= t <= tf -> 0 <= B.
Proof. intros I. assert (0 <= q1 * (tf - t0)) by (apply Rmult_le_pos; lra). assert (0 <= q2 * (tf - t0)) by (apply Rmult_le_pos; lra). lra. Qed.
Lemma within_step s T t h : t0 <= t -> t + h <= tf -> 0 <= h <= step + 1 / 10 ^ 6 -> within T t -> within (fst (runge_one_step load net s T t h)) (t + h).
Proof.
  intros T1 T2 H W i Hi. assert (BN : 0 <= B) by (apply (B_nonneg t); lra).
  assert (A1 : q1 * (t - t0) <= q1 * (tf - t0)) by (apply Rmult_le_compat_l; lra). assert (A2 : q2 * (t - t0) <= q2 * (tf - t0)) by (apply Rmult_le_compat_l; lra).
  pose proof (step_bounds q1 q2 B (lo - q1 * (t - t0)) (hi + q2 * (t - t0)) s T t h L Q1 Q2 ltac:(lra) (mild_less B h _ BN H MS) ltac:(lra) ltac:(lra) W i Hi). lra.
Qed.
Lemma within_loop tend : tend <= tf -> forall fuel s T t s' T' t', t0 <= t <= tend -> within T t -> propagate_loop load net fuel step tend s T t = Ok (s', T', t') ->
  t0 <= t' <= tend /\ tend - t' <= step + 1 / 10 ^ 6 /\ within T' t'.
Proof.
  intros E. induction fuel as [|f IH]; intros s T t s' T' t' I W P; [discriminate|]. cbn [propagate_loop] in P. unfold rlt in P. destruct (Rlt_dec _ _) as [X|X] in P.
  - pose proof (within_step s T t step ltac:(lra) ltac:(lra) ltac:(lra) W) as W'. destruct (runge_one_step load net s T t step) as [T1 s1]. cbn [fst] in W'. apply IH in P; [exact P|lra|exact W'].
  - injection P as <- <- <-. split; [exact I|]. split; [lra|exact W].
Qed.
Lemma within_propagate fuel tend s T t s' T' t' : t0 <= t <= tend -> tend <= tf -> within T t -> propagate load net fuel true step tend s T t = Ok (s', T', t') -> t' = tend /\ within T' tend.
Proof.
  intros I E W P. unfold propagate in P. destruct (propagate_loop load net fuel step tend s T t) as [[[s1 T1] t1]| | |] eqn:PL; cbn [bind] in P; try discriminate.
  destruct (within_loop tend E fuel s T t s1 T1 t1 I W PL) as (A & C & D). pose proof (within_step s1 T1 t1 (tend - t1) ltac:(lra) ltac:(lra) ltac:(lra) D) as W'.
  destruct (runge_one_step load net s1 T1 t1 (tend - t1)) as [T2 s2]. cbn [fst] in W'. injection P as <- <- <-. split; [reflexivity|]. replace (t1 + (tend - t1)) with tend in W' by ring. exact W'.
Qed.
Lemma within_run fuel : forall calls T t T' t', t0 <= t -> in_order t calls -> last_time t calls <= tf -> within T t -> thermal_run load net fuel step T t calls = Ok (T', t') ->
  t' = last_time t calls /\ within T' t'.
Proof.
  assert (LT : forall calls t, in_order (S := S) t calls -> t <= last_time t calls).
  { induction calls as [|[x s] l IH]; intros t O; cbn [last_time]; [lra|]. destruct O as (O1 & O2). specialize (IH x O2). lra. }
  induction calls as [|[x s] l IH]; intros T t T' t' I O F W P; cbn [thermal_run last_time] in *; [injection P as <- <-; now split|].
  destruct O as (O1 & O2). pose proof (LT l x O2). destruct (propagate load net fuel true step x s T t) as [[[s1 T1] t1]| | |] eqn:PP; cbn [bind] in P; try discriminate.
  destruct (within_propagate fuel x s T t s1 T1 t1 ltac:(lra) ltac:(lra) W PP) as (-> & W'). apply IH in P; [exact P|lra|exact O2|exact F|exact W'].
Qed.
End run.
End load.

(** ** Two runs in order *)
Section compare.
Context {S1 S2 : Type} (load1 : S1 -> R -> vec * S1) (load2 : S2 -> R -> vec * S2) (net : network) (PA : passive net).
Notation n := (node_num net).
Context (LL : forall s1 s2 t i, (i < n)%nat -> ntype net i = Diffusive -> fst (load1 s1 t) i <= fst (load2 s2 t) i).
Definition below (T U : vec) : Prop := forall i, (i < n)%nat -> T i <= U i.
Lemma step_order B s1 s2 T U t h : 0 <= h -> mild_step net h B -> (forall i, (i < n)%nat -> 0 <= T i) -> (forall i, (i < n)%nat -> U i <= B) -> below T U ->
  below (fst (runge_one_step load1 net s1 T t h)) (fst (runge_one_step load2 net s2 U t h)).
Proof.
  intros H0 MS T0 UB W i Hi. pose proof (runge_step_spec load1 net s1 T t h) as H1. pose proof (runge_step_spec load2 net s2 U t h) as H2. unfold stage_loads in *.
  destruct (load1 s1 t) as [a1 p1] eqn:E1. destruct (load1 p1 (t + h / 2)) as [a2 p2] eqn:E2. destruct (load1 p2 (t + h / 2)) as [a3 p3] eqn:E3. destruct (load1 p3 (t + h)) as [a4 p4] eqn:E4.
  destruct (load2 s2 t) as [b1 r1] eqn:F1. destruct (load2 r1 (t + h / 2)) as [b2 r2] eqn:F2. destruct (load2 r2 (t + h / 2)) as [b3 r3] eqn:F3. destruct (load2 r3 (t + h)) as [b4 r4] eqn:F4.
  destruct (runge_one_step load1 net s1 T t h) as [T' s']. destruct (runge_one_step load2 net s2 U t h) as [U' u']. destruct H1 as (_ & A & C). destruct H2 as (_ & A' & C'). cbn [fst].
  destruct (ntype net i) eqn:D; [|rewrite C, C' by congruence; now apply W|rewrite C, C' by congruence; now apply W].
  rewrite A, A' by exact D. apply (euler_order net PA B T U _ _ h i H0 MS Hi D).
  - intros j Hj. split; [split; [now apply T0|now apply W]|now apply UB].
  - pose proof (LL s1 s2 t i Hi D) as L1. pose proof (LL p1 r1 (t + h / 2) i Hi D) as L2. pose proof (LL p2 r2 (t + h / 2) i Hi D) as L3. pose proof (LL p3 r3 (t + h) i Hi D) as L4.
    rewrite E1, F1 in L1. rewrite E2, F2 in L2. rewrite E3, F3 in L3. rewrite E4, F4 in L4. cbn [fst] in *. lra.
Qed.
Section both.
Context (q1 q2 : R) (L1 : loads_within load1 net q1 q2) (L2 : loads_within load2 net q1 q2) (Q1 : 0 <= q1) (Q2 : 0 <= q2) (step B t0 tf lo hi : R) (S0 : 0 <= step) (MS : mild_step net (step + 1 / 10 ^ 6) B)
  (LO : 0 <= lo - q1 * (tf - t0)) (HI : hi + q2 * (tf - t0) <= B) (ORD : lo <= hi).
Notation win := (within net q1 q2 t0 lo hi).
Lemma both_step s1 s2 T U t h : t0 <= t -> t + h <= tf -> 0 <= h <= step + 1 / 10 ^ 6 -> win T t -> win U t -> below T U ->
  below (fst (runge_one_step load1 net s1 T t h)) (fst (runge_one_step load2 net s2 U t h)).
Proof.
  intros T1 T2 H W1 W2 E. assert (BN : 0 <= B) by (apply (B_nonneg q1 q2 Q1 Q2 B t0 tf lo hi LO HI ORD t); lra).
  assert (A1 : q1 * (t - t0) <= q1 * (tf - t0)) by (apply Rmult_le_compat_l; lra). assert (A2 : q2 * (t - t0) <= q2 * (tf - t0)) by (apply Rmult_le_compat_l; lra).
  apply (step_order B); [lra|exact (mild_less net PA B h _ BN H MS)| | |exact E]; intros i Hi; [specialize (W1 i Hi)|specialize (W2 i Hi)]; lra.
Qed.
Lemma both_loop tend : tend <= tf -> forall fuel s1 s2 T U t s1' T' t1 s2' U' t2, t0 <= t <= tend -> win T t -> win U t -> below T U ->
  propagate_loop load1 net fuel step tend s1 T t = Ok (s1', T', t1) -> propagate_loop load2 net fuel step tend s2 U t = Ok (s2', U', t2) -> t1 = t2 /\ below T' U'.
Proof.
  intros E. induction fuel as [|f IH]; intros s1 s2 T U t s1' T' t1 s2' U' t2 I W1 W2 BE P1 P2; [discriminate|]. cbn [propagate_loop] in P1, P2. unfold rlt in P1, P2. destruct (Rlt_dec _ _) as [X|X] in P1.
  - destruct (Rlt_dec _ _) as [X'|X'] in P2; [|contradiction].
    pose proof (within_step load1 net PA q1 q2 L1 Q1 Q2 step B t0 tf lo hi MS LO HI ORD s1 T t step ltac:(lra) ltac:(lra) ltac:(lra) W1) as V1.
    pose proof (within_step load2 net PA q1 q2 L2 Q1 Q2 step B t0 tf lo hi MS LO HI ORD s2 U t step ltac:(lra) ltac:(lra) ltac:(lra) W2) as V2.
    pose proof (both_step s1 s2 T U t step ltac:(lra) ltac:(lra) ltac:(lra) W1 W2 BE) as V.
    destruct (runge_one_step load1 net s1 T t step) as [T1 r1]. destruct (runge_one_step load2 net s2 U t step) as [U1 r2]. cbn [fst] in *.
    apply (IH r1 r2 T1 U1 (t + step) s1' T' t1 s2' U' t2); try assumption. lra.
  - destruct (Rlt_dec _ _) as [X'|X'] in P2; [contradiction|]. injection P1 as <- <- <-. injection P2 as <- <- <-. now split.
Qed.
Lemma both_propagate fuel tend s1 s2 T U t s1' T' t1 s2' U' t2 : t0 <= t <= tend -> tend <= tf -> win T t -> win U t -> below T U ->
  propagate load1 net fuel true step tend s1 T t = Ok (s1', T', t1) -> propagate load2 net fuel true step tend s2 U t = Ok (s2', U', t2) -> below T' U'.
Proof.
  intros I E W1 W2 BE P1 P2. unfold propagate in P1, P2.
  destruct (propagate_loop load1 net fuel step tend s1 T t) as [[[a1 A] ta]| | |] eqn:E1; cbn [bind] in P1; try discriminate.
  destruct (propagate_loop load2 net fuel step tend s2 U t) as [[[b1 C] tb]| | |] eqn:E2; cbn [bind] in P2; try discriminate.
  destruct (both_loop tend E fuel s1 s2 T U t a1 A ta b1 C tb I W1 W2 BE E1 E2) as (<- & V).
  destruct (within_loop load1 net PA q1 q2 L1 Q1 Q2 step B t0 tf lo hi S0 MS LO HI ORD tend E fuel s1 T t a1 A ta I W1 E1) as (G1 & G2 & G3).
  destruct (within_loop load2 net PA q1 q2 L2 Q1 Q2 step B t0 tf lo hi S0 MS LO HI ORD tend E fuel s2 U t b1 C ta I W2 E2) as (_ & _ & G4).
  pose proof (both_step a1 b1 A C ta (tend - ta) ltac:(lra) ltac:(lra) ltac:(lra) G3 G4 V) as F.
  destruct (runge_one_step load1 net a1 A ta (tend - ta)) as [A2 p1]. destruct (runge_one_step load2 net b1 C ta (tend - ta)) as [C2 p2]. cbn [fst] in F. injection P1 as <- <- <-. injection P2 as <- <- <-. exact F.
Qed.
Lemma last_after {S} : forall (calls : list (R * S)) t, in_order t calls -> t <= last_time t calls.
Proof. induction calls as [|[x s] l IH]; intros t O; cbn [last_time]; [lra|]. destruct O as (O1 & O2). specialize (IH x O2). lra. Qed.
Lemma both_run fuel : forall calls1 calls2 T U t T' t1 U' t2, map fst calls1 = map fst calls2 -> t0 <= t -> in_order t calls1 -> last_time t calls1 <= tf -> win T t -> win U t -> below T U ->
  thermal_run load1 net fuel step T t calls1 = Ok (T', t1) -> thermal_run load2 net fuel step U t calls2 = Ok (U', t2) -> below T' U'.
Proof.
  induction calls1 as [|[x s] l IH]; intros [|[y r] m] T U t T' t1 U' t2 ME I O F W1 W2 BE P1 P2; try discriminate ME; cbn [thermal_run] in *; [injection P1 as <- <-; injection P2 as <- <-; exact BE|].
  cbn [map fst] in ME. injection ME as -> ME. destruct O as (O1 & O2). cbn [last_time] in F. pose proof (last_after l y O2).
  destruct (propagate load1 net fuel true step y s T t) as [[[a1 A] ta]| | |] eqn:E1; cbn [bind] in P1; try discriminate.
  destruct (propagate load2 net fuel true step y r U t) as [[[b1 C] tb]| | |] eqn:E2; cbn [bind] in P2; try discriminate.
  pose proof (both_propagate fuel y s r T U t a1 A ta b1 C tb ltac:(lra) ltac:(lra) W1 W2 BE E1 E2) as V.
  destruct (within_propagate load1 net PA q1 q2 L1 Q1 Q2 step B t0 tf lo hi S0 MS LO HI ORD fuel y s T t a1 A ta ltac:(lra) ltac:(lra) W1 E1) as (-> & G1).
  destruct (within_propagate load2 net PA q1 q2 L2 Q1 Q2 step B t0 tf lo hi S0 MS LO HI ORD fuel y r U t b1 C tb ltac:(lra) ltac:(lra) W2 E2) as (-> & G2).
  apply (IH m A C y T' t1 U' t2); try assumption. lra.
Qed.
End both.
End compare.
