From Coq Require Import Reals Lra Lia List Arith Bool ZArith.
From Verif Require Import Base RBase VecModel GravitySpec GravityHarmonics GravityGrad GravityFile IgrfModel IgrfSpec IgrfProofs.
Import ListNotations.
Open Scope R_scope.

(** the entries before (n, m) are complete *)
Definition tri (n m : nat) (t : arr) (gv hv : nat -> nat -> R) : Prop :=
  forall n' m', (1 <= n')%nat -> (m' <= n')%nat -> (n' < n \/ n' = n /\ m' < m)%nat -> t m' n' = gv n' m' /\ ((1 <= m')%nat -> t n' (m' - 1)%nat = hv n' m').
Lemma tri_row n t gv hv : tri n (S n) t gv hv -> tri (S n) 0 t gv hv.
Proof. intros H n' m' H1 H2 H3. apply H; lia. Qed.
Lemma tri_zero n t gv hv : (1 <= n)%nat -> tri n 0 t gv hv -> tri n 1 (put t 0 n (gv n 0%nat)) gv hv.
Proof.
  intros Hn H n' m' H1 H2 H3. destruct (Nat.eq_dec n' n) as [->|Ne].
  - assert (m' = 0)%nat by lia. subst m'. split; [apply put_same|lia].
  - rewrite put_other by lia. split; [apply H; lia|]. intros H4. rewrite put_other by lia. apply H; lia.
Qed.
Lemma tri_step n m t gv hv : (1 <= m <= n)%nat -> tri n m t gv hv -> tri n (S m) (put (put t m n (gv n m)) n (m - 1) (hv n m)) gv hv.
Proof.
  intros Hn H n' m' H1 H2 H3. destruct (Nat.eq_dec n' n) as [->|Ne].
  - destruct (Nat.eq_dec m' m) as [->|Nm].
    + split; [rewrite put_other by lia; apply put_same|intros _; apply put_same].
    + split; [rewrite !put_other by lia; apply H; lia|]. intros H4. rewrite !put_other by lia. apply H; lia.
  - split; [rewrite !put_other by lia; apply H; lia|]. intros H4. rewrite !put_other by lia. apply H; lia.
Qed.

(** ** tcoef *)
Definition sf (n m : nat) : R := sqrt (2 * INR (fact (n - m)) / INR (fact (n + m))).
Lemma fact_pos n : 0 < INR (fact n). Proof. apply lt_0_INR, lt_O_fact. Qed.
Lemma sf_step n m : (1 <= m <= n)%nat -> sf n m = sf n (m - 1) / sqrt (INR ((n + m) * (n - m + 1))).
Proof.
  intros H. unfold sf. replace (n - (m - 1))%nat with (S (n - m)) by lia. replace (n + m)%nat with (S (n + (m - 1))) at 1 2 by lia.
  rewrite !fact_simpl, !mult_INR. replace (n - m + 1)%nat with (S (n - m)) by lia.
  pose proof (fact_pos (n - m)) as F1. pose proof (fact_pos (n + (m - 1))) as F2.
  assert (G1 : 0 < INR (S (n - m))) by (apply lt_0_INR; lia). assert (G2 : 0 < INR (S (n + (m - 1)))) by (apply lt_0_INR; lia).
  assert (P : 0 < INR (S (n + (m - 1))) * INR (S (n - m))) by (apply Rmult_lt_0_compat; assumption).
  rewrite <- sqrt_div_alt by exact P. f_equal. field. repeat split; lra.
Qed.
Lemma sf_0 n : sf n 0 = sqrt 2.
Proof. unfold sf. rewrite Nat.sub_0_r, Nat.add_0_r. f_equal. field. pose proof (fact_pos n). lra. Qed.
Lemma schmidt_0 n : schmidt n 0 = 1.
Proof. unfold schmidt. rewrite Nat.sub_0_r, Nat.add_0_r. pose proof (fact_pos n). replace (1 * INR (fact n) / INR (fact n)) with 1 by (field; lra). apply sqrt_1. Qed.
Lemma schmidt_S n m : (1 <= m)%nat -> schmidt n m = sf n m.
Proof. destruct m; [lia|reflexivity]. Qed.

Section TCOEF.
  Variables agh aght : arr.
  Definition gv1 (t : arr) (n m : nat) : R := t m n * schmidt n m.
  Definition hv1 (t : arr) (n m : nat) : R := t n (m - 1)%nat * schmidt n m.
  Lemma tcoef_n_ok n s : (1 <= n)%nat -> tri n 0 (fst s) (gv1 agh) (hv1 agh) -> tri n 0 (snd s) (gv1 aght) (hv1 aght) ->
    let r := tcoef_n agh aght n s in tri (S n) 0 (fst r) (gv1 agh) (hv1 agh) /\ tri (S n) 0 (snd r) (gv1 aght) (hv1 aght).
  Proof.
    destruct s as [gh ght]. cbn [fst snd]. intros Hn H1 H2. unfold tcoef_n.
    pose proof (loop_inv (fun j (s : arr * arr * R) => tri n j (fst (fst s)) (gv1 agh) (hv1 agh) /\ tri n j (snd (fst s)) (gv1 aght) (hv1 aght) /\ snd s = sf n (j - 1))
      (tcoef_m agh aght n) n 1 (put gh 0 n (agh 0%nat n), put ght 0 n (aght 0%nat n), sqrt 2)) as L.
    destruct (loop (tcoef_m agh aght n) 1 n _) as [[g1 g2] fc]. cbn [fst snd] in L. cbv zeta. cbn [fst snd].
    destruct L as (L1 & L2 & _).
    - assert (E : forall t, gv1 t n 0%nat = t 0%nat n) by (intros t; unfold gv1; rewrite schmidt_0; ring).
      split; [|split].
      + rewrite <- (E agh). apply tri_zero; assumption.
      + rewrite <- (E aght). apply tri_zero; assumption.
      + cbn [Nat.sub]. symmetry. apply sf_0.
    - intros j [[b1 b2] fj] Hj (B1 & B2 & B3). cbn [fst snd] in *. unfold tcoef_m. cbn [fst snd].
      assert (Ef : fj / sqrt (INR ((n + j) * (n - j + 1))) = schmidt n j) by (rewrite B3, schmidt_S by lia; symmetry; apply sf_step; lia).
      rewrite Ef. split; [|split].
      + apply (tri_step n j b1 (gv1 agh) (hv1 agh)); [lia|exact B1].
      + apply (tri_step n j b2 (gv1 aght) (hv1 aght)); [lia|exact B2].
      + rewrite schmidt_S by lia. f_equal. lia.
    - replace (1 + n)%nat with (S n) in * by lia. split; apply tri_row; assumption.
  Qed.
  Lemma tcoef_ok maxod s : let r := tcoef agh aght maxod s in tri (S maxod) 0 (fst r) (gv1 agh) (hv1 agh) /\ tri (S maxod) 0 (snd r) (gv1 aght) (hv1 aght).
  Proof.
    destruct s as [gh ght]. unfold tcoef.
    apply (loop_inv (fun j (s : arr * arr) => tri j 0 (fst s) (gv1 agh) (hv1 agh) /\ tri j 0 (snd s) (gv1 aght) (hv1 aght)) (tcoef_n agh aght) maxod 1).
    - split; intros n' m' H1 H2 H3; lia.
    - intros j b Hj [B1 B2]. apply tcoef_n_ok; [lia|exact B1|exact B2].
  Qed.
End TCOEF.

(** ** tyear *)
Lemma tyear_ok c year g : let d := year - co_tzero c in
  tri (S (co_max c)) 0 (tyear c year g) (fun n m => co_gh c m n + co_ght c m n * d) (fun n m => co_gh c n (m - 1)%nat + co_ght c n (m - 1)%nat * d).
Proof.
  intros d. unfold tyear. fold d. set (gv := fun n m : nat => _ + _ * _). set (hv := fun n m : nat => _ + _ * _) in |- *.
  apply (loop_inv (fun j t => tri j 0 t gv hv) (tyear_n c d) (co_max c) 1).
  - intros n' m' H1 H2 H3. lia.
  - intros n b Hn B. apply tri_row. unfold tyear_n. apply (loop_inv (fun j t => tri n j t gv hv) (tyear_m c d n) n 1).
    + change (co_gh c 0%nat n + co_ght c 0%nat n * d) with (gv n 0%nat). apply tri_zero; [lia|exact B].
    + intros m t Hm T. unfold tyear_m. change (co_gh c m n + co_ght c m n * d) with (gv n m).
      change (co_gh c n (m - 1)%nat + co_ght c n (m - 1)%nat * d) with (hv n m). apply tri_step; [lia|exact T].
Qed.

(** ** the layout of the file *)
Section LAY.
  Variables (cb cv : nat -> R) (nlin : nat) (junk : bool).
  Definition gb (c : nat -> R) (n m : nat) : R := c (row_g n m).
  Definition hb (c : nat -> R) (n m : nat) : R := c (row_h n m).
  (** degree chosen so far: entries tested are 1 .. i *)
  Definition kinv (n i k : nat) : Prop :=
    (k <= n)%nat /\
    (forall j, (1 <= j <= i)%nat -> nonzero cb cv nlin junk j = true -> (j < (k + 1) * (k + 1))%nat) /\
    ((1 <= k)%nat -> exists j, (k * k <= j < (k + 1) * (k + 1))%nat /\ (j <= i)%nat /\ nonzero cb cv nlin junk j = true).
  Definition linv (n m : nat) (s : layout) : Prop :=
    ly_i s = match m with O => (n * n - 1)%nat | S k => (n * n + 2 * k)%nat end /\
    tri n m (ly_vgh s) (gb cb) (hb cb) /\ tri n m (ly_vght s) (gb cv) (hb cv) /\ kinv n (ly_i s) (ly_k s).
  Lemma kinv_mono n i k : kinv n i k -> kinv (S n) i k.
  Proof. intros (A & B & C). split; [lia|]. split; [exact B|exact C]. Qed.
  Lemma kinv_step n i k : (1 <= n)%nat -> (n * n <= S i < (n + 1) * (n + 1))%nat -> kinv n i k -> kinv n (S i) (if nonzero cb cv nlin junk (S i) then n else k).
  Proof.
    intros Hn Hi (A & B & C). destruct (nonzero cb cv nlin junk (S i)) eqn:E.
    - split; [lia|]. split; [|].
      + intros j Hj Ej. destruct (Nat.eq_dec j (S i)) as [->|Ne]; [lia|]. assert (j < (k + 1) * (k + 1))%nat by (apply B; [lia|exact Ej]). nia.
      + intros _. exists (S i). repeat split; try lia. exact E.
    - split; [lia|]. split.
      + intros j Hj Ej. destruct (Nat.eq_dec j (S i)) as [->|Ne]; [congruence|]. apply B; [lia|exact Ej].
      + intros Hk. destruct (C Hk) as (j & J1 & J2 & J3). exists j. repeat split; try lia. exact J3.
  Qed.
  Lemma layout_m_ok n m s : (1 <= m <= n)%nat -> linv n m s -> linv n (S m) (layout_m cb cv nlin junk n m s).
  Proof.
    intros Hm (I1 & T1 & T2 & K). unfold layout_m, store, advance. cbn [ly_i ly_vgh ly_vght ly_k]. destruct m as [|m]; [lia|].
    unfold linv. cbn [ly_i ly_vgh ly_vght ly_k].
    assert (Eg : row_g n (S m) = ly_i s) by (rewrite I1; reflexivity).
    assert (Eh : row_h n (S m) = S (ly_i s)) by (rewrite I1; unfold row_h; lia).
    split; [rewrite I1; lia|]. split; [|split].
    - rewrite <- Eh. rewrite <- Eg. apply (tri_step n (S m) _ (gb cb) (hb cb)); [lia|exact T1].
    - rewrite <- Eh. rewrite <- Eg. apply (tri_step n (S m) _ (gb cv) (hb cv)); [lia|exact T2].
    - apply kinv_step; [lia|nia|]. apply kinv_step; [lia|nia|exact K].
  Qed.
  Lemma layout_n_ok n s : (1 <= n)%nat -> linv n 0 s -> linv (S n) 0 (layout_n cb cv nlin junk n s).
  Proof.
    intros Hn (I1 & T1 & T2 & K).
    pose proof (loop_inv (linv n) (layout_m cb cv nlin junk n) n 1 (advance cb cv nlin junk n (store cb cv 0 n s))) as L.
    destruct L as (J1 & J2 & J3 & J4).
    - unfold advance, store, linv. cbn [ly_i ly_vgh ly_vght ly_k]. rewrite I1. assert (Eg : row_g n 0 = (n * n - 1)%nat) by reflexivity.
      split; [nia|]. split; [|split].
      + rewrite <- Eg. apply (tri_zero n _ (gb cb) (hb cb)); assumption.
      + rewrite <- Eg. apply (tri_zero n _ (gb cv) (hb cv)); assumption.
      + rewrite I1 in K. apply kinv_step; [lia|nia|exact K].
    - intros m b Hm. apply layout_m_ok. lia.
    - unfold layout_n. split; [rewrite J1; cbn [Nat.add]; nia|]. split; [apply tri_row, J2|]. split; [apply tri_row, J3|]. apply kinv_mono, J4.
  Qed.
  Lemma layout_ok maxod s0 : s0 = mkLayout 0 (fun _ _ => 0) (fun _ _ => 0) 0 -> linv (S maxod) 0 (layout_all cb cv nlin junk maxod s0).
  Proof.
    intros ->. unfold layout_all. apply (loop_inv (fun j s => linv j 0 s) (layout_n cb cv nlin junk) maxod 1).
    - unfold linv, kinv. cbn [ly_i ly_vgh ly_vght ly_k]. split; [reflexivity|]. split; [intros a b; lia|]. split; [intros a b; lia|].
      split; [lia|]. split; [lia|]. lia.
    - intros j b Hj B. apply layout_n_ok; [lia|exact B].
  Qed.
End LAY.

(** ** reading the file *)
Lemma skipn_cons {T} (d : T) : forall k (l : list T), (k < length l)%nat -> skipn k l = nth k l d :: skipn (S k) l.
Proof. induction k as [|k IH]; intros [|x l] H; cbn [length] in H; try lia; [reflexivity|]. cbn [skipn nth]. apply IH. lia. Qed.
(** the value of a line of the table for the columns chosen *)
Definition chosen (l ncol : nat) (a b : R) (row : list R) (t : R) : R :=
  if (l =? ncol)%nat then nth (l - 2) row 0 + nth (l - 1) row 0 * (t - b)
  else nth (l - 2) row 0 + (nth (l - 1) row 0 - nth (l - 2) row 0) / (b - a) * (t - a).
Lemma pick_ok years first : forall count l yr1, (2 <= l)%nat -> (l - 1 + count <= length years)%nat ->
  exists l' a b, pick years first count l yr1 (nth (l - 2) years 0) = Ok (l', a, b) /\ (l <= l' <= l + count)%nat /\
    forall row t, (l + count <= length row)%nat ->
      in_time (firstn (S count) (skipn (l - 2) years)) (skipn (l - 2) row) first t = chosen l' (l + count) a b row t.
Proof.
  induction count as [|k IH]; intros l yr1 Hl Hlen.
  - exists l, yr1, (nth (l - 2) years 0). split; [reflexivity|]. split; [lia|]. intros row t Hrow.
    rewrite (skipn_cons 0 (l - 2) years) by lia. cbn [firstn]. rewrite (skipn_cons 0 (l - 2) row) by lia. replace (S (l - 2)) with (l - 1)%nat by lia.
    rewrite (skipn_cons 0 (l - 1) row) by lia. cbn [in_time]. unfold chosen. rewrite Nat.add_0_r, Nat.eqb_refl. reflexivity.
  - cbn [pick]. rewrite (nth_error_nth' years 0) by lia. set (v := nth (l - 1) years 0).
    assert (Ein : forall row t, (l + S k <= length row)%nat -> in_time (firstn (S (S k)) (skipn (l - 2) years)) (skipn (l - 2) row) first t
       = if Rlt_dec first v then nth (l - 2) row 0 + (nth (l - 1) row 0 - nth (l - 2) row 0) / (v - nth (l - 2) years 0) * (t - nth (l - 2) years 0)
         else in_time (firstn (S k) (skipn (l - 1) years)) (skipn (l - 1) row) first t).
    { intros row t Hrow. rewrite (skipn_cons 0 (l - 2) years) by lia. rewrite (skipn_cons 0 (l - 2) row) by lia. replace (S (l - 2)) with (l - 1)%nat by lia.
      rewrite (skipn_cons 0 (l - 1) years) by lia. rewrite (skipn_cons 0 (l - 1) row) by lia. cbn [firstn]. cbn [in_time]. fold v. reflexivity. }
    destruct (rlt_spec first v) as [Hv|Hv].
    + exists l, (nth (l - 2) years 0), v. split; [reflexivity|]. split; [lia|]. intros row t Hrow. rewrite Ein by exact Hrow.
      destruct (Rlt_dec first v); [|contradiction]. unfold chosen. destruct (Nat.eqb_spec l (l + S k)); [lia|reflexivity].
    + destruct (IH (S l) (nth (l - 2) years 0)) as (l' & a & b & E1 & E2 & E3); [lia|lia|].
      replace (S l - 2)%nat with (l - 1)%nat in * by lia. fold v in E1. exists l', a, b. split; [exact E1|]. split; [lia|].
      intros row t Hrow. rewrite Ein by exact Hrow. destruct (Rlt_dec first v); [contradiction|]. rewrite E3 by lia. f_equal. lia.
Qed.
Lemma columns_ok l : forall count rows, (2 <= l)%nat -> (count <= length rows)%nat -> (forall i, (i < count)%nat -> (l <= length (nth i rows []))%nat) ->
  exists cols, columns rows l count = Ok cols /\ forall i, (i < count)%nat -> nth i cols (0, 0) = (nth (l - 2) (nth i rows []) 0, nth (l - 1) (nth i rows []) 0).
Proof.
  induction count as [|k IH]; intros rows Hl Hlen Hrows.
  - exists []. split; [reflexivity|lia].
  - destruct rows as [|row rows]; [cbn in Hlen; lia|]. cbn [columns]. pose proof (Hrows 0%nat ltac:(lia)) as H0. cbn [nth] in H0.
    rewrite (nth_error_nth' row 0) by lia. rewrite (nth_error_nth' row 0) by lia.
    destruct (IH rows) as (cols & E1 & E2); [lia|cbn in Hlen; lia|intros i Hi; apply (Hrows (S i)); lia|].
    rewrite E1. cbn [bind]. eexists. split; [reflexivity|]. intros [|i] Hi; [reflexivity|]. cbn [nth]. apply E2. lia.
Qed.

Notation tg f := (igrf_g f).
Notation th f := (igrf_h f).

Lemma row_g_lt n m N : (1 <= n <= N)%nat -> (m <= n)%nat -> (row_g n m < (N + 1) * (N + 1) - 1)%nat.
Proof. intros H1 H2. unfold row_g. destruct m; nia. Qed.
Lemma row_h_lt n m N : (1 <= n <= N)%nat -> (1 <= m <= n)%nat -> (row_h n m < (N + 1) * (N + 1) - 1)%nat.
Proof. intros H1 H2. unfold row_h. nia. Qed.

(** what reading the file gives *)
Definition coefs_of (f : coef_file) (junk : bool) (first : R) (co : coefs) : Prop :=
  (forall t n m, (1 <= n <= co_max co)%nat -> (m <= n)%nat ->
     co_gh co m n + co_ght co m n * (t - co_tzero co) = schmidt n m * tg f first t n m /\
     ((1 <= m)%nat -> co_gh co n (m - 1)%nat + co_ght co n (m - 1)%nat * (t - co_tzero co) = schmidt n m * th f first t n m)) /\
  (co_max co <= f_max f)%nat /\
  (forall n m t, (co_max co < n <= f_max f)%nat -> (1 <= m <= n)%nat -> tg f first t n m = 0 /\ th f first t n m = 0) /\
  (forall n t, (co_max co + 1 < n <= f_max f)%nat -> tg f first t n 0%nat = 0) /\
  (junk = true -> co_max co = f_max f) /\
  ((1 <= co_max co)%nat -> junk = false \/ (co_max co < f_max f)%nat -> exists n m t, (n = co_max co /\ 1 <= m <= n)%nat /\ (tg f first t n m <> 0 \/ th f first t n m <> 0) \/ n = S (co_max co) /\ m = 0%nat /\ tg f first t n 0%nat <> 0).

Lemma row_g_inv j k : (1 <= k)%nat -> (k * k <= j < (k + 1) * (k + 1))%nat -> (exists m, (1 <= m <= k)%nat /\ (j = row_g k m \/ j = row_h k m)) \/ j = row_g (S k) 0.
Proof.
  intros Hk H. assert (C : (j = (k + 1) * (k + 1) - 1 \/ j < (k + 1) * (k + 1) - 1)%nat) by lia. destruct C as [->|C]; [right; unfold row_g; nia|]. left.
  pose proof (Nat.div_mod_eq (j - k * k) 2) as D. pose proof (Nat.mod_upper_bound (j - k * k) 2 ltac:(lia)) as M.
  exists (S ((j - k * k) / 2)). split; [nia|]. unfold row_g, row_h. assert (j = k * k + (j - k * k))%nat by lia. nia.
Qed.
Lemma gigrf_ok f junk first : readable f -> exists co, gigrf f junk first = Ok co /\ coefs_of f junk first co.
Proof.
  intros (R1 & R2 & R3 & R4 & R5 & R6). unfold gigrf. rewrite R1. cbn [negb].
  destruct (Z.ltb_spec (cf_maxod f) 8); [lia|]. destruct (Z.ltb_spec 19 (cf_maxod f)); [lia|]. destruct (Z.ltb_spec (cf_ncol f) 2); [lia|].
  destruct (Z.ltb_spec 50 (cf_ncol f)); [lia|]. cbn [orb]. cbv zeta. fold (f_max f) (f_ncol f).
  assert (Nc : (2 <= f_ncol f <= 50)%nat) by (unfold f_ncol; lia). assert (Nm : (8 <= f_max f <= 18)%nat) by (unfold f_max; lia).
  rewrite (nth_error_nth' (cf_years f) 0) by lia.
  destruct (pick_ok (cf_years f) first (f_ncol f - 2) 2 0) as (l & a & b & E1 & E2 & E3); [lia|lia|]. cbn [Nat.sub] in E1, E3. rewrite E1. cbn [bind].
  set (nlin := ((f_max f + 1) * (f_max f + 1) - 1)%nat) in *.
  destruct (columns_ok l nlin (cf_rows f)) as (cols & C1 & C2); [lia|exact R5|intros i Hi; specialize (R6 i Hi); lia|]. rewrite C1. cbn [bind].
  destruct (Nat.eqb_spec (f_max f) 19); [lia|].
  set (cb := fun i => fst (nth i cols (0, 0))). set (col2 := fun i => snd (nth i cols (0, 0))).
  set (cv := if (l =? f_ncol f)%nat then col2 else _). set (tz := if (l =? f_ncol f)%nat then b else a).
  assert (Hval : forall i t, (i < nlin)%nat -> cb i + cv i * (t - tz) = in_time (f_years f) (nth i (cf_rows f) []) first t).
  { intros i t Hi. specialize (E3 (nth i (cf_rows f) []) t). replace (2 + (f_ncol f - 2))%nat with (f_ncol f) in E3 by lia. cbn [skipn] in E3.
    unfold f_years. replace (f_ncol f - 1)%nat with (S (f_ncol f - 2)) by lia. rewrite E3 by (apply R6, Hi).
    unfold chosen, cb, cv, tz, col2. rewrite C2 by exact Hi. cbn [fst snd]. destruct (l =? f_ncol f)%nat; rewrite ?C2 by exact Hi; cbn [fst snd]; reflexivity. }
  assert (Hnz : forall i, (i < nlin)%nat -> nonzero cb cv nlin junk i = false <-> forall t, in_time (f_years f) (nth i (cf_rows f) []) first t = 0).
  { intros i Hi. unfold nonzero. destruct (Nat.eqb_spec i nlin); [lia|]. split.
    - intros E t. apply orb_false_iff in E. destruct E as [Ea Eb]. apply negb_false_iff in Ea, Eb.
      destruct (req_spec (cb i) 0) as [Ea'|]; [|discriminate]. destruct (req_spec (cv i) 0) as [Eb'|]; [|discriminate].
      rewrite <- Hval by exact Hi. rewrite Ea', Eb'. ring.
    - intros HZ. pose proof (HZ tz) as T1. pose proof (HZ (tz + 1)) as T2. rewrite <- Hval in T1, T2 by exact Hi.
      rewrite req_true by lra. rewrite req_true by lra. reflexivity. }
  pose proof (layout_ok cb cv nlin junk (f_max f) _ eq_refl) as (L1 & L2 & L3 & (K1 & K2 & K3)).
  set (ly := layout_all cb cv nlin junk (f_max f) _) in *.
  assert (Lk : ly_k ly = 0%nat \/ (1 <= ly_k ly <= f_max f)%nat).
  { destruct (Nat.eq_dec (ly_k ly) 0); [left; assumption|]. right. destruct (K3 ltac:(lia)) as (j & J1 & J2 & _). split; [lia|].
    rewrite L1 in J2. nia. }
  pose proof (tcoef_ok (ly_vgh ly) (ly_vght ly) (ly_k ly) (fun _ _ => 0, fun _ _ => 0)) as T.
  destruct (tcoef (ly_vgh ly) (ly_vght ly) (ly_k ly) (fun _ _ => 0, fun _ _ => 0)) as [gh ght]. cbv zeta in T. cbn [fst snd] in T. destruct T as [T1 T2].
  eexists. split; [reflexivity|]. unfold coefs_of. cbn [co_max co_gh co_ght co_tzero].
  assert (Zero : forall i t, (i < nlin)%nat -> ((ly_k ly + 1) * (ly_k ly + 1) <= i)%nat -> in_time (f_years f) (nth i (cf_rows f) []) first t = 0).
  { intros i t Hi Hk. destruct (nonzero cb cv nlin junk i) eqn:En.
    - pose proof (K2 i) as Kc. rewrite L1 in Kc. specialize (Kc ltac:(unfold nlin in Hi; nia) En). lia.
    - apply (proj1 (Hnz i Hi) En). }
  split; [|split; [|split; [|split; [|split]]]].
  - intros t n0 m Hn Hm. assert (Hn' : (1 <= n0 <= f_max f)%nat) by lia.
    destruct (T1 n0 m ltac:(lia) Hm ltac:(lia)) as [A1 A2]. destruct (T2 n0 m ltac:(lia) Hm ltac:(lia)) as [B1 B2].
    destruct (L2 n0 m ltac:(lia) Hm ltac:(lia)) as [G1 G2]. destruct (L3 n0 m ltac:(lia) Hm ltac:(lia)) as [V1 V2]. split.
    + rewrite A1, B1. unfold gv1. rewrite G1, V1. unfold gb, igrf_g, table_g. rewrite <- Hval by (unfold nlin; apply row_g_lt; lia). ring.
    + intros Hm1. rewrite A2, B2 by lia. unfold hv1. rewrite G2, V2 by lia. unfold hb, igrf_h, table_h. destruct m as [|m]; [lia|].
      rewrite <- Hval by (unfold nlin; apply row_h_lt; lia). ring.
  - lia.
  - intros n0 m t Hn Hm. split.
    + unfold igrf_g, table_g. apply Zero; [unfold nlin; apply row_g_lt; lia|]. unfold row_g. destruct m; [lia|nia].
    + unfold igrf_h, table_h. destruct m as [|m]; [lia|]. apply Zero; [unfold nlin; apply row_h_lt; lia|]. unfold row_h. nia.
  - intros n0 t Hn. unfold igrf_g, table_g. apply Zero; [unfold nlin; apply row_g_lt; lia|]. unfold row_g. nia.
  - intros Ej. pose proof (K2 nlin) as Kc. rewrite L1 in Kc. assert (nlin < (ly_k ly + 1) * (ly_k ly + 1))%nat by (apply Kc; [unfold nlin; nia|unfold nonzero; rewrite Nat.eqb_refl; exact Ej]). unfold nlin in *. nia.
  - intros Hk Hjk. destruct (K3 ltac:(lia)) as (j & J1 & J2 & J3). assert (Hj : (j < nlin)%nat).
    { destruct Hjk as [Hjk|Hjk]; [|unfold nlin; nia]. destruct (Nat.eq_dec j nlin) as [->|Ne]; [unfold nonzero in J3; rewrite Nat.eqb_refl in J3; congruence|]. rewrite L1 in J2. unfold nlin in *. nia. }
    assert (Ne : exists t, in_time (f_years f) (nth j (cf_rows f) []) first t <> 0).
    { destruct (Req_EM_T (in_time (f_years f) (nth j (cf_rows f) []) first tz) 0) as [Z1|Z1]; [|exists tz; exact Z1].
      destruct (Req_EM_T (in_time (f_years f) (nth j (cf_rows f) []) first (tz + 1)) 0) as [Z2|Z2]; [|exists (tz + 1); exact Z2].
      exfalso. assert (nonzero cb cv nlin junk j = false); [|congruence]. apply Hnz; [exact Hj|]. intros t.
      rewrite <- Hval in Z1, Z2 |- * by exact Hj. assert (cb j = 0) by lra. assert (cv j = 0) by lra. nra. }
    destruct Ne as [t Ht]. destruct (row_g_inv j (ly_k ly) ltac:(lia) J1) as [(m & Hm & [Ej|Ej])|Ej]; subst j.
    + exists (ly_k ly), m, t. left. split; [lia|]. left. exact Ht.
    + exists (ly_k ly), m, t. left. split; [lia|]. right. unfold igrf_h, table_h. destruct m; [lia|exact Ht].
    + exists (S (ly_k ly)), 0%nat, t. right. split; [reflexivity|]. split; [reflexivity|]. exact Ht.
Qed.
