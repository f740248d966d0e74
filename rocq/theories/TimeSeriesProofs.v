From Coq Require Import Reals Lra Lia List Bool Arith ZArith.
From Coq Require FinFun.
From Verif Require Import Base RBase VecModel LuModel InterpModel InterpSpec InterpProofs InterpProps TimeSeriesModel TimeSeriesSpec.
Import ListNotations.
Open Scope R_scope.

(** ** windows *)
Lemma rows_length data w n : (w + n <= length data)%nat -> length (rows_from data w n) = n.
Proof. intros H. unfold rows_from. rewrite firstn_length, skipn_length. lia. Qed.
Lemma nth_rows data w n i : (i < n)%nat -> nth i (rows_from data w n) row0 = nth (w + i) data row0.
Proof.
  intros H. unfold rows_from. revert data. induction w as [|w IH]; intros data.
  - cbn [skipn]. rewrite Nat.add_0_l. revert data i H. induction n as [|n IHn]; intros data i H; [lia|]. destruct data as [|r d]; [now destruct i|].
    destruct i as [|i]; [reflexivity|]. cbn [firstn nth]. apply IHn. lia.
  - destruct data as [|r d]; cbn [skipn]; [|apply IH]. rewrite firstn_nil. now destruct i.
Qed.
Lemma rows_snoc data w n : (w + n < length data)%nat -> rows_from data w n ++ [nth (w + n) data row0] = rows_from data w (S n).
Proof.
  intros H. apply (nth_ext _ _ row0 row0).
  - rewrite app_length, !rows_length by lia. cbn. lia.
  - intros i Hi. rewrite app_length, rows_length in Hi by lia. cbn in Hi. rewrite (nth_rows data w (S n)) by lia.
    destruct (Nat.eq_dec i n) as [->|N].
    + rewrite app_nth2; rewrite rows_length by lia; [|lia]. now rewrite Nat.sub_diag.
    + rewrite app_nth1 by (rewrite rows_length; lia). apply nth_rows. lia.
Qed.
Lemma rows_cons data w n : (w + S n <= length data)%nat -> rows_from data w (S n) = nth w data row0 :: rows_from data (S w) n.
Proof.
  intros H. apply (nth_ext _ _ row0 row0).
  - cbn [length]. rewrite !rows_length by lia. reflexivity.
  - intros i Hi. rewrite rows_length in Hi by lia. rewrite nth_rows by lia. destruct i as [|i]; cbn [nth]; [f_equal; lia|]. rewrite nth_rows by lia. f_equal. lia.
Qed.
Lemma nth_error_row (data : list row) i : (i < length data)%nat -> nth_error data i = Some (nth i data row0).
Proof. intros H. now apply nth_error_nth'. Qed.
Lemma in_rows data w n r : (w + n <= length data)%nat -> In r (rows_from data w n) -> exists i, (i < n)%nat /\ r = nth (w + i) data row0.
Proof.
  intros H I. destruct (In_nth _ _ row0 I) as (i & Hi & E). rewrite rows_length in Hi by lia. exists i. split; [exact Hi|]. now rewrite <- E, nth_rows.
Qed.

(** ** three axes sharing their abscissae *)
Definition o3 (n : nat) (ts : list R) (ps : list (R * R * R)) : orbit3 :=
  (mkInterp ts (map px ps) n, mkInterp ts (map py ps) n, mkInterp ts (map pz ps) n).
Lemma o3_push n t0 ts p0 ps t p : last (t0 :: ts) 0 < t -> orbit_push (o3 n (t0 :: ts) (p0 :: ps)) t p = Ok (true, o3 n (ts ++ [t]) (ps ++ [p])).
Proof.
  intros H. unfold orbit_push, o3. destruct p as [[a b] c]. unfold push_and_pop. cbn [xs ys degree map].
  destruct (rle_spec t (last (t0 :: ts) 0)) as [L|L]; [lra|]. cbn [bind negb]. rewrite !map_app. reflexivity.
Qed.
Lemma o3_init n : orbit_interpolation n = o3 n (repeat (-1) n) (repeat (0, 0, 0) n).
Proof.
  unfold orbit_interpolation, o3, interpolation. rewrite repeat_length.
  assert (E : forall f : R * R * R -> R, map f (repeat (0, 0, 0) n) = repeat (f (0, 0, 0)) n) by (intros f; induction n as [|k IH]; [reflexivity|]; cbn [repeat map]; now rewrite IH).
  rewrite !E. reflexivity.
Qed.

Definition rel (t0 : R) (rows : list row) : list R := map (fun r => r_time r - t0) rows.
(** the object holds the n rows from row w on *)
Definition Inv (s : tso) (w : nat) : Prop :=
  (w + s_n s <= length (s_data s))%nat /\ s_ref_id s = (w + s_n s)%nat /\
  s_opos s = o3 (s_n s) (rel (s_ref_time s) (rows_from (s_data s) w (s_n s))) (map r_pos (rows_from (s_data s) w (s_n s))) /\
  s_ovel s = o3 (s_n s) (rel (s_ref_time s) (rows_from (s_data s) w (s_n s))) (map r_vel (rows_from (s_data s) w (s_n s))).

Lemma last_map {A} (f : A -> R) l d e : l <> [] -> last (map f l) e = f (last l d).
Proof. induction l as [|a l IH]; [congruence|]. intros _. destruct l as [|b l]; [reflexivity|]. change (last (map f (b :: l)) e = f (last (b :: l) d)). now apply IH. Qed.
Lemma last_nth_row (l : list row) d : l <> [] -> last l d = nth (length l - 1) l d.
Proof. induction l as [|a l IH]; [congruence|]. intros _. destruct l as [|b l]; [reflexivity|]. change (last (b :: l) d = nth (length (a :: b :: l) - 1) (a :: b :: l) d). rewrite IH by congruence. cbn [length]. replace (S (S (length l)) - 1)%nat with (S (length l)) by lia. replace (S (length l) - 1)%nat with (length l) by lia. reflexivity. Qed.
Lemma last_rows data w n : (1 <= n)%nat -> (w + n <= length data)%nat -> last (rows_from data w n) row0 = nth (w + n - 1) data row0.
Proof.
  intros H1 H2. assert (N : rows_from data w n <> []) by (intros E; pose proof (rows_length data w n H2); rewrite E in *; cbn in *; lia).
  rewrite last_nth_row by exact N. rewrite rows_length by lia. rewrite nth_rows by lia. f_equal. lia.
Qed.

Lemma update_ok s w : sorted (s_data s) -> (1 <= s_n s)%nat -> Inv s w -> (w + s_n s < length (s_data s))%nat ->
  exists s', update_interpolation s = Ok s' /\ Inv s' (S w) /\ s_data s' = s_data s /\ s_n s' = s_n s /\ s_method s' = s_method s /\
    s_period s' = s_period s /\ s_ref_time s' = s_ref_time s /\ s_enabled s' = s_enabled s.
Proof.
  intros SD N1 (B & RI & OP & OV) L. unfold update_interpolation, ephemeris_time_data. rewrite RI.
  rewrite (proj2 (Nat.ltb_ge _ _)) by lia. rewrite (nth_error_row _ _ L). cbn [bind].
  rewrite (proj2 (Nat.leb_gt _ _)) by lia. rewrite (nth_error_row _ _ L). rewrite OP, OV.
  set (d := s_data s) in *. set (t0 := s_ref_time s) in *. destruct (s_n s) as [|n] eqn:En; [lia|].
  assert (R1 : rows_from d w (S n) = nth w d row0 :: rows_from d (S w) n) by (apply rows_cons; lia).
  assert (LT : last (rel t0 (rows_from d w (S n))) 0 < r_time (nth (w + S n) d row0) - t0).
  { unfold rel. rewrite (last_map _ _ row0) by (rewrite R1; discriminate). rewrite last_rows by lia.
    assert (T d (w + S n - 1) < T d (w + S n)) by (apply SD; lia). unfold T in *. lra. }
  rewrite R1 in LT |- *. unfold rel in *. cbn [map] in *.
  rewrite !o3_push by exact LT. cbn [bind]. eexists. split; [reflexivity|]. cbn [s_data s_n s_method s_period s_ref_time s_enabled].
  split; [|repeat split; reflexivity]. unfold Inv. cbn [s_data s_n s_ref_time s_ref_id s_opos s_ovel]. rewrite <- !(rows_snoc d (S w) n) by lia.
  unfold rel. rewrite !map_app. cbn [map]. replace (S w + n)%nat with (w + S n)%nat by lia. repeat split; try lia; reflexivity.
Qed.
Lemma update_end s w : Inv s w -> (w + s_n s = length (s_data s))%nat -> update_interpolation s = UB.
Proof.
  intros (B & RI & _) L. unfold update_interpolation, ephemeris_time_data. rewrite RI, L, Nat.ltb_irrefl.
  rewrite (proj2 (nth_error_None _ _)) by lia. reflexivity.
Qed.

(** the filling loop *)
Definition filling (s : tso) (r0 k : nat) : Prop :=
  s_ref_id s = (r0 + k)%nat /\ s_ref_time s = T (s_data s) r0 /\ (k <= s_n s)%nat /\
  s_opos s = o3 (s_n s) (repeat (-1) (s_n s - k) ++ rel (s_ref_time s) (rows_from (s_data s) r0 k)) (repeat (0, 0, 0) (s_n s - k) ++ map r_pos (rows_from (s_data s) r0 k)) /\
  s_ovel s = o3 (s_n s) (repeat (-1) (s_n s - k) ++ rel (s_ref_time s) (rows_from (s_data s) r0 k)) (repeat (0, 0, 0) (s_n s - k) ++ map r_vel (rows_from (s_data s) r0 k)).
Lemma fill_ok c : forall s r0 k, sorted (s_data s) -> filling s r0 k -> (k + c = s_n s)%nat -> (r0 + s_n s <= length (s_data s))%nat ->
  exists s', fill c s = Ok s' /\ filling s' r0 (s_n s) /\ s_data s' = s_data s /\ s_n s' = s_n s /\ s_method s' = s_method s /\
    s_period s' = s_period s /\ s_ref_time s' = s_ref_time s /\ s_enabled s' = s_enabled s.
Proof.
  induction c as [|c IH]; intros s r0 k SD F KC B.
  - exists s. cbn [fill]. replace (s_n s) with k in * by lia. repeat split; try reflexivity; apply F.
  - cbn [fill]. destruct F as (RI & RT & KN & OP & OV).
    assert (U : exists s', update_interpolation s = Ok s' /\ filling s' r0 (S k) /\ s_data s' = s_data s /\ s_n s' = s_n s /\ s_method s' = s_method s /\
      s_period s' = s_period s /\ s_ref_time s' = s_ref_time s /\ s_enabled s' = s_enabled s).
    { unfold update_interpolation, ephemeris_time_data. rewrite RI. rewrite (proj2 (Nat.ltb_ge _ _)) by lia.
      assert (L : (r0 + k < length (s_data s))%nat) by lia. rewrite (nth_error_row _ _ L). cbn [bind].
      rewrite (proj2 (Nat.leb_gt _ _)) by lia. rewrite (nth_error_row _ _ L). rewrite OP, OV.
      set (d := s_data s) in *. set (n := s_n s) in *. set (t0 := s_ref_time s) in *.
      replace (n - k)%nat with (S (n - S k)) by lia. cbn [repeat app].
      assert (LT : last ((-1) :: repeat (-1) (n - S k) ++ rel t0 (rows_from d r0 k)) 0 < r_time (nth (r0 + k) d row0) - t0).
      { assert (T d r0 <= T d (r0 + k)). { destruct k as [|k]; [rewrite Nat.add_0_r; lra|]. left. apply SD. lia. }
        unfold T in H. rewrite RT. unfold T. destruct k as [|k].
        - unfold rel, rows_from. cbn [firstn map]. rewrite app_nil_r. change (-1 :: repeat (-1) (n - 1)) with (repeat (-1) (S (n - 1))). rewrite last_repeat by lia. lra.
        - assert (NE : rel (r_time (nth r0 d row0)) (rows_from d r0 (S k)) <> []) by (unfold rel; rewrite rows_cons by lia; discriminate).
          assert (LA : forall l l' : list R, l' <> [] -> last (l ++ l') 0 = last l' 0).
          { intros l l' NN. induction l as [|a l IHl]; [reflexivity|]. cbn [app]. destruct (l ++ l') eqn:E; [destruct l; destruct l'; cbn in E; congruence|]. change (last (r :: l0) 0 = last l' 0). exact IHl. }
          change (-1 :: repeat (-1) (n - S (S k)) ++ rel (r_time (nth r0 d row0)) (rows_from d r0 (S k))) with ((-1 :: repeat (-1) (n - S (S k))) ++ rel (r_time (nth r0 d row0)) (rows_from d r0 (S k))).
          rewrite LA by exact NE. unfold rel. rewrite (last_map _ _ row0) by (rewrite rows_cons by lia; discriminate). rewrite last_rows by lia.
          assert (T d (r0 + S k - 1) < T d (r0 + S k)) by (apply SD; lia). unfold T in *. lra. }
      rewrite !o3_push by exact LT. cbn [bind]. eexists. split; [reflexivity|]. cbn [s_data s_n s_method s_period s_ref_time s_enabled].
      split; [|repeat split; reflexivity]. unfold filling. cbn [s_data s_n s_ref_time s_ref_id s_opos s_ovel]. fold t0 d n.
      assert (SN : rows_from d r0 (S k) = rows_from d r0 k ++ [nth (r0 + k) d row0]) by (symmetry; apply rows_snoc; lia).
      rewrite SN. unfold rel. rewrite !map_app. cbn [map]. rewrite <- !app_assoc. repeat split; try lia; try exact RT; reflexivity. }
    destruct U as (s1 & E1 & F1 & D1 & N1 & M1 & P1 & R1 & En1). rewrite E1. cbn [bind].
    destruct (IH s1 r0 (S k)) as (s2 & E2 & F2 & D2 & N2 & M2 & P2 & R2 & En2); try (rewrite ?D1, ?N1; assumption || lia).
    exists s2. rewrite N1 in F2. repeat split; try congruence; try apply F2; try exact E2.
Qed.
Lemma push_cases d x y : push_and_pop d x y = UB \/ exists r, push_and_pop d x y = Ok r.
Proof. unfold push_and_pop. destruct (xs d); [now left|]. destruct (rle x _); [right; eauto|]. destruct (ys d); [now left|right; eauto]. Qed.
Lemma orbit_push_cases o t p : orbit_push o t p = UB \/ exists r, orbit_push o t p = Ok r.
Proof.
  unfold orbit_push. destruct o as [[a b] c]. destruct p as [[u v] z].
  destruct (push_cases a t u) as [->|((r1 & a') & ->)]; [now left|]. cbn [bind]. destruct r1; cbn [negb]; [|right; eauto].
  destruct (push_cases b t v) as [->|((r1 & b') & ->)]; [now left|]. cbn [bind]. destruct r1; cbn [negb]; [|right; eauto].
  destruct (push_cases c t z) as [->|((r1 & c') & ->)]; [now left|]. cbn [bind]. destruct r1; cbn [negb]; right; eauto.
Qed.
Lemma fill_short c : forall s, (length (s_data s) < s_ref_id s + c)%nat -> (s_ref_id s <= length (s_data s))%nat ->
  fill c s = UB.
Proof.
  induction c as [|c IH]; intros s L B; [lia|]. cbn [fill].
  unfold update_interpolation, ephemeris_time_data. rewrite (proj2 (Nat.ltb_ge _ _)) by lia.
  destruct (Nat.eq_dec (s_ref_id s) (length (s_data s))) as [E|NE].
  - rewrite (proj2 (nth_error_None _ _)) by lia. reflexivity.
  - rewrite (nth_error_row _ (s_ref_id s)) by lia. cbn [bind]. rewrite (proj2 (Nat.leb_gt _ _)) by lia. rewrite (nth_error_row _ (s_ref_id s)) by lia.
    destruct (orbit_push_cases (s_opos s) (r_time (nth (s_ref_id s) (s_data s) row0) - s_ref_time s) (r_pos (nth (s_ref_id s) (s_data s) row0))) as [->|((b & op) & ->)]; [reflexivity|]. cbn [bind].
    destruct (orbit_push_cases (s_ovel s) (r_time (nth (s_ref_id s) (s_data s) row0) - s_ref_time s) (r_vel (nth (s_ref_id s) (s_data s) row0))) as [->|((b' & ov) & ->)]; [reflexivity|]. cbn [bind].
    apply IH; cbn [s_data s_ref_id]; lia.
Qed.
(** ** interpolation through the window *)
Lemma rel_NoDup data w n t0 : sorted data -> (w + n <= length data)%nat -> NoDup (rel t0 (rows_from data w n)).
Proof.
  intros SD B. apply (NoDup_nth _ 0). intros i j Hi Hj E. unfold rel in *. rewrite map_length, rows_length in Hi, Hj by lia.
  rewrite !(nth_indep _ 0 ((fun r => r_time r - t0) row0)) in E by (rewrite map_length, rows_length; lia). rewrite !(map_nth (fun r => r_time r - t0)) in E. rewrite !nth_rows in E by lia.
  destruct (Nat.lt_trichotomy i j) as [H|[H|H]]; [|exact H|]; exfalso.
  - assert (T data (w + i) < T data (w + j)) by (apply SD; lia). unfold T in *. lra.
  - assert (T data (w + j) < T data (w + i)) by (apply SD; lia). unfold T in *. lra.
Qed.
Lemma axis_value rows (f : row -> R) t0 t : rows <> [] -> NoDup (rel t0 rows) ->
  exists x, calc_polynomial (mkInterp (rel t0 rows) (map f rows) (length rows)) (t - t0) = Ok x /\ interpolated rows f t x.
Proof.
  intros N ND. assert (L : length (rel t0 rows) = length (map f rows)) by (unfold rel; now rewrite !map_length).
  assert (NE : rel t0 rows <> []) by (unfold rel; destruct rows; [congruence|discriminate]).
  destruct (C28_interpolating_polynomial (rel t0 rows) (map f rows) NE L ND) as (p & LP & PT & _ & E).
  exists (peval p (t - t0)). specialize (E (t - t0)). unfold interpolation in E. unfold rel in LP. rewrite map_length in LP.
  split. { rewrite <- E. unfold rel at 3. now rewrite map_length. }
  exists p, t0. split; [exact LP|]. split; [|reflexivity]. intros r Hr. destruct (In_nth _ _ row0 Hr) as (i & Hi & <-).
  specialize (PT i). unfold rel in PT. rewrite map_length in PT. specialize (PT Hi).
  rewrite (nth_indep (map _ rows) 0 ((fun r => r_time r - t0) row0)) in PT by (now rewrite map_length). rewrite (map_nth (fun r => r_time r - t0)) in PT. rewrite PT.
  rewrite (nth_indep (map f rows) 0 (f row0)) by (now rewrite map_length). apply map_nth.
Qed.
Lemma o3_polynomial rows (f : row -> R * R * R) t0 t n : length rows = n -> (1 <= n)%nat -> NoDup (rel t0 rows) ->
  exists p, orbit_polynomial (o3 n (rel t0 rows) (map f rows)) (t - t0) = Ok p /\ interpolated3 rows f t p.
Proof.
  intros <- N ND. assert (NE : rows <> []) by (intros ->; cbn in N; lia).
  destruct (axis_value rows (fun r => px (f r)) t0 t NE ND) as (x & Ex & Ix).
  destruct (axis_value rows (fun r => py (f r)) t0 t NE ND) as (y & Ey & Iy).
  destruct (axis_value rows (fun r => pz (f r)) t0 t NE ND) as (z & Ez & Iz).
  exists (x, y, z). unfold orbit_polynomial, o3. rewrite !map_map, Ex, Ey, Ez. cbn [bind]. split; [reflexivity|].
  unfold interpolated3. cbn [fst snd]. auto.
Qed.
Lemma peval_shift : forall p s, exists q, length q = length p /\ forall u, peval q u = peval p (u + s).
Proof.
  induction p as [|a p IH]; intros s; [exists []; split; reflexivity|]. destruct (IH s) as (q & Lq & Eq).
  exists (padd [a] (padd (pscale s q) (0 :: q))). split.
  - rewrite !length_padd, length_pscale. cbn [length]. lia.
  - intros u. rewrite !peval_padd, peval_pscale. cbn [peval]. rewrite Eq. ring.
Qed.
Lemma interpolated_unique rows f t x y : NoDup (map r_time rows) -> interpolated rows f t x -> interpolated rows f t y -> x = y.
Proof.
  intros ND (c & t0 & LC & HC & ->) (d & t1 & LD & HD & ->).
  destruct (peval_shift d (t0 - t1)) as (q & Lq & Eq).
  assert (Z : peval (padd c (pscale (-1) q)) (t - t0) = 0).
  { apply (too_many_roots (map (fun r => r_time r - t0) rows)).
    - replace (map (fun r => r_time r - t0) rows) with (map (fun a => a - t0) (map r_time rows)) by (now rewrite map_map).
      apply FinFun.Injective_map_NoDup; [intros a b; lra|exact ND].
    - rewrite length_padd, length_pscale, map_length. lia.
    - intros a Ha. apply in_map_iff in Ha. destruct Ha as (r & <- & Hr). rewrite peval_padd, peval_pscale, Eq.
      rewrite (HC r Hr). replace (r_time r - t0 + (t0 - t1)) with (r_time r - t1) by ring. rewrite (HD r Hr). ring. }
  rewrite peval_padd, peval_pscale, Eq in Z. replace (t - t0 + (t0 - t1)) with (t - t1) in Z by ring. lra.
Qed.

Lemma o3_trigonometric rows (f : row -> R * R * R) t0 t n period : length rows = n -> (1 <= n)%nat ->
  exists p, orbit_trigonometric (o3 n (rel t0 rows) (map f rows)) (t - t0) (2 * PI / period) = Ok p /\ trigonometric3 rows f period t0 t p.
Proof.
  intros <- N.
  assert (A : forall g : row -> R, exists x, calc_trigonometric (mkInterp (rel t0 rows) (map g rows) (length rows)) (t - t0) (2 * PI / period) = Ok x /\
            trigonometric rows g period t0 t x).
  { intros g. assert (LR : length (rel t0 rows) = length rows) by (unfold rel; apply map_length).
    assert (E : exists x, calc_trigonometric (mkInterp (rel t0 rows) (map g rows) (length rows)) (t - t0) (2 * PI / period) = Ok x).
    { unfold calc_trigonometric. cbn [degree xs ys]. rewrite LR, !map_length, !Nat.ltb_irrefl. rewrite (proj2 (Nat.eqb_neq _ _)) by lia. cbn [orb]. eauto. }
    destruct E as (x & E). exists x. split; [exact E|]. unfold trigonometric, interpolation. change (map (fun r => r_time r - t0) rows) with (rel t0 rows). rewrite LR. exact E. }
  destruct (A (fun r => px (f r))) as (x & Ex & Ix). destruct (A (fun r => py (f r))) as (y & Ey & Iy). destruct (A (fun r => pz (f r))) as (z & Ez & Iz).
  exists (x, y, z). unfold orbit_trigonometric, o3. rewrite !map_map, Ex, Ey, Ez. cbn [bind]. split; [reflexivity|].
  unfold trigonometric3. cbn [fst snd]. auto.
Qed.

Lemma medium_lt n : (2 <= n)%nat -> (medium_index n < n)%nat.
Proof. intros H. unfold medium_index. apply Nat.div_lt_upper_bound; lia. Qed.
Lemma nth_error_rel data w n i t0 : (i < n)%nat -> (w + n <= length data)%nat ->
  nth_error (rel t0 (rows_from data w n)) i = Some (T data (w + i) - t0).
Proof.
  intros Hi B. unfold rel. rewrite nth_error_map. rewrite (nth_error_row _ i) by (rewrite rows_length; lia). cbn [option_map]. now rewrite nth_rows.
Qed.

Definition same_config (s s' : tso) : Prop :=
  s_data s' = s_data s /\ s_n s' = s_n s /\ s_method s' = s_method s /\ s_period s' = s_period s /\ s_ref_time s' = s_ref_time s /\ s_enabled s' = s_enabled s.

Lemma propagate_ok s w start jd : s_enabled s = true -> sorted (s_data s) -> (2 <= s_n s)%nat -> Inv s w -> s_ref_time s = T (s_data s) start ->
  let t := ephemeris_time jd in let w' := advance (s_data s) (medium_index (s_n s)) w t in
  if (length (s_data s) <? w' + s_n s)%nat then propagate s jd = UB
  else exists s', propagate s jd = Ok s' /\ Inv s' w' /\ same_config s s' /\
       answer (s_data s) (s_n s) (s_method s) (s_period s) start w' t (s_position s') (s_velocity s').
Proof.
  intros EN SD N I RT. cbv zeta. assert (I' := I). destruct I' as (B & RI & OP & OV).
  unfold propagate. rewrite EN. cbn [negb]. pose proof (medium_lt _ N) as ML.
  replace (time_list (s_opos s)) with (rel (s_ref_time s) (rows_from (s_data s) w (s_n s))) by (rewrite OP; reflexivity).
  rewrite (nth_error_rel _ _ _ _ _ ML B). set (t := ephemeris_time jd). rewrite RT.
  unfold advance. set (m := medium_index (s_n s)) in *. set (d := s_data s) in *. set (n := s_n s) in *.
  assert (FIN : forall s1 w1, Inv s1 w1 -> same_config s s1 ->
     exists s', (if rlt (t - T d start) 0 then match nth_error (s_data s1) 0 with Some r => Ok (set_state s1 (r_pos r) (r_vel r)) | None => UB end
       else if rlt 1000000 (t - T d start) || (length (s_data s1) <=? s_ref_id s1)%nat then
         match nth_error (s_data s1) (length (s_data s1) - 1) with Some r => Ok (set_state s1 (r_pos r) (r_vel r)) | None => UB end
       else if Z.eqb (s_method s1) 1 then
         let! p := orbit_trigonometric (s_opos s1) (t - T d start) (2 * PI / s_period s1) in
         let! v := orbit_trigonometric (s_ovel s1) (t - T d start) (2 * PI / s_period s1) in Ok (set_state s1 p v)
       else
         let! p := orbit_polynomial (s_opos s1) (t - T d start) in
         let! v := orbit_polynomial (s_ovel s1) (t - T d start) in Ok (set_state s1 p v)) = Ok s' /\ Inv s' w1 /\ same_config s s' /\
       answer d n (s_method s) (s_period s) start w1 t (s_position s') (s_velocity s')).
  { intros s1 w1 I1 C1. assert (I2 := I1). destruct I2 as (B1 & RI1 & OP1 & OV1). assert (C2 := C1). destruct C2 as (D1 & N1 & M1 & P1 & R1 & E1).
    rewrite D1, N1 in *. fold d n in B1, RI1, OP1, OV1, D1, N1 |- *. rewrite R1, RT in OP1, OV1. fold d in OP1, OV1. rewrite M1, P1.
    assert (IS : forall p v, Inv (set_state s1 p v) w1 /\ same_config s (set_state s1 p v)).
    { intros p v. split; [|exact C1]. exact I1. }
    destruct (rlt_spec (t - T d start) 0) as [H|H].
    - rewrite (nth_error_row d 0) by lia. eexists. split; [reflexivity|]. split; [apply IS|]. split; [apply IS|].
      unfold answer. cbn [set_state s_position s_velocity]. repeat split; intros; try lra; reflexivity.
    - destruct (rlt_spec 1000000 (t - T d start)) as [H1|H1]; cbn [orb].
      + rewrite (nth_error_row d (length d - 1)) by lia. eexists. split; [reflexivity|]. split; [apply IS|]. split; [apply IS|].
        unfold answer. cbn [set_state s_position s_velocity]. split; [intros; lra|]. split; [intros; split; reflexivity|intros; lra].
      + rewrite RI1. destruct (Nat.leb_spec (length d) (w1 + n)) as [H2|H2].
        * rewrite (nth_error_row d (length d - 1)) by lia. eexists. split; [reflexivity|]. split; [apply IS|]. split; [apply IS|].
          unfold answer. cbn [set_state s_position s_velocity]. split; [intros; lra|]. split; [intros; split; reflexivity|intros; lia].
        * assert (RL : length (rows_from d w1 n) = n) by (apply rows_length; lia). assert (N1' : (1 <= n)%nat) by lia.
          destruct (Z.eqb_spec (s_method s) 1) as [HM|HM].
          -- destruct (o3_trigonometric (rows_from d w1 n) r_pos (T d start) t n (s_period s) RL N1') as (p & Ep & Ip).
             destruct (o3_trigonometric (rows_from d w1 n) r_vel (T d start) t n (s_period s) RL N1') as (v & Ev & Iv).
             rewrite OP1, OV1, Ep, Ev. cbn [bind]. eexists. split; [reflexivity|]. split; [apply IS|]. split; [apply IS|].
             unfold answer. cbn [set_state s_position s_velocity]. split; [intros; lra|]. split; [intros _ [?|?]; [lra|lia]|].
             intros _ _. split; [intros; congruence|]. intros _. split; assumption.
          -- pose proof (rel_NoDup d w1 n (T d start) SD) as ND. specialize (ND ltac:(lia)).
             destruct (o3_polynomial (rows_from d w1 n) r_pos (T d start) t n RL N1' ND) as (p & Ep & Ip).
             destruct (o3_polynomial (rows_from d w1 n) r_vel (T d start) t n RL N1' ND) as (v & Ev & Iv).
             rewrite OP1, OV1, Ep, Ev. cbn [bind]. eexists. split; [reflexivity|]. split; [apply IS|]. split; [apply IS|].
             unfold answer. cbn [set_state s_position s_velocity]. split; [intros; lra|]. split; [intros _ [?|?]; [lra|lia]|].
             intros _ _. split; [|intros; congruence]. intros _. split; assumption. }
  destruct (Rlt_dec (T d (w + m)) t) as [A|A].
  - destruct (rlt_spec (T d (w + m) - T d start) (t - T d start)) as [H|H]; [|lra].
    destruct (Nat.ltb_spec (length d) (S w + n)) as [L|L].
    + rewrite (update_end s w I) by (fold d n; lia). reflexivity.
    + destruct (update_ok s w SD) as (s1 & E1 & I1 & CF); [fold n; lia|exact I|fold d n; lia|]. rewrite E1. cbn [bind].
      apply FIN; [exact I1|exact CF].
  - destruct (rlt_spec (T d (w + m) - T d start) (t - T d start)) as [H|H]; [lra|].
    rewrite (proj2 (Nat.ltb_ge _ _)) by lia. cbn [bind]. apply FIN; [exact I|]. repeat split.
Qed.
