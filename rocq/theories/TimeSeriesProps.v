(** C119, C120: orbit from a time series file. *)
From Coq Require Import Reals Lra Lia List Bool Arith ZArith.
From Verif Require Import Base RBase VecModel LuModel InterpModel InterpSpec InterpProofs InterpProps TimeSeriesModel TimeSeriesSpec TimeSeriesProofs.
Import ListNotations.
Open Scope R_scope.

(** k is the first row later than t *)
Definition first_after (data : list row) (t : R) (k : nat) : Prop :=
  (k < length data)%nat /\ t < T data k /\ forall i, (i < k)%nat -> T data i <= t.

Lemma search_first data t : forall k, first_after data t k -> forall i, search_from t data i = (i + k)%nat.
Proof.
  induction data as [|r d IH]; intros k (B & L & E) i; cbn [length] in B; [lia|]. cbn [search_from].
  destruct (rlt_spec t (r_time r)) as [H|H].
  - destruct k as [|k]; [lia|]. specialize (E 0%nat). unfold T in E. cbn in E. specialize (E ltac:(lia)). lra.
  - destruct k as [|k]; [unfold T in L; cbn in L; lra|]. rewrite (IH k); [lia|]. split; [lia|]. split; [exact L|].
    intros j Hj. apply (E (S j)). lia.
Qed.
Lemma search_none data t : (forall i, (i < length data)%nat -> T data i <= t) -> forall i, search_from t data i = 0%nat.
Proof.
  induction data as [|r d IH]; intros E i; [reflexivity|]. cbn [search_from]. destruct (rlt_spec t (r_time r)) as [H|H].
  - specialize (E 0%nat). unfold T in E. cbn in E. specialize (E ltac:(lia)). lra.
  - apply IH. intros j Hj. apply (E (S j)). cbn. lia.
Qed.
Lemma sorted_le data i j : sorted data -> (i <= j < length data)%nat -> T data i <= T data j.
Proof. intros SD H. destruct (Nat.eq_dec i j) as [->|N]; [lra|]. left. apply SD. lia. Qed.

Lemma filled data n method period (r0 : nat) :
  sorted data -> (2 <= n)%nat -> (r0 + n <= length data)%nat ->
  exists s, fill n (mkTso data n method period (T data r0) r0 (orbit_interpolation n) (orbit_interpolation n) (0, 0, 0) (0, 0, 0) true) = Ok s /\
    Inv s r0 /\ s_data s = data /\ s_n s = n /\ s_method s = method /\ s_period s = period /\ s_ref_time s = T data r0 /\ s_enabled s = true.
Proof.
  intros SD N B. set (s0 := mkTso _ _ _ _ _ _ _ _ _ _ _).
  assert (F : filling s0 r0 0).
  { unfold filling, s0. cbn [s_data s_n s_ref_id s_ref_time s_opos s_ovel]. rewrite Nat.sub_0_r, o3_init. unfold rows_from, rel. cbn [firstn map]. rewrite !app_nil_r.
    repeat split; lia. }
  destruct (fill_ok n s0 r0 0%nat SD F eq_refl B) as (s & E & (RI & RT & KN & OP & OV) & D & N' & M & P & R' & En).
  change (s_data s0) with data in D. change (s_n s0) with n in N'. change (s_ref_time s0) with (T data r0) in R'. change (s_n s0) with n in *.
  exists s. split; [exact E|]. split; [|repeat split; assumption].
  rewrite D, N', R' in *. rewrite Nat.sub_diag in OP, OV. cbn [repeat app] in OP, OV. unfold Inv. rewrite D, N', R'. repeat split; assumption || lia.
Qed.

Lemma new_eq data n method period jd (start : nat) : sorted data -> (start < length data)%nat ->
  (if (n / 2 <=? search_nearest data jd)%nat then (search_nearest data jd - n / 2)%nat else 0%nat) = start ->
  tso_new data n method period jd =
   (let! s := fill n (mkTso data n method period (T data start) start (orbit_interpolation n) (orbit_interpolation n) (0, 0, 0) (0, 0, 0) true) in
    let! s := propagate s jd in Ok (set_enabled s false)).
Proof.
  intros SD B E. unfold tso_new. rewrite E. unfold ephemeris_time_data. rewrite (proj2 (Nat.ltb_ge _ _)) by lia. rewrite (nth_error_row data start B). reflexivity.
Qed.

(** Construction inside or before the file's time range: the window begins half a window before the first later row (or with the file);
    if the file has too few rows from there on, memory after the table is read. *)
Theorem C119_construction : forall data n method period jd k, sorted data -> (2 <= n)%nat -> first_after data (ephemeris_time jd) k ->
  let start := (k - n / 2)%nat in
  if (length data <? start + n)%nat then tso_new data n method period jd = UB
  else exists s, tso_new data n method period jd = Ok s /\ s_enabled s = false /\
    answer data n method period start start (ephemeris_time jd) (s_position s) (s_velocity s).
Proof.
  intros data n method period jd k SD N FA. cbv zeta. assert (FA' := FA). destruct FA' as (KB & KL & KE).
  set (start := (k - n / 2)%nat). assert (SB : (start < length data)%nat) by (unfold start; lia).
  assert (SE : (if (n / 2 <=? search_nearest data jd)%nat then (search_nearest data jd - n / 2)%nat else 0%nat) = start).
  { unfold search_nearest. rewrite (search_first _ _ k FA 0%nat). rewrite Nat.add_0_l. unfold start. destruct (Nat.leb_spec (n / 2) k); lia. }
  rewrite (new_eq data n method period jd start SD SB SE).
  destruct (Nat.ltb_spec (length data) (start + n)) as [L|L].
  - rewrite fill_short; [reflexivity| |]; cbn [s_data s_ref_id]; lia.
  - destruct (filled data n method period start SD N L) as (s & E & I & D & N' & M & P & R' & En). rewrite E. cbn [bind].
    pose proof (propagate_ok s start start jd En) as PR. rewrite D, N', M, P, R' in PR. specialize (PR SD N I eq_refl). cbv zeta in PR.
    assert (MN : (n / 2 <= medium_index n)%nat) by (unfold medium_index; apply Nat.div_le_mono; lia). pose proof (medium_lt n N) as ML.
    assert (W : advance data (medium_index n) start (ephemeris_time jd) = start).
    { unfold advance. destruct (Rlt_dec _ _) as [A|A]; [|reflexivity]. exfalso.
      assert (T data k <= T data (start + medium_index n)) by (apply sorted_le; [exact SD|unfold start in *; lia]). lra. }
    rewrite W in PR. rewrite (proj2 (Nat.ltb_ge _ _)) in PR by lia. destruct PR as (s' & Ep & I' & C & A).
    rewrite Ep. cbn [bind]. eexists. split; [reflexivity|]. split; [reflexivity|exact A].
Qed.
Print Assumptions C119_construction.

Theorem C119_fewer_than_two_points : forall data n method period jd, (n < 2)%nat -> tso_new data n method period jd = UB.
Proof.
  intros data n method period jd N. unfold tso_new, ephemeris_time_data. set (i := if (n / 2 <=? _)%nat then _ else _).
  assert (E0 : (n / 2 = 0)%nat) by (destruct n as [|[|n]]; [reflexivity|reflexivity|lia]).
  assert (IB : (i <= length data)%nat /\ (length data = 0 -> i = 0)%nat).
  { unfold i. rewrite E0, Nat.sub_0_r. cbn [Nat.leb]. unfold search_nearest. generalize (ephemeris_time jd). intros t.
    assert (H : forall l j, (search_from t l j <= j + length l)%nat).
    { induction l as [|r l IH]; intros j; cbn [search_from length]; [lia|]. destruct (rlt t (r_time r)); [lia|]. specialize (IH (S j)). lia. }
    specialize (H data 0%nat). lia. }
  rewrite (proj2 (Nat.ltb_ge _ _)) by lia. destruct (nth_error data i) as [r|] eqn:ER; [|reflexivity]. cbn [bind].
  assert (LB : (i < length data)%nat) by (apply nth_error_Some; congruence).
  destruct n as [|[|n]]; [reflexivity| |lia]. cbn [fill]. unfold update_interpolation, ephemeris_time_data. cbn [s_data s_ref_id s_ref_time s_opos s_ovel].
  rewrite (proj2 (Nat.ltb_ge _ _)) by lia. rewrite ER. cbn [bind]. rewrite (proj2 (Nat.leb_gt _ _)) by lia. rewrite ER.
  unfold orbit_interpolation, interpolation, orbit_push, push_and_pop. cbn [repeat length xs ys degree last]. destruct (r_pos r) as [[a b] c]. destruct (r_vel r) as [[u v] z].
  destruct (rle_spec (r_time r - r_time r) (-1)) as [H|H]; [lra|]. cbn [bind negb]. reflexivity.
Qed.
Print Assumptions C119_fewer_than_two_points.

Lemma history_aux data n method period start : sorted data -> (2 <= n)%nat -> forall jds s w jd,
  Inv s w -> s_data s = data -> s_n s = n -> s_method s = method -> s_period s = period -> s_ref_time s = T data start -> s_enabled s = true ->
  match walk data n (medium_index n) w (map ephemeris_time (jds ++ [jd])) with
  | None => propagates s (jds ++ [jd]) = UB
  | Some w' => exists s', propagates s (jds ++ [jd]) = Ok s' /\ answer data n method period start w' (ephemeris_time jd) (s_position s') (s_velocity s')
  end.
Proof.
  intros SD N. induction jds as [|j jds IH]; intros s w jd I D N' M P R' En; cbn [app map walk propagates].
  - pose proof (propagate_ok s w start jd En) as PR. rewrite D, N', M, P in PR. specialize (PR SD N I R'). cbv zeta in PR.
    destruct (Nat.ltb_spec (length data) (advance data (medium_index n) w (ephemeris_time jd) + n)) as [L|L].
    + rewrite PR. reflexivity.
    + destruct PR as (s' & Ep & I' & C & A). rewrite Ep. cbn [bind]. eauto.
  - pose proof (propagate_ok s w start j En) as PR. rewrite D, N', M, P in PR. specialize (PR SD N I R'). cbv zeta in PR.
    destruct (Nat.ltb_spec (length data) (advance data (medium_index n) w (ephemeris_time j) + n)) as [L|L].
    + rewrite PR. reflexivity.
    + destruct PR as (s' & Ep & I' & (C1 & C2 & C3 & C4 & C5 & C6) & A). rewrite Ep. cbn [bind]. apply (IH s'); congruence || assumption.
Qed.

(** Every history of Propagate calls: each call moves the window by at most one row, when the time is beyond the row in its middle;
    the call that would move it past the end of the table reads beyond the table; every other call reports [answer]. *)
Theorem C119_history : forall data n method period jd0 k s, sorted data -> (2 <= n)%nat -> first_after data (ephemeris_time jd0) k ->
  tso_new data n method period jd0 = Ok s ->
  let start := (k - n / 2)%nat in forall jds jd,
  match walk data n ((n + 1) / 2) start (map ephemeris_time (jds ++ [jd])) with
  | None => propagates (set_enabled s true) (jds ++ [jd]) = UB
  | Some w => exists s', propagates (set_enabled s true) (jds ++ [jd]) = Ok s' /\
                answer data n method period start w (ephemeris_time jd) (s_position s') (s_velocity s')
  end.
Proof.
  intros data n method period jd0 k s SD N FA E. cbv zeta. intros jds jd. fold (medium_index n).
  set (start := (k - n / 2)%nat).
  assert (FA' := FA). destruct FA' as (KB & KL & KE). assert (SB : (start < length data)%nat) by (unfold start; lia).
  assert (SE : (if (n / 2 <=? search_nearest data jd0)%nat then (search_nearest data jd0 - n / 2)%nat else 0%nat) = start).
  { unfold search_nearest. rewrite (search_first _ _ k FA 0%nat). rewrite Nat.add_0_l. unfold start. destruct (Nat.leb_spec (n / 2) k); lia. }
  rewrite (new_eq data n method period jd0 start SD SB SE) in E.
  destruct (Nat.ltb_spec (length data) (start + n)) as [L|L].
  { rewrite fill_short in E; [discriminate| |]; cbn [s_data s_ref_id]; lia. }
  destruct (filled data n method period start SD N L) as (s1 & E1 & I & D & N' & M & P & R' & En). rewrite E1 in E. cbn [bind] in E.
  pose proof (propagate_ok s1 start start jd0 En) as PR. rewrite D, N', M, P, R' in PR. specialize (PR SD N I eq_refl). cbv zeta in PR.
  assert (MN : (n / 2 <= medium_index n)%nat) by (unfold medium_index; apply Nat.div_le_mono; lia). pose proof (medium_lt n N) as ML.
  assert (W : advance data (medium_index n) start (ephemeris_time jd0) = start).
  { unfold advance. destruct (Rlt_dec _ _) as [A|A]; [|reflexivity]. exfalso.
    assert (T data k <= T data (start + medium_index n)) by (apply sorted_le; [exact SD|unfold start in *; lia]). lra. }
  rewrite W in PR. rewrite (proj2 (Nat.ltb_ge _ _)) in PR by lia. destruct PR as (s2 & Ep & I' & (C1 & C2 & C3 & C4 & C5 & C6) & A).
  rewrite Ep in E. cbn [bind] in E. injection E as <-.
  apply history_aux; try assumption; cbn [set_enabled s_data s_n s_method s_period s_ref_time s_enabled]; congruence.
Qed.
Print Assumptions C119_history.

(** switched off, nothing changes *)
Theorem C119_disabled : forall s jds, s_enabled s = false -> propagates s jds = Ok s.
Proof. intros s jds E. induction jds as [|j r IH]; [reflexivity|]. cbn [propagates]. unfold propagate. rewrite E. cbn [negb bind]. exact IH. Qed.
Print Assumptions C119_disabled.

Lemma rows_times_NoDup data w n : sorted data -> (w + n <= length data)%nat -> NoDup (map r_time (rows_from data w n)).
Proof.
  intros SD B. pose proof (rel_NoDup data w n 0 SD B) as H. unfold rel in H. erewrite map_ext in H; [exact H|]. intros r. cbn. ring.
Qed.
(** what [answer] means: motion that is polynomial in time with fewer coefficients than interpolation points is reported exactly,
    however far the window lags; and at the time of a row of the window that row is reported *)
Theorem C119_exact_on_polynomial_motion : forall data n method period start w t p v cx cy cz t0,
  sorted data -> (w + n < length data)%nat -> method <> 1%Z -> T data start <= t <= T data start + 1000000 ->
  (length cx <= n)%nat -> (length cy <= n)%nat -> (length cz <= n)%nat ->
  (forall r, In r data -> r_pos r = (peval cx (r_time r - t0), peval cy (r_time r - t0), peval cz (r_time r - t0))) ->
  answer data n method period start w t p v -> p = (peval cx (t - t0), peval cy (t - t0), peval cz (t - t0)).
Proof.
  intros data n method period start w t p v cx cy cz t0 SD B HM HT LX LY LZ HD (_ & _ & A). destruct (A HT B) as (A1 & _). destruct (A1 HM) as ((IX & IY & IZ) & _).
  pose proof (rows_times_NoDup data w n SD ltac:(lia)) as ND. assert (RL : length (rows_from data w n) = n) by (apply rows_length; lia).
  assert (IN : forall r, In r (rows_from data w n) -> r_pos r = (peval cx (r_time r - t0), peval cy (r_time r - t0), peval cz (r_time r - t0))).
  { intros r Hr. apply HD. destruct (in_rows data w n r ltac:(lia) Hr) as (i & Hi & ->). apply nth_In. lia. }
  destruct p as [[x y] z]. cbn [fst snd] in IX, IY, IZ.
  assert (X : x = peval cx (t - t0)). { apply (interpolated_unique (rows_from data w n) (fun r => fst (fst (r_pos r))) t); [exact ND|exact IX|]. exists cx, t0. rewrite RL. split; [exact LX|]. split; [|reflexivity]. intros r Hr. now rewrite (IN r Hr). }
  assert (Y : y = peval cy (t - t0)). { apply (interpolated_unique (rows_from data w n) (fun r => snd (fst (r_pos r))) t); [exact ND|exact IY|]. exists cy, t0. rewrite RL. split; [exact LY|]. split; [|reflexivity]. intros r Hr. now rewrite (IN r Hr). }
  assert (Z : z = peval cz (t - t0)). { apply (interpolated_unique (rows_from data w n) (fun r => snd (r_pos r)) t); [exact ND|exact IZ|]. exists cz, t0. rewrite RL. split; [exact LZ|]. split; [|reflexivity]. intros r Hr. now rewrite (IN r Hr). }
  now subst.
Qed.
Print Assumptions C119_exact_on_polynomial_motion.

Theorem C119_returns_rows : forall data n method period start w i p v,
  sorted data -> (w + n < length data)%nat -> method <> 1%Z -> (w <= i < w + n)%nat -> T data start <= T data i <= T data start + 1000000 ->
  answer data n method period start w (T data i) p v -> p = r_pos (nth i data row0) /\ v = r_vel (nth i data row0).
Proof.
  intros data n method period start w i p v SD B HM Hi HT (_ & _ & A). destruct (A HT B) as (A1 & _). destruct (A1 HM) as ((PX & PY & PZ) & (VX & VY & VZ)).
  assert (IN : In (nth i data row0) (rows_from data w n)).
  { replace i with (w + (i - w))%nat by lia. rewrite <- (nth_rows data w n (i - w)) by lia. apply nth_In. rewrite rows_length; lia. }
  assert (G : forall f x, interpolated (rows_from data w n) f (T data i) x -> x = f (nth i data row0)).
  { intros f x (c & t0 & _ & H & ->). apply (H _ IN). }
  apply G in PX, PY, PZ, VX, VY, VZ. destruct p as [[a b] c]. destruct v as [[d e] f]. cbn [fst snd] in *. subst.
  destruct (r_pos (nth i data row0)) as [[? ?] ?]. destruct (r_vel (nth i data row0)) as [[? ?] ?]. split; reflexivity.
Qed.
Print Assumptions C119_returns_rows.

Theorem C119_returns_rows_trigonometric : forall data n period start w i p v,
  sorted data -> (w + n < length data)%nat -> (2 <= n)%nat -> (w <= i < w + n)%nat -> T data start <= T data i <= T data start + 1000000 ->
  (forall a b, (w <= a < w + n)%nat -> (w <= b < w + n)%nat -> a <> b -> sin (2 * PI / period * (T data a - T data b) / 2) <> 0) ->
  answer data n 1 period start w (T data i) p v -> p = r_pos (nth i data row0) /\ v = r_vel (nth i data row0).
Proof.
  intros data n period start w i p v SD B N Hi HT HS (_ & _ & A). destruct (A HT B) as (_ & A1). destruct (A1 eq_refl) as ((PX & PY & PZ) & (VX & VY & VZ)).
  assert (RL : length (rows_from data w n) = n) by (apply rows_length; lia).
  assert (NR : forall j, (j < n)%nat -> nth j (map (fun r => r_time r - T data start) (rows_from data w n)) 0 = T data (w + j) - T data start).
  { intros j Hj. rewrite (nth_indep _ 0 ((fun r => r_time r - T data start) row0)) by (rewrite map_length; lia). rewrite (map_nth (fun r => r_time r - T data start)). now rewrite nth_rows by lia. }
  assert (G : forall f x, trigonometric (rows_from data w n) f period (T data start) (T data i) x -> x = f (nth i data row0)).
  { intros f x H. unfold trigonometric in H.
    pose proof (C57_returns_samples (map (fun r => r_time r - T data start) (rows_from data w n)) (map f (rows_from data w n)) (2 * PI / period) (i - w)) as Q.
    rewrite !map_length, RL in Q. specialize (Q eq_refl ltac:(lia) N).
    assert (SIN : forall a b, (a < n)%nat -> (b < n)%nat -> a <> b -> sin (2 * PI / period * (nth a (map (fun r => r_time r - T data start) (rows_from data w n)) 0 - nth b (map (fun r => r_time r - T data start) (rows_from data w n)) 0) / 2) <> 0).
    { intros a b Ha Hb Hab. rewrite !NR by assumption. replace (T data (w + a) - T data start - (T data (w + b) - T data start)) with (T data (w + a) - T data (w + b)) by ring. apply HS; lia. }
    specialize (Q SIN). rewrite NR in Q by lia. replace (w + (i - w))%nat with i in Q by lia. rewrite Q in H. injection H as <-.
    rewrite (nth_indep _ 0 (f row0)) by (rewrite map_length; lia). rewrite map_nth, nth_rows by lia. do 2 f_equal. lia. }
  apply G in PX, PY, PZ, VX, VY, VZ. destruct p as [[a b] c]. destruct v as [[d e] f]. cbn [fst snd] in *. subst.
  destruct (r_pos (nth i data row0)) as [[? ?] ?]. destruct (r_vel (nth i data row0)) as [[? ?] ?]. split; reflexivity.
Qed.
Print Assumptions C119_returns_rows_trigonometric.

(** ** C120 *)
Lemma spaced_sorted h data : 0 < h -> spaced h data -> sorted data.
Proof.
  intros H S0 i j. revert i. induction j as [|j IH]; intros i Hij; [lia|]. specialize (S0 j ltac:(lia)).
  destruct (Nat.eq_dec i j) as [->|N]; [lra|]. specialize (IH i ltac:(lia)). lra.
Qed.
Lemma tracking : forall data n m h start, 0 < h -> spaced h data -> (1 <= m < n)%nat -> (start + n < length data)%nat ->
  let e := (length data - n + m)%nat in
  forall ts t0 t, t0 <= T data (start + m) -> stepping h t0 (ts ++ [t]) ->
  (t <= T data (e - 1) -> exists w, walk data n m start (ts ++ [t]) = Some w /\ (w + n < length data)%nat /\ t <= T data (w + m) /\ (w = start \/ T data (w + m - 1) < t)) /\
  (T data (e - 1) < t <= T data e -> walk data n m start (ts ++ [t]) = Some (length data - n)%nat) /\
  (T data e < t -> walk data n m start (ts ++ [t]) = None) /\
  (T data e <= T data (length data - 1)) /\ ((m < n - 1)%nat -> T data e < T data (length data - 1)).
Proof.
  intros data n m h start H0 SP ML SN e ts t0 t HT0 ST. pose proof (spaced_sorted h data H0 SP) as SD.
  assert (EB : (e < length data)%nat) by (unfold e; lia).
  assert (KEY : forall ts w u, stepping h u ts -> (start <= w)%nat -> (w + n <= length data)%nat -> u <= T data (w + m) -> (w = start \/ T data (w + m - 1) < u) ->
     match walk data n m w ts with
     | None => T data e < last ts u
     | Some w' => (w' + n <= length data)%nat /\ last ts u <= T data (w' + m) /\ (w' = start \/ T data (w' + m - 1) < last ts u)
     end /\ u <= last ts u).
  { clear ts t0 t HT0 ST. induction ts as [|t ts IH]; intros w u ST SW WB LU LO; cbn [walk last]; [repeat split; try assumption; lra|].
    destruct ST as ((U1 & U2) & ST). unfold advance. 
    assert (LAST : last (match ts with [] => [t] | _ :: _ => t :: ts end) u = last ts t /\ (match ts with [] => t | _ :: _ => last ts u end) = last ts t).
    { destruct ts as [|b ts]; [split; reflexivity|]. assert (forall l (x : R) a b, last (x :: l) a = last (x :: l) b) as LL by (intros l; induction l as [|y l IHl]; intros; [reflexivity|]; change (last (y :: l) a = last (y :: l) b0); apply IHl).
      split; [change (last (b :: ts) u = last (b :: ts) t)|]; apply LL. }
    destruct LAST as (_ & ->).
    destruct (Rlt_dec (T data (w + m)) t) as [A|A].
    - destruct (Nat.ltb_spec (length data) (S w + n)) as [L|L].
      + assert (w + m = e)%nat as WE by (unfold e; lia). rewrite WE in A.
        assert (forall l v, stepping h v l -> v <= last l v) as MON.
        { induction l as [|b l IHl]; intros v Hv; cbn [last]; [lra|]. destruct Hv as ((V1 & V2) & V3). specialize (IHl b V3).
          assert ((match l with [] => b | _ :: _ => last l v end) = last l b) as -> by (destruct l as [|y l]; [reflexivity|]; clear; revert y; induction l as [|z l IHl]; intros y; [reflexivity|]; change (last (z :: l) v = last (z :: l) b); apply IHl). lra. }
        specialize (MON ts t ST). split; lra.
      + destruct (IH (S w) t ST) as (Q1 & Q2); try lia.
        * specialize (SP (w + m)%nat ltac:(lia)). replace (S w + m)%nat with (S (w + m)) by lia. lra.
        * right. replace (S w + m - 1)%nat with (w + m)%nat by lia. exact A.
        * split; [exact Q1|lra].
    - rewrite (proj2 (Nat.ltb_ge _ _)) by lia. destruct (IH w t ST) as (Q1 & Q2); try lia; [lra|destruct LO; [now left|right; lra]|]. split; [exact Q1|lra]. }
  destruct (KEY (ts ++ [t]) start t0 ST (le_n _) ltac:(lia) HT0 (or_introl eq_refl)) as (KW & _).
  assert (LT : last (ts ++ [t]) t0 = t) by apply last_last. rewrite LT in KW.
  assert (TE : T data (e - 1) < T data e) by (apply SD; unfold e; lia).
  split; [|split; [|split; [|split]]].
  - intros TL. destruct (walk data n m start (ts ++ [t])) as [w|]; [|lra]. destruct KW as (W1 & W2 & W3). exists w. split; [reflexivity|]. split; [|split; assumption].
    destruct W3 as [->|W3]; [lia|]. destruct (Nat.eq_dec (w + n) (length data)) as [Q|Q]; [|lia]. exfalso. replace (w + m - 1)%nat with (e - 1)%nat in W3 by (unfold e; lia). lra.
  - intros TL. destruct (walk data n m start (ts ++ [t])) as [w|]; [|lra]. destruct KW as (W1 & W2 & W3). f_equal.
    destruct (Nat.lt_ge_cases (w + m) e) as [Q|Q]; [|unfold e in Q; lia]. assert (T data (w + m) <= T data (e - 1)) by (apply sorted_le; [exact SD|lia]). lra.
  - intros TL. destruct (walk data n m start (ts ++ [t])) as [w|]; [|reflexivity]. destruct KW as (W1 & W2 & W3). exfalso.
    assert (T data (w + m) <= T data e) by (apply sorted_le; [exact SD|unfold e; lia]). lra.
  - apply sorted_le; [exact SD|lia].
  - intros N3. apply SD. unfold e. lia.
Qed.
(** Called with steps not longer than the spacing of the rows, the time stays in the middle interval of the window until the middle
    of the last window: before that the state is interpolated there, in the interval after it the last row is reported, after that
    interval (still inside the file when n > 3) memory beyond the table is read. *)
Theorem C120_tracking : forall data n h start, 0 < h -> spaced h data -> (2 <= n)%nat -> (start + n < length data)%nat ->
  let m := ((n + 1) / 2)%nat in let e := (length data - n + m)%nat in
  forall ts t0 t, t0 <= T data (start + m) -> stepping h t0 (ts ++ [t]) ->
  (t <= T data (e - 1) -> exists w, walk data n m start (ts ++ [t]) = Some w /\ (w + n < length data)%nat /\ t <= T data (w + m) /\ (w = start \/ T data (w + m - 1) < t)) /\
  (T data (e - 1) < t <= T data e -> walk data n m start (ts ++ [t]) = Some (length data - n)%nat) /\
  (T data e < t -> walk data n m start (ts ++ [t]) = None) /\
  (T data e <= T data (length data - 1)) /\ ((3 < n)%nat -> T data e < T data (length data - 1)).
Proof.
  intros data n h start H0 SP N SN m e ts t0 t HT0 ST.
  assert (ML : (1 <= m < n)%nat). { unfold m. pose proof (medium_lt n N) as Q. unfold medium_index in Q. split; [|exact Q]. apply Nat.div_le_lower_bound; lia. }
  destruct (tracking data n m h start H0 SP ML SN ts t0 t HT0 ST) as (A & B & C & D & F). repeat split; try assumption.
  intros N3. apply F. assert (m < n - 1)%nat; [|assumption]. unfold m. apply Nat.div_lt_upper_bound; lia.
Qed.
Print Assumptions C120_tracking.

(** example file: rows at seconds 0..7 after J2000, uniform motion *)
Definition line (k : nat) : list row := map (fun i => mkRow (INR i) (INR i, 0, 0) (1, 0, 0)) (seq 0 k).
Lemma line_T k i : (i < k)%nat -> T (line k) i = INR i /\ nth i (line k) row0 = mkRow (INR i) (INR i, 0, 0) (1, 0, 0).
Proof.
  intros H. assert (E : nth i (line k) row0 = mkRow (INR i) (INR i, 0, 0) (1, 0, 0)).
  { unfold line. rewrite (nth_indep _ row0 ((fun i => mkRow (INR i) (INR i, 0, 0) (1, 0, 0)) 0%nat)) by (rewrite map_length, seq_length; exact H).
    rewrite (map_nth (fun i => mkRow (INR i) (INR i, 0, 0) (1, 0, 0))). rewrite seq_nth by exact H. reflexivity. }
  split; [unfold T; now rewrite E|exact E].
Qed.
Lemma line_length k : length (line k) = k. Proof. unfold line. now rewrite map_length, seq_length. Qed.
Lemma line_spaced k : spaced 1 (line k).
Proof. intros i Hi. rewrite line_length in Hi. rewrite (proj1 (line_T k (S i) Hi)), (proj1 (line_T k i ltac:(lia))), S_INR. lra. Qed.
Lemma line_sorted k : sorted (line k). Proof. apply (spaced_sorted 1); [lra|apply line_spaced]. Qed.
Definition jd_of (t : R) : R := 2451545 + t / 86400.
Lemma jd_of_time t : ephemeris_time (jd_of t) = t. Proof. unfold ephemeris_time, jd_of. field. Qed.

(** "at the time of a row of the file the orbit is at that row" fails near the end of the file, and one step later the program reads beyond its table,
    both before the last row's time *)
Theorem C120_end_of_file_refuted : exists data n jd0 s, sorted data /\ tso_new data n 0 0 jd0 = Ok s /\
  exists jds i s', (i < length data - 1)%nat /\ propagates (set_enabled s true) jds = Ok s' /\ ephemeris_time (last jds 0) = T data i /\
    s_position s' <> r_pos (nth i data row0) /\
  exists jd, T data i < ephemeris_time jd < T data (length data - 1) /\ propagates (set_enabled s true) (jds ++ [jd]) = UB.
Proof.
  pose proof (line_sorted 6) as SD.
  assert (FA : first_after (line 6) (ephemeris_time (jd_of (1/2))) 1).
  { rewrite jd_of_time. split; [rewrite line_length; lia|]. split; [rewrite (proj1 (line_T 6 1 ltac:(lia))); cbn; lra|].
    intros i Hi. replace i with 0%nat by lia. rewrite (proj1 (line_T 6 0 ltac:(lia))). cbn. lra. }
  pose proof (C119_construction (line 6) 4 0 0 (jd_of (1/2)) 1 SD ltac:(lia) FA) as C. cbn [Nat.div Nat.divmod fst snd Nat.sub Nat.add] in C. rewrite line_length in C. cbn [Nat.ltb Nat.leb] in C.
  destruct C as (s & E & _ & _). exists (line 6), 4%nat, (jd_of (1/2)), s. split; [exact SD|]. split; [exact E|].
  assert (TT : forall i, (i < 6)%nat -> T (line 6) i = INR i) by (intros i Hi; apply (proj1 (line_T 6 i Hi))).
  pose proof (C119_history (line 6) 4 0 0 (jd_of (1/2)) 1 s SD ltac:(lia) FA E) as HI. cbv zeta in HI. change (1 - 4 / 2)%nat with 0%nat in HI. change ((4 + 1) / 2)%nat with 2%nat in HI.
  assert (A0 : advance (line 6) 2 0 (5/2) = 1%nat) by (unfold advance; rewrite TT by lia; destruct (Rlt_dec _ _) as [A|A]; [reflexivity|cbn in A; lra]).
  assert (A1 : advance (line 6) 2 1 4 = 2%nat) by (unfold advance; rewrite TT by lia; destruct (Rlt_dec _ _) as [A|A]; [reflexivity|cbn in A; lra]).
  assert (A2 : advance (line 6) 2 2 (9/2) = 3%nat) by (unfold advance; rewrite TT by lia; destruct (Rlt_dec _ _) as [A|A]; [reflexivity|cbn in A; lra]).
  exists ([jd_of (5/2)] ++ [jd_of 4]), 4%nat.
  pose proof (HI [jd_of (5/2)] (jd_of 4)) as H1. cbn [app map walk] in H1. rewrite !jd_of_time, A0, line_length in H1. cbn [Nat.add Nat.ltb Nat.leb] in H1. rewrite A1 in H1. cbn [Nat.add Nat.ltb Nat.leb] in H1.
  destruct H1 as (s' & P' & AN). exists s'. split; [rewrite line_length; lia|]. split; [exact P'|]. split; [cbn [last app]; rewrite jd_of_time, TT by lia; cbn; lra|].
  destruct AN as (_ & AN & _). rewrite !TT in AN by lia. rewrite line_length in AN. destruct AN as (AP & _); [cbn; lra|right; reflexivity|].
  split.
  { rewrite AP. change (6 - 1)%nat with 5%nat. rewrite (proj2 (line_T 6 5 ltac:(lia))), (proj2 (line_T 6 4 ltac:(lia))). cbn [r_pos]. intros Q. injection Q as Q. cbn in Q. lra. }
  exists (jd_of (9/2)). rewrite jd_of_time, line_length. rewrite !TT by lia. split; [cbn; lra|].
  pose proof (HI ([jd_of (5/2)] ++ [jd_of 4]) (jd_of (9/2))) as H2. cbn [app map walk] in H2. rewrite !jd_of_time, A0, line_length in H2. cbn [Nat.add Nat.ltb Nat.leb] in H2. rewrite A1 in H2. cbn [Nat.add Nat.ltb Nat.leb] in H2. rewrite A2 in H2. cbn [Nat.add Nat.ltb Nat.leb] in H2.
  exact H2.
Qed.
Print Assumptions C120_end_of_file_refuted.

(** steps longer than the spacing of the rows: the window falls behind and the state is extrapolated although later rows exist *)
Theorem C120_window_follows_refuted : exists data n start ts w, sorted data /\ walk data n ((n + 1) / 2) start ts = Some w /\
  (w + n < length data)%nat /\ T data (w + n - 1) < last ts 0 < T data (length data - 1).
Proof.
  exists (line 40), 4%nat, 0%nat, [20], 1%nat. split; [apply line_sorted|]. cbn [walk]. change ((4 + 1) / 2)%nat with 2%nat. unfold advance. cbn [Nat.add].
  rewrite (proj1 (line_T 40 2 ltac:(lia))). destruct (Rlt_dec (INR 2) 20) as [A|A]; [|cbn in A; lra]. rewrite line_length. cbn [Nat.ltb Nat.leb Nat.add]. split; [reflexivity|]. split; [lia|].
  cbn [Nat.sub Nat.add]. rewrite (proj1 (line_T 40 4 ltac:(lia))), (proj1 (line_T 40 39 ltac:(lia))). cbn [last]. rewrite !INR_IZR_INZ. cbn. lra.
Qed.
Print Assumptions C120_window_follows_refuted.

(** starting after the last row: the window is put at the beginning of the file *)
Theorem C120_late_start : forall data n method period jd, sorted data -> (2 <= n)%nat -> (n < length data)%nat ->
  T data (length data - 1) < ephemeris_time jd ->
  exists s, tso_new data n method period jd = Ok s /\ answer data n method period 0 1 (ephemeris_time jd) (s_position s) (s_velocity s).
Proof.
  intros data n method period jd SD N L HT.
  assert (AL : forall i, (i < length data)%nat -> T data i <= ephemeris_time jd).
  { intros i Hi. assert (T data i <= T data (length data - 1)) by (apply sorted_le; [exact SD|lia]). lra. }
  assert (SE : (if (n / 2 <=? search_nearest data jd)%nat then (search_nearest data jd - n / 2)%nat else 0%nat) = 0%nat).
  { unfold search_nearest. rewrite (search_none _ _ AL). destruct (n / 2 <=? 0)%nat; lia. }
  rewrite (new_eq data n method period jd 0 SD ltac:(lia) SE).
  destruct (filled data n method period 0 SD N ltac:(lia)) as (s & E & I & D & N' & M & P & R' & En). rewrite E. cbn [bind].
  pose proof (propagate_ok s 0 0 jd En) as PR. rewrite D, N', M, P, R' in PR. specialize (PR SD N I eq_refl). cbv zeta in PR. pose proof (medium_lt n N) as ML.
  assert (W : advance data (medium_index n) 0 (ephemeris_time jd) = 1%nat).
  { unfold advance. destruct (Rlt_dec _ _) as [A|A]; [reflexivity|]. exfalso. assert (T data (0 + medium_index n) < T data (length data - 1)) by (apply SD; lia). lra. }
  rewrite W in PR. rewrite (proj2 (Nat.ltb_ge _ _)) in PR by lia. destruct PR as (s' & Ep & I' & C & A).
  rewrite Ep. cbn [bind]. eexists. split; [reflexivity|exact A].
Qed.
Print Assumptions C120_late_start.

(** the hypotheses are met *)
Example C119_example : sorted (line 20) /\ first_after (line 20) (ephemeris_time (jd_of (9/2))) 5 /\ (5 - 4 / 2 + 4 < length (line 20))%nat /\ stepping 1 (9/2) [5; 6; 13/2] /\
  (forall r, In r (line 20) -> r_pos r = (peval [0; 1] (r_time r - 0), peval [] (r_time r - 0), peval [] (r_time r - 0))).
Proof.
  split; [apply line_sorted|]. split.
  { rewrite jd_of_time. split; [rewrite line_length; lia|]. split; [rewrite (proj1 (line_T 20 5 ltac:(lia))); cbn; lra|].
    intros i Hi. rewrite (proj1 (line_T 20 i ltac:(lia))). apply (Rle_trans _ (INR 4)); [apply le_INR; lia|cbn; lra]. }
  split; [rewrite line_length; cbn; lia|]. split; [cbn [stepping]; repeat split; lra|].
  intros r Hr. unfold line in Hr. apply in_map_iff in Hr. destruct Hr as (i & <- & _). cbn [r_pos r_time peval]. f_equal. f_equal. ring.
Qed.
