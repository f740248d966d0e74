(** C121, C122: GNSS satellites interpolated from SP3 files. *)
From Coq Require Import Reals Lra Lia List Bool Arith ZArith.
From Verif Require Import Base RBase VecModel LuModel InterpModel InterpSpec InterpProofs InterpProps TimeSeriesModel TimeSeriesSpec TimeSeriesProofs TimeSeriesProps GnssSatModel GnssSatSpec GnssSatProofs.
Import ListNotations.
Open Scope R_scope.

(** an entry that the file does not have: position zero and the clock value that marks missing data *)
Theorem C122_missing_entry : forall f n epoch sat, complete n f ->
  ((epoch < length (f_epochs f))%nat -> (sat < n)%nat -> exists e, nth_error (nth sat (f_pc f) []) epoch = Some e /\ position_clock f epoch sat = Ok e) /\
  ((length (f_epochs f) <= epoch)%nat \/ (length (f_pc f) <= sat)%nat -> position_clock f epoch sat = Ok ((0, 0, 0), 999999.999999)).
Proof.
  intros f n epoch sat (_ & _ & L & C). unfold position_clock. split.
  - intros E S0. rewrite (proj2 (Nat.leb_gt _ _) E), (proj2 (Nat.leb_gt _ _)) by lia. cbn [orb].
    destruct (nth_error (nth sat (f_pc f) []) epoch) as [e|] eqn:Q; [now exists e|]. apply nth_error_None in Q. rewrite (C sat S0) in Q. lia.
  - intros [H|H]; apply Nat.leb_le in H; rewrite H; rewrite ?orb_true_r; cbn [orb]; do 2 f_equal; lra.
Qed.
Print Assumptions C122_missing_entry.

(** ** C121: one table out of all files *)
(** The first window begins four epochs before the epoch nearest to the start time, but not before the beginning of the day's file;
    it runs on into the next file; without nine epochs left the program reads beyond its files. *)
Theorem C121_initialisation : forall files n t i f m,
  (forall f, In f files -> complete n f) -> sorted (all_rows files 0) ->
  covers files t i -> nth_error files i = Some f -> f_nsat f = n -> even f -> nearest_epoch f t m ->
  let start := (offset files i + (m - 4))%nat in
  if (start + 9 <=? length (all_rows files 0))%nat
  then exists g, gnss_init files t = Ok (Some g) /\ serves g files n start start t
  else gnss_init files t = UB.
Proof.
  intros files n t i f m HC SD CV HF NS EV NE start. pose proof (init_ok files n t i f m HC SD HF CV NS EV NE) as IO. cbv zeta in IO. fold start in IO.
  destruct (start + 9 <=? length (all_rows files 0))%nat; [|exact IO]. destruct IO as (g & E & GI & RT & CU). exists g. split; [exact E|]. now apply serves_ok.
Qed.
Print Assumptions C121_initialisation.

(** Every history of updates: the window moves one epoch, through all files, whenever the time has passed its middle epoch; leaving
    the last file is an out-of-bounds read. *)
Theorem C121_history : forall files n t i f m g,
  (forall f, In f files -> complete n f) -> sorted (all_rows files 0) -> (0 < n)%nat ->
  covers files t i -> nth_error files i = Some f -> f_nsat f = n -> even f -> nearest_epoch f t m ->
  gnss_init files t = Ok (Some g) ->
  let start := (offset files i + (m - 4))%nat in
  forall ts, match walk (all_rows files 0) 9 4 start ts with
             | None => gnss_updates g ts = UB
             | Some w => exists g', gnss_updates g ts = Ok g' /\ serves g' files n start w (last ts t)
             end.
Proof.
  intros files n t i f m g HC SD HN CV HF NS EV NE GI start ts. pose proof (init_ok files n t i f m HC SD HF CV NS EV NE) as IO. cbv zeta in IO. fold start in IO.
  destruct (start + 9 <=? length (all_rows files 0))%nat; [|congruence]. destruct IO as (g0 & E & GV & RT & CU). rewrite E in GI. injection GI as ->.
  pose proof (updates_ok files n (T (all_rows files 0) start) ts HC SD HN g start RT ltac:(lra) GV) as U.
  destruct (walk (all_rows files 0) 9 4 start ts) as [w|]; [|exact U]. destruct U as (g' & E' & G' & R' & C'). exists g'. split; [exact E'|]. rewrite CU in C'. now apply serves_ok.
Qed.
Print Assumptions C121_history.

(** Updated with steps not longer than the spacing of the epochs, the time stays in the interval before the window's middle epoch;
    five epochs before the end of the last file the program crashes. *)
Theorem C121_tracking : forall files h start, 0 < h -> spaced h (all_rows files 0) -> (start + 9 < length (all_rows files 0))%nat ->
  let rows := all_rows files 0 in let e := (length rows - 5)%nat in
  forall ts t0 t, t0 <= T rows (start + 4) -> stepping h t0 (ts ++ [t]) ->
  (t <= T rows e -> exists w, walk rows 9 4 start (ts ++ [t]) = Some w /\ (w + 9 <= length rows)%nat /\ t <= T rows (w + 4) /\ (w = start \/ T rows (w + 3) < t)) /\
  (T rows e < t -> walk rows 9 4 start (ts ++ [t]) = None) /\ T rows e < T rows (length rows - 1).
Proof.
  intros files h start H0 SP SN rows e ts t0 t HT ST. destruct (tracking rows 9 4 h start H0 SP ltac:(lia) SN ts t0 t HT ST) as (A & B & C & D & F). fold rows in SN.
  replace (length rows - 9 + 4)%nat with e in * by (unfold e; lia). split; [|split; [exact C|apply F; lia]].
  intros TL. destruct (Rle_lt_dec t (T rows (e - 1))) as [Q|Q].
  - destruct (A Q) as (w & W1 & W2 & W3 & W4). exists w. split; [exact W1|]. split; [lia|]. split; [exact W3|]. replace (w + 4 - 1)%nat with (w + 3)%nat in W4 by lia. exact W4.
  - exists (length rows - 9)%nat. split; [apply B; lra|]. split; [lia|]. replace (length rows - 9 + 4)%nat with e by (unfold e; lia). split; [exact TL|]. right.
    replace (length rows - 9 + 3)%nat with (e - 1)%nat by (unfold e; lia). exact Q.
Qed.
Print Assumptions C121_tracking.

Lemma half_period_sin a : a <> 0 -> - (86400 * 1003 / 1000) < a < 86400 * 1003 / 1000 -> sin (2 * PI / (86400 * 1003 / 1000) * a / 2) <> 0.
Proof.
  intros N B. set (P := 86400 * 1003 / 1000) in *. assert (PP : 0 < P) by (unfold P; lra). pose proof PI_RGT_0 as PI0.
  replace (2 * PI / P * a / 2) with (PI * (a / P)) by (field; lra).
  assert (A1 : -1 < a / P < 1). { split; apply (Rmult_lt_reg_r P); try exact PP; unfold Rdiv; rewrite Rmult_assoc, Rinv_l by lra; lra. }
  destruct (Rlt_le_dec a 0) as [Q|Q].
  - assert (a / P < 0). { apply (Rmult_lt_reg_r P); [exact PP|]. unfold Rdiv. rewrite Rmult_assoc, Rinv_l by lra. lra. }
    assert (0 < sin (- (PI * (a / P)))). { apply sin_gt_0; [nra|]. assert (PI * (- (a / P)) < PI * 1) by (apply Rmult_lt_compat_l; lra). lra. } rewrite sin_neg in H0. lra.
  - assert (0 < a / P). { apply (Rmult_lt_reg_r P); [exact PP|]. unfold Rdiv. rewrite Rmult_assoc, Rinv_l by lra. lra. }
    assert (0 < sin (PI * (a / P))). { apply sin_gt_0; [nra|]. assert (PI * (a / P) < PI * 1) by (apply Rmult_lt_compat_l; lra). lra. } lra.
Qed.

Lemma window_sines files sat w t0 : sorted (all_rows files 0) -> (w + 9 <= length (all_rows files 0))%nat ->
  T (all_rows files 0) (w + 8) - T (all_rows files 0) w < 86400 * 1003 / 1000 ->
  let x := map (fun r => r_time r - t0) (rows_from (all_rows files sat) w 9) in length x = 9%nat /\
  (forall a, (a < 9)%nat -> nth a x 0 = T (all_rows files 0) (w + a) - t0) /\
  forall a b, (a < 9)%nat -> (b < 9)%nat -> a <> b -> sin (2 * PI / (86400 * 1003 / 1000) * (nth a x 0 - nth b x 0) / 2) <> 0.
Proof.
  intros SD B SP x. assert (BS : (w + 9 <= length (all_rows files sat))%nat) by (rewrite (all_length files sat 0); exact B).
  assert (RL : length (rows_from (all_rows files sat) w 9) = 9%nat) by (apply rows_length; exact BS).
  assert (NR : forall a, (a < 9)%nat -> nth a x 0 = T (all_rows files 0) (w + a) - t0).
  { intros a Ha. unfold x. rewrite (nth_indep _ 0 ((fun r => r_time r - t0) row0)) by (rewrite map_length; lia). rewrite (map_nth (fun r => r_time r - t0)). rewrite nth_rows by exact Ha.
    now rewrite (all_T files 0 sat (w + a)). }
  split; [unfold x; now rewrite map_length|]. split; [exact NR|]. intros a b Ha Hb NE. rewrite !NR by assumption.
  assert (MONO : forall c, (c < 9)%nat -> T (all_rows files 0) w <= T (all_rows files 0) (w + c) <= T (all_rows files 0) (w + 8)).
  { intros c Hc. split; apply sorted_le; try exact SD; lia. }
  pose proof (MONO a Ha). pose proof (MONO b Hb). apply half_period_sin.
  - destruct (Nat.lt_trichotomy a b) as [Q|[Q|Q]]; [|lia|]; [assert (T (all_rows files 0) (w + a) < T (all_rows files 0) (w + b)) by (apply SD; lia)|assert (T (all_rows files 0) (w + b) < T (all_rows files 0) (w + a)) by (apply SD; lia)]; lra.
  - lra.
Qed.

(** At the epochs of its window the object returns the file's position in metres and clock offset in seconds. *)
Theorem C121_returns_samples : forall files n start w now g sat i,
  sorted (all_rows files 0) -> (w + 9 <= length (all_rows files 0))%nat ->
  T (all_rows files 0) (w + 8) - T (all_rows files 0) w < 86400 * 1003 / 1000 ->
  serves g files n start w now -> (sat < n)%nat -> (w <= i < w + 9)%nat ->
  let time := T (all_rows files 0) i in Int_part time <> 0%Z -> T (all_rows files 0) start <= time <= T (all_rows files 0) start + 1000000 ->
  gnss_position g sat time = Ok (r_pos (nth i (all_rows files sat) row0)) /\
  gnss_clock g sat time = Ok (clock_us (nth i (all_rows files sat) row0) / 1000000).
Proof.
  intros files n start w now g sat i SD B SP SV HS Hi time IP HT. set (t0 := T (all_rows files 0) start) in *.
  destruct (SV sat time time) as (_ & _ & _ & A). { destruct (Z.eqb_spec (Int_part time) 0); [contradiction|reflexivity]. }
  destruct (A HT HS) as (p & c & us & EP & (PX & PY & PZ) & EC & Ec & IC). rewrite EP, EC, Ec.
  assert (BS : (w + 9 <= length (all_rows files sat))%nat) by (rewrite (all_length files sat 0); exact B).
  destruct (window_sines files sat w t0 SD B SP) as (XL & NR & SIN). cbv zeta in XL, NR, SIN.
  assert (TI : nth (i - w) (map (fun r => r_time r - t0) (rows_from (all_rows files sat) w 9)) 0 = time - t0) by (rewrite NR by lia; unfold time; do 2 f_equal; lia).
  split; f_equal.
  - assert (G : forall f x, trigonometric (rows_from (all_rows files sat) w 9) f (86400 * 1003 / 1000) t0 time x -> x = f (nth i (all_rows files sat) row0)).
    { intros f x H. unfold trigonometric in H.
      pose proof (C57_returns_samples (map (fun r => r_time r - t0) (rows_from (all_rows files sat) w 9)) (map f (rows_from (all_rows files sat) w 9)) (2 * PI / (86400 * 1003 / 1000)) (i - w)) as Q.
      rewrite XL in Q. rewrite map_length, rows_length in Q by exact BS. specialize (Q eq_refl ltac:(lia) ltac:(lia) SIN). rewrite TI in Q. rewrite Q in H. injection H as <-.
      rewrite (nth_indep _ 0 (f row0)) by (rewrite map_length, rows_length; lia). rewrite map_nth, nth_rows by lia. do 2 f_equal. lia. }
    apply G in PX, PY, PZ. destruct p as [[a b] d]. cbn [fst snd] in *. subst. destruct (r_pos (nth i (all_rows files sat) row0)) as [[? ?] ?]. reflexivity.
  - f_equal. destruct IC as (cs & t1 & _ & HR & ->). assert (IR : In (nth i (all_rows files sat) row0) (rows_from (all_rows files sat) w 9)).
    { replace (nth i (all_rows files sat) row0) with (nth (i - w) (rows_from (all_rows files sat) w 9) row0) by (rewrite nth_rows by lia; f_equal; lia). apply nth_In. rewrite rows_length; lia. }
    rewrite <- (HR _ IR). f_equal. f_equal. change (r_time (nth i (all_rows files sat) row0)) with (T (all_rows files sat) i). unfold time. apply all_T.
Qed.
Print Assumptions C121_returns_samples.

(** Between the epochs the position is exact for motions that are trigonometric polynomials of degree four in the Earth's rotation
    with the period 1.003 days, the clock for polynomials of degree below nine. *)
Theorem C121_exact : forall files n start w now g sat cx cy cz cc t1 time,
  sorted (all_rows files 0) -> (w + 9 <= length (all_rows files 0))%nat ->
  T (all_rows files 0) (w + 8) - T (all_rows files 0) w < 86400 * 1003 / 1000 ->
  serves g files n start w now -> (sat < n)%nat -> Int_part time <> 0%Z ->
  let t0 := T (all_rows files 0) start in let angle t := 2 * PI / (86400 * 1003 / 1000) * (t - t0) in
  t0 <= time <= t0 + 1000000 ->
  (forall r, In r (rows_from (all_rows files sat) w 9) ->
     r_pos r = (trig_poly cx 4 (angle (r_time r)), trig_poly cy 4 (angle (r_time r)), trig_poly cz 4 (angle (r_time r)))) ->
  (length cc <= 9)%nat -> (forall r, In r (rows_from (all_rows files sat) w 9) -> clock_us r = peval cc (r_time r - t1)) ->
  gnss_position g sat time = Ok (trig_poly cx 4 (angle time), trig_poly cy 4 (angle time), trig_poly cz 4 (angle time)) /\
  gnss_clock g sat time = Ok (peval cc (time - t1) / 1000000).
Proof.
  intros files n start w now g sat cx cy cz cc t1 time SD B SP SV HS IP t0 angle HT HM LC HK.
  destruct (SV sat time time) as (_ & _ & _ & A). { destruct (Z.eqb_spec (Int_part time) 0); [contradiction|reflexivity]. }
  destruct (A HT HS) as (p & c & us & EP & (PX & PY & PZ) & EC & Ec & IC). fold t0 in PX, PY, PZ. rewrite EP, EC, Ec.
  destruct (window_sines files sat w t0 SD B SP) as (XL & NR & SIN). cbv zeta in XL, NR, SIN.
  assert (BS : (w + 9 <= length (all_rows files sat))%nat) by (rewrite (all_length files sat 0); exact B).
  split; f_equal.
  - assert (G : forall f cf x, (forall r, In r (rows_from (all_rows files sat) w 9) -> f r = trig_poly cf 4 (angle (r_time r))) ->
       trigonometric (rows_from (all_rows files sat) w 9) f (86400 * 1003 / 1000) t0 time x -> x = trig_poly cf 4 (angle time)).
    { intros f cf x HF H. unfold trigonometric in H. set (X := map (fun r => r_time r - t0) (rows_from (all_rows files sat) w 9)) in *.
      replace (map f (rows_from (all_rows files sat) w 9)) with (map (fun a => trig_poly cf 4 (2 * PI / (86400 * 1003 / 1000) * a)) X) in H.
      2:{ unfold X. rewrite map_map. apply map_ext_in. intros r Hr. symmetry. apply HF. exact Hr. }
      rewrite C57_exact_on_trigonometric_polynomials in H; [injection H as <-; reflexivity|rewrite XL; reflexivity|rewrite XL; exact SIN]. }
    apply (G _ cx) in PX; [|intros r Hr; rewrite (HM r Hr); reflexivity]. apply (G _ cy) in PY; [|intros r Hr; rewrite (HM r Hr); reflexivity]. apply (G _ cz) in PZ; [|intros r Hr; rewrite (HM r Hr); reflexivity].
    destruct p as [[a b] d]. cbn [fst snd] in *. subst. reflexivity.
  - f_equal. apply (interpolated_unique (rows_from (all_rows files sat) w 9) clock_us time); [|exact IC|].
    + pose proof (rel_NoDup (all_rows files 0) w 9 0 SD B) as ND. rewrite <- (rel_same files sat 0 w 9 B) in ND. unfold rel in ND.
      replace (map (fun r => r_time r - 0) (rows_from (all_rows files sat) w 9)) with (map r_time (rows_from (all_rows files sat) w 9)) in ND by (apply map_ext; intros r; ring). exact ND.
    + exists cc, t1. rewrite rows_length by exact BS. split; [exact LC|]. split; [|reflexivity]. intros r Hr. symmetry. now apply HK.
Qed.
Print Assumptions C121_exact.

(** ** C122: choosing file and epoch *)
Theorem C122_nearest_epoch : forall f t, (0 < length (f_epochs f))%nat -> f_nepoch f = length (f_epochs f) -> even f ->
  forall m, search_epoch f t = Ok m <-> nearest_epoch f t m.
Proof.
  intros f t H1 H2 EV m. destruct (search_nearest_ok f t H1 H2 EV) as (m' & E & N). rewrite E. split; [intros Q; injection Q as <-; exact N|]. intros N'. f_equal. exact (nearest_unique f t m' m N N').
Qed.
Print Assumptions C122_nearest_epoch.

(** when no file's day contains the start time nothing is read and the object stays uninitialised; in every other case the file of the
    day is used *)
Theorem C122_file_of_the_day : forall files t, files <> [] ->
  (gnss_init files t = Ok None <-> forall i, ~ covers files t i) /\
  (forall i j, covers files t i -> covers files t j -> i = j).
Proof.
  intros files t NE. split.
  - unfold gnss_init. destruct files as [|f0 fr]; [congruence|]. set (files := f0 :: fr). destruct (current_file files 0 t) as [i|] eqn:E.
    + split.
      * intros Q. exfalso. destruct (nth_error files i); [|discriminate]. destruct (search_epoch s t); cbn [bind] in Q; try discriminate. destruct (epoch_at s _); cbn [bind] in Q; try discriminate.
        destruct (gnss_fill 9 _); cbn [bind] in Q; discriminate.
      * intros Q. exfalso. apply (Q i). now apply current_file_covers.
    + split; [|reflexivity]. intros _ i C. apply current_file_covers in C. fold files in C. congruence.
  - intros i j Ci Cj. apply current_file_covers in Ci, Cj. congruence.
Qed.
Print Assumptions C122_file_of_the_day.

(** example: files of ten epochs, one every 8640 s (a day), one satellite standing still *)
Definition efile (d : nat) : sp3 := mkSp3 (INR d * 86400) 10 8640 1 (map (fun k => INR d * 86400 + INR k * 8640) (seq 0 10)) [repeat ((7000, 0, 0), 5) 10].
Lemma efile_complete d : complete 1 (efile d).
Proof. split; [cbn; lia|]. split; [reflexivity|]. split; [cbn; lia|]. intros sat H. replace sat with 0%nat by lia. reflexivity. Qed.
Lemma efile_even d : even (efile d).
Proof.
  split; [cbn; lra|]. intros k Hk. cbn [f_epochs efile length] in *. rewrite map_length, seq_length in Hk. set (h := fun k => INR d * 86400 + INR k * 8640).
  rewrite !(nth_indep _ 0 (h 0%nat)) by (rewrite map_length, seq_length; lia). rewrite !(map_nth h), !seq_nth by lia. unfold h. cbn [f_interval efile INR Nat.add]. lra.
Qed.
Lemma etable_length a b : length (all_rows [efile a; efile b] 0) = 20%nat.
Proof. reflexivity. Qed.
Lemma etable_T i : (i < 20)%nat -> T (all_rows [efile 1; efile 2] 0) i = 86400 + INR i * 8640.
Proof.
  intros H. unfold T, all_rows. cbn [flat_map]. rewrite app_nil_r.
  assert (EF : forall d k, (k < 10)%nat -> r_time (nth k (file_rows 0 (efile d)) row0) = INR d * 86400 + INR k * 8640).
  { intros d k Hk. rewrite nth_file_row by (cbn [f_epochs efile]; rewrite map_length, seq_length; exact Hk). cbn [r_time]. cbn [f_epochs efile]. set (h := fun k => INR d * 86400 + INR k * 8640).
    rewrite (nth_indep _ 0 (h 0%nat)) by (rewrite map_length, seq_length; lia). rewrite (map_nth h), seq_nth by lia. reflexivity. }
  destruct (Nat.lt_ge_cases i 10) as [L|L].
  - rewrite app_nth1 by (rewrite rows_of_length; cbn [f_epochs efile]; rewrite map_length, seq_length; exact L). rewrite EF by exact L. cbn. lra.
  - rewrite app_nth2; rewrite rows_of_length; cbn [f_epochs efile]; rewrite map_length, seq_length; [|exact L]. rewrite EF by lia. rewrite minus_INR by exact L. cbn. lra.
Qed.
Lemma etable_spaced : spaced 8640 (all_rows [efile 1; efile 2] 0).
Proof. intros i Hi. rewrite etable_length in Hi. rewrite !etable_T by lia. rewrite S_INR. lra. Qed.
Lemma efile_nth d k : (k < 10)%nat -> nth k (f_epochs (efile d)) 0 = INR d * 86400 + INR k * 8640.
Proof.
  intros Hk. cbn [f_epochs efile]. set (h := fun k => INR d * 86400 + INR k * 8640). rewrite (nth_indep _ 0 (h 0%nat)) by (rewrite map_length, seq_length; lia). rewrite (map_nth h), seq_nth by lia. reflexivity.
Qed.
Lemma efile_first d : nearest_epoch (efile d) (INR d * 86400 + 1000) 0.
Proof.
  split; [cbn; lia|]. intros k Hk Nk. assert (HK : (k < 10)%nat) by exact Hk. left. rewrite !efile_nth by lia. cbn [INR]. rewrite Rabs_pos_eq by lra.
  assert (1 <= INR k) by (apply (le_INR 1); lia). rewrite Rabs_left by lra. lra.
Qed.

(** "the window is centred on the start time whenever the files hold the epochs around it" fails in the first hours of a day's file *)
Theorem C122_centred_window_refuted : exists files n t i g,
  (forall f, In f files -> complete n f) /\ (forall f, In f files -> even f) /\ sorted (all_rows files 0) /\ (4 <= i)%nat /\ (i + 4 < length (all_rows files 0))%nat /\
  T (all_rows files 0) i < t < T (all_rows files 0) (S i) /\ gnss_init files t = Ok (Some g) /\ serves g files n i i t.
Proof.
  assert (SD : sorted (all_rows [efile 1; efile 2] 0)) by (apply (spaced_sorted 8640); [lra|apply etable_spaced]).
  assert (HC : forall f, In f [efile 1; efile 2] -> complete 1 f) by (intros f [<-|[<-|[]]]; apply efile_complete).
  assert (CV : covers [efile 1; efile 2] (INR 2 * 86400 + 1000) 1).
  { exists (efile 2). split; [reflexivity|]. split; [cbn [f_start efile]; lra|]. intros j g Hj Hn. replace j with 0%nat in Hn by lia. injection Hn as <-. cbn. lra. }
  pose proof (C121_initialisation [efile 1; efile 2] 1 (INR 2 * 86400 + 1000) 1 (efile 2) 0 HC SD CV eq_refl eq_refl (efile_even 2) (efile_first 2)) as IN.
  cbv zeta in IN. change (offset [efile 1; efile 2] 1 + (0 - 4))%nat with 10%nat in IN. rewrite etable_length in IN. cbn [Nat.add Nat.leb] in IN. destruct IN as (g & E & SV).
  exists [efile 1; efile 2], 1%nat, (INR 2 * 86400 + 1000), 10%nat, g. split; [exact HC|]. split; [intros f [<-|[<-|[]]]; apply efile_even|]. split; [exact SD|]. split; [lia|]. split; [rewrite etable_length; lia|].
  split; [rewrite !etable_T by lia; cbn; lra|]. split; [exact E|exact SV].
Qed.
Print Assumptions C122_centred_window_refuted.

(** "an object with the data of a day can be created at any time of that day": starting in
    the last hours of the last file reads out of bounds *)
Theorem C122_end_of_files_refuted : exists files n t i, (forall f, In f files -> complete n f) /\ (forall f, In f files -> even f) /\ sorted (all_rows files 0) /\
  covers files t i /\ t < T (all_rows files 0) (length (all_rows files 0) - 1) /\ gnss_init files t = UB.
Proof.
  assert (SD : sorted (all_rows [efile 1; efile 2] 0)) by (apply (spaced_sorted 8640); [lra|apply etable_spaced]).
  assert (HC : forall f, In f [efile 1; efile 2] -> complete 1 f) by (intros f [<-|[<-|[]]]; apply efile_complete).
  set (t := INR 2 * 86400 + 6 * 8640).
  assert (CV : covers [efile 1; efile 2] t 1).
  { exists (efile 2). split; [reflexivity|]. unfold t. split; [cbn [f_start efile]; lra|]. intros j g Hj Hn. replace j with 0%nat in Hn by lia. injection Hn as <-. cbn. lra. }
  assert (NE : nearest_epoch (efile 2) t 6).
  { split; [cbn; lia|]. intros k Hk Nk. assert (HK : (k < 10)%nat) by exact Hk. left. rewrite !efile_nth by lia. unfold t. rewrite (INR_IZR_INZ 6). cbn [Z.of_nat Pos.of_succ_nat Pos.succ].
    replace (INR 2 * 86400 + 6 * 8640 - (INR 2 * 86400 + 6 * 8640)) with 0 by ring. rewrite Rabs_R0. apply Rabs_pos_lt. intros Q. apply Nk. apply INR_eq. rewrite (INR_IZR_INZ 6). cbn [Z.of_nat Pos.of_succ_nat Pos.succ]. lra. }
  pose proof (C121_initialisation [efile 1; efile 2] 1 t 1 (efile 2) 6 HC SD CV eq_refl eq_refl (efile_even 2) NE) as IN.
  cbv zeta in IN. change (offset [efile 1; efile 2] 1 + (6 - 4))%nat with 12%nat in IN. rewrite etable_length in IN. cbn [Nat.add Nat.leb] in IN.
  exists [efile 1; efile 2], 1%nat, t, 1%nat. split; [exact HC|]. split; [intros f [<-|[<-|[]]]; apply efile_even|]. split; [exact SD|]. split; [exact CV|]. split; [|exact IN].
  rewrite etable_length. cbn [Nat.sub]. rewrite etable_T by lia. unfold t. rewrite !INR_IZR_INZ. cbn [Z.of_nat Pos.of_succ_nat Pos.succ]. lra.
Qed.
Print Assumptions C122_end_of_files_refuted.

(** the hypotheses are met: a start on the second day of three files, and a history *)
Example C121_example : forall f, In f [efile 1; efile 2] -> complete 1 f /\ even f.
Proof. intros f [<-|[<-|[]]]; split; (apply efile_complete || apply efile_even). Qed.
Example C121_example_window : T (all_rows [efile 1; efile 2] 0) (3 + 8) - T (all_rows [efile 1; efile 2] 0) 3 < 86400 * 1003 / 1000 /\
  walk (all_rows [efile 1; efile 2] 0) 9 4 0 [130000] = Some 1%nat.
Proof.
  split; [rewrite !etable_T by lia; rewrite !INR_IZR_INZ; cbn [Z.of_nat Pos.of_succ_nat Pos.succ Nat.add]; lra|]. cbn [walk]. unfold advance. cbn [Nat.add]. rewrite etable_T by lia.
  destruct (Rlt_dec _ _) as [A|A]; [reflexivity|]. exfalso. apply A. rewrite INR_IZR_INZ. cbn [Z.of_nat Pos.of_succ_nat Pos.succ]. lra.
Qed.
