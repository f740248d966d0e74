From Coq Require Import List ZArith Bool Reals Lia Lra.
From Verif Require Import Base TimeModel TimeSpec.
Import ListNotations.
Open Scope Z_scope.

(** ** finite sweep over the four-year cycle *)
Fixpoint off (tbl : list Z) (k : nat) : Z :=
  match k, tbl with S k', m :: t => m + off t k' | _, _ => 0 end.

Definition zrange (n : nat) : list Z := map Z.of_nat (seq 0 n).
Lemma in_zrange n x : 0 <= x < Z.of_nat n -> In x (zrange n).
Proof.
  intros H. unfold zrange. apply in_map_iff. exists (Z.to_nat x). split; [lia|].
  apply in_seq. lia.
Qed.

Lemma loop_fwd : forall r, 0 <= r < 1461 ->
  let (mon, d) := month_loop mday_table 0 r in
  0 <= mon < 48 /\ 0 <= d < nth (Z.to_nat mon) mday_table 0 /\ off mday_table (Z.to_nat mon) + d = r.
Proof.
  intros r H.
  assert (S : forallb (fun r => let (mon, d) := month_loop mday_table 0 r in
     (0 <=? mon) && (mon <? 48) && (0 <=? d) && (d <? nth (Z.to_nat mon) mday_table 0)
     && (off mday_table (Z.to_nat mon) + d =? r)) (zrange 1461) = true) by (vm_compute; reflexivity).
  rewrite forallb_forall in S. specialize (S r (in_zrange 1461 r H)).
  destruct (month_loop mday_table 0 r) as [mon d]. rewrite !andb_true_iff in S. lia.
Qed.

Lemma loop_bwd : forall mon d, 0 <= mon < 48 -> 0 <= d < nth (Z.to_nat mon) mday_table 0 ->
  month_loop mday_table 0 (off mday_table (Z.to_nat mon) + d) = (mon, d) /\
  0 <= off mday_table (Z.to_nat mon) + d < 1461.
Proof.
  intros mon d Hm Hd.
  assert (S : forallb (fun mon => forallb (fun d =>
     if d <? nth (Z.to_nat mon) mday_table 0 then
     let (mon', d') := month_loop mday_table 0 (off mday_table (Z.to_nat mon) + d) in
     (mon' =? mon) && (d' =? d) && (0 <=? off mday_table (Z.to_nat mon) + d)
      && (off mday_table (Z.to_nat mon) + d <? 1461) else true)
     (zrange 31)) (zrange 48) = true) by (vm_compute; reflexivity).
  rewrite forallb_forall in S. specialize (S mon (in_zrange 48 mon Hm)).
  assert (B : nth (Z.to_nat mon) mday_table 0 <= 31).
  { assert (F : Forall (fun z => z <= 31) mday_table) by (repeat constructor; lia).
    rewrite Forall_forall in F. apply F. apply nth_In. cbn [length mday_table]. lia. }
  rewrite forallb_forall in S. specialize (S d (in_zrange 31 d ltac:(lia))).
  destruct (Z.ltb_spec d (nth (Z.to_nat mon) mday_table 0)); [|lia].
  destruct (month_loop mday_table 0 (off mday_table (Z.to_nat mon) + d)) as [mon' d'].
  rewrite !andb_true_iff in S. split; [f_equal; lia|lia].
Qed.

(** the code's day number *)
Definition code_days (y m d : Z) : Z :=
  (y - 1970) * 365 + (y - 1969) / 4 + nth (Z.to_nat (m - 1)) doy_table 0 + d - 2
  + (if (y mod 4 =? 0) && (3 <=? m) then 1 else 0).

Lemma year_split y : 1970 <= y -> exists q i, y = 1970 + 4 * q + i /\ 0 <= q /\ 0 <= i < 4 /\
  (y - 1969) / 4 = q + (i + 1) / 4 /\ y mod 4 = (2 + i) mod 4.
Proof.
  intros H. exists ((y - 1970) / 4), ((y - 1970) mod 4).
  pose proof (Z.div_mod (y - 1970) 4 ltac:(lia)). pose proof (Z.mod_pos_bound (y - 1970) 4 ltac:(lia)).
  set (q := (y - 1970) / 4) in *. set (i := (y - 1970) mod 4) in *.
  repeat split; try lia.
  - replace (y - 1969) with (i + 1 + q * 4) by lia. rewrite Z.div_add by lia. lia.
  - replace y with (2 + i + (q + 492) * 4) by lia. apply Z.mod_add. lia.
Qed.

Lemma table_sweep i m : 0 <= i < 4 -> 1 <= m <= 12 ->
  365 * i + (i + 1) / 4 + nth (Z.to_nat (m - 1)) doy_table 0 - 1
  + (if ((2 + i) mod 4 =? 0) && (3 <=? m) then 1 else 0) = off mday_table (Z.to_nat (12 * i + (m - 1))).
Proof.
  intros Hi Hm.
  assert (S : forallb (fun i => forallb (fun m' => 
     365 * i + (i + 1) / 4 + nth (Z.to_nat (m' + 1 - 1)) doy_table 0 - 1
       + (if ((2 + i) mod 4 =? 0) && (3 <=? m' + 1) then 1 else 0) =? off mday_table (Z.to_nat (12 * i + (m' + 1 - 1))))
     (zrange 12)) (zrange 4) = true) by (vm_compute; reflexivity).
  rewrite forallb_forall in S. specialize (S i (in_zrange 4 i ltac:(lia))).
  rewrite forallb_forall in S. specialize (S (m - 1) (in_zrange 12 (m - 1) ltac:(lia))). cbv beta in S.
  rewrite Z.sub_add in S. now apply Z.eqb_eq.
Qed.

Lemma code_days_split q i m d : 0 <= q -> 0 <= i < 4 -> 1 <= m <= 12 ->
  code_days (1970 + 4 * q + i) m d = 1461 * q + off mday_table (Z.to_nat (12 * i + (m - 1))) + (d - 1).
Proof.
  intros Hq Hi Hm. unfold code_days.
  destruct (year_split (1970 + 4 * q + i) ltac:(lia)) as (q' & i' & E & Hq' & Hi' & E1 & E2).
  assert (q' = q) by lia. assert (i' = i) by lia. subst q' i'. rewrite E1, E2.
  rewrite <- table_sweep by assumption. lia.
Qed.

(** month lengths of the four-year cycle *)
Lemma mday_month_length q i m : 0 <= q -> 0 <= i < 4 -> 1 <= m <= 12 ->
  nth (Z.to_nat (12 * i + (m - 1))) mday_table 0 = month_length leap_simple (1970 + 4 * q + i) m.
Proof.
  intros Hq Hi Hm. unfold month_length, leap_simple, divides.
  replace (1970 + 4 * q + i) with (2 + i + (q + 492) * 4) by lia. rewrite Z.mod_add by lia.
  assert (S : forallb (fun i => forallb (fun m' =>
     nth (Z.to_nat (12 * i + (m' + 1 - 1))) mday_table 0 =?
     (if m' + 1 =? 2 then (if (2 + i) mod 4 =? 0 then 29 else 28)
      else if (m' + 1 =? 4) || (m' + 1 =? 6) || (m' + 1 =? 9) || (m' + 1 =? 11) then 30 else 31))
     (zrange 12)) (zrange 4) = true) by (vm_compute; reflexivity).
  rewrite forallb_forall in S. specialize (S i (in_zrange 4 i ltac:(lia))).
  rewrite forallb_forall in S. specialize (S (m - 1) (in_zrange 12 (m - 1) ltac:(lia))). cbv beta in S.
  rewrite Z.sub_add in S. now apply Z.eqb_eq.
Qed.

Lemma month_length_le31 l y m : month_length l y m <= 31.
Proof. unfold month_length. destruct (m =? 2); [destruct (l y); lia|]. destruct (_ || _); lia. Qed.

(** days 0 <= D with code calendar position *)
Lemma date_of_days D : 0 <= D ->
  exists q i m d, D = 1461 * q + off mday_table (Z.to_nat (12 * i + (m - 1))) + (d - 1) /\
    0 <= q /\ 0 <= i < 4 /\ 1 <= m <= 12 /\ 1 <= d <= month_length leap_simple (1970 + 4 * q + i) m /\
    month_loop mday_table 0 (Z.rem D 1461) = (12 * i + (m - 1), d - 1) /\ Z.quot D 1461 = q.
Proof.
  intros HD. pose proof (Z.div_mod D 1461 ltac:(lia)). pose proof (Z.mod_pos_bound D 1461 ltac:(lia)).
  pose proof (loop_fwd (D mod 1461) ltac:(lia)) as L.
  rewrite Z.rem_mod_nonneg, Z.quot_div_nonneg by lia.
  destruct (month_loop mday_table 0 (D mod 1461)) as [mon d]. destruct L as (L1 & L2 & L3).
  assert (0 <= D / 1461) by (apply Z.div_pos; lia).
  pose proof (Z.div_mod mon 12 ltac:(lia)). pose proof (Z.mod_pos_bound mon 12 ltac:(lia)).
  exists (D / 1461), (mon / 12), (mon mod 12 + 1), (d + 1).
  replace (12 * (mon / 12) + (mon mod 12 + 1 - 1)) with mon by lia.
  assert (0 <= mon / 12 < 4) by lia.
  repeat split; try lia.
  - rewrite <- mday_month_length by lia. replace (12 * (mon / 12) + (mon mod 12 + 1 - 1)) with mon by lia. lia.
  - f_equal; lia.
Qed.

(** ** machine integers *)
Lemma int32_small x : - 2 ^ 31 <= x < 2 ^ 31 -> int32 x = x.
Proof. intros H. unfold int32. rewrite Z.mod_small by lia. lia. Qed.
Lemma u64_small x : 0 <= x < 2 ^ 64 -> u64 x = x.
Proof. intros H. unfold u64. now apply Z.mod_small. Qed.

(** ** real seconds *)
Lemma Int_part_range x a b : (IZR a <= x < IZR b)%R -> a <= Int_part x < b.
Proof.
  intros H. destruct (base_Int_part x) as [B1 B2]. split.
  - enough (a < Int_part x + 1) by lia. apply lt_IZR. rewrite plus_IZR. lra.
  - apply lt_IZR. lra.
Qed.
Lemma Int_part_unique x z : (IZR z <= x < IZR z + 1)%R -> Int_part x = z.
Proof.
  intros H. assert (z <= Int_part x < z + 1); [|lia]. apply Int_part_range. rewrite plus_IZR. lra.
Qed.
Lemma fractional x : (0 <= x - IZR (Int_part x) < 1)%R.
Proof. destruct (base_Int_part x). lra. Qed.

Definition max_days : Z := 2 ^ 31.

Lemma code_days_nonneg y m d : valid_date leap_simple y m d -> 0 <= code_days y m d.
Proof.
  intros (Hy & Hm & Hd). destruct (year_split y Hy) as (q & i & -> & Hq & Hi & _).
  rewrite code_days_split by lia. 
  pose proof (loop_bwd (12 * i + (m - 1)) 0 ltac:(lia)) as L.
  assert (nth (Z.to_nat (12 * i + (m - 1))) mday_table 0 > 0).
  { rewrite (mday_month_length q) by lia. unfold month_length. destruct (m =? 2); [destruct (leap_simple _); lia|]. destruct (_ || _); lia. }
  destruct (L ltac:(lia)) as [_ B]. lia.
Qed.

Lemma epoch_of_date_valid dt : valid_date leap_simple (year dt) (month dt) (day dt) ->
  valid_clock (hour dt) (minute dt) (second dt) ->
  code_days (year dt) (month dt) (day dt) < max_days ->
  let D := code_days (year dt) (month dt) (day dt) in
  let s := Int_part (second dt) in
  0 <= s < 60 /\ 0 <= D /\
  epoch_of_date dt = Ok (Some (mkEpoch (D * 86400 + hour dt * 3600 + minute dt * 60 + s) (second dt - IZR s)%R)).
Proof.
  intros Hv (Hh & Hmi & Hs) HD. cbv zeta.
  pose proof (code_days_nonneg _ _ _ Hv) as H0.
  assert (Hfl : 0 <= Int_part (second dt) < 60) by (apply Int_part_range; lra).
  destruct Hv as (Hy & Hm & Hd). pose proof (month_length_le31 leap_simple (year dt) (month dt)).
  unfold epoch_of_date. fold (code_days (year dt) (month dt) (day dt)).
  destruct (Z.ltb_spec (Int_part (second dt)) 0); [lia|]. destruct (Z.leb_spec (2 ^ 64) (Int_part (second dt))); [lia|].
  destruct (Z.ltb_spec (year dt) 1970); [lia|]. destruct (Z.ltb_spec (month dt) 1); [lia|].
  destruct (Z.ltb_spec 12 (month dt)); [lia|]. destruct (Z.ltb_spec (day dt) 1); [lia|].
  destruct (Z.leb_spec 32 (day dt)); [lia|]. destruct (Z.leb_spec 60 (minute dt)); [lia|].
  destruct (Z.leb_spec 60 (Int_part (second dt))); [lia|]. cbn [orb].
  unfold max_days in HD. rewrite (u64_small (code_days _ _ _)) by lia.
  rewrite u64_small by lia. repeat split; lia.
Qed.

(** seconds of day *)
Lemma sec_of_day D h mi s : 0 <= D < max_days -> 0 <= h < 24 -> 0 <= mi < 60 -> 0 <= s < 60 ->
  let t := D * 86400 + h * 3600 + mi * 60 + s in
  int32 (t / 86400) = D /\
  int32 (u64 (t - D * 86400)) = h * 3600 + mi * 60 + s /\
  Z.quot (h * 3600 + mi * 60 + s) 3600 = h /\ Z.quot (Z.rem (h * 3600 + mi * 60 + s) 3600) 60 = mi /\
  Z.rem (h * 3600 + mi * 60 + s) 60 = s.
Proof.
  unfold max_days. intros HD Hh Hm Hs. cbv zeta.
  assert (E : (D * 86400 + h * 3600 + mi * 60 + s) / 86400 = D).
  { replace (D * 86400 + h * 3600 + mi * 60 + s) with (h * 3600 + mi * 60 + s + D * 86400) by lia.
    rewrite Z.div_add, Z.div_small by lia. lia. }
  rewrite E. rewrite int32_small by lia.
  replace (D * 86400 + h * 3600 + mi * 60 + s - D * 86400) with (h * 3600 + mi * 60 + s) by lia.
  rewrite u64_small, int32_small by lia.
  rewrite !Z.rem_mod_nonneg by lia. rewrite !Z.quot_div_nonneg by (try lia; apply Z.mod_pos_bound; lia).
  assert (E1 : (h * 3600 + mi * 60 + s) mod 3600 = mi * 60 + s).
  { replace (h * 3600 + mi * 60 + s) with (mi * 60 + s + h * 3600) by lia. rewrite Z.mod_add, Z.mod_small by lia. lia. }
  rewrite E1. repeat split.
  - replace (h * 3600 + mi * 60 + s) with (mi * 60 + s + h * 3600) by lia. rewrite Z.div_add, Z.div_small by lia. lia.
  - replace (mi * 60 + s) with (s + mi * 60) by lia. rewrite Z.div_add, Z.div_small by lia. lia.
  - replace (h * 3600 + mi * 60 + s) with (s + (h * 60 + mi) * 60) by lia. rewrite Z.mod_add, Z.mod_small by lia. lia.
Qed.

Lemma date_of_epoch_fields D h mi s f q i m d : 0 <= D < max_days -> 0 <= h < 24 -> 0 <= mi < 60 -> 0 <= s < 60 ->
  0 <= q -> 0 <= i < 4 -> 1 <= m <= 12 -> 1 <= d <= 31 ->
  month_loop mday_table 0 (Z.rem D 1461) = (12 * i + (m - 1), d - 1) -> Z.quot D 1461 = q ->
  date_of_epoch (mkEpoch (D * 86400 + h * 3600 + mi * 60 + s) f)
  = mkDT (1970 + 4 * q + i) m d h mi (IZR s + f).
Proof.
  intros HD Hh Hmi Hs Hq Hi Hm Hd L Q.
  destruct (sec_of_day D h mi s HD Hh Hmi Hs) as (E1 & E2 & E3 & E4 & E5).
  unfold date_of_epoch. cbn [time_s fraction]. rewrite E1, E2, L, Q, E3, E4, E5.
  assert (B : q < 2 ^ 31).
  { unfold max_days in HD. rewrite Z.quot_div_nonneg in Q by lia.
    pose proof (Z.div_mod D 1461 ltac:(lia)). pose proof (Z.mod_pos_bound D 1461 ltac:(lia)). lia. }
  assert (M1 : (12 * i + (m - 1)) / 12 = i).
  { replace (12 * i + (m - 1)) with (m - 1 + i * 12) by lia. rewrite Z.div_add, Z.div_small by lia. lia. }
  assert (M2 : (12 * i + (m - 1)) mod 12 = m - 1).
  { replace (12 * i + (m - 1)) with (m - 1 + i * 12) by lia. rewrite Z.mod_add, Z.mod_small by lia. lia. }
  rewrite Z.quot_div_nonneg, M1 by lia. rewrite Z.rem_mod_nonneg, M2 by lia.
  rewrite !u64_small by lia. f_equal; lia.
Qed.

Lemma round_trip_date dt : valid_date leap_simple (year dt) (month dt) (day dt) ->
  valid_clock (hour dt) (minute dt) (second dt) ->
  code_days (year dt) (month dt) (day dt) < max_days ->
  exists e, epoch_of_date dt = Ok (Some e) /\ date_of_epoch e = dt /\ normalised e.
Proof.
  intros Hv Hc HD. destruct (epoch_of_date_valid dt Hv Hc HD) as (Hs & H0 & E).
  eexists. split; [exact E|]. pose proof Hc as Hc'. destruct Hc' as (Hh & Hmi & _).
  split.
  - destruct Hv as (Hy & Hm & Hd).
    destruct (year_split (year dt) Hy) as (q & i & Ey & Hq & Hi & _).
    set (D := code_days (year dt) (month dt) (day dt)) in *.
    assert (ED : D = 1461 * q + (off mday_table (Z.to_nat (12 * i + (month dt - 1))) + (day dt - 1))).
    { unfold D. rewrite Ey, code_days_split by lia. lia. }
    pose proof (month_length_le31 leap_simple (year dt) (month dt)).
    destruct (loop_bwd (12 * i + (month dt - 1)) (day dt - 1) ltac:(lia)) as [L B].
    { rewrite (mday_month_length q) by lia. rewrite <- Ey. lia. }
    rewrite (date_of_epoch_fields D _ _ _ _ q i (month dt) (day dt)); try lia.
    + destruct dt as [y m d h mi s]. cbn [year month day hour minute second] in *. rewrite Ey. f_equal. lra.
    + rewrite Z.rem_mod_nonneg by lia. rewrite ED.
      replace (1461 * q + (off mday_table (Z.to_nat (12 * i + (month dt - 1))) + (day dt - 1)))
        with (off mday_table (Z.to_nat (12 * i + (month dt - 1))) + (day dt - 1) + q * 1461) by lia.
      rewrite Z.mod_add, Z.mod_small by lia. exact L.
    + rewrite Z.quot_div_nonneg by lia. rewrite ED.
      replace (1461 * q + (off mday_table (Z.to_nat (12 * i + (month dt - 1))) + (day dt - 1)))
        with (off mday_table (Z.to_nat (12 * i + (month dt - 1))) + (day dt - 1) + q * 1461) by lia.
      rewrite Z.div_add, Z.div_small by lia. lia.
  - split; cbn [time_s fraction]; [unfold max_days in HD; lia|apply fractional].
Qed.

Lemma round_trip_epoch e : normalised e -> time_s e < max_days * 86400 ->
  let dt := date_of_epoch e in
  valid_date leap_simple (year dt) (month dt) (day dt) /\
  valid_clock (hour dt) (minute dt) (second dt) /\
  epoch_of_date dt = Ok (Some e).
Proof.
  intros [[H0 _] Hf] HM. destruct e as [t f]. cbn [time_s fraction] in *. unfold max_days in HM.
  set (D := t / 86400). set (s := t mod 60). set (h := t mod 86400 / 3600). set (mi := (t mod 86400) mod 3600 / 60).
  assert (Et : t = D * 86400 + h * 3600 + mi * 60 + s /\ 0 <= D < max_days /\ 0 <= h < 24 /\ 0 <= mi < 60 /\ 0 <= s < 60).
  { unfold D, s, h, mi, max_days.
    pose proof (Z.div_mod t 86400 ltac:(lia)) as A1. pose proof (Z.mod_pos_bound t 86400 ltac:(lia)) as A2.
    set (r := t mod 86400) in *.
    pose proof (Z.div_mod r 3600 ltac:(lia)) as B1. pose proof (Z.mod_pos_bound r 3600 ltac:(lia)) as B2.
    set (r2 := r mod 3600) in *.
    pose proof (Z.div_mod r2 60 ltac:(lia)) as C1. pose proof (Z.mod_pos_bound r2 60 ltac:(lia)) as C2.
    assert (t mod 60 = r2 mod 60).
    { rewrite A1. replace (86400 * (t / 86400) + r) with (r + (1440 * (t / 86400)) * 60) by lia. rewrite Z.mod_add by lia.
      rewrite B1. replace (3600 * (r / 3600) + r2) with (r2 + (60 * (r / 3600)) * 60) by lia. now rewrite Z.mod_add by lia. }
    set (qd := t / 86400) in *. set (qh := r / 3600) in *. set (qm := r2 / 60) in *.
    repeat split; try lia. }
  destruct Et as (Et & HD & Hh & Hmi & Hs). clearbody D h mi s.
  destruct (date_of_days D ltac:(lia)) as (q & i & m & d & ED & Hq & Hi & Hm & Hd & L & Q).
  pose proof (month_length_le31 leap_simple (1970 + 4 * q + i) m).
  rewrite Et, (date_of_epoch_fields D h mi s f q i m d HD Hh Hmi Hs Hq Hi Hm ltac:(lia) L Q).
  cbn [year month day hour minute second].
  assert (Hsr : (0 <= IZR s + f < 60)%R).
  { assert (0 <= IZR s <= 59)%R by (split; [apply (IZR_le 0)|apply (IZR_le s 59)]; lia). lra. }
  split; [split; [lia|split; [lia|lia]]|]. split; [split; [lia|split; [lia|exact Hsr]]|].
  assert (EI : Int_part (IZR s + f) = s) by (apply Int_part_unique; lra).
  destruct (epoch_of_date_valid (mkDT (1970 + 4 * q + i) m d h mi (IZR s + f))) as (_ & _ & E);
    cbn [year month day hour minute second] in *.
  - split; [lia|split; [lia|lia]].
  - split; [lia|split; [lia|exact Hsr]].
  - rewrite code_days_split by lia. lia.
  - rewrite E, EI, code_days_split by lia. rewrite <- ED. do 3 f_equal. lra.
Qed.

(** ** comparison with the Gregorian calendar *)
Lemma days_of_months_doy leap y m : 1 <= m <= 12 ->
  days_of_months leap y (Z.to_nat (m - 1)) =
  nth (Z.to_nat (m - 1)) doy_table 0 - 1 + (if leap y && (3 <=? m) then 1 else 0).
Proof.
  intros Hm.
  assert (C : In m (map (Z.add 1) (zrange 12))).
  { apply in_map_iff. exists (m - 1). split; [lia|]. apply in_zrange. lia. }
  cbv in C. repeat (destruct C as [<-|C]); try destruct C; vm_compute; destruct (leap y); reflexivity.
Qed.

Lemma days_of_months_12 leap y : days_of_months leap y 12 = 365 + (if leap y then 1 else 0).
Proof. cbn. destruct (leap y); reflexivity. Qed.

Lemma simple_years k : days_of_years leap_simple k = 365 * Z.of_nat k + (Z.of_nat k + 1) / 4.
Proof.
  induction k as [|k IH]; [reflexivity|]. cbn [days_of_years]. rewrite IH, days_of_months_12.
  rewrite Nat2Z.inj_succ, <- Z.add_1_r. set (n := Z.of_nat k). assert (0 <= n) by (unfold n; lia).
  unfold leap_simple, divides.
  assert (E : (n + 1 + 1) / 4 = (n + 1) / 4 + (if (1970 + n) mod 4 =? 0 then 1 else 0)); [|lia].
  pose proof (Z.div_mod (n + 1) 4 ltac:(lia)) as A. pose proof (Z.mod_pos_bound (n + 1) 4 ltac:(lia)).
  set (qq := (n + 1) / 4) in *. set (rr := (n + 1) mod 4) in *.
  replace (1970 + n) with (1 + rr + (qq + 492) * 4) by lia. rewrite Z.mod_add by lia.
  replace (n + 1 + 1) with (rr + 1 + qq * 4) by lia. rewrite Z.div_add by lia.
  clearbody rr.
  assert (F : (rr + 1) / 4 = (if (1 + rr) mod 4 =? 0 then 1 else 0)).
  { assert (rr = 0 \/ rr = 1 \/ rr = 2 \/ rr = 3) as [->|[->|[->| ->]]] by lia; reflexivity. }
  rewrite F. lia.
Qed.

Lemma code_days_simple y m d : 1970 <= y -> 1 <= m <= 12 ->
  code_days y m d = day_number leap_simple y m d.
Proof.
  intros Hy Hm. unfold code_days, day_number. rewrite simple_years, days_of_months_doy by lia.
  rewrite Z2Nat.id by lia. unfold leap_simple, divides. replace (y - 1970 + 1) with (y - 1969) by lia. lia.
Qed.

Lemma gregorian_implies_simple y : leap_gregorian y = true -> leap_simple y = true.
Proof. unfold leap_gregorian, leap_simple. intros H. now apply andb_true_iff in H. Qed.

Lemma simple_vs_gregorian_years k : days_of_years leap_simple k = days_of_years leap_gregorian k + wrong_leaps k.
Proof.
  induction k as [|k IH]; [reflexivity|]. cbn [days_of_years wrong_leaps]. rewrite IH, !days_of_months_12.
  pose proof (gregorian_implies_simple (1970 + Z.of_nat k)).
  destruct (leap_gregorian (1970 + Z.of_nat k)), (leap_simple (1970 + Z.of_nat k)); cbn; try lia; specialize (H eq_refl); discriminate.
Qed.

Lemma code_vs_gregorian y m d : 1970 <= y -> 1 <= m <= 12 ->
  code_days y m d = day_number leap_gregorian y m d + wrong_leaps (Z.to_nat (y - 1970) + (if 3 <=? m then 1 else 0)).
Proof.
  intros Hy Hm. rewrite code_days_simple by lia. unfold day_number.
  rewrite simple_vs_gregorian_years, !days_of_months_doy by lia.
  destruct (3 <=? m).
  - rewrite Nat.add_1_r. cbn [wrong_leaps]. rewrite Z2Nat.id by lia.
    replace (1970 + (y - 1970)) with y by lia. pose proof (gregorian_implies_simple y).
    destruct (leap_gregorian y), (leap_simple y); cbn; try lia; specialize (H eq_refl); discriminate.
  - rewrite !andb_false_r, Nat.add_0_r. lia.
Qed.

Lemma wrong_leaps_2100 k : (k <= 130)%nat -> wrong_leaps k = 0.
Proof.
  intros H. assert (S : forallb (fun k => wrong_leaps k =? 0) (seq 0 131) = true) by (vm_compute; reflexivity).
  rewrite forallb_forall in S. specialize (S k). rewrite in_seq in S. specialize (S ltac:(lia)). lia.
Qed.

Lemma wrong_leaps_mono a b : (a <= b)%nat -> wrong_leaps a <= wrong_leaps b.
Proof.
  induction 1 as [|b H IH]; [lia|]. cbn [wrong_leaps]. destruct (_ && _); lia.
Qed.

Lemma wrong_leaps_after k : (131 <= k)%nat -> 1 <= wrong_leaps k.
Proof.
  intros H. apply Z.le_trans with (wrong_leaps 131); [vm_compute; discriminate|]. now apply wrong_leaps_mono.
Qed.

Lemma code_days_bound y m d : 1970 <= y -> 1 <= m <= 12 -> d <= 31 -> code_days y m d <= (y - 1970) * 366 + 366.
Proof.
  intros Hy Hm Hd. rewrite code_days_simple by lia. unfold day_number. rewrite simple_years.
  rewrite days_of_months_doy by lia. rewrite Z2Nat.id by lia.
  assert (nth (Z.to_nat (m - 1)) doy_table 0 <= 335).
  { assert (F : Forall (fun z => z <= 335) doy_table) by (repeat constructor; lia).
    rewrite Forall_forall in F. apply F. apply nth_In. cbn [length doy_table]. lia. }
  assert ((y - 1970 + 1) / 4 <= y - 1970).
  { enough ((y - 1970 + 1) / 4 < y - 1970 + 1) by lia. apply Z.div_lt_upper_bound; lia. }
  destruct (_ && _); lia.
Qed.

(** ** EpochTime operators *)
Open Scope R_scope.

Lemma Rltb_spec a b : reflect (a < b) (Rltb a b).
Proof. unfold Rltb. destruct (Rlt_dec a b); now constructor. Qed.
Lemma Reqb_spec a b : reflect (a = b) (Reqb a b).
Proof. unfold Reqb. destruct (Req_EM_T a b); now constructor. Qed.

Lemma epoch_eq_spec a b : epoch_eq a b = true <-> a = b.
Proof.
  unfold epoch_eq. destruct a as [t f], b as [t' f']. cbn [time_s fraction].
  destruct (Z.eqb_spec t t') as [->|H]; cbn [negb].
  - destruct (Reqb_spec f f') as [->|H]; cbn [negb]; split; intros E; try reflexivity; try discriminate. congruence.
  - split; intros E; [discriminate|congruence].
Qed.

Lemma instant_inj a b : normalised a -> normalised b -> instant a = instant b -> a = b.
Proof.
  intros [_ Ha] [_ Hb] E. unfold instant in E. destruct a as [t f], b as [t' f']. cbn [time_s fraction] in *.
  assert (t = t').
  { assert (A : (t < t' + 1)%Z) by (apply lt_IZR; rewrite plus_IZR; lra).
    assert (B : (t' < t + 1)%Z) by (apply lt_IZR; rewrite plus_IZR; lra). lia. }
  subst t'. f_equal. lra.
Qed.

Lemma epoch_lt_spec a b : normalised a -> normalised b -> (epoch_lt a b = true <-> instant a < instant b).
Proof.
  intros Ha Hb. pose proof (epoch_eq_spec a b) as E. unfold epoch_lt.
  destruct (epoch_eq a b).
  - assert (a = b) as -> by (now apply E). split; [discriminate|lra].
  - destruct Ha as [Ta Fa], Hb as [Tb Fb]. unfold instant.
    destruct (Z.ltb_spec (time_s b) (time_s a)) as [H|H].
    + assert (H' : (time_s b + 1 <= time_s a)%Z) by lia. apply IZR_le in H'. rewrite plus_IZR in H'.
      split; [discriminate|lra].
    + destruct (Z.ltb_spec (time_s a) (time_s b)) as [H2|H2].
      * assert (H' : (time_s a + 1 <= time_s b)%Z) by lia. apply IZR_le in H'. rewrite plus_IZR in H'.
        split; [lra|reflexivity].
      * assert (time_s a = time_s b) as Et by lia. rewrite Et.
        destruct (Rltb_spec (fraction b) (fraction a)) as [L|L]; [split; [discriminate|lra]|].
        split; [|reflexivity]. intros _.
        assert (fraction a <> fraction b); [|lra]. intros Ef. assert (a = b) as X; [|apply E in X; discriminate].
        destruct a, b; cbn in *; congruence.
Qed.

Lemma epoch_gt_spec a b : normalised a -> normalised b -> (epoch_gt a b = true <-> instant a > instant b).
Proof.
  intros Ha Hb. pose proof (epoch_eq_spec a b) as E. unfold epoch_gt.
  destruct (epoch_eq a b).
  - assert (a = b) as -> by (now apply E). split; [discriminate|lra].
  - destruct Ha as [Ta Fa], Hb as [Tb Fb]. unfold instant.
    destruct (Z.ltb_spec (time_s a) (time_s b)) as [H|H].
    + assert (H' : (time_s a + 1 <= time_s b)%Z) by lia. apply IZR_le in H'. rewrite plus_IZR in H'.
      split; [discriminate|lra].
    + destruct (Z.ltb_spec (time_s b) (time_s a)) as [H2|H2].
      * assert (H' : (time_s b + 1 <= time_s a)%Z) by lia. apply IZR_le in H'. rewrite plus_IZR in H'.
        split; [lra|reflexivity].
      * assert (time_s a = time_s b) as Et by lia. rewrite Et.
        destruct (Rltb_spec (fraction a) (fraction b)) as [L|L]; [split; [discriminate|lra]|].
        split; [|reflexivity]. intros _.
        assert (fraction a <> fraction b); [|lra]. intros Ef. assert (a = b) as X; [|apply E in X; discriminate].
        destruct a, b; cbn in *; congruence.
Qed.

Lemma bool_iff_negb (x : bool) (P Q : Prop) : (x = true <-> P) -> (Q <-> ~ P) -> (negb x = true <-> Q).
Proof. intros H1 H2. rewrite H2, <- H1. destruct x; cbn; split; congruence. Qed.

Lemma epoch_add_spec a b : normalised a -> normalised b -> (time_s a + time_s b + 1 < 2 ^ 64)%Z ->
  instant (epoch_add a b) = instant a + instant b /\
  (fraction a + fraction b <> 1 -> normalised (epoch_add a b)) /\
  (fraction a + fraction b = 1 -> epoch_add a b = mkEpoch (time_s a + time_s b) 1).
Proof.
  intros [Ta Fa] [Tb Fb] HS. unfold epoch_add.
  rewrite (u64_small (time_s a + time_s b)) by lia.
  destruct (Rltb_spec 1 (fraction a + fraction b)) as [H|H].
  - rewrite u64_small by lia. unfold instant, normalised. cbn [time_s fraction].
    rewrite !plus_IZR. repeat split; try lia; lra.
  - unfold instant, normalised. cbn [time_s fraction]. rewrite plus_IZR.
    split; [ring|]. split; [intros; repeat split; try lia; lra|]. intros E. rewrite E. reflexivity.
Qed.

Lemma epoch_sub_spec a b : normalised a -> normalised b -> instant b <= instant a ->
  instant (epoch_sub a b) = instant a - instant b /\ normalised (epoch_sub a b).
Proof.
  intros [Ta Fa] [Tb Fb] HL. unfold instant in HL.
  assert (H0 : (time_s b < time_s a + 1)%Z) by (apply lt_IZR; rewrite plus_IZR; lra).
  unfold epoch_sub. rewrite (u64_small (time_s a - time_s b)) by lia.
  destruct (Rltb_spec (fraction a - fraction b) 0) as [H|H].
  - assert (time_s b < time_s a)%Z by (apply lt_IZR; lra).
    rewrite u64_small by lia. unfold instant, normalised. cbn [time_s fraction].
    rewrite !minus_IZR. repeat split; try lia; lra.
  - unfold instant, normalised. cbn [time_s fraction]. rewrite minus_IZR. repeat split; try lia; lra.
Qed.

(** subtract then add back *)
Lemma epoch_sub_add a b : normalised a -> normalised b -> instant b <= instant a -> (time_s a + 1 < 2 ^ 64)%Z ->
  (fraction a = 0 /\ 0 < fraction b -> epoch_add (epoch_sub a b) b = mkEpoch (time_s a - 1) 1) /\
  (~ (fraction a = 0 /\ 0 < fraction b) -> epoch_add (epoch_sub a b) b = a).
Proof.
  intros [Ta Fa] [Tb Fb] HL HM. unfold instant in HL.
  assert (H0 : (time_s b < time_s a + 1)%Z) by (apply lt_IZR; rewrite plus_IZR; lra).
  unfold epoch_sub. rewrite (u64_small (time_s a - time_s b)) by lia.
  destruct (Rltb_spec (fraction a - fraction b) 0) as [H|H].
  - assert (time_s b < time_s a)%Z by (apply lt_IZR; lra).
    rewrite u64_small by lia. unfold epoch_add. cbn [time_s fraction].
    replace (fraction a - fraction b + 1 + fraction b) with (fraction a + 1) by ring.
    rewrite (u64_small (time_s a - time_s b - 1 + time_s b)) by lia.
    destruct (Rltb_spec 1 (fraction a + 1)) as [L|L].
    + split; [intros [E _]; lra|]. intros _. rewrite u64_small by lia. destruct a as [t f]; cbn [time_s fraction] in *. f_equal; [lia|lra].
    + split; [intros _; f_equal; [lia|lra]|]. intros N. exfalso. apply N. lra.
  - unfold epoch_add. cbn [time_s fraction].
    replace (fraction a - fraction b + fraction b) with (fraction a) by ring.
    rewrite (u64_small (time_s a - time_s b + time_s b)) by lia. destruct (Rltb_spec 1 (fraction a)) as [L|L]; [lra|].
    split; [intros [E1 E2]; lra|]. intros _. destruct a as [t f]; cbn [time_s fraction] in *. f_equal; lia.
Qed.

(** a - b with b later: the 64 bit count wraps *)
Lemma epoch_sub_wraps a b : normalised a -> normalised b -> instant a < instant b ->
  instant (epoch_sub a b) = instant a - instant b + 2 ^ 64.
Proof.
  intros [Ta Fa] [Tb Fb] HL. unfold instant in HL.
  assert (H0 : (time_s a < time_s b + 1)%Z) by (apply lt_IZR; rewrite plus_IZR; lra).
  assert (E64 : 2 ^ 64 = IZR (2 ^ 64)) by (rewrite pow_IZR; reflexivity).
  assert (W : forall z, (- 2 ^ 64 <= z < 0)%Z -> u64 z = (z + 2 ^ 64)%Z).
  { intros z Hz. unfold u64. symmetry. apply Z.mod_unique with (-1)%Z; lia. }
  unfold epoch_sub. destruct (Rltb_spec (fraction a - fraction b) 0) as [H|H].
  - unfold instant. cbn [time_s fraction].
    replace (u64 (u64 (time_s a - time_s b) - 1)) with (u64 (time_s a - time_s b - 1)).
    + rewrite W by lia. rewrite plus_IZR, E64, !minus_IZR. lra.
    + unfold u64. now rewrite Zminus_mod_idemp_l.
  - assert (time_s a < time_s b)%Z by (apply lt_IZR; lra).
    unfold instant. cbn [time_s fraction]. rewrite W by lia. rewrite plus_IZR, E64, !minus_IZR. lra.
Qed.

(** ** GPS time *)
Lemma gps_epoch_correct : epoch_of_date gps_epoch_date = Ok (Some gps_epoch).
Proof.
  destruct (epoch_of_date_valid gps_epoch_date) as (_ & _ & E).
  - unfold valid_date. cbn. repeat split; vm_compute; discriminate.
  - unfold valid_clock. cbn. repeat split; try lia; lra.
  - vm_compute. reflexivity.
  - rewrite E. cbn [year month day hour minute second gps_epoch_date].
    assert (EI : Int_part 0 = 0%Z) by (apply Int_part_unique; lra). rewrite EI.
    unfold gps_epoch. do 3 f_equal. lra.
Qed.

Lemma gps_epoch_normalised : normalised gps_epoch.
Proof. unfold normalised, gps_epoch. cbn [time_s fraction]. split; [lia|lra]. Qed.

Lemma week_time e : normalised e -> instant gps_epoch <= instant e ->
  let (w, el) := calc_gps_week_time e in
  (0 <= w)%Z /\ 0 <= el < 604800 /\ IZR w * 604800 + el = instant e - instant gps_epoch.
Proof.
  intros He HL. unfold calc_gps_week_time.
  destruct (epoch_sub_spec e gps_epoch He gps_epoch_normalised HL) as [E [T F]].
  rewrite <- E. set (d := epoch_sub e gps_epoch) in *. unfold seconds_in_week.
  pose proof (Z.div_mod (time_s d) 604800 ltac:(lia)) as A. pose proof (Z.mod_pos_bound (time_s d) 604800 ltac:(lia)) as B.
  assert (0 <= time_s d / 604800)%Z by (apply Z.div_pos; lia).
  set (q := (time_s d / 604800)%Z) in *. set (r := (time_s d mod 604800)%Z) in *.
  replace (time_s d - q * 604800)%Z with r by lia. rewrite u64_small by lia.
  assert (0 <= IZR r <= 604799) by (split; [apply (IZR_le 0)|apply (IZR_le r 604799)]; lia).
  split; [assumption|]. split; [lra|]. unfold instant. rewrite A, plus_IZR, mult_IZR. lra.
Qed.

Lemma calc_epoch_time_spec w el : (0 <= w)%Z -> 0 <= el < 604800 -> (w < 2 ^ 44)%Z ->
  exists e, calc_epoch_time w el = Ok e /\ normalised e /\
            instant e = instant gps_epoch + IZR w * 604800 + el.
Proof.
  intros Hw Hel HW. unfold calc_epoch_time.
  assert (Hi : (0 <= Int_part el < 604800)%Z) by (apply Int_part_range; lra).
  destruct (Rltb_spec el 0); [lra|]. destruct (Z.leb_spec (2 ^ 64) (Int_part el)); [lia|]. cbn [orb].
  pose proof (fractional el) as F. unfold seconds_in_week. rewrite u64_small by lia.
  set (d := mkEpoch (w * 604800 + Int_part el) (el - IZR (Int_part el))).
  assert (Nd : normalised d) by (unfold normalised, d; cbn [time_s fraction]; split; [lia|lra]).
  destruct (epoch_add_spec gps_epoch d gps_epoch_normalised Nd) as (E & N & _).
  { unfold gps_epoch, d. cbn [time_s]. lia. }
  eexists. split; [reflexivity|]. split.
  - apply N. unfold gps_epoch, d. cbn [fraction]. lra.
  - rewrite E. unfold instant at 2. unfold d. cbn [time_s fraction]. rewrite plus_IZR, mult_IZR. lra.
Qed.
