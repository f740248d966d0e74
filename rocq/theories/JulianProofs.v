(** Lemmas for the calendar routines. *)
From Coq Require Import Reals Lra Lia List Bool ZArith Psatz String.
From Verif Require Import Base RBase SensorModel ThermalProofs TimeSpec TimeProofs JulianModel.
Import ListNotations.
Open Scope R_scope.

Lemma Int_part_div a b : (0 < b)%Z -> Int_part (IZR a / IZR b) = (a / b)%Z.
Proof.
  intros H. apply Int_part_unique. assert (0 < IZR b) by (apply (IZR_lt 0); exact H).
  pose proof (Z.div_mod a b ltac:(lia)) as D. pose proof (Z.mod_pos_bound a b H) as M.
  apply (f_equal IZR) in D. rewrite plus_IZR, mult_IZR in D. destruct M as [M1 M2]. apply IZR_le in M1. apply IZR_lt in M2.
  split; apply (Rmult_le_reg_r (IZR b)) || apply (Rmult_lt_reg_r (IZR b)); try assumption; replace (IZR a / IZR b * IZR b) with (IZR a) by (field; lra); rewrite D; nra.
Qed.
(** the Julian day number *)
Definition jdn (y m d : Z) : Z := (367 * y - (7 * (y + (m + 9) / 12)) / 4 + (275 * m) / 9 + d + 1721014)%Z.
Lemma jday_jdn y m d h mi s : jday y m d h mi s = IZR (jdn y m d) - 1 / 2 + (3600 * IZR h + 60 * IZR mi + s) / 86400.
Proof.
  unfold jday, jdn, rfloor. rewrite (Int_part_div (m + 9) 12) by lia. rewrite <- plus_IZR.
  replace (7 * IZR (y + (m + 9) / 12) * 0.25) with (IZR (7 * (y + (m + 9) / 12)) / IZR 4) by (rewrite mult_IZR; lra). rewrite (Int_part_div _ 4) by lia.
  rewrite (Int_part_div (275 * m) 9) by lia. rewrite !plus_IZR, minus_IZR, mult_IZR. lra.
Qed.
Lemma jan1 y : jdn y 1 1 = (365 * y + (y + 3) / 4 + 1721045)%Z.
Proof. unfold jdn. change ((1 + 9) / 12)%Z with 0%Z. change (275 * 1 / 9)%Z with 30%Z. Z.to_euclidean_division_equations. lia. Qed.
Lemma month_cases m : (1 <= m <= 12)%Z -> (m = 1 \/ m = 2 \/ m = 3 \/ m = 4 \/ m = 5 \/ m = 6 \/ m = 7 \/ m = 8 \/ m = 9 \/ m = 10 \/ m = 11 \/ m = 12)%Z.
Proof. lia. Qed.
Lemma leap_add y : (y mod 4 =? 0)%Z = true -> ((y + 4) / 4 = (y + 3) / 4 + 1)%Z.
Proof. rewrite Z.eqb_eq. intros H. Z.to_euclidean_division_equations. lia. Qed.
Lemma leap_noadd y : (y mod 4 =? 0)%Z = false -> ((y + 4) / 4 = (y + 3) / 4)%Z.
Proof. rewrite Z.eqb_neq. intros H. Z.to_euclidean_division_equations. lia. Qed.
Lemma jdn_doy y m d : (1 <= m <= 12)%Z -> jdn y m d = (jdn y 1 1 + days_of_months leap_simple y (Z.to_nat (m - 1)) + d - 1)%Z.
Proof.
  intros H. rewrite days_of_months_doy by exact H. rewrite jan1. unfold leap_simple, divides, jdn.
  destruct (y mod 4 =? 0)%Z eqn:L; [apply leap_add in L|apply leap_noadd in L];
  destruct (month_cases m H) as [->|[->|[->|[->|[->|[->|[->|[->|[->|[->|[->| ->]]]]]]]]]]];
  match goal with |- context [Z.to_nat (?k - 1)] => let r := eval vm_compute in (Z.to_nat (k - 1)) in change (Z.to_nat (k - 1)) with r end;
  cbn [nth andb];
  repeat match goal with
  | |- context [((?a + 9) / 12)%Z] => let r := eval vm_compute in ((a + 9) / 12)%Z in change ((a + 9) / 12)%Z with r
  | |- context [(275 * ?a / 9)%Z] => let r := eval vm_compute in (275 * a / 9)%Z in change (275 * a / 9)%Z with r
  | |- context [(3 <=? ?a)%Z] => let r := eval vm_compute in (3 <=? a)%Z in change (3 <=? a)%Z with r
  end; cbn [andb];
  unfold TimeModel.doy_table; cbn [nth];
  Z.to_euclidean_division_equations; lia.
Qed.
Lemma year_len y : (jdn (y + 1) 1 1 = jdn y 1 1 + 365 + (if leap_simple y then 1 else 0))%Z.
Proof.
  rewrite !jan1. unfold leap_simple, divides. replace (y + 1 + 3)%Z with (y + 4)%Z by lia.
  destruct (y mod 4 =? 0)%Z eqn:L; [apply leap_add in L|apply leap_noadd in L]; lia.
Qed.
Lemma lmonth_days y : lmonth y = days_month (leap_simple y).
Proof.
  unfold lmonth, days_month, leap_simple, divides. replace (Z.rem y 4 =? 0)%Z with (y mod 4 =? 0)%Z; [reflexivity|].
  apply Bool.eq_iff_eq_true. rewrite !Z.eqb_eq, Z.rem_divide, Z.mod_divide by lia. reflexivity.
Qed.
Lemma month_loop_spec y doy : (1 <= doy)%Z ->
  let '(m, d) := month_loop doy (lmonth y) 1 0 in
  (1 <= m <= 12)%Z /\ (1 <= d)%Z /\ (days_of_months leap_simple y (Z.to_nat (m - 1)) + d = doy)%Z /\
  ((doy <= 365 + (if leap_simple y then 1 else 0))%Z -> (d <= month_length leap_simple y m)%Z).
Proof.
  intros H. rewrite lmonth_days. unfold days_month.
  destruct (leap_simple y) eqn:L;
  (cbn [month_loop];
   repeat match goal with
   | |- context [(?a <? ?b)%Z] => first [ let c := eval vm_compute in (a <? b)%Z in (match c with true => idtac | false => idtac end); change (a <? b)%Z with c | destruct (Z.ltb_spec a b) ]; cbn [andb]
   end;
   (split; [lia|]; split; [lia|]; split;
    [ rewrite days_of_months_doy by lia; rewrite L; unfold TimeModel.doy_table; match goal with |- context [Z.to_nat (?k - 1)] => let r := eval vm_compute in (Z.to_nat (k - 1)) in change (Z.to_nat (k - 1)) with r end; cbn [nth]; match goal with |- context [(3 <=? ?a)%Z] => let r := eval vm_compute in (3 <=? a)%Z in change (3 <=? a)%Z with r end; cbn [andb]; lia
    | intros B; unfold month_length; rewrite L; cbn; lia ])).
Qed.

Lemma floor_bounds x : IZR (Int_part x) <= x < IZR (Int_part x) + 1.
Proof. destruct (base_Int_part x). lra. Qed.
Lemma mdhms_spec y days : 1 <= days ->
  let s := days2mdhms y days in
  s_year s = y /\ (1 <= s_mon s <= 12)%Z /\ (1 <= s_day s)%Z /\ (0 <= s_hr s < 24)%Z /\ (0 <= s_min s < 60)%Z /\ 0 <= s_sec s < 60 /\
  IZR (jdn y (s_mon s) (s_day s)) + (3600 * IZR (s_hr s) + 60 * IZR (s_min s) + s_sec s) / 86400 = IZR (jdn y 1 1) + days - 1 /\
  (days < 366 + (if leap_simple y then 1 else 0) -> (s_day s <= month_length leap_simple y (s_mon s))%Z) /\
  jdn y (s_mon s) (s_day s) = (jdn y 1 1 + Int_part days - 1)%Z.
Proof.
  intros H. cbv zeta. unfold days2mdhms. set (doy := Int_part days). pose proof (floor_bounds days) as F. fold doy in F.
  assert (D : (1 <= doy)%Z) by (enough (0 < doy)%Z by lia; apply lt_IZR; lra).
  pose proof (month_loop_spec y doy D) as ML. destruct (month_loop doy (lmonth y) 1 0) as [m d]. cbn [s_year s_mon s_day s_hr s_min s_sec].
  destruct ML as (M & D1 & E & B). set (t := (days - IZR doy) * 24). pose proof (floor_bounds t) as F1. set (h := Int_part t) in *.
  set (t2 := (t - IZR h) * 60). pose proof (floor_bounds t2) as F2. set (mi := Int_part t2) in *.
  assert (T : 0 <= t < 24) by (unfold t; lra). assert (T2 : 0 <= t2 < 60) by (unfold t2; lra).
  assert (H1 : (0 <= h < 24)%Z) by (split; [enough (-1 < h)%Z by lia; apply lt_IZR; lra|apply lt_IZR; lra]).
  assert (H2 : (0 <= mi < 60)%Z) by (split; [enough (-1 < mi)%Z by lia; apply lt_IZR; lra|apply lt_IZR; lra]).
  assert (J : jdn y m d = (jdn y 1 1 + doy - 1)%Z) by (rewrite (jdn_doy y m d M); lia).
  repeat (split; [first [reflexivity|lia|lra]|]). split; [|split; [|exact J]].
  - rewrite J. rewrite minus_IZR, plus_IZR. unfold t2, t. lra.
  - intros L. apply B. enough (doy < 366 + (if leap_simple y then 1 else 0))%Z by lia. apply lt_IZR. rewrite plus_IZR. destruct (leap_simple y); lra.
Qed.

Definition nudge : R := 1 / 10 ^ 11.
Lemma year_and_days_spec jd :
  let '(y, days) := year_and_days jd in
  1 <= days /\
  ((IZR (jdn y 1 1) + days - 1 = jd + 1 / 2 + nudge /\ days < 366 + (if leap_simple y then 1 else 0) + nudge) \/
   (IZR (jdn y 1 1) + days - 1 = jd + 1 / 2 /\ 365 + (if leap_simple y then 1 else 0) + 1 / 4 <= days < 366 + (if leap_simple y then 1 else 0) - nudge)).
Proof.
  unfold year_and_days. fold nudge. assert (NU : 0 < nudge < 1 / 10) by (unfold nudge; lra). set (T := jd - 2415019.5).
  pose proof (floor_bounds (T / 365.25)) as F. set (n := Int_part (T / 365.25)) in *.
  assert (F' : 365.25 * IZR n <= T < 365.25 * (IZR n + 1)) by lra. clear F.
  replace (1900 + n - 1901)%Z with (n - 1)%Z by lia. replace (1900 + n - 1900)%Z with n by lia.
  replace (1900 + n - 1 - 1901)%Z with (n - 2)%Z by lia. replace (1900 + n - 1 - 1900)%Z with (n - 1)%Z by lia.
  replace (IZR (n - 1) * 0.25) with (IZR (n - 1) / IZR 4) by lra. replace (IZR (n - 2) * 0.25) with (IZR (n - 2) / IZR 4) by lra.
  rewrite !(Int_part_div _ 4) by lia.
  assert (Jn : (jdn (1900 + n) 1 1 = 2415020 + (365 * n + (n - 1) / 4 + 1))%Z) by (rewrite jan1; clear; Z.to_euclidean_division_equations; lia).
  assert (Jm : (jdn (1900 + n - 1) 1 1 = 2415020 + (365 * (n - 1) + (n - 2) / 4 + 1))%Z) by (rewrite jan1; clear; Z.to_euclidean_division_equations; lia).
  pose proof (year_len (1900 + n)) as L1. pose proof (year_len (1900 + n - 1)) as L2. replace (1900 + n - 1 + 1)%Z with (1900 + n)%Z in L2 by lia.
  assert (J2 : (4 * jdn (1900 + n + 1) 1 1 >= 4 * 2415020 + 1461 * (n + 1))%Z) by (rewrite jan1; clear; Z.to_euclidean_division_equations; lia).
  assert (J1 : (4 * jdn (1900 + n) 1 1 <= 4 * 2415020 + 1461 * n + 3)%Z) by (rewrite jan1; clear; Z.to_euclidean_division_equations; lia).
  apply Z.ge_le in J2. apply IZR_le in J1, J2. repeat (rewrite plus_IZR in J1 || rewrite mult_IZR in J1). repeat (rewrite plus_IZR in J2 || rewrite mult_IZR in J2).
  apply (f_equal IZR) in Jn, Jm, L1, L2. repeat (rewrite plus_IZR in Jn || rewrite mult_IZR in Jn). repeat (rewrite plus_IZR in Jm || rewrite mult_IZR in Jm || rewrite minus_IZR in Jm). rewrite minus_IZR.
  rewrite (plus_IZR (_ + 365)), (plus_IZR _ 365) in L1. rewrite (plus_IZR (_ + 365)), (plus_IZR _ 365) in L2.
  set (a := IZR (jdn (1900 + n) 1 1)) in *. set (b := IZR (jdn (1900 + n - 1) 1 1)) in *. set (c := IZR (jdn (1900 + n + 1) 1 1)) in *.
  set (l1 := IZR (if leap_simple (1900 + n) then 1 else 0)%Z) in *. set (l2 := IZR (if leap_simple (1900 + n - 1) then 1 else 0)%Z) in *.
  assert (X1 : (if leap_simple (1900 + n) then 1 else 0) = l1) by (unfold l1; clear; destruct (leap_simple (1900 + n)); reflexivity).
  assert (X2 : (if leap_simple (1900 + n - 1) then 1 else 0) = l2) by (unfold l2; clear; destruct (leap_simple (1900 + n - 1)); reflexivity).
  destruct (rlt_spec (T - (IZR n * 365 + IZR ((n - 1) / 4)) + nudge) 1) as [B|B].
  - fold b. rewrite X2. split; [|right]; unfold T in *; [|split]; try lra.
    assert (0 <= l2) by (unfold l2; clear; destruct (leap_simple (1900 + n - 1)); lra). lra.
  - fold a. rewrite X1. split; [lra|]. left. unfold T in *. split; lra.
Qed.
Lemma nth_doy m : (1 <= m <= 12)%Z -> nth (Z.to_nat (m - 1)) TimeModel.doy_table 0%Z =
  (if m =? 1 then 1 else if m =? 2 then 32 else if m =? 3 then 60 else if m =? 4 then 91 else if m =? 5 then 121 else if m =? 6 then 152
   else if m =? 7 then 182 else if m =? 8 then 213 else if m =? 9 then 244 else if m =? 10 then 274 else if m =? 11 then 305 else 335)%Z.
Proof. intros M. destruct (month_cases m M) as [->|[->|[->|[->|[->|[->|[->|[->|[->|[->|[->| ->]]]]]]]]]]]; reflexivity. Qed.
(** what invjday returns is the date of the Julian date given, up to the nudge *)
Lemma invjday_spec jd : let s := invjday jd in
  (1 <= s_mon s <= 12)%Z /\ (1 <= s_day s)%Z /\ (0 <= s_hr s < 24)%Z /\ (0 <= s_min s < 60)%Z /\ - (86400 * nudge) <= s_sec s < 60 - 86400 * nudge /\
  (jday (s_year s) (s_mon s) (s_day s) (s_hr s) (s_min s) (s_sec s) = jd \/
   (jday (s_year s) (s_mon s) (s_day s) (s_hr s) (s_min s) (s_sec s) = jd - nudge /\ s_mon s = 12%Z /\ s_day s = 31%Z)) /\
  (Int_part (jd + 1 / 2 + nudge) = Int_part (jd + 1 / 2) -> (s_day s <= month_length leap_simple (s_year s) (s_mon s))%Z).
Proof.
  cbv zeta. unfold invjday. pose proof (year_and_days_spec jd) as Y. destruct (year_and_days jd) as [y days]. destruct Y as [D1 Y].
  pose proof (mdhms_spec y days D1) as M. cbv zeta in M. destruct (days2mdhms y days) as [y' m d h mi sec]. cbn [s_year s_mon s_day s_hr s_min s_sec] in *.
  destruct M as (-> & M & D & H & MI & SE & E & L & J). assert (NU : 86400 * nudge = 0.000000864) by (unfold nudge; lra). rewrite NU.
  repeat (split; [first [assumption|lra]|]). rewrite jday_jdn. split.
  - destruct Y as [[Y1 Y2]|[Y1 Y2]].
    + left. unfold nudge in *. lra.
    + right. split; [unfold nudge in *; lra|].
      assert (I : Int_part days = (365 + (if leap_simple y then 1 else 0))%Z).
      { apply Int_part_unique. rewrite plus_IZR. unfold nudge in Y2. destruct (leap_simple y); lra. }
      rewrite I in J. rewrite (jdn_doy y m d M) in J. rewrite days_of_months_doy, nth_doy in J by exact M. specialize (L ltac:(unfold nudge in Y2; lra)). unfold month_length in L.
      clear -M D J L. set (j := jdn y 1 1) in *. clearbody j. destruct (leap_simple y); (destruct (month_cases m M) as [->|[->|[->|[->|[->|[->|[->|[->|[->|[->|[->| ->]]]]]]]]]]]); cbn in L, J; lia.
  - intros I. apply L. destruct Y as [[Y1 Y2]|[Y1 Y2]]; [|unfold nudge in Y2; lra].
    apply Rnot_le_lt. intros C. assert (K : IZR (jdn y 1 1 + 365 + (if leap_simple y then 1 else 0)) <= jd + 1 / 2 + nudge).
    { rewrite !plus_IZR. destruct (leap_simple y); lra. }
    set (k := (jdn y 1 1 + 365 + (if leap_simple y then 1 else 0))%Z) in *.
    pose proof (floor_bounds (jd + 1 / 2)) as F1. pose proof (floor_bounds (jd + 1 / 2 + nudge)) as F2. rewrite I in F2.
    assert (K2 : IZR (Int_part (jd + 1 / 2)) < IZR k).
    { eapply Rle_lt_trans; [apply F1|]. unfold k. rewrite !plus_IZR. destruct (leap_simple y); lra. }
    apply lt_IZR in K2. assert (K3 : (Int_part (jd + 1 / 2) + 1 <= k)%Z) by lia. apply IZR_le in K3. rewrite plus_IZR in K3. lra.
Qed.
(** valid dates are determined by their day number *)
Lemma jdn_inj y m d y' m' d' : (1 <= m <= 12)%Z -> (1 <= m' <= 12)%Z -> (1 <= d <= month_length leap_simple y m)%Z -> (1 <= d' <= month_length leap_simple y' m')%Z ->
  jdn y m d = jdn y' m' d' -> y = y' /\ m = m' /\ d = d'.
Proof.
  intros M M' D D' E.
  assert (R : forall y m d, (1 <= m <= 12)%Z -> (1 <= d <= month_length leap_simple y m)%Z -> (jdn y 1 1 <= jdn y m d < jdn (y + 1) 1 1)%Z).
  { clear. intros y m d M D. rewrite (jdn_doy y m d M), year_len, days_of_months_doy, nth_doy by exact M. unfold month_length in D.
    set (j := jdn y 1 1) in *. clearbody j. destruct (leap_simple y); (destruct (month_cases m M) as [->|[->|[->|[->|[->|[->|[->|[->|[->|[->|[->| ->]]]]]]]]]]]); cbn in D |- *; lia. }
  assert (MO : forall a b, (a < b)%Z -> (jdn (a + 1) 1 1 <= jdn b 1 1)%Z) by (clear; intros a b H; rewrite !jan1; Z.to_euclidean_division_equations; lia).
  pose proof (R y m d M D) as R1. pose proof (R y' m' d' M' D') as R2.
  assert (y = y').
  { destruct (Z.lt_trichotomy y y') as [L|[L|L]]; [specialize (MO _ _ L); lia|exact L|specialize (MO _ _ L); lia]. }
  subst y'. split; [reflexivity|]. rewrite (jdn_doy y m d M), (jdn_doy y m' d' M'), !days_of_months_doy, !nth_doy in E by assumption. unfold month_length in D, D'. clear -M M' D D' E. set (j := jdn y 1 1) in *. clearbody j.
  destruct (leap_simple y); (destruct (month_cases m M) as [->|[->|[->|[->|[->|[->|[->|[->|[->|[->|[->| ->]]]]]]]]]]]);
   (destruct (month_cases m' M') as [->|[->|[->|[->|[->|[->|[->|[->|[->|[->|[->| ->]]]]]]]]]]]); cbn in D, D', E; lia.
Qed.
