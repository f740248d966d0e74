(** C31, C32: GNSS satellite numbers and IGS product dates. *)
From Coq Require Import List ZArith Bool Ascii String Lia.
From Verif Require Import Base StringModel TimeSpec GnssModel GnssSpec.
Import ListNotations.
Open Scope Z_scope.

Lemma check_all : forallb (fun i => str_eqb (index_to_number (Z.of_nat i)) (nth i all_satellites []) &&
    match number_to_index (nth i all_satellites []) with Ok j => j =? Z.of_nat i | _ => false end) (seq 0 160) = true.
Proof. vm_compute. reflexivity. Qed.

(** C31: the numbers 0..159 are exactly the satellites G01..G32, R01..R26, E01..E28, C01..C62,
    J01..J05, I01..I07 in that order, in both directions; every larger index is "err". *)
Theorem C31_satellite_numbering : forall i, 0 <= i ->
  (i < 160 -> exists s, nth_error all_satellites (Z.to_nat i) = Some s /\
              index_to_number i = s /\ number_to_index s = Ok i) /\
  (160 <= i -> index_to_number i = lit "err").
Proof.
  intros i Hi. split.
  - intros L. pose proof check_all as C. rewrite forallb_forall in C.
    specialize (C (Z.to_nat i)). rewrite Z2Nat.id in C by lia.
    assert (I : In (Z.to_nat i) (seq 0 160)) by (apply in_seq; lia). specialize (C I).
    apply andb_true_iff in C as [C1 C2]. exists (nth (Z.to_nat i) all_satellites []).
    split; [apply nth_error_nth'; change (List.length all_satellites) with 160%nat; lia|].
    destruct (str_eqb_spec (index_to_number i) (nth (Z.to_nat i) all_satellites [])) as [E|]; [|discriminate].
    split; [exact E|]. destruct (number_to_index _) as [j| | |]; try discriminate. apply Z.eqb_eq in C2. now subst.
  - intros L. unfold index_to_number.
    replace (i <? glonass_begin) with false by (symmetry; apply Z.ltb_ge; change glonass_begin with 32; lia).
    replace (i <? galileo_begin) with false by (symmetry; apply Z.ltb_ge; change galileo_begin with 58; lia).
    replace (i <? beidou_begin) with false by (symmetry; apply Z.ltb_ge; change beidou_begin with 86; lia).
    replace (i <? qzss_begin) with false by (symmetry; apply Z.ltb_ge; change qzss_begin with 148; lia).
    replace (i <? navic_begin) with false by (symmetry; apply Z.ltb_ge; change navic_begin with 153; lia).
    replace (i <? kTotal) with false by (symmetry; apply Z.ltb_ge; change kTotal with 160; lia).
    reflexivity.
Qed.
Print Assumptions C31_satellite_numbering.
(** hence no two indices share a satellite number *)
Theorem C31_satellite_numbers_distinct : forall i j, 0 <= i < 160 -> 0 <= j < 160 ->
  index_to_number i = index_to_number j -> i = j.
Proof.
  intros i j Hi Hj E.
  destruct (proj1 (C31_satellite_numbering i ltac:(lia)) ltac:(lia)) as (s & _ & E1 & E2).
  destruct (proj1 (C31_satellite_numbering j ltac:(lia)) ltac:(lia)) as (s' & _ & E1' & E2').
  rewrite E1, E1' in E. subst s'. rewrite E2 in E2'. now injection E2'.
Qed.
Print Assumptions C31_satellite_numbers_distinct.

Lemma stoi_padded k n : 0 <= n < 2 ^ 31 -> stoi (repeat "0"%char k ++ to_string n) = Ok n.
Proof.
  intros H. destruct (to_string_nonneg n ltac:(lia)) as (A & B & C). cbn zeta in *.
  assert (E : strto 10 ((repeat "0"%char k ++ to_string n) ++ []) = Some (false, digits 10 0 (repeat "0"%char k ++ to_string n))).
  { apply strto_digits; [destruct k; [exact C|discriminate]| |reflexivity].
    intros c Hc. apply in_app_iff in Hc as [Hc|Hc]; [|now apply B].
    apply repeat_spec in Hc. exists 0. split; [lia|exact Hc]. }
  rewrite app_nil_r in E. unfold stoi, stol. rewrite E.
  assert (D : digits 10 0 (repeat "0"%char k ++ to_string n) = n).
  { rewrite digits_app.
    - replace (digits 10 0 (repeat "0"%char k)) with 0; [exact A|]. clear. induction k as [|k IH]; [reflexivity|]. exact IH.
    - intros c Hc. apply repeat_spec in Hc. subst c. reflexivity. }
  rewrite D. destruct (Z.leb_spec (- 2 ^ 63) n); [|lia]. destruct (Z.ltb_spec n (2 ^ 63)); [|lia].
  cbn [andb bind]. destruct (Z.leb_spec (- 2 ^ 31) n); [|lia]. destruct (Z.ltb_spec n (2 ^ 31)); [reflexivity|lia].
Qed.
(** C31: any number of leading zeros is accepted; the number is NOT checked against the size of the
    system: it just counts on from the system's first satellite. *)
Theorem C31_number_not_range_checked : forall k n, 0 <= n < 2 ^ 31 ->
  let text := repeat "0"%char k ++ to_string n in
  number_to_index ("G"%char :: text) = Ok ((n - 1) mod 2 ^ 64) /\
  number_to_index ("R"%char :: text) = Ok (n + 31) /\
  number_to_index ("E"%char :: text) = Ok (n + 57) /\
  number_to_index ("C"%char :: text) = Ok (n + 85) /\
  number_to_index ("J"%char :: text) = Ok (n + 147) /\
  number_to_index ("I"%char :: text) = Ok (n + 152).
Proof.
  intros k n H text.
  assert (G : forall b, sat_index b text = Ok ((n + b - 1) mod 2 ^ 64)).
  { intros b. unfold sat_index, text. rewrite stoi_padded by exact H. reflexivity. }
  unfold number_to_index. cbn [Ascii.eqb Bool.eqb]. rewrite !G.
  change glonass_begin with 32. change galileo_begin with 58. change beidou_begin with 86.
  change qzss_begin with 148. change navic_begin with 153. change gps_begin with 0.
  split; [do 2 f_equal; lia|]. repeat split; f_equal; (rewrite Z.mod_small by lia); lia.
Qed.
Print Assumptions C31_number_not_range_checked.
(** so distinct satellite numbers can share an index, and "G00" gives 2^64-1 *)
Theorem C31_injective_on_numbers_refuted :
  number_to_index (lit "G33") = number_to_index (lit "R01") /\ number_to_index (lit "G00") = Ok (2 ^ 64 - 1).
Proof. split; vm_compute; reflexivity. Qed.
Print Assumptions C31_injective_on_numbers_refuted.
(** other first letters give UINT32_MAX (the header promises INT32_MAX); an empty string is undefined;
    text without a number throws *)
Theorem C31_other_inputs : forall c t, ~ In c (map fst systems) -> number_to_index (c :: t) = Ok 4294967295.
Proof.
  intros c t H. unfold number_to_index.
  repeat match goal with |- context [Ascii.eqb c ?x] => destruct (Ascii.eqb_spec c x) as [->|?]; [exfalso; apply H; cbn; tauto|] end.
  reflexivity.
Qed.
Print Assumptions C31_other_inputs.

(** * C32 *)
Lemma year_doy_parts y d : 0 <= d < 1000 -> year_of (merge_year_doy y d) = y /\ doy_of (merge_year_doy y d) = d.
Proof.
  intros H. unfold doy_of, year_of, merge_year_doy.
  assert (E : (y * 1000 + d) / 1000 = y) by (symmetry; apply (Z.div_unique _ _ _ d); lia).
  rewrite E. lia.
Qed.
(** C32: splitting a merged date gives back its parts *)
Theorem C32_merge_and_parse : forall y d, 0 <= d < 1000 ->
  year_of (merge_year_doy y d) = y /\ doy_of (merge_year_doy y d) = d.
Proof. exact year_doy_parts. Qed.
Print Assumptions C32_merge_and_parse.

Lemma increment_spec y d : is_date leap_simple (y * 1000 + d) y d ->
  increment_year_doy (y * 1000 + d) =
    if d =? year_length leap_simple y then (y + 1) * 1000 + 1 else y * 1000 + (d + 1).
Proof.
  intros (_ & Y & D). unfold increment_year_doy. rewrite <- Z.add_assoc.
  assert (B : year_length leap_simple y <= 366) by (unfold year_length; destruct (leap_simple y); lia).
  destruct (year_doy_parts y (d + 1)) as [P1 P2]; [lia|]. unfold merge_year_doy in P1, P2. rewrite P1, P2.
  change (y mod 4 =? 0) with (leap_simple y). unfold year_length, merge_year_doy in *.
  destruct (leap_simple y).
  - destruct (Z.eqb_spec d 366) as [->|N]; [reflexivity|].
    destruct (Z.ltb_spec 365 (d + 1)); [|lia]. destruct (Z.ltb_spec 366 (d + 1)); [lia|reflexivity].
  - destruct (Z.eqb_spec d 365) as [->|N]; [reflexivity|].
    destruct (Z.ltb_spec 365 (d + 1)); [lia|reflexivity].
Qed.
(** C32: the increment of a date is the date of the next day (leap years: divisible by 4) *)
Theorem C32_increment_is_next_day : forall x y d, is_date leap_simple x y d ->
  exists y' d', is_date leap_simple (increment_year_doy x) y' d' /\
    day_count leap_simple y' d' = day_count leap_simple y d + 1.
Proof.
  intros x y d H. assert (E : x = y * 1000 + d) by apply H. subst x. rewrite increment_spec by exact H.
  destruct H as (_ & Y & D). destruct (Z.eqb_spec d (year_length leap_simple y)) as [->|N].
  - exists (y + 1), 1. split.
    + split; [reflexivity|]. split; [lia|]. unfold year_length. destruct (leap_simple (y + 1)); lia.
    + unfold day_count. replace (Z.to_nat (y + 1)) with (S (Z.to_nat y)) by lia. cbn [days_before_year].
      rewrite Z2Nat.id by lia. lia.
  - exists y, (d + 1). split; [split; [lia|]; split; lia|]. unfold day_count. lia.
Qed.
Print Assumptions C32_increment_is_next_day.
(** the rule agrees with the Gregorian calendar from 1901 to 2099, and not in 2100 *)
Theorem C32_gregorian_1901_2099 : forall x y d, 1901 <= y <= 2099 -> is_date leap_gregorian x y d ->
  exists y' d', is_date leap_gregorian (increment_year_doy x) y' d' /\
    day_count leap_gregorian y' d' = day_count leap_gregorian y d + 1.
Proof.
  intros x y d Hy H.
  assert (A : leap_gregorian y = leap_simple y).
  { unfold leap_gregorian, leap_simple, divides. destruct (Z.eqb_spec (y mod 4) 0) as [E4|]; [|reflexivity].
    destruct (Z.eqb_spec (y mod 100) 0) as [E|]; [|reflexivity].
    destruct (Z.eqb_spec (y mod 400) 0) as [E2|E2]; [reflexivity|].
    exfalso. assert (y = 2000).
    { pose proof (Z.div_mod y 100 ltac:(lia)). assert (19 <= y / 100 <= 20) by (split; [apply Z.div_le_lower_bound|apply Z.lt_succ_r, Z.div_lt_upper_bound]; lia).
      assert (y / 100 = 19 \/ y / 100 = 20) by lia. lia. }
    subst y. now apply E2. }
  assert (H' : is_date leap_simple x y d). { unfold is_date, year_length in *. now rewrite <- A. }
  assert (E : x = y * 1000 + d) by apply H. subst x. rewrite increment_spec by exact H'.
  unfold year_length. rewrite <- A. fold (year_length leap_gregorian y).
  destruct H as (_ & Y & D). destruct (Z.eqb_spec d (year_length leap_gregorian y)) as [->|N].
  - exists (y + 1), 1. split.
    + split; [reflexivity|]. split; [lia|]. unfold year_length. destruct (leap_gregorian (y + 1)); lia.
    + unfold day_count. replace (Z.to_nat (y + 1)) with (S (Z.to_nat y)) by lia. cbn [days_before_year].
      rewrite Z2Nat.id by lia. lia.
  - exists y, (d + 1). split; [split; [lia|]; split; lia|]. unfold day_count. lia.
Qed.
Print Assumptions C32_gregorian_1901_2099.
Theorem C32_gregorian_2100_refuted :
  is_date leap_gregorian 2100365 2100 365 /\
  ~ exists y' d', is_date leap_gregorian (increment_year_doy 2100365) y' d'.
Proof.
  split; [repeat split; cbn; lia|]. intros (y & d & E & Y & D).
  change (increment_year_doy 2100365) with 2100366 in E.
  assert (d <= 366) by (unfold year_length in D; destruct (leap_gregorian y); lia).
  assert (y = 2100) by lia. subst y. change (year_length leap_gregorian 2100) with 365 in D. lia.
Qed.
Print Assumptions C32_gregorian_2100_refuted.

(** C32: the files read for start..end are those of every day from start to end, none skipped. *)
Lemma read_dates_spec n : forall y d ye de x e,
  is_date leap_simple x y d -> is_date leap_simple e ye de ->
  day_count leap_simple ye de = day_count leap_simple y d + Z.of_nat n ->
  forall fuel, (n + 1 < fuel)%nat ->
  exists l, read_dates fuel x e = Ok l /\ List.length l = S n /\ last l 0 = e /\
    forall k z, nth_error l k = Some z -> exists y' d', is_date leap_simple z y' d' /\
      day_count leap_simple y' d' = day_count leap_simple y d + Z.of_nat k.
Proof.
  assert (Mono : forall a b, (a <= b)%nat -> days_before_year leap_simple a + 365 * Z.of_nat (b - a) <= days_before_year leap_simple b).
  { intros a b L. induction L as [|b L IH]; [rewrite Nat.sub_diag; lia|].
    cbn [days_before_year]. unfold year_length at 1. replace (S b - a)%nat with (S (b - a)) by lia.
    destruct (leap_simple (Z.of_nat b)); lia. }
  assert (Day : forall y d, 0 <= y -> day_count leap_simple (y + 1) d = day_count leap_simple y d + year_length leap_simple y).
  { intros y d Y. unfold day_count. replace (Z.to_nat (y + 1)) with (S (Z.to_nat y)) by lia. cbn [days_before_year].
    rewrite Z2Nat.id by lia. lia. }
  assert (Strict : forall y d ye de, 0 <= y -> 0 <= ye -> 1 <= d <= year_length leap_simple y -> 1 <= de <= year_length leap_simple ye ->
     y < ye -> day_count leap_simple y d < day_count leap_simple ye de).
  { intros y d ye de Y Ye D De L. pose proof (Mono (Z.to_nat (y + 1)) (Z.to_nat ye) ltac:(lia)) as M.
    pose proof (Day y 0 Y) as Dy. unfold day_count in *. lia. }
  assert (Order : forall y d ye de, 0 <= y -> 0 <= ye -> 1 <= d <= year_length leap_simple y -> 1 <= de <= year_length leap_simple ye ->
     day_count leap_simple y d <= day_count leap_simple ye de -> y * 1000 + d <= ye * 1000 + de).
  { intros y d ye de Y Ye D De L.
    assert (B : forall q, year_length leap_simple q <= 366) by (intros q; unfold year_length; destruct (leap_simple q); lia).
    pose proof (B y). pose proof (B ye).
    destruct (Z.lt_trichotomy y ye) as [C|[C|C]]; [lia| |].
    - subst ye. unfold day_count in L. lia.
    - pose proof (Strict ye de y d Ye Y De D C). lia. }
  induction n as [|n IH]; intros y d ye de x e Hx He Hn fuel Hf; (destruct fuel as [|fuel]; [lia|]).
  - assert (x = e).
    { destruct Hx as (-> & Y & D). destruct He as (-> & Ye & De).
      pose proof (Order y d ye de Y Ye D De ltac:(lia)). pose proof (Order ye de y d Ye Y De D ltac:(lia)). lia. }
    subst e. cbn [read_dates]. rewrite Z.leb_refl.
    destruct fuel as [|fuel]; [lia|]. cbn [read_dates].
    assert (x < increment_year_doy x).
    { assert (E : x = y * 1000 + d) by apply Hx. subst x. rewrite increment_spec by exact Hx.
      destruct Hx as (_ & Y & D). destruct (Z.eqb_spec d (year_length leap_simple y)); [|lia].
      unfold year_length in D. destruct (leap_simple y); lia. }
    destruct (Z.leb_spec (increment_year_doy x) x); [lia|]. cbn [bind]. exists [x].
    split; [reflexivity|]. split; [reflexivity|]. split; [reflexivity|].
    intros [|[|k]] z Ez; try discriminate. injection Ez as <-. exists y, d. split; [exact Hx|lia].
  - destruct (C32_increment_is_next_day x y d Hx) as (y' & d' & Hx' & Hd').
    destruct (IH y' d' ye de _ e Hx' He ltac:(lia) fuel ltac:(lia)) as (l & E & L & La & P).
    exists (x :: l). cbn [read_dates].
    destruct (Z.leb_spec x e) as [_|G].
    + rewrite E. cbn [bind]. split; [reflexivity|]. split; [cbn; lia|]. split.
      * destruct l as [|a l]; [discriminate L|]. exact La.
      * intros [|k] z Ez; [injection Ez as <-; exists y, d; split; [exact Hx|lia]|].
        destruct (P k z Ez) as (yy & dd & H1 & H2). exists yy, dd. split; [exact H1|lia].
    + exfalso. destruct Hx as (-> & Y & D). destruct He as (-> & Ye & De).
      pose proof (Order y d ye de Y Ye D De ltac:(lia)). lia.
Qed.
Theorem C32_product_files_cover_every_day : forall start_ end_ y d ye de n,
  is_date leap_simple start_ y d -> is_date leap_simple end_ ye de ->
  day_count leap_simple ye de = day_count leap_simple y d + Z.of_nat n ->
  exists fuel l, read_dates fuel start_ end_ = Ok l /\ List.length l = S n /\ last l 0 = end_ /\
    forall k z, nth_error l k = Some z -> exists y' d', is_date leap_simple z y' d' /\
      day_count leap_simple y' d' = day_count leap_simple y d + Z.of_nat k.
Proof.
  intros s e y d ye de n H1 H2 H3. exists (n + 2)%nat. apply (read_dates_spec n y d ye de); try assumption. lia.
Qed.
Print Assumptions C32_product_files_cover_every_day.

(** C32: file names of different days differ (same header, period and type). *)
Theorem C32_file_names_distinct : forall h p t x x', 0 <= x -> 0 <= x' ->
  final_file_name h x p t = final_file_name h x' p t -> x = x'.
Proof.
  intros h p t x x' H H' E. unfold final_file_name in E. apply app_inv_head in E. injection E as E.
  apply app_inv_tail in E. now apply to_string_inj.
Qed.
Print Assumptions C32_file_names_distinct.

(** C32: for a year from 1 on the date part of the name is the year followed by the three digits of the
    day of year. *)
Definition three_digits (d : Z) : str := [digit_chr (d / 100); digit_chr (d / 10 mod 10); digit_chr (d mod 10)].
Theorem C32_file_name_format : forall h y d p t, 1 <= y -> 0 <= d < 1000 ->
  final_file_name h (merge_year_doy y d) p t =
  h ++ lit "_" ++ to_string y ++ three_digits d ++ lit "0000_01D_" ++ p ++ lit "_" ++ t.
Proof.
  intros h y d p t Y D. unfold final_file_name, merge_year_doy. f_equal. f_equal.
  assert (E : to_string (y * 1000 + d) = to_string y ++ three_digits d).
  { replace (y * 1000 + d) with (10 * (10 * (10 * y + d / 100) + d / 10 mod 10) + d mod 10).
    - pose proof (Z.mod_pos_bound d 10 ltac:(lia)). pose proof (Z.mod_pos_bound (d / 10) 10 ltac:(lia)).
      assert (0 <= d / 100 < 10) by (split; [apply Z.div_pos; lia|apply Z.div_lt_upper_bound; lia]).
      rewrite !to_string_step by lia. unfold three_digits. rewrite <- !app_assoc. reflexivity.
    - pose proof (Z.div_mod d 10 ltac:(lia)). pose proof (Z.div_mod (d / 10) 10 ltac:(lia)) as Q.
      rewrite Z.div_div in Q by lia. change (10 * 10) with 100 in Q. lia. }
  rewrite E, <- app_assoc. reflexivity.
Qed.
Print Assumptions C32_file_name_format.

Example ex_name : final_file_name (lit "IGS0OPSFIN") 2023060 (lit "15M") (lit "ORB.SP3") = lit "IGS0OPSFIN_20230600000_01D_15M_ORB.SP3".
Proof. vm_compute. reflexivity. Qed.
Example ex_increment : increment_year_doy 2024365 = 2024366 /\ increment_year_doy 2024366 = 2025001 /\ increment_year_doy 2023365 = 2024001.
Proof. repeat split; vm_compute; reflexivity. Qed.
Example ex_dates : read_dates 10 2023364 2024002 = Ok [2023364; 2023365; 2024001; 2024002] /\ is_date leap_simple 2023364 2023 364.
Proof. split; [vm_compute; reflexivity|]. split; [reflexivity|]. cbn. lia. Qed.
