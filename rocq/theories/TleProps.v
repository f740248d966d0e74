(** C154: the text of two line elements. *)
From Coq Require Import Reals Lra Lia List Bool Arith ZArith Ascii String.
From Verif Require Import Base RBase StringModel VecModel JulianModel Sgp4Model Sgp4Spec Sgp4Proofs Sgp4Loop Sgp4Kepler Sgp4Geom Sgp4Init Sgp4Near Sgp4Total Sgp4Fair Sgp4Runs Sgp4Tle Sgp4Lost Sgp4Props TleModel TleSpec TleProofs.
From Verif Require Import StringModel.
Import ListNotations.
Open Scope list_scope.
Open Scope R_scope.

(** C154: two lines in the standard columns are read as the numbers written in them *)
Theorem C154_numbers : forall line1 line2 yr days nd ndd nexp bs ibexp incl node ecc argp m n,
  line1_means line1 yr days nd ndd nexp bs ibexp -> line2_means line2 incl node ecc argp m n ->
  scan_tle line1 line2 = Some (mkTle yr days nd ndd nexp bs ibexp incl node ecc argp m n).
Proof.
  intros line1 line2 yr days nd ndd nexp bs ibexp incl node ecc argp m n A B. destruct (scan_line1_ok _ _ _ _ _ _ _ _ A) as [A1 A2]. destruct (scan_line2_ok _ _ _ _ _ _ _ B) as [B1 B2].
  unfold scan_tle. now rewrite A1, B1, A2, B2.
Qed.
Print Assumptions C154_numbers.

(** C154: so the orbit object built from the two texts shows, initially and after any calls, what the theory gives for the numbers in
    the columns at the minutes since the epoch in the columns (period below 225 minutes) *)
Theorem C154_orbit : forall deepinit setting line1 line2 yr days nd ndd nexp bs ibexp incl node ecc argp m n s0 jd0 o,
  line1_means line1 yr days nd ndd nexp bs ibexp -> line2_means line2 incl node ecc argp m n ->
  orbit_of_lines deepinit setting line1 line2 s0 jd0 = Val (Some o) ->
  exists w, nth_error [Wgs72old; Wgs72; Wgs84] (Z.to_nat setting) = Some w /\ (0 <= setting <= 2)%Z /\
  let e := line_elems bs ibexp ecc argp incl m n node in
  let epoch := jday (full_year yr) 1 1 0 0 0 + (days - 1) in
  let shows o jd := exists r v, str3_report (theory_w w) e ((jd - epoch) * 1440) (Some (r, v)) (error (o_sat o)) /\
                                (forall i, o_pos o i = r i * 1000) /\ (forall i, o_vel o i = v i * 1000) in
  1 <= days -> 2 * PI / n_orig (theory_w w) e < 225 -> shows o jd0 /\
  forall ks o1, perform_all o ks = Val (Some o1) -> forall jd o2, propagate (set_enabled true o1) jd = Val (Some o2) -> shows o2 jd.
Proof.
  intros deepinit setting line1 line2 yr days nd ndd nexp bs ibexp incl node ecc argp m n s0 jd0 o A B H. unfold orbit_of_lines in H.
  rewrite (C154_numbers _ _ _ _ _ _ _ _ _ _ _ _ _ _ _ A B) in H. destruct (C131_orbit_object _ _ _ _ _ _ H) as (w & W1 & W2 & _ & S1 & S2).
  exists w. split; [exact W1|]. split; [exact W2|]. cbn [l_bstar l_ibexp l_ecc l_argp l_incl l_m l_n l_node] in S1, S2. intros e epoch shows D P.
  pose proof (proj1 (C131_epoch (mkTle yr days nd ndd nexp bs ibexp incl node ecc argp m n) D)) as E. cbn [l_epochyr l_epochdays] in E. fold epoch in E. rewrite E in S1.
  split; [apply S1; exact P|]. intros ks o1 K jd o2 Q. destruct (S2 ks o1 K) as [_ S3]. rewrite E in S3. apply (S3 P jd o2 Q).
Qed.
Print Assumptions C154_orbit.

(** C154: a catalogue number that begins with a letter (as numbers above 99999 do), or any other text there, is not read: the elements are
    undefined *)
Theorem C154_letter_in_catalogue : forall deepinit setting c rest line2 s0 jd,
  ~ is_dig c -> is_space c = false -> c <> "+"%char -> c <> "-"%char ->
  scan_tle (lit "1 " ++ c :: rest) line2 = None /\ orbit_of_lines deepinit setting (lit "1 " ++ c :: rest) line2 s0 jd = Val None.
Proof.
  intros deepinit setting c rest line2 s0 jd D SP P M.
  assert (E : scan_tle (lit "1 " ++ c :: rest) line2 = None).
  { unfold scan_tle. destruct (fits 54 _ && fits 26 line2) eqn:F; [|reflexivity].
    assert (X : exists t, repair1 (lit "1 " ++ c :: rest) = lit "1 " ++ c :: t).
    { assert (K : forall i x t, (3 <= i)%nat -> exists u, set_at i x (lit "1 " ++ c :: t) = lit "1 " ++ c :: u).
      { intros i x t L. destruct i as [|[|[|i]]]; try lia. exists (set_at i x t). reflexivity. }
      assert (KF : forall i x s, (3 <= i)%nat -> (exists t, s = lit "1 " ++ c :: t) -> exists u, fill i x s = lit "1 " ++ c :: u).
      { intros i x s L (t & ->). rewrite fill_eq. now apply K. }
      assert (KS : forall i j s, (3 <= j)%nat -> (exists t, s = lit "1 " ++ c :: t) -> exists u, shift i j s = lit "1 " ++ c :: u).
      { intros i j s L (t & ->). rewrite shift_eq. now apply K. }
      assert (KA : forall i x s, (3 <= i)%nat -> (exists t, s = lit "1 " ++ c :: t) -> exists u, set_at i x s = lit "1 " ++ c :: u).
      { intros i x s L (t & ->). now apply K. }
      unfold repair1, fills. cbn [fold_left]. repeat first [apply KF; [lia|]|apply KA; [lia|]|apply KS; [lia|]]. now exists rest. }
    destruct X as [t ->]. unfold scan_line1. change (lit "1 " ++ c :: t) with ([] ++ ["1"%char] ++ " "%char :: c :: t).
    rewrite (scan_d_digits 2 [] ["1"%char]) by (first [solve [intros x []]|intros x [<-|[]]; unfold is_dig; cbn; lia|discriminate|cbn; lia|right; apply stops_char, blank_no_dig]).
    assert (N : scan_d 5 (" "%char :: c :: t) = None).
    { unfold scan_d. rewrite skip_one. cbn [skip_space]. rewrite SP. unfold sign_of. destruct (Ascii.eqb_spec c "-"); [contradiction|]. destruct (Ascii.eqb_spec c "+"); [contradiction|].
      cbn [take_digits]. now rewrite (digit_not c D). }
    now rewrite N. }
  split; [exact E|]. unfold orbit_of_lines. now rewrite E.
Qed.
Print Assumptions C154_letter_in_catalogue.

(** C154: columns after the drag exponent of line 1 and after the mean motion of line 2 - element number, revolution number and
    check digit - and the catalogue numbers have no influence *)
Theorem C154_rest_ignored : forall line1 line1' line2 line2' yr days nd ndd nexp bs ibexp incl node ecc argp m n,
  line1_means line1 yr days nd ndd nexp bs ibexp -> line1_means line1' yr days nd ndd nexp bs ibexp ->
  line2_means line2 incl node ecc argp m n -> line2_means line2' incl node ecc argp m n -> scan_tle line1 line2 = scan_tle line1' line2'.
Proof. intros. now rewrite !(C154_numbers _ _ yr days nd ndd nexp bs ibexp incl node ecc argp m n) by assumption. Qed.
Print Assumptions C154_rest_ignored.

(** a real element set (ISS, 2008) *)
Definition iss1 (check : string) : str := lit ("1 25544U 98067A   08264.51782528 -.00002182  00000-0 -11606-4 0  292" ++ check).
Definition iss2 (number check : string) : str := lit ("2 " ++ number ++ "  51.6416 247.4627 0006703 130.5360 325.0288 15.72125391 5633" ++ check).
Ltac dig := let c := fresh in let H := fresh in intros c H; cbn in H; repeat destruct H as [<-|H]; try contradiction; unfold is_dig; cbn; lia.
Ltac blanks := let c := fresh in let H := fresh in intros c H; cbn in H; repeat destruct H as [<-|H]; try contradiction; reflexivity.
Ltac nums := repeat match goal with |- context [digits_to_Z ?s] => let v := eval vm_compute in (digits_to_Z s) in change (digits_to_Z s) with v end;
  repeat match goal with |- context [List.length ?s] => let v := eval vm_compute in (List.length s) in change (List.length s) with v end; lra.
Ltac dec sg g i f := exists (lit sg), g, (lit i), (lit f); split; [reflexivity|]; split; [first [left; split; reflexivity|right; left; split; reflexivity|right; right; split; reflexivity]|];
  split; [dig|]; split; [dig|]; split; [discriminate|]; nums.
Lemma iss1_means check : (String.length check <= 1)%nat -> line1_means (iss1 check) 8 264.51782528 (-0.00002182) 0 0 (-0.11606) (-4).
Proof.
  intros L. exists (lit "25544"), "U"%char, (lit "98067A  "), (lit "08"), (lit "264.51782528"), (lit "-.00002182"), " "%char, (lit "00000"), "-"%char, "0"%char,
    "-"%char, (lit "11606"), "-"%char, "4"%char, 1%Z, (-1)%Z, (-1)%Z, (-1)%Z, (lit (" 0  292" ++ check)).
  split; [reflexivity|]. split; [split; [reflexivity|]; exists [], (lit "25544"); split; [reflexivity|]; split; [blanks|]; split; [dig|discriminate]|].
  split; [unfold no_control; cbn; lia|]. split; [unfold is_dig; cbn; lia|]. split; [reflexivity|].
  split; [intros c H; cbn in H; repeat destruct H as [<-|H]; try contradiction; unfold no_control; cbn; lia|].
  split; [split; [reflexivity|]; split; [dig|reflexivity]|].
  split; [split; [reflexivity|]; exists [], (lit "264.51782528"); split; [reflexivity|]; split; [blanks|]; dec (""%string) (1)%Z ("264"%string) ("51782528"%string)|].
  split; [split; [reflexivity|]; exists [], (lit "-.00002182"); split; [reflexivity|]; split; [blanks|]; dec ("-"%string) (-1)%Z (""%string) ("00002182"%string)|].
  split; [left; split; reflexivity|]. split; [reflexivity|]. split; [dig|]. split; [nums|].
  split; [right; right; split; reflexivity|]. split; [unfold is_dig; cbn; lia|]. split; [reflexivity|].
  split; [right; right; split; reflexivity|]. split; [reflexivity|]. split; [dig|]. split; [nums|].
  split; [right; right; split; reflexivity|]. split; [unfold is_dig; cbn; lia|]. split; [reflexivity|].
  split; [intros c t E; injection E as <- _; apply blank_no_dig|].
  destruct check as [|a [|b check]]; cbn in L |- *; lia.
Qed.
Lemma iss2_means number check : catalogue (lit number) -> String.length number = 5%nat -> (String.length check <= 1)%nat ->
  line2_means (iss2 number check) 51.6416 247.4627 0.0006703 130.5360 325.0288 15.72125391.
Proof.
  intros C L K. exists (lit number), (lit " 51.6416"), (lit "247.4627"), (lit "0006703"), (lit "130.5360"), (lit "325.0288"), (lit "15.72125391"), (lit (" 5633" ++ check)).
  do 6 (destruct number as [|? number]; try discriminate L). split; [reflexivity|]. split; [exact C|].
  split; [split; [reflexivity|]; exists [" "%char], (lit "51.6416"); split; [reflexivity|]; split; [blanks|]; dec (""%string) (1)%Z ("51"%string) ("6416"%string)|].
  split; [split; [reflexivity|]; exists [], (lit "247.4627"); split; [reflexivity|]; split; [blanks|]; dec (""%string) (1)%Z ("247"%string) ("4627"%string)|].
  split; [split; [reflexivity|]; split; [dig|nums]|].
  split; [split; [reflexivity|]; exists [], (lit "130.5360"); split; [reflexivity|]; split; [blanks|]; dec (""%string) (1)%Z ("130"%string) ("5360"%string)|].
  split; [split; [reflexivity|]; exists [], (lit "325.0288"); split; [reflexivity|]; split; [blanks|]; dec (""%string) (1)%Z ("325"%string) ("0288"%string)|].
  split; [split; [reflexivity|]; exists [], (lit "15.72125391"); split; [reflexivity|]; split; [blanks|]; dec (""%string) (1)%Z ("15"%string) ("72125391"%string)|].
  split; [left; eexists; eexists; split; [reflexivity|]; intros d u E; injection E as <- _; discriminate|].
  destruct check as [|x [|b check]]; cbn in K |- *; lia.
Qed.
Lemma cat_digits s : String.length s = 5%nat -> all_digits (lit s) -> catalogue (lit s).
Proof. intros L D. assert (LL : List.length (lit s) = 5%nat) by (do 6 (destruct s as [|? s]; try discriminate L); reflexivity). split; [exact LL|]. exists [], (lit s). split; [reflexivity|]. split; [blanks|]. split; [exact D|]. intros E. rewrite E in LL. discriminate. Qed.
(** C154 (refuted): "lines with a wrong check digit, or of two different satellites, are rejected" *)
Theorem C154_wrong_lines_rejected_refuted : exists l,
  scan_tle (iss1 "7") (iss2 "25544" "7") = Some l /\ scan_tle (iss1 "0") (iss2 "25544" "7") = Some l /\ scan_tle (iss1 "7") (iss2 "00005" "7") = Some l.
Proof.
  eexists. split; [|split]; apply C154_numbers; (apply iss1_means; cbn; lia) || (apply iss2_means; [apply cat_digits; [reflexivity|dig]|reflexivity|cbn; lia]).
Qed.
Print Assumptions C154_wrong_lines_rejected_refuted.
(** C154 (refuted): "the mean motion read is the one in its eleven columns": with two blanks before it the first digit of the revolution
    number is read as one more decimal *)
Theorem C154_mean_motion_columns_refuted :
  field 11 (lit "  .12345678") 0.12345678 /\
  scan_line2 (repair2 (lit "2 25544  51.6416 247.4627 0006703 130.5360 325.0288   .12345678956337")) = Some (51.6416, 247.4627, 0.0006703, 130.5360, 325.0288, 0.123456789).
Proof.
  split; [split; [reflexivity|]; exists (lit "  "), (lit ".12345678"); split; [reflexivity|]; split; [blanks|]; dec (""%string) (1)%Z (""%string) ("12345678"%string)|].
  lazy -[IZR Rdiv Rmult Rinv pow]. match goal with |- Some (?a, ?b, ?c, ?d, ?e, ?f) = Some (?a', ?b', ?c', ?d', ?e', ?f') =>
    assert (E1 : a = a') by lra; assert (E2 : b = b') by lra; assert (E3 : c = c') by lra; assert (E4 : d = d') by lra; assert (E5 : e = e') by lra; assert (E6 : f = f') by lra end.
  now rewrite E1, E2, E3, E4, E5, E6.
Qed.
Print Assumptions C154_mean_motion_columns_refuted.

(** C154: the hypotheses are met by the lines of the ISS *)
Example C154_meets : scan_tle (iss1 "7") (iss2 "25544" "7") = Some (mkTle 8 264.51782528 (-0.00002182) 0 0 (-0.11606) (-4) 51.6416 247.4627 0.0006703 130.5360 325.0288 15.72125391).
Proof. apply C154_numbers; [apply iss1_means; cbn; lia|apply iss2_means; [apply cat_digits; [reflexivity|dig]|reflexivity|cbn; lia]]. Qed.
