From Coq Require Import Reals String List Bool Arith ZArith Lra Lia.
From Verif Require Import Base StringModel GnssModel AntexModel AntexSpec.
Import ListNotations.
Open Scope nat_scope.
Open Scope string_scope.

(** ** strings *)
Lemma len_app a b : String.length (a ++ b) = (String.length a + String.length b)%nat.
Proof. induction a as [|c a IH]; [reflexivity|]. cbn [append String.length]. rewrite IH. reflexivity. Qed.
Lemma sub_app a : forall b k n, String.length a <= k -> substring k n (a ++ b) = substring (k - String.length a) n b.
Proof.
  induction a as [|c a IH]; intros b k n H; cbn [append String.length] in *; [rewrite Nat.sub_0_r; reflexivity|].
  destruct k as [|k]; [lia|]. cbn [substring Nat.sub]. apply IH. lia.
Qed.
Lemma sub_take a : forall b n, String.length a = n -> substring 0 n (a ++ b) = a.
Proof.
  intros b n <-. induction a as [|c a IH]; cbn [append String.length substring].
  - destruct b; reflexivity.
  - f_equal. exact IH.
Qed.
Lemma sub_part a : forall b n, n <= String.length a -> substring 0 n (a ++ b) = substring 0 n a.
Proof.
  induction a as [|c a IH]; intros b n L; cbn [append String.length] in *.
  - assert (n = 0) by lia. subst. destruct b; reflexivity.
  - destruct n; [reflexivity|]. cbn [substring]. f_equal. apply IH. lia.
Qed.
Lemma app_assoc_s (a b c : string) : (a ++ b) ++ c = a ++ b ++ c.
Proof. induction a as [|x a IH]; [reflexivity|]. cbn [append]. f_equal. exact IH. Qed.
Lemma prefix_sub w : forall s, String.prefix w s = true <-> substring 0 (String.length w) s = w.
Proof.
  induction w as [|c w IH]; intros s; cbn [String.length].
  - destruct s; cbn; split; reflexivity.
  - destruct s as [|x s]; cbn [String.prefix substring]; [split; discriminate|]. destruct (Ascii.ascii_dec c x) as [->|N].
    + rewrite IH. split; [intros ->; reflexivity|]. intros E. injection E as E. exact E.
    + split; [discriminate|]. intros E. injection E as -> _. now elim N.
Qed.
Lemma at60_iff w line : w <> "" -> (at60 w line = true <-> labelled w line).
Proof.
  intros NW. unfold at60, labelled. destruct (String.index 0 w line) as [p|] eqn:E.
  - pose proof (index_correct1 _ _ _ _ E) as H1. pose proof (index_correct2 _ _ _ _ E) as H2. rewrite Nat.eqb_eq. split.
    + intros ->. split; [exact H1|]. intros p L. apply H2; lia.
    + intros (A & B). destruct (lt_eq_lt_dec p 60) as [[L|L]|L]; [|exact L|].
      * elim (B p L H1).
      * elim (H2 60 ltac:(lia) L A).
  - split; [discriminate|]. intros (A & _). pose proof (index_correct3 0 60 w line E NW (Nat.le_0_l _)). contradiction.
Qed.
Lemma at60_false w line : w <> "" -> ~ labelled w line -> at60 w line = false.
Proof. intros NW N. destruct (at60 w line) eqn:E; [|reflexivity]. elim N. now apply at60_iff. Qed.
Lemma at60_own c w r : w <> "" -> good_line c w r -> at60 w (c ++ w ++ r) = true.
Proof.
  intros NW (L & C). apply at60_iff; [exact NW|]. split; [|exact C]. rewrite sub_app by lia. rewrite L. change (60 - 60) with 0. now apply sub_take.
Qed.
Lemma at60_other c w r w' : String.length c = 60 -> w' <> "" -> String.prefix w' (w ++ r) = false -> at60 w' (c ++ w ++ r) = false.
Proof.
  intros L NW P. apply at60_false; [exact NW|]. intros (A & _). rewrite sub_app in A by lia. rewrite L in A. change (60 - 60) with 0 in A.
  apply prefix_sub in A. congruence.
Qed.
Lemma has_without w line : w <> "" -> without w line -> has w line = false.
Proof. intros NW N. unfold has. destruct (String.index 0 w line) as [p|] eqn:E; [|reflexivity]. pose proof (index_correct1 _ _ _ _ E) as H. elim (N p H). Qed.
Lemma has_noazi t : has "NOAZI" ("   NOAZI" ++ t) = true.
Proof. unfold has. cbn. replace (String.prefix "" t) with true by (destruct t; reflexivity). reflexivity. Qed.
Lemma substr_ok s pos n : pos <= String.length s -> substr s pos n = Ok (substring pos n s).
Proof. intros H. unfold substr. destruct (Nat.ltb_spec (String.length s) pos); [lia|reflexivity]. Qed.
Lemma substr_content c w r n : String.length c = 60 -> n <= 60 -> substr (c ++ w ++ r) 0 n = Ok (substring 0 n c).
Proof. intros L H. rewrite substr_ok by lia. rewrite sub_part by lia. reflexivity. Qed.

(** ** grids *)
Open Scope R_scope.
Lemma to_size_nonneg r : 0 <= r -> r < IZR (2 ^ 64) -> to_size r = Ok (Int_part r).
Proof.
  intros A B. unfold to_size. destruct (Rlt_dec (-1) r); [|lra]. destruct (Rlt_dec r (IZR (2 ^ 64))); [|lra]. destruct (Rlt_dec r 0); [lra|reflexivity].
Qed.
Lemma int_part_between r n : IZR n <= r < IZR n + 1 -> Int_part r = n.
Proof.
  intros (A & B). destruct (base_Int_part r) as (C & D).
  assert (IZR (Int_part r) < IZR (n + 1)) by (rewrite plus_IZR; lra). assert (IZR n < IZR (Int_part r + 1)) by (rewrite plus_IZR; lra).
  apply lt_IZR in H, H0. lia.
Qed.
Lemma make_grid_ok zs ze step : (step <= 0 \/ zs <= ze /\ ze - zs < step * IZR (2 ^ 64 - 1)) ->
  exists n, make_grid zs ze step 0 = Ok (mkGrid zs ze step n 0 0) /\ grid_points zs ze step n.
Proof.
  intros H. unfold make_grid. destruct (Rle_dec 0 0) as [_|X]; [|lra]. destruct (Rle_dec step 0) as [L|L].
  - exists 0%Z. cbn [bind]. split; [reflexivity|]. left. split; [exact L|reflexivity].
  - destruct H as [H|(H1 & H2)]; [lra|]. assert (P : 0 < step) by lra. set (q := (ze - zs) / step).
    assert (Q0 : 0 <= q) by (unfold q; apply Rmult_le_pos; [lra|left; now apply Rinv_0_lt_compat]).
    assert (Q1 : q < IZR (2 ^ 64 - 1)) by (unfold q; apply Rmult_lt_reg_r with step; [exact P|]; unfold Rdiv; rewrite Rmult_assoc, Rinv_l by lra; lra).
    assert (QE : q * step = ze - zs) by (unfold q, Rdiv; rewrite Rmult_assoc, Rinv_l by lra; lra).
    rewrite to_size_nonneg; [|exact Q0|]. 2:{ eapply Rlt_trans; [exact Q1|]. apply IZR_lt. lia. }
    cbn [bind]. destruct (base_Int_part q) as (I1 & I2).
    assert (J0 : (0 <= Int_part q)%Z). { assert (IZR (-1) < IZR (Int_part q)) by (change (-1) with (IZR (-1)) in *; lra). apply lt_IZR in H. lia. }
    assert (J1 : (Int_part q < 2 ^ 64 - 1)%Z) by (apply lt_IZR; lra).
    exists (Int_part q + 1)%Z. rewrite Z.mod_small by lia. split; [reflexivity|]. right. split; [exact P|]. split; [lia|].
    replace (Int_part q + 1 - 1)%Z with (Int_part q) by lia. rewrite plus_IZR.
    assert (IZR (Int_part q) * step <= q * step) by (apply Rmult_le_compat_r; lra).
    assert (q * step < (IZR (Int_part q) + 1) * step) by (apply Rmult_lt_compat_r; lra).
    lra.
Qed.
Lemma rounded_ok x step : 0 < step -> 0 <= x -> x / step + 1 / 2 < IZR (2 ^ 64) ->
  exists i, rounded x step = Ok i /\ (0 <= i)%Z /\ (IZR i - 1 / 2) * step <= x < (IZR i + 1 / 2) * step.
Proof.
  intros P X B. unfold rounded. destruct (Req_EM_T step 0); [lra|].
  assert (Q0 : 0 <= x / step) by (apply Rmult_le_pos; [lra|left; now apply Rinv_0_lt_compat]).
  rewrite to_size_nonneg; [|lra|exact B]. exists (Int_part (x / step + 1 / 2)). destruct (base_Int_part (x / step + 1 / 2)) as (I1 & I2).
  set (i := Int_part (x / step + 1 / 2)) in *. split; [reflexivity|].
  assert (J0 : (0 <= i)%Z). { assert (IZR (-1) < IZR i) by (change (-1) with (IZR (-1)) in *; lra). apply lt_IZR in H. lia. }
  split; [exact J0|]. assert (QE : x / step * step = x) by (unfold Rdiv; rewrite Rmult_assoc, Rinv_l by lra; lra).
  assert (X1 : (IZR i - 1 / 2) * step <= x / step * step) by (apply Rmult_le_compat_r; lra).
  assert (X2 : x / step * step < (IZR i + 1 / 2) * step) by (apply Rmult_lt_compat_r; lra).
  lra.
Qed.
(** an index within half a step is nearest *)
Lemma half_step_nearest zs step n i x : 0 < step -> (0 <= i < n)%Z -> Rabs (x - (zs + IZR i * step)) <= step / 2 -> nearest zs step n i x.
Proof.
  intros P I H. split; [exact I|]. intros j J. destruct (Z.eq_dec i j) as [->|N]; [lra|].
  assert (D : 1 <= Rabs (IZR i - IZR j)).
  { rewrite <- minus_IZR, <- abs_IZR. change 1 with (IZR 1). apply IZR_le. lia. }
  assert (E : Rabs ((IZR i - IZR j) * step) = Rabs (IZR i - IZR j) * step) by (rewrite Rabs_mult, (Rabs_pos_eq step) by lra; reflexivity).
  assert (F : step <= Rabs ((IZR i - IZR j) * step)) by (rewrite E; rewrite <- (Rmult_1_l step) at 1; apply Rmult_le_compat_r; lra).
  pose proof (Rabs_triang (x - (zs + IZR j * step)) (- (x - (zs + IZR i * step)))) as T. rewrite Rabs_Ropp in T.
  replace (x - (zs + IZR j * step) + - (x - (zs + IZR i * step))) with ((IZR i - IZR j) * step) in T by ring. lra.
Qed.
Close Scope R_scope.

(** ** the store *)
Lemma store_add_get i s m j : get_satellite (store_add i s m) j =
  if Z.eqb j i then match get_satellite m i with Ok l => Ok (l ++ [s])%list | _ => Ok [s] end else get_satellite m j.
Proof.
  induction m as [|(k & l) m IH]; cbn [store_add get_satellite].
  - destruct (Z.eqb j i); reflexivity.
  - destruct (Z.eqb_spec i k) as [->|N]; cbn [get_satellite].
    + destruct (Z.eqb j k); reflexivity.
    + rewrite IH. destruct (Z.eqb_spec j k) as [->|M]; [|reflexivity]. destruct (Z.eqb_spec k i); [congruence|reflexivity].
Qed.
Lemma store_add_keys i s m : map fst (store_add i s m) = if in_dec Z.eq_dec i (map fst m) then map fst m else (map fst m ++ [i])%list.
Proof.
  induction m as [|(k & l) m IH]; [reflexivity|]. cbn [store_add map fst]. destruct (Z.eqb_spec i k) as [->|N].
  - cbn [map fst]. destruct (in_dec Z.eq_dec k (k :: map fst m)) as [_|X]; [reflexivity|elim X; now left].
  - cbn [map fst]. rewrite IH. destruct (in_dec Z.eq_dec i (map fst m)) as [I|I]; destruct (in_dec Z.eq_dec i (k :: map fst m)) as [J|J]; try reflexivity.
    + elim J. now right.
    + destruct J as [J|J]; [congruence|contradiction].
Qed.
Definition of_list (rs : list (Z * satellite)) (m : store) : store := fold_left (fun m r => store_add (fst r) (snd r) m) rs m.
Lemma of_list_get rs : forall m i, get_satellite (of_list rs m) i =
  match get_satellite m i, map snd (filter (fun r => Z.eqb i (fst r)) rs) with
  | Ok l, l' => Ok (l ++ l')%list
  | o, [] => o
  | _, l' => Ok l'
  end.
Proof.
  induction rs as [|(j & s) rs IH]; intros m i; cbn [of_list fold_left filter map].
  - destruct (get_satellite m i); cbn [filter map]; rewrite ?app_nil_r; reflexivity.
  - change (fold_left _ rs ?x) with (of_list rs x). rewrite IH. cbn [fst snd]. rewrite store_add_get. destruct (Z.eqb_spec i j) as [->|N].
    + cbn [map snd]. destruct (get_satellite m j); [rewrite <- app_assoc; reflexivity|reflexivity|reflexivity|reflexivity].
    + reflexivity.
Qed.
Lemma of_list_keys rs : forall m, NoDup (map fst m) -> NoDup (map fst (of_list rs m)) /\ forall i, In i (map fst (of_list rs m)) <-> In i (map fst m) \/ In i (map fst rs).
Proof.
  induction rs as [|(j & s) rs IH]; intros m N; cbn [of_list fold_left].
  - split; [exact N|]. cbn. tauto.
  - change (fold_left _ rs ?x) with (of_list rs x). cbn [fst snd].
    assert (N' : NoDup (map fst (store_add j s m)) /\ forall i, In i (map fst (store_add j s m)) <-> In i (map fst m) \/ i = j).
    { rewrite store_add_keys. destruct (in_dec Z.eq_dec j (map fst m)) as [I|I].
      - split; [exact N|]. intros i. split; [tauto|]. intros [H| ->]; assumption.
      - split; [|intros i; rewrite in_app_iff; cbn; intuition congruence]. 
        rewrite <- (rev_involutive (map fst m ++ [j])), rev_app_distr. apply NoDup_rev. cbn [rev app]. constructor; [rewrite <- in_rev; exact I|]. now apply NoDup_rev. }
    destruct N' as (N1 & N2). destruct (IH _ N1) as (A & B). split; [exact A|]. intros i. rewrite B, N2. cbn [map fst In]. intuition congruence.
Qed.
Lemma of_list_number rs : number_of_satellites (of_list rs []) = List.length (nodup Z.eq_dec (map fst rs)).
Proof.
  unfold number_of_satellites. rewrite <- (map_length fst). destruct (of_list_keys rs [] (NoDup_nil _)) as (A & B).
  apply Nat.le_antisymm; apply NoDup_incl_length; try assumption; try apply NoDup_nodup.
  - intros i H. apply nodup_In. apply B in H. cbn in H. tauto.
  - intros i H. apply nodup_In in H. apply B. now right.
Qed.
Lemma get_phase_spec s k : get_phase s k = match nth_error (sa_phases s) k with Some p => Ok p | None => UB end.
Proof. reflexivity. Qed.
