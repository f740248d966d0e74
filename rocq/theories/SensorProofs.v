From Coq Require Import Reals Lra Lia List Bool ZArith.
From Verif Require Import Base RBase VecModel OdeModel SensorModel.
Import ListNotations.
Open Scope R_scope.

Lemma range_check_ok c z : 0 <= fst (range_check c z) <= snd (range_check c z).
Proof.
  unfold range_check.
  destruct (rlt_spec c 0) as [H|H]; cbn [orb].
  - pose proof (Rabs_pos c). pose proof (Rabs_pos z). destruct (rlt_spec (Rabs z) (Rabs c)); cbn [fst snd]; lra.
  - destruct (rlt_spec z 0) as [H2|H2].
    + pose proof (Rabs_pos c). pose proof (Rabs_pos z). destruct (rlt_spec (Rabs z) (Rabs c)); cbn [fst snd]; lra.
    + destruct (rlt_spec z c); cbn [fst snd]; lra.
Qed.

Lemma range_check_char c z :
  fst (range_check c z) = Rabs c /\
  snd (range_check c z) = (if Rle_dec (Rabs c) (Rabs z) then Rabs z else 2 * Rabs c).
Proof.
  unfold range_check.
  destruct (rlt_spec c 0) as [H|H]; cbn [orb].
  - destruct (rlt_spec (Rabs z) (Rabs c)), (Rle_dec (Rabs c) (Rabs z)); cbn [fst snd]; split; lra.
  - destruct (rlt_spec z 0) as [H2|H2].
    + destruct (rlt_spec (Rabs z) (Rabs c)), (Rle_dec (Rabs c) (Rabs z)); cbn [fst snd]; split; lra.
    + rewrite (Rabs_right c), (Rabs_right z) by lra.
      destruct (rlt_spec z c), (Rle_dec c z); cbn [fst snd]; split; lra.
Qed.

Lemma clip_char c z x : 0 <= c <= z ->
  (Rabs x < c -> clip c z x = x) /\
  (c <= Rabs x < z -> 0 <= x -> clip c z x = c) /\
  (c <= Rabs x < z -> x <= 0 -> clip c z x = - c) /\
  (z <= Rabs x -> clip c z x = 0).
Proof.
  intros H. unfold clip.
  repeat split; intros.
  all: destruct (rle_spec c x), (rlt_spec x z), (rle_spec x (- c)), (rlt_spec (- z) x), (rle_spec z (Rabs x));
    cbn [andb]; try reflexivity; try lra;
    unfold Rabs in *; destruct (Rcase_abs x); lra.
Qed.

Lemma clip_bound c z x : 0 <= c <= z -> Rabs (clip c z x) <= c.
Proof.
  intros H. destruct (clip_char c z x H) as (A & B & C & D).
  destruct (Rlt_dec (Rabs x) c) as [L|L]; [rewrite A by assumption; lra|].
  destruct (Rle_dec z (Rabs x)) as [L2|L2]; [rewrite D by assumption; rewrite Rabs_R0; lra|].
  destruct (Rle_dec 0 x).
  - rewrite B by lra. rewrite Rabs_right; lra.
  - rewrite C by lra. rewrite Rabs_Ropp, Rabs_right; lra.
Qed.

(** one axis of one random-walk step *)
Lemma walk_step_bound L M h s n1 n2 n3 n4 :
  0 <= L -> 0 <= h -> Rabs n1 <= M -> Rabs n2 <= M -> Rabs n3 <= M -> Rabs n4 <= M ->
  let f n x := if rlt L x then - Rabs n else if rlt x (- L) then Rabs n else n in
  Rabs s <= L + h * M ->
  let k1 := h * f n1 s in
  let k2 := h * f n2 (s + 5 / 10 * k1) in
  let k3 := h * f n3 (s + 5 / 10 * k2) in
  let k4 := h * f n4 (s + k3) in
  Rabs (s + 1 / 6 * (k1 + 2 * (k2 + k3) + k4)) <= L + h * M.
Proof.
  intros HL Hh H1 H2 H3 H4 f Hs.
  set (B := h * M) in *.
  assert (F : forall n x, Rabs n <= M ->
     - B <= h * f n x <= B /\ (L < x -> h * f n x <= 0) /\ (x < - L -> 0 <= h * f n x)).
  { intros n x Hn. unfold f, B.
    assert (P : 0 <= h * Rabs n) by (apply Rmult_le_pos; [exact Hh|apply Rabs_pos]).
    assert (Q : h * Rabs n <= h * M) by (apply Rmult_le_compat_l; assumption).
    assert (N : - (h * Rabs n) <= h * n <= h * Rabs n).
    { split; [replace (- (h * Rabs n)) with (h * - Rabs n) by ring|]; apply Rmult_le_compat_l; auto.
      - unfold Rabs; destruct (Rcase_abs n); lra.
      - unfold Rabs; destruct (Rcase_abs n); lra. }
    destruct (rlt_spec L x), (rlt_spec x (- L)); repeat split; intros; try lra.
    all: try (replace (h * - Rabs n) with (- (h * Rabs n)) by ring; lra). }
  intros k1 k2 k3 k4.
  pose proof (F n1 s H1) as (A1 & A2 & A3). fold k1 in A1, A2, A3.
  pose proof (F n2 (s + 5 / 10 * k1) H2) as (B1 & B2 & B3). fold k2 in B1, B2, B3.
  pose proof (F n3 (s + 5 / 10 * k2) H3) as (C1 & C2 & C3). fold k3 in C1, C2, C3.
  pose proof (F n4 (s + k3) H4) as (D1 & D2 & D3). fold k4 in D1, D2, D3.
  clearbody k1 k2 k3 k4 B. clear F f.
  assert (S1 : - (L + B) <= s <= L + B) by (unfold Rabs in Hs; destruct (Rcase_abs s); lra).
  assert (HB : 0 <= B) by lra.
  apply Rabs_le.
  destruct (Rlt_dec L s) as [U|U]; [specialize (A2 U)|clear A2];
  (destruct (Rlt_dec s (- L)) as [V|V]; [specialize (A3 V)|clear A3]); try lra.
Qed.

Lemma walk_run_bound limit draws h i M n : forall k o,
  0 <= limit i -> 0 <= h -> (forall k, Rabs (draws i k) <= M) ->
  step_width o = h -> Rabs (state o i) <= limit i + h * M ->
  Rabs (state (fst (ode_run (walk_deriv limit draws) n k o)) i) <= limit i + h * M.
Proof.
  induction n as [|n IH]; intros k o HL Hh HD Hw Hs; cbn [ode_run]; [exact Hs|].
  unfold ode_update, walk_deriv at 1 2 3 4. cbv zeta beta iota. apply IH; auto. cbn [state step_width].
  unfold vadd, vscal. rewrite Hw.
  apply (walk_step_bound (limit i) M h (state o i) (draws i k) (draws i (S k)) (draws i (S (S k)))
           (draws i (S (S (S k))))); auto.
Qed.

Lemma walk_bound limit draws h i M n :
  0 <= limit i -> 0 <= h -> (forall k, Rabs (draws i k) <= M) ->
  Rabs (walk_after limit draws h n i) <= limit i + h * M.
Proof.
  intros HL Hh HD. apply walk_run_bound; auto. cbn. unfold vconst. rewrite Rabs_R0.
  assert (0 <= h * M); [|lra]. apply Rmult_le_pos; [assumption|].
  eapply Rle_trans; [apply Rabs_pos|apply (HD 0%nat)].
Qed.

Lemma trunc_bounds x : Rabs (IZR (trunc x)) <= Rabs x /\ Rabs (x - IZR (trunc x)) < 1 /\
  (0 <= x -> (0 <= trunc x)%Z) /\ (x <= 0 -> (trunc x <= 0)%Z).
Proof.
  unfold trunc. destruct (rle_spec 0 x) as [H|H].
  - destruct (base_Int_part x) as [A B].
    assert (P : (0 <= Int_part x)%Z).
    { assert (-1 < Int_part x)%Z; [|lia]. apply lt_IZR. lra. }
    apply IZR_le in P. rewrite !Rabs_right by lra. repeat split; try lra.
    + intros _. now apply le_IZR.
    + intros Hx. apply le_IZR. lra.
  - destruct (base_Int_part (- x)) as [A B].
    assert (P : (0 <= Int_part (- x))%Z).
    { assert (-1 < Int_part (- x))%Z; [|lia]. apply lt_IZR. lra. }
    rewrite opp_IZR. apply IZR_le in P as P'. rewrite Rabs_Ropp. rewrite (Rabs_right (IZR _)) by lra.
    rewrite (Rabs_left x) by lra. rewrite (Rabs_left1 (x - _)) by lra. repeat split; try lra; lia.
Qed.

Lemma int_of_double_ok x : - 2 ^ 31 - 1 < x < 2 ^ 31 <-> int_of_double x = Ok (trunc x).
Proof.
  unfold int_of_double. destruct (trunc_bounds x) as (A & B & C & D).
  change (2 ^ 31)%Z with 2147483648%Z. replace (2 ^ 31) with 2147483648 by lra.
  assert (BB : -1 < x - IZR (trunc x) < 1) by (apply Rabs_def2 in B; lra).
  split.
  - intros H.
    assert (-2147483649 < trunc x <= 2147483648)%Z.
    { split.
      - destruct (Rle_dec 0 x) as [P|P]; [specialize (C P); lia|].
        apply lt_IZR. rewrite (Rabs_left x) in A by lra.
        assert (T : (trunc x <= 0)%Z) by (apply D; lra). apply IZR_le in T.
        rewrite Rabs_left1 in A by lra. lra.
      - assert (trunc x < 2147483649)%Z; [|lia]. apply lt_IZR. lra. }
    assert (trunc x <> 2147483648)%Z.
    { intros E. rewrite E in *. destruct (Rle_dec 0 x) as [P|P]; [|specialize (D ltac:(lra)); lia].
      rewrite !Rabs_right in A by lra. lra. }
    destruct (Z.leb_spec (Z.opp 2147483648) (trunc x)); [|lia].
    destruct (Z.ltb_spec (trunc x) 2147483648); [|lia]. reflexivity.
  - destruct (Z.leb_spec (Z.opp 2147483648) (trunc x)) as [X|X]; [|discriminate].
    destruct (Z.ltb_spec (trunc x) 2147483648) as [Y|Y]; [|discriminate]. intros _.
    change (Z.opp 2147483648) with (-2147483648)%Z in X. apply IZR_le in X. assert (Y' : (trunc x <= 2147483647)%Z) by lia. apply IZR_le in Y'. lra.
Qed.
