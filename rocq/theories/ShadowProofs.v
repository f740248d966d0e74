(** The area that two discs share. *)
From Coq Require Import Reals Lra Lia List Bool.
From Coquelicot Require Import Coquelicot.
From Verif Require Import RBase ShadowModel ShadowSpec NodeProofs.
Open Scope R_scope.

Lemma ftc_open (F f : R -> R) p q : p <= q -> (forall x, continuous f x) ->
  (forall x, p < x < q -> is_derive F x (f x)) -> (forall x, p <= x <= q -> continuity_pt F x) -> is_RInt f p q (F q - F p).
Proof.
  intros PQ CF DF CC. assert (EX : forall y, ex_RInt f p y) by (intro y; apply (ex_RInt_continuous (V := R_CompleteNormedModule)); intros; apply CF).
  set (G := fun y => RInt f p y). assert (DG : forall y, is_derive G y (f y)).
  { intro y. apply is_derive_RInt with (a := p); [|apply CF]. apply filter_forall. intro z. apply (RInt_correct (V := R_CompleteNormedModule)), EX. }
  destruct (MVT_gen (fun x => F x - G x) p q (fun _ => 0)) as (c & _ & E).
  - rewrite Rmin_left, Rmax_right by exact PQ. intros x X. replace 0 with (f x - f x) by ring. apply (is_derive_minus (V := R_NormedModule) F G x); [now apply DF|apply DG].
  - rewrite Rmin_left, Rmax_right by exact PQ. intros x X. apply continuity_pt_minus; [now apply CC|]. apply derivable_continuous_pt. exists (f x). apply is_derive_Reals, DG.
  - assert (GP : G p = 0). { unfold G. apply (RInt_point (V := R_CompleteNormedModule)). } rewrite GP in E. replace (F q - F p) with (G q) by lra. apply (RInt_correct (V := R_CompleteNormedModule)), EX.
Qed.

Lemma asin_cont_1 : continuity_pt asin 1.
Proof.
  intros eps EP. set (e := Rmin eps 1). assert (E : 0 < e <= 1). { unfold e. split; [apply Rmin_glb_lt; lra|apply Rmin_r]. } assert (EE : e <= eps) by apply Rmin_l.
  pose proof PI2_1 as P1. pose proof (cos_decreasing_1 0 e ltac:(lra) ltac:(lra) ltac:(lra) ltac:(lra) ltac:(lra)) as CD. rewrite cos_0 in CD.
  exists (1 - cos e). split; [lra|]. intros y [_ DY]. unfold dist in *. simpl in *. unfold R_dist in *. rewrite asin_1. destruct (Rle_lt_dec 1 y) as [Y|Y].
  - replace (asin y) with (PI / 2); [rewrite Rminus_diag_eq, Rabs_R0; lra|]. unfold asin. destruct (Rle_dec y (-1)); [lra|]. destruct (Rle_dec 1 y); [reflexivity|contradiction].
  - rewrite Rabs_left in DY by lra. assert (LY : cos e < y) by lra. assert (C0 : 0 <= cos e) by (apply cos_ge_0; lra).
    pose proof (asin_increasing (cos e) y ltac:(lra) LY ltac:(lra)) as AI. rewrite <- (sin_shift e) in AI. rewrite asin_sin in AI by lra. pose proof (asin_bound y). rewrite Rabs_left1 by lra. lra.
Qed.
Lemma asin_cont x : -1 <= x <= 1 -> continuity_pt asin x.
Proof.
  intro H. destruct (Req_dec x 1) as [->|N1]; [exact asin_cont_1|]. destruct (Req_dec x (-1)) as [->|N2].
  - apply (continuity_pt_ext (fun y => - asin (- y))). { intro y. rewrite asin_opp. ring. }
    apply (continuity_pt_opp (fun y => asin (- y))). apply (continuity_pt_comp (fun y => - y) asin); [apply continuity_pt_opp, derivable_continuous_pt, derivable_pt_id|]. replace (- -1) with 1 by ring. exact asin_cont_1.
  - apply derivable_continuous_pt. apply derivable_pt_asin. lra.
Qed.

Lemma hc_cont r t : continuous (hc r) t.
Proof.
  unfold hc. apply continuous_sqrt_comp. apply (continuous_minus (V := R_NormedModule)); [apply continuous_const|]. apply (continuous_mult (K := R_AbsRing)); apply continuous_id.
Qed.
Definition seg (r t : R) : R := t * hc r t + r * r * asin (t / r).
Lemma div_range r t : 0 < r -> - r <= t <= r -> -1 <= t / r <= 1.
Proof. intros R0 T. split; apply (Rmult_le_reg_r r); try exact R0; unfold Rdiv; rewrite Rmult_assoc, Rinv_l by lra; lra. Qed.
Lemma div_range_lt r t : 0 < r -> - r < t < r -> -1 < t / r < 1.
Proof. intros R0 T. split; apply (Rmult_lt_reg_r r); try exact R0; unfold Rdiv; rewrite Rmult_assoc, Rinv_l by lra; lra. Qed.
Lemma seg_derive r t : 0 < r -> - r < t < r -> is_derive (seg r) t (2 * hc r t).
Proof.
  intros R0 T. assert (A : 0 < r * r - t * t) by nra. pose proof (div_range_lt r t R0 T) as DR. pose proof (asin_derive (t / r) DR) as DA.
  unfold seg, hc. auto_derive.
  - repeat split; try lra. now exists (1 / sqrt (1 - t / r * (t / r))).
  - replace (Derive (fun x => asin x) (t * / r)) with (1 / sqrt (1 - t / r * (t / r))). 2:{ symmetry. now apply is_derive_unique. }
    replace (1 - t / r * (t / r)) with ((r * r - t * t) * (/ r * / r)) by (field; lra). assert (IR : 0 < / r) by (now apply Rinv_0_lt_compat). rewrite sqrt_mult_alt by lra. rewrite sqrt_square by lra.
    replace (r * r + - (t * t)) with (r * r - t * t) by ring. assert (P : 0 < sqrt (r * r - t * t)) by (now apply sqrt_lt_R0). pose proof (sqrt_sqrt (r * r - t * t) ltac:(lra)) as SS. set (w := sqrt (r * r - t * t)) in *. clearbody w.
    field_simplify_eq; [|lra]. nra.
Qed.
Lemma seg_cont r t : 0 < r -> - r <= t <= r -> continuity_pt (seg r) t.
Proof.
  intros R0 T. unfold seg. apply (continuity_pt_plus (fun t => t * hc r t) (fun t => r * r * asin (t / r))).
  - apply (continuity_pt_mult (fun t => t) (hc r)); [apply derivable_continuous_pt, derivable_pt_id|]. apply continuity_pt_filterlim, hc_cont.
  - apply (continuity_pt_mult (fun _ => r * r) (fun t => asin (t / r))); [apply continuity_pt_const; now intros ? ?|].
    apply (continuity_pt_comp (fun t => t / r) asin); [|apply asin_cont, div_range; assumption]. apply (continuity_pt_mult (fun t => t) (fun _ => / r)); [apply derivable_continuous_pt, derivable_pt_id|apply continuity_pt_const; now intros ? ?].
Qed.
Lemma seg_RInt r p q : 0 < r -> - r <= p -> p <= q -> q <= r -> is_RInt (fun t => 2 * hc r t) p q (seg r q - seg r p).
Proof.
  intros R0 A B C. apply ftc_open; [exact B| | |].
  - intro x. apply (continuous_mult (K := R_AbsRing) (fun _ => 2) (hc r)); [apply continuous_const|apply hc_cont].
  - intros x X. apply seg_derive; lra. - intros x X. apply seg_cont; lra.
Qed.
Lemma seg_r r : 0 < r -> seg r r = r * r * (PI / 2).
Proof. intro R0. unfold seg, hc. replace (r * r - r * r) with 0 by ring. rewrite sqrt_0. replace (r / r) with 1 by (field; lra). rewrite asin_1. ring. Qed.
Lemma seg_mr r : 0 < r -> seg r (- r) = - (r * r * (PI / 2)).
Proof. intro R0. unfold seg, hc. replace (r * r - - r * - r) with 0 by ring. rewrite sqrt_0. replace (- r / r) with (Ropp 1) by (field; lra). rewrite asin_opp, asin_1. ring. Qed.
Lemma disc_RInt r : 0 < r -> is_RInt (fun t => 2 * hc r t) (- r) r (PI * (r * r)).
Proof. intro R0. replace (PI * (r * r)) with (seg r r - seg r (- r)) by (rewrite seg_r, seg_mr by exact R0; field). apply seg_RInt; lra. Qed.
Lemma shifted_RInt r c p q : 0 < r -> - r <= p - c -> p <= q -> q - c <= r -> is_RInt (fun t => 2 * hc r (t - c)) p q (seg r (q - c) - seg r (p - c)).
Proof.
  intros R0 A B C. pose proof (is_RInt_comp_lin (V := R_NormedModule) (fun t => 2 * hc r t) 1 (- c) p q (seg r (q - c) - seg r (p - c))) as L.
  apply (is_RInt_ext (V := R_NormedModule) (fun y => scal 1 (2 * hc r (1 * y + - c)))).
  { intros x _. unfold scal. simpl. unfold mult. simpl. rewrite Rmult_1_l. do 2 f_equal. ring. }
  apply L. replace (1 * p + - c) with (p - c) by ring. replace (1 * q + - c) with (q - c) by ring. apply seg_RInt; lra.
Qed.
Lemma zero_RInt p q : is_RInt (fun _ : R => 0) p q 0.
Proof. pose proof (is_RInt_const (V := R_NormedModule) p q 0) as Z. unfold scal in Z. simpl in Z. unfold mult in Z. simpl in Z. now rewrite Rmult_0_r in Z. Qed.

Lemma hc_out r t : r * r <= t * t -> hc r t = 0.
Proof. intro H. unfold hc. apply sqrt_neg_0. lra. Qed.
Lemma shared_first a b c t : a * a - t * t <= b * b - (t - c) * (t - c) -> shared_chord a b c t = 2 * hc a t.
Proof. intro H. unfold shared_chord. rewrite Rmin_left; [reflexivity|]. now apply sqrt_le_1_alt. Qed.
Lemma shared_second a b c t : b * b - (t - c) * (t - c) <= a * a - t * t -> shared_chord a b c t = 2 * hc b (t - c).
Proof. intro H. unfold shared_chord. rewrite Rmin_right; [reflexivity|]. now apply sqrt_le_1_alt. Qed.
Lemma shared_none a b c t : b * b <= (t - c) * (t - c) -> shared_chord a b c t = 0.
Proof. intro H. unfold shared_chord. rewrite (hc_out b) by exact H. rewrite Rmin_right; [ring|]. apply sqrt_pos. Qed.

Section overlap.
Context (a b c : R).
Hypothesis A0 : 0 < a.
Hypothesis B0 : 0 < b.
Hypothesis C0 : 0 <= c.
Lemma apart : a + b <= c -> is_RInt (shared_chord a b c) (- a) a 0.
Proof.
  intro H. apply (is_RInt_ext (V := R_NormedModule) (fun _ => 0)); [|apply zero_RInt]. rewrite Rmin_left, Rmax_right by lra. intros x X. symmetry. apply shared_none. assert (x - c <= - b) by lra. nra.
Qed.
Lemma inside : a + c <= b -> is_RInt (shared_chord a b c) (- a) a (PI * (a * a)).
Proof.
  intro H. apply (is_RInt_ext (V := R_NormedModule) (fun t => 2 * hc a t)); [|now apply disc_RInt]. rewrite Rmin_left, Rmax_right by lra. intros x X. symmetry. apply shared_first. assert ((a + c) * (a + c) <= b * b) by nra. nra.
Qed.
Lemma around : b + c <= a -> is_RInt (shared_chord a b c) (- a) a (PI * (b * b)).
Proof.
  intro H. assert (BC : (b + c) * (b + c) <= a * a) by nra. replace (PI * (b * b)) with (plus (plus 0 (seg b (b + c - c) - seg b (c - b - c))) 0).
  2:{ unfold plus. simpl. replace (b + c - c) with b by ring. replace (c - b - c) with (- b) by ring. rewrite seg_r, seg_mr by exact B0. field. }
  apply (is_RInt_Chasles (V := R_NormedModule)) with (b := b + c); [apply (is_RInt_Chasles (V := R_NormedModule)) with (b := c - b)|].
  - apply (is_RInt_ext (V := R_NormedModule) (fun _ => 0)); [|apply zero_RInt]. rewrite Rmin_left, Rmax_right by lra. intros x X. symmetry. apply shared_none. nra.
  - apply (is_RInt_ext (V := R_NormedModule) (fun t => 2 * hc b (t - c))); [|apply shifted_RInt; lra]. rewrite Rmin_left, Rmax_right by lra. intros x X. symmetry. apply shared_second. nra.
  - apply (is_RInt_ext (V := R_NormedModule) (fun _ => 0)); [|apply zero_RInt]. rewrite Rmin_left, Rmax_right by lra. intros x X. symmetry. apply shared_none. nra.
Qed.
Hypothesis CP : 0 < c.
Hypothesis C1 : Rabs (a - b) <= c.
Hypothesis C2 : c <= a + b.
Let x := chord_x a b c.
Lemma ab_le : a - b <= c /\ b - a <= c. Proof. revert C1. unfold Rabs. destruct (Rcase_abs (a - b)); lra. Qed.
Lemma x_def : 2 * c * x = c * c + a * a - b * b. Proof. unfold x, chord_x. field. lra. Qed.
Lemma x_in_a : - a <= x <= a.
Proof. pose proof ab_le. pose proof x_def as X. assert (0 <= 2 * c * (a - x) /\ 0 <= 2 * c * (a + x)) as [P Q] by (split; nra). split; nra. Qed.
Lemma x_in_b : - b <= x - c <= b.
Proof. pose proof ab_le. pose proof x_def as X. assert (0 <= 2 * c * (b - (x - c)) /\ 0 <= 2 * c * (b + (x - c))) as [P Q] by (split; nra). split; nra. Qed.
Lemma same_y : a * a - x * x = b * b - (x - c) * (x - c). Proof. pose proof x_def as X. lra. Qed.
Lemma crossing : is_RInt (shared_chord a b c) (- a) a (lens_area a b c).
Proof.
  pose proof ab_le as AB. pose proof x_def as X. pose proof x_in_a as XA. pose proof x_in_b as XB. pose proof same_y as SY.
  assert (Y : chord_y a b c = hc a x). { unfold chord_y, hc. fold x. rewrite Rmax_left by nra. reflexivity. }
  assert (YB : hc b (x - c) = hc a x) by (unfold hc; now rewrite SY).
  replace (lens_area a b c) with (plus (plus 0 (seg b (x - c) - seg b (c - b - c))) (seg a a - seg a x)).
  2:{ unfold plus. simpl. replace (c - b - c) with (- b) by ring. rewrite seg_r, seg_mr by assumption. unfold seg. rewrite YB. unfold lens_area. fold x. rewrite Y. pose proof (div_range a x A0 XA). pose proof (div_range b (c - x) B0 ltac:(lra)). rewrite !acos_asin by assumption.
      replace ((x - c) / b) with (- ((c - x) / b)) by (field; lra). rewrite asin_opp. ring. }
  apply (is_RInt_Chasles (V := R_NormedModule)) with (b := x); [apply (is_RInt_Chasles (V := R_NormedModule)) with (b := c - b)|].
  - apply (is_RInt_ext (V := R_NormedModule) (fun _ => 0)); [|apply zero_RInt]. rewrite Rmin_left, Rmax_right by lra. intros t T. symmetry. apply shared_none. nra.
  - apply (is_RInt_ext (V := R_NormedModule) (fun t => 2 * hc b (t - c))); [|apply shifted_RInt; lra]. rewrite Rmin_left, Rmax_right by lra. intros t T. symmetry. apply shared_second. nra.
  - apply (is_RInt_ext (V := R_NormedModule) (fun t => 2 * hc a t)); [|apply seg_RInt; lra]. rewrite Rmin_left, Rmax_right by lra. intros t T. symmetry. apply shared_first. nra.
Qed.
End overlap.

Lemma overlap_range a b c v : 0 < a -> 0 < b -> is_RInt (shared_chord a b c) (- a) a v -> 0 <= v <= PI * (a * a).
Proof.
  intros A B I. pose proof (disc_RInt a A) as D. split.
  - apply (is_RInt_ge_0 (shared_chord a b c) (- a) a); [lra|exact I|]. intros x _. unfold shared_chord. assert (0 <= Rmin (hc a x) (hc b (x - c))); [|lra]. apply Rmin_glb; apply sqrt_pos.
  - apply (is_RInt_le (shared_chord a b c) (fun t => 2 * hc a t) (- a) a); [lra|exact I|exact D|]. intros x _. unfold shared_chord. pose proof (Rmin_l (hc a x) (hc b (x - c))). lra.
Qed.
Lemma overlap_unique a b c v w : is_RInt (shared_chord a b c) (- a) a v -> is_RInt (shared_chord a b c) (- a) a w -> v = w.
Proof. intros I J. apply (is_RInt_unique (V := R_CompleteNormedModule)) in I. apply (is_RInt_unique (V := R_CompleteNormedModule)) in J. congruence. Qed.
