(** C28, C29, C57, C58: interpolation and its data window. *)
From Coq Require Import Reals Lra Lia List Bool Arith.
From Verif Require Import Base RBase VecModel LuModel LuProofs InterpModel InterpSpec InterpProofs.
Import ListNotations.
Open Scope R_scope.

Lemma interpolation_ok x y : x <> [] -> length x = length y -> ok_data (interpolation x y).
Proof. intros N L. unfold ok_data, interpolation. cbn. destruct x; [congruence|]. cbn [length] in *. lia. Qed.

Lemma nevp_passes (d : interp) : ok_data d -> NoDup (xs d) ->
  passes_through (nevp (ix d) (iy d) (degree d - 1) 0) (xs d) (ys d) /\
  length (nevp (ix d) (iy d) (degree d - 1) 0) = degree d /\
  forall x, nev (ix d) (iy d) (degree d - 1) 0 x = peval (nevp (ix d) (iy d) (degree d - 1) 0) x.
Proof.
  intros (P & Lx & Ly) ND.
  assert (DX : forall a b, (a < b <= 0 + (degree d - 1))%nat -> ix d b - ix d a <> 0).
  { intros a b H E. unfold ix in E. pose proof (proj1 (NoDup_nth (xs d) 0) ND a b ltac:(lia) ltac:(lia) ltac:(lra)). lia. }
  split; [|split].
  - intros i Hi. rewrite <- nev_nevp by exact DX. apply (nev_node (ix d) (iy d)); [exact DX|lia].
  - rewrite length_nevp. lia.
  - intros x. apply nev_nevp. exact DX.
Qed.

(** there is one polynomial of degree < n through n samples at distinct abscissae, and
    CalcPolynomial returns its value everywhere *)
Theorem C28_interpolating_polynomial : forall x y, x <> [] -> length x = length y -> NoDup x ->
  exists p, (length p <= length x)%nat /\ passes_through p x y /\
    (forall q, (length q <= length x)%nat -> passes_through q x y -> forall t, peval q t = peval p t) /\
    forall t, calc_polynomial (interpolation x y) t = Ok (peval p t).
Proof.
  intros x y N L ND. pose proof (interpolation_ok x y N L) as OK.
  destruct (nevp_passes (interpolation x y) OK ND) as (PT & LP & E).
  set (p := nevp _ _ _ _) in *. exists p. change (degree (interpolation x y)) with (length x) in *.
  change (xs (interpolation x y)) with x in PT. change (ys (interpolation x y)) with y in PT.
  split; [lia|]. split; [exact PT|]. split.
  - intros q Lq PQ t.
    assert (Z : peval (padd q (pscale (-1) p)) t = 0).
    { apply (too_many_roots x _ ND); [rewrite length_padd, length_pscale; lia|].
      intros r Hr. rewrite peval_padd, peval_pscale. destruct (In_nth _ _ 0 Hr) as (i & Hi & <-). rewrite (PQ i Hi), (PT i Hi). ring. }
    rewrite peval_padd, peval_pscale in Z. lra.
  - intros t. rewrite calc_polynomial_spec by assumption. f_equal. apply E.
Qed.
Print Assumptions C28_interpolating_polynomial.

(** samples of a polynomial of degree < n give that polynomial back at every point *)
Theorem C28_exact_on_polynomials : forall p x t, x <> [] -> NoDup x -> (length p <= length x)%nat ->
  calc_polynomial (interpolation x (map (peval p) x)) t = Ok (peval p t).
Proof.
  intros p x t N ND L. destruct (C28_interpolating_polynomial x (map (peval p) x) N) as (q & Lq & PQ & U & E).
  { now rewrite map_length. } { exact ND. }
  rewrite E. f_equal. symmetry. apply U; [exact L|]. intros i Hi.
  rewrite (nth_indep (map (peval p) x) 0 (peval p 0)) by (now rewrite map_length). now rewrite map_nth.
Qed.
Print Assumptions C28_exact_on_polynomials.

Theorem C28_returns_samples : forall x y i, length x = length y -> NoDup x -> (i < length x)%nat ->
  calc_polynomial (interpolation x y) (nth i x 0) = Ok (nth i y 0).
Proof.
  intros x y i L ND Hi. assert (N : x <> []) by (intros ->; cbn in Hi; lia).
  destruct (C28_interpolating_polynomial x y N L ND) as (p & _ & PT & _ & E). rewrite E. f_equal. now apply PT.
Qed.
Print Assumptions C28_returns_samples.

(** an empty sample set, or fewer ordinates than abscissae, is an out-of-bounds read *)
Theorem C28_bad_data_is_undefined : forall x y t, (x = [] \/ (length y < length x)%nat) ->
  calc_polynomial (interpolation x y) t = UB.
Proof.
  intros x y t [->|L]; [reflexivity|]. unfold calc_polynomial, interpolation. cbn [xs ys degree].
  rewrite (proj2 (Nat.ltb_lt _ _) L). now rewrite !orb_true_r.
Qed.
Print Assumptions C28_bad_data_is_undefined.

(** ** C29 *)
(** FindNearestPoint gives the first of the nearest abscissae *)
Theorem C29_nearest : forall x y t, x <> [] ->
  let k := find_nearest (interpolation x y) t in
  (k < length x)%nat /\ (forall i, (i < length x)%nat -> Rabs (t - nth k x 0) <= Rabs (t - nth i x 0)) /\
  (forall i, (i < k)%nat -> Rabs (t - nth k x 0) < Rabs (t - nth i x 0)).
Proof.
  intros x y t N. apply (find_nearest_spec (interpolation x y) t). cbn. destruct x; [congruence|cbn; lia].
Qed.
Print Assumptions C29_nearest.

(** whatever is offered, in whatever order, the window is the last n samples among the initial ones
    followed by the accepted ones (those later than all before); the number of acceptances is reported
    truthfully; the length never changes and nothing is read out of bounds *)
Theorem C29_window : forall x y offers, x <> [] -> length x = length y ->
  exists bs d, pushes (interpolation x y) offers = Ok (bs, d) /\
    combine (xs d) (ys d) = lastn (length x) (combine x y ++ taken (last x 0) offers) /\
    length (xs d) = length x /\ length (ys d) = length x /\ degree d = length x /\
    length bs = length offers /\ length (filter (fun b => b) bs) = length (taken (last x 0) offers).
Proof.
  intros x y offers N L. destruct (pushes_spec offers _ (interpolation_ok x y N L)) as (bs & d & E & (P & Lx & Ly) & D & W & LB & FB).
  change (degree (interpolation x y)) with (length x) in *. exists bs, d. repeat split; try assumption; try lia.
Qed.
Print Assumptions C29_window.

(** one offer is accepted exactly when it is later than the newest sample *)
Theorem C29_accepts_iff_later : forall x y t v b d, x <> [] -> length x = length y ->
  push_and_pop (interpolation x y) t v = Ok (b, d) -> (b = true <-> last x 0 < t) /\ (b = false -> d = interpolation x y).
Proof.
  intros x y t v b d N L. unfold push_and_pop, interpolation. cbn [xs ys degree]. destruct x as [|x0 xt]; [congruence|].
  destruct y as [|y0 yt]; [discriminate|]. destruct (rle_spec t (last (x0 :: xt) 0)) as [H|H]; intros E; injection E as <- <-; split; try tauto.
  - split; [discriminate|lra].
  - split; [intros _; lra|reflexivity].
  - discriminate.
Qed.
Print Assumptions C29_accepts_iff_later.

(** strict order is an invariant of every history *)
Theorem C29_order_invariant : forall x y offers bs d, x <> [] -> length x = length y -> increasing x ->
  pushes (interpolation x y) offers = Ok (bs, d) -> increasing (xs d).
Proof.
  intros x y offers bs d N L I E.
  destruct (pushes_spec offers _ (interpolation_ok x y N L)) as (bs' & d' & E' & OK & D & W & _).
  rewrite E in E'. injection E' as <- <-. rewrite <- (map_fst_window d OK), W, map_lastn, map_app.
  rewrite (map_fst_window _ (interpolation_ok x y N L)). change (xs (interpolation x y)) with x in *.
  destruct (taken_increasing (last x 0) offers) as [T1 T2]. apply increasing_skipn. apply increasing_app_gen; [exact I|exact T1|].
  intros a Ha. right. now apply T2.
Qed.
Print Assumptions C29_order_invariant.

(** ** C57: trigonometric interpolation *)
(** the number of nodes used: one node is dropped when the number of samples is even *)
Definition used (n : nat) : nat := if Nat.eqb (n mod 2) 0 then n - 1 else n.
(** exact for every trigonometric polynomial of degree k with 2k+1 = the number of nodes used,
    provided no two abscissae are a whole number of periods 2 pi / period apart *)
Theorem C57_exact_on_trigonometric_polynomials : forall coef k x period t,
  (2 * k + 1)%nat = used (length x) ->
  (forall i j, (i < length x)%nat -> (j < length x)%nat -> i <> j -> sin (period * (nth i x 0 - nth j x 0) / 2) <> 0) ->
  calc_trigonometric (interpolation x (map (fun a => trig_poly coef k (period * a)) x)) t period = Ok (trig_poly coef k (period * t)).
Proof.
  intros coef k x period t K D. unfold calc_trigonometric. cbn [degree xs ys interpolation]. rewrite map_length, !Nat.ltb_irrefl.
  assert (NZ : length x <> 0%nat). { unfold used in K. destruct (length x); [cbn in K; lia|lia]. }
  rewrite (proj2 (Nat.eqb_neq _ _) NZ). cbn [orb]. f_equal.
  set (d := interpolation x _). destruct (trig_poly_form coef k) as (F & FF & E).
  assert (HX : forall i, ix d i = nth i x 0) by reflexivity.
  assert (HY : forall i, (i < length x)%nat -> iy d i = F (cos (period * ix d i / 2)) (sin (period * ix d i / 2))).
  { intros i Hi. rewrite <- E. unfold iy, d, interpolation. cbn [ys]. rewrite (nth_indep (map (fun a => trig_poly coef k (period * a)) x) 0 (trig_poly coef k (period * 0))) by (now rewrite map_length).
    rewrite (map_nth (fun a => trig_poly coef k (period * a))). reflexivity. }
  rewrite E. unfold used in K.
  destruct (Nat.eqb_spec (length x mod 2) 0) as [EV|OD]; cbn [andb].
  - destruct (find_nearest d t * 2 <? length x)%nat; cbn [negb].
    + replace (length x - 1 - 0)%nat with (2 * k + 1)%nat by lia. replace (length x - 1)%nat with (0 + (2 * k + 1))%nat by lia.
      apply trig_exact_aux; [replace (2 * k + 1 - 1)%nat with (2 * k)%nat by lia; exact FF|lia| |].
      * intros i j Hi Hj NE. rewrite !HX. apply D; lia.
      * intros i Hi. apply HY. lia.
    + replace (length x - 1)%nat with (2 * k + 1)%nat by lia. replace (length x) with (1 + (2 * k + 1))%nat by lia.
      apply trig_exact_aux; [replace (2 * k + 1 - 1)%nat with (2 * k)%nat by lia; exact FF|lia| |].
      * intros i j Hi Hj NE. rewrite !HX. apply D; lia.
      * intros i Hi. apply HY. lia.
  - replace (length x - 0)%nat with (2 * k + 1)%nat by lia. replace (length x) with (0 + (2 * k + 1))%nat by lia.
    apply trig_exact_aux; [replace (2 * k + 1 - 1)%nat with (2 * k)%nat by lia; exact FF|lia| |].
    + intros i j Hi Hj NE. rewrite !HX. apply D; lia.
    + intros i Hi. apply HY. lia.
Qed.
Print Assumptions C57_exact_on_trigonometric_polynomials.

Lemma sum_basis (d : interp) period start n k :
  (start <= k < start + n)%nat ->
  (forall i j, (start <= i < start + n)%nat -> (start <= j < start + n)%nat -> i <> j -> sin (period * (ix d i - ix d j) / 2) <> 0) ->
  for_ n start (fun i y => y + trig_basis d (ix d k) period start (start + n) i * iy d i) 0 = iy d k.
Proof.
  intros Hk D.
  assert (G : (fun m (y : R) => y = if (k <? m)%nat then iy d k else 0) (start + n)%nat
         (for_ n start (fun i y => y + trig_basis d (ix d k) period start (start + n) i * iy d i) 0)).
  { apply (for_inv (fun m (y : R) => y = if (k <? m)%nat then iy d k else 0)).
    - rewrite (proj2 (Nat.ltb_ge _ _)) by lia. reflexivity.
    - intros i y Hi ->. unfold trig_basis. replace (start + n - start)%nat with n by lia.
      rewrite basis_node; [|exact Hi|exact Hk|intros j Hj Nj; apply D; [exact Hi|exact Hj|congruence]].
      destruct (Nat.eqb_spec i k) as [->|NE].
      + rewrite Nat.ltb_irrefl. rewrite (proj2 (Nat.ltb_lt _ _)) by lia. ring.
      + destruct (Nat.ltb_spec k i); destruct (Nat.ltb_spec k (S i)); try lia; ring. }
  cbv beta in G. rewrite G. rewrite (proj2 (Nat.ltb_lt _ _)) by lia. reflexivity.
Qed.
(** every sample is returned at its own abscissa, also for an even number of samples: the node that is
    dropped is never the one asked for *)
Theorem C57_returns_samples : forall x y period i, length x = length y -> (i < length x)%nat -> (2 <= length x)%nat ->
  (forall i j, (i < length x)%nat -> (j < length x)%nat -> i <> j -> sin (period * (nth i x 0 - nth j x 0) / 2) <> 0) ->
  calc_trigonometric (interpolation x y) (nth i x 0) period = Ok (nth i y 0).
Proof.
  intros x y period i L Hi H2 D. unfold calc_trigonometric. cbn [degree xs ys interpolation]. rewrite <- L, !Nat.ltb_irrefl.
  rewrite (proj2 (Nat.eqb_neq _ _)) by lia. cbn [orb]. f_equal.
  fold (interpolation x y). set (d := interpolation x y). assert (HX : forall i, ix d i = nth i x 0) by reflexivity.
  assert (NE : find_nearest d (nth i x 0) = i).
  { destruct (find_nearest_spec d (nth i x 0)) as (B & M & _); [cbn; lia|]. cbn [degree d] in B, M. change (degree d) with (length x) in *.
    destruct (Nat.eq_dec (find_nearest d (nth i x 0)) i) as [E|E]; [exact E|exfalso].
    specialize (M i Hi). rewrite !HX in M. replace (nth i x 0 - nth i x 0) with 0 in M by ring. rewrite Rabs_R0 in M.
    assert (Z : nth i x 0 - nth (find_nearest d (nth i x 0)) x 0 = 0).
    { pose proof (Rabs_pos (nth i x 0 - nth (find_nearest d (nth i x 0)) x 0)).
      destruct (Req_dec (nth i x 0 - nth (find_nearest d (nth i x 0)) x 0) 0) as [A|A]; [exact A|]. pose proof (Rabs_pos_lt _ A). lra. }
    apply (D i (find_nearest d (nth i x 0)) Hi B ltac:(congruence)). rewrite Z, Rmult_0_r. unfold Rdiv. rewrite Rmult_0_l. apply sin_0. }
  assert (D' : forall a b, (a < length x)%nat -> (b < length x)%nat -> a <> b -> sin (period * (ix d a - ix d b) / 2) <> 0).
  { intros a b Ha Hb N. rewrite !HX. now apply D. }
  rewrite NE. change (nth i x 0) with (ix d i). change (nth i y 0) with (iy d i).
  destruct (Nat.eqb_spec (length x mod 2) 0) as [EV|OD]; cbn [andb].
  - destruct (Nat.ltb_spec (i * 2) (length x)); cbn [negb].
    + replace (length x - 1)%nat with (0 + (length x - 1))%nat at 2 by lia. replace (length x - 1 - 0)%nat with (length x - 1)%nat by lia.
      apply sum_basis; [lia|]. intros a b Ha Hb N. apply D'; lia.
    + assert (EN : exists n, length x = (1 + n)%nat) by (exists (length x - 1)%nat; lia). destruct EN as [n EN]. rewrite EN.
      replace (1 + n - 1)%nat with n by lia. apply sum_basis; [lia|]. intros a b Ha Hb N. apply D'; lia.
  - replace (length x) with (0 + length x)%nat at 2 by lia. replace (length x - 0)%nat with (length x) by lia.
    apply sum_basis; [lia|]. intros a b Ha Hb N. apply D'; lia.
Qed.
Print Assumptions C57_returns_samples.

(** ** C58: orbit interpolation (three axes fed together) *)
Definition axis_offers (axis : R * R * R -> R) (offers : list (R * (R * R * R))) : list (R * R) :=
  map (fun o => (fst o, axis (snd o))) offers.
Definition px (p : R * R * R) := fst (fst p).
Definition py (p : R * R * R) := snd (fst p).
Definition pz (p : R * R * R) := snd p.

Lemma orbit_pushes_axes offers : forall ox oy oz : interp, ok_data ox -> ok_data oy -> ok_data oz ->
  last (xs ox) 0 = last (xs oy) 0 -> last (xs oy) 0 = last (xs oz) 0 ->
  exists bs ox' oy' oz', orbit_pushes (ox, oy, oz) offers = Ok (bs, (ox', oy', oz')) /\
    pushes ox (axis_offers px offers) = Ok (bs, ox') /\ pushes oy (axis_offers py offers) = Ok (bs, oy') /\ pushes oz (axis_offers pz offers) = Ok (bs, oz').
Proof.
  induction offers as [|[t [[a b] c]] r IH]; intros ox oy oz Kx Ky Kz L1 L2.
  - exists [], ox, oy, oz. repeat split; reflexivity.
  - cbn [orbit_pushes axis_offers map pushes fst snd]. fold (axis_offers px r) (axis_offers py r) (axis_offers pz r).
    unfold orbit_push. cbn [px py pz fst snd].
    assert (G : forall (d : interp) v, ok_data d -> push_and_pop d t v = Ok (if rle t (last (xs d) 0) then (false, d) else (true, mkInterp (tl (xs d) ++ [t]) (tl (ys d) ++ [v]) (degree d)))).
    { intros d v (P & Lx & Ly). unfold push_and_pop. destruct (xs d) as [|x0 xt]; [cbn in Lx; lia|].
      destruct (ys d) as [|y0 yt]; [cbn in Ly; lia|]. destruct (rle t (last (x0 :: xt) 0)); reflexivity. }
    rewrite !G by assumption. rewrite <- L2, <- L1. destruct (rle_spec t (last (xs ox) 0)) as [H|H]; cbn [bind negb].
    + destruct (IH ox oy oz Kx Ky Kz L1 L2) as (bs & ox' & oy' & oz' & E & E1 & E2 & E3).
      rewrite E, E1, E2, E3. cbn [bind]. exists (false :: bs), ox', oy', oz'. repeat split; reflexivity.
    + assert (K : forall (d : interp) v, ok_data d -> ok_data (mkInterp (tl (xs d) ++ [t]) (tl (ys d) ++ [v]) (degree d))).
      { intros d v (P & Lx & Ly). unfold ok_data. cbn [xs ys degree]. rewrite !app_length. cbn [length].
        destruct (xs d); [cbn in Lx; lia|]. destruct (ys d); [cbn in Ly; lia|]. cbn [tl length] in *. lia. }
      edestruct (IH _ _ _ (K ox a Kx) (K oy b Ky) (K oz c Kz)) as (bs & ox' & oy' & oz' & E & E1 & E2 & E3);
        [cbn [xs]; now rewrite !last_last|cbn [xs]; now rewrite !last_last|].
      rewrite E, E1, E2, E3. cbn [bind]. exists (true :: bs), ox', oy', oz'. repeat split; reflexivity.
Qed.

Lemma last_repeat n (a d : R) : (0 < n)%nat -> last (repeat a n) d = a.
Proof. induction n as [|[|n] IH]; intros H; [lia|reflexivity|]. change (repeat a (S (S n))) with (a :: repeat a (S n)). exact (IH ltac:(lia)). Qed.
Lemma map_fst_taken axis l offers : map fst (taken l (axis_offers axis offers)) = map fst (taken l (axis_offers px offers)).
Proof.
  revert l. induction offers as [|[t p] r IH]; intros l; [reflexivity|]. cbn [axis_offers map taken fst snd]. fold (axis_offers axis r) (axis_offers px r).
  destruct (Rlt_dec l t); cbn [map fst]; [f_equal|]; apply IH.
Qed.
Lemma taken_axis axis (g : R -> R) l offers : (forall t p, In (t, p) offers -> axis p = g t) ->
  taken l (axis_offers axis offers) = map (fun t => (t, g t)) (map fst (taken l (axis_offers axis offers))).
Proof.
  revert l. induction offers as [|[t p] r IH]; intros l H; [reflexivity|]. cbn [axis_offers map taken fst snd]. fold (axis_offers axis r).
  destruct (Rlt_dec l t); cbn [map fst].
  - rewrite (H t p) by now left. f_equal. apply IH. intros; apply H; now right.
  - apply IH. intros; apply H; now right.
Qed.

(** what the pushes return: a sample is taken when it is later than -1 and every sample taken before *)
Fixpoint later_flags (l : R) (times : list R) : list bool :=
  match times with [] => [] | t :: r => if Rlt_dec l t then true :: later_flags t r else false :: later_flags l r end.
Lemma pushes_flags : forall offers (d : interp) bs d', ok_data d -> pushes d offers = Ok (bs, d') -> bs = later_flags (last (xs d) 0) (map fst offers).
Proof.
  induction offers as [|[t v] r IH]; intros d bs d' K H; cbn [pushes] in H; [now injection H as <- _|]. cbn [map fst later_flags].
  pose proof K as (P & Lx & Ly). unfold push_and_pop in H. destruct (xs d) as [|x0 xt] eqn:X; [cbn in Lx; lia|]. destruct (ys d) as [|y0 yt] eqn:Y; [cbn in Ly; lia|].
  destruct (rle_spec t (last (x0 :: xt) 0)) as [L|L]; cbn [bind] in H; destruct (Rlt_dec (last (x0 :: xt) 0) t) as [G|G]; try lra.
  - destruct (pushes d r) as [[b e]| | |] eqn:E; cbn [bind] in H; try discriminate. injection H as <- _. f_equal. rewrite <- X. now apply (IH d b e).
  - match type of H with bind (pushes ?q r) _ = _ => destruct (pushes q r) as [[b e]| | |] eqn:E; cbn [bind] in H; try discriminate end.
    injection H as <- _. f_equal. apply IH in E.
    + cbn [xs] in E. now rewrite last_last in E.
    + unfold ok_data. cbn [xs ys degree]. rewrite !app_length. cbn [length] in *. lia.
Qed.
Theorem C58_push_results : forall n offers bs o, (1 <= n)%nat -> orbit_pushes (orbit_interpolation n) offers = Ok (bs, o) -> bs = later_flags (-1) (map fst offers).
Proof.
  intros n offers bs o Hn E. unfold orbit_interpolation in E. set (d0 := interpolation (repeat (-1) n) (repeat 0 n)) in E.
  assert (K : ok_data d0) by (unfold d0, ok_data, interpolation; cbn [xs ys degree]; rewrite !repeat_length; lia).
  assert (LS : last (xs d0) 0 = -1) by (apply last_repeat; lia).
  destruct (orbit_pushes_axes offers d0 d0 d0 K K K eq_refl eq_refl) as (bs' & ox & oy & oz & E' & E1 & _).
  rewrite E in E'. injection E' as <- _. apply pushes_flags in E1; [|exact K]. rewrite LS in E1. rewrite E1. f_equal.
  unfold axis_offers. rewrite map_map. reflexivity.
Qed.
Print Assumptions C58_push_results.

(** once n samples later than -1 have been accepted, a trajectory that is polynomial of degree < n in
    each axis is reproduced at every time, however samples were ordered, repeated or refused *)
Theorem C58_orbit_polynomial_exact : forall n offers p1 p2 p3 t,
  (1 <= n)%nat -> (n <= length (taken (-1) (axis_offers px offers)))%nat ->
  (length p1 <= n)%nat -> (length p2 <= n)%nat -> (length p3 <= n)%nat ->
  (forall s p, In (s, p) offers -> p = (peval p1 s, peval p2 s, peval p3 s)) ->
  exists bs o, orbit_pushes (orbit_interpolation n) offers = Ok (bs, o) /\
    orbit_polynomial o t = Ok (peval p1 t, peval p2 t, peval p3 t).
Proof.
  intros n offers p1 p2 p3 t Hn HT L1 L2 L3 HP. unfold orbit_interpolation.
  set (d0 := interpolation (repeat (-1) n) (repeat 0 n)).
  assert (K : ok_data d0) by (unfold d0, ok_data, interpolation; cbn [xs ys degree]; rewrite !repeat_length; lia).
  assert (LS : last (xs d0) 0 = -1) by (apply last_repeat; lia).
  assert (DG : degree d0 = n) by (unfold d0, interpolation; cbn [degree]; apply repeat_length).
  destruct (orbit_pushes_axes offers d0 d0 d0 K K K eq_refl eq_refl) as (bs & ox & oy & oz & E & E1 & E2 & E3).
  exists bs, (ox, oy, oz). split; [exact E|].
  assert (G : forall axis pl d, (forall s p, In (s, p) offers -> axis p = peval pl s) -> (length pl <= n)%nat ->
     pushes d0 (axis_offers axis offers) = Ok (bs, d) -> calc_polynomial d t = Ok (peval pl t)).
  { intros axis pl d HA Lp EP. destruct (pushes_spec (axis_offers axis offers) d0 K) as (bs' & d' & EP' & OK & D & W & _).
    rewrite EP in EP'. injection EP' as <- <-. rewrite LS, DG in W. rewrite lastn_app_short in W.
    2:{ rewrite <- (map_length fst), map_fst_taken, map_length. exact HT. }
    assert (XS : xs d = lastn n (map fst (taken (-1) (axis_offers axis offers)))) by (rewrite <- (map_fst_window d OK), W; apply map_lastn).
    assert (INC : increasing (xs d)) by (rewrite XS; apply increasing_skipn, taken_increasing).
    assert (YS : ys d = map (peval pl) (xs d)).
    { rewrite (taken_axis axis (peval pl) (-1) offers HA), <- map_lastn, <- XS in W. clear - W OK. destruct OK as (_ & Lx & Ly).
      unfold window in W. revert W. assert (LL : length (xs d) = length (ys d)) by lia. revert LL. generalize (xs d) (ys d).
      induction l as [|a l IH]; intros [|b l'] LL W; try discriminate; [reflexivity|]. cbn in W. injection W as -> W. cbn. f_equal. apply IH; [now injection LL|exact W]. }
    assert (DD : d = interpolation (xs d) (map (peval pl) (xs d))).
    { destruct d as [x y g]. cbn [xs ys] in *. unfold interpolation. rewrite YS. f_equal. destruct OK as (_ & Lx & _). cbn [xs degree] in Lx. congruence. }
    rewrite DD. apply C28_exact_on_polynomials.
    - intros Q. destruct OK as (P & Lx & _). rewrite Q in Lx. cbn in Lx. lia.
    - now apply increasing_NoDup.
    - destruct OK as (_ & Lx & _). lia. }
  unfold orbit_polynomial.
  rewrite (G px p1 ox); [|intros s p H; now rewrite (HP s p H)|exact L1|exact E1]. cbn [bind].
  rewrite (G py p2 oy); [|intros s p H; now rewrite (HP s p H)|exact L2|exact E2]. cbn [bind].
  rewrite (G pz p3 oz); [|intros s p H; now rewrite (HP s p H)|exact L3|exact E3]. reflexivity.
Qed.
Print Assumptions C58_orbit_polynomial_exact.

(** before n - 1 samples have been accepted the abscissae are not distinct (the start values -1 are still
    there) and CalcPositionWithPolynomial divides zero by zero *)
Theorem C58_not_ready_refuted : forall n offers bs ox oy oz,
  (length (taken (-1) (axis_offers px offers)) + 2 <= n)%nat ->
  orbit_pushes (orbit_interpolation n) offers = Ok (bs, (ox, oy, oz)) -> ~ NoDup (xs ox).
Proof.
  intros n offers bs ox oy oz H EO ND. unfold orbit_interpolation in EO.
  set (d0 := interpolation (repeat (-1) n) (repeat 0 n)) in EO.
  assert (K : ok_data d0) by (unfold d0, ok_data, interpolation; cbn [xs ys degree]; rewrite !repeat_length; lia).
  assert (LS : last (xs d0) 0 = -1) by (apply last_repeat; lia).
  assert (DG : degree d0 = n) by (unfold d0, interpolation; cbn [degree]; apply repeat_length).
  destruct (orbit_pushes_axes offers d0 d0 d0 K K K eq_refl eq_refl) as (bs' & ox' & oy' & oz' & E & E1 & _ & _).
  rewrite EO in E. injection E as <- <- <- <-.
  destruct (pushes_spec (axis_offers px offers) d0 K) as (b2 & d' & EP' & OK & D & W & _). rewrite E1 in EP'. injection EP' as <- <-.
  rewrite LS, DG in W. apply (f_equal (map fst)) in W. rewrite (map_fst_window ox OK), map_lastn, map_app, (map_fst_window d0 K) in W.
  change (xs d0) with (repeat (-1) n) in W.
  set (T := map fst (taken (-1) (axis_offers px offers))) in *.
  assert (LT : length T = length (taken (-1) (axis_offers px offers))) by apply map_length.
  pose proof (proj1 (NoDup_nth (xs ox) 0) ND 0%nat 1%nat) as Q.
  assert (LX : length (xs ox) = n) by (destruct OK as (_ & Lx & _); lia).
  assert (V : forall i, (i < 2)%nat -> nth i (xs ox) 0 = -1).
  { intros i Hi. rewrite W. unfold lastn. rewrite app_length, repeat_length. replace (n + length T - n)%nat with (length T) by lia.
    rewrite skipn_app, repeat_length, app_nth1 by (rewrite skipn_length, repeat_length; lia).
    replace n with (length T + (n - length T))%nat by lia. rewrite repeat_app, skipn_app, skipn_all2 by (rewrite repeat_length; lia).
    rewrite repeat_length, Nat.sub_diag. cbn [app skipn]. rewrite (nth_indep _ 0 (-1)) by (rewrite repeat_length; lia). apply nth_repeat. }
  rewrite (V 0%nat), (V 1%nat) in Q by lia. specialize (Q ltac:(lia) ltac:(lia) eq_refl). discriminate.
Qed.
Print Assumptions C58_not_ready_refuted.

(** the hypotheses are met *)
Example ex_nodes : NoDup [0; 1; 3; 4].
Proof. repeat constructor; cbn; intros H; repeat destruct H as [H|H]; try lra; exact H. Qed.
Example ex_cubic : calc_polynomial (interpolation [0; 1; 3; 4] [1; 2; 28; 65]) 2 = Ok 9.
Proof.
  (* samples of 1 + x^3 *)
  replace [1; 2; 28; 65] with (map (peval [1; 0; 0; 1]) [0; 1; 3; 4]) by (cbn; repeat f_equal; ring).
  rewrite C28_exact_on_polynomials; [|discriminate|apply ex_nodes|cbn; lia]. f_equal. cbn. ring.
Qed.
Example ex_trig_nodes : forall i j, (i < 3)%nat -> (j < 3)%nat -> i <> j -> sin (1 * (nth i [0; 1; 2] 0 - nth j [0; 1; 2] 0) / 2) <> 0.
Proof.
  assert (P : 2 < PI) by (pose proof PI2_1; lra).
  assert (A : 0 < sin (1 / 2)) by (apply sin_gt_0; lra). assert (B : 0 < sin 1) by (apply sin_gt_0; lra).
  intros i j Hi Hj N. destruct i as [|[|[|i]]]; destruct j as [|[|[|j]]]; try lia; cbn [nth].
  all: match goal with |- sin ?a <> 0 => first
    [ replace a with (1 / 2) by field; intros Z; lra | replace a with 1 by field; intros Z; lra
    | replace a with (- (1 / 2)) by field; rewrite sin_neg; intros Z; lra | replace a with (Ropp 1) by field; rewrite sin_neg; intros Z; lra ] end.
Qed.
Example ex_taken : taken (-1) (axis_offers px [(0, (1, 2, 3)); (0, (1, 2, 3)); (5, (1, 2, 3))]) = [(0, 1); (5, 1)].
Proof. unfold axis_offers, px. cbn [map fst snd taken]. destruct (Rlt_dec (-1) 0); [|lra]. destruct (Rlt_dec 0 0); [lra|]. destruct (Rlt_dec 0 5); [reflexivity|lra]. Qed.
