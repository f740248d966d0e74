From Coq Require Import Reals Lra Lia List Bool Arith.
From Verif Require Import Base RBase VecModel LuModel LuProofs InterpModel InterpSpec.
Import ListNotations.
Open Scope R_scope.

(** ** polynomials *)
Fixpoint padd (p q : list R) : list R :=
  match p, q with [], _ => q | _, [] => p | a :: p', b :: q' => (a + b) :: padd p' q' end.
Definition pscale (c : R) (p : list R) : list R := map (Rmult c) p.
Lemma peval_padd p q x : peval (padd p q) x = peval p x + peval q x.
Proof.
  revert q. induction p as [|a p IH]; intros [|b q]; cbn [padd peval]; try lra. rewrite IH. ring.
Qed.
Lemma peval_pscale c p x : peval (pscale c p) x = c * peval p x.
Proof. induction p as [|a p IH]; cbn [pscale map peval]; [ring|]. unfold pscale in IH. rewrite IH. ring. Qed.
Lemma length_padd p q : length (padd p q) = Nat.max (length p) (length q).
Proof. revert q. induction p as [|a p IH]; intros [|b q]; cbn [padd length]; try lia. rewrite IH. lia. Qed.
Lemma length_pscale c p : length (pscale c p) = length p. Proof. apply map_length. Qed.

(** synthetic division *)
Fixpoint pquot (p : list R) (a : R) : list R := match p with [] => [] | [_] => [] | _ :: p' => peval p' a :: pquot p' a end.
Lemma pquot_spec p a x : peval p x = peval p a + (x - a) * peval (pquot p a) x.
Proof.
  induction p as [|c p IH]; [cbn; ring|]. destruct p as [|c' p]; [cbn; ring|].
  change (pquot (c :: c' :: p) a) with (peval (c' :: p) a :: pquot (c' :: p) a).
  change (peval (c :: c' :: p) x) with (c + x * peval (c' :: p) x). rewrite IH.
  change (peval (c :: c' :: p) a) with (c + a * peval (c' :: p) a). cbn [peval].
  set (u := c' + a * peval p a). set (v := peval (pquot (c' :: p) a) x). ring.
Qed.
Lemma length_pquot p a : length (pquot p a) = (length p - 1)%nat.
Proof. induction p as [|c p IH]; [reflexivity|]. destruct p as [|c' p]; [reflexivity|]. cbn [pquot length] in *. rewrite IH. lia. Qed.

(** a polynomial with at least as many roots as coefficients is zero *)
Lemma too_many_roots (roots : list R) : forall p, NoDup roots -> (length p <= length roots)%nat ->
  (forall r, In r roots -> peval p r = 0) -> forall x, peval p x = 0.
Proof.
  induction roots as [|a roots IH]; intros p ND L Z x.
  - destruct p; [reflexivity|]. cbn in L. lia.
  - inversion ND as [|? ? NI ND']; subst. rewrite (pquot_spec p a x). rewrite (Z a) by now left.
    rewrite (IH (pquot p a)); [ring|exact ND'| |].
    + rewrite length_pquot. cbn in L. lia.
    + intros r Hr. pose proof (pquot_spec p a r) as E. rewrite (Z r), (Z a) in E by (cbn; tauto).
      assert (r <> a) by (intros ->; contradiction).
      assert ((r - a) * peval (pquot p a) r = 0) as M by lra. apply Rmult_integral in M. destruct M; [lra|assumption].
Qed.

(** ** Neville's scheme *)
Section neville.
  Context (X Y : vec).
  Fixpoint nev (m i : nat) (x : R) : R :=
    match m with
    | O => Y i
    | S k => ((X (i + m)%nat - x) * nev k i x + (x - X i) * nev k (S i) x) / (X (i + m)%nat - X i)
    end.
  Fixpoint nevp (m i : nat) : list R :=
    match m with
    | O => [Y i]
    | S k => let D := X (i + m)%nat - X i in
             padd (padd (pscale (X (i + m)%nat / D) (nevp k i)) (pscale (- 1 / D) (0 :: nevp k i)))
                  (padd (pscale (1 / D) (0 :: nevp k (S i))) (pscale (- X i / D) (nevp k (S i))))
    end.
  Lemma nev_nevp m : forall i x, (forall a b, (a < b <= i + m)%nat -> X b - X a <> 0) -> nev m i x = peval (nevp m i) x.
  Proof.
    induction m as [|m IH]; intros i x H; [cbn; ring|]. cbn [nev nevp].
    rewrite !peval_padd, !peval_pscale. cbn [peval]. rewrite <- !IH by (intros; apply H; lia).
    field. apply H. lia.
  Qed.
  Lemma length_nevp m : forall i, length (nevp m i) = S m.
  Proof.
    induction m as [|m IH]; intros i; [reflexivity|]. cbn [nevp]. rewrite !length_padd, !length_pscale. cbn [length]. rewrite !IH. lia.
  Qed.
  Lemma nev_node m : forall i j, (forall a b, (a < b <= i + m)%nat -> X b - X a <> 0) -> (i <= j <= i + m)%nat -> nev m i (X j) = Y j.
  Proof.
    induction m as [|m IH]; intros i j H J; [cbn; f_equal; lia|]. cbn [nev].
    assert (D : X (i + S m)%nat - X i <> 0) by (apply H; lia).
    destruct (Nat.eq_dec j i) as [->|N1].
    { rewrite IH by (try (intros; apply H); lia). field. exact D. }
    destruct (Nat.eq_dec j (i + S m)) as [->|N2].
    { rewrite (IH (S i)) by (try (intros; apply H); lia). field. exact D. }
    rewrite !IH by (try (intros; apply H); lia). field. exact D.
  Qed.
End neville.

(** ** the loops of CalcPolynomial *)
Lemma find_nearest_aux (f : nat -> R) n : forall s d0 o0,
  (o0 < s)%nat -> d0 = f o0 -> (forall i, (i < s)%nat -> f o0 <= f i) -> (forall i, (i < o0)%nat -> f o0 < f i) ->
  let st := for_ n s (fun i st => let '(d1, out) := st in let d2 := f i in if rlt d2 d1 then (d2, i) else (d1, out)) (d0, o0) in
  (snd st < s + n)%nat /\ (forall i, (i < s + n)%nat -> f (snd st) <= f i) /\ (forall i, (i < snd st)%nat -> f (snd st) < f i).
Proof.
  induction n as [|n IH]; intros s d0 o0 B E M F; cbn [for_].
  - cbn [snd]. rewrite Nat.add_0_r. auto.
  - rewrite E. cbv zeta. destruct (rlt_spec (f s) (f o0)) as [L|L].
    + replace (s + S n)%nat with (S s + n)%nat by lia. apply IH.
      * lia.
      * reflexivity.
      * intros i Hi. destruct (Nat.eq_dec i s) as [->|]; [lra|]. pose proof (M i ltac:(lia)). lra.
      * intros i Hi. pose proof (M i ltac:(lia)). lra.
    + replace (s + S n)%nat with (S s + n)%nat by lia. apply IH.
      * lia.
      * reflexivity.
      * intros i Hi. destruct (Nat.eq_dec i s) as [->|]; [lra|]. apply M. lia.
      * exact F.
Qed.
Lemma find_nearest_spec (d : interp) (x : R) : (0 < degree d)%nat ->
  (find_nearest d x < degree d)%nat /\
  (forall i, (i < degree d)%nat -> Rabs (x - ix d (find_nearest d x)) <= Rabs (x - ix d i)) /\
  (forall i, (i < find_nearest d x)%nat -> Rabs (x - ix d (find_nearest d x)) < Rabs (x - ix d i)).
Proof.
  intros P. unfold find_nearest. destruct (degree d) as [|n]; [lia|]. cbn [for_].
  rewrite rlt_false by lra.
  apply (find_nearest_aux (fun i => Rabs (x - ix d i)) n 1 _ 0%nat); try lia; try reflexivity.
  intros i Hi. replace i with 0%nat by lia. lra.
Qed.

Lemma stage_spec (d : interp) (x : R) (m : nat) (down up : vec) :
  (1 <= m)%nat ->
  let st := neville_stage d x m (down, up) in
  forall i, (i < degree d - m)%nat ->
    fst st i = (ix d i - x) * (down (i + 1)%nat - up i) / (ix d i - ix d (i + m)%nat) /\
    snd st i = (ix d (i + m)%nat - x) * (down (i + 1)%nat - up i) / (ix d i - ix d (i + m)%nat).
Proof.
  intros Hm. unfold neville_stage. generalize (degree d - m)%nat as n.
  assert (G : forall n, let st := for_ n 0 (fun i st => let '(down, up) := st in
       let denominator := ix d i - ix d (i + m)%nat in
       let down_minus_up := down (i + 1)%nat - up i in
       let up' := upd up i ((ix d (i + m)%nat - x) * down_minus_up / denominator) in
       let down' := upd down i ((ix d i - x) * down_minus_up / denominator) in
       (down', up')) (down, up) in
     (forall i, (i < n)%nat -> fst st i = (ix d i - x) * (down (i + 1)%nat - up i) / (ix d i - ix d (i + m)%nat) /\
        snd st i = (ix d (i + m)%nat - x) * (down (i + 1)%nat - up i) / (ix d i - ix d (i + m)%nat)) /\
     (forall i, (n <= i)%nat -> fst st i = down i /\ snd st i = up i)).
  { induction n as [|n [IH1 IH2]]; [cbn; split; [intros; lia|auto]|].
    cbv zeta. rewrite for_snoc. cbv zeta in IH1, IH2.
    match goal with |- context [for_ n 0 ?b ?s] => set (st := for_ n 0 b s) in *; clearbody st end.
    destruct st as [dn un]. cbn [fst snd Nat.add] in *.
    destruct (IH2 n) as [_ Un]; [lia|]. destruct (IH2 (n + 1)%nat) as [Dn _]; [lia|]. rewrite Un, Dn.
    split; intros i Hi.
    - destruct (Nat.eq_dec i n) as [->|N]; [rewrite !upd_eq; auto|]. rewrite !upd_neq by exact N. apply IH1. lia.
    - rewrite !upd_neq by lia. apply IH2. lia. }
  intros n. apply G.
Qed.

Definition ok_data (d : interp) : Prop :=
  (1 <= degree d)%nat /\ length (xs d) = degree d /\ length (ys d) = degree d.

Lemma calc_polynomial_spec (d : interp) (x : R) : ok_data d -> NoDup (xs d) ->
  calc_polynomial d x = Ok (nev (ix d) (iy d) (degree d - 1) 0 x).
Proof.
  intros (P & Lx & Ly) ND. unfold calc_polynomial.
  rewrite (proj2 (Nat.eqb_neq _ _)) by lia. rewrite (proj2 (Nat.ltb_ge _ _)) by lia. rewrite (proj2 (Nat.ltb_ge _ _)) by lia. cbn [orb].
  assert (DX : forall a b, (a < b < degree d)%nat -> ix d b - ix d a <> 0).
  { intros a b H E. unfold ix in E. pose proof (proj1 (NoDup_nth (xs d) 0) ND a b ltac:(lia) ltac:(lia) ltac:(lra)). lia. }
  destruct (find_nearest_spec d x P) as [NB _]. set (n := find_nearest d x) in *. clearbody n.
  set (N := nev (ix d) (iy d)).
  (* after the stages 1 .. k *)
  assert (INV : forall k, (k <= degree d - 1)%nat ->
    let '(y, down, up, d_idx) :=
      for_ k 1 (fun m st => let '(y, down, up, d_idx) := st in
         let '(down, up) := neville_stage d x m (down, up) in
         if (m <=? n)%nat then (y + up (n - d_idx)%nat, down, up, S d_idx) else (y + down 0%nat, down, up, d_idx))
      (iy d n, iy d, iy d, 1%nat) in
    (if (k <=? n)%nat then y = N k (n - k)%nat x /\ d_idx = S k else y = N k 0%nat x) /\
    (forall i, (i < degree d - k)%nat ->
       (k = 0%nat -> down i = N 0%nat i x /\ up i = N 0%nat i x) /\
       (forall k', k = S k' -> down i = N k i x - N k' i x /\ up i = N k i x - N k' (S i) x))).
  { induction k as [|k IH]; intros K.
    - cbn [for_]. rewrite (proj2 (Nat.leb_le 0 n)) by lia. replace (n - 0)%nat with n by lia.
      split; [split; reflexivity|]. intros i Hi. split; [intros _; split; reflexivity|intros; discriminate].
    - rewrite for_snoc. specialize (IH ltac:(lia)).
      match goal with |- context [for_ k 1 ?b ?s] => set (st := for_ k 1 b s) in *; clearbody st end.
      destruct st as [[[y down] up] d_idx]. destruct IH as [IY ID]. cbn [Nat.add].
      pose proof (stage_spec d x (S k) down up ltac:(lia)) as ST. cbv zeta in ST.
      destruct (neville_stage d x (S k) (down, up)) as [dn un] eqn:ES. cbn [fst snd] in ST.
      assert (DU : forall i, (i < degree d - S k)%nat -> down (i + 1)%nat - up i = N k (S i) x - N k i x).
      { intros i Hi. destruct (ID i ltac:(lia)) as [A1 A2]. destruct (ID (i + 1)%nat ltac:(lia)) as [B1 B2].
        replace (i + 1)%nat with (S i) in * by lia.
        destruct k as [|k].
        - destruct (A1 eq_refl) as [_ A]. destruct (B1 eq_refl) as [B _]. rewrite A, B. reflexivity.
        - destruct (A2 k eq_refl) as [_ A]. destruct (B2 k eq_refl) as [B _]. rewrite A, B. ring. }
      assert (NEW : forall i, (i < degree d - S k)%nat -> dn i = N (S k) i x - N k i x /\ un i = N (S k) i x - N k (S i) x).
      { intros i Hi. destruct (ST i Hi) as [S1 S2]. rewrite S1, S2, (DU i Hi). unfold N. cbn [nev].
        pose proof (DX i (i + S k)%nat ltac:(lia)). split; field; lra. }
      destruct (Nat.leb_spec (S k) n) as [L|L].
      + rewrite (proj2 (Nat.leb_le k n)) in IY by lia. destruct IY as [IY1 IY2]. split.
        * split; [|lia]. rewrite IY1, IY2. destruct (NEW (n - S k)%nat ltac:(lia)) as [_ U]. rewrite U.
          replace (S (n - S k)) with (n - k)%nat by lia. ring.
        * intros i Hi. split; [intros; discriminate|]. intros k' E. injection E as <-. apply NEW. exact Hi.
      + split.
        * destruct (NEW 0%nat ltac:(lia)) as [Dn _]. rewrite Dn.
          destruct (Nat.leb_spec k n) as [L2|L2].
          -- destruct IY as [IY1 _]. rewrite IY1. replace (n - k)%nat with 0%nat by lia. ring.
          -- rewrite IY. ring.
        * intros i Hi. split; [intros; discriminate|]. intros k' E. injection E as <-. apply NEW. exact Hi. }
  specialize (INV (degree d - 1)%nat ltac:(lia)).
  match goal with |- context [for_ ?c 1 ?b ?s] => set (st := for_ c 1 b s) in *; clearbody st end.
  destruct st as [[[y down] up] d_idx]. destruct INV as [IY _]. f_equal.
  destruct (Nat.leb_spec (degree d - 1) n) as [L|L]; [|exact IY].
  destruct IY as [-> _]. replace (n - (degree d - 1))%nat with 0%nat by lia. reflexivity.
Qed.

(** ** the window *)
Lemma increasing_app l a : increasing l -> (l = [] \/ last l 0 < a) -> increasing (l ++ [a]).
Proof.
  induction l as [|x l IH]; intros H D; [cbn; auto|]. destruct D as [D|D]; [discriminate|].
  destruct l as [|y l].
  - cbn in *. auto.
  - change ((x :: y :: l) ++ [a]) with (x :: (y :: l) ++ [a]). cbn [increasing] in *. cbn [app]. split; [tauto|].
    apply IH; [tauto|]. right. exact D.
Qed.
Lemma increasing_tl x l : increasing (x :: l) -> increasing l.
Proof. cbn. tauto. Qed.
Lemma increasing_lt l : increasing l -> forall i j, (i < j < length l)%nat -> nth i l 0 < nth j l 0.
Proof.
  induction l as [|x l IH]; intros H i j B; [cbn in B; lia|]. destruct j as [|j]; [lia|]. cbn [length] in B.
  assert (G : forall j, (j < length l)%nat -> x < nth j l 0).
  { induction j0 as [|k IHk]; intros Hk.
    - destruct l as [|y l]; [cbn in Hk; lia|]. cbn in H. cbn. tauto.
    - pose proof (IHk ltac:(lia)). pose proof (IH (increasing_tl _ _ H) k (S k) ltac:(lia)). lra. }
  destruct i as [|i]; cbn [nth]; [apply G; lia|]. apply IH; [exact (increasing_tl _ _ H)|lia].
Qed.
Lemma increasing_NoDup l : increasing l -> NoDup l.
Proof.
  intros H. apply (NoDup_nth l 0). intros i j Hi Hj E. destruct (Nat.lt_total i j) as [L|[L|L]]; [|exact L|].
  - pose proof (increasing_lt l H i j ltac:(lia)). lra.
  - pose proof (increasing_lt l H j i ltac:(lia)). lra.
Qed.

Definition window (d : interp) : list (R * R) := combine (xs d) (ys d).

Lemma last_app_one (l : list R) a dflt : last (l ++ [a]) dflt = a.
Proof. apply last_last. Qed.
Lemma lastn_all {A} (l : list A) : lastn (length l) l = l.
Proof. unfold lastn. now rewrite Nat.sub_diag. Qed.
Lemma combine_app {A B} (a a' : list A) (b b' : list B) : length a = length b -> combine (a ++ a') (b ++ b') = combine a b ++ combine a' b'.
Proof. revert b. induction a as [|x a IH]; intros [|y b] H; try discriminate; [reflexivity|]. cbn. f_equal. apply IH. now injection H. Qed.
Lemma lastn_tl {A} n (x : A) (l : list A) m : length (x :: l) = n -> lastn n (l ++ m) = lastn n ((x :: l) ++ m) \/ m = [].
Proof.
  intros H. destruct m as [|y m]; [now right|left]. unfold lastn. cbn [app length] in *. rewrite !app_length. cbn [length].
  replace (length l + S (length m) - n)%nat with (length m) by lia.
  replace (S (length l + S (length m)) - n)%nat with (S (length m)) by lia. reflexivity.
Qed.

Lemma pushes_spec (offers : list (R * R)) : forall d : interp, ok_data d ->
  exists bs d', pushes d offers = Ok (bs, d') /\ ok_data d' /\ degree d' = degree d /\
    window d' = lastn (degree d) (window d ++ taken (last (xs d) 0) offers) /\
    length bs = length offers /\
    length (filter (fun b => b) bs) = length (taken (last (xs d) 0) offers).
Proof.
  induction offers as [|[x y] r IH]; intros d OK.
  - exists [], d. split; [reflexivity|]. split; [exact OK|]. split; [reflexivity|]. split; [|split; reflexivity].
    destruct OK as (P & Lx & Ly). cbn [taken]. rewrite app_nil_r. unfold window. rewrite <- (lastn_all (combine (xs d) (ys d))) at 1.
    f_equal. rewrite combine_length. lia.
  - cbn [pushes taken]. unfold push_and_pop. destruct OK as (P & Lx & Ly).
    destruct (xs d) as [|x0 xt] eqn:EX; [cbn in Lx; lia|]. destruct (ys d) as [|y0 yt] eqn:EY; [cbn in Ly; lia|].
    destruct (Rlt_dec (last (x0 :: xt) 0) x) as [L|L].
    + rewrite rle_false by exact L. cbn [bind].
      set (d1 := mkInterp (xt ++ [x]) (yt ++ [y]) (degree d)).
      assert (OK1 : ok_data d1).
      { split; [exact P|]. unfold d1. cbn [xs ys degree]. rewrite !app_length. cbn [length] in *. lia. }
      destruct (IH d1 OK1) as (bs & d' & E & OK' & D' & W & LB & FB). rewrite E. cbn [bind].
      exists (true :: bs), d'. split; [reflexivity|]. split; [exact OK'|]. split; [exact D'|].
      change (xs d1) with (xt ++ [x]) in W, FB. rewrite last_app_one in W, FB. change (degree d1) with (degree d) in W.
      split; [|cbn; split; lia].
      rewrite W. unfold window, d1. cbn [xs ys]. rewrite EX, EY. rewrite combine_app by (cbn in Lx, Ly; lia). cbn [combine].
      rewrite <- app_assoc. cbn [app].
      destruct (lastn_tl (degree d) (x0, y0) (combine xt yt) ((x, y) :: taken x r)) as [Q|Q]; [|exact Q|discriminate].
      cbn [length]. rewrite combine_length. cbn [length] in *. lia.
    + rewrite rle_true by lra. cbn [bind].
      destruct (IH d) as (bs & d' & E & OK' & D' & W & LB & FB); [split; [exact P|rewrite EX, EY; auto]|].
      rewrite E. cbn [bind]. exists (false :: bs), d'. rewrite EX in W, FB. repeat split; try assumption; try apply OK'. cbn. lia.
Qed.

Lemma taken_increasing last offers : increasing (map fst (taken last offers)) /\ forall a, In a (map fst (taken last offers)) -> last < a.
Proof.
  revert last. induction offers as [|[x y] r IH]; intros l; cbn [taken map]; [cbn; tauto|].
  destruct (Rlt_dec l x) as [L|L]; [|apply IH]. destruct (IH x) as [I1 I2]. cbn [map fst]. split.
  - cbn [increasing]. split; [|exact I1]. destruct (map fst (taken x r)) as [|b t]; [trivial|]. apply I2. now left.
  - intros a [<-|H]; [exact L|]. pose proof (I2 a H). lra.
Qed.
Lemma increasing_app_gen (l l' : list R) : increasing l -> increasing l' -> (forall a, In a l' -> l = [] \/ last l 0 < a) -> increasing (l ++ l').
Proof.
  intros H H' B. revert l H B. induction l' as [|a l' IH]; intros l H B; [now rewrite app_nil_r|].
  replace (l ++ a :: l') with ((l ++ [a]) ++ l') by (now rewrite <- app_assoc). apply IH.
  - exact (increasing_tl _ _ H').
  - apply increasing_app; [exact H|]. apply B. now left.
  - intros b Hb. right. rewrite last_app_one. clear - H' Hb.
    destruct (In_nth _ _ 0 Hb) as (n & Hn & <-). apply (increasing_lt (a :: l') H' 0 (S n)). cbn. lia.
Qed.
Lemma increasing_skipn k : forall l, increasing l -> increasing (skipn k l).
Proof. induction k as [|k IH]; intros [|x l] H; try exact H. cbn [skipn]. apply IH. exact (increasing_tl _ _ H). Qed.
Lemma map_lastn {A B} (f : A -> B) n l : map f (lastn n l) = lastn n (map f l).
Proof. unfold lastn. rewrite map_length. generalize (length l - n)%nat as k. intros k. revert l. induction k as [|k IH]; intros [|x l]; try reflexivity. cbn. apply IH. Qed.
Lemma map_fst_window d : ok_data d -> map fst (window d) = xs d.
Proof.
  intros (P & Lx & Ly). unfold window. assert (L : length (xs d) = length (ys d)) by lia. revert L.
  generalize (xs d) (ys d). induction l as [|x l IH]; intros [|y l'] H; try discriminate; [reflexivity|]. cbn. f_equal. apply IH. now injection H.
Qed.
Lemma lastn_app_short {A} n (a b : list A) : (n <= length b)%nat -> lastn n (a ++ b) = lastn n b.
Proof.
  intros H. unfold lastn. rewrite app_length, skipn_app. rewrite skipn_all2 by lia. cbn. f_equal. lia.
Qed.

(** ** trigonometric interpolation: binary forms *)
Inductive form : nat -> (R -> R -> R) -> Prop :=
| form_const a : form 0 (fun _ _ => a)
| form_mul m a b f : form m f -> form (S m) (fun c s => (a * c + b * s) * f c s)
| form_add m f g : form m f -> form m g -> form m (fun c s => f c s + g c s)
| form_ext m f g : form m f -> (forall c s, f c s = g c s) -> form m g.

Lemma form_scale m f k : form m f -> form m (fun c s => k * f c s).
Proof.
  induction 1 as [a|m a b f F IH|m f g F IF G IG|m f g F IF E].
  - apply form_const.
  - eapply form_ext; [apply (form_mul m a b _ IH)|]. intros c s. cbn. ring.
  - eapply form_ext; [apply (form_add m _ _ IF IG)|]. intros c s. cbn. ring.
  - eapply form_ext; [exact IF|]. intros c s. cbn. now rewrite E.
Qed.
Lemma form_prod m f n g : form m f -> form n g -> form (m + n) (fun c s => f c s * g c s).
Proof.
  intros F G. induction F as [a|m a b f F IH|m f h F IF H IH|m f h F IF E].
  - now apply form_scale.
  - cbn [Nat.add]. eapply form_ext; [apply (form_mul (m + n) a b _ IH)|]. intros c s. cbn. ring.
  - eapply form_ext; [apply (form_add _ _ _ IF IH)|]. intros c s. cbn. ring.
  - eapply form_ext; [exact IF|]. intros c s. cbn. now rewrite E.
Qed.
Lemma form_zero m : form m (fun _ _ => 0).
Proof.
  induction m as [|m IH]; [apply form_const|]. eapply form_ext; [apply (form_mul m 0 0 _ IH)|]. intros c s. cbn. ring.
Qed.

(** dividing a form by the linear form that vanishes at (c0, s0) *)
Lemma form_divide m f c0 s0 : form m f -> c0 * c0 + s0 * s0 <> 0 ->
  exists g, (match m with O => forall c s, g c s = 0 | S k => form k g end) /\
    forall c s, f c s = (s0 * c - c0 * s) * g c s + f c0 s0 * ((c0 * c + s0 * s) / (c0 * c0 + s0 * s0)) ^ m.
Proof.
  intros F N. induction F as [a|m a b f F (g & Hg & E)|m f h F (gf & Hf & Ef) H (gh & Hh & Eh)|m f h F (g & Hg & E) X].
  - exists (fun _ _ => 0). split; [reflexivity|]. intros c s. cbn. ring.
  - set (n0 := c0 * c0 + s0 * s0) in *.
    exists (fun c s => (a * c + b * s) * g c s + f c0 s0 * ((a * s0 - b * c0) / n0) * ((c0 * c + s0 * s) / n0) ^ m). split.
    + apply form_add.
      * destruct m as [|k]; [|now apply form_mul]. eapply form_ext; [apply (form_zero 0)|]. intros c s. cbn. rewrite Hg. ring.
      * apply form_scale. clear. induction m as [|m IH]; [apply (form_const 1)|].
        eapply form_ext; [apply (form_mul m (c0 / n0) (s0 / n0) _ IH)|]. intros c s. cbn. unfold Rdiv. ring.
    + intros c s. rewrite E. cbn [pow]. unfold n0 in *. field. exact N.
  - exists (fun c s => gf c s + gh c s). split.
    + destruct m; [intros c s; rewrite Hf, Hh; ring|now apply form_add].
    + intros c s. rewrite Ef, Eh. ring.
  - exists g. split; [exact Hg|]. intros c s. rewrite <- !X. apply E.
Qed.

(** a form of degree m with m+1 zeros, no two proportional, vanishes *)
Lemma form_vanishes m : forall f (C S0 : nat -> R), form m f ->
  (forall i j, (i <= m)%nat -> (j <= m)%nat -> i <> j -> S0 i * C j - C i * S0 j <> 0) ->
  (forall i, (i <= m)%nat -> C i * C i + S0 i * S0 i <> 0) ->
  (forall i, (i <= m)%nat -> f (C i) (S0 i) = 0) -> forall c s, f c s = 0.
Proof.
  induction m as [|m IH]; intros f C S0 F D N Z c s.
  - destruct (form_divide 0 f (C 0%nat) (S0 0%nat) F (N 0%nat (le_n _))) as (g & Hg & E). rewrite E, Hg, (Z 0%nat) by lia. ring.
  - destruct (form_divide (S m) f (C (S m)) (S0 (S m)) F (N (S m) (le_n _))) as (g & Hg & E).
    rewrite E, (Z (S m)) by lia. rewrite (IH g C S0); [ring|exact Hg| | |].
    + intros i j Hi Hj. apply D; lia.
    + intros i Hi. apply N. lia.
    + intros i Hi. pose proof (E (C i) (S0 i)) as Q. rewrite (Z i), (Z (S m)) in Q by lia.
      assert (M : (S0 (S m) * C i - C (S m) * S0 i) * g (C i) (S0 i) = 0) by lra.
      apply Rmult_integral in M. destruct M as [M|M]; [|exact M]. destruct (D (S m) i ltac:(lia) ltac:(lia) ltac:(lia) M).
Qed.

(** forms of degree 2k in (cos(t/2), sin(t/2)) contain the trigonometric polynomials of degree k *)
Lemma cos_half t : cos t = cos (t / 2) * cos (t / 2) - sin (t / 2) * sin (t / 2).
Proof. rewrite <- cos_plus. f_equal. field. Qed.
Lemma sin_half t : sin t = 2 * sin (t / 2) * cos (t / 2).
Proof. rewrite <- sin_2a. f_equal. field. Qed.
Lemma form_one : form 2 (fun c s => c * c + s * s).
Proof.
  apply (form_ext 2 (fun c s => (1 * c + 0 * s) * ((1 * c + 0 * s) * 1) + (0 * c + 1 * s) * ((0 * c + 1 * s) * 1))).
  - apply form_add; apply form_mul, form_mul, form_const.
  - intros c s. ring.
Qed.
Lemma form_cos1 : form 2 (fun c s => c * c - s * s).
Proof.
  apply (form_ext 2 (fun c s => (1 * c + 0 * s) * ((1 * c + 0 * s) * 1) + (0 * c + -1 * s) * ((0 * c + 1 * s) * 1))).
  - apply form_add; apply form_mul, form_mul, form_const.
  - intros c s. ring.
Qed.
Lemma form_sin1 : form 2 (fun c s => 2 * s * c).
Proof.
  apply (form_ext 2 (fun c s => (2 * c + 0 * s) * ((0 * c + 1 * s) * 1))).
  - apply form_mul, form_mul, form_const.
  - intros c s. ring.
Qed.
Lemma cos_sin_forms k : exists fc fs, form (2 * k) fc /\ form (2 * k) fs /\
  forall t, cos (INR k * t) = fc (cos (t / 2)) (sin (t / 2)) /\ sin (INR k * t) = fs (cos (t / 2)) (sin (t / 2)).
Proof.
  induction k as [|k (fc & fs & Fc & Fs & E)].
  - exists (fun _ _ => 1), (fun _ _ => 0). split; [apply form_const|]. split; [apply form_const|].
    intros t. cbn [INR]. rewrite Rmult_0_l, cos_0, sin_0. split; reflexivity.
  - exists (fun c s => (c * c - s * s) * fc c s + -1 * ((2 * s * c) * fs c s)),
           (fun c s => (2 * s * c) * fc c s + (c * c - s * s) * fs c s).
    replace (2 * S k)%nat with (2 + 2 * k)%nat by lia.
    split; [|split].
    + apply form_add; [apply (form_prod _ _ _ _ form_cos1 Fc)|]. apply form_scale, (form_prod _ _ _ _ form_sin1 Fs).
    + apply form_add; [apply (form_prod _ _ _ _ form_sin1 Fc)|apply (form_prod _ _ _ _ form_cos1 Fs)].
    + intros t. destruct (E t) as [E1 E2]. rewrite S_INR.
      replace ((INR k + 1) * t) with (t + INR k * t) by ring. rewrite cos_plus, sin_plus, E1, E2, (cos_half t), (sin_half t).
      split; ring.
Qed.
Lemma form_lift m f k : form m f -> exists g, form (m + 2 * k) g /\ forall t, g (cos t) (sin t) = f (cos t) (sin t).
Proof.
  intros F. induction k as [|k (g & G & E)].
  - exists f. rewrite Nat.mul_0_r, Nat.add_0_r. auto.
  - exists (fun c s => (c * c + s * s) * g c s). replace (m + 2 * S k)%nat with (2 + (m + 2 * k))%nat by lia.
    split; [apply (form_prod _ _ _ _ form_one G)|]. intros t. pose proof (sin2_cos2 t) as H. unfold Rsqr in H.
    rewrite E. replace (cos t * cos t + sin t * sin t) with 1 by lra. ring.
Qed.
Lemma trig_poly_form coef k : exists f, form (2 * k) f /\ forall t, trig_poly coef k t = f (cos (t / 2)) (sin (t / 2)).
Proof.
  induction k as [|k (f & F & E)].
  - exists (fun _ _ => fst (coef 0%nat)). split; [apply form_const|reflexivity].
  - destruct (form_lift _ f 1 F) as (g & G & EG). destruct (cos_sin_forms (S k)) as (fc & fs & Fc & Fs & EC).
    exists (fun c s => g c s + (fst (coef (S k)) * fc c s + snd (coef (S k)) * fs c s)). split.
    + apply form_add; [replace (2 * S k)%nat with (2 * k + 2 * 1)%nat by lia; exact G|].
      apply form_add; now apply form_scale.
    + intros t. cbn [trig_poly]. destruct (EC t) as [-> ->]. rewrite EG, E. reflexivity.
Qed.

(** the basis function of a node, and the sum over the nodes, are forms *)
Lemma sin_diff_half p x a : sin (p * (x - a) / 2) = - sin (p * a / 2) * cos (p * x / 2) + cos (p * a / 2) * sin (p * x / 2).
Proof. replace (p * (x - a) / 2) with (p * x / 2 - p * a / 2) by field. rewrite sin_minus. ring. Qed.

Lemma basis_form (d : interp) (period : R) start i : forall n, 
  exists f, form (if ((start <=? i) && (i <? start + n))%nat then n - 1 else n) f /\
    forall x, for_ n start (fun j t => if Nat.eqb i j then t
                else t * (sin (period * (x - ix d j) / 2) / sin (period * (ix d i - ix d j) / 2))) 1
      = f (cos (period * x / 2)) (sin (period * x / 2)).
Proof.
  induction n as [|n (f & F & E)].
  - exists (fun _ _ => 1). split; [|reflexivity]. destruct ((start <=? i) && (i <? start + 0))%nat; apply form_const.
  - destruct (Nat.eq_dec i (start + n)) as [D|D].
    + exists f. split.
      * rewrite (proj2 (Nat.leb_le start i)) in * by lia. cbn [andb] in *.
        rewrite (proj2 (Nat.ltb_ge i (start + n))) in F by lia. rewrite (proj2 (Nat.ltb_lt i (start + S n))) by lia.
        replace (S n - 1)%nat with n by lia. exact F.
      * intros x. rewrite for_snoc. rewrite (proj2 (Nat.eqb_eq _ _) D). apply E.
    + exists (fun c s => (- sin (period * ix d (start + n)%nat / 2) / sin (period * (ix d i - ix d (start + n)%nat) / 2) * c +
                          cos (period * ix d (start + n)%nat / 2) / sin (period * (ix d i - ix d (start + n)%nat) / 2) * s) * f c s). split.
      * replace (if ((start <=? i) && (i <? start + S n))%nat then (S n - 1)%nat else S n)
          with (S (if ((start <=? i) && (i <? start + n))%nat then (n - 1)%nat else n)); [now apply form_mul|].
        destruct (Nat.leb_spec start i); cbn [andb]; [|reflexivity].
        destruct (Nat.ltb_spec i (start + n)); destruct (Nat.ltb_spec i (start + S n)); lia.
      * intros x. rewrite for_snoc. rewrite (proj2 (Nat.eqb_neq _ _) D), E, sin_diff_half. unfold Rdiv. ring.
Qed.

Lemma basis_node (d : interp) (period : R) start n i k :
  (start <= i < start + n)%nat -> (start <= k < start + n)%nat ->
  (forall j, (start <= j < start + n)%nat -> j <> i -> sin (period * (ix d i - ix d j) / 2) <> 0) ->
  for_ n start (fun j t => if Nat.eqb i j then t
                else t * (sin (period * (ix d k - ix d j) / 2) / sin (period * (ix d i - ix d j) / 2))) 1 = if Nat.eqb i k then 1 else 0.
Proof.
  intros Hi Hk D. destruct (Nat.eqb_spec i k) as [->|N].
  - apply (for_inv (fun _ t => t = 1)); [reflexivity|]. intros j t Hj ->. destruct (Nat.eqb_spec k j) as [|NE]; [reflexivity|].
    field. apply D; [exact Hj|congruence].
  - (* the factor of node k is zero *)
    assert (G : (fun m t => (k < m)%nat -> t = 0) (start + n)%nat (for_ n start (fun j t => if Nat.eqb i j then t
                else t * (sin (period * (ix d k - ix d j) / 2) / sin (period * (ix d i - ix d j) / 2))) 1)).
    { apply (for_inv (fun m (t : R) => (k < m)%nat -> t = 0)); [intros; lia|]. intros j t Hj IH L.
      destruct (Nat.eq_dec k j) as [<-|NE].
      - rewrite (proj2 (Nat.eqb_neq _ _) N). replace (period * (ix d k - ix d k) / 2) with 0 by field. rewrite sin_0. unfold Rdiv. ring.
      - assert (t = 0) as -> by (apply IH; lia). destruct (Nat.eqb i j); [reflexivity|ring]. }
    cbv beta in G. apply G. lia.
Qed.

Lemma trig_exact_aux (d : interp) (period : R) start n (F : R -> R -> R) :
  form (n - 1) F -> (1 <= n)%nat ->
  (forall i j, (start <= i < start + n)%nat -> (start <= j < start + n)%nat -> i <> j -> sin (period * (ix d i - ix d j) / 2) <> 0) ->
  (forall i, (start <= i < start + n)%nat -> iy d i = F (cos (period * ix d i / 2)) (sin (period * ix d i / 2))) ->
  forall x, for_ n start (fun i y => y + trig_basis d x period start (start + n) i * iy d i) 0 = F (cos (period * x / 2)) (sin (period * x / 2)).
Proof.
  intros FF Hn D HY x0.
  assert (B : forall i, (start <= i < start + n)%nat -> exists f, form (n - 1) f /\ forall x, trig_basis d x period start (start + n) i = f (cos (period * x / 2)) (sin (period * x / 2))).
  { intros i Hi. destruct (basis_form d period start i n) as (f & Ff & E). exists f. split.
    - rewrite (proj2 (Nat.leb_le _ _)) in Ff by lia. rewrite (proj2 (Nat.ltb_lt _ _)) in Ff by lia. exact Ff.
    - intros x. unfold trig_basis. replace (start + n - start)%nat with n by lia. apply E. }
  assert (SUM : forall k, (k <= n)%nat -> exists f, form (n - 1) f /\ forall x,
     for_ k start (fun i y => y + trig_basis d x period start (start + n) i * iy d i) 0 = f (cos (period * x / 2)) (sin (period * x / 2))).
  { induction k as [|k IH]; intros K.
    - exists (fun _ _ => 0). split; [apply form_zero|reflexivity].
    - destruct (IH ltac:(lia)) as (f & Ff & E). destruct (B (start + k)%nat ltac:(lia)) as (g & Fg & G).
      exists (fun c s => f c s + iy d (start + k)%nat * g c s). split; [apply form_add; [exact Ff|now apply form_scale]|].
      intros x. rewrite for_snoc, E, G. ring. }
  destruct (SUM n (le_n _)) as (f & Ff & E). rewrite E.
  assert (V : forall c s, f c s + -1 * F c s = 0).
  { apply (form_vanishes (n - 1) (fun c s => f c s + -1 * F c s) (fun i => cos (period * ix d (start + i)%nat / 2)) (fun i => sin (period * ix d (start + i)%nat / 2))).
    - apply form_add; [exact Ff|now apply form_scale].
    - intros i j Hi Hj N. pose proof (D (start + i)%nat (start + j)%nat ltac:(lia) ltac:(lia) ltac:(lia)) as Q. rewrite sin_diff_half in Q. lra.
    - intros i Hi. pose proof (sin2_cos2 (period * ix d (start + i)%nat / 2)) as Q. unfold Rsqr in Q. lra.
    - intros i Hi. rewrite <- E, <- HY by lia.
      assert (VAL : for_ n start (fun k y => y + trig_basis d (ix d (start + i)%nat) period start (start + n) k * iy d k) 0 = iy d (start + i)%nat); [|rewrite VAL; ring].
      assert (G : (fun m (y : R) => y = if (start + i <? m)%nat then iy d (start + i)%nat else 0) (start + n)%nat
         (for_ n start (fun k y => y + trig_basis d (ix d (start + i)%nat) period start (start + n) k * iy d k) 0)).
      { apply (for_inv (fun m (y : R) => y = if (start + i <? m)%nat then iy d (start + i)%nat else 0)).
        - rewrite (proj2 (Nat.ltb_ge _ _)) by lia. reflexivity.
        - intros k y Hk ->. unfold trig_basis. replace (start + n - start)%nat with n by lia.
          rewrite basis_node; [|exact Hk|lia|intros j Hj Nj; apply D; [exact Hk|exact Hj|congruence]].
          destruct (Nat.eqb_spec k (start + i)) as [->|NE].
          + rewrite Nat.ltb_irrefl. rewrite (proj2 (Nat.ltb_lt _ _)) by lia. ring.
          + destruct (Nat.ltb_spec (start + i) k); destruct (Nat.ltb_spec (start + i) (S k)); try lia; ring. }
      cbv beta in G. rewrite G. rewrite (proj2 (Nat.ltb_lt _ _)) by lia. reflexivity. }
  specialize (V (cos (period * x0 / 2)) (sin (period * x0 / 2))). lra.
Qed.
