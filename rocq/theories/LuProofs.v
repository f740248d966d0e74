From Coq Require Import Reals Lra List Bool Arith Lia.
From Verif Require Import Base RBase VecModel LuModel.
Open Scope R_scope.

(** * loops *)
Lemma for_snoc {A} (body : nat -> A -> A) c : forall s st, for_ (S c) s body st = body (s + c)%nat (for_ c s body st).
Proof.
  induction c as [|c IH]; intros s st.
  - cbn. now rewrite Nat.add_0_r.
  - change (for_ (S (S c)) s body st) with (for_ (S c) (S s) body (body s st)). rewrite IH. cbn [for_].
    f_equal. lia.
Qed.
Lemma for_inv {A} (P : nat -> A -> Prop) (body : nat -> A -> A) c s st :
  P s st -> (forall k x, (s <= k < s + c)%nat -> P k x -> P (S k) (body k x)) -> P (s + c)%nat (for_ c s body st).
Proof.
  intros H0 HS. induction c as [|c IH].
  - now rewrite Nat.add_0_r.
  - rewrite for_snoc. replace (s + S c)%nat with (S (s + c)) by lia. apply HS; [lia|].
    apply IH. intros k x Hk. apply HS. lia.
Qed.
Lemma for_sub (f : nat -> R) c : forall s st, for_ c s (fun k x => x - f k) st = st - sumn c (fun i => f (s + i)%nat).
Proof.
  induction c as [|c IH]; intros s st; [cbn; lra|]. rewrite for_snoc, IH. cbn [sumn]. lra.
Qed.
Lemma reduced_eq a m i j : reduced a m i j = a i j - sumn m (fun k => a i k * a k j).
Proof. unfold reduced. rewrite (for_sub (fun k => a i k * a k j)). reflexivity. Qed.
Lemma upd_eq {A} (f : nat -> A) i x : upd f i x i = x.
Proof. unfold upd. now rewrite Nat.eqb_refl. Qed.
Lemma upd_neq {A} (f : nat -> A) i x k : k <> i -> upd f i x k = f k.
Proof. intros N. unfold upd. destruct (Nat.eqb_spec k i); congruence. Qed.
Lemma mset_eq a i j x : mset a i j x i j = x.
Proof. unfold mset. now rewrite !Nat.eqb_refl. Qed.
Lemma mset_neq a i j x r c : r <> i \/ c <> j -> mset a i j x r c = a r c.
Proof. intros N. unfold mset. destruct (Nat.eqb_spec r i), (Nat.eqb_spec c j); cbn; try reflexivity. lia. Qed.

(** * row scaling *)
Lemma row_biggest_spec n a i : 0 <= row_biggest n a i /\
  (row_biggest n a i = 0 -> forall j, (j < n)%nat -> a i j = 0).
Proof.
  unfold row_biggest.
  assert (I : forall c, let b := for_ c 0 (fun j b => if rlt b (Rabs (a i j)) then Rabs (a i j) else b) 0 in
    0 <= b /\ forall j, (j < c)%nat -> Rabs (a i j) <= b).
  { induction c as [|c IH].
    - cbn. split; [lra|]. intros j Hj. lia.
    - cbv zeta in *. rewrite for_snoc. cbn [Nat.add]. set (b := for_ c 0 _ 0) in *. destruct IH as [B0 B].
      destruct (rlt_spec b (Rabs (a i c))).
      + split; [lra|]. intros j Hj. destruct (Nat.eq_dec j c) as [->|]; [lra|]. specialize (B j). lra || (assert (j < c)%nat by lia; specialize (B H); lra).
      + split; [lra|]. intros j Hj. destruct (Nat.eq_dec j c) as [->|]; [lra|]. apply B. lia. }
  specialize (I n). cbv zeta in I. destruct I as [I0 I]. split; [exact I0|]. intros E j Hj. specialize (I j Hj).
  rewrite E in I. destruct (Req_dec (a i j) 0) as [Z|Z]; [exact Z|]. apply Rabs_pos_lt in Z. lra.
Qed.
Lemma scale_rows_ok n a : forall count i coef, (i + count = n)%nat -> (forall k, (k < i)%nat -> 0 < coef k) ->
  (exists coef', scale_rows count i n a coef = Ok coef' /\ forall k, (k < n)%nat -> 0 < coef' k) \/
  (scale_rows count i n a coef = Throw /\ exists r, (r < n)%nat /\ forall j, (j < n)%nat -> a r j = 0).
Proof.
  induction count as [|c IH]; intros i coef E P.
  - left. exists coef. split; [reflexivity|]. intros k Hk. apply P. lia.
  - cbn [scale_rows]. cbv zeta. destruct (row_biggest_spec n a i) as [B0 B].
    destruct (req_spec (row_biggest n a i) 0) as [Z|Z].
    + right. split; [reflexivity|]. exists i. split; [lia|]. now apply B.
    + apply IH; [lia|]. intros k Hk. destruct (Nat.eq_dec k i) as [->|N].
      * rewrite upd_eq. apply Rdiv_lt_0_compat; lra.
      * rewrite upd_neq by exact N. apply P. lia.
Qed.

(** * the invariant of the decomposition *)
(** product of the unit lower and the upper triangle stored in a, column c, row i *)
Definition lu_prod (a : mat) (i c : nat) : R :=
  if (i <=? c)%nat then sumn i (fun k => a i k * a k c) + a i c
  else sumn (S c) (fun k => a i k * a k c).

(** the upper part of column j *)
Lemma upper_part_spec j a : let a' := upper_part j a in
  (forall r c, c <> j \/ (j <= r)%nat -> a' r c = a r c) /\
  (forall i, (i < j)%nat -> a i j = sumn i (fun k => a' i k * a' k j) + a' i j).
Proof.
  cbv zeta. unfold upper_part.
  pose proof (for_inv (fun m a' => (forall r c, c <> j \/ (m <= r)%nat -> a' r c = a r c) /\
    (forall i, (i < m)%nat -> a i j = sumn i (fun k => a' i k * a' k j) + a' i j))
    (fun i a => mset a i j (reduced a i i j)) j 0 a) as H. cbn [Nat.add] in H. apply H; clear H.
  - split; [reflexivity|]. intros i Hi. lia.
  - intros m x Hm [I1 I2]. rewrite reduced_eq. split.
    + intros r c Hrc. rewrite mset_neq by (destruct Hrc; [right; assumption|left; lia]). apply I1. destruct Hrc; [left; assumption|right; lia].
    + intros i Hi. destruct (Nat.eq_dec i m) as [->|N].
      * rewrite mset_eq.
        rewrite (sumn_ext m (fun k => mset x m j _ m k * mset x m j _ k j) (fun k => x m k * x k j)).
        -- rewrite (I1 m j) by (right; lia). lra.
        -- intros k Hk. rewrite !mset_neq by (try (left; lia); right; lia). reflexivity.
      * rewrite (I2 i) by lia. rewrite mset_neq by (left; exact N). f_equal. apply sumn_ext.
        intros k Hk. rewrite !mset_neq by (left; lia). reflexivity.
Qed.

(** the lower part of column j and the choice of the pivot *)
Lemma lower_part_spec n j coef a : (j < n)%nat -> (forall k, (k < n)%nat -> 0 < coef k) ->
  let '(a', big, imax) := lower_part n j coef a in
  (j <= imax < n)%nat /\
  (forall r c, c <> j \/ (r < j)%nat -> a' r c = a r c) /\
  (forall i, (j <= i < n)%nat -> a i j = sumn j (fun k => a' i k * a' k j) + a' i j) /\
  (a' imax j = 0 -> forall i, (j <= i < n)%nat -> a' i j = 0).
Proof.
  intros Hj CP. unfold lower_part.
  pose proof (for_inv (fun m (st : mat * R * nat) => let '(a', big, imax) := st in
    (j <= imax < n)%nat /\ (forall r c, c <> j \/ (r < j)%nat \/ (m <= r)%nat -> a' r c = a r c) /\
    (forall i, (j <= i < m)%nat -> a i j = sumn j (fun k => a' i k * a' k j) + a' i j) /\
    0 <= big /\ (forall i, (j <= i < m)%nat -> coef i * Rabs (a' i j) <= big) /\
    ((j < m)%nat -> big = coef imax * Rabs (a' imax j)) /\ ((imax < m)%nat \/ (m = j /\ big = 0)))
    (fun i st => let '(a, biggest, imax) := st in
       let sum := reduced a j i j in let a' := mset a i j sum in let temp := coef i * Rabs sum in
       if rle biggest temp then (a', temp, i) else (a', biggest, imax)) (n - j) j (a, 0, j)) as H.
  cbv beta in H. replace (j + (n - j))%nat with n in H by lia.
  destruct (for_ (n - j) j _ (a, 0, j)) as [[a' big] imax]. cbn iota in H.
  assert (HH : (j <= imax < n)%nat /\ (forall r c, c <> j \/ (r < j)%nat \/ (n <= r)%nat -> a' r c = a r c) /\
    (forall i, (j <= i < n)%nat -> a i j = sumn j (fun k => a' i k * a' k j) + a' i j) /\
    0 <= big /\ (forall i, (j <= i < n)%nat -> coef i * Rabs (a' i j) <= big) /\
    ((j < n)%nat -> big = coef imax * Rabs (a' imax j)) /\ ((imax < n)%nat \/ (n = j /\ big = 0))).
  { apply H; clear H.
    - split; [lia|]. split; [reflexivity|]. split; [intros i Hi; lia|]. split; [lra|]. split; [intros i Hi; lia|].
      split; [lia|]. right. split; reflexivity.
    - intros m [[x b] im] Hm (I1 & I2 & I3 & I4 & I5 & I6 & I7). cbv zeta. rewrite reduced_eq.
      set (sum := x m j - sumn j (fun k => x m k * x k j)).
      assert (J2 : forall r c, c <> j \/ (r < j)%nat \/ (S m <= r)%nat -> mset x m j sum r c = a r c).
      { intros r c Hrc. rewrite mset_neq by (destruct Hrc as [|[|]]; [right; assumption|left; lia|left; lia]).
        apply I2. destruct Hrc as [|[|]]; [now left|right; now left|right; right; lia]. }
      assert (J3 : forall i, (j <= i < S m)%nat -> a i j = sumn j (fun k => mset x m j sum i k * mset x m j sum k j) + mset x m j sum i j).
      { intros i Hi. rewrite (sumn_ext j (fun k => mset x m j sum i k * mset x m j sum k j) (fun k => x i k * x k j)).
        2:{ intros k Hk. rewrite (mset_neq x m j sum i k) by (right; lia). rewrite (mset_neq x m j sum k j) by (left; lia). reflexivity. }
        destruct (Nat.eq_dec i m) as [->|N].
        - rewrite mset_eq. unfold sum. rewrite (I2 m j) by (right; right; lia). lra.
        - rewrite mset_neq by (left; exact N). apply I3. lia. }
      assert (CM : 0 < coef m) by (apply CP; lia).
      pose proof (Rabs_pos sum) as PS.
      destruct (rle_spec b (coef m * Rabs sum)) as [L|L].
      + split; [lia|]. split; [exact J2|]. split; [exact J3|]. split; [nra|]. split.
        * intros i Hi. destruct (Nat.eq_dec i m) as [->|N]; [rewrite mset_eq; lra|].
          rewrite mset_neq by (left; exact N). specialize (I5 i). assert (j <= i < m)%nat as Hi' by lia. specialize (I5 Hi'). lra.
        * split; [intros _; now rewrite mset_eq|]. left. lia.
      + split; [lia|]. split; [exact J2|]. split; [exact J3|]. split; [lra|]. 
        assert (IM : (im < m)%nat).
        { destruct I7 as [I7|[I7 I8]]; [exact I7|]. assert (0 <= coef m * Rabs sum) by (apply Rmult_le_pos; lra). lra. }
        split.
        * intros i Hi. destruct (Nat.eq_dec i m) as [->|N]; [rewrite mset_eq; lra|].
          rewrite mset_neq by (left; exact N). apply I5. lia.
        * split; [|left; lia].
          intros _. rewrite mset_neq by (left; lia). apply I6. lia. }
  clear H. destruct HH as (I1 & I2 & I3 & I4 & I5 & I6 & I7). split; [exact I1|]. split.
  { intros r c Hrc. apply I2. tauto. }
  split; [exact I3|]. intros Z i Hi. specialize (I6 Hj). rewrite Z, Rabs_R0, Rmult_0_r in I6. specialize (I5 i Hi).
  assert (CI : 0 < coef i) by (apply CP; lia). pose proof (Rabs_pos (a' i j)) as PA.
  destruct (Req_dec (a' i j) 0) as [W|W]; [exact W|]. apply Rabs_pos_lt in W. nra.
Qed.

(** * row swaps *)
Definition tr (r s k : nat) : nat := if Nat.eqb k r then s else if Nat.eqb k s then r else k.
Lemma tr_invol r s k : tr r s (tr r s k) = k.
Proof. unfold tr. destruct (Nat.eqb_spec k r) as [E1|E1]; [|destruct (Nat.eqb_spec k s) as [E2|E2]];
  repeat (match goal with |- context [Nat.eqb ?x ?y] => destruct (Nat.eqb_spec x y) end); lia. Qed.
Lemma tr_lt r s k n : (r < n)%nat -> (s < n)%nat -> (k < n)%nat -> (tr r s k < n)%nat.
Proof. unfold tr. destruct (Nat.eqb_spec k r), (Nat.eqb_spec k s); lia. Qed.
Lemma tr_ge r s k j : (j <= r)%nat -> (j <= s)%nat -> (j <= k)%nat -> (j <= tr r s k)%nat.
Proof. unfold tr. destruct (Nat.eqb_spec k r), (Nat.eqb_spec k s); lia. Qed.
Lemma tr_small r s k j : (j <= r)%nat -> (j <= s)%nat -> (k < j)%nat -> tr r s k = k.
Proof. unfold tr. destruct (Nat.eqb_spec k r), (Nat.eqb_spec k s); lia. Qed.
Lemma tr_same r k : tr r r k = k.
Proof. unfold tr. destruct (Nat.eqb_spec k r); congruence. Qed.
Lemma swap_rows_spec n r s a k c : r <> s -> (c < n)%nat -> swap_rows n r s a k c = a (tr r s k) c.
Proof.
  intros N Hc. unfold swap_rows.
  pose proof (for_inv (fun m (x : mat) => forall k c, x k c = if (c <? m)%nat then a (tr r s k) c else a k c)
    (fun i x => let temp := x r i in mset (mset x r i (x s i)) s i temp) n 0 a) as H. cbn [Nat.add] in H.
  rewrite H; clear H.
  - destruct (Nat.ltb_spec c n); [reflexivity|lia].
  - intros k' c'. destruct (Nat.ltb_spec c' 0); [lia|reflexivity].
  - intros m x Hm I k' c'. cbv zeta.
    destruct (Nat.ltb_spec c' (S m)).
    + destruct (Nat.eq_dec c' m) as [->|Nc].
      * unfold tr. destruct (Nat.eqb_spec k' r) as [->|Nr].
        -- rewrite mset_neq by (left; exact N). rewrite mset_eq, I. destruct (Nat.ltb_spec m m); [lia|reflexivity].
        -- destruct (Nat.eqb_spec k' s) as [->|Ns].
           ++ rewrite mset_eq, I. destruct (Nat.ltb_spec m m); [lia|reflexivity].
           ++ rewrite !mset_neq by (left; assumption). rewrite I. destruct (Nat.ltb_spec m m); [lia|reflexivity].
      * rewrite !mset_neq by (right; exact Nc). rewrite I. destruct (Nat.ltb_spec c' m); [reflexivity|lia].
    + rewrite !mset_neq by (right; lia). rewrite I. destruct (Nat.ltb_spec c' m); [lia|reflexivity].
Qed.
Lemma scale_below_spec n j a r c : (j < n)%nat -> (r < n)%nat -> scale_below n j a r c =
  if Nat.eqb c j && (j <? r)%nat then a r j / a j j else a r c.
Proof.
  intros Hj Hr. unfold scale_below. cbv zeta. set (t := 1 / a j j).
  pose proof (for_inv (fun m (x : mat) => forall r c, x r c =
      if Nat.eqb c j && (j <? r)%nat && (r <? m)%nat then a r j * t else a r c)
    (fun i x => mset x i j (x i j * t)) (n - S j) (S j) a) as H.
  replace (S j + (n - S j))%nat with n in H by lia. rewrite H; clear H.
  - destruct (Nat.ltb_spec r n); [|lia]. rewrite andb_true_r. destruct (Nat.eqb c j && (j <? r)%nat)%bool; [|reflexivity].
    unfold t, Rdiv. lra.
  - intros r' c'. destruct (Nat.ltb_spec j r'), (Nat.ltb_spec r' (S j)); cbn; rewrite ?andb_false_r; try reflexivity. lia.
  - intros m x Hm I r' c'. destruct (Nat.eq_dec r' m) as [->|Nr].
    + destruct (Nat.eq_dec c' j) as [->|Nc].
      * rewrite mset_eq, I. rewrite Nat.eqb_refl. destruct (Nat.ltb_spec j m); [|lia].
        destruct (Nat.ltb_spec m m); [lia|]. destruct (Nat.ltb_spec m (S m)); [|lia]. cbn. reflexivity.
      * rewrite mset_neq by (right; exact Nc). rewrite I. destruct (Nat.eqb_spec c' j); [congruence|reflexivity].
    + rewrite mset_neq by (left; exact Nr). rewrite I.
      replace (r' <? S m)%nat with (r' <? m)%nat; [reflexivity|].
      destruct (Nat.ltb_spec r' m), (Nat.ltb_spec r' (S m)); lia.
Qed.

Lemma lu_prod_ext a a' i c : (forall r k, (k <= c)%nat -> a r k = a' r k) -> lu_prod a i c = lu_prod a' i c.
Proof.
  intros H. unfold lu_prod. destruct (Nat.leb_spec i c) as [L|L].
  - rewrite (H i c) by lia. f_equal. apply sumn_ext. intros k Hk. rewrite (H i k), (H k c) by lia. reflexivity.
  - apply sumn_ext. intros k Hk. rewrite (H i k), (H k c) by lia. reflexivity.
Qed.
Lemma lu_prod_swap a r s j i c : (j <= r)%nat -> (j <= s)%nat -> (c < j)%nat ->
  lu_prod (fun k => a (tr r s k)) i c = lu_prod a (tr r s i) c.
Proof.
  intros Hr Hs Hc. destruct (Nat.ltb_spec i j) as [L|L].
  - rewrite (tr_small r s i j) by assumption. unfold lu_prod. rewrite (tr_small r s i j) by assumption.
    destruct (Nat.leb_spec i c).
    + f_equal. apply sumn_ext. intros k Hk. rewrite (tr_small r s k j) by lia. reflexivity.
    + apply sumn_ext. intros k Hk. rewrite (tr_small r s k j) by lia. reflexivity.
  - pose proof (tr_ge r s i j Hr Hs L) as G. unfold lu_prod.
    destruct (Nat.leb_spec i c); [lia|]. destruct (Nat.leb_spec (tr r s i) c); [lia|].
    apply sumn_ext. intros k Hk. rewrite (tr_small r s k j) by lia. reflexivity.
Qed.

Record inv (n j : nat) (a A : mat) : Prop := mkInv {
  inv_done : forall i c, (i < n)%nat -> (c < j)%nat -> A i c = lu_prod a i c;
  inv_todo : forall i c, (i < n)%nat -> (j <= c < n)%nat -> a i c = A i c;
  inv_diag : forall k, (k < j)%nat -> a k k <> 0 }.

(** the column j of the matrix depends on the columns before it *)
Definition dependent (n j : nat) (A : mat) : Prop :=
  exists x : vec, x j = 1 /\ (forall k, (j < k)%nat -> x k = 0) /\
    forall i, (i < n)%nat -> sumn n (fun k => A i k * x k) = 0.

(** * back substitution *)
Lemma backward_keep m : forall n a b k, (m <= k)%nat -> backward m n a b k = b k.
Proof.
  induction m as [|m IH]; intros n a b k H; [reflexivity|]. cbn [backward]. cbv zeta. rewrite IH by lia.
  apply upd_neq. lia.
Qed.
Lemma backward_spec m : forall n a b, (m <= n)%nat -> (forall k, (k < m)%nat -> a k k <> 0) ->
  let x := backward m n a b in
  forall i, (i < m)%nat -> a i i * x i + sumn (n - S i) (fun j => a i (S i + j)%nat * x (S i + j)%nat) = b i.
Proof.
  induction m as [|m IH]; intros n a b Hm D; cbv zeta; [intros i Hi; lia|].
  intros i Hi. cbn [backward]. cbv zeta. rewrite (for_sub (fun j => a m j * b j)).
  set (b' := upd b m _). destruct (Nat.eq_dec i m) as [->|N].
  - rewrite backward_keep by lia. unfold b' at 1. rewrite upd_eq.
    rewrite (sumn_ext _ (fun j => a m (S m + j)%nat * backward m n a b' (S m + j)%nat) (fun j => a m (S m + j)%nat * b (S m + j)%nat)).
    + assert (Dm : a m m <> 0) by (apply D; lia). field_simplify; [lra|exact Dm].
    + intros j Hj. rewrite backward_keep by lia. unfold b'. rewrite upd_neq by lia. reflexivity.
  - specialize (IH n a b'). cbv zeta in IH. rewrite IH; [|lia|intros k Hk; apply D; lia|lia].
    unfold b'. apply upd_neq. exact N.
Qed.

(** splitting a sum at an index *)
Lemma sumn_split n i f : (i < n)%nat -> sumn n f = sumn i f + f i + sumn (n - S i) (fun k => f (S i + k)%nat).
Proof.
  intros H. replace n with (i + (1 + (n - S i)))%nat at 1 by lia. rewrite !sumn_app. cbn [sumn].
  replace (i + 0)%nat with i by lia.
  rewrite (sumn_ext (n - S i) (fun k => f (i + (1 + k))%nat) (fun k => f (S i + k)%nat)); [lra|].
  intros k Hk. f_equal. lia.
Qed.
Lemma sumn_tail n m f : (m <= n)%nat -> (forall k, (m <= k < n)%nat -> f k = 0) -> sumn n f = sumn m f.
Proof.
  intros H Z. replace n with (m + (n - m))%nat at 1 by lia. rewrite sumn_app.
  rewrite (sumn_0 (n - m)); [lra|]. intros k Hk. apply Z. lia.
Qed.
(** row i of (LU) x, when the entries of x beyond j are irrelevant: L (U x) *)
Definition ux (n : nat) (a : mat) (x : vec) (k : nat) : R := sumn n (fun c => (if (k <=? c)%nat then a k c else 0) * x c).
Lemma lu_prod_as_sum a i c m : (i < m)%nat -> (c < m)%nat ->
  lu_prod a i c = sumn m (fun k => (if (k <? i)%nat then a i k else if Nat.eqb k i then 1 else 0) * (if (k <=? c)%nat then a k c else 0)).
Proof.
  intros Hi Hc. unfold lu_prod. destruct (Nat.leb_spec i c) as [L|L].
  - rewrite (sumn_split m i) by exact Hi. rewrite Nat.ltb_irrefl, Nat.eqb_refl.
    destruct (Nat.leb_spec i c); [|lia]. rewrite (sumn_0 (m - S i)).
    + rewrite (sumn_ext i (fun k => (if (k <? i)%nat then a i k else if Nat.eqb k i then 1 else 0) * (if (k <=? c)%nat then a k c else 0))
        (fun k => a i k * a k c)); [lra|].
      intros k Hk. destruct (Nat.ltb_spec k i); [|lia]. destruct (Nat.leb_spec k c); [reflexivity|lia].
    + intros k Hk. destruct (Nat.ltb_spec (S i + k) i); [lia|]. destruct (Nat.eqb_spec (S i + k) i); [lia|]. lra.
  - rewrite (sumn_tail m (S c)); [|lia|].
    + apply sumn_ext. intros k Hk. destruct (Nat.ltb_spec k i); [|lia]. destruct (Nat.leb_spec k c); [reflexivity|lia].
    + intros k Hk. destruct (Nat.leb_spec k c); [lia|]. lra.
Qed.
Lemma lu_apply n a x i : (i < n)%nat ->
  sumn n (fun c => lu_prod a i c * x c) = sumn i (fun k => a i k * ux n a x k) + ux n a x i.
Proof.
  intros Hi.
  rewrite (sumn_ext n (fun c => lu_prod a i c * x c)
    (fun c => sumn n (fun k => (if (k <? i)%nat then a i k else if Nat.eqb k i then 1 else 0) * ((if (k <=? c)%nat then a k c else 0) * x c)))).
  - rewrite sumn_swap.
    rewrite (sumn_ext n _ (fun k => (if (k <? i)%nat then a i k else if Nat.eqb k i then 1 else 0) * ux n a x k)).
    + rewrite (sumn_split n i) by exact Hi. rewrite Nat.ltb_irrefl, Nat.eqb_refl. rewrite (sumn_0 (n - S i)).
      * rewrite (sumn_ext i _ (fun k => a i k * ux n a x k)); [lra|]. intros k Hk. destruct (Nat.ltb_spec k i); [reflexivity|lia].
      * intros k Hk. destruct (Nat.ltb_spec (S i + k) i); [lia|]. destruct (Nat.eqb_spec (S i + k) i); [lia|]. lra.
    + intros k Hk. unfold ux. now rewrite <- sumn_scal.
  - intros c Hc. rewrite (lu_prod_as_sum a i c n) by assumption. rewrite <- sumn_scal_r. apply sumn_ext. intros k Hk. ring.
Qed.
Lemma ux_eq n a x k : (k < n)%nat -> ux n a x k = a k k * x k + sumn (n - S k) (fun j => a k (S k + j)%nat * x (S k + j)%nat).
Proof.
  intros H. unfold ux. rewrite (sumn_split n k) by exact H. rewrite Nat.leb_refl. rewrite (sumn_0 k).
  - rewrite (sumn_ext (n - S k) _ (fun j => a k (S k + j)%nat * x (S k + j)%nat)); [lra|].
    intros j Hj. destruct (Nat.leb_spec k (S k + j)); [reflexivity|lia].
  - intros c Hc. destruct (Nat.leb_spec k c); [lia|]. lra.
Qed.

(** * one column *)
Lemma lu_column_spec n j (a : mat) (coef : vec) (index : nat -> nat) (A : mat) : (j < n)%nat -> (forall k, (k < n)%nat -> 0 < coef k) -> inv n j a A ->
  (exists a' coef' imax, lu_column n j (a, coef, index) = Ok (a', coef', upd index j imax) /\ (j <= imax < n)%nat /\
     (forall k, (k < n)%nat -> 0 < coef' k) /\ inv n (S j) a' (fun i => A (tr imax j i))) \/
  (lu_column n j (a, coef, index) = Throw /\ dependent n j A).
Proof.
  intros Hj CP [I1 I2 I3]. unfold lu_column.
  pose proof (upper_part_spec j a) as U. cbv zeta in U. set (a1 := upper_part j a) in *. destruct U as [U1 U2].
  pose proof (lower_part_spec n j coef a1 Hj CP) as L.
  destruct (lower_part n j coef a1) as [[a2 big] imax]. destruct L as (M & L1 & L2 & L3). cbv beta iota zeta.
  (* facts about a2 *)
  assert (E : forall r c, c <> j -> a2 r c = a r c) by (intros r c Hc; rewrite L1, U1 by (left; exact Hc); reflexivity).
  assert (F1 : forall i c, (i < n)%nat -> (c < j)%nat -> A i c = lu_prod a2 i c).
  { intros i c Hi Hc. rewrite I1 by assumption. apply lu_prod_ext. intros r k Hk. symmetry. apply E. lia. }
  assert (F2 : forall i c, (i < n)%nat -> (S j <= c < n)%nat -> a2 i c = A i c).
  { intros i c Hi Hc. rewrite E by lia. apply I2; lia. }
  assert (F3 : forall k, (k < j)%nat -> a2 k k <> 0) by (intros k Hk; rewrite E by lia; now apply I3).
  assert (F4 : forall i, (i < j)%nat -> A i j = sumn i (fun k => a2 i k * a2 k j) + a2 i j).
  { intros i Hi. rewrite <- (I2 i j) by lia. rewrite U2 by exact Hi. rewrite (L1 i j) by (right; exact Hi).
    f_equal. apply sumn_ext. intros k Hk. rewrite (L1 i k), (L1 k j) by (right; lia). reflexivity. }
  assert (F5 : forall i, (j <= i < n)%nat -> A i j = sumn j (fun k => a2 i k * a2 k j) + a2 i j).
  { intros i Hi. rewrite <- (I2 i j) by lia. rewrite <- (U1 i j) by (right; lia). apply L2. exact Hi. }
  clear U1 U2 L1 L2 E. clearbody a1. clear a1.
  (* swap *)
  match goal with |- context [if Nat.eqb j imax then ?x else ?y] => set (st := if Nat.eqb j imax then x else y) end.
  set (T := tr imax j). set (B := fun i => A (T i)).
  assert (ST : exists a3 coef', st = (a3, coef') /\ (forall k, (k < n)%nat -> 0 < coef' k) /\
    forall k c, (c < n)%nat -> a3 k c = a2 (T k) c).
  { unfold st, T. destruct (Nat.eqb_spec j imax) as [<-|N].
    - exists a2, coef. split; [reflexivity|]. split; [exact CP|]. intros k c Hc. now rewrite tr_same.
    - exists (swap_rows n imax j a2), (upd coef imax (coef j)). split; [reflexivity|]. split.
      + intros k Hk. destruct (Nat.eq_dec k imax) as [->|Nk]; [rewrite upd_eq; now apply CP|rewrite upd_neq by exact Nk; now apply CP].
      + intros k c Hc. apply swap_rows_spec; [congruence|exact Hc]. }
  destruct ST as (a3 & coef' & ES & CP' & SW). rewrite ES. clear ES st.
  assert (TJ : T j = imax).
  { unfold T, tr. destruct (Nat.eqb_spec j imax); [assumption|]. now rewrite Nat.eqb_refl. }
  assert (TL : forall k, (k < n)%nat -> (T k < n)%nat) by (intros k Hk; apply tr_lt; lia).
  assert (TS : forall k, (k < j)%nat -> T k = k) by (intros k Hk; apply (tr_small imax j k j); lia).
  assert (TG : forall k, (j <= k)%nat -> (j <= T k)%nat) by (intros k Hk; apply tr_ge; lia).
  assert (PJ : a3 j j = a2 imax j) by (rewrite SW by exact Hj; now rewrite TJ).
  destruct (req_spec (a3 j j) 0) as [Z|Z].
  - (* singular *)
    right. split; [reflexivity|]. rewrite PJ in Z. specialize (L3 Z).
    (* solve U x = -u for the columns before j *)
    set (y := backward j j a2 (fun k => - a2 k j)).
    set (x := fun k => if (k <? j)%nat then y k else if Nat.eqb k j then 1 else 0).
    exists x. split; [unfold x; now rewrite Nat.ltb_irrefl, Nat.eqb_refl|]. split.
    { intros k Hk. unfold x. destruct (Nat.ltb_spec k j); [lia|]. destruct (Nat.eqb_spec k j); [lia|reflexivity]. }
    assert (UX : forall k, (k < j)%nat -> ux (S j) a2 x k = 0).
    { intros k Hk. rewrite ux_eq by lia.
      pose proof (backward_spec j j a2 (fun k => - a2 k j) (le_n j) F3 k Hk) as BS. cbv zeta in BS. fold y in BS.
      assert (Xk : x k = y k) by (unfold x; destruct (Nat.ltb_spec k j); [reflexivity|lia]). rewrite Xk.
      replace (S j - S k)%nat with (S (j - S k)) by lia. cbn [sumn].
      replace (S k + (j - S k))%nat with j by lia.
      assert (Xj : x j = 1) by (unfold x; now rewrite Nat.ltb_irrefl, Nat.eqb_refl). rewrite Xj.
      rewrite (sumn_ext (j - S k) (fun i => a2 k (S k + i)%nat * x (S k + i)%nat) (fun i => a2 k (S k + i)%nat * y (S k + i)%nat)); [lra|].
      intros i Hi. unfold x. destruct (Nat.ltb_spec (S k + i) j); [reflexivity|lia]. }
    intros i Hi.
    rewrite (sumn_tail n (S j)); [|lia|].
    2:{ intros k Hk. unfold x. destruct (Nat.ltb_spec k j); [lia|]. destruct (Nat.eqb_spec k j); [lia|]. lra. }
    (* A i c = lu_prod of the (S j)-wide part, where the reduced part of column j vanishes *)
    destruct (Nat.ltb_spec i j) as [Li|Li].
    + rewrite (sumn_ext (S j) _ (fun c => lu_prod a2 i c * x c)).
      * rewrite lu_apply by lia. rewrite UX by exact Li. rewrite sumn_0; [lra|]. intros k Hk. rewrite UX by lia. lra.
      * intros c Hc. f_equal. destruct (Nat.eq_dec c j) as [->|Nc]; [|apply F1; lia].
        rewrite F4 by exact Li. unfold lu_prod. destruct (Nat.leb_spec i j); [reflexivity|lia].
    + (* row i >= j: only the first j factors *)
      rewrite (sumn_ext (S j) _ (fun c => sumn j (fun k => a2 i k * ((if (k <=? c)%nat then a2 k c else 0) * x c)))).
      * rewrite sumn_swap. apply sumn_0. intros k Hk.
        rewrite (sumn_scal (S j) (a2 i k) (fun c => (if (k <=? c)%nat then a2 k c else 0) * x c)).
        fold (ux (S j) a2 x k). rewrite UX by exact Hk. lra.
      * intros c Hc. destruct (Nat.eq_dec c j) as [->|Nc].
        -- rewrite F5 by lia. rewrite (L3 i) by lia. rewrite Rplus_0_r, <- sumn_scal_r. apply sumn_ext. intros k Hk.
           destruct (Nat.leb_spec k j); [ring|lia].
        -- rewrite F1 by lia. unfold lu_prod. destruct (Nat.leb_spec i c); [lia|].
           rewrite <- sumn_scal_r. rewrite (sumn_tail j (S c)).
           ++ apply sumn_ext. intros k Hk. destruct (Nat.leb_spec k c); [ring|lia].
           ++ lia.
           ++ intros k Hk. destruct (Nat.leb_spec k c); [lia|]. ring.
  - left. exists (scale_below n j a3), coef', imax. split; [reflexivity|]. split; [exact M|]. split; [exact CP'|].
    assert (G1 : forall i c, (i < n)%nat -> (c < j)%nat -> B i c = lu_prod a3 i c).
    { intros i c Hi Hc. unfold B. rewrite F1 by (auto; apply TL; exact Hi). unfold T.
      rewrite <- (lu_prod_swap a2 imax j j i c) by lia. apply lu_prod_ext. intros r k Hk. rewrite SW by lia. reflexivity. }
    assert (G2 : forall i c, (i < n)%nat -> (S j <= c < n)%nat -> a3 i c = B i c).
    { intros i c Hi Hc. rewrite SW by lia. unfold B. apply F2; [now apply TL|exact Hc]. }
    assert (G3 : forall k, (k < j)%nat -> a3 k k <> 0).
    { intros k Hk. rewrite SW by lia. rewrite TS by exact Hk. now apply F3. }
    assert (G4 : forall i, (i < j)%nat -> B i j = sumn i (fun k => a3 i k * a3 k j) + a3 i j).
    { intros i Hi. unfold B. rewrite TS by exact Hi. rewrite F4 by exact Hi. rewrite (SW i j) by lia. rewrite TS by exact Hi.
      f_equal. apply sumn_ext. intros k Hk. rewrite !SW by lia. rewrite !TS by lia. reflexivity. }
    assert (G5 : forall i, (j <= i < n)%nat -> B i j = sumn j (fun k => a3 i k * a3 k j) + a3 i j).
    { intros i Hi. unfold B. rewrite F5 by (split; [apply TG; lia|apply TL; lia]). rewrite (SW i j) by lia.
      f_equal. apply sumn_ext. intros k Hk. rewrite !SW by lia. rewrite (TS k) by lia. reflexivity. }
    set (a4 := scale_below n j a3).
    assert (S4 : forall r c, (r < n)%nat -> (c <> j \/ (r <= j)%nat) -> a4 r c = a3 r c).
    { intros r c Hr Hc. unfold a4. rewrite scale_below_spec by assumption.
      destruct (Nat.eqb_spec c j), (Nat.ltb_spec j r); cbn; try reflexivity. lia. }
    assert (S5 : forall r, (j < r < n)%nat -> a4 r j = a3 r j / a3 j j).
    { intros r Hr. unfold a4. rewrite scale_below_spec by lia. rewrite Nat.eqb_refl. destruct (Nat.ltb_spec j r); [reflexivity|lia]. }
    constructor.
    + intros i c Hi Hc. change (A (tr imax j i) c) with (B i c). clearbody B a4.
      destruct (Nat.eq_dec c j) as [->|Nc].
      * unfold lu_prod. destruct (Nat.leb_spec i j) as [Lij|Lij].
        -- rewrite (S4 i j) by (try right; lia).
           rewrite (sumn_ext i (fun k => a4 i k * a4 k j) (fun k => a3 i k * a3 k j)).
           ++ destruct (Nat.eq_dec i j) as [->|Nij]; [apply G5; lia|apply G4; lia].
           ++ intros k Hk. rewrite (S4 i k) by (try right; lia). rewrite (S4 k j) by (try right; lia). reflexivity.
        -- cbn [sumn]. rewrite S5 by lia. rewrite (S4 j j) by (try right; lia).
           rewrite (sumn_ext j (fun k => a4 i k * a4 k j) (fun k => a3 i k * a3 k j)).
           ++ rewrite G5 by lia. field. exact Z.
           ++ intros k Hk. rewrite (S4 i k) by (try left; lia). rewrite (S4 k j) by (try right; lia). reflexivity.
      * rewrite G1 by lia. unfold lu_prod. destruct (Nat.leb_spec i c).
        -- rewrite (S4 i c) by (try left; lia). f_equal. apply sumn_ext. intros k Hk.
           rewrite (S4 i k), (S4 k c) by (try left; lia). reflexivity.
        -- apply sumn_ext. intros k Hk. rewrite (S4 i k), (S4 k c) by (try left; lia). reflexivity.
    + intros i c Hi Hc. rewrite (S4 i c) by (try left; lia). apply G2; lia.
    + intros k Hk. rewrite (S4 k k) by (try right; lia). destruct (Nat.eq_dec k j) as [->|Nk]; [exact Z|apply G3; lia].
Qed.

(** * all columns *)
Fixpoint perm (index : nat -> nat) (j : nat) (k : nat) : nat :=
  match j with O => k | S m => perm index m (tr (index m) m k) end.
Lemma perm_ext index index' j : (forall m, (m < j)%nat -> index m = index' m) -> forall k, perm index j k = perm index' j k.
Proof.
  induction j as [|j IH]; intros E k; [reflexivity|]. cbn [perm]. rewrite E by lia. apply IH. intros m Hm. apply E. lia.
Qed.
Definition good_index (n j : nat) (index : nat -> nat) : Prop := forall m, (m < j)%nat -> (m <= index m < n)%nat.
Lemma perm_onto index n j : (j <= n)%nat -> good_index n j index -> forall i, (i < n)%nat -> exists k, (k < n)%nat /\ perm index j k = i.
Proof.
  induction j as [|j IH]; intros Hj G i Hi; [exists i; auto|].
  destruct (IH ltac:(lia) (fun m Hm => G m ltac:(lia)) i Hi) as (k & Hk & E).
  exists (tr (index j) j k). cbn [perm]. rewrite tr_invol. split; [|exact E].
  apply tr_lt; [apply G; lia|lia|exact Hk].
Qed.
Lemma inv_ext n j a A A' : (forall i c, A i c = A' i c) -> inv n j a A -> inv n j a A'.
Proof.
  intros E [I1 I2 I3]. constructor.
  - intros i c Hi Hc. rewrite <- E. now apply I1.
  - intros i c Hi Hc. rewrite <- E. now apply I2.
  - exact I3.
Qed.
Lemma dependent_perm n c A index j : (j <= n)%nat -> good_index n j index ->
  dependent n c (fun i => A (perm index j i)) -> dependent n c A.
Proof.
  intros Hj G (x & X1 & X2 & X3). exists x. split; [exact X1|]. split; [exact X2|]. intros i Hi.
  destruct (perm_onto index n j Hj G i Hi) as (k & Hk & E). specialize (X3 k Hk). cbv beta in X3. now rewrite E in X3.
Qed.
Lemma lu_columns_spec n A : forall count j (a : mat) (coef : vec) (index : nat -> nat), (j + count = n)%nat ->
  (forall k, (k < n)%nat -> 0 < coef k) -> good_index n j index -> inv n j a (fun i => A (perm index j i)) ->
  (exists a' coef' index', lu_columns count j n (a, coef, index) = Ok (a', coef', index') /\
     good_index n n index' /\ inv n n a' (fun i => A (perm index' n i))) \/
  (lu_columns count j n (a, coef, index) = Throw /\ exists c, (c < n)%nat /\ dependent n c A).
Proof.
  induction count as [|count IH]; intros j a coef index E CP G I.
  - left. assert (j = n) by lia. subst j. exists a, coef, index. auto.
  - cbn [lu_columns].
    destruct (lu_column_spec n j a coef index _ ltac:(lia) CP I) as [(a' & coef' & imax & E1 & M & CP' & I')|(E1 & D)].
    + rewrite E1. cbn [bind]. apply IH.
      * lia.
      * exact CP'.
      * intros m Hm. destruct (Nat.eq_dec m j) as [->|N]; [rewrite upd_eq; lia|rewrite upd_neq by exact N; apply G; lia].
      * apply inv_ext with (2 := I'). intros i c. cbn [perm]. rewrite upd_eq.
        rewrite (perm_ext (upd index j imax) index j); [reflexivity|]. intros m Hm. apply upd_neq. lia.
    + right. rewrite E1. split; [reflexivity|]. exists j. split; [lia|]. apply (dependent_perm n j A index j); auto. lia.
Qed.

(** * the two substitutions *)
Lemma forward_spec n a index b : good_index n n index ->
  let y := forward n a index b in
  forall i, (i < n)%nat -> sumn i (fun k => a i k * y k) + y i = b (perm index n i).
Proof.
  intros G. cbv zeta. unfold forward.
  pose proof (for_inv (fun m (st : vec * bool * nat) => let '(x, nz, mark) := st in
    (forall k, (m <= k)%nat -> x k = b (perm index m k)) /\
    (forall k, (k < m)%nat -> sumn k (fun c => a k c * x c) + x k = b (perm index m k)) /\
    (if nz then (mark < m)%nat /\ (forall k, (k < mark)%nat -> x k = 0) else forall k, (k < m)%nat -> x k = 0))
    (forward_step a index) n 0 (b, false, 0%nat)) as H. cbn [Nat.add] in H.
  destruct (for_ n 0 (forward_step a index) (b, false, 0%nat)) as [[x nz] mark]. cbn [fst].
  assert (HH : (forall k, (n <= k)%nat -> x k = b (perm index n k)) /\
    (forall k, (k < n)%nat -> sumn k (fun c => a k c * x c) + x k = b (perm index n k)) /\
    (if nz then (mark < n)%nat /\ (forall k, (k < mark)%nat -> x k = 0) else forall k, (k < n)%nat -> x k = 0)).
  { apply H; clear H x nz mark.
    - split; [reflexivity|]. split; intros k Hk; lia.
    - intros m [[x nz] mark] Hm (I1 & I2 & I3). unfold forward_step.
      assert (Gm : (m <= index m < n)%nat) by (apply G; lia).
      set (ip := index m) in *.
      assert (SUM : x ip = b (perm index (S m) m)).
      { rewrite I1 by lia. cbn [perm]. fold ip. f_equal. f_equal. unfold tr. destruct (Nat.eqb_spec m ip); [congruence|].
        now rewrite Nat.eqb_refl. }
      set (x1 := upd x ip (x m)).
      assert (X1 : forall k, (k < m)%nat -> x1 k = x k) by (intros k Hk; unfold x1; apply upd_neq; lia).
      assert (K1 : forall v k, (S m <= k)%nat -> upd x1 m v k = b (perm index (S m) k)).
      { intros v k Hk. rewrite upd_neq by lia. cbn [perm]. fold ip. unfold x1, tr. destruct (Nat.eqb_spec k ip) as [->|N].
        - rewrite upd_eq. apply I1. lia.
        - rewrite upd_neq by exact N. destruct (Nat.eqb_spec k m); [lia|]. apply I1. lia. }
      assert (PS : forall k, (k < m)%nat -> perm index (S m) k = perm index m k).
      { intros k Hk. cbn [perm]. fold ip. rewrite (tr_small ip m k m) by lia. reflexivity. }
      assert (K2 : forall v, v = x ip - sumn m (fun c => a m c * x c) ->
         forall k, (k < S m)%nat -> sumn k (fun c => a k c * upd x1 m v c) + upd x1 m v k = b (perm index (S m) k)).
      { intros v Hv k Hk.
        rewrite (sumn_ext k (fun c => a k c * upd x1 m v c) (fun c => a k c * x c)) by
          (intros c Hc; rewrite upd_neq by lia; rewrite X1 by lia; reflexivity).
        destruct (Nat.eq_dec k m) as [->|N].
        - rewrite upd_eq, <- SUM, Hv. lra.
        - rewrite upd_neq by exact N. rewrite X1, PS by lia. apply I2. lia. }
      cbv zeta. destruct nz.
      + destruct I3 as [I3 I4].
        assert (V : for_ (m - mark) mark (fun j s => s - a m j * x1 j) (x ip) = x ip - sumn m (fun c => a m c * x c)).
        { rewrite (for_sub (fun j => a m j * x1 j)). f_equal.
          assert (SP : sumn m (fun c => a m c * x c) = sumn mark (fun c => a m c * x c) + sumn (m - mark) (fun i => a m (mark + i)%nat * x (mark + i)%nat)).
          { rewrite <- (sumn_app mark (m - mark) (fun c => a m c * x c)). f_equal. lia. }
          rewrite SP. rewrite (sumn_0 mark).
          - rewrite Rplus_0_l. apply sumn_ext. intros i Hi. rewrite X1 by lia. reflexivity.
          - intros c Hc. rewrite I4 by exact Hc. lra. }
        split; [apply K1|]. split; [now apply K2|]. split; [lia|].
        intros k Hk. rewrite upd_neq by lia. rewrite X1 by lia. now apply I4.
      + assert (Z : sumn m (fun c => a m c * x c) = 0) by (apply sumn_0; intros c Hc; rewrite I3 by exact Hc; lra).
        destruct (req_spec (x ip) 0) as [E0|E0].
        * split; [apply K1|]. split; [apply K2; lra|]. intros k Hk. destruct (Nat.eq_dec k m) as [->|N].
          -- now rewrite upd_eq.
          -- rewrite upd_neq by exact N. rewrite X1 by lia. apply I3. lia.
        * split; [apply K1|]. split; [apply K2; lra|]. split; [lia|].
          intros k Hk. rewrite upd_neq by lia. rewrite X1 by lia. now apply I3. }
  exact (proj1 (proj2 HH)).
Qed.

Lemma solve_spec n A a index b : good_index n n index -> inv n n a (fun i => A (perm index n i)) ->
  let x := solve_lu n a index b in forall i, (i < n)%nat -> sumn n (fun k => A i k * x k) = b i.
Proof.
  intros G [I1 I2 I3]. cbv zeta. unfold solve_lu. set (y := forward n a index b). set (x := backward n n a y).
  assert (UX : forall k, (k < n)%nat -> ux n a x k = y k).
  { intros k Hk. rewrite ux_eq by exact Hk. unfold x. apply (backward_spec n n a y (le_n n) I3 k Hk). }
  intros i Hi. destruct (perm_onto index n n (le_n n) G i Hi) as (k & Hk & E). rewrite <- E.
  rewrite <- (forward_spec n a index b G k Hk). cbv zeta. fold y.
  rewrite (sumn_ext n _ (fun c => lu_prod a k c * x c)) by (intros c Hc; rewrite <- I1 by assumption; reflexivity).
  rewrite lu_apply by exact Hk. rewrite UX by exact Hk. f_equal. apply sumn_ext. intros c Hc. rewrite UX by lia. reflexivity.
Qed.
(** the factors are injective *)
Lemma lu_injective n A a index x : good_index n n index -> inv n n a (fun i => A (perm index n i)) ->
  (forall i, (i < n)%nat -> sumn n (fun k => A i k * x k) = 0) -> forall i, (i < n)%nat -> x i = 0.
Proof.
  intros G [I1 I2 I3] H.
  assert (PL : forall j k, (j <= n)%nat -> (k < n)%nat -> (perm index j k < n)%nat).
  { induction j as [|j IH]; intros k Hj Hk; [exact Hk|]. cbn [perm]. apply IH; [lia|]. apply tr_lt; [apply G; lia|lia|exact Hk]. }
  assert (L : forall i, (i < n)%nat -> sumn i (fun k => a i k * ux n a x k) + ux n a x i = 0).
  { intros i Hi. rewrite <- lu_apply by exact Hi.
    rewrite (sumn_ext n _ (fun c => A (perm index n i) c * x c)).
    - apply H. now apply PL.
    - intros c Hc. rewrite <- I1 by assumption. reflexivity. }
  assert (Y : forall m i, (i < m)%nat -> (i < n)%nat -> ux n a x i = 0).
  { induction m as [|m IH]; intros i Hm Hi; [lia|]. pose proof (L i Hi) as Li.
    rewrite sumn_0 in Li; [lra|]. intros k Hk. rewrite (IH k) by lia. lra. }
  assert (X : forall m i, (n - m <= i < n)%nat -> x i = 0).
  { induction m as [|m IH]; intros i Hi; [lia|]. pose proof (Y (S i) i ltac:(lia) ltac:(lia)) as Ui.
    rewrite ux_eq in Ui by lia. rewrite sumn_0 in Ui.
    - assert (D : a i i <> 0) by (apply I3; lia). rewrite Rplus_0_r in Ui. apply Rmult_integral in Ui. destruct Ui; [contradiction|assumption].
    - intros j Hj. rewrite (IH (S i + j)%nat) by lia. lra. }
  intros i Hi. apply (X n). lia.
Qed.

Lemma inv_start n A : inv n 0 A A.
Proof. constructor; [intros; lia|reflexivity|intros; lia]. Qed.
Lemma lu_decomposition_spec n coef0 index0 A :
  (exists a index, lu_decomposition n coef0 index0 A = Ok (a, index) /\ good_index n n index /\ inv n n a (fun i => A (perm index n i))) \/
  (lu_decomposition n coef0 index0 A = Throw /\
     ((exists r, (r < n)%nat /\ forall j, (j < n)%nat -> A r j = 0) \/ exists c, (c < n)%nat /\ dependent n c A)).
Proof.
  unfold lu_decomposition.
  destruct (scale_rows_ok n A n 0 coef0 eq_refl ltac:(intros; lia)) as [(coef & E & CP)|(E & R)]; rewrite E; cbn [bind].
  - destruct (lu_columns_spec n A n 0 A coef index0 eq_refl CP ltac:(intros m Hm; lia) (inv_start n A))
      as [(a' & coef' & index' & E' & G & I)|(E' & D)]; rewrite E'; cbn [bind].
    + left. exists a', index'. auto.
    + right. auto.
  - right. auto.
Qed.
Lemma inverse_assembly n (x : nat -> vec) inv0 :
  let B := for_ n 0 (fun i inverse => for_ n 0 (fun j inverse => mset inverse j i (x i j)) inverse) inv0 in
  forall j i, (j < n)%nat -> (i < n)%nat -> B j i = x i j.
Proof.
  cbv zeta.
  pose proof (for_inv (fun m (B : mat) => forall j i, (j < n)%nat -> (i < m)%nat -> B j i = x i j)
    (fun i inverse => for_ n 0 (fun j inverse => mset inverse j i (x i j)) inverse) n 0 inv0) as H. cbn [Nat.add] in H.
  intros j i Hj Hi. apply H; auto; clear H.
  - intros; lia.
  - intros m B Hm I j' i' Hj' Hi'.
    pose proof (for_inv (fun k (C : mat) => (forall j, (j < k)%nat -> C j m = x m j) /\ forall r c, c <> m -> C r c = B r c)
      (fun j inverse => mset inverse j m (x m j)) n 0 B) as H2. cbn [Nat.add] in H2.
    destruct H2 as [H2 H3].
    + split; [intros; lia|reflexivity].
    + intros k C Hk [J1 J2]. split.
      * intros q Hq. destruct (Nat.eq_dec q k) as [->|N]; [apply mset_eq|]. rewrite mset_neq by (left; exact N). apply J1. lia.
      * intros r c Hc. rewrite mset_neq by (right; exact Hc). now apply J2.
    + destruct (Nat.eq_dec i' m) as [->|N]; [now apply H2|]. rewrite H3 by exact N. apply I; [exact Hj'|lia].
Qed.
