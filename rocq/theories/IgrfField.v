From Coq Require Import Reals Lra Lia List Arith Bool ZArith.
From Verif Require Import Base RBase VecModel GravitySpec GravityHarmonics GravityGrad GravityFile IgrfModel IgrfSpec IgrfProofs IgrfCoef.
Import ListNotations.
Open Scope R_scope.

(** ** Independence of the history *)
Definition agree (n : nat) (p p' : arr) : Prop := forall n' m, (m <= n' < n)%nat -> p m n' = p' m n' /\ p (n' + 1)%nat m = p' (n' + 1)%nat m.
Lemma p_n_agree c s n p p' : (2 <= n)%nat -> agree n p p' -> agree (S n) (p_n c s n p) (p_n c s n p').
Proof.
  intros Hn Hp. unfold p_n.
  set (p1 := put p 0 n _). set (q1 := put p' 0 n _).
  assert (P1 : agree n p1 q1 /\ p1 0%nat n = q1 0%nat n).
  { split.
    - intros n' m Hm. unfold p1, q1. rewrite !put_other by lia. apply Hp. lia.
    - unfold p1, q1. rewrite !put_same. destruct n as [|[|n]]; try lia.
      replace (S (S n) - 1)%nat with (S n) by lia. replace (S (S n) - 2)%nat with n by lia. rewrite (proj1 (Hp (S n) 0%nat ltac:(lia))), (proj1 (Hp n 0%nat ltac:(lia))). reflexivity. }
  destruct P1 as [P1 P1z]. clearbody p1 q1.
  set (p2 := loop _ 1 (n - 1) p1). set (q2 := loop _ 1 (n - 1) q1).
  assert (G : forall k, (k <= n - 1)%nat -> agree n (loop (p_m c s n) 1 k p1) (loop (p_m c s n) 1 k q1) /\ forall m, (m < S k)%nat -> loop (p_m c s n) 1 k p1 m n = loop (p_m c s n) 1 k q1 m n).
  { assert (App : forall k x, loop (p_m c s n) 1 (S k) x = p_m c s n (S k) (loop (p_m c s n) 1 k x)).
    { intros k. assert (forall lo x, loop (p_m c s n) lo (S k) x = p_m c s n (lo + k) (loop (p_m c s n) lo k x)) as A.
      { induction k as [|k IH]; intros lo x; [cbn [loop]; rewrite Nat.add_0_r; reflexivity|].
        change (loop (p_m c s n) lo (S (S k)) x) with (loop (p_m c s n) (S lo) (S k) (p_m c s n lo x)). rewrite IH. cbn [loop]. f_equal. lia. }
      intros x. apply A. }
    induction k as [|k IH]; intros Hk.
    - cbn [loop]. split; [exact P1|]. intros m Hm. replace m with 0%nat by lia. exact P1z.
    - destruct IH as [D B]; [lia|]. rewrite !App. set (x := loop _ 1 k p1) in *. set (y := loop _ 1 k q1) in *. split.
      + intros n' m Hm. unfold p_m. rewrite !put_other by lia. apply D. lia.
      + intros m Hm. unfold p_m. destruct (Nat.eq_dec m (S k)) as [->|Ne].
        * rewrite !put_same. replace (S k - 1)%nat with k by lia.
          rewrite (proj1 (D (n - 1)%nat k ltac:(lia))), (proj1 (D (n - 1)%nat (S k) ltac:(lia))), (B k) by lia. reflexivity.
        * rewrite !put_other by lia. apply B. lia. }
  destruct (G (n - 1)%nat ltac:(lia)) as [P2 P2m]. fold p2 q2 in P2, P2m. clear G. replace (S (n - 1)) with n in P2m by lia. clearbody p2 q2.
  set (p3 := put p2 n n _). set (q3 := put q2 n n _).
  assert (P3 : agree n p3 q3 /\ forall m, (m <= n)%nat -> p3 m n = q3 m n).
  { split.
    - intros n' m Hm. unfold p3, q3. rewrite !put_other by lia. apply P2. lia.
    - intros m Hm. unfold p3, q3. destruct (Nat.eq_dec m n) as [->|Ne].
      + rewrite !put_same. rewrite (proj1 (P2 (n - 1)%nat (n - 1)%nat ltac:(lia))). reflexivity.
      + rewrite !put_other by lia. apply P2m. lia. }
  destruct P3 as [P3 P3m]. clearbody p3 q3.
  set (p4 := put p3 (n + 1) 0 _). set (q4 := put q3 (n + 1) 0 _).
  assert (P4 : agree n p4 q4 /\ (forall m, (m <= n)%nat -> p4 m n = q4 m n) /\ p4 (n + 1)%nat 0%nat = q4 (n + 1)%nat 0%nat).
  { split; [|split].
    - intros n' m Hm. unfold p4, q4. rewrite !put_other by lia. apply P3. lia.
    - intros m Hm. unfold p4, q4. rewrite !put_other by lia. apply P3m. lia.
    - unfold p4, q4. rewrite !put_same, P3m by lia. reflexivity. }
  destruct P4 as (P4 & P4m & P4z). clearbody p4 q4.
  set (p5 := loop _ 1 (n - 1) p4). set (q5 := loop _ 1 (n - 1) q4).
  assert (G : forall k, (k <= n - 1)%nat -> agree n (loop (q_m n) 1 k p4) (loop (q_m n) 1 k q4) /\ (forall m, (m <= n)%nat -> loop (q_m n) 1 k p4 m n = loop (q_m n) 1 k q4 m n) /\
     forall m, (m < S k)%nat -> loop (q_m n) 1 k p4 (n + 1)%nat m = loop (q_m n) 1 k q4 (n + 1)%nat m).
  { assert (App : forall k x, loop (q_m n) 1 (S k) x = q_m n (S k) (loop (q_m n) 1 k x)).
    { intros k. assert (forall lo x, loop (q_m n) lo (S k) x = q_m n (lo + k) (loop (q_m n) lo k x)) as A.
      { induction k as [|k IH]; intros lo x; [cbn [loop]; rewrite Nat.add_0_r; reflexivity|].
        change (loop (q_m n) lo (S (S k)) x) with (loop (q_m n) (S lo) (S k) (q_m n lo x)). rewrite IH. cbn [loop]. f_equal. lia. }
      intros x. apply A. }
    induction k as [|k IH]; intros Hk.
    - cbn [loop]. split; [exact P4|]. split; [exact P4m|]. intros m Hm. replace m with 0%nat by lia. exact P4z.
    - destruct IH as (D & B & E); [lia|]. rewrite !App. set (x := loop _ 1 k p4) in *. set (y := loop _ 1 k q4) in *. split; [|split].
      + intros n' m Hm. unfold q_m. rewrite !put_other by lia. apply D. lia.
      + intros m Hm. unfold q_m. rewrite !put_other by lia. apply B. lia.
      + intros m Hm. unfold q_m. destruct (Nat.eq_dec m (S k)) as [->|Ne].
        * rewrite !put_same. replace (S k - 1)%nat with k by lia. rewrite (B k), (B (S k + 1)%nat) by lia. reflexivity.
        * rewrite !put_other by lia. apply E. lia. }
  destruct (G (n - 1)%nat ltac:(lia)) as (P5 & P5m & P5q). fold p5 q5 in P5, P5m, P5q. clear G. replace (S (n - 1)) with n in P5q by lia. clearbody p5 q5.
  intros n' m Hm. destruct (Nat.eq_dec n' n) as [->|Ne].
  - split; [rewrite !put_other by lia; apply P5m; lia|]. destruct (Nat.eq_dec m n) as [->|Ne].
    + rewrite !put_same. destruct n as [|n]; [lia|]. replace (S n - 1)%nat with n by lia. destruct (P5 n n ltac:(lia)) as [E1 E2].
      replace (n + 1)%nat with (S n) in E2 by lia. rewrite E1, E2. reflexivity.
    + rewrite !put_other by lia. apply P5q. lia.
  - rewrite !put_other by lia. apply P5. lia.
Qed.
Lemma p_table_agree maxod c s p p' : agree (S maxod) (p_table maxod c s p) (p_table maxod c s p').
Proof.
  unfold p_table.
  set (x := put _ 2 1 c). set (y := put _ 2 1 c).
  assert (B0 : agree 2 x y).
  { intros n m Hm. assert (n = 0 \/ n = 1)%nat as [->| ->] by lia.
    - assert (m = 0)%nat by lia. subst. split; reflexivity.
    - assert (m = 0 \/ m = 1)%nat as [->| ->] by lia; split; reflexivity. }
  assert (G : forall count lo x y, (2 <= lo)%nat -> agree lo x y -> agree (lo + count) (loop (p_n c s) lo count x) (loop (p_n c s) lo count y)).
  { induction count as [|k IH]; intros lo u v Hlo A; cbn [loop]; [rewrite Nat.add_0_r; exact A|].
    rewrite Nat.add_succ_r. apply (IH (S lo)); [lia|]. apply p_n_agree; assumption. }
  assert (A : agree (2 + (maxod - 1)) (loop (p_n c s) 2 (maxod - 1) x) (loop (p_n c s) 2 (maxod - 1) y)) by (apply G; [lia|exact B0]).
  intros n m Hm. apply A. lia.
Qed.

(** two caches that the sums cannot tell apart *)
Definition same_cache (N : nat) (c c' : cache) : Prop :=
  ca_sth c = ca_sth c' /\ ca_cth c = ca_cth c' /\ agree (S N) (ca_p c) (ca_p c') /\
  forall n, (n <= N)%nat -> ca_rar c n = ca_rar c' n /\ ca_csp c n = ca_csp c' n /\ ca_snp c n = ca_snp c' n.
Lemma sums_same N g g' c c' gv hv : same_cache N c c' -> tri (S N) 0 g gv hv -> tri (S N) 0 g' gv hv ->
  loop (sum_n g c) 1 N (0, 0, 0) = loop (sum_n g' c') 1 N (0, 0, 0).
Proof.
  intros (_ & _ & Ap & At) Hg Hg'. apply loop_ext. intros n [[x y] z] Hn. unfold sum_n.
  assert (E : loop (sum_m g c n) 1 n (g 0%nat n * ca_p c (n + 1)%nat 0%nat, 0, g 0%nat n * ca_p c 0%nat n) = loop (sum_m g' c' n) 1 n (g' 0%nat n * ca_p c' (n + 1)%nat 0%nat, 0, g' 0%nat n * ca_p c' 0%nat n)).
  { destruct (Ap n 0%nat ltac:(lia)) as [A1 A2]. rewrite A1, A2. rewrite (proj1 (Hg n 0%nat ltac:(lia) ltac:(lia) ltac:(lia))), (proj1 (Hg' n 0%nat ltac:(lia) ltac:(lia) ltac:(lia))).
    apply loop_ext. intros m [[tx ty] tz] Hm. unfold sum_m. destruct (Ap n m ltac:(lia)) as [B1 B2]. rewrite B1, B2.
    destruct (At m ltac:(lia)) as (_ & T2 & T3). rewrite T2, T3.
    destruct (Hg n m ltac:(lia) ltac:(lia) ltac:(lia)) as [C1 C2]. destruct (Hg' n m ltac:(lia) ltac:(lia) ltac:(lia)) as [D1 D2].
    rewrite C1, D1, C2, D2 by lia. reflexivity. }
  rewrite E. destruct (loop (sum_m g' c' n) 1 n _) as [[tx ty] tz]. destruct (At n ltac:(lia)) as (T1 & _ & _). rewrite T1. reflexivity.
Qed.

Lemma cache_eta c : c = mkCache (ca_kg c) (ca_kr c) (ca_kth c) (ca_kph c) (ca_blat c) (ca_bhi c) (ca_blon c) (ca_r c) (ca_cth c) (ca_sth c) (ca_cph c) (ca_sph c) (ca_rar c) (ca_csp c) (ca_snp c) (ca_p c).
Proof. destruct c. reflexivity. Qed.
Definition fresh : cache := cache_field cache_new.
Definition g_zero : arr := fun _ _ => 0.
(** the cache a fresh start leaves at a place *)
Definition at_place (N : nat) (lat lon hi : R) : cache := fst (mfldg N g_zero fresh lat lon hi).
(** a cache that holds the values of the place it remembers *)
Definition cached (N : nat) (c : cache) : Prop :=
  ca_kg c = 1%Z /\ ca_kr c = false /\ ca_kth c = false /\ ca_kph c = false /\
  let d := at_place N (ca_blat c) (ca_blon c) (ca_bhi c) in
  ca_r c = ca_r d /\ ca_cph c = ca_cph d /\ ca_sph c = ca_sph d /\ same_cache N c d.

Lemma fcalc_fst N g c : fst (fcalc N g c) = mkCache (ca_kg c) false false false (ca_blat c) (ca_bhi c) (ca_blon c) (ca_r c) (ca_cth c) (ca_sth c) (ca_cph c) (ca_sph c)
    (if ca_kr c then rar_table N (ca_r c) (ca_rar c) else ca_rar c)
    (fst (if ca_kph c then ph_table N (ca_cph c) (ca_sph c) (ca_csp c, ca_snp c) else (ca_csp c, ca_snp c)))
    (snd (if ca_kph c then ph_table N (ca_cph c) (ca_sph c) (ca_csp c, ca_snp c) else (ca_csp c, ca_snp c)))
    (if ca_kth c then p_table N (ca_cth c) (ca_sth c) (ca_p c) else ca_p c).
Proof. unfold fcalc. destruct (loop _ 1 N (0, 0, 0)) as [[x y] z]. reflexivity. Qed.
Lemma fcalc_snd N g c : snd (fcalc N g c) = let r := loop (sum_n g (fst (fcalc N g c))) 1 N (0, 0, 0) in (fst (fst r), snd (fst r) / ca_sth c, snd r).
Proof. rewrite fcalc_fst. unfold fcalc. destruct (loop _ 1 N (0, 0, 0)) as [[x y] z]. reflexivity. Qed.

Definition rad_of (lat hi : R) : R := ca_r (mfldg_place fresh lat hi).
Definition cth_of (lat hi : R) : R := ca_cth (mfldg_place fresh lat hi).
Definition sth_of (lat hi : R) : R := ca_sth (mfldg_place fresh lat hi).

(** the cache after any call that starts with a cache in order, or with the flags of field() *)
Definition startable (N : nat) (c : cache) : Prop := cached N c \/ (ca_kg c = 2%Z /\ ca_kph c = true).
Lemma at_place_eq N g c lat lon hi : ca_kg c = 2%Z -> ca_kph c = true -> fst (mfldg N g c lat lon hi) =
  mkCache 1 false false false lat hi lon (rad_of lat hi) (cth_of lat hi) (sth_of lat hi) (cos (lon / urad)) (sin (lon / urad))
    (rar_table N (rad_of lat hi) (ca_rar c)) (fst (ph_table N (cos (lon / urad)) (sin (lon / urad)) (ca_csp c, ca_snp c)))
    (snd (ph_table N (cos (lon / urad)) (sin (lon / urad)) (ca_csp c, ca_snp c))) (p_table N (cth_of lat hi) (sth_of lat hi) (ca_p c)).
Proof.
  intros K P. unfold mfldg. rewrite fcalc_fst. unfold mfldg_lon, mfldg_place. rewrite K. cbn [Z.eqb Pos.eqb negb orb]. cbn [ca_kph]. rewrite P. cbn [orb].
  cbn [ca_kg ca_kr ca_kth ca_kph ca_blat ca_bhi ca_blon ca_r ca_cth ca_sth ca_cph ca_sph ca_rar ca_csp ca_snp ca_p]. reflexivity.
Qed.
Lemma same_refl N c : same_cache N c c.
Proof. split; [reflexivity|]. split; [reflexivity|]. split; [intros n m _; split; reflexivity|]. intros; repeat split; reflexivity. Qed.
Lemma same_sym N c d : same_cache N c d -> same_cache N d c.
Proof.
  intros (A & B & C & D). split; [congruence|]. split; [congruence|]. split; [intros n m H; destruct (C n m H); split; congruence|].
  intros n H. destruct (D n H) as (D1 & D2 & D3). repeat split; congruence.
Qed.
Lemma rar_same N r t t' n : (n <= N)%nat -> rar_table N r t n = rar_table N r t' n.
Proof. intros H. rewrite !rar_ok by exact H. reflexivity. Qed.
Lemma ph_same N phi s s' n : (n <= N)%nat -> fst (ph_table N (cos phi) (sin phi) s) n = fst (ph_table N (cos phi) (sin phi) s') n /\ snd (ph_table N (cos phi) (sin phi) s) n = snd (ph_table N (cos phi) (sin phi) s') n.
Proof. intros H. destruct (ph_ok N phi s n H), (ph_ok N phi s' n H). split; congruence. Qed.

Lemma mfldg_cache N g c lat lon hi : startable N c ->
  let c' := fst (mfldg N g c lat lon hi) in
  cached N c' /\ ca_blat c' = lat /\ ca_blon c' = lon /\ ca_bhi c' = hi.
Proof.
  intros St. cbv zeta.
  set (d := at_place N lat lon hi).
  assert (Ed : d = mkCache 1 false false false lat hi lon (rad_of lat hi) (cth_of lat hi) (sth_of lat hi) (cos (lon / urad)) (sin (lon / urad))
    (rar_table N (rad_of lat hi) (ca_rar fresh)) (fst (ph_table N (cos (lon / urad)) (sin (lon / urad)) (ca_csp fresh, ca_snp fresh)))
    (snd (ph_table N (cos (lon / urad)) (sin (lon / urad)) (ca_csp fresh, ca_snp fresh))) (p_table N (cth_of lat hi) (sth_of lat hi) (ca_p fresh))) by (apply at_place_eq; reflexivity).
  assert (Main : exists rar csp snp p,
     fst (mfldg N g c lat lon hi) = mkCache 1 false false false lat hi lon (rad_of lat hi) (cth_of lat hi) (sth_of lat hi) (cos (lon / urad)) (sin (lon / urad)) rar csp snp p /\
     same_cache N (mkCache 1 false false false lat hi lon (rad_of lat hi) (cth_of lat hi) (sth_of lat hi) (cos (lon / urad)) (sin (lon / urad)) rar csp snp p) d).
  { destruct St as [(K1 & K2 & K3 & K4 & C)|[K P]].
    - unfold at_place in C. rewrite at_place_eq in C by reflexivity. cbn [ca_r ca_cph ca_sph] in C. destruct C as (C1 & C2 & C3 & (S1 & S2 & S3 & S4)). cbn [ca_sth ca_cth ca_p ca_rar ca_csp ca_snp] in S1, S2, S3, S4.
      (* the place *)
      assert (Pl : exists kk, (kk = true \/ kk = false /\ ca_blat c = lat /\ ca_bhi c = hi) /\
         mfldg_place c lat hi = mkCache 1 kk kk false lat hi (ca_blon c) (rad_of lat hi) (cth_of lat hi) (sth_of lat hi) (ca_cph c) (ca_sph c) (ca_rar c) (ca_csp c) (ca_snp c) (ca_p c)).
      { unfold mfldg_place. rewrite K1. cbn [Z.eqb Pos.eqb negb orb]. destruct (req_spec (ca_blat c) lat) as [El|El]; cbn [negb orb].
        - destruct (req_spec (ca_bhi c) hi) as [Eh|Eh]; cbn [negb].
          + exists false. split; [right; repeat split; assumption|]. rewrite (cache_eta c) at 1. rewrite K1, K2, K3, K4, C1, S1, S2, El, Eh. reflexivity.
          + exists true. split; [left; reflexivity|]. rewrite K4. reflexivity.
        - exists true. split; [left; reflexivity|]. rewrite K4. reflexivity. }
      destruct Pl as (kk & Hkk & Pl). unfold mfldg. rewrite Pl.
      assert (Lo : exists kl, (kl = true \/ kl = false /\ ca_blon c = lon) /\
         mfldg_lon (mkCache 1 kk kk false lat hi (ca_blon c) (rad_of lat hi) (cth_of lat hi) (sth_of lat hi) (ca_cph c) (ca_sph c) (ca_rar c) (ca_csp c) (ca_snp c) (ca_p c)) lon
         = mkCache 1 kk kk kl lat hi lon (rad_of lat hi) (cth_of lat hi) (sth_of lat hi) (cos (lon / urad)) (sin (lon / urad)) (ca_rar c) (ca_csp c) (ca_snp c) (ca_p c)).
      { unfold mfldg_lon. cbn [ca_kg ca_kr ca_kth ca_kph ca_blat ca_bhi ca_blon ca_r ca_cth ca_sth ca_cph ca_sph ca_rar ca_csp ca_snp ca_p orb].
        destruct (req_spec (ca_blon c) lon) as [El|El]; cbn [negb].
        - exists false. split; [right; split; [reflexivity|assumption]|]. rewrite C2, C3, El. reflexivity.
        - exists true. split; [left; reflexivity|]. reflexivity. }
      destruct Lo as (kl & Hkl & Lo). rewrite Lo. rewrite fcalc_fst.
      cbn [ca_kg ca_kr ca_kth ca_kph ca_blat ca_bhi ca_blon ca_r ca_cth ca_sth ca_cph ca_sph ca_rar ca_csp ca_snp ca_p].
      eexists _, _, _, _. split; [reflexivity|]. rewrite Ed. unfold same_cache. cbn [ca_sth ca_cth ca_p ca_rar ca_csp ca_snp].
      split; [reflexivity|]. split; [reflexivity|]. split.
      + destruct Hkk as [->|(-> & El & Eh)]; [apply p_table_agree|]. rewrite <- El, <- Eh. exact S3.
      + intros n Hn. split; [|].
        * destruct Hkk as [->|(-> & El & Eh)]; [apply rar_same; exact Hn|]. rewrite <- El, <- Eh. apply S4. exact Hn.
        * destruct Hkl as [->|(-> & El)]; [apply ph_same; exact Hn|]. rewrite <- El. cbn [fst snd]. apply S4. exact Hn.
    - rewrite at_place_eq by assumption. eexists _, _, _, _. split; [reflexivity|]. rewrite Ed. unfold same_cache. cbn [ca_sth ca_cth ca_p ca_rar ca_csp ca_snp].
      split; [reflexivity|]. split; [reflexivity|]. split; [apply p_table_agree|].
      intros n Hn. split; [apply rar_same; exact Hn|]. apply ph_same. exact Hn. }
  destruct Main as (rar & csp & snp & p & -> & S).
  split; [|repeat split; reflexivity]. unfold cached. cbn [ca_kg ca_kr ca_kth ca_kph ca_blat ca_bhi ca_blon].
  fold d. repeat (split; [reflexivity|]). cbn [ca_r ca_cph ca_sph]. rewrite Ed at 1 2 3. cbn [ca_r ca_cph ca_sph]. repeat (split; [reflexivity|]). exact S.
Qed.

(** the components North, East, Down at a place *)
Definition ned (N : nat) (g : arr) (lat lon hi : R) : R * R * R :=
  let r := loop (sum_n g (at_place N lat lon hi)) 1 N (0, 0, 0) in (fst (fst r), snd (fst r) / sth_of lat hi, snd r).
Lemma sth_same N g c lat lon hi : ca_sth (mfldg_lon (mfldg_place c lat hi) lon) = ca_sth (fst (mfldg N g c lat lon hi)).
Proof. unfold mfldg. rewrite fcalc_fst. reflexivity. Qed.
Lemma mfldg_value N g c lat lon hi g' gv hv : startable N c -> tri (S N) 0 g gv hv -> tri (S N) 0 g' gv hv ->
  snd (mfldg N g c lat lon hi) = ned N g' lat lon hi /\ ca_cth (fst (mfldg N g c lat lon hi)) = cth_of lat hi.
Proof.
  intros St Hg Hg'. destruct (mfldg_cache N g c lat lon hi St) as ((_ & _ & _ & _ & C) & E1 & E2 & E3).
  rewrite E1, E2, E3 in C. cbv zeta in C. destruct C as (_ & _ & _ & S).
  assert (Sd : ca_sth (at_place N lat lon hi) = sth_of lat hi /\ ca_cth (at_place N lat lon hi) = cth_of lat hi) by (unfold at_place; rewrite at_place_eq by reflexivity; split; reflexivity).
  split.
  - unfold mfldg at 1. rewrite fcalc_snd. cbv zeta. fold (mfldg N g c lat lon hi). rewrite (sth_same N g c lat lon hi).
    rewrite (sums_same N g g' _ _ gv hv S Hg Hg'). unfold ned. destruct S as (Ss & _). rewrite Ss, (proj1 Sd). reflexivity.
  - destruct S as (_ & Sc & _). rewrite Sc. apply Sd.
Qed.

(** ** Histories of calls *)
Definition value (co : coefs) (a : igrf_args) : vec :=
  let lat := ag_lat a * (180 / PI) in let lon := ag_lon a * (180 / PI) in let hi := ag_alt a / 1000 in
  let '(x, y, z) := ned (co_max co) (tyear co (ag_year a) g_zero) lat lon hi in
  magaxis_to_eci (v3 x y z) (ag_lon a) (acos (cth_of lat hi)) (ag_side a).
Lemma calc_later f junk s a co : ig_coefs s = Some co -> startable (co_max co) (ig_cache s) ->
  exists s', igrf_calc f junk s a = Ok (s', value co a) /\ ig_coefs s' = Some co /\ startable (co_max co) (ig_cache s').
Proof.
  intros E St. unfold igrf_calc. rewrite E. cbn [bind].
  set (g := tyear co (ag_year a) (ig_g s)).
  pose proof (mfldg_cache (co_max co) g (ig_cache s) (ag_lat a * (180 / PI)) (ag_lon a * (180 / PI)) (ag_alt a / 1000) St) as (C & _).
  pose proof (mfldg_value (co_max co) g (ig_cache s) (ag_lat a * (180 / PI)) (ag_lon a * (180 / PI)) (ag_alt a / 1000) _ _ _ St
    (tyear_ok co (ag_year a) (ig_g s)) (tyear_ok co (ag_year a) g_zero)) as (V1 & V2). fold g in V1, V2.
  unfold value. cbv zeta. rewrite <- V1. destruct (mfldg (co_max co) g (ig_cache s) _ _ _) as [ca [[x y] z]]. cbn [fst snd] in *.
  rewrite V2. eexists. split; [reflexivity|]. cbn [ig_coefs ig_cache]. split; [reflexivity|]. left. exact C.
Qed.
Lemma calc_first f junk a co : gigrf f junk (ag_year a) = Ok co ->
  exists s', igrf_calc f junk igrf_new a = Ok (s', value co a) /\ ig_coefs s' = Some co /\ startable (co_max co) (ig_cache s').
Proof.
  intros E. unfold igrf_calc. cbn [ig_coefs igrf_new]. rewrite E. cbn [bind].
  destruct (calc_later f junk (mkIgrf (Some co) (ig_g igrf_new) fresh) a co eq_refl) as (s' & H); [right; split; reflexivity|].
  exists s'. exact H.
Qed.
Lemma run_later f junk co : forall l s, ig_coefs s = Some co -> startable (co_max co) (ig_cache s) ->
  exists s', igrf_run f junk s l = Ok (s', map (value co) l).
Proof.
  induction l as [|a l IH]; intros s E St; cbn [igrf_run map].
  - exists s. reflexivity.
  - destruct (calc_later f junk s a co E St) as (s1 & E1 & E2 & E3). rewrite E1. cbn [bind fst snd].
    destruct (IH s1 E2 E3) as (s2 & E4). rewrite E4. cbn [bind fst snd]. exists s2. reflexivity.
Qed.
Lemma run_all f junk a l co : gigrf f junk (ag_year a) = Ok co -> exists s, igrf_run f junk igrf_new (a :: l) = Ok (s, map (value co) (a :: l)).
Proof.
  intros E. cbn [igrf_run map]. destruct (calc_first f junk a co E) as (s1 & E1 & E2 & E3). rewrite E1. cbn [bind fst snd].
  destruct (run_later f junk co l s1 E2 E3) as (s2 & E4). rewrite E4. cbn [bind fst snd]. exists s2. reflexivity.
Qed.

(** ** The sums *)
Definition total (N : nat) (f : nat -> nat -> R) : R := sum_to N (fun n => match n with O => 0 | _ => sum_to n (f n) end).
Lemma total_ext N f h : (forall n m, (1 <= n <= N)%nat -> (m <= n)%nat -> f n m = h n m) -> total N f = total N h.
Proof. intros H. apply sum_to_ext. intros [|n] Hn; [reflexivity|]. apply sum_to_ext. intros m Hm. apply H; lia. Qed.
Lemma total_plus N f h : total N (fun n m => f n m + h n m) = total N f + total N h.
Proof. unfold total. rewrite <- sum_to_plus. apply sum_to_ext. intros [|n] Hn; [ring|]. apply sum_to_plus. Qed.
Lemma total_scal N k f : total N (fun n m => k * f n m) = k * total N f.
Proof. unfold total. rewrite <- sum_to_scal. apply sum_to_ext. intros [|n] Hn; [ring|]. apply sum_to_scal. Qed.
Lemma loop_sum_m g c n : forall k, (k <= n)%nat -> loop (sum_m g c n) 1 k (g 0%nat n * ca_p c (n + 1)%nat 0%nat, 0, g 0%nat n * ca_p c 0%nat n)
  = (sum_to k (fun m => match m with O => g 0%nat n * ca_p c (n + 1)%nat 0%nat | _ => (g m n * ca_csp c m + g n (m - 1)%nat * ca_snp c m) * ca_p c (n + 1)%nat m end),
     sum_to k (fun m => match m with O => 0 | _ => (g m n * ca_snp c m - g n (m - 1)%nat * ca_csp c m) * ca_p c m n * INR m end),
     sum_to k (fun m => match m with O => g 0%nat n * ca_p c 0%nat n | _ => (g m n * ca_csp c m + g n (m - 1)%nat * ca_snp c m) * ca_p c m n end)).
Proof.
  intros k Hk.
  set (fx := fun m : nat => match m with O => g 0%nat n * ca_p c (n + 1)%nat 0%nat | _ => (g m n * ca_csp c m + g n (m - 1)%nat * ca_snp c m) * ca_p c (n + 1)%nat m end).
  set (fy := fun m : nat => match m with O => 0 | _ => (g m n * ca_snp c m - g n (m - 1)%nat * ca_csp c m) * ca_p c m n * INR m end).
  set (fz := fun m : nat => match m with O => g 0%nat n * ca_p c 0%nat n | _ => (g m n * ca_csp c m + g n (m - 1)%nat * ca_snp c m) * ca_p c m n end).
  replace (sum_to k fx, sum_to k fy, sum_to k fz) with (sum_to (1 + k - 1) fx, sum_to (1 + k - 1) fy, sum_to (1 + k - 1) fz) by (replace (1 + k - 1)%nat with k by lia; reflexivity).
  apply (loop_inv (fun j t => t = (sum_to (j - 1) fx, sum_to (j - 1) fy, sum_to (j - 1) fz)) (sum_m g c n) k 1).
  - reflexivity.
  - intros j b Hj ->. destruct j as [|j]; [lia|]. replace (S (S j) - 1)%nat with (S j) by lia. replace (S j - 1)%nat with j by lia. cbn [sum_to sum_m].
    replace (S j - 1)%nat with j by lia. unfold fx, fy, fz. replace (S j - 1)%nat with j by lia. reflexivity.
Qed.
Lemma loop_sum g c N :
  loop (sum_n g c) 1 N (0, 0, 0) =
  (total N (fun n m => ca_rar c n * match m with O => g 0%nat n * ca_p c (n + 1)%nat 0%nat | _ => (g m n * ca_csp c m + g n (m - 1)%nat * ca_snp c m) * ca_p c (n + 1)%nat m end),
   total N (fun n m => ca_rar c n * match m with O => 0 | _ => (g m n * ca_snp c m - g n (m - 1)%nat * ca_csp c m) * ca_p c m n * INR m end),
   total N (fun n m => - (ca_rar c n * INR (n + 1)) * match m with O => g 0%nat n * ca_p c 0%nat n | _ => (g m n * ca_csp c m + g n (m - 1)%nat * ca_snp c m) * ca_p c m n end)).
Proof.
  set (fx := fun n m : nat => ca_rar c n * match m with O => g 0%nat n * ca_p c (n + 1)%nat 0%nat | _ => (g m n * ca_csp c m + g n (m - 1)%nat * ca_snp c m) * ca_p c (n + 1)%nat m end).
  set (fy := fun n m : nat => ca_rar c n * match m with O => 0 | _ => (g m n * ca_snp c m - g n (m - 1)%nat * ca_csp c m) * ca_p c m n * INR m end).
  set (fz := fun n m : nat => - (ca_rar c n * INR (n + 1)) * match m with O => g 0%nat n * ca_p c 0%nat n | _ => (g m n * ca_csp c m + g n (m - 1)%nat * ca_snp c m) * ca_p c m n end).
  replace (total N fx, total N fy, total N fz) with (total (1 + N - 1) fx, total (1 + N - 1) fy, total (1 + N - 1) fz) by (replace (1 + N - 1)%nat with N by lia; reflexivity).
  apply (loop_inv (fun j t => t = (total (j - 1) fx, total (j - 1) fy, total (j - 1) fz)) (sum_n g c) N 1).
  - reflexivity.
  - intros n b Hn ->. destruct n as [|n]; [lia|]. unfold sum_n. rewrite loop_sum_m by lia. replace (S (S n) - 1)%nat with (S n) by lia. replace (S n - 1)%nat with n by lia.
    assert (T : forall f, total (S n) f = total n f + sum_to (S n) (f (S n))) by reflexivity. rewrite !T.
    apply f_equal2; [apply f_equal2|].
    + apply (f_equal (Rplus _)). symmetry. apply sum_to_scal.
    + apply (f_equal (Rplus _)). symmetry. apply sum_to_scal.
    + unfold Rminus. apply (f_equal (Rplus _)). unfold fz. rewrite sum_to_scal. ring.
Qed.
