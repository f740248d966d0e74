(** C24: matrix inversion and linear solve. *)
From Coq Require Import Reals Lra List Bool Arith Lia.
From Verif Require Import Base RBase VecModel LuModel LuSpec LuProofs.
Open Scope R_scope.

Lemma inverse_ok n coef0 index0 A inv0 a index :
  lu_decomposition n coef0 index0 A = Ok (a, index) -> good_index n n index -> inv n n a (fun i => A (perm index n i)) ->
  exists B, calc_inverse n coef0 index0 A inv0 = Ok B /\ is_inverse n A B.
Proof.
  intros E G I. unfold calc_inverse. rewrite E. cbn [bind]. eexists. split; [reflexivity|].
  match goal with |- is_inverse n A ?X => set (B := X) end.
  assert (BX : forall k j, (k < n)%nat -> (j < n)%nat -> B k j = solve_lu n a index (upd (vconst 0) j 1) k).
  { intros k j Hk Hj. unfold B. apply (inverse_assembly n (fun i => solve_lu n a index (upd (vconst 0) i 1)) inv0); assumption. }
  assert (AB : forall i j, (i < n)%nat -> (j < n)%nat -> sumn n (fun k => A i k * B k j) = if Nat.eqb i j then 1 else 0).
  { intros i j Hi Hj.
    rewrite (sumn_ext n _ (fun k => A i k * solve_lu n a index (upd (vconst 0) j 1) k)) by (intros k Hk; rewrite BX by assumption; reflexivity).
    rewrite (solve_spec n A a index (upd (vconst 0) j 1) G I i Hi). reflexivity. }
  intros i j Hi Hj. split; [now apply AB|].
  (* A (B A - I) = 0 column by column *)
  set (x := fun k => sumn n (fun m => B k m * A m j) - (if Nat.eqb k j then 1 else 0)).
  assert (X : forall i, (i < n)%nat -> x i = 0).
  { apply (lu_injective n A a index x G I). intros r Hr. unfold x.
    rewrite (sumn_ext n _ (fun k => A r k * sumn n (fun m => B k m * A m j) - A r k * (if Nat.eqb k j then 1 else 0))) by (intros k Hk; ring).
    rewrite sumn_minus.
    rewrite (sumn_single n j (fun k => A r k * (if Nat.eqb k j then 1 else 0))); [|exact Hj|].
    2:{ intros k Hk N. destruct (Nat.eqb_spec k j); [contradiction|]. ring. }
    rewrite Nat.eqb_refl, Rmult_1_r.
    rewrite (sumn_ext n _ (fun k => sumn n (fun m => A r k * B k m * A m j))).
    2:{ intros k Hk. rewrite <- sumn_scal. apply sumn_ext. intros m Hm. ring. }
    rewrite sumn_swap. rewrite (sumn_ext n _ (fun m => (if Nat.eqb r m then 1 else 0) * A m j)).
    2:{ intros m Hm. rewrite (sumn_scal_r n (A m j) (fun k => A r k * B k m)). rewrite AB by assumption. reflexivity. }
    rewrite (sumn_single n r); [|exact Hr|].
    2:{ intros m Hm N. destruct (Nat.eqb_spec r m); [congruence|]. ring. }
    rewrite Nat.eqb_refl. ring. }
  specialize (X i Hi). unfold x in X. lra.
Qed.

(** what CalcInverseMatrix returns is the two-sided inverse, whatever the size *)
Theorem C24_inverse_correct : forall n coef0 index0 A inverse0 B,
  calc_inverse n coef0 index0 A inverse0 = Ok B -> is_inverse n A B.
Proof.
  intros n coef0 index0 A inv0 B E.
  destruct (lu_decomposition_spec n coef0 index0 A) as [(a & index & L & G & I)|(L & _)].
  - destruct (inverse_ok n coef0 index0 A inv0 a index L G I) as (B' & E' & H). rewrite E in E'. injection E' as <-. exact H.
  - unfold calc_inverse in E. rewrite L in E. discriminate.
Qed.
Print Assumptions C24_inverse_correct.

(** it returns or throws (never reads outside the arrays, never divides by zero on the way), and
    it throws exactly for the matrices without inverse *)
Theorem C24_throws_iff_singular : forall n coef0 index0 A inverse0,
  (exists B, calc_inverse n coef0 index0 A inverse0 = Ok B /\ is_inverse n A B) \/
  (calc_inverse n coef0 index0 A inverse0 = Throw /\ ~ exists B, is_inverse n A B).
Proof.
  intros n coef0 index0 A inv0.
  destruct (lu_decomposition_spec n coef0 index0 A) as [(a & index & L & G & I)|(L & D)].
  - left. exact (inverse_ok n coef0 index0 A inv0 a index L G I).
  - right. split; [unfold calc_inverse; now rewrite L|]. intros (B & H). destruct D as [(r & Hr & Z)|(c & Hc & x & X1 & X2 & X3)].
    + destruct (H r r Hr Hr) as [H1 _]. rewrite Nat.eqb_refl in H1. rewrite sumn_0 in H1; [lra|].
      intros k Hk. rewrite Z by exact Hk. ring.
    + (* x = B A x = 0 *)
      assert (E : x c = 0).
      { assert (E1 : x c = sumn n (fun j => sumn n (fun k => B c k * A k j) * x j)).
        { rewrite (sumn_single n c); [|exact Hc|].
          - destruct (H c c Hc Hc) as [_ H2]. rewrite H2, Nat.eqb_refl. ring.
          - intros j Hj N. destruct (H c j Hc Hj) as [_ H2]. rewrite H2. destruct (Nat.eqb_spec c j); [congruence|]. ring. }
        rewrite E1. rewrite (sumn_ext n _ (fun j => sumn n (fun k => B c k * (A k j * x j)))).
        2:{ intros j Hj. rewrite <- sumn_scal_r. apply sumn_ext. intros k Hk. ring. }
        rewrite sumn_swap. apply sumn_0. intros k Hk.
        rewrite (sumn_scal n (B c k) (fun j => A k j * x j)). rewrite X3 by exact Hk. ring. }
      lra.
Qed.
Print Assumptions C24_throws_iff_singular.

(** SolveLinearSystemWithLu after LuDecomposition gives the solution of A x = b, and the only one *)
Theorem C24_solve : forall n coef0 index0 A a index b,
  lu_decomposition n coef0 index0 A = Ok (a, index) ->
  solves n A (solve_lu n a index b) b /\
  forall x, solves n A x b -> forall i, (i < n)%nat -> x i = solve_lu n a index b i.
Proof.
  intros n coef0 index0 A a index b E.
  destruct (lu_decomposition_spec n coef0 index0 A) as [(a' & index' & L & G & I)|(L & _)]; rewrite L in E; [|discriminate].
  injection E as E1 E2. rewrite E1 in I. rewrite E2 in G, I. clear L E1 E2 a' index'.
  assert (SOL : solves n A (solve_lu n a index b) b) by (intros i Hi; exact (solve_spec n A a index b G I i Hi)).
  split; [exact SOL|]. intros x X i Hi.
  assert (Z : (fun k => x k - solve_lu n a index b k) i = 0); [|cbv beta in Z; lra].
  apply (lu_injective n A a index (fun k => x k - solve_lu n a index b k) G I); [|exact Hi]. intros r Hr.
  rewrite (sumn_ext n _ (fun k => A r k * x k - A r k * solve_lu n a index b k)) by (intros k Hk; ring).
  rewrite sumn_minus, (X r Hr), (SOL r Hr). ring.
Qed.
Print Assumptions C24_solve.

(** non-vacuous: a matrix whose first pivot is zero is invertible, a rank-one matrix is not *)
Example ex_swap_invertible : exists B, is_inverse 2 (fun i j => if Nat.eqb i j then 0 else 1) B.
Proof.
  exists (fun i j => if Nat.eqb i j then 0 else 1). intros i j Hi Hj.
  destruct i as [|[|i]]; destruct j as [|[|j]]; try lia; cbn; lra.
Qed.
Example ex_swap_returns : exists B, calc_inverse 2 (vconst 0) (fun _ => 0%nat) (fun i j => if Nat.eqb i j then 0 else 1) (fun _ _ => 0) = Ok B.
Proof.
  destruct (C24_throws_iff_singular 2 (vconst 0) (fun _ => 0%nat) (fun i j => if Nat.eqb i j then 0 else 1) (fun _ _ => 0))
    as [(B & E & _)|(_ & N)]; [now exists B|]. destruct (N ex_swap_invertible).
Qed.
Example ex_rank_one_throws : calc_inverse 2 (vconst 0) (fun _ => 0%nat) (fun _ _ => 1) (fun _ _ => 0) = Throw.
Proof.
  destruct (C24_throws_iff_singular 2 (vconst 0) (fun _ => 0%nat) (fun _ _ => 1) (fun _ _ => 0)) as [(B & _ & H)|(E & _)]; [|exact E].
  exfalso. destruct (H 0%nat 0%nat) as [H1 _]; [lia|lia|]. destruct (H 1%nat 0%nat) as [H2 _]; [lia|lia|]. cbn in H1, H2. lra.
Qed.
