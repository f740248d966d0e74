(** The order conditions of Runge-Kutta methods (Butcher), and Taylor polynomials. *)
From Coq Require Import Reals List Arith.
From Verif Require Import RBase VecModel.
Open Scope R_scope.

(** Rooted trees.  [Graft t u] is the tree t with u attached to its root as one more branch; every
    rooted tree is built this way from the single vertex. *)
Inductive tree : Type := Vertex | Graft (t u : tree).
(** number of vertices *)
Fixpoint order (t : tree) : nat := match t with Vertex => 1 | Graft t u => order t + order u end.
(** density: the product, over all vertices, of the number of vertices of the subtree hanging from it;
    [branches t] is the product of the densities of the branches at the root *)
Fixpoint branches (t : tree) : nat := match t with Vertex => 1 | Graft t u => branches t * (order u * branches u) end.
Definition density (t : tree) : nat := order t * branches t.

Section method.
  (** s stages, matrix a, weights b *)
  Context (s : nat) (a : nat -> nat -> R).
  (** the elementary weight of a tree at stage i: 1 for the vertex; each branch u contributes the factor sum_j a_ij (weight of u at j) *)
  Fixpoint stage_weight (t : tree) (i : nat) : R :=
    match t with
    | Vertex => 1
    | Graft t u => stage_weight t i * sumn s (fun j => a i j * stage_weight u j)
    end.
  Definition elementary_weight (b : nat -> R) (t : tree) : R := sumn s (fun i => b i * stage_weight t i).
  (** a method has order p iff the elementary weight is 1/density for every tree with at most p vertices *)
  Definition has_order (b : nat -> R) (p : nat) : Prop :=
    forall t, (order t <= p)%nat -> elementary_weight b t = 1 / INR (density t).
  (** a continuous extension at fraction sigma: weights b(sigma), the solution at t0 + sigma h being
      x0 + sigma h sum_i b_i(sigma) k_i *)
  Definition has_dense_order (b : R -> nat -> R) (p : nat) : Prop :=
    forall sigma t, (order t <= p)%nat -> elementary_weight (b sigma) t = sigma ^ (order t - 1) / INR (density t).
End method.

(** x + h A x + h^2 A^2 x / 2 + ... + h^p A^p x / p! for an n by n matrix A *)
Fixpoint mpow_vec (n : nat) (A : mat) (k : nat) (x : vec) : vec :=
  match k with O => x | S j => mvec n A (mpow_vec n A j x) end.
Definition taylor (n : nat) (A : mat) (h : R) (p : nat) (x : vec) : vec :=
  fun i => sumn (S p) (fun k => h ^ k / INR (fact k) * mpow_vec n A k x i).
