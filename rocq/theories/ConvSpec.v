(** Convergence of an integration to the exact solution: what is meant. *)
From Coq Require Import Reals List.
From Verif Require Import VecModel RkModel.
Import ListNotations.
Open Scope R_scope.

(** no component differs by more than d *)
Definition near (dim : nat) (d : R) (x y : vec) : Prop := forall i, (i < dim)%nat -> Rabs (x i - y i) <= d.
(** y solves the equation y' = f(t, y) from t0 to t1 *)
Definition exact (dim : nat) (f : R -> vec -> vec) (y : R -> vec) (t0 t1 : R) : Prop :=
  forall t, t0 <= t <= t1 -> forall i, (i < dim)%nat -> derivable_pt_lim (fun u => y u i) t (f t (y t) i).
(** close to the solution (within rho), f varies at most L times as much as its arguments *)
Definition lipschitz_near (dim : nat) (f : R -> vec -> vec) (y : R -> vec) (t0 t1 rho L : R) : Prop :=
  forall t s x z d, t0 <= t <= t1 -> t0 <= s <= t1 -> near dim rho x (y t) -> near dim rho z (y s) -> near dim d x z ->
    near dim (L * (d + Rabs (t - s))) (f t x) (f s z).

(** steps of several widths with an integrator whose step width is set before each *)
Definition with_width (s : integrator) (w : R) : integrator := mkInt w (t_cur s) (x_cur s) (x_prev s) (slope s) (error s).
Definition integrate_widths (one : integrator -> integrator) (widths : list R) (s : integrator) : integrator :=
  fold_left (fun s w => one (with_width s w)) widths s.
Definition total (widths : list R) : R := fold_right Rplus 0 widths.
