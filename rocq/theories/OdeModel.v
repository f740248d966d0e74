(** Model of src/math_physics/math/ordinary_differential_equation*.hpp and
    src/math_physics/randomization/random_walk*.hpp (exact reals). *)
From Coq Require Import Reals Lra Lia List Bool.
From Verif Require Import RBase VecModel.
Import ListNotations.
Open Scope R_scope.

(** ordinary_differential_equation.hpp:104-112.  The class is abstract; the derivative function
    of the derived class is a parameter.  [S] is the state of that derived class (RandomWalk draws
    random numbers inside DerivativeFunction): each evaluation returns the derivative and the new
    [S].  The vector length N plays no role here: every component is treated alike. *)
Record ode : Type := mkOde { indep : R; state : vec; derivative : vec; step_width : R }.

Definition ode_new (h : R) : ode := mkOde 0 (vconst 0) (vconst 0) h.             (* tfs 10-12 *)
Definition ode_setup (o : ode) (x0 : R) (s0 : vec) : ode :=                      (* tfs 14-18 *)
  mkOde x0 s0 (derivative o) (step_width o).

Section update.
Context {S : Type} (deriv : S -> R -> vec -> vec * S).
(** tfs 26-45 *)
Definition ode_update (w : S) (o : ode) : ode * S :=
  let h := step_width o in
  let (d, w1) := deriv w (indep o) (state o) in
  let k1 := vscal h d in
  let (d2, w2) := deriv w1 (indep o + 5 / 10 * h) (vadd (state o) (vscal (5 / 10) k1)) in
  let k2 := vscal h d2 in
  let (d3, w3) := deriv w2 (indep o + 5 / 10 * h) (vadd (state o) (vscal (5 / 10) k2)) in
  let k3 := vscal h d3 in
  let (d4, w4) := deriv w3 (indep o + h) (vadd (state o) k3) in
  let k4 := vscal h d4 in
  (mkOde (indep o + h)
         (vadd (state o) (vscal (1 / 6) (vadd (vadd k1 (vscal 2 (vadd k2 k3))) k4)))
         d h, w4).

Fixpoint ode_run (n : nat) (w : S) (o : ode) : ode * S :=
  match n with
  | O => (o, w)
  | Datatypes.S m => let (o1, w1) := ode_update w o in ode_run m w1 o1
  end.
End update.

(** random_walk_template_functions.hpp:23-35.  [draws i k] is the k-th number delivered by the
    normal generator of axis i (generators are independent objects); the state counts the draws
    made so far, the same for every axis since every call draws once per axis. *)
Definition walk_deriv (limit : vec) (draws : nat -> nat -> R) (k : nat) (x : R) (s : vec) : vec * nat :=
  (fun i => if rlt (limit i) (s i) then - Rabs (draws i k)
            else if rlt (s i) (- limit i) then Rabs (draws i k)
            else draws i k,
   S k).
(** random_walk_template_functions.hpp:14-21 and [++walk] n times; the value of axis i *)
Definition walk_after (limit : vec) (draws : nat -> nat -> R) (h : R) (n : nat) : vec :=
  state (fst (ode_run (walk_deriv limit draws) n 0%nat (ode_new h))).
