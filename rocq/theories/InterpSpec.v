(** What interpolation means: polynomials by their coefficient lists. *)
From Coq Require Import Reals List.
Import ListNotations.
Open Scope R_scope.

(** the value at x of c0 + c1 x + c2 x^2 + ..., the list being c0, c1, c2, ... *)
Fixpoint peval (p : list R) (x : R) : R := match p with [] => 0 | c :: q => c + x * peval q x end.

(** p takes the value ys[i] at xs[i] *)
Definition passes_through (p : list R) (xs ys : list R) : Prop :=
  forall i, (i < length xs)%nat -> peval p (nth i xs 0) = nth i ys 0.

(** the samples a window should contain after a history of offers: an offer is taken exactly when
    its abscissa is beyond the last one taken *)
Fixpoint taken (last : R) (offers : list (R * R)) : list (R * R) :=
  match offers with
  | [] => []
  | (x, y) :: r => if Rlt_dec last x then (x, y) :: taken x r else taken last r
  end.

Fixpoint increasing (l : list R) : Prop :=
  match l with
  | [] => True
  | a :: t => match t with [] => True | b :: _ => a < b end /\ increasing t
  end.

(** trigonometric polynomials of degree k in the angle t: a0 + sum_{1<=j<=k} (a_j cos(j t) + b_j sin(j t)) *)
Fixpoint trig_poly (coef : nat -> R * R) (k : nat) (t : R) : R :=
  match k with
  | O => fst (coef 0%nat)
  | S j => trig_poly coef j t + (fst (coef k) * cos (INR k * t) + snd (coef k) * sin (INR k * t))
  end.
