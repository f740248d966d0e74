(** Model of the vector and matrix templates: src/math_physics/math/vector_template_functions.hpp,
    matrix_template_functions.hpp, matrix_vector_template_functions.hpp:355-364, vector.cpp.
    Doubles are real numbers.  A Vector<N> is the function of its components, a Matrix<R,C> the
    function of row and column; only the components below N (R, C) are meaningful.  The loops
    "for (i = 0; i < N; ++i) temp += ..." are the sums [sumn N]. *)
From Coq Require Import Reals Lra Lia List Bool.
From Verif Require Import RBase.
Open Scope R_scope.

Definition vec : Type := nat -> R.
Definition mat : Type := nat -> nat -> R.

Definition vconst (c : R) : vec := fun _ => c.                                  (* vector tfs 13-18, 56-61 *)
Definition vadd (u v : vec) : vec := fun i => u i + v i.                        (* 20-26, 71-78 *)
Definition vsub (u v : vec) : vec := fun i => u i - v i.                        (* 28-34, 80-87 *)
Definition vscal (c : R) (v : vec) : vec := fun i => c * v i.                   (* 36-42, 89-96 *)
Definition vdiv (v : vec) (c : R) : vec := vscal (1 / c) v.                     (* 44-47: multiplies by 1/n *)
Definition vneg (v : vec) : vec := fun i => v i * -1.                           (* 49-54 *)
Definition dot (n : nat) (u v : vec) : R := sumn n (fun i => u i * v i).        (* 98-105 *)
Definition cross (u v : vec) : vec := fun i =>                                  (* 107-114 *)
  match i with
  | 0%nat => u 1%nat * v 2%nat - u 2%nat * v 1%nat
  | 1%nat => u 2%nat * v 0%nat - u 0%nat * v 2%nat
  | _ => u 0%nat * v 1%nat - u 1%nat * v 0%nat
  end.
(** 116-123; pow(x, 2.0) is x*x *)
Definition norm (n : nat) (v : vec) : R := sqrt (sumn n (fun i => v i * v i)).
(** 125-141: a vector of norm 0 is returned unchanged *)
Definition normalize (n : nat) (v : vec) : vec := if req (norm n v) 0 then v else vdiv v (norm n v).
(** 143-147; acos of an argument outside [-1,1] would be NaN *)
Definition angle_two_vectors (n : nat) (u v : vec) : R := acos (dot n u v / (norm n u * norm n v)).

Definition madd (a b : mat) : mat := fun i j => a i j + b i j.                  (* matrix tfs 23-31, 90-99 *)
Definition msub (a b : mat) : mat := fun i j => a i j - b i j.                  (* 48-56, 101-110 *)
Definition mscal (c : R) (a : mat) : mat := fun i j => c * a i j.               (* 33-41, 112-121 *)
Definition mtrace (n : nat) (a : mat) : R := sumn n (fun i => a i i).           (* 67-77, square case *)
Definition mmul (n : nat) (a b : mat) : mat := fun i j => sumn n (fun k => a i k * b k j).  (* 123-134 *)
Definition mtrans (a : mat) : mat := fun i j => a j i.                          (* 136-145 *)
Definition mident : mat := fun i j => if Nat.eqb i j then 1 else 0.             (* 147-154 *)
Definition mvec (n : nat) (a : mat) (v : vec) : vec := fun i => sumn n (fun j => a i j * v j). (* mv tfs 13-22 *)

(** 3-vectors and 3x3 matrices given by components *)
Definition v3 (x y z : R) : vec := fun i => match i with 0%nat => x | 1%nat => y | _ => z end.
Definition m3 (a b c d e f g h k : R) : mat := fun i j =>
  match i with 0%nat => v3 a b c j | 1%nat => v3 d e f j | _ => v3 g h k j end.

(** matrix tfs 156-188 (for R = 3) *)
Definition rot_x (t : R) : mat := m3 1 0 0  0 (cos t) (sin t)  0 (- sin t) (cos t).
Definition rot_y (t : R) : mat := m3 (cos t) 0 (- sin t)  0 1 0  (sin t) 0 (cos t).
Definition rot_z (t : R) : mat := m3 (cos t) (sin t) 0  (- sin t) (cos t) 0  0 0 1.

(** vector.cpp:32-53 (the second conjunct of the first test repeats the first) *)
Definition orthogonal_unit_vector (v : vec) : vec :=
  let x := v 0%nat in let y := v 1%nat in let z := v 2%nat in
  if rle (x * x) (y * y) && rle (x * x) (y * y) then normalize 3 (v3 0 z (- y))
  else if rle (y * y) (x * x) && rle (y * y) (z * z) then normalize 3 (v3 (- z) 0 x)
  else normalize 3 (v3 y (- x) 0).
