(** Model of LuDecomposition, SolveLinearSystemWithLu and CalcInverseMatrix,
    src/math_physics/math/matrix_vector_template_functions.hpp:24-140.  Doubles are real numbers;
    arrays are functions of their index of which only the part below N is meaningful. *)
From Coq Require Import Reals List Bool Arith Lia.
From Verif Require Import Base RBase VecModel.
Open Scope R_scope.

(** for (k = start; k < start + count; ++k) state = body(k, state) *)
Fixpoint for_ {A} (count start : nat) (body : nat -> A -> A) (st : A) : A :=
  match count with O => st | S c => for_ c (S start) body (body start st) end.
Definition upd {A} (f : nat -> A) (i : nat) (x : A) : nat -> A := fun k => if Nat.eqb k i then x else f k.
Definition mset (a : mat) (i j : nat) (x : R) : mat := fun r c => if Nat.eqb r i && Nat.eqb c j then x else a r c.

(** 47-53: biggest |a[i][j]| of row i *)
Definition row_biggest (n : nat) (a : mat) (i : nat) : R :=
  for_ n 0 (fun j b => if rlt b (Rabs (a i j)) then Rabs (a i j) else b) 0.
(** 45-59 *)
Fixpoint scale_rows (count i n : nat) (a : mat) (coef : vec) : outcome vec :=
  match count with
  | O => Ok coef
  | S c => let big := row_biggest n a i in
           if req big 0 then Throw else scale_rows c (S i) n a (upd coef i (1 / big))
  end.
(** 63-66 and 73-76: a[i][j] minus the products of the first m factors *)
Definition reduced (a : mat) (m i j : nat) : R := for_ m 0 (fun k s => s - a i k * a k j) (a i j).
(** 62-68 *)
Definition upper_part (j : nat) (a : mat) : mat := for_ j 0 (fun i a => mset a i j (reduced a i i j)) a.
(** 70-84; state: the matrix, biggest, imax *)
Definition lower_part (n j : nat) (coef : vec) (a : mat) : mat * R * nat :=
  for_ (n - j) j (fun i st =>
    let '(a, biggest, imax) := st in
    let sum := reduced a j i j in
    let a' := mset a i j sum in
    let temp := coef i * Rabs sum in
    if rle biggest temp then (a', temp, i) else (a', biggest, imax)) (a, 0, j).
(** 88-92 *)
Definition swap_rows (n r s : nat) (a : mat) : mat :=
  for_ n 0 (fun i a => let temp := a r i in mset (mset a r i (a s i)) s i temp) a.
(** 101-106 (j != N always holds) *)
Definition scale_below (n j : nat) (a : mat) : mat :=
  let temp := 1 / a j j in for_ (n - S j) (S j) (fun i a => mset a i j (a i j * temp)) a.
(** 61-107, one column *)
Definition lu_column (n j : nat) (st : mat * vec * (nat -> nat)) : outcome (mat * vec * (nat -> nat)) :=
  let '(a, coef, index) := st in
  let a := upper_part j a in
  let '(a, _, imax) := lower_part n j coef a in
  let (a, coef) := (if Nat.eqb j imax then (a, coef) else (swap_rows n imax j a, upd coef imax (coef j))) in
  let index := upd index j imax in
  if req (a j j) 0 then Throw else Ok (scale_below n j a, coef, index).
Fixpoint lu_columns (count j n : nat) (st : mat * vec * (nat -> nat)) : outcome (mat * vec * (nat -> nat)) :=
  match count with
  | O => Ok st
  | S c => let! st' := lu_column n j st in lu_columns c (S j) n st'
  end.
(** 43-109; [coef0] and [index0] are the values of the uninitialised arrays *)
Definition lu_decomposition (n : nat) (coef0 : vec) (index0 : nat -> nat) (a : mat) : outcome (mat * (nat -> nat)) :=
  let! coef := scale_rows n 0 n a coef0 in
  let! (a', _, index) := lu_columns n 0 n (a, coef, index0) in
  Ok (a', index).

(** 113-129; state: b, non_zero, mark *)
Definition forward_step (a : mat) (index : nat -> nat) (i : nat) (st : vec * bool * nat) : vec * bool * nat :=
  let '(b, non_zero, mark) := st in
  let ip := index i in
  let sum := b ip in
  let b := upd b ip (b i) in
  if non_zero then
    (upd b i (for_ (i - mark) mark (fun j s => s - a i j * b j) sum), non_zero, mark)
  else if req sum 0 then (upd b i sum, false, mark)
  else (upd b i sum, true, i).
Definition forward (n : nat) (a : mat) (index : nat -> nat) (b : vec) : vec :=
  fst (fst (for_ n 0 (forward_step a index) (b, false, 0%nat))).
(** 131-137: i = n-1 down to 0; [m] indices are left *)
Fixpoint backward (m n : nat) (a : mat) (b : vec) : vec :=
  match m with
  | O => b
  | S i => let sum := for_ (n - S i) (S i) (fun j s => s - a i j * b j) (b i) in
           backward i n a (upd b i (sum / a i i))
  end.
(** 111-140 *)
Definition solve_lu (n : nat) (a : mat) (index : nat -> nat) (b : vec) : vec := backward n n a (forward n a index b).
(** 24-41 *)
Definition calc_inverse (n : nat) (coef0 : vec) (index0 : nat -> nat) (m inverse0 : mat) : outcome mat :=
  let! (temp, index) := lu_decomposition n coef0 index0 m in
  Ok (for_ n 0 (fun i inverse =>
        let x := solve_lu n temp index (upd (vconst 0) i 1) in
        for_ n 0 (fun j inverse => mset inverse j i (x j)) inverse) inverse0).
