(** Model of src/math_physics/math/quaternion.cpp (line numbers below refer to it), vector.cpp and
    s2e_math.cpp.  Doubles are real numbers.  A Quaternion is its Vector<4> (x, y, z, w). *)
From Coq Require Import Reals Lra Lia List Bool.
From Verif Require Import Base RBase VecModel Trig.
Open Scope R_scope.

Definition quat : Type := vec.
Definition q4 (x y z w : R) : quat := fun i => match i with 0%nat => x | 1%nat => y | 2%nat => z | _ => w end.

(** <cfloat>: DBL_EPSILON *)
Definition dbl_epsilon : R := / 2 ^ 52.

(** 14-23; the axis is used as given, it is not normalized *)
Definition q_axis_angle (axis : vec) (angle : R) : quat :=
  let half := angle * (1 / 2) in
  q4 (axis 0%nat * sin half) (axis 1%nat * sin half) (axis 2%nat * sin half) (cos half).

(** 25-55; the asserts (compiled in unless NDEBUG) abort, modelled as Throw *)
Definition q_two_vectors (before after : vec) : outcome quat :=
  if negb (rlt dbl_epsilon (norm 3 before)) then Throw else
  if negb (rlt dbl_epsilon (norm 3 after)) then Throw else
  let b := vscal (1 / norm 3 before) before in
  let a := vscal (1 / norm 3 after) after in
  let ip := dot 3 b a in
  let op := cross b a in
  if rlt (1 - dbl_epsilon) ip then Ok (q4 0 0 0 1)
  else if rlt ip (-1 + dbl_epsilon) then
    let axis := orthogonal_unit_vector before in
    Ok (q4 (axis 0%nat) (axis 1%nat) (axis 2%nat) 0)
  else if negb (rlt 0 (norm 3 op)) then Throw
  else
    let axis := vscal (1 / norm 3 op) op in
    let angle := acos ip in
    let half := 1 / 2 * angle in
    Ok (q4 (axis 0%nat * sin half) (axis 1%nat * sin half) (axis 2%nat * sin half) (cos half)).

Definition qsub (l r : quat) : quat := fun i => l i - r i.        (* 57-63 *)
Definition qadd (l r : quat) : quat := fun i => l i + r i.        (* 65-71 *)

(** 73-82 *)
Definition qmul (l r : quat) : quat :=
  q4 (l 3%nat * r 0%nat - l 2%nat * r 1%nat + l 1%nat * r 2%nat + l 0%nat * r 3%nat)
     (l 2%nat * r 0%nat + l 3%nat * r 1%nat - l 0%nat * r 2%nat + l 1%nat * r 3%nat)
     (- l 1%nat * r 0%nat + l 0%nat * r 1%nat + l 3%nat * r 2%nat + l 2%nat * r 3%nat)
     (- l 0%nat * r 0%nat - l 1%nat * r 1%nat - l 2%nat * r 2%nat + l 3%nat * r 3%nat).

(** 84-93 *)
Definition qmulv (l : quat) (r : vec) : quat :=
  q4 (l 1%nat * r 2%nat - l 2%nat * r 1%nat + l 3%nat * r 0%nat)
     (- l 0%nat * r 2%nat + l 2%nat * r 0%nat + l 3%nat * r 1%nat)
     (l 0%nat * r 1%nat - l 1%nat * r 0%nat + l 3%nat * r 2%nat)
     (- l 0%nat * r 0%nat - l 1%nat * r 1%nat - l 2%nat * r 2%nat).

Definition qscal (c : R) (q : quat) : quat := fun i => c * q i.   (* 95-101 *)

(** 103-118 *)
Definition qnormalize (q : quat) : quat :=
  let n := 0 + q 0%nat * q 0%nat + q 1%nat * q 1%nat + q 2%nat * q 2%nat + q 3%nat * q 3%nat in
  if req n 0 then q else let n := 1 / sqrt n in fun i => q i * n.

(** 120-126 *)
Definition qconj (q : quat) : quat := fun i => if Nat.ltb i 3 then q i * -1 else q i.

(** 128-144 *)
Definition to_dcm (q : quat) : mat :=
  let x := q 0%nat in let y := q 1%nat in let z := q 2%nat in let w := q 3%nat in
  m3 (w * w + x * x - y * y - z * z)  (2 * (x * y + w * z))  (2 * (x * z - w * y))
     (2 * (x * y - w * z))  (w * w - x * x + y * y - z * z)  (2 * (y * z + w * x))
     (2 * (x * z + w * y))  (2 * (y * z - w * x))  (w * w - x * x - y * y + z * z).

(** 152-160: the scan for the largest |q[i]|, from max_value = 0, max_index = 0 *)
Definition scan_max (q : quat) : nat :=
  let step (st : R * nat) (i : nat) :=
    let (mv, mi) := st in if rlt mv (Rabs (q i)) then (Rabs (q i), i) else (mv, mi) in
  snd (step (step (step (step (0, 0%nat) 0%nat) 1%nat) 2%nat) 3%nat).

(** 146-185; sqrt of a negative number is 0 here (NaN in C++): for a rotation matrix the radicands
    are never negative *)
Definition from_dcm (m : mat) : quat :=
  let q := q4 (sqrt (1 + m 0%nat 0%nat - m 1%nat 1%nat - m 2%nat 2%nat) / 2)
              (sqrt (1 - m 0%nat 0%nat + m 1%nat 1%nat - m 2%nat 2%nat) / 2)
              (sqrt (1 - m 0%nat 0%nat - m 1%nat 1%nat + m 2%nat 2%nat) / 2)
              (sqrt (1 + m 0%nat 0%nat + m 1%nat 1%nat + m 2%nat 2%nat) / 2) in
  match scan_max q with
  | 0%nat => q4 (q 0%nat)
                ((m 0%nat 1%nat + m 1%nat 0%nat) / (4 * q 0%nat))
                ((m 0%nat 2%nat + m 2%nat 0%nat) / (4 * q 0%nat))
                ((m 1%nat 2%nat - m 2%nat 1%nat) / (4 * q 0%nat))
  | 1%nat => q4 ((m 0%nat 1%nat + m 1%nat 0%nat) / (4 * q 1%nat))
                (q 1%nat)
                ((m 2%nat 1%nat + m 1%nat 2%nat) / (4 * q 1%nat))
                ((m 2%nat 0%nat - m 0%nat 2%nat) / (4 * q 1%nat))
  | 2%nat => q4 ((m 2%nat 0%nat + m 0%nat 2%nat) / (4 * q 2%nat))
                ((m 2%nat 1%nat + m 1%nat 2%nat) / (4 * q 2%nat))
                (q 2%nat)
                ((m 0%nat 1%nat - m 1%nat 0%nat) / (4 * q 2%nat))
  | _ => q4 ((m 1%nat 2%nat - m 2%nat 1%nat) / (4 * q 3%nat))
            ((m 2%nat 0%nat - m 0%nat 2%nat) / (4 * q 3%nat))
            ((m 0%nat 1%nat - m 1%nat 0%nat) / (4 * q 3%nat))
            (q 3%nat)
  end.

(** 187-194 *)
Definition to_euler (q : quat) : vec :=
  let d := to_dcm q in
  v3 (atan2 (d 1%nat 2%nat) (d 2%nat 2%nat))
     (atan2 (- d 0%nat 2%nat) (sqrt (d 1%nat 2%nat * d 1%nat 2%nat + d 2%nat 2%nat * d 2%nat 2%nat)))
     (atan2 (d 0%nat 1%nat) (d 0%nat 0%nat)).

(** 196-213 *)
Definition euler_dcm (e : vec) : mat :=
  let s i := sin (e i) in let c i := cos (e i) in
  m3 (c 1%nat * c 2%nat) (c 1%nat * s 2%nat) (- s 1%nat)
     (- c 0%nat * s 2%nat + s 0%nat * s 1%nat * c 2%nat) (c 0%nat * c 2%nat + s 0%nat * s 1%nat * s 2%nat) (s 0%nat * c 1%nat)
     (s 0%nat * s 2%nat + c 0%nat * s 1%nat * c 2%nat) (- s 0%nat * c 2%nat + c 0%nat * s 1%nat * s 2%nat) (c 0%nat * c 1%nat).
Definition from_euler (e : vec) : quat := from_dcm (euler_dcm e).

(** 215-224 and 226-235; the answer is the vector part *)
Definition frame_conversion (q : quat) (v : vec) : vec := qmul (qmulv (qconj q) v) q.
Definition inverse_frame_conversion (q : quat) (v : vec) : vec := qmul (qmulv q v) (qconj q).

(** vector.cpp:11-30 *)
Definition to_polar (v : vec) : vec :=
  let r := norm 3 v in
  if req r 0 then v3 r 0 0 else
  let theta := acos (v 2%nat / r) in
  if req (v 0%nat) 0 && req (v 1%nat) 0 then v3 r theta 0 else
  let phi := atan2 (v 1%nat) (v 0%nat) in
  v3 r theta (if rlt phi 0 then phi + 2 * PI else phi).

(** s2e_math.cpp:11-25.  The two while loops run with a step budget; None means the budget was not
    enough.  [sub] and [add] are the machine's operations on the angle (exact, or rounded). *)
Section wrap.
  Context (add sub : R -> R -> R) (tau : R).
  Fixpoint wrap_up (fuel : nat) (a : R) : option R :=
    if rlt a 0 then match fuel with O => None | S k => wrap_up k (add a tau) end else Some a.
  Fixpoint wrap_down (fuel : nat) (a : R) : option R :=
    if rlt tau a then match fuel with O => None | S k => wrap_down k (sub a tau) end else Some a.
  Definition wrap_to_2pi (fuel : nat) (a : R) : option R :=
    if rlt a 0 then wrap_up fuel a else if rlt tau a then wrap_down fuel a else Some a.
End wrap.
