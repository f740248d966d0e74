(** Model of src/math_physics/math/interpolation.cpp (cited as I) and
    src/math_physics/orbit/interpolation_orbit.cpp (cited as O).  Doubles are real numbers. *)
From Coq Require Import Reals List Bool Arith Lia.
From Verif Require Import Base RBase VecModel LuModel.
Import ListNotations.
Open Scope R_scope.

(** interpolation.hpp: the two std::vector members and degree_ *)
Record interp : Type := mkInterp { xs : list R; ys : list R; degree : nat }.
(** constructor, interpolation.hpp: degree_ is the size of the first vector *)
Definition interpolation (x y : list R) : interp := mkInterp x y (length x).

Definition ix (d : interp) : vec := fun i => nth i (xs d) 0.
Definition iy (d : interp) : vec := fun i => nth i (ys d) 0.

(** I 84-95; state: difference1, output *)
Definition find_nearest (d : interp) (x : R) : nat :=
  snd (for_ (degree d) 0
        (fun i st => let '(d1, out) := st in
                     let d2 := Rabs (x - ix d i) in
                     if rlt d2 d1 then (d2, i) else (d1, out))
        (Rabs (x - ix d 0%nat), 0%nat)).

(** I 22-29, the loop over i for one m; state: down_diff, up_diff *)
Definition neville_stage (d : interp) (x : R) (m : nat) (st : vec * vec) : vec * vec :=
  for_ (degree d - m) 0
    (fun i st => let '(down, up) := st in
       let denominator := ix d i - ix d (i + m)%nat in
       let down_minus_up := down (i + 1)%nat - up i in
       let up' := upd up i ((ix d (i + m)%nat - x) * down_minus_up / denominator) in
       let down' := upd down i ((ix d i - x) * down_minus_up / denominator) in
       (down', up')) st.

(** I 12-42.  Reading a std::vector outside its size is undefined behaviour. *)
Definition calc_polynomial (d : interp) (x : R) : outcome R :=
  if (Nat.eqb (degree d) 0 || (length (xs d) <? degree d)%nat || (length (ys d) <? degree d)%nat)%bool then UB else
  let nearest := find_nearest d x in
  let '(y, _, _, _) :=
    for_ (degree d - 1) 1
      (fun m st => let '(y, down, up, d_idx) := st in
         let '(down, up) := neville_stage d x m (down, up) in
         if (m <=? nearest)%nat then (y + up (nearest - d_idx)%nat, down, up, S d_idx)
         else (y + down 0%nat, down, up, d_idx))
      (iy d nearest, iy d, iy d, 1%nat) in
  Ok y.

(** I 60-68 *)
Definition trig_basis (d : interp) (x period : R) (start end_ i : nat) : R :=
  for_ (end_ - start) start
    (fun j t => if Nat.eqb i j then t
                else t * (sin (period * (x - ix d j) / 2) / sin (period * (ix d i - ix d j) / 2))) 1.
(** I 44-71 *)
Definition calc_trigonometric (d : interp) (x period : R) : outcome R :=
  if (Nat.eqb (degree d) 0 || (length (xs d) <? degree d)%nat || (length (ys d) <? degree d)%nat)%bool then UB else
  let even := Nat.eqb (degree d mod 2) 0 in
  let drop_end := (even && (find_nearest d x * 2 <? degree d)%nat)%bool in
  let drop_start := (even && negb (find_nearest d x * 2 <? degree d)%nat)%bool in
  let end_ := if drop_end then (degree d - 1)%nat else degree d in
  let start := if drop_start then 1%nat else 0%nat in
  Ok (for_ (end_ - start) start (fun i y => y + trig_basis d x period start end_ i * iy d i) 0).

(** I 73-82; back() and erase(begin()) of an empty vector are undefined *)
Definition push_and_pop (d : interp) (x y : R) : outcome (bool * interp) :=
  match xs d with
  | [] => UB
  | x0 :: xt =>
    if rle x (last (xs d) 0) then Ok (false, d) else
    match ys d with
    | [] => UB
    | y0 :: yt => Ok (true, mkInterp (xt ++ [x]) (yt ++ [y]) (degree d))
    end
  end.

(** O 10-19 *)
Definition orbit_interpolation (n : nat) : interp * interp * interp :=
  let temp := interpolation (repeat (-1) n) (repeat 0 n) in (temp, temp, temp).
(** O 21-30; the three axes in order, stopping at the first refusal *)
Definition orbit_push (o : interp * interp * interp) (time : R) (p : R * R * R) : outcome (bool * (interp * interp * interp)) :=
  let '(ox, oy, oz) := o in let '(px, py, pz) := p in
  let! (r, ox) := push_and_pop ox time px in
  if negb r then Ok (false, (ox, oy, oz)) else
  let! (r, oy) := push_and_pop oy time py in
  if negb r then Ok (false, (ox, oy, oz)) else
  let! (r, oz) := push_and_pop oz time pz in
  if negb r then Ok (false, (ox, oy, oz)) else Ok (true, (ox, oy, oz)).
(** O 40-46 *)
Definition orbit_polynomial (o : interp * interp * interp) (time : R) : outcome (R * R * R) :=
  let '(ox, oy, oz) := o in
  let! x := calc_polynomial ox time in let! y := calc_polynomial oy time in let! z := calc_polynomial oz time in
  Ok (x, y, z).
(** O 32-38 *)
Definition orbit_trigonometric (o : interp * interp * interp) (time period : R) : outcome (R * R * R) :=
  let '(ox, oy, oz) := o in
  let! x := calc_trigonometric ox time period in let! y := calc_trigonometric oy time period in
  let! z := calc_trigonometric oz time period in
  Ok (x, y, z).

(** a history of PushAndPopData calls: the results and the final object *)
Fixpoint pushes (d : interp) (offers : list (R * R)) : outcome (list bool * interp) :=
  match offers with
  | [] => Ok ([], d)
  | (x, y) :: r => let! (b, d) := push_and_pop d x y in let! (bs, d) := pushes d r in Ok (b :: bs, d)
  end.
Fixpoint orbit_pushes (o : interp * interp * interp) (offers : list (R * (R * R * R))) : outcome (list bool * (interp * interp * interp)) :=
  match offers with
  | [] => Ok ([], o)
  | (t, p) :: r => let! (b, o) := orbit_push o t p in let! (bs, o) := orbit_pushes o r in Ok (b :: bs, o)
  end.
