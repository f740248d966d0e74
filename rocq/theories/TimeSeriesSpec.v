(** What an orbit given by a table of time, position and velocity rows should be. *)
From Coq Require Import Reals List Arith ZArith.
From Verif Require Import Base InterpModel InterpSpec TimeSeriesModel.
Import ListNotations.
Open Scope R_scope.

Definition row0 : row := mkRow 0 (0, 0, 0) (0, 0, 0).
(** time of row i *)
Definition T (data : list row) (i : nat) : R := r_time (nth i data row0).
(** rows in order of time *)
Definition sorted (data : list row) : Prop := forall i j, (i < j < length data)%nat -> T data i < T data j.
(** consecutive rows at least h apart *)
Definition spaced (h : R) (data : list row) : Prop := forall i, (S i < length data)%nat -> h <= T data (S i) - T data i.
(** the n rows from row w on *)
Definition rows_from (data : list row) (w n : nat) : list row := firstn n (skipn w data).

(** x is the value at time t of the polynomial of degree below the number of rows that passes through the rows' values f *)
Definition interpolated (rows : list row) (f : row -> R) (t x : R) : Prop :=
  exists (c : list R) (t0 : R), (length c <= length rows)%nat /\ (forall r, In r rows -> peval c (r_time r - t0) = f r) /\ x = peval c (t - t0).
Definition interpolated3 (rows : list row) (f : row -> R * R * R) (t : R) (p : R * R * R) : Prop :=
  interpolated rows (fun r => fst (fst (f r))) t (fst (fst p)) /\ interpolated rows (fun r => snd (fst (f r))) t (snd (fst p)) /\
  interpolated rows (fun r => snd (f r)) t (snd p).

(** the first row of the window after a call at time t: it moves by one row if t is beyond the row m places after it *)
Definition advance (data : list row) (m w : nat) (t : R) : nat := if Rlt_dec (T data (w + m)) t then S w else w.
(** after a history of calls; None when it would leave the table *)
Fixpoint walk (data : list row) (n m w : nat) (ts : list R) : option nat :=
  match ts with
  | [] => Some w
  | t :: r => if (length data <? advance data m w t + n)%nat then None else walk data n m (advance data m w t) r
  end.
(** successive times never more than h apart and not decreasing *)
Fixpoint stepping (h t : R) (ts : list R) : Prop :=
  match ts with [] => True | u :: r => t <= u <= t + h /\ stepping h u r end.

(** x is what the trigonometric interpolation class (C57) makes of the rows' values f with the angular frequency of the period *)
Definition trigonometric (rows : list row) (f : row -> R) (period t0 t x : R) : Prop :=
  calc_trigonometric (interpolation (map (fun r => r_time r - t0) rows) (map f rows)) (t - t0) (2 * PI / period) = Ok x.
Definition trigonometric3 (rows : list row) (f : row -> R * R * R) (period t0 t : R) (p : R * R * R) : Prop :=
  trigonometric rows (fun r => fst (fst (f r))) period t0 t (fst (fst p)) /\ trigonometric rows (fun r => snd (fst (f r))) period t0 t (snd (fst p)) /\
  trigonometric rows (fun r => snd (f r)) period t0 t (snd p).

(** the state reported at time t by an orbit object whose construction chose row [start] as its origin and whose window now begins at row w *)
Definition answer (data : list row) (n : nat) (method : Z) (period : R) (start w : nat) (t : R) (p v : R * R * R) : Prop :=
  (t < T data start -> p = r_pos (nth 0 data row0) /\ v = r_vel (nth 0 data row0)) /\
  (T data start <= t -> (T data start + 1000000 < t \/ (w + n)%nat = length data) ->
     p = r_pos (nth (length data - 1) data row0) /\ v = r_vel (nth (length data - 1) data row0)) /\
  (T data start <= t <= T data start + 1000000 -> (w + n < length data)%nat ->
     (method <> 1%Z -> interpolated3 (rows_from data w n) r_pos t p /\ interpolated3 (rows_from data w n) r_vel t v) /\
     (method = 1%Z -> trigonometric3 (rows_from data w n) r_pos period (T data start) t p /\ trigonometric3 (rows_from data w n) r_vel period (T data start) t v)).
