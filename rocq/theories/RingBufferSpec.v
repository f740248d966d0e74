(** Specification of the ring buffer: a byte queue. *)
From Coq Require Import List Arith.
From Verif Require Import Base RingBufferModel.
Import ListNotations.

Section Spec.
Context {A : Type}.

(** The bytes an operation hands over: src[off .. off+len). *)
Definition slice (src : list A) (off len : nat) : list A := firstn len (skipn off src).

(** [dst] after bytes [d] have been stored from position [off] on. *)
Definition patched (dst : list A) (off : nat) (d : list A) : list A :=
  firstn off dst ++ d ++ skipn (off + length d) dst.

(** Queue semantics of a buffer of capacity parameter [s].
    A write keeps the last ((unread + written) mod s) bytes. *)
Definition q_write (s : nat) (q d : list A) : list A :=
  lastn ((length q + length d) mod s) (q ++ d).

Definition q_step (s : nat) (q : list A) (o : op A) : list A * out A :=
  match o with
  | OWrite src off len => (q_write s q (slice src off len), WCount len)
  | ORead dst off len =>
      let k := Nat.min len (length q) in
      (skipn k q, RData (patched dst off (firstn k q)) k)
  end.

Fixpoint q_run (s : nat) (q : list A) (ops : list (op A)) : list A * list (out A) :=
  match ops with
  | [] => (q, [])
  | o :: os => let (q1, x) := q_step s q o in
               let (q2, xs) := q_run s q1 os in (q2, x :: xs)
  end.

(** A caller's obligation: the memory it passes is large enough. *)
Definition in_bounds (o : op A) : Prop :=
  match o with
  | OWrite src off len => off + len <= length src
  | ORead dst off len => off + len <= length dst
  end.

(** An ideal unbounded queue: nothing is ever dropped. *)
Definition ideal_step (q : list A) (o : op A) : list A * out A :=
  match o with
  | OWrite src off len => (q ++ slice src off len, WCount len)
  | ORead dst off len =>
      let k := Nat.min len (length q) in
      (skipn k q, RData (patched dst off (firstn k q)) k)
  end.
Fixpoint ideal_run (q : list A) (ops : list (op A)) : list A * list (out A) :=
  match ops with
  | [] => (q, [])
  | o :: os => let (q1, x) := ideal_step q o in
               let (q2, xs) := ideal_run q1 os in (q2, x :: xs)
  end.

(** Along the ideal execution no write brings the unread bytes to [s] or more. *)
Fixpoint never_full (s : nat) (q : list A) (ops : list (op A)) : Prop :=
  match ops with
  | [] => True
  | o :: os =>
      match o with OWrite _ _ len => length q + len < s | ORead _ _ _ => True end
      /\ never_full s (fst (ideal_step q o)) os
  end.

(** The calls of a UART history that concern one side, and its outputs. *)
Definition side_eqb (a b : side) : bool :=
  match a, b with Tx, Tx => true | Rx, Rx => true | _, _ => false end.
Definition on_side {X} (d : side) (l : list (side * X)) : list X :=
  map snd (filter (fun p => side_eqb (fst p) d) l).
End Spec.
