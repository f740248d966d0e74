(** Specification: two byte queues and, for the first device, the list of the parameters set so far. *)
From Coq Require Import List ZArith Bool.
From Verif Require Import Base RingBufferModel RingBufferSpec SerialExModel.
Import ListNotations.
Open Scope Z_scope.

(** A routine takes up to [size] bytes off the queue to the device and appends an answer to the other queue; [q_write] is the
    queue of RingBufferSpec (a queue of 1024 that overflows loses bytes).  [react] is what the device does with the bytes taken:
    new state and answer. *)
Section sp.
Context {S : Type} (size : nat) (react : list Z -> S -> S * list Z).
Definition sp_step (s : S * list Z * list Z) (a : act) : (S * list Z * list Z) * list Z :=
  let '(m, to_dev, to_obc) := s in
  match a with
  | ObcSends b => ((m, q_write 1024 to_dev b, to_obc), [])
  | ObcReads n => ((m, to_dev, skipn (Nat.min n (List.length to_obc)) to_obc), firstn n to_obc)
  | Routine => let (m', ans) := react (firstn size to_dev) m in
               ((m', skipn (Nat.min size (List.length to_dev)) to_dev, q_write 1024 to_obc ans), [])
  end.
Fixpoint sp_run (s : S * list Z * list Z) (acts : list act) : list (list Z) :=
  match acts with
  | [] => []
  | a :: rest => let (s', o) := sp_step s a in o :: sp_run s' rest
  end.
End sp.

(** first device: of five bytes taken, SET and a byte x (and anything) set x; the answer are the last 24 parameters, newest
    first, and zeros *)
Definition set_command (chunk : list Z) : list Z :=
  match chunk with
  | a :: b :: c :: x :: _ => if (a =? 83) && (b =? 69) && (c =? 84) then [x] else []   (* S E T *)
  | _ => []
  end.
Definition eo_react (chunk : list Z) (params : list Z) : list Z * list Z :=
  let params := set_command chunk ++ params in (params, firstn 24 (params ++ repeat 0 24)).
(** sender: three successive letters from the n-th on, and 0 *)
Definition sender_react (chunk : list Z) (n : nat) : nat * list Z :=
  let c := (Z.of_nat n mod 24) in (Datatypes.S n, [65 + c; 66 + c; 67 + c; 0]).
(** responder: the first three bytes of what was received, where fewer came the bytes of earlier receptions, and 0 *)
Definition responder_react (chunk : list Z) (last : list Z) : list Z * list Z :=
  let now := chunk ++ skipn (List.length chunk) last in
  (now, firstn 3 now ++ [0]).
