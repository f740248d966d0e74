(** SLIP framing, stated on whole byte strings. *)
From Coq Require Import List ZArith.
Import ListNotations.
Open Scope Z_scope.

(** 0xC0 END, 0xDB ESC, 0xDC, 0xDD *)
Definition escape (b : Z) : list Z :=
  if b =? 192 then [219; 220] else if b =? 219 then [219; 221] else [b].

(** Bytes before the first END. *)
Fixpoint frame (s : list Z) : list Z :=
  match s with [] => [] | b :: s' => if b =? 192 then [] else b :: frame s' end.

(** Meaning of an escaped string; an ESC followed by an unknown byte yields that byte. *)
Inductive Unesc : list Z -> list Z -> Prop :=
| U_nil : Unesc [] []
| U_plain b s r : b <> 219 -> Unesc s r -> Unesc (b :: s) (b :: r)
| U_end s r : Unesc s r -> Unesc (219 :: 220 :: s) (192 :: r)
| U_esc s r : Unesc s r -> Unesc (219 :: 221 :: s) (219 :: r)
| U_other b s r : b <> 220 -> b <> 221 -> Unesc s r -> Unesc (219 :: b :: s) (b :: r).

(** The string ends in an ESC that escapes nothing. *)
Inductive Dangling : list Z -> Prop :=
| D_end : Dangling [219]
| D_plain b s : b <> 219 -> Dangling s -> Dangling (b :: s)
| D_pair b s : Dangling s -> Dangling (219 :: b :: s).

Definition count (v : Z) (l : list Z) : nat := count_occ Z.eq_dec l v.
