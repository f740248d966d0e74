(** Vocabulary of the statements about settings files, command databases and operation files. *)
From Coq Require Import List ZArith Bool Ascii String.
From Verif Require Import Base StringModel SettingModel.
Import ListNotations.
Open Scope Z_scope.

(** * C37: value of bytes read most significant first *)
Definition big_endian (l : list Z) : Z := fold_left (fun a b => 256 * a + b) l 0.
Definition is_byte (b : Z) : Prop := 0 <= b < 256.
(** two's complement reading of an unsigned value of w bytes *)
Definition twos_complement (w : nat) (u : Z) : Z :=
  if u <? 2 ^ (8 * Z.of_nat w - 1) then u else u - 2 ^ (8 * Z.of_nat w).

(** integer types: width in bytes, signedness *)
Definition integer_type (t : argtype) : option (nat * bool) :=
  match t with
  | kUint8t => Some (1, false) | kUint16t => Some (2, false) | kUint32t => Some (4, false) | kUint64t => Some (8, false)
  | kInt8t => Some (1, true) | kInt16t => Some (2, true) | kInt32t => Some (4, true) | kInt64t => Some (8, true)
  | _ => None
  end%nat.
Definition in_range (w : nat) (signed : bool) (v : Z) : Prop :=
  if signed then - 2 ^ (8 * Z.of_nat w - 1) <= v < 2 ^ (8 * Z.of_nat w - 1) else 0 <= v < 2 ^ (8 * Z.of_nat w).

(** * C38: c is what remains of [line] after removing one leading '.', one leading blank and
    everything from the first '#' *)
Definition opt_lead (x : ascii) (d s : str) : Prop := (* d is the removed lead of d ++ s *)
  d = [x] \/ (d = [] /\ hd_error s <> Some x).
Definition cleaned (line c : str) : Prop :=
  exists d b r, line = d ++ b ++ c ++ r /\
    opt_lead "."%char d (b ++ c ++ r) /\ opt_lead " "%char b (c ++ r) /\
    ~ In "#"%char c /\ (r = [] \/ hd_error r = Some "#"%char).

(** * C45 *)
(** occurrence of p in s at position i *)
Definition occurs (p s : str) (i : nat) : Prop := exists t, skipn i s = p ++ t.
Definition free_of (p s : str) : Prop := forall i, ~ occurs p s i.

Fixpoint mapM {A B} (f : A -> outcome B) (l : list A) : outcome (list B) :=
  match l with [] => Ok [] | x :: r => let! y := f x in let! ys := mapM f r in Ok (y :: ys) end.

(** * C52 *)
(** the last command of the list with that name *)
Definition last_named (cs : list command) (name : str) : option command :=
  List.find (fun c => str_eqb (cname c) name) (rev cs).
