(** Model of src/utilities/slip.cpp and src/utilities/endian.cpp. *)
From Coq Require Import List Arith ZArith Bool.
From Verif Require Import Base.
Import ListNotations.
Open Scope Z_scope.

(** slip.cpp:13-16 *)
Definition FEND : Z := 192.
Definition FESC : Z := 219.
Definition TFEND : Z := 220.
Definition TFESC : Z := 221.

(** std::vector operations on lists; an iterator is an index. *)
(** std::find(begin+pos, end, v): index of the first v at or after pos, else length. *)
Fixpoint find_at (l : list Z) (v : Z) : nat :=
  match l with [] => 0%nat | x :: l' => if x =? v then 0%nat else S (find_at l' v) end.
Definition find_from (l : list Z) (pos : nat) (v : Z) : nat :=
  (pos + find_at (skipn pos l) v)%nat.
(** erase(it) *)
Definition erase (l : list Z) (i : nat) : list Z := firstn i l ++ skipn (S i) l.
(** insert(it, v) *)
Definition insert (l : list Z) (i : nat) (v : Z) : list Z := firstn i l ++ v :: skipn i l.
(** *it = v *)
Definition set_nth (l : list Z) (i : nat) (v : Z) : list Z := firstn i l ++ v :: skipn (S i) l.

(** slip.cpp:27-40, the loop of decode_slip.  Dereferencing fesc_itr + 1 = end() is UB. *)
Fixpoint decode_loop (fuel : nat) (out : list Z) (itr : nat) : outcome (list Z) :=
  match fuel with
  | O => Hang
  | S fuel' =>
    let itr := find_from out itr FESC in
    if Nat.eqb itr (length out) then Ok out else
    match nth_error out (S itr) with
    | None => UB
    | Some x =>
      let out := if x =? TFEND then set_nth out (S itr) FEND
                 else if x =? TFESC then set_nth out (S itr) FESC
                 else out in
      let out := erase out itr in
      decode_loop fuel' out (S itr)
    end
  end.

(** slip.cpp:18-43 *)
Definition decode_slip (inp : list Z) : outcome (list Z) :=
  let fend_itr := find_from inp 0 FEND in
  let out := firstn fend_itr inp in
  decode_loop (S (length out)) out 0.

(** slip.cpp:45-49; erasing [begin, begin+1) of an empty vector is UB. *)
Definition decode_slip_with_header (inp : list Z) : outcome (list Z) :=
  match inp with [] => UB | _ :: rest => decode_slip rest end.

(** slip.cpp:56-61: the FESC pass of encode_slip. *)
Fixpoint encode_fesc_loop (fuel : nat) (out : list Z) (itr : nat) : outcome (list Z) :=
  match fuel with
  | O => Hang
  | S fuel' =>
    let itr := find_from out itr FESC in
    if Nat.eqb itr (length out) then Ok out else
    encode_fesc_loop fuel' (insert out (S itr) TFESC) (S itr)
  end.

(** slip.cpp:65-71: the FEND pass. *)
Fixpoint encode_fend_loop (fuel : nat) (out : list Z) (itr : nat) : outcome (list Z) :=
  match fuel with
  | O => Hang
  | S fuel' =>
    let itr := find_from out itr FEND in
    if Nat.eqb itr (length out) then Ok out else
    encode_fend_loop fuel' (insert (set_nth out itr FESC) (S itr) TFEND) (S itr)
  end.

(** slip.cpp:51-75 *)
Definition encode_slip (inp : list Z) : outcome (list Z) :=
  let! out := encode_fesc_loop (S (length inp)) inp 0 in
  let! out := encode_fend_loop (S (length out)) out 0 in
  Ok (out ++ [FEND]).

(** slip.cpp:77-81 *)
Definition encode_slip_with_header (inp : list Z) : outcome (list Z) :=
  let! out := encode_slip inp in Ok (FEND :: out).

(** endian.cpp:12-26 with IS_LITTLE_ENDIAN defined.  [dst] and [src] are the memory
    blocks the pointers point to. *)
Fixpoint endian_loop (fuel : nat) (i last : nat) (dst src : list Z) : outcome (list Z) :=
  match fuel with
  | O => Hang
  | S fuel' =>
    if Nat.leb i last then
      match nth_error src i with
      | None => UB
      | Some x => if Nat.ltb (last - i) (length dst)
                  then endian_loop fuel' (S i) last (set_nth dst (last - i) x) src
                  else UB
      end
    else Ok dst
  end.
Definition endian_memcpy (dst src : list Z) (size : nat) : outcome (list Z) :=
  let last := Nat.pred size in   (* if (size > 0) size--; *)
  endian_loop (S (S last)) 0 last dst src.
