(** C04, C05, C06, C41: SLIP framing and endian copy. *)
From Coq Require Import List ZArith.
From Verif Require Import Base SlipModel SlipSpec SlipProofs.
Import ListNotations.
Open Scope Z_scope.

(** C04: round trip, with and without header, whatever follows the frame. *)
Theorem C04_slip_round_trip : forall (m rest : list Z),
  (let! f := encode_slip m in decode_slip (f ++ rest)) = Ok m /\
  (let! f := encode_slip_with_header m in decode_slip_with_header (f ++ rest)) = Ok m.
Proof. exact roundtrip. Qed.
Print Assumptions C04_slip_round_trip.

(** C05: exact shape of the frame; END occurs only as delimiter. *)
Theorem C05_slip_frame_format : forall m : list Z, exists body,
  encode_slip m = Ok (body ++ [192]) /\
  encode_slip_with_header m = Ok (192 :: body ++ [192]) /\
  ~ In 192 body /\ body = flat_map escape m /\
  length body = (length m + count 192 m + count 219 m)%nat.
Proof. exact frame_format. Qed.
Print Assumptions C05_slip_frame_format.

Theorem C05_slip_frames_unique : forall m m' f,
  encode_slip m = Ok f -> encode_slip m' = Ok f -> m = m'.
Proof. exact encode_injective. Qed.
Print Assumptions C05_slip_frames_unique.

(** C06: on arbitrary bytes, the exact result, and exactly when the decoder
    reads past the end of its vector. *)
Theorem C06_slip_decode_any_input : forall s : list Z,
  (forall r, decode_slip s = Ok r <-> Unesc (frame s) r) /\
  (decode_slip s = UB <-> Dangling (frame s)).
Proof. exact decode_any. Qed.
Print Assumptions C06_slip_decode_any_input.

Theorem C06_slip_decode_with_header_any_input : forall s : list Z,
  (decode_slip_with_header s = UB <-> s = [] \/ Dangling (frame (tl s))) /\
  (forall r, decode_slip_with_header s = Ok r <-> s <> [] /\ Unesc (frame (tl s)) r).
Proof. exact decode_header_any. Qed.
Print Assumptions C06_slip_decode_with_header_any_input.

(** C06 as stated (never outside the vector) is false. *)
Theorem C06_slip_decode_safe_refuted : exists s, decode_slip s = UB.
Proof. exists [1; 219; 192; 7]. vm_compute. reflexivity. Qed.
Print Assumptions C06_slip_decode_safe_refuted.

(** C41: n >= 1 bytes are copied reversed, nothing else is touched. *)
Theorem C41_endian_copy_reverses : forall (dst src : list Z) (n : nat),
  (1 <= n)%nat -> (n <= length dst)%nat -> (n <= length src)%nat ->
  endian_memcpy dst src n = Ok (rev (firstn n src) ++ skipn n dst).
Proof. exact endian_memcpy_ok. Qed.
Print Assumptions C41_endian_copy_reverses.

Theorem C41_endian_copy_twice_is_identity : forall (d1 d2 src : list Z) (n : nat),
  (1 <= n)%nat -> length d1 = n -> length d2 = n -> length src = n ->
  (let! t := endian_memcpy d1 src n in endian_memcpy d2 t n) = Ok src.
Proof. exact endian_twice. Qed.
Print Assumptions C41_endian_copy_twice_is_identity.

(** C41 for length 0: one byte is copied although none was requested. *)
Theorem C41_endian_copy_zero_length_refuted : forall x xs y ys,
  endian_memcpy (x :: xs) (y :: ys) 0 = Ok (y :: xs).
Proof. exact endian_memcpy_zero. Qed.
Print Assumptions C41_endian_copy_zero_length_refuted.

Example ex_slip : encode_slip [1; 192; 219; 220; 221; 219] = Ok [1; 219; 220; 219; 221; 220; 221; 219; 221; 192].
Proof. vm_compute. reflexivity. Qed.
Example ex_slip_back : decode_slip [1; 219; 220; 219; 221; 220; 221; 219; 221; 192; 5; 219] = Ok [1; 192; 219; 220; 221; 219].
Proof. vm_compute. reflexivity. Qed.
Example ex_slip_invalid_escape : decode_slip [219; 7; 8] = Ok [7; 8].
Proof. vm_compute. reflexivity. Qed.
Example ex_endian : endian_memcpy [9;9;9;9] [1;2;3] 3 = Ok [3;2;1;9].
Proof. vm_compute. reflexivity. Qed.
