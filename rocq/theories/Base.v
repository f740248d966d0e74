(** Common vocabulary of the models: outcomes of a C++ call, memory blocks. *)
From Coq Require Import List Arith ZArith Lia Bool.
Import ListNotations.

(** Result of running a piece of C++.
    [Ok a]  : normal termination with value [a];
    [Throw] : a C++ exception is thrown;
    [UB]    : undefined behaviour (out-of-bounds access, null dereference,
              read of an uninitialised object, signed overflow);
    [Hang]  : the loop did not terminate within the fuel given. *)
Inductive outcome (A : Type) : Type :=
| Ok (a : A)
| Throw
| UB
| Hang.
Arguments Ok {A} a.
Arguments Throw {A}.
Arguments UB {A}.
Arguments Hang {A}.

Definition bind {A B} (m : outcome A) (k : A -> outcome B) : outcome B :=
  match m with Ok a => k a | Throw => Throw | UB => UB | Hang => Hang end.

Notation "'let!' x := m 'in' k" := (bind m (fun x => k))
  (at level 200, x pattern, m at level 100, k at level 200).

(** The C library function memcpy(&dst[dpos], &src[spos], n) on blocks given as
    lists; touching a byte outside either block is undefined behaviour. *)
Definition memcpy {A} (dst : list A) (dpos : nat) (src : list A) (spos n : nat)
  : outcome (list A) :=
  if (dpos + n <=? length dst) && (spos + n <=? length src) then
    Ok (firstn dpos dst ++ firstn n (skipn spos src) ++ skipn (dpos + n) dst)
  else UB.

(** The last [k] elements of a list. *)
Definition lastn {A} (k : nat) (l : list A) : list A := skipn (length l - k) l.

Lemma length_lastn {A} k (l : list A) : length (lastn k l) = Nat.min k (length l).
Proof. unfold lastn. rewrite skipn_length. lia. Qed.

Lemma nth_error_skipn {A} (l : list A) n i :
  nth_error (skipn n l) i = nth_error l (n + i).
Proof.
  revert l; induction n as [|n IH]; intros l; simpl; [reflexivity|].
  destruct l as [|x l]; simpl; [now destruct i|apply IH].
Qed.

Lemma nth_error_firstn {A} (l : list A) n i :
  nth_error (firstn n l) i = if i <? n then nth_error l i else None.
Proof.
  revert l i; induction n as [|n IH]; intros l i.
  - simpl. destruct i; reflexivity.
  - destruct l as [|x l]; simpl.
    + destruct i; simpl; [reflexivity|]. now destruct (S i <? S n).
    + destruct i as [|i]; simpl; [reflexivity|]. rewrite IH. reflexivity.
Qed.

Lemma nth_error_ext {A} (l l' : list A) :
  (forall i, nth_error l i = nth_error l' i) -> l = l'.
Proof.
  revert l'; induction l as [|x l IH]; intros [|y l'] H.
  - reflexivity.
  - specialize (H 0); discriminate.
  - specialize (H 0); discriminate.
  - pose proof (H 0) as H0; simpl in H0; injection H0 as ->.
    f_equal. apply IH. intros i. apply (H (S i)).
Qed.

Lemma nth_error_app {A} (l l' : list A) i :
  nth_error (l ++ l') i =
  if i <? length l then nth_error l i else nth_error l' (i - length l).
Proof.
  destruct (Nat.ltb_spec i (length l)).
  - now rewrite nth_error_app1.
  - now rewrite nth_error_app2.
Qed.

Lemma nth_error_lastn {A} k (l : list A) i :
  nth_error (lastn k l) i = nth_error l (length l - k + i).
Proof. unfold lastn. apply nth_error_skipn. Qed.

Lemma memcpy_ok {A} (dst : list A) dpos src spos n :
  dpos + n <= length dst -> spos + n <= length src ->
  memcpy dst dpos src spos n
  = Ok (firstn dpos dst ++ firstn n (skipn spos src) ++ skipn (dpos + n) dst).
Proof.
  intros H1 H2. unfold memcpy.
  destruct (Nat.leb_spec (dpos + n) (length dst)); [|lia].
  destruct (Nat.leb_spec (spos + n) (length src)); [|lia]. reflexivity.
Qed.

Lemma memcpy_length {A} (dst : list A) dpos src spos n r :
  memcpy dst dpos src spos n = Ok r -> length r = length dst.
Proof.
  unfold memcpy.
  destruct (Nat.leb_spec (dpos + n) (length dst)); [|discriminate].
  destruct (Nat.leb_spec (spos + n) (length src)); [|discriminate].
  simpl. intros [= <-].
  rewrite !app_length, !firstn_length, !skipn_length. lia.
Qed.

Lemma memcpy_nth {A} (dst : list A) dpos src spos n r i :
  memcpy dst dpos src spos n = Ok r ->
  nth_error r i = if (dpos <=? i) && (i <? dpos + n)
                  then nth_error src (spos + (i - dpos)) else nth_error dst i.
Proof.
  unfold memcpy.
  destruct (Nat.leb_spec (dpos + n) (length dst)) as [H1|H1]; [|discriminate].
  destruct (Nat.leb_spec (spos + n) (length src)) as [H2|H2]; [|discriminate].
  simpl. intros [= <-].
  rewrite !nth_error_app, !nth_error_firstn, !firstn_length, !skipn_length, !nth_error_skipn.
  rewrite Nat.min_l by lia. rewrite (Nat.min_l n) by lia.
  destruct (Nat.leb_spec dpos i) as [Ha|Ha]; destruct (Nat.ltb_spec i (dpos + n)) as [Hb|Hb];
    destruct (Nat.ltb_spec i dpos) as [Hc|Hc]; simpl; try lia; try reflexivity.
  - destruct (Nat.ltb_spec (i - dpos) n); [|lia]. reflexivity.
  - destruct (Nat.ltb_spec (i - dpos) n); [lia|]. f_equal; lia.
Qed.
