(** Vocabulary of the statements about the WINGS command sender. *)
From Coq Require Import Reals List ZArith Bool Ascii String.
From Verif Require Import Base StringModel SettingModel SettingSpec WingsModel.
Import ListNotations.
Open Scope R_scope.

(** k calls of period [step] are needed to let [w] seconds pass: k = max(0, ceil(w / step)) *)
Definition wait_calls (step w : R) (k : nat) : Prop :=
  (w <= 0 /\ k = 0%nat) \/ (0 < w /\ (1 <= k)%nat /\ (INR k - 1) * step < w /\ w <= INR k * step).

(** the event history in which every line is executed once, followed by its idle calls *)
Fixpoint history (runs : list (str * list sent * nat)) : list event :=
  match runs with
  | [] => []
  | (l, o, k) :: r => Ran l o :: repeat Idle k ++ history r
  end.

(** [bs] encodes the integer [v] in the type [t] (most significant byte first, two's complement) *)
Definition encodes (t : argtype) (v : Z) (bs : list Z) : Prop :=
  exists w sg, integer_type t = Some (w, sg) /\ List.length bs = w /\ Forall is_byte bs /\
    (if sg then twos_complement w (big_endian bs) else big_endian bs) = v.
(** [v] can be represented in the type [t] *)
Definition fits (t : argtype) (v : Z) : Prop :=
  exists w sg, integer_type t = Some (w, sg) /\ in_range w sg v.
(** bytes needed by the arguments of a command *)
Definition arg_width (t : argtype) : nat := match integer_type t with Some (w, _) => w | None => 0 end.
Definition total_width (ts : list argtype) : nat := fold_right (fun t n => (arg_width t + n)%nat) 0%nat ts.
