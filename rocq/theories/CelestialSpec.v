(** Celestial bodies: what is expected, independently of the code. *)
From Coq Require Import Reals List Bool Arith ZArith String.
From Verif Require Import Base RBase VecModel QuatModel QuatSpec CelestialModel.
Import ListNotations.
Open Scope R_scope.

(** the array holds the three components of v in the place of body number i *)
Definition holds (a : list R) (i : nat) (v : vec) : Prop := forall j, (j < 3)%nat -> nth_error a (3 * i + j) = Some (v j).
(** the arrays have a place for every selected body *)
Definition well_sized (g : celestial) : Prop :=
  List.length (body_pos g) = (3 * n_bodies g)%nat /\ List.length (body_vel g) = (3 * n_bodies g)%nat /\ List.length (body_radius g) = n_bodies g.
Definition local_sized (g : celestial) (l : local_celestial) : Prop :=
  forall a, In a [pc_b l; vc_b l; ps_i l; vs_i l; ps_b l; vs_b l] -> List.length a = (3 * n_bodies g)%nat.
(** the body called name is selected, and i is its first place in the list *)
Definition selected_at (naif : string -> option Z) (g : celestial) (name : string) (i : nat) : Prop :=
  exists p, naif name = Some p /\ nth_error (body_ids g) i = Some p /\ forall k, (k < i)%nat -> nth_error (body_ids g) k <> Some p.
(** a result equal to v in its three components *)
Definition gives (o : outcome vec) (v : vec) : Prop := exists u, o = Ok u /\ veq 3 u v.
