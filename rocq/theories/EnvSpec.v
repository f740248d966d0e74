(** Local environment: what is expected, independently of the code. *)
From Coq Require Import Reals List Bool Arith ZArith String.
From Verif Require Import Base RBase VecModel QuatModel QuatSpec DisturbanceModel CelestialModel CelestialSpec ShadowModel EnvModel.
Import ListNotations.
Open Scope R_scope.

(** a run: the celestial information and the inputs of each step *)
Section run.
Context (naif : string -> option Z) (walk_z : nat -> nat -> R) (noise_z : nat -> R) (igrf : inputs -> vec) (density : celestial -> inputs -> R).
Fixpoint env_run (c : env_config) (steps : list (celestial * inputs)) (st : option rmm_statics) (e : environment) : outcome (environment * option rmm_statics) :=
  match steps with
  | [] => Ok (e, st)
  | (g, x) :: rest => let! es := env_update naif walk_z noise_z igrf density c g x st e in env_run c rest (snd es) (fst es)
  end.
End run.
(** the sky s shows the body at its place as seen from a spacecraft at sc, with its radius *)
Definition shows (naif : string -> option Z) (g : celestial) (sc : vec) (s : sky) (name : string) : Prop :=
  exists i r, selected_at naif g name i /\ holds (body_pos g) i r /\ nth_error (body_radius g) i = Some (radius s name) /\
    veq 3 (to_body s name) (fun j => r j - sc j).
