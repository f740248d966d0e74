(** Monte-Carlo simulation: what is expected, independently of the code. *)
From Coq Require Import Reals List ZArith Bool Ascii String.
From Verif Require Import Base StringModel VecModel McModel.
Import ListNotations.
Open Scope R_scope.

(** the configuration of a parameter as the user gave it *)
Definition config : Type := (list R * list R * rtype)%type.
Definition config_of (p : param) : config := (mean_or_min p, sigma_or_max p, randomization_type p).
(** one call of AddInitializedMonteCarloParameter: object name, parameter name, configuration *)
Definition addition : Type := (str * str * config)%type.
(** the first addition made for this object and parameter *)
Fixpoint first_added (so ip : str) (l : list addition) : option config :=
  match l with
  | [] => None
  | (a, b, c) :: r => if str_eqb so a && str_eqb ip b then Some c else first_added so ip r
  end.
Definition dot_free (s : str) : Prop := ~ In "."%char s.
(** how many values each kind of randomization produces *)
Definition value_count (c : config) : nat :=
  let '(mean, _, t) := c in
  match t with
  | kNoRandomization => 0
  | kCartesianUniform | kCartesianNormal => List.length mean
  | kCircularNormalUniform | kCircularNormalNormal => 2
  | kSphericalNormalUniformUniform | kSphericalNormalNormal => 3
  | kQuaternionUniform | kQuaternionNormal => 4
  end.

(** uniform draws are in [0, 1) *)
Definition proper (o : oracle) : Prop := forall n, 0 <= uniform o n < 1.

(** simulation objects: construction of a named object at an address, destruction of a constructed one *)
Inductive event : Type := Construct (name : str) (this : nat) | Destruct (this : nat).
(** the objects alive (address, name), newest first; a construction under the name of a live object fails *)
Definition live_step (l : list (nat * str)) (e : event) : list (nat * str) :=
  match e with
  | Construct name this => if existsb (fun x => str_eqb name (snd x)) l then l else (this, name) :: l
  | Destruct this => filter (fun x => negb (Nat.eqb (fst x) this)) l
  end.
Definition live (h : list event) : list (nat * str) := fold_left live_step h [].
(** addresses of objects alive at the same time differ *)
Fixpoint fresh_from (l : list (nat * str)) (h : list event) : Prop :=
  match h with
  | [] => True
  | e :: r => match e with Construct _ this => ~ In this (map fst l) | Destruct _ => True end /\ fresh_from (live_step l e) r
  end.

(** order of the keys: a proper prefix first, otherwise by the first character that differs *)
Inductive before : str -> str -> Prop :=
| before_prefix : forall x b, before [] (x :: b)
| before_char : forall x y a b, (code x < code y)%Z -> before (x :: a) (y :: b)
| before_rest : forall x a b, before a b -> before (x :: a) (x :: b).
(** the point of the unit sphere that the pair (u, v) of the unit square stands for: height uniform, longitude uniform *)
Definition on_sphere (u v : R) : vec :=
  let z := 1 - 2 * u in let rho := sqrt (1 - z * z) in v3 (rho * cos (2 * PI * v)) (rho * sin (2 * PI * v)) z.
