(** Model of src/math_physics/randomization/: MinimalStandardLcg, MinimalStandardLcgWithShuffle,
    NormalRand, GlobalRandomization. [long] is 64 bit two's complement with overflow = UB;
    [double] is R. *)
From Coq Require Import List ZArith Bool Reals.
From Verif Require Import Base.
Import ListNotations.
Open Scope Z_scope.

(** minimal_standard_linear_congruential_generator.hpp 18-19, 49-50 *)
Definition kA : Z := 16807.
Definition kM : Z := 2147483647.
Definition kQ : Z := 127773.
Definition kR : Z := 2836.

Definition chk (z : Z) : outcome Z := if (- 2 ^ 63 <=? z) && (z <? 2 ^ 63) then Ok z else UB.

(** The integer part of MinimalStandardLcg::operator double(), .cpp 26-31: new value of seed_. *)
Definition lcg_step (s : Z) : outcome Z :=
  let k := Z.quot s kQ in
  let! kq := chk (k * kQ) in
  let! d := chk (s - kq) in
  let! t := chk (kA * d) in
  let! rk := chk (kR * k) in
  let! n := chk (t - rk) in
  if n <? 0 then chk (n + kM) else Ok n.

(** The value returned, line 32 with a_m_ = 1.0 / kM (line 12). *)
Definition lcg_out (s : Z) : R := (1 / IZR kM * IZR s)%R.

(** seed_ after n draws *)
Fixpoint lcg_iter (n : nat) (s : Z) : outcome Z :=
  match n with O => Ok s | S n' => let! s' := lcg_iter n' s in lcg_step s' end.

(** Constructors and Initialize, lines 14-25. *)
Definition lcg_default : Z := 3735928559.  (* 0xdeadbeef *)
Definition lcg_init (seed : Z) : outcome Z := if seed =? 0 then Throw else Ok seed.

(** MinimalStandardLcgWithShuffle, members *_with_shuffle.hpp 55-58. *)
Definition table_size : Z := 32.
Record shuffle : Type := mkShuffle { lcg : Z; position : Z; table : list R }.

(** Initialize(), lines 19-30: 8 warm-up draws, then 32 draws into the table. *)
Fixpoint fill (n : nat) (s : Z) : outcome (Z * list R) :=
  match n with
  | O => Ok (s, [])
  | S n' => let! s' := lcg_step s in
            let! r := fill n' s' in
            Ok (fst r, lcg_out s' :: snd r)
  end.
Definition shuffle_initialize (s : Z) (pos : Z) : outcome shuffle :=
  let! s8 := lcg_iter 8 s in
  let! r := fill 32 s8 in
  Ok (mkShuffle (fst r) pos (snd r)).
Definition shuffle_default : outcome shuffle := shuffle_initialize lcg_default 0.     (* line 10 *)
Definition shuffle_new (seed : Z) : outcome shuffle :=                                (* line 12 *)
  let! s := lcg_init seed in shuffle_initialize s 0.
Definition shuffle_init_seed (sh : shuffle) (seed : Z) : outcome shuffle :=           (* 14-17 *)
  let! s := lcg_init seed in shuffle_initialize s (position sh).

(** (size_t)x for a double: undefined outside [0, 2^64) (for x > -1 truncation gives 0). *)
Definition Rltb (a b : R) : bool := if Rlt_dec a b then true else false.
Definition size_t_of_double (x : R) : outcome Z :=
  if Rltb (-1) x && Rltb x 0 then Ok 0 else
  let i := Int_part x in if (i <? 0) || (2 ^ 64 <=? i) then UB else Ok i.

Fixpoint set_nth {A} (n : nat) (x : A) (l : list A) : list A :=
  match n, l with
  | _, [] => []
  | O, _ :: t => x :: t
  | S n', h :: t => h :: set_nth n' x t
  end.

(** MinimalStandardLcgWithShuffle::operator double(), lines 32-39. Out-of-range table access
    is undefined. *)
Definition shuffle_draw (sh : shuffle) : outcome (R * shuffle) :=
  match nth_error (table sh) (Z.to_nat (position sh)) with
  | None => UB
  | Some out =>
      let! s' := lcg_step (lcg sh) in
      let! i := size_t_of_double out in
      Ok (out, mkShuffle s' (((i * kM) mod 2 ^ 64) mod table_size)
                         (set_nth (Z.to_nat (position sh)) (lcg_out s') (table sh)))
  end.

Fixpoint shuffle_stream (n : nat) (sh : shuffle) : outcome (list R * shuffle) :=
  match n with
  | O => Ok ([], sh)
  | S n' => let! r := shuffle_draw sh in
            let! r' := shuffle_stream n' (snd r) in
            Ok (fst r :: fst r', snd r')
  end.

(** NormalRand, normal_randomization.{hpp,cpp}. *)
Record normal : Type := mkNormal {
  average : R; deviation : R; rng : shuffle; holder : R; is_empty : bool }.

(** DBL_EPSILON *)
Definition dbl_epsilon : R := / 2 ^ 52.
Definition Rgeb (a b : R) : bool := if Rle_dec b a then true else false.

(** The do-while loop of lines 23-28, with fuel. *)
Fixpoint polar_loop (fuel : nat) (sh : shuffle) : outcome (R * R * R * shuffle) :=
  match fuel with
  | O => Hang
  | S fuel' =>
      let! r1 := shuffle_draw sh in
      let! r2 := shuffle_draw (snd r1) in
      let v1 := (2 * fst r1 - 1)%R in
      let v2 := (2 * fst r2 - 1)%R in
      let rsq := (v1 * v1 + v2 * v2)%R in
      if Rgeb rsq 1 || Rltb rsq dbl_epsilon then polar_loop fuel' (snd r2)
      else Ok (v1, v2, rsq, snd r2)
  end.

(** NormalRand::operator double(), lines 20-39. *)
Definition normal_draw (fuel : nat) (nr : normal) : outcome (R * normal) :=
  if is_empty nr then
    let! r := polar_loop fuel (rng nr) in
    match r with
    | (v1, v2, rsq, sh) =>
        let fac := sqrt (-2 * ln rsq / rsq) in
        Ok ((v2 * fac * deviation nr + average nr)%R,
            mkNormal (average nr) (deviation nr) sh (v1 * fac)%R false)
    end
  else Ok ((holder nr * deviation nr + average nr)%R,
           mkNormal (average nr) (deviation nr) (rng nr) (holder nr) true).

(** Constructors (11-18) and SetParameters with seed (normal_randomization.hpp 93-97). *)
Definition normal_new (avg sd : R) (seed : Z) : outcome normal :=
  let! sh := shuffle_new seed in Ok (mkNormal avg sd sh 0 true).
Definition normal_set_parameters_seed (nr : normal) (avg sd : R) (seed : Z) : outcome normal :=
  let! sh := shuffle_init_seed (rng nr) seed in
  Ok (mkNormal avg sd sh (holder nr) (is_empty nr)).

(** GlobalRandomization::MakeSeed, global_randomization.cpp 20-27; (long) truncates to zero. *)
Definition long_of_double (x : R) : outcome Z :=
  let t := if Rgeb x 0 then Int_part x else - Int_part (- x) in
  chk t.
Definition make_seed (base : Z) : outcome (Z * Z) :=
  let! s' := lcg_step base in
  let! seed := long_of_double ((lcg_out s' - 5 / 10) * 4294967295)%R in
  Ok (s', if seed =? 0 then 3735928559 else seed).

(** n consecutive draws from a NormalRand *)
Fixpoint normal_run (n fuel : nat) (nr : normal) : outcome (list R * normal) :=
  match n with
  | O => Ok ([], nr)
  | S n' => let! r := normal_draw fuel nr in
            let! r' := normal_run n' fuel (snd r) in
            Ok (fst r :: fst r', snd r')
  end.

(** n consecutive MakeSeed calls: the seeds handed out *)
Fixpoint make_seeds (n : nat) (base : Z) : outcome (list Z * Z) :=
  match n with
  | O => Ok ([], base)
  | S n' => let! r := make_seed base in
            let! r' := make_seeds n' (fst r) in
            Ok (snd r :: fst r', snd r')
  end.
