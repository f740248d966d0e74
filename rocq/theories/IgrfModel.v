(** Model of src/math_physics/geomagnetic/igrf.cpp (I) and of RotationY, RotationZ in src/math_physics/orbit/sgp4/sgp4ext.cpp.
    Doubles are real numbers; the macros PI and DEG2RAD are exact, the truncated pi of URAD (I 68) is kept.  The text format
    of the coefficient file is not modelled: a file is its list of numbers, line by line (labels at the start of a line
    removed); exit(1) is Throw.  kext is 0 always (the only call of tcoef, I 448), so the external field (I 162-167) is left
    out, and so are mfldc, gcomp and total force f, which the simulator does not use. *)
From Coq Require Import Reals Lra Lia List Arith Bool ZArith.
From Verif Require Import Base RBase VecModel.
Import ListNotations.
Open Scope R_scope.

(** for (n = lo; count times; n++) body *)
Fixpoint loop {A : Type} (body : nat -> A -> A) (lo count : nat) (a : A) {struct count} : A :=
  match count with O => a | S k => loop body (S lo) k (body lo a) end.

(** the static arrays; every index used is below the declared sizes because maxod <= MxMOD = 19 (I 373) *)
Definition arr : Type := nat -> nat -> R.
Definition put (t : arr) (i j : nat) (v : R) : arr := fun a b => if ((a =? i) && (b =? j))%nat then v else t a b.
Definition put1 (t : nat -> R) (i : nat) (v : R) : nat -> R := fun a => if (a =? i)%nat then v else t a.

(** ** The coefficient file *)
(** I 347-418: the file name contains "13" and the file can be opened; maxod and ncol of line 1; the numbers of line 2; the
    numbers of the following lines *)
Record coef_file : Type := mkFile { cf_opens : bool; cf_maxod : Z; cf_ncol : Z; cf_years : list R; cf_rows : list (list R) }.

(** I 388-396: the loop over l; [count] is ncol - l.  Result: l, yr1, yr2 *)
Fixpoint pick (years : list R) (year : R) (count l : nat) (yr1 yr2 : R) {struct count} : outcome (nat * R * R) :=
  match count with
  | O => Ok (l, yr1, yr2)
  | S k =>
      match nth_error years (l - 1) with
      | None => Throw
      | Some v => if rlt year v then Ok (l, yr2, v) else pick years year k (S l) yr2 v
      end
  end.
(** I 397-419: cb[i] and cv[i], rows i, i+1, ... (count rows) *)
Fixpoint columns (rows : list (list R)) (l count : nat) {struct count} : outcome (list (R * R)) :=
  match count with
  | O => Ok []
  | S k =>
      match rows with
      | [] => Throw
      | row :: rows =>
          match nth_error row (l - 2), nth_error row (l - 1) with
          | Some b, Some v => let! rest := columns rows l k in Ok ((b, v) :: rest)
          | _, _ => Throw
          end
      end
  end.

(** vgh, vght, i and k of I 427-443 *)
Record layout : Type := mkLayout { ly_i : nat; ly_vgh : arr; ly_vght : arr; ly_k : nat }.
Section LAYOUT.
  Variables (cb cv : nat -> R) (nlin : nat) (junk : bool).
  (** (cb[i] != 0.) || (cv[i] != 0.): element nlin has never been written; [junk] says what the comparison gives *)
  Definition nonzero (i : nat) : bool := if (i =? nlin)%nat then junk else negb (req (cb i) 0) || negb (req (cv i) 0).
  (** i++; if (...) k = n; *)
  Definition advance (n : nat) (s : layout) : layout :=
    mkLayout (S (ly_i s)) (ly_vgh s) (ly_vght s) (if nonzero (S (ly_i s)) then n else ly_k s).
  (** v..[a][b] = c.[i] *)
  Definition store (a b : nat) (s : layout) : layout :=
    mkLayout (ly_i s) (put (ly_vgh s) a b (cb (ly_i s))) (put (ly_vght s) a b (cv (ly_i s))) (ly_k s).
  (** I 433-442 *)
  Definition layout_m (n m : nat) (s : layout) : layout := advance n (store n (m - 1) (advance n (store m n s))).
  (** I 428-443 *)
  Definition layout_n (n : nat) (s : layout) : layout := loop (layout_m n) 1 n (advance n (store 0 n s)).
  Definition layout_all (maxod : nat) (s : layout) : layout := loop layout_n 1 maxod s.
End LAYOUT.

(** what gigrf leaves behind: maxod, tzero, gh, ght *)
Record coefs : Type := mkCoefs { co_max : nat; co_tzero : R; co_gh : arr; co_ght : arr }.

(** tcoef, I 186-214: gh, ght and fac *)
Definition tcoef_m (agh aght : arr) (n m : nat) (s : arr * arr * R) : arr * arr * R :=
  let '(gh, ght, fac) := s in
  let fac := fac / sqrt (INR ((n + m) * (n - m + 1))) in
  (put (put gh m n (agh m n * fac)) n (m - 1) (agh n (m - 1)%nat * fac),
   put (put ght m n (aght m n * fac)) n (m - 1) (aght n (m - 1)%nat * fac), fac).
Definition tcoef_n (agh aght : arr) (n : nat) (s : arr * arr) : arr * arr :=
  let '(gh, ght) := s in
  let '(gh, ght, _) := loop (tcoef_m agh aght n) 1 n (put gh 0 n (agh 0%nat n), put ght 0 n (aght 0%nat n), sqrt 2) in
  (gh, ght).
Definition tcoef (agh aght : arr) (maxod : nat) (s : arr * arr) : arr * arr :=
  let '(gh, ght) := s in loop (tcoef_n agh aght) 1 maxod (put gh 0 0 0, put ght 0 0 0).

(** tyear, I 216-228 *)
Definition tyear_m (c : coefs) (dyear : R) (n m : nat) (g : arr) : arr :=
  put (put g m n (co_gh c m n + co_ght c m n * dyear)) n (m - 1) (co_gh c n (m - 1)%nat + co_ght c n (m - 1)%nat * dyear).
Definition tyear_n (c : coefs) (dyear : R) (n : nat) (g : arr) : arr :=
  loop (tyear_m c dyear n) 1 n (put g 0 n (co_gh c 0%nat n + co_ght c 0%nat n * dyear)).
Definition tyear (c : coefs) (year : R) (g : arr) : arr :=
  loop (tyear_n c (year - co_tzero c)) 1 (co_max c) (put g 0 0 0).

(** gigrf(13, year), I 316-450 (without the tyear call at its end, which IgrfCalc repeats at once, I 478).  The static arrays
    gh and ght are zero before (it is called once). *)
Definition gigrf (f : coef_file) (junk : bool) (year : R) : outcome coefs :=
  if negb (cf_opens f) then Throw
  else if ((cf_maxod f <? 8) || (19 <? cf_maxod f) || (cf_ncol f <? 2) || (50 <? cf_ncol f))%Z then Throw
  else
    let maxod := Z.to_nat (cf_maxod f) in
    let ncol := Z.to_nat (cf_ncol f) in
    let nlin := ((maxod + 1) * (maxod + 1) - 1)%nat in
    match nth_error (cf_years f) 0 with
    | None => Throw
    | Some y0 =>
        let! pk := pick (cf_years f) year (ncol - 2) 2 0 y0 in
        let '(l, yr1, yr2) := pk in
        let! cols := columns (cf_rows f) l nlin in
        let cb := fun i => fst (nth i cols (0, 0)) in
        let col2 := fun i => snd (nth i cols (0, 0)) in
        let tzero := if (l =? ncol)%nat then yr2 else yr1 in                                  (* I 420-423 *)
        let cv := if (l =? ncol)%nat then col2 else fun i => (col2 i - cb i) / (yr2 - yr1) in  (* I 424-425 *)
        if (maxod =? 19)%nat then UB  (* I 441: cb[399], behind the end of the array of MxELM = 399 elements *)
        else
          let s := layout_all cb cv nlin junk maxod (mkLayout 0 (fun _ _ => 0) (fun _ _ => 0) 0) in
          let '(gh, ght) := tcoef (ly_vgh s) (ly_vght s) (ly_k s) (fun _ _ => 0, fun _ _ => 0) in
          Ok (mkCoefs (ly_k s) tzero gh ght)
    end.

(** ** The field *)
(** the static variables that carry values from one call to the next *)
Record cache : Type := mkCache {
  ca_kg : Z; ca_kr : bool; ca_kth : bool; ca_kph : bool; ca_blat : R; ca_bhi : R; ca_blon : R;
  ca_r : R; ca_cth : R; ca_sth : R; ca_cph : R; ca_sph : R;
  ca_rar : nat -> R; ca_csp : nat -> R; ca_snp : nat -> R; ca_p : arr }.
(** static storage is zero before the first call *)
Definition cache_new : cache :=
  mkCache 0 false false false 0 0 0 0 0 0 0 0 (fun _ => 0) (fun _ => 0) (fun _ => 0) (fun _ _ => 0).
(** I 447: field(6378.137, 298.25722, 6371.2, maxod), I 171-184 *)
Definition re_ : R := 6378137 / 1000.
Definition rp_ : R := re_ * (1 - 1 / (29825722 / 100000)).
Definition ra_ : R := 63712 / 10.
Definition cache_field (c : cache) : cache :=
  mkCache 2 (ca_kr c) (ca_kth c) true (ca_blat c) (ca_bhi c) (ca_blon c) (ca_r c) (ca_cth c) (ca_sth c) (ca_cph c) (ca_sph c)
    (ca_rar c) (ca_csp c) (ca_snp c) (ca_p c).

(** fcalc, I 96-101 *)
Definition rar_table (maxod : nat) (r : R) (rar : nat -> R) : nat -> R :=
  let t := ra_ / r in
  loop (fun n rar => put1 rar n (rar (n - 1)%nat * t)) 1 maxod (put1 rar 0 (t * t)).
(** I 114-123 *)
Definition p_m (cth sth : R) (n m : nat) (p : arr) : arr :=
  put p m n
    (if rlt 0.175 sth
     then (p (m - 1)%nat (n - 1)%nat * INR (n + m - 1) - p (m - 1)%nat n * cth * INR (n - m + 1)) / sth
     else (p m (n - 1)%nat + p (m - 1)%nat n * sth * INR (n - m + 1)) / cth).
(** I 128-131 *)
Definition q_m (n m : nat) (p : arr) : arr :=
  put p (n + 1) m ((p (m - 1)%nat n * INR (n + m) * INR (n - m + 1) - p (m + 1)%nat n) / 2).
(** I 110-134 *)
Definition p_n (cth sth : R) (n : nat) (p : arr) : arr :=
  let p := put p 0 n ((p 0%nat (n - 1)%nat * cth * INR (n + n - 1) - p 0%nat (n - 2)%nat * INR (n - 1)) / INR n) in
  let p := loop (p_m cth sth n) 1 (n - 1) p in
  let p := put p n n (p (n - 1)%nat (n - 1)%nat * sth * INR (n + n - 1)) in
  let p := put p (n + 1) 0 (- p 1%nat n) in
  let p := loop (q_m n) 1 (n - 1) p in
  put p (n + 1) n ((p (n - 1)%nat (n - 1)%nat * cth + p n (n - 1)%nat * sth) * INR (n + n - 1)).
(** I 102-135 *)
Definition p_table (maxod : nat) (cth sth : R) (p : arr) : arr :=
  let p := put p 0 0 1 in
  let p := put p 1 0 0 in
  let p := put p 0 1 cth in
  let p := put p 2 0 (- sth) in
  let p := put p 1 1 sth in
  let p := put p 2 1 cth in
  loop (p_n cth sth) 2 (maxod - 1) p.
(** I 136-144 *)
Definition ph_table (maxod : nat) (cph sph : R) (s : (nat -> R) * (nat -> R)) : (nat -> R) * (nat -> R) :=
  loop (fun m s => (put1 (fst s) m (fst s (m - 1)%nat * cph - snd s (m - 1)%nat * sph),
                    put1 (snd s) m (snd s (m - 1)%nat * cph + fst s (m - 1)%nat * sph)))
       1 maxod (put1 (fst s) 0 1, put1 (snd s) 0 0).
(** I 152-156 *)
Definition sum_m (g : arr) (c : cache) (n m : nat) (t : R * R * R) : R * R * R :=
  let '(tx, ty, tz) := t in
  (tx + (g m n * ca_csp c m + g n (m - 1)%nat * ca_snp c m) * ca_p c (n + 1)%nat m,
   ty + (g m n * ca_snp c m - g n (m - 1)%nat * ca_csp c m) * ca_p c m n * INR m,
   tz + (g m n * ca_csp c m + g n (m - 1)%nat * ca_snp c m) * ca_p c m n).
(** I 148-160 *)
Definition sum_n (g : arr) (c : cache) (n : nat) (s : R * R * R) : R * R * R :=
  let '(x, y, z) := s in
  let '(tx, ty, tz) := loop (sum_m g c n) 1 n (g 0%nat n * ca_p c (n + 1)%nat 0%nat, 0, g 0%nat n * ca_p c 0%nat n) in
  (x + ca_rar c n * tx, y + ca_rar c n * ty, z - ca_rar c n * tz * INR (n + 1)).
(** I 92-169 *)
Definition fcalc (maxod : nat) (g : arr) (c : cache) : cache * (R * R * R) :=
  let rar := if ca_kr c then rar_table maxod (ca_r c) (ca_rar c) else ca_rar c in
  let p := if ca_kth c then p_table maxod (ca_cth c) (ca_sth c) (ca_p c) else ca_p c in
  let cs := if ca_kph c then ph_table maxod (ca_cph c) (ca_sph c) (ca_csp c, ca_snp c) else (ca_csp c, ca_snp c) in
  let c := mkCache (ca_kg c) false false false (ca_blat c) (ca_bhi c) (ca_blon c) (ca_r c) (ca_cth c) (ca_sth c) (ca_cph c) (ca_sph c)
             rar (fst cs) (snd cs) p in
  let '(x, y, z) := loop (sum_n g c) 1 maxod (0, 0, 0) in
  (c, (x, y / ca_sth c, z)).

(** I 68 *)
Definition urad : R := 180 / 3.14159265359.
(** I 232-253 *)
Definition mfldg_place (c : cache) (alat ahi : R) : cache :=
  if negb (ca_kg c =? 1)%Z || negb (req (ca_blat c) alat) || negb (req (ca_bhi c) ahi) then
    let rlat := alat / urad in
    let slat := sin rlat in
    let slat2 := slat * slat in
    let clat2 := 1 - slat2 in
    let re2 := re_ * re_ in
    let rp2 := rp_ * rp_ in
    let rm2 := re2 * clat2 + rp2 * slat2 in
    let rm := sqrt rm2 in
    let rrm := (re2 * re2 * clat2 + rp2 * rp2 * slat2) / rm2 in
    let r := sqrt (rrm + 2 * ahi * rm + ahi * ahi) in
    let cth := slat * (ahi + rp2 / rm) / r in
    let sth := sqrt (1 - cth * cth) in
    mkCache 1 true true (ca_kph c) alat ahi (ca_blon c) r cth (if rlt sth 0.00000015 then 0.00000015 else sth) (ca_cph c) (ca_sph c)
      (ca_rar c) (ca_csp c) (ca_snp c) (ca_p c)
  else c.
(** I 254-260 *)
Definition mfldg_lon (c : cache) (alon : R) : cache :=
  if ca_kph c || negb (req (ca_blon c) alon) then
    let phi := alon / urad in
    mkCache (ca_kg c) (ca_kr c) (ca_kth c) true (ca_blat c) (ca_bhi c) alon (ca_r c) (ca_cth c) (ca_sth c) (cos phi) (sin phi)
      (ca_rar c) (ca_csp c) (ca_snp c) (ca_p c)
  else c.
(** mfldg, I 230-266; ahi in km *)
Definition mfldg (maxod : nat) (g : arr) (c : cache) (alat alon ahi : R) : cache * (R * R * R) :=
  fcalc maxod g (mfldg_lon (mfldg_place c alat ahi) alon).

(** sgp4ext.cpp:58-86 *)
Definition rotation_y (v : vec) (theta : R) : vec := v3 (cos theta * v 0%nat - sin theta * v 2%nat) (v 1%nat) (sin theta * v 0%nat + cos theta * v 2%nat).
Definition rotation_z (v : vec) (theta : R) : vec := v3 (cos theta * v 0%nat + sin theta * v 1%nat) (- sin theta * v 0%nat + cos theta * v 1%nat) (v 2%nat).
(** I 458-464 *)
Definition magaxis_to_eci (mag : vec) (lon theta gmst : R) : vec :=
  rotation_z (rotation_z (rotation_y mag (PI - theta)) (- lon)) (- gmst).

(** all static state: None before the first call (first_flg, I 469) *)
Record igrf : Type := mkIgrf { ig_coefs : option coefs; ig_g : arr; ig_cache : cache }.
Definition igrf_new : igrf := mkIgrf None (fun _ _ => 0) cache_new.
(** the arguments of IgrfCalc *)
Record igrf_args : Type := mkArgs { ag_year : R; ag_lat : R; ag_lon : R; ag_alt : R; ag_side : R }.
(** IgrfCalc, I 468-497, with igrfc (I 452-455); RAD2DEG = 180 / PI *)
Definition igrf_calc (f : coef_file) (junk : bool) (s : igrf) (a : igrf_args) : outcome (igrf * vec) :=
  let! st := (match ig_coefs s with
              | Some c => Ok (c, ig_cache s)
              | None => let! c := gigrf f junk (ag_year a) in Ok (c, cache_field (ig_cache s))
              end) in
  let '(co, ca) := st in
  let g := tyear co (ag_year a) (ig_g s) in
  let '(ca, (x, y, z)) := mfldg (co_max co) g ca (ag_lat a * (180 / PI)) (ag_lon a * (180 / PI)) (ag_alt a / 1000) in
  let theta := acos (ca_cth ca) in
  Ok (mkIgrf (Some co) g ca, magaxis_to_eci (v3 x y z) (ag_lon a) theta (ag_side a)).
(** a history of calls; the results of all of them *)
Fixpoint igrf_run (f : coef_file) (junk : bool) (s : igrf) (l : list igrf_args) : outcome (igrf * list vec) :=
  match l with
  | [] => Ok (s, [])
  | a :: l => let! p := igrf_calc f junk s a in let! q := igrf_run f junk (fst p) l in Ok (fst q, snd p :: snd q)
  end.
