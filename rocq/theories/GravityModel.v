(** Model of src/math_physics/gravity/gravity_potential.cpp (G), of src/disturbances/geopotential.cpp (P) and of
    src/disturbances/lunar_gravity_field.cpp (L).  Doubles are real numbers.  The arrays v and w are one array of pairs. *)
From Coq Require Import Reals Lra Lia List Arith Bool ZArith.
From Verif Require Import Base RBase VecModel.
Import ListNotations.
Open Scope R_scope.

(** gravity_potential.hpp:64-70 *)
Record gravity : Type := mkGravity { gp_degree : nat; gp_c : list (list R); gp_s : list (list R); gp_mu : R; gp_r : R }.
(** G 14-29 *)
Definition gravity_new (degree : nat) (c s : list (list R)) (mu r : R) : gravity :=
  mkGravity (if (degree <=? 1)%nat then 0%nat else degree) c s mu r.

(** reads of c_[n][m] and s_[n][m]: std::vector is not checked *)
Definition coef (c : list (list R)) (n m : nat) : outcome R :=
  match nth_error c n with Some row => match nth_error row m with Some v => Ok v | None => UB end | None => UB end.

(** v and w: square arrays of [t_size] rows, G 42-43, 110-111 *)
Record table : Type := mkTable { t_size : nat; t_at : nat -> nat -> R * R }.
Definition t_zero (size : nat) : table := mkTable size (fun _ _ => (0, 0)).
Definition t_get (t : table) (n m : nat) : outcome (R * R) :=
  if ((n <? t_size t) && (m <? t_size t))%nat then Ok (t_at t n m) else UB.
Definition t_set (t : table) (n m : nat) (v : R * R) : outcome table :=
  if ((n <? t_size t) && (m <? t_size t))%nat then
    Ok (mkTable (t_size t) (fun i j => if ((i =? n) && (j =? m))%nat then v else t_at t i j)) else UB.

(** xcxf_x_m_, xcxf_y_m_, xcxf_z_m_, radius_m_ (G 35-38, 103-106) *)
Record place : Type := mkPlace { p_x : R; p_y : R; p_z : R; p_r : R }.
Definition place_of (pos : vec) : place := mkPlace (pos 0%nat) (pos 1%nat) (pos 2%nat) (norm 3 pos).

(** for (n = lo; count times; n++) body *)
Fixpoint for_up {A : Type} (body : nat -> A -> outcome A) (lo count : nat) (a : A) : outcome A :=
  match count with O => Ok a | S k => let! a := body lo a in for_up body (S lo) k a end.

(** G 239-259; called with n = m only *)
Definition nn_update (g : gravity) (p : place) (n m : nat) (prev : R * R) : R * R :=
  let n_d := INR n in
  let tmp := gp_r g / (p_r p) ^ 2 in
  let x_tmp := p_x p * tmp in
  let y_tmp := p_y p * tmp in
  let c_normalize := if (n =? 1)%nat then (2 * n_d - 1) * sqrt (2 * n_d + 1) else sqrt ((2 * n_d + 1) / (2 * n_d)) in
  (c_normalize * (x_tmp * fst prev - y_tmp * snd prev), c_normalize * (x_tmp * snd prev + y_tmp * fst prev)).
(** G 261-285; called with m < n only *)
Definition nm_update (g : gravity) (p : place) (n m : nat) (prev prev2 : R * R) : R * R :=
  let m_d := INR m in
  let n_d := INR n in
  let tmp := gp_r g / (p_r p) ^ 2 in
  let z_tmp := p_z p * tmp in
  let re_tmp := gp_r g * tmp in
  let c1 := (2 * n_d - 1) / (n_d - m_d) in
  let c2 := (n_d + m_d - 1) / (n_d - m_d) in
  let c_normalize := sqrt (((2 * n_d + 1) * (n_d - m_d)) / ((2 * n_d - 1) * (n_d + m_d))) in
  let c2_normalize := if (n <=? 1)%nat then 1 else sqrt (((2 * n_d - 1) * (n_d - m_d - 1)) / ((2 * n_d - 3) * (n_d + m_d - 1))) in
  (c_normalize * (c1 * z_tmp * fst prev - c2 * c2_normalize * re_tmp * fst prev2),
   c_normalize * (c1 * z_tmp * snd prev - c2 * c2_normalize * re_tmp * snd prev2)).

(** the inner loop, G 50-56, 118-124 *)
Definition column_body (g : gravity) (p : place) (m n : nat) (t : table) : outcome table :=
  let! prev := t_get t (n - 1) m in
  let! prev2 := (if (n <=? m + 1)%nat then Ok (0, 0) else t_get t (n - 2) m) in
  t_set t n m (nm_update g p n m prev prev2).
(** one turn of the outer loop, G 49-61, 117-129 *)
Definition sweep_body (g : gravity) (p : place) (d m : nat) (t : table) : outcome table :=
  let! t := for_up (column_body g p m) (m + 1) (d - m) t in
  let! prev := t_get t (m + 1 - 1) (m + 1 - 1) in
  t_set t (m + 1) (m + 1) (nn_update g p (m + 1) (m + 1) prev).
(** G 41-61, 109-129 *)
Definition vw_table (g : gravity) (p : place) (d : nat) : outcome table :=
  let! t := t_set (t_zero (d + 1)) 0 0 (gp_r g / p_r p, 0) in
  for_up (sweep_body g p d) 0 d t.

(** G 64-93: the sums of the three components *)
Definition acc_body_m (g : gravity) (t : table) (n m : nat) (a : R * R * R) : outcome (R * R * R) :=
  let '(ax, ay, az) := a in
  let n_d := INR n in
  let m_d := INR m in
  let normalize := sqrt ((2 * n_d + 1) / (2 * n_d + 3)) in
  let factorial := (n_d - m_d + 1) * (n_d - m_d + 2) in
  let normalize_xy1 := normalize * sqrt ((n_d + m_d + 1) * (n_d + m_d + 2)) in
  let normalize_xy2 := if (m =? 1)%nat then normalize * sqrt factorial * sqrt 2 else normalize * sqrt factorial in
  let normalize_z := normalize * sqrt ((n_d + m_d + 1) / (n_d - m_d + 1)) in
  let! c := coef (gp_c g) n m in
  let! s := coef (gp_s g) n m in
  let! (vp, wp) := t_get t (n + 1) (m + 1) in
  let! (vm, wm) := t_get t (n + 1) (m - 1) in
  let! (v0, w0) := t_get t (n + 1) m in
  Ok (ax + 0.5 * (normalize_xy1 * (- c * vp - s * wp) + normalize_xy2 * (c * vm + s * wm)),
      ay + 0.5 * (normalize_xy1 * (- c * wp + s * vp) + normalize_xy2 * (- c * wm + s * vm)),
      az + (n_d - m_d + 1) * (- c * v0 - s * w0) * normalize_z).
Definition acc_body (g : gravity) (t : table) (n : nat) (a : R * R * R) : outcome (R * R * R) :=
  let '(ax, ay, az) := a in
  let n_d := INR n in
  let normalize := sqrt ((2 * n_d + 1) / (2 * n_d + 3)) in
  let normalize_xy := normalize * sqrt ((n_d + 2) * (n_d + 1) / 2) in
  let! c := coef (gp_c g) n 0 in
  let! s := coef (gp_s g) n 0 in
  let! (v1, w1) := t_get t (n + 1) 1 in
  let! (v0, w0) := t_get t (n + 1) 0 in
  for_up (acc_body_m g t n) 1 n
    (ax + - c * v1 * normalize_xy, ay + - c * w1 * normalize_xy, az + (n_d + 1) * (- c * v0 - s * w0) * normalize).
(** G 31-97 *)
Definition calc_acceleration (g : gravity) (pos : vec) : outcome vec :=
  if (gp_degree g <=? 0)%nat then Ok (v3 0 0 0) else
  let! t := vw_table g (place_of pos) (gp_degree g + 1) in
  let! (ax, ay, az) := for_up (acc_body g t) 0 (gp_degree g + 1) (0, 0, 0) in
  let k := gp_mu g / (gp_r g) ^ 2 in
  Ok (v3 (ax * k) (ay * k) (az * k)).

(** G 99-237 *)
Record hess : Type := mkHess { h_xx : R; h_yy : R; h_xy : R; h_xz : R; h_yz : R; h_zz : R }.
(** G 144-208: dx/dx, dx/dy, dy/dy *)
Definition hess_xy (g : gravity) (t : table) (n m : nat) (h : hess) : outcome hess :=
  let n_d := INR n in
  let m_d := INR m in
  let cn0_v20 := sqrt ((2 * n_d + 1) / (2 * n_d + 5)) in
  let cn0_v22 := cn0_v20 * sqrt ((n_d + 1) * (n_d + 2) * (n_d + 3) * (n_d + 4) / 2) in
  let add xx yy xy := Ok (mkHess (h_xx h + xx) (h_yy h + yy) (h_xy h + xy) (h_xz h) (h_yz h) (h_zz h)) in
  if (m =? 0)%nat then
    let! c := coef (gp_c g) n 0 in
    let! (v2, w2) := t_get t (n + 2) 2 in
    let! (v0, w0) := t_get t (n + 2) 0 in
    add (0.5 * (c * v2 * cn0_v22 - c * v0 * (n_d + 1) * (n_d + 2) * cn0_v20))
        (0.5 * (- c * v2 * cn0_v22 - c * v0 * (n_d + 1) * (n_d + 2) * cn0_v20))
        (0.5 * (c * w2 * cn0_v22))
  else if (m =? 1)%nat then
    let cn1_v21 := cn0_v20 * sqrt ((n_d + 2) * (n_d + 3) / (n_d * (n_d + 1))) in
    let cn1_v21_with_coeff := n_d * (n_d + 1) * cn1_v21 in
    let cn1_v23 := cn0_v20 * sqrt ((n_d + 2) * (n_d + 3) * (n_d + 4) * (n_d + 5)) in
    let! c := coef (gp_c g) n 1 in
    let! s := coef (gp_s g) n 1 in
    let! (v3', w3') := t_get t (n + 2) 3 in
    let! (v1, w1) := t_get t (n + 2) 1 in
    add (0.25 * ((c * v3' + s * w3') * cn1_v23 - (3 * c * v1 + s * w1) * cn1_v21_with_coeff))
        (0.25 * ((- c * v3' - s * w3') * cn1_v23 - (c * v1 + 3 * s * w1) * cn1_v21_with_coeff))
        (0.25 * ((c * w3' - s * v3') * cn1_v23 - (c * w1 + s * v1) * cn1_v21_with_coeff))
  else
    let cnm_v2p2 := cn0_v20 * sqrt ((n_d + m_d + 1) * (n_d + m_d + 2) * (n_d + m_d + 3) * (n_d + m_d + 4)) in
    let cnm_v2m2 := cn0_v20 * sqrt ((if (m =? 2)%nat then 2 else 1) / ((n_d - m_d + 1) * (n_d - m_d + 2) * (n_d - m_d + 3) * (n_d - m_d + 4))) in
    let cnm_v2m2_with_coeff := (n_d - m_d + 1) * (n_d - m_d + 2) * (n_d - m_d + 3) * (n_d - m_d + 4) * cnm_v2m2 in
    let cnm_v20 := cn0_v20 * sqrt ((n_d + m_d + 1) * (n_d + m_d + 2) / ((n_d - m_d + 1) * (n_d - m_d + 2))) in
    let cnm_v20_with_coeff := 2 * (n_d - m_d + 1) * (n_d - m_d + 2) * cnm_v20 in
    let! c := coef (gp_c g) n m in
    let! s := coef (gp_s g) n m in
    let! (vp, wp) := t_get t (n + 2) (m + 2) in
    let! (v0, w0) := t_get t (n + 2) m in
    let! (vm, wm) := t_get t (n + 2) (m - 2) in
    add (0.25 * ((c * vp + s * wp) * cnm_v2p2 - (c * v0 + s * w0) * cnm_v20_with_coeff + (c * vm + s * wm) * cnm_v2m2_with_coeff))
        (0.25 * ((- c * vp - s * wp) * cnm_v2p2 - (c * v0 + s * w0) * cnm_v20_with_coeff - (c * vm + s * wm) * cnm_v2m2_with_coeff))
        (0.25 * ((c * wp - s * vp) * cnm_v2p2 + (- c * wm + s * vm) * cnm_v2m2_with_coeff)).
(** G 209-233: dx/dz, dy/dz *)
Definition hess_z (g : gravity) (t : table) (n m : nat) (h : hess) : outcome hess :=
  let n_d := INR n in
  let m_d := INR m in
  let cn0_v20 := sqrt ((2 * n_d + 1) / (2 * n_d + 5)) in
  let cn0_v21 := cn0_v20 * sqrt ((n_d + 2) * (n_d + 3) / 2) in
  let add xz yz := Ok (mkHess (h_xx h) (h_yy h) (h_xy h) (h_xz h + xz) (h_yz h + yz) (h_zz h)) in
  if (m =? 0)%nat then
    let! c := coef (gp_c g) n 0 in
    let! (v1, w1) := t_get t (n + 2) 1 in
    add ((n_d + 1) * (c * v1 * cn0_v21)) ((n_d + 1) * (c * w1 * cn0_v21))
  else
    let cnm_v2p1 := cn0_v20 * sqrt ((n_d + m_d + 1) * (n_d + m_d + 2) * (n_d + m_d + 3) / (n_d - m_d + 1)) in
    let cnm_v2p1_with_coeff := (n_d - m_d + 1) * cnm_v2p1 in
    let cnm_v2m1 := cn0_v20 * sqrt ((if (m =? 1)%nat then 2 * (n_d + m_d + 1) else n_d + m_d + 1) / ((n_d - m_d + 1) * (n_d - m_d + 2) * (n_d - m_d + 3))) in
    let cnm_v2m1_with_coeff := (n_d - m_d + 1) * (n_d - m_d + 2) * (n_d - m_d + 3) * cnm_v2m1 in
    let! c := coef (gp_c g) n m in
    let! s := coef (gp_s g) n m in
    let! (vp, wp) := t_get t (n + 2) (m + 1) in
    let! (vm, wm) := t_get t (n + 2) (m - 1) in
    add (0.5 * ((c * vp + s * wp) * cnm_v2p1_with_coeff + (- c * vm - s * wm) * cnm_v2m1_with_coeff))
        (0.5 * ((c * wp - s * vp) * cnm_v2p1_with_coeff + (c * wm - s * vm) * cnm_v2m1_with_coeff)).
(** G 234-237: dz/dz *)
Definition hess_zz (g : gravity) (t : table) (n m : nat) (h : hess) : outcome hess :=
  let n_d := INR n in
  let m_d := INR m in
  let cn0_v20 := sqrt ((2 * n_d + 1) / (2 * n_d + 5)) in
  let cnm_v20 := cn0_v20 * sqrt ((n_d + m_d + 1) * (n_d + m_d + 2) / ((n_d - m_d + 1) * (n_d - m_d + 2))) in
  let cnm_v20_with_coeff := (n_d - m_d + 1) * (n_d - m_d + 2) * cnm_v20 in
  let! c := coef (gp_c g) n m in
  let! s := coef (gp_s g) n m in
  let! (v0, w0) := t_get t (n + 2) m in
  Ok (mkHess (h_xx h) (h_yy h) (h_xy h) (h_xz h) (h_yz h) (h_zz h + (c * v0 + s * w0) * cnm_v20_with_coeff)).
Definition hess_body_m (g : gravity) (t : table) (n m : nat) (h : hess) : outcome hess :=
  let! h := hess_xy g t n m h in let! h := hess_z g t n m h in hess_zz g t n m h.
Definition hess_body (g : gravity) (t : table) (n : nat) (h : hess) : outcome hess := for_up (hess_body_m g t n) 0 (n + 1) h.
Definition calc_partial (g : gravity) (pos : vec) : outcome mat :=
  if (gp_degree g <=? 0)%nat then Ok (m3 0 0 0 0 0 0 0 0 0) else
  let! t := vw_table g (place_of pos) (gp_degree g + 2) in
  let! h := for_up (hess_body g t) 0 (gp_degree g + 1) (mkHess 0 0 0 0 0 0) in
  let k := gp_mu g / (gp_r g) ^ 3 in
  Ok (m3 (h_xx h * k) (h_xy h * k) (h_xz h * k)
         (h_xy h * k) (h_yy h * k) (h_yz h * k)
         (h_xz h * k) (h_yz h * k) (h_zz h * k)).

(** ** The two disturbances *)
(** One line of a coefficient file.  [L 76-84] reads the same four numbers with std::stoi and std::stod, which throw where
    nothing can be read; [P 60-67] reads them with operator>>.  A line is None when it cannot be read (or is missing). *)
Definition cline : Type := option (Z * Z * R * R).
(** c_[n][m] = ..., unchecked; a negative int index becomes a huge one *)
Definition put (c : list (list R)) (n m : Z) (v : R) : outcome (list (list R)) :=
  if ((n <? 0) || (m <? 0))%Z then UB else
  match nth_error c (Z.to_nat n) with
  | Some row => if (Z.to_nat m <? List.length row)%nat then
      Ok (firstn (Z.to_nat n) c ++ (firstn (Z.to_nat m) row ++ v :: skipn (S (Z.to_nat m)) row) :: skipn (S (Z.to_nat n)) c) else UB
  | None => UB
  end.
(** P 59-69: the variables of an unreadable line stay uninitialised, and are used as indices *)
Fixpoint read_lines (unreadable : outcome (list (list R) * list (list R))) (lines : list cline) (count : nat) (c s : list (list R)) {struct count} : outcome (list (list R) * list (list R)) :=
  match count with
  | O => Ok (c, s)
  | S k => match lines with
           | Some (n, m, cv, sv) :: r => let! c := put c n m cv in let! s := put s n m sv in read_lines unreadable r k c s
           | _ => unreadable
           end
  end.
(** an int converted to size_t, on 64 bits *)
Definition to_size (d : Z) : Z := d mod 18446744073709551616.
(** P 22-35, L 21-43: the degree used for the arrays *)
Definition clamp_degree (limit d : Z) : nat := let u := to_size d in if (u >? limit)%Z then Z.to_nat limit else if (u <=? 1)%Z then 0%nat else Z.to_nat u.
Definition zeros (d : nat) : list (list R) := repeat (repeat 0 (d + 1)) (d + 1).

(** P 20-49.  [file] is None when it cannot be opened.  The potential is built with the degree that was passed, not with the
    clamped one; a degree of more than 2^64 / 2 cannot be used (its arrays do not fit) and appears here as a plain large number. *)
Definition geopotential_new (mu r : R) (d : Z) (file : option (list cline)) : outcome gravity :=
  let degree := clamp_degree 360 d in
  let c0 := zeros degree in
  let! (c, s) := (if (2 <=? degree)%nat then
                    match file with
                    | None => Ok (c0, c0)
                    | Some lines => read_lines UB lines ((degree + 1) * (degree + 2) / 2 - 3) c0 c0
                    end
                  else Ok (c0, c0)) in
  Ok (gravity_new (Z.to_nat (to_size d)) c s mu r).
(** P 73-94 *)
Definition geopotential_update (g : gravity) (dcm_i_to_ecef : mat) (pos_ecef : vec) : outcome (vec * vec) :=
  let! a := calc_acceleration g pos_ecef in Ok (a, mvec 3 (mtrans dcm_i_to_ecef) a).

(** a file of the lunar model: the two numbers of its first line, then the coefficients *)
Record lunar_file : Type := mkLunarFile { lf_header : option (R * R); lf_lines : list cline }.
(** L 20-52.  reference_radius_km_ and gravity_constants_km3_s2_ have no initial value: when the file is not read they are
    indeterminate, and reading them is undefined. *)
Definition lunar_new (d : Z) (file : option lunar_file) : outcome gravity :=
  let degree := clamp_degree 1200 d in
  let c0 := zeros degree in
  if (2 <=? degree)%nat then
    match file with
    | None => UB
    | Some f =>
      match lf_header f with
      | None => Throw
      | Some (radius_km, mu_km3) =>
        let! (c, s) := read_lines Throw (lf_lines f) ((degree + 1) * (degree + 2) / 2 - 1) c0 c0 in
        Ok (gravity_new (Z.to_nat (to_size d)) c s (mu_km3 * 10 ^ 9) (radius_km * 10 ^ 3))
      end
    end
  else UB.
(** the pointer moon_rotation_ of the celestial information (celestial_information.hpp:254): None when it was never set *)
Record celestial_moon : Type := mkCelestialMoon { ce_moon : option mat }.
(** celestial_information.cpp:73-96: the copy constructor does not set the pointer *)
Definition celestial_copy (c : celestial_moon) : celestial_moon := mkCelestialMoon None.
(** celestial_information.hpp:217, then MoonRotation::GetDcmJ2000ToMcmf *)
Definition moon_dcm (c : celestial_moon) : outcome mat := match ce_moon c with Some m => Ok m | None => UB end.
(** L 94-122, given the rotation matrix *)
Definition lunar_with (g : gravity) (dcm : mat) (pos_i : vec) : outcome (vec * vec) :=
  let! a := calc_acceleration g (mvec 3 dcm pos_i) in Ok (a, mvec 3 (mtrans dcm) a).
(** L 90-122: line 91 copies the celestial information *)
Definition lunar_update (g : gravity) (c : celestial_moon) (pos_i : vec) : outcome (vec * vec) :=
  let! dcm := moon_dcm (celestial_copy c) in lunar_with g dcm pos_i.
