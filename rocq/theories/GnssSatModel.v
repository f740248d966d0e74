(** Model of src/environment/global/gnss_satellites.cpp (S) and of the queries of src/math_physics/gnss/sp3_file_reader.cpp (P).
    Doubles are real numbers; an EpochTime (whole seconds and fraction) is the real number of seconds it stands for, except where
    only its whole seconds are looked at.  The logging is in LogModel. *)
From Coq Require Import Reals List Bool Arith ZArith.
From Verif Require Import Base RBase VecModel LuModel InterpModel TimeSeriesModel.
Import ListNotations.
Open Scope R_scope.

(** one entry of position_clock_: position_km_ and clock_us_, sp3_file_reader.hpp:88-98 *)
Definition pc : Type := ((R * R * R) * R)%type.
(** what the reader keeps of a file: header_.start_epoch_, number_of_epoch_, epoch_interval_s_, number_of_satellites_, epoch_ and
    position_clock_ (by satellite, then by epoch), sp3_file_reader.hpp:181-190 *)
Record sp3 : Type := mkSp3 { f_start : R; f_nepoch : nat; f_interval : R; f_nsat : nat; f_epochs : list R; f_pc : list (list pc) }.

(** P 18-24 followed by the conversion to EpochTime: an index equal to the size reads past the end; a larger one gives the date
    0000/01/01, whose conversion leaves the EpochTime uninitialised (epoch_time.cpp:25) *)
Definition epoch_at (f : sp3) (id : nat) : outcome R := match nth_error (f_epochs f) id with Some t => Ok t | None => UB end.
(** P 26-36; the default entry has position zero and the bad clock value *)
Definition position_clock (f : sp3) (epoch sat : nat) : outcome pc :=
  if (length (f_epochs f) <=? epoch)%nat || (length (f_pc f) <=? sat)%nat then Ok ((0, 0, 0), 999999999999 / 1000000)
  else match nth_error (nth sat (f_pc f) []) epoch with Some e => Ok e | None => UB end.
(** P 123-145 *)
Definition search_epoch (f : sp3) (t : R) : outcome nat :=
  match nth_error (f_epochs f) 0 with
  | None => UB
  | Some e0 =>
    if rlt t e0 then Ok 0%nat else
    match nth_error (f_epochs f) (f_nepoch f - 1) with
    | None => UB
    | Some e1 => if rlt e1 t then Ok (f_nepoch f - 1)%nat else Ok (Z.to_nat (Int_part ((t - e0) / f_interval f + / 2)))
    end
  end.

(** S 111-124, gnss_satellites.hpp:104-117 *)
Record gnss : Type := mkGnss { g_files : list sp3; g_nsat : nat; g_file : nat; g_ref_time : R; g_ref_id : nat; g_current : R;
                               g_orbit : list orbit3; g_clock : list interp }.
(** S 110-124: the loop over the files from index i *)
Fixpoint current_file (files : list sp3) (i : nat) (t : R) : option nat :=
  match files with
  | [] => None
  | f :: r => let diff := t - f_start f in
              if rlt diff 0 then None else if rlt diff 86400 then Some i else current_file r (S i) t
  end.
Definition upd_list {A} (l : list A) (i : nat) (x : A) : list A := firstn i l ++ [x] ++ skipn (S i) l.
(** S 129-136: the loop over the satellites from id on *)
Fixpoint push_sats (count id : nat) (f : sp3) (ref_id : nat) (ref_time : R) (os : list orbit3) (cs : list interp) : outcome (list orbit3 * list interp) :=
  match count with
  | O => Ok (os, cs)
  | S c =>
    let! t := epoch_at f ref_id in
    let time_diff := t - ref_time in
    let! e := position_clock f ref_id id in
    let '((x, y, z), clk) := e in
    match nth_error os id, nth_error cs id with
    | Some o, Some k =>
      let! (_, o) := orbit_push o time_diff (1000 * x, 1000 * y, 1000 * z) in
      let! (_, k) := push_and_pop k time_diff clk in
      push_sats c (S id) f ref_id ref_time (upd_list os id o) (upd_list cs id k)
    | _, _ => UB
    end
  end.
(** S 126-151 *)
Definition gnss_push (g : gnss) : outcome gnss :=
  match nth_error (g_files g) (g_file g) with
  | None => UB
  | Some f =>
    let! (os, cs) := push_sats (g_nsat g) 0 f (g_ref_id g) (g_ref_time g) (g_orbit g) (g_clock g) in
    let next := S (g_ref_id g) in
    let '(file, id) := if (f_nepoch f <=? next)%nat then (S (g_file g), 0%nat) else (g_file g, next) in
    Ok (mkGnss (g_files g) (g_nsat g) file (g_ref_time g) id (g_current g) os cs)
  end.
Fixpoint gnss_fill (count : nat) (g : gnss) : outcome gnss :=
  match count with O => Ok g | S c => let! g := gnss_push g in gnss_fill c g end.
(** S 24-58; None: the message of S 30-31 and an object whose satellite count and file index stay uninitialised *)
Definition gnss_init (files : list sp3) (t : R) : outcome (option gnss) :=
  match files with
  | [] => UB
  | _ :: _ =>
    match current_file files 0 t with
    | None => Ok None
    | Some i =>
      match nth_error files i with
      | None => UB
      | Some f =>
        let! nearest := search_epoch f t in
        let ref_id := if (4 <=? nearest)%nat then (nearest - 4)%nat else 0%nat in
        let! ref_time := epoch_at f ref_id in
        let! g := gnss_fill 9 (mkGnss files (f_nsat f) i ref_time ref_id t (repeat (orbit_interpolation 9) (f_nsat f))
                                      (repeat (interpolation (repeat (-1) 9) (repeat (-1) 9)) (f_nsat f))) in
        Ok (Some g)
      end
    end
  end.
(** S 60-77, the time being the converted UTC clock *)
Definition gnss_update (g : gnss) (t : R) : outcome gnss :=
  let g := mkGnss (g_files g) (g_nsat g) (g_file g) (g_ref_time g) (g_ref_id g) t (g_orbit g) (g_clock g) in
  let diff := t - g_ref_time g in
  match g_orbit g with
  | [] => UB
  | o :: _ => match nth_error (time_list o) 4 with
              | None => UB
              | Some medium => if rlt medium diff then gnss_push g else Ok g
              end
  end.
(** the optional time argument: whole seconds zero means the current time, S 84-88 *)
Definition target (g : gnss) (t : R) : R := if Z.eqb (Int_part t) 0 then g_current g else t.
(** S 79-95; the satellite index equal to the count passes the check *)
Definition gnss_position (g : gnss) (id : nat) (t : R) : outcome (R * R * R) :=
  if (g_nsat g <? id)%nat then Ok (0, 0, 0) else
  let diff := target g t - g_ref_time g in
  if rlt diff 0 || rlt 1000000 diff then Ok (0, 0, 0) else
  match nth_error (g_orbit g) id with
  | None => UB
  | Some o => orbit_trigonometric o diff (2 * PI / (24 * 60 * 60 * (1003 / 1000)))
  end.
(** S 97-108 *)
Definition gnss_clock (g : gnss) (id : nat) (t : R) : outcome R :=
  if (g_nsat g <? id)%nat then Ok 0 else
  let diff := target g t - g_ref_time g in
  if rlt diff 0 || rlt 1000000 diff then Ok 0 else
  match nth_error (g_clock g) id with
  | None => UB
  | Some c => let! v := calc_polynomial c diff in Ok (v * / 1000000)
  end.
(** a history of updates *)
Fixpoint gnss_updates (g : gnss) (ts : list R) : outcome gnss :=
  match ts with [] => Ok g | t :: r => let! g := gnss_update g t in gnss_updates g r end.
