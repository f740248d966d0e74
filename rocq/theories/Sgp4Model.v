(** Model of src/math_physics/orbit/sgp4/sgp4unit.cpp (U), of the numerical part of twoline2rv in
    src/math_physics/orbit/sgp4/sgp4io.cpp (IO) and of src/dynamics/orbit/sgp4_orbit_propagation.cpp (P).
    Doubles are real numbers and literals exact; pi is the exact one.  Every division and every power with a fractional exponent
    is checked: where the C++ code would divide by zero, or raise a number that is not positive, the run of the
    model ends in [NotFinite] (in C++ the numbers are infinite or NaN from there on).  The initialisation of the
    lunar-solar and resonance terms of satellites with a period of 225 minutes or more (dscom, dsinit, dpper with
    init = 'y', U 149-783) is in Sgp4DeepModel: here sgp4init takes it as a function. *)
From Coq Require Import Reals Lra Lia List Bool ZArith.
From Verif Require Import RBase VecModel Trig SensorModel JulianModel.
Open Scope R_scope.

Inductive res (A : Type) : Type := Val (a : A) | NotFinite | NoEnd.
Arguments Val {A} a. Arguments NotFinite {A}. Arguments NoEnd {A}.
Definition rbind {A B} (m : res A) (k : A -> res B) : res B :=
  match m with Val a => k a | NotFinite => NotFinite | NoEnd => NoEnd end.
Notation "'do' x <- m ; k" := (rbind m (fun x => k)) (at level 200, x pattern, m at level 100, k at level 200).
(** a division; the C functions pow with a fractional exponent, sqrt, fmod(x, 2 pi) *)
Definition fdiv (x y : R) : res R := if req y 0 then NotFinite else Val (x / y).
Definition fpow (x a : R) : res R := if rlt 0 x then Val (Rpower x a) else NotFinite.
Definition fsqrt (x : R) : res R := if rlt x 0 then NotFinite else Val (sqrt x).
Definition twopi : R := 2 * PI.
Definition fmod2pi (x : R) : R := x - twopi * IZR (trunc (x / twopi)).

(** ** Gravity constants, U 1811-1852 *)
Inductive gravconst : Type := Wgs72old | Wgs72 | Wgs84.
Record grav : Type := mkGrav { mu : R; radiusearthkm : R; xke : R; j2 : R; j3 : R; j4 : R }.
Definition getgravconst (w : gravconst) : grav :=
  match w with
  | Wgs72old => mkGrav 398600.79964 6378.135 0.0743669161 0.001082616 (- 0.00000253881) (- 0.00000165597)
  | Wgs72 => mkGrav 398600.8 6378.135 (60 / sqrt (6378.135 * 6378.135 * 6378.135 / 398600.8)) 0.001082616 (- 0.00000253881) (- 0.00000165597)
  | Wgs84 => mkGrav 398600.5 6378.137 (60 / sqrt (6378.137 * 6378.137 * 6378.137 / 398600.5)) 0.00108262998905 (- 0.00000253215306) (- 0.00000161098761)
  end.
Definition j3oj2 (g : grav) : R := j3 g / j2 g.
Definition tumin (g : grav) : R := 1 / xke g.

(** ** The satellite record, sgp4unit.h 40-58: its numbers by name *)
Inductive fld : Type :=
| aycof | con41 | cc1 | cc4 | cc5 | d2 | d3 | d4 | delmo | eta | argpdot | omgcof | sinmao | tt | t2cof | t3cof | t4cof | t5cof | x1mth2
| x7thm1 | mdot | nodedot | xlcof | xmcof | nodecf
| d2201 | d2211 | d3210 | d3222 | d4410 | d4422 | d5220 | d5232 | d5421 | d5433 | dedt | del1 | del2 | del3 | didt | dmdt | dnodt | domdt | e3
| ee2 | peo | pgho | pho | pinco | plo | se2 | se3 | sgh2 | sgh3 | sgh4 | sh2 | sh3 | si2 | si3 | sl2 | sl3 | sl4 | gsto | xfact | xgh2 | xgh3
| xgh4 | xh2 | xh3 | xi2 | xi3 | xl2 | xl3 | xl4 | xlamo | zmol | zmos | atime | xli | xni
| sma | altp | alta | epochdays | jdsatepoch | nddot | ndot | bstar | inclo | nodeo | ecco | argpo | mo | no.
Lemma fld_eq_dec (a b : fld) : {a = b} + {a <> b}.
Proof. decide equality. Defined.
(** [isimp], [irez] and the error code are ints; [deep] stands for method == 'd' *)
Record satrec : Type := mkSat { num : fld -> R; isimp : Z; irez : Z; deep : bool; error : Z }.
Definition set (f : fld) (x : R) (s : satrec) : satrec :=
  mkSat (fun f' => if fld_eq_dec f f' then x else num s f') (isimp s) (irez s) (deep s) (error s).
Definition set_isimp (i : Z) (s : satrec) : satrec := mkSat (num s) i (irez s) (deep s) (error s).
Definition set_deep (b : bool) (s : satrec) : satrec := mkSat (num s) (isimp s) (irez s) b (error s).
Definition set_error (e : Z) (s : satrec) : satrec := mkSat (num s) (isimp s) (irez s) (deep s) e.

(** ** dspace: secular and resonance effects of deep space satellites, U 843-969 *)
(** U 915-939: the rates xndt, xldot, xnddt at resonance angle xli, mean motion xni, time atime *)
Definition ds_dots (s : satrec) (xli_ xni_ atime_ : R) : R * R * R :=
  let n := num s in
  let fasx2 := 0.13130908 in let fasx4 := 2.8843198 in let fasx6 := 0.37448087 in
  let g22 := 5.7686396 in let g32 := 0.95240898 in let g44 := 1.8014998 in let g52 := 1.0508330 in let g54 := 4.4108898 in
  let xldot := xni_ + n xfact in
  if negb (irez s =? 2)%Z then
    (n del1 * sin (xli_ - fasx2) + n del2 * sin (2 * (xli_ - fasx4)) + n del3 * sin (3 * (xli_ - fasx6)),
     xldot,
     (n del1 * cos (xli_ - fasx2) + 2 * n del2 * cos (2 * (xli_ - fasx4)) + 3 * n del3 * cos (3 * (xli_ - fasx6))) * xldot)
  else
    let xomi := n argpo + n argpdot * atime_ in
    let x2omi := xomi + xomi in
    let x2li := xli_ + xli_ in
    (n d2201 * sin (x2omi + xli_ - g22) + n d2211 * sin (xli_ - g22) + n d3210 * sin (xomi + xli_ - g32) + n d3222 * sin (- xomi + xli_ - g32) +
     n d4410 * sin (x2omi + x2li - g44) + n d4422 * sin (x2li - g44) + n d5220 * sin (xomi + xli_ - g52) + n d5232 * sin (- xomi + xli_ - g52) +
     n d5421 * sin (xomi + x2li - g54) + n d5433 * sin (- xomi + x2li - g54),
     xldot,
     (n d2201 * cos (x2omi + xli_ - g22) + n d2211 * cos (xli_ - g22) + n d3210 * cos (xomi + xli_ - g32) + n d3222 * cos (- xomi + xli_ - g32) +
      n d5220 * cos (xomi + xli_ - g52) + n d5232 * cos (- xomi + xli_ - g52) +
      2 * (n d4410 * cos (x2omi + x2li - g44) + n d4422 * cos (x2li - g44) + n d5421 * cos (xomi + x2li - g54) + n d5433 * cos (- xomi + x2li - g54))) * xldot).
(** the integrator's variables xli, xni, atime *)
Record dsst : Type := mkDs { ds_xli : R; ds_xni : R; ds_atime : R }.
Definition stepp : R := 720.
Definition stepn : R := - 720.
Definition step2 : R := 259200.
(** U 895-946, the while loop; [back] is iret == 351.  Returns the integrator's variables, xndt, xldot, xnddt and ft. *)
Fixpoint ds_loop (fuel : nat) (s : satrec) (t : R) (back : bool) (st : dsst) : res (dsst * (R * R * R) * R) :=
  match fuel with
  | O => NoEnd
  | S k =>
    let '(delt, back', again, ft) :=
      if rlt (Rabs t) (Rabs (ds_atime st)) || back then ((if rle 0 t then stepn else stepp), true, true, 0)
      else
        let delt := if rlt 0 t then stepp else stepn in
        if rle stepp (Rabs (t - ds_atime st)) then (delt, false, true, 0) else (delt, false, false, t - ds_atime st) in
    let '(xndt, xldot, xnddt) := ds_dots s (ds_xli st) (ds_xni st) (ds_atime st) in
    if again : bool then
      ds_loop k s t back' (mkDs (ds_xli st + xldot * delt + xndt * step2) (ds_xni st + xndt * delt + xnddt * step2) (ds_atime st + delt))
    else Val (st, (xndt, xldot, xnddt), ft)
  end.
(** the reference parameters em, argpm, inclm, mm, nodem, nm of dspace *)
Record secular : Type := mkSec { em : R; argpm : R; inclm : R; mm : R; nodem : R; nm : R }.
(** enough turns for the loop: C127 shows that it never needs more *)
Definition ds_fuel (t : R) : nat := S (Z.to_nat (up (Rabs t / 720))).
Definition dspace (s : satrec) (t tc : R) (x : secular) : res (satrec * secular) :=
  let n := num s in
  let rptim := 4.37526908801129966e-3 in
  let theta := fmod2pi (n gsto + tc * rptim) in
  let em' := em x + n dedt * t in
  let inclm' := inclm x + n didt * t in
  let argpm' := argpm x + n domdt * t in
  let nodem' := nodem x + n dnodt * t in
  let mm' := mm x + n dmdt * t in
  let s := set atime 0 s in                                                   (* U 886: the epoch restart *)
  if negb (irez s =? 0)%Z then
    (* U 888-894: atime is 0 here, so this is always done *)
    let st := mkDs (n xlamo) (n no) 0 in
    do (st, (xndt, xldot, xnddt), ft) <- ds_loop (ds_fuel t) s t false st;
    let nm' := ds_xni st + xndt * ft + xnddt * ft * ft * 0.5 in
    let xl := ds_xli st + xldot * ft + xndt * ft * ft * 0.5 in
    let mm'' := if negb (irez s =? 1)%Z then xl - 2 * nodem' + 2 * theta else xl - nodem' - argpm' + theta in
    let dndt := nm' - n no in
    Val (set xni (ds_xni st) (set xli (ds_xli st) (set atime (ds_atime st) s)), mkSec em' argpm' inclm' mm'' nodem' (n no + dndt))
  else Val (s, mkSec em' argpm' inclm' mm' nodem' (nm x)).

(** ** dpper with init = 'n': lunar-solar periodics, U 149-255 *)
Record periodics : Type := mkPer { ep : R; xincp : R; nodep : R; argpp : R; mp : R }.
Definition dpper (s : satrec) (t : R) (x : periodics) : res periodics :=
  let n := num s in
  let zns := 1.19459e-5 in let zes := 0.01675 in let znl := 1.5835218e-4 in let zel := 0.05490 in
  let zm := n zmos + zns * t in
  let zf := zm + 2 * zes * sin zm in
  let sinzf := sin zf in
  let f2 := 0.5 * sinzf * sinzf - 0.25 in
  let f3 := - 0.5 * sinzf * cos zf in
  let ses := n se2 * f2 + n se3 * f3 in
  let sis := n si2 * f2 + n si3 * f3 in
  let sls := n sl2 * f2 + n sl3 * f3 + n sl4 * sinzf in
  let sghs := n sgh2 * f2 + n sgh3 * f3 + n sgh4 * sinzf in
  let shs := n sh2 * f2 + n sh3 * f3 in
  let zm := n zmol + znl * t in
  let zf := zm + 2 * zel * sin zm in
  let sinzf := sin zf in
  let f2 := 0.5 * sinzf * sinzf - 0.25 in
  let f3 := - 0.5 * sinzf * cos zf in
  let sel := n ee2 * f2 + n e3 * f3 in
  let sil := n xi2 * f2 + n xi3 * f3 in
  let sll := n xl2 * f2 + n xl3 * f3 + n xl4 * sinzf in
  let sghl := n xgh2 * f2 + n xgh3 * f3 + n xgh4 * sinzf in
  let shll := n xh2 * f2 + n xh3 * f3 in
  let pe := ses + sel - n peo in
  let pinc := sis + sil - n pinco in
  let pl := sls + sll - n plo in
  let pgh := sghs + sghl - n pgho in
  let ph := shs + shll - n pho in
  let inclp := xincp x + pinc in
  let ep' := ep x + pe in
  let sinip := sin inclp in
  let cosip := cos inclp in
  if rle 0.2 inclp then
    do ph <- fdiv ph sinip;
    let pgh := pgh - cosip * ph in
    Val (mkPer ep' inclp (nodep x + ph) (argpp x + pgh) (mp x + pl))
  else
    let sinop := sin (nodep x) in
    let cosop := cos (nodep x) in
    let dalf := ph * cosop + pinc * cosip * sinop in
    let dbet := - ph * sinop + pinc * cosip * cosop in
    let alfdp := sinip * sinop + dalf in
    let betdp := sinip * cosop + dbet in
    let nodep' := fmod2pi (nodep x) in
    let nodep' := if rlt nodep' 0 then nodep' + twopi else nodep' in
    let xls := mp x + argpp x + cosip * nodep' in
    let dls := pl + pgh - pinc * nodep' * sinip in
    let xls := xls + dls in
    let xnoh := nodep' in
    let nodep' := atan2 alfdp betdp in
    let nodep' := if rlt nodep' 0 then nodep' + twopi else nodep' in
    let nodep' := if rlt PI (Rabs (xnoh - nodep')) then (if rlt nodep' xnoh then nodep' + twopi else nodep' - twopi) else nodep' in
    let mp' := mp x + pl in
    Val (mkPer ep' inclp nodep' (xls - mp' - cosip * nodep') mp').

(** ** sgp4, U 1504-1721 *)
(** U 1525-1549: secular gravity and drag: mm, argpm, nodem, tempa, tempe, templ *)
Definition drag_terms (s : satrec) (t : R) : R * R * R * R * R * R :=
  let n := num s in
  let xmdf := n mo + n mdot * t in
  let argpdf := n argpo + n argpdot * t in
  let nodedf := n nodeo + n nodedot * t in
  let t2 := t * t in
  let nodem' := nodedf + n nodecf * t2 in
  let tempa := 1 - n cc1 * t in
  let tempe := n bstar * n cc4 * t in
  let templ := n t2cof * t2 in
  if negb (isimp s =? 1)%Z then
    let delomg := n omgcof * t in
    let delm := n xmcof * ((1 + n eta * cos xmdf) ^ 3 - n delmo) in
    let temp := delomg + delm in
    let mm' := xmdf + temp in
    let argpm' := argpdf - temp in
    let t3 := t2 * t in
    let t4 := t3 * t in
    (mm', argpm', nodem', tempa - n d2 * t2 - n d3 * t3 - n d4 * t4, tempe + n bstar * n cc5 * (sin mm' - n sinmao),
     templ + n t3cof * t3 + t4 * (n t4cof + t * n t5cof))
  else (xmdf, argpdf, nodem', tempa, tempe, templ).

(** U 1633-1648: Kepler's equation; [tem5] is the last correction, [fuel] the turns left of ten *)
Fixpoint kepler_loop (fuel : nat) (u axnl aynl eo1 tem5 sineo1 coseo1 : R) : res (R * R) :=
  match fuel with
  | O => Val (sineo1, coseo1)
  | S k =>
    if rle 1e-12 (Rabs tem5) then
      let sineo1 := sin eo1 in
      let coseo1 := cos eo1 in
      do tem5 <- fdiv (u - aynl * coseo1 + axnl * sineo1 - eo1) (1 - coseo1 * axnl - sineo1 * aynl);
      let tem5 := if rle 0.95 (Rabs tem5) then (if rlt 0 tem5 then 0.95 else - 0.95) else tem5 in
      kepler_loop k u axnl aynl (eo1 + tem5) tem5 sineo1 coseo1
    else Val (sineo1, coseo1)
  end.
Definition kepler (u axnl aynl : R) : res (R * R) := kepler_loop 10 u axnl aynl u 9999.9 (sin u) (cos u).

Definition temp4 : R := 1 + cos (PI - 1e-9).
(** U 1351-1355 and 1619-1622: the coefficient xlcof *)
Definition calc_xlcof (g : grav) (sini cosi : R) : res R :=
  if rlt 1.5e-12 (Rabs (cosi + 1)) then fdiv (- 0.25 * j3oj2 g * sini * (3 + 5 * cosi)) (1 + cosi)
  else fdiv (- 0.25 * j3oj2 g * sini * (3 + 5 * cosi)) temp4.

Definition vec3 (x y z : R) : vec := fun i => match i with 0%nat => x | 1%nat => y | 2%nat => z | _ => 0 end.
(** U 1686-1709: orientation vectors, position and velocity *)
Definition posvel (g : grav) (mrt mvt rvdot su xnode xinc : R) : vec * vec :=
  let vkmpersec := radiusearthkm g * xke g / 60 in
  let sinsu := sin su in let cossu := cos su in
  let snod := sin xnode in let cnod := cos xnode in
  let sini := sin xinc in let cosi := cos xinc in
  let xmx := - snod * cosi in
  let xmy := cnod * cosi in
  let ux := xmx * sinsu + cnod * cossu in
  let uy := xmy * sinsu + snod * cossu in
  let uz := sini * sinsu in
  let vx := xmx * cossu - cnod * sinsu in
  let vy := xmy * cossu - snod * sinsu in
  let vz := sini * cossu in
  (vec3 ((mrt * ux) * radiusearthkm g) ((mrt * uy) * radiusearthkm g) ((mrt * uz) * radiusearthkm g),
   vec3 ((mvt * ux + rvdot * vx) * vkmpersec) ((mvt * uy + rvdot * vy) * vkmpersec) ((mvt * uz + rvdot * vz) * vkmpersec)).

(** U 1614-1720: the rest of sgp4 from the perturbed elements on.  [None] for the output: r and v are not written. *)
Definition sgp4_periodic (g : grav) (s : satrec) (am nm : R) (sinip cosip : R) (p : periodics) : res (satrec * option (vec * vec)) :=
  do (s, sinip, cosip) <-
    (if deep s then
       let sinip := sin (xincp p) in
       let cosip := cos (xincp p) in
       do xl <- calc_xlcof g sinip cosip;
       Val (set xlcof xl (set aycof (- 0.5 * j3oj2 g * sinip) s), sinip, cosip)
     else Val (s, sinip, cosip));
  let axnl := ep p * cos (argpp p) in
  do temp <- fdiv 1 (am * (1 - ep p * ep p));
  let aynl := ep p * sin (argpp p) + temp * num s aycof in
  let xl := mp p + argpp p + nodep p + temp * num s xlcof * axnl in
  let u := fmod2pi (xl - nodep p) in
  do (sineo1, coseo1) <- kepler u axnl aynl;
  let ecose := axnl * coseo1 + aynl * sineo1 in
  let esine := axnl * sineo1 - aynl * coseo1 in
  let el2 := axnl * axnl + aynl * aynl in
  let pl := am * (1 - el2) in
  if rlt pl 0 then
    (* U 1656; mrt is still 0, so U 1713-1717 apply *)
    let s := set_error 4 s in
    let mrt := 0 in
    Val (if rlt mrt 1 then set_error 6 s else s, None)
  else
    let rl := am * (1 - ecose) in
    do rdotl <- fdiv (sqrt am * esine) rl;
    do rvdotl <- fdiv (sqrt pl) rl;
    do betal <- fsqrt (1 - el2);
    do temp <- fdiv esine (1 + betal);
    do amrl <- fdiv am rl;
    let sinu := amrl * (sineo1 - aynl - axnl * temp) in
    let cosu := amrl * (coseo1 - axnl + aynl * temp) in
    let su := atan2 sinu cosu in
    let sin2u := (cosu + cosu) * sinu in
    let cos2u := 1 - 2 * sinu * sinu in
    do temp <- fdiv 1 pl;
    let temp1 := 0.5 * j2 g * temp in
    let temp2 := temp1 * temp in
    let s := if deep s then
               let cosisq := cosip * cosip in
               set x7thm1 (7 * cosisq - 1) (set x1mth2 (1 - cosisq) (set con41 (3 * cosisq - 1) s))
             else s in
    let n := num s in
    let mrt := rl * (1 - 1.5 * temp2 * betal * n con41) + 0.5 * temp1 * n x1mth2 * cos2u in
    let su := su - 0.25 * temp2 * n x7thm1 * sin2u in
    let xnode := nodep p + 1.5 * temp2 * cosip * sin2u in
    let xinc := xincp p + 1.5 * temp2 * cosip * sinip * cos2u in
    let mvt := rdotl - nm * temp1 * n x1mth2 * sin2u / xke g in
    let rvdot := rvdotl + nm * temp1 * (n x1mth2 * cos2u + 1.5 * n con41) / xke g in
    Val (if rlt mrt 1 then set_error 6 s else s, Some (posvel g mrt mvt rvdot su xnode xinc)).

(** U 1504-1612, then the rest *)
Definition sgp4 (w : gravconst) (s : satrec) (tsince : R) : res (satrec * option (vec * vec)) :=
  let g := getgravconst w in
  let s := set_error 0 (set tt tsince s) in
  let t := num s tt in
  let '(mm0, argpm0, nodem0, tempa, tempe, templ) := drag_terms s t in
  let x := mkSec (num s ecco) argpm0 (num s inclo) mm0 nodem0 (num s no) in
  do (s, x) <- (if deep s then dspace s t t x else Val (s, x));
  let s := if rle (nm x) 0 then set_error 2 s else s in
  do q <- fdiv (xke g) (nm x);
  do p <- fpow q (2 / 3);
  let am := p * tempa * tempa in
  do am15 <- fpow am 1.5;
  do nm' <- fdiv (xke g) am15;
  let em' := em x - tempe in
  let s := if rle 1 em' || rlt em' (- 0.001) || rlt am 0.95 then set_error 1 s else s in
  let em' := if rlt em' 0 then 1e-6 else em' in
  let mm' := mm x + num s no * templ in
  let xlm := mm' + argpm x + nodem x in
  let nodem' := fmod2pi (nodem x) in
  let argpm' := fmod2pi (argpm x) in
  let xlm := fmod2pi xlm in
  let mm' := fmod2pi (xlm - argpm' - nodem') in
  let sinip := sin (inclm x) in
  let cosip := cos (inclm x) in
  let p := mkPer em' (inclm x) nodem' argpm' mm' in
  do (s, p) <-
    (if deep s then
       do p <- dpper s t p;
       let p := if rlt (xincp p) 0 then mkPer (ep p) (- xincp p) (nodep p + PI) (argpp p - PI) (mp p) else p in
       Val (if rlt (ep p) 0 || rlt 1 (ep p) then set_error 3 s else s, p)
     else Val (s, p));
  sgp4_periodic g s am nm' sinip cosip p.

(** ** sgp4init, U 1171-1411 *)
(** initl, U 1025-1088: the results no, ainv, ao, con41, con42, cosio, cosio2, eccsq, omeosq, posq, rp, rteosq, sinio (the sidereal
    angle gsto, U 1074-1085, is [init_gsto]) *)
Record initlr : Type := mkInitl { i_no : R; i_ao : R; i_con41 : R; i_con42 : R; i_cosio : R; i_cosio2 : R; i_omeosq : R; i_posq : R; i_rp : R;
  i_rteosq : R; i_sinio : R }.
Definition initl (g : grav) (ecco_ inclo_ no_ : R) : res initlr :=
  let eccsq := ecco_ * ecco_ in
  let omeosq := 1 - eccsq in
  do rteosq <- fsqrt omeosq;
  let cosio := cos inclo_ in
  let cosio2 := cosio * cosio in
  do q <- fdiv (xke g) no_;
  do ak <- fpow q (2 / 3);
  do d1 <- fdiv (0.75 * j2 g * (3 * cosio2 - 1)) (rteosq * omeosq);
  do del <- fdiv d1 (ak * ak);
  let adel := ak * (1 - del * del - del * (1 / 3 + 134 * del * del / 81)) in
  do del <- fdiv d1 (adel * adel);
  do no' <- fdiv no_ (1 + del);
  do q <- fdiv (xke g) no';
  do ao <- fpow q (2 / 3);
  let po := ao * omeosq in
  let con42 := 1 - 5 * cosio2 in
  Val (mkInitl no' ao (- con42 - cosio2 - cosio2) con42 cosio cosio2 omeosq (po * po) (ao * (1 - ecco_)) rteosq (sin inclo_)).
Definition init_gsto (epoch : R) : R :=
  let ts70 := epoch - 7305 in
  let ids70 := Int_part (ts70 + 1e-8) in
  let tfrac := ts70 - IZR ids70 in
  let c1 := 1.72027916940703639e-2 in
  let thgr70 := 1.7321343856509374 in
  let fk5r := 5.07551419432269442e-15 in
  let g := fmod2pi (thgr70 + c1 * IZR ids70 + (c1 + twopi) * tfrac + ts70 * ts70 * fk5r) in
  if rlt g 0 then g + twopi else g.

(** U 1308-1316: the density parameters s and (q0 - s)^4 by perigee height *)
Definition drag_params (g : grav) (rp : R) : R * R :=
  let perige := (rp - 1) * radiusearthkm g in
  if rlt perige 156 then
    let sfour := if rlt perige 98 then 20 else perige - 78 in
    (sfour / radiusearthkm g + 1, ((120 - sfour) / radiusearthkm g) ^ 4)
  else (78 / radiusearthkm g + 1, ((120 - 78) / radiusearthkm g) ^ 4).

(** U 1304-1359: the coefficients; also returns tsi and sfour *)
Definition init_terms (g : grav) (i : initlr) (s : satrec) : res (satrec * R * R) :=
  let s := set_isimp (if rlt (i_rp i) (220 / radiusearthkm g + 1) then 1 else 0)%Z s in
  let '(sfour, qzms24) := drag_params g (i_rp i) in
  let e := num s ecco in
  let ao := i_ao i in
  let cosio2 := i_cosio2 i in
  do pinvsq <- fdiv 1 (i_posq i);
  do tsi <- fdiv 1 (ao - sfour);
  let eta_ := ao * e * tsi in
  let etasq := eta_ * eta_ in
  let eeta := e * eta_ in
  let psisq := Rabs (1 - etasq) in
  let coef := qzms24 * tsi ^ 4 in
  do p35 <- fpow psisq 3.5;
  do coef1 <- fdiv coef p35;
  do tp <- fdiv (0.375 * j2 g * tsi) psisq;
  let cc2 := coef1 * num s no * (ao * (1 + 1.5 * etasq + eeta * (4 + etasq)) + tp * num s con41 * (8 + 3 * etasq * (8 + etasq))) in
  let cc1_ := num s bstar * cc2 in
  do cc3 <- (if rlt 1e-4 e then fdiv (- 2 * coef * tsi * j3oj2 g * num s no * i_sinio i) e else Val 0);
  let x1mth2_ := 1 - cosio2 in
  do tq <- fdiv (j2 g * tsi) (ao * psisq);
  let cc4_ := 2 * num s no * coef1 * ao * i_omeosq i *
              (eta_ * (2 + 0.5 * etasq) + e * (0.5 + 2 * etasq) -
               tq * (- 3 * num s con41 * (1 - 2 * eeta + etasq * (1.5 - 0.5 * eeta)) +
                     0.75 * x1mth2_ * (2 * etasq - eeta * (1 + etasq)) * cos (2 * num s argpo))) in
  let cc5_ := 2 * coef1 * ao * i_omeosq i * (1 + 2.75 * (etasq + eeta) + eeta * etasq) in
  let cosio4 := cosio2 * cosio2 in
  let temp1 := 1.5 * j2 g * pinvsq * num s no in
  let temp2 := 0.5 * temp1 * j2 g * pinvsq in
  let temp3 := - 0.46875 * j4 g * pinvsq * pinvsq * num s no in
  let mdot_ := num s no + 0.5 * temp1 * i_rteosq i * num s con41 + 0.0625 * temp2 * i_rteosq i * (13 - 78 * cosio2 + 137 * cosio4) in
  let argpdot_ := - 0.5 * temp1 * i_con42 i + 0.0625 * temp2 * (7 - 114 * cosio2 + 395 * cosio4) + temp3 * (3 - 36 * cosio2 + 49 * cosio4) in
  let xhdot1 := - temp1 * i_cosio i in
  let nodedot_ := xhdot1 + (0.5 * temp2 * (4 - 19 * cosio2) + 2 * temp3 * (3 - 7 * cosio2)) * i_cosio i in
  let omgcof_ := num s bstar * cc3 * cos (num s argpo) in
  do xmcof_ <- (if rlt 1e-4 e then fdiv (- (2 / 3) * coef * num s bstar) eeta else Val 0);
  do xlcof_ <- calc_xlcof g (i_sinio i) (i_cosio i);
  let s := set eta eta_ (set cc1 cc1_ (set x1mth2 x1mth2_ (set cc4 cc4_ (set cc5 cc5_ (set mdot mdot_ (set argpdot argpdot_
             (set nodedot nodedot_ (set omgcof omgcof_ (set xmcof xmcof_ (set nodecf (3.5 * i_omeosq i * xhdot1 * cc1_)
               (set t2cof (1.5 * cc1_) (set xlcof xlcof_ (set aycof (- 0.5 * j3oj2 g * i_sinio i)
                 (set delmo ((1 + eta_ * cos (num s mo)) ^ 3) (set sinmao (sin (num s mo)) (set x7thm1 (7 * cosio2 - 1) s)))))))))))))))) in
  Val (s, tsi, sfour).
(** U 1361-1402: [deepinit] stands for dscom, dpper and dsinit *)
Definition init_coefs (deepinit : gravconst -> R -> satrec -> res satrec) (w : gravconst) (epoch : R) (i : initlr) (s : satrec) : res satrec :=
  do (s, tsi, sfour) <- init_terms (getgravconst w) i s;
  let ao := i_ao i in
  do period <- fdiv twopi (num s no);
  do s <- (if rle 225 period then deepinit w epoch (set_isimp 1 (set_deep true s)) else Val s);
  if negb (isimp s =? 1)%Z then
    let cc1sq := num s cc1 * num s cc1 in
    let d2_ := 4 * ao * tsi * cc1sq in
    let temp := d2_ * tsi * num s cc1 / 3 in
    let d3_ := (17 * ao + sfour) * temp in
    let d4_ := 0.5 * temp * ao * tsi * (221 * ao + 31 * sfour) * num s cc1 in
    Val (set d2 d2_ (set d3 d3_ (set d4 d4_ (set t3cof (d2_ + 2 * cc1sq)
          (set t4cof (0.25 * (3 * d3_ + num s cc1 * (12 * d2_ + 10 * cc1sq)))
            (set t5cof (0.2 * (3 * d4_ + 12 * num s cc1 * d3_ + 6 * d2_ * d2_ + 15 * cc1sq * (2 * d2_ + cc1sq))) s))))))
  else Val s.

(** U 1183-1410.  The assignments of zero, U 1185-1268, are the record that is 0 everywhere but in the fields that sgp4init does not
    touch. *)
Definition untouched (f : fld) : bool :=
  match f with sma | altp | alta | epochdays | jdsatepoch | nddot | ndot => true | _ => false end.
Definition sgp4init (deepinit : gravconst -> R -> satrec -> res satrec) (w : gravconst) (epoch xbstar xecco xargpo xinclo xmo xno xnodeo : R)
    (s : satrec) : res satrec :=
  let g := getgravconst w in
  let s := mkSat (fun f => if untouched f then num s f else 0) 0 0 false (error s) in
  let s := set bstar xbstar (set ecco xecco (set argpo xargpo (set inclo xinclo (set mo xmo (set no xno (set nodeo xnodeo s)))))) in
  let s := set tt 0 s in
  do i <- initl g (num s ecco) (num s inclo) (num s no);
  let s := set gsto (init_gsto epoch) (set con41 (i_con41 i) (set_deep false (set no (i_no i) s))) in
  let s := set_error (if rlt (i_rp i) 1 then 5 else 0)%Z s in
  do s <- (if rle 0 (i_omeosq i) || rle 0 (num s no) then init_coefs deepinit w epoch i s else Val s);
  if (error s =? 0)%Z then do (s, _) <- sgp4 w s 0; Val s else Val s.

(** ** twoline2rv after the two lines are scanned, IO 96-98 and 142-271: the numbers read, in the units of the lines *)
Record tle : Type := mkTle { l_epochyr : Z; l_epochdays : R; l_ndot : R; l_nddot : R; l_nexp : Z; l_bstar : R; l_ibexp : Z;
  l_incl : R; l_node : R; l_ecc : R; l_argp : R; l_m : R; l_n : R }.
Definition pow10 (z : Z) : R := powerRZ 10 z.
Definition deg2rad : R := PI / 180.
Definition xpdotp : R := 1440 / (2 * PI).
Definition full_year (epochyr : Z) : Z := if (epochyr <? 57)%Z then (epochyr + 2000)%Z else (epochyr + 1900)%Z.
Definition tle_epoch (l : tle) : R :=
  let d := days2mdhms (full_year (l_epochyr l)) (l_epochdays l) in
  jday (full_year (l_epochyr l)) (s_mon d) (s_day d) (s_hr d) (s_min d) (s_sec d).
Definition twoline2rv (deepinit : gravconst -> R -> satrec -> res satrec) (w : gravconst) (l : tle) (s : satrec) : res satrec :=
  let g := getgravconst w in
  let n := l_n l / xpdotp in
  do a <- fpow (n * tumin g) (- (2) / 3);
  let bs := l_bstar l * pow10 (l_ibexp l) in
  let jd := tle_epoch l in
  let s := set_error 0 s in
  let s := set sma a (set alta (a * (1 + l_ecc l) - 1) (set altp (a * (1 - l_ecc l) - 1) (set epochdays (l_epochdays l) (set jdsatepoch jd
             (set ndot (l_ndot l / (xpdotp * 1440)) (set nddot (l_nddot l * pow10 (l_nexp l) / (xpdotp * 1440 * 1440)) s)))))) in
  sgp4init deepinit w (jd - 2433281.5) bs (l_ecc l) (l_argp l * deg2rad) (l_incl l * deg2rad) (l_m l * deg2rad) n (l_node l * deg2rad) s.

(** ** Sgp4OrbitPropagation, P 14-70.  The result [None] of a run: r and v are read although sgp4 did not write them (undefined behaviour). *)
Record sgp4orbit : Type := mkOrb { o_wgs : gravconst; o_sat : satrec; o_enabled : bool; o_pos : vec; o_vel : vec; o_acc : vec }.
(** P 19-25: for any other setting the member stays uninitialised *)
Definition wgs_of (setting : Z) : option gravconst :=
  if (setting =? 0)%Z then Some Wgs72old else if (setting =? 1)%Z then Some Wgs72 else if (setting =? 2)%Z then Some Wgs84 else None.
(** P 49-70, without the conversion to the Earth-fixed frame and the geodetic position *)
Definition propagate (o : sgp4orbit) (current_jd : R) : res (option sgp4orbit) :=
  if o_enabled o then
    let elapse_time_min := (current_jd - num (o_sat o) jdsatepoch) * (24 * 60) in
    do (s, out) <- sgp4 (o_wgs o) (o_sat o) elapse_time_min;
    Val (match out with
         | Some (r, v) => Some (mkOrb (o_wgs o) s (o_enabled o) (fun i => r i * 1000) (fun i => v i * 1000) (o_acc o))
         | None => None
         end)
  else Val (Some o).
Definition set_enabled (b : bool) (o : sgp4orbit) : sgp4orbit := mkOrb (o_wgs o) (o_sat o) b (o_pos o) (o_vel o) (o_acc o).
(** P 14-47 from the scanned lines; [s0] is the uninitialised record; the acceleration is set to 0 *)
Definition orbit_new (deepinit : gravconst -> R -> satrec -> res satrec) (setting : Z) (l : tle) (s0 : satrec) (current_jd : R)
    : res (option sgp4orbit) :=
  match wgs_of setting with
  | None => Val None
  | Some w =>
    do s <- twoline2rv deepinit w l s0;
    do o <- propagate (mkOrb w s true (fun _ => 0) (fun _ => 0) (fun _ => 0)) current_jd;
    Val (match o with Some o => Some (set_enabled false o) | None => None end)
  end.
