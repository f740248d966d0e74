(** Model of the initialisation of deep space satellites in src/math_physics/orbit/sgp4/sgp4unit.cpp (U): dscom, dsinit and their calls
    from sgp4init.  Same reading of doubles, divisions and powers as Sgp4Model. *)
From Coq Require Import Reals List Bool ZArith.
From Verif Require Import RBase VecModel Trig SensorModel JulianModel Sgp4Model.
Open Scope R_scope.

Definition set_irez (i : Z) (s : satrec) : satrec := mkSat (num s) (isimp s) i (deep s) (error s).

(** ** dscom, U 325-502 *)
(** U 351-361 and 393: the values of the satellite's orbit that the loop uses *)
Record dsorb : Type := mkDso { o_em : R; o_emsq : R; o_betasq : R; o_rtemsq : R; o_xnoi : R; o_sinim : R; o_cosim : R; o_sinomm : R; o_cosomm : R;
  o_snodm : R; o_cnodm : R }.
(** what one turn of the loop leaves in s1-s7 and z1-z33 *)
Record dsbody : Type := mkDsb { b_s1 : R; b_s2 : R; b_s3 : R; b_s4 : R; b_s5 : R; b_s6 : R; b_s7 : R; b_z1 : R; b_z2 : R; b_z3 : R;
  b_z11 : R; b_z12 : R; b_z13 : R; b_z21 : R; b_z22 : R; b_z23 : R; b_z31 : R; b_z32 : R; b_z33 : R }.
(** U 396-437: one turn *)
Definition ds_terms (o : dsorb) (zcosg zsing zcosi zsini zcosh zsinh cc : R) : res dsbody :=
  let '(cosim, sinim, cosomm, sinomm) := (o_cosim o, o_sinim o, o_cosomm o, o_sinomm o) in
  let '(em, emsq, betasq, rtemsq) := (o_em o, o_emsq o, o_betasq o, o_rtemsq o) in
  let a1 := zcosg * zcosh + zsing * zcosi * zsinh in
  let a3 := - zsing * zcosh + zcosg * zcosi * zsinh in
  let a7 := - zcosg * zsinh + zsing * zcosi * zcosh in
  let a8 := zsing * zsini in
  let a9 := zsing * zsinh + zcosg * zcosi * zcosh in
  let a10 := zcosg * zsini in
  let a2 := cosim * a7 + sinim * a8 in
  let a4 := cosim * a9 + sinim * a10 in
  let a5 := - sinim * a7 + cosim * a8 in
  let a6 := - sinim * a9 + cosim * a10 in
  let x1 := a1 * cosomm + a2 * sinomm in
  let x2 := a3 * cosomm + a4 * sinomm in
  let x3 := - a1 * sinomm + a2 * cosomm in
  let x4 := - a3 * sinomm + a4 * cosomm in
  let x5 := a5 * sinomm in
  let x6 := a6 * sinomm in
  let x7 := a5 * cosomm in
  let x8 := a6 * cosomm in
  let z31 := 12 * x1 * x1 - 3 * x3 * x3 in
  let z32 := 24 * x1 * x2 - 6 * x3 * x4 in
  let z33 := 12 * x2 * x2 - 3 * x4 * x4 in
  let z1 := 3 * (a1 * a1 + a2 * a2) + z31 * emsq in
  let z2 := 6 * (a1 * a3 + a2 * a4) + z32 * emsq in
  let z3 := 3 * (a3 * a3 + a4 * a4) + z33 * emsq in
  let z11 := - 6 * a1 * a5 + emsq * (- 24 * x1 * x7 - 6 * x3 * x5) in
  let z12 := - 6 * (a1 * a6 + a3 * a5) + emsq * (- 24 * (x2 * x7 + x1 * x8) - 6 * (x3 * x6 + x4 * x5)) in
  let z13 := - 6 * a3 * a6 + emsq * (- 24 * x2 * x8 - 6 * x4 * x6) in
  let z21 := 6 * a2 * a5 + emsq * (24 * x1 * x5 - 6 * x3 * x7) in
  let z22 := 6 * (a4 * a5 + a2 * a6) + emsq * (24 * (x2 * x5 + x1 * x6) - 6 * (x4 * x7 + x3 * x8)) in
  let z23 := 6 * a4 * a6 + emsq * (24 * x2 * x6 - 6 * x4 * x8) in
  let z1 := z1 + z1 + betasq * z31 in
  let z2 := z2 + z2 + betasq * z32 in
  let z3 := z3 + z3 + betasq * z33 in
  let s3 := cc * o_xnoi o in
  do s2 <- fdiv (- 0.5 * s3) rtemsq;
  let s4 := s3 * rtemsq in
  let s1 := - 15 * em * s4 in
  let s5 := x1 * x3 + x2 * x4 in
  let s6 := x2 * x3 + x1 * x4 in
  let s7 := x2 * x4 - x1 * x3 in
  Val (mkDsb s1 s2 s3 s4 s5 s6 s7 z1 z2 z3 z11 z12 z13 z21 z22 z23 z31 z32 z33).

(** U 336-343: constants *)
Definition zes : R := 0.01675.
Definition zel : R := 0.05490.
Definition c1ss : R := 2.9864797e-6.
Definition c1l : R := 4.7968065e-7.
Definition zsinis : R := 0.39785416.
Definition zcosis : R := 0.91744867.
Definition zcosgs : R := 0.1945905.
Definition zsings : R := - 0.98088458.
(** U 370-383: the orbit of the Moon: zcosgl, zsingl, zcosil, zsinil, zcoshl, zsinhl, and gam *)
Definition ds_lunar (day : R) : res (R * R * R * R * R * R * R) :=
  let xnodce := fmod2pi (4.5236020 - 9.2422029e-4 * day) in
  let stem := sin xnodce in
  let ctem := cos xnodce in
  let zcosil := 0.91375164 - 0.03568096 * ctem in
  do zsinil <- fsqrt (1 - zcosil * zcosil);
  do zsinhl <- fdiv (0.089683511 * stem) zsinil;
  do zcoshl <- fsqrt (1 - zsinhl * zsinhl);
  let gam := 5.8351514 + 0.0019443680 * day in
  do zx <- fdiv (0.39785416 * stem) zsinil;
  let zy := zcoshl * ctem + 0.91744867 * zsinhl * stem in
  let zx := atan2 zx zy in
  let zx := gam + zx - xnodce in
  Val (cos zx, sin zx, zcosil, zsinil, zcoshl, zsinhl, gam).
(** U 351-361 and 393 *)
Definition ds_orbit (ep argpp inclp nodep np : R) : res dsorb :=
  let emsq := ep * ep in
  let betasq := 1 - emsq in
  do rtemsq <- fsqrt betasq;
  do xnoi <- fdiv 1 np;
  Val (mkDso ep emsq betasq rtemsq xnoi (sin inclp) (cos inclp) (sin argpp) (cos argpp) (sin nodep) (cos nodep)).
(** the whole: the satellite's values, the solar and the lunar terms, and gam *)
Definition dscom_bodies (day ep argpp inclp nodep np : R) : res (dsorb * dsbody * dsbody * R) :=
  do o <- ds_orbit ep argpp inclp nodep np;
  do (zcosgl, zsingl, zcosil, zsinil, zcoshl, zsinhl, gam) <- ds_lunar day;
  do ss <- ds_terms o zcosgs zsings zcosis zsinis (o_cnodm o) (o_snodm o) c1ss;
  do sl <- ds_terms o zcosgl zsingl zcosil zsinil (zcoshl * o_cnodm o + zsinhl * o_snodm o) (o_snodm o * zcoshl - o_cnodm o * zsinhl) c1l;
  Val (o, ss, sl, gam).
(** U 364-368 and 470-499: what dscom stores in the record *)
Definition dscom_store (day gam emsq : R) (ss b : dsbody) (s : satrec) : satrec :=
  let s := set peo 0 (set pinco 0 (set plo 0 (set pgho 0 (set pho 0 s)))) in
  let s := set zmol (fmod2pi (4.7199672 + 0.22997150 * day - gam)) (set zmos (fmod2pi (6.2565837 + 0.017201977 * day)) s) in
  let s := set se2 (2 * b_s1 ss * b_s6 ss) (set se3 (2 * b_s1 ss * b_s7 ss)
          (set si2 (2 * b_s2 ss * b_z12 ss) (set si3 (2 * b_s2 ss * (b_z13 ss - b_z11 ss))
          (set sl2 (- 2 * b_s3 ss * b_z2 ss) (set sl3 (- 2 * b_s3 ss * (b_z3 ss - b_z1 ss)) (set sl4 (- 2 * b_s3 ss * (- 21 - 9 * emsq) * zes)
          (set sgh2 (2 * b_s4 ss * b_z32 ss) (set sgh3 (2 * b_s4 ss * (b_z33 ss - b_z31 ss)) (set sgh4 (- 18 * b_s4 ss * zes)
          (set sh2 (- 2 * b_s2 ss * b_z22 ss) (set sh3 (- 2 * b_s2 ss * (b_z23 ss - b_z21 ss)) s))))))))))) in
  set ee2 (2 * b_s1 b * b_s6 b) (set e3 (2 * b_s1 b * b_s7 b)
          (set xi2 (2 * b_s2 b * b_z12 b) (set xi3 (2 * b_s2 b * (b_z13 b - b_z11 b))
          (set xl2 (- 2 * b_s3 b * b_z2 b) (set xl3 (- 2 * b_s3 b * (b_z3 b - b_z1 b)) (set xl4 (- 2 * b_s3 b * (- 21 - 9 * emsq) * zel)
          (set xgh2 (2 * b_s4 b * b_z32 b) (set xgh3 (2 * b_s4 b * (b_z33 b - b_z31 b)) (set xgh4 (- 18 * b_s4 b * zel)
          (set xh2 (- 2 * b_s2 b * b_z22 b) (set xh3 (- 2 * b_s2 b * (b_z23 b - b_z21 b)) s))))))))))).

(** ** dsinit, U 584-768, called with t = tc = 0 *)
Definition zns : R := 1.19459e-5.
Definition znl : R := 1.5835218e-4.
Definition rptim : R := 4.37526908801129966e-3.
(** U 616-618 *)
Definition ds_irez (nm em : R) : Z :=
  let i := if rlt nm 0.0052359877 && rlt 0.0034906585 nm then 1%Z else 0%Z in
  if rle 8.26e-3 nm && rle nm 9.24e-3 && rle 0.5 em then 2%Z else i.
(** U 621-644: dedt, didt, dmdt, domdt, dnodt *)
Definition ds_secular (o : dsorb) (inclm : R) (ss b : dsbody) : res (R * R * R * R * R) :=
  let emsq := o_emsq o in
  let cosim := o_cosim o in
  let sinim := o_sinim o in
  let ses := b_s1 ss * zns * b_s5 ss in
  let sis := b_s2 ss * zns * (b_z11 ss + b_z13 ss) in
  let sls := - zns * b_s3 ss * (b_z1 ss + b_z3 ss - 14 - 6 * emsq) in
  let sghs := b_s4 ss * zns * (b_z31 ss + b_z33 ss - 6) in
  let shs := - zns * b_s2 ss * (b_z21 ss + b_z23 ss) in
  let shs := if rlt inclm 5.2359877e-2 || rlt (PI - 5.2359877e-2) inclm then 0 else shs in
  do shs <- (if negb (req sinim 0) then fdiv shs sinim else Val shs);
  let sgs := sghs - cosim * shs in
  let dedt_ := ses + b_s1 b * znl * b_s5 b in
  let didt_ := sis + b_s2 b * znl * (b_z11 b + b_z13 b) in
  let dmdt_ := sls - znl * b_s3 b * (b_z1 b + b_z3 b - 14 - 6 * emsq) in
  let sghl := b_s4 b * znl * (b_z31 b + b_z33 b - 6) in
  let shll := - znl * b_s2 b * (b_z21 b + b_z23 b) in
  let shll := if rlt inclm 5.2359877e-2 || rlt (PI - 5.2359877e-2) inclm then 0 else shll in
  let domdt_ := sgs + sghl in
  let dnodt_ := shs in
  do (domdt_, dnodt_) <-
    (if negb (req sinim 0) then
       do q <- fdiv cosim sinim;
       do r <- fdiv shll sinim;
       Val (domdt_ - q * shll, dnodt_ + r)
     else Val (domdt_, dnodt_));
  Val (dedt_, didt_, dmdt_, domdt_, dnodt_).
(** U 674-703: eccentricity functions g201, g211, g310, g322, g410, g422, g520, g533, g521, g532 of half-day orbits *)
Record dsecc : Type := mkDse { g201 : R; g211 : R; g310 : R; g322 : R; g410 : R; g422 : R; g520 : R; g533 : R; g521 : R; g532 : R }.
Definition ds_ecc (em emsq : R) : dsecc :=
  let eoc := em * emsq in
  let g201 := - 0.306 - (em - 0.64) * 0.440 in
  let '(g211, g310, g322, g410, g422, g520) :=
    if rle em 0.65 then
      (3.616 - 13.2470 * em + 16.2900 * emsq,
       - 19.302 + 117.3900 * em - 228.4190 * emsq + 156.5910 * eoc,
       - 18.9068 + 109.7927 * em - 214.6334 * emsq + 146.5816 * eoc,
       - 41.122 + 242.6940 * em - 471.0940 * emsq + 313.9530 * eoc,
       - 146.407 + 841.8800 * em - 1629.014 * emsq + 1083.4350 * eoc,
       - 532.114 + 3017.977 * em - 5740.032 * emsq + 3708.2760 * eoc)
    else
      (- 72.099 + 331.819 * em - 508.738 * emsq + 266.724 * eoc,
       - 346.844 + 1582.851 * em - 2415.925 * emsq + 1246.113 * eoc,
       - 342.585 + 1554.908 * em - 2366.899 * emsq + 1215.972 * eoc,
       - 1052.797 + 4758.686 * em - 7193.992 * emsq + 3651.957 * eoc,
       - 3581.690 + 16178.110 * em - 24462.770 * emsq + 12422.520 * eoc,
       if rlt 0.715 em then - 5149.66 + 29936.92 * em - 54087.36 * emsq + 31324.56 * eoc else 1464.74 - 4664.75 * em + 3763.64 * emsq) in
  let '(g533, g521, g532) :=
    if rlt em 0.7 then
      (- 919.22770 + 4988.6100 * em - 9064.7700 * emsq + 5542.21 * eoc,
       - 822.71072 + 4568.6173 * em - 8491.4146 * emsq + 5337.524 * eoc,
       - 853.66600 + 4690.2500 * em - 8624.7700 * emsq + 5341.4 * eoc)
    else
      (- 37995.780 + 161616.52 * em - 229838.20 * emsq + 109377.94 * eoc,
       - 51752.104 + 218913.95 * em - 309468.16 * emsq + 146349.42 * eoc,
       - 40023.880 + 170470.89 * em - 242699.48 * emsq + 115605.82 * eoc) in
  mkDse g201 g211 g310 g322 g410 g422 g520 g533 g521 g532.
(** U 705-715: inclination functions of half-day orbits *)
Record dsinc : Type := mkDsi { f220 : R; f221 : R; f321 : R; f322 : R; f441 : R; f442 : R; f522 : R; f523 : R; f542 : R; f543 : R }.
Definition ds_inc (sinim cosim : R) : dsinc :=
  let cosisq := cosim * cosim in
  let sini2 := sinim * sinim in
  let f220 := 0.75 * (1 + 2 * cosim + cosisq) in
  mkDsi f220 (1.5 * sini2) (1.875 * sinim * (1 - 2 * cosim - 3 * cosisq)) (- 1.875 * sinim * (1 + 2 * cosim - 3 * cosisq))
    (35 * sini2 * f220) (39.3750 * sini2 * sini2)
    (9.84375 * sinim * (sini2 * (1 - 2 * cosim - 5 * cosisq) + 0.33333333 * (- 2 + 4 * cosim + 6 * cosisq)))
    (sinim * (4.92187512 * sini2 * (- 2 - 4 * cosim + 10 * cosisq) + 6.56250012 * (1 + 2 * cosim - 3 * cosisq)))
    (29.53125 * sinim * (2 - 8 * cosim + cosisq * (- 12 + 8 * cosim + 10 * cosisq)))
    (29.53125 * sinim * (- 2 - 8 * cosim + cosisq * (12 + 8 * cosim - 10 * cosisq))).
(** U 599-607 *)
Definition q22 : R := 1.7891679e-6.
Definition q31 : R := 2.1460748e-6.
Definition q33 : R := 2.2123015e-7.
Definition root22 : R := 1.7891679e-6.
Definition root44 : R := 7.3636953e-9.
Definition root54 : R := 2.1765803e-9.
Definition root32 : R := 3.7393792e-7.
Definition root52 : R := 1.1428639e-7.
(** U 669-740: geopotential resonance for 12 hour orbits; theta is the sidereal angle, aonv the inverse of the semimajor axis *)
Definition ds_half (o : dsorb) (nm aonv theta : R) (s : satrec) : satrec :=
  let n := num s in
  let f := ds_inc (o_sinim o) (o_cosim o) in
  let g := ds_ecc (n ecco) (n ecco * n ecco) in
  let xno2 := nm * nm in
  let ainv2 := aonv * aonv in
  let temp1 := 3 * xno2 * ainv2 in
  let temp := temp1 * root22 in
  let s := set d2201 (temp * f220 f * g201 g) (set d2211 (temp * f221 f * g211 g) s) in
  let temp1 := temp1 * aonv in
  let temp := temp1 * root32 in
  let s := set d3210 (temp * f321 f * g310 g) (set d3222 (temp * f322 f * g322 g) s) in
  let temp1 := temp1 * aonv in
  let temp := 2 * temp1 * root44 in
  let s := set d4410 (temp * f441 f * g410 g) (set d4422 (temp * f442 f * g422 g) s) in
  let temp1 := temp1 * aonv in
  let temp := temp1 * root52 in
  let s := set d5220 (temp * f522 f * g520 g) (set d5232 (temp * f523 f * g532 g) s) in
  let temp := 2 * temp1 * root54 in
  let s := set d5421 (temp * f542 f * g521 g) (set d5433 (temp * f543 f * g533 g) s) in
  set xlamo (fmod2pi (n mo + n nodeo + n nodeo - theta - theta))
    (set xfact (n mdot + n dmdt + 2 * (n nodedot + n dnodt - rptim) - n no) s).
(** U 744-757: synchronous resonance terms; xpidot is argpdot + nodedot (U 1346) *)
Definition ds_sync (o : dsorb) (nm aonv theta : R) (s : satrec) : satrec :=
  let n := num s in
  let emsq := o_emsq o in
  let cosim := o_cosim o in
  let sinim := o_sinim o in
  let xpidot := n argpdot + n nodedot in
  let g200 := 1 + emsq * (- 2.5 + 0.8125 * emsq) in
  let g310 := 1 + 2 * emsq in
  let g300 := 1 + emsq * (- 6 + 6.60937 * emsq) in
  let f220 := 0.75 * (1 + cosim) * (1 + cosim) in
  let f311 := 0.9375 * sinim * sinim * (1 + 3 * cosim) - 0.75 * (1 + cosim) in
  let f330 := 1 + cosim in
  let f330 := 1.875 * f330 * f330 * f330 in
  let del1_ := 3 * nm * nm * aonv * aonv in
  let s := set del2 (2 * del1_ * f220 * g200 * q22) s in
  let s := set del3 (3 * del1_ * f330 * g300 * q33 * aonv) s in
  let s := set del1 (del1_ * f311 * g310 * q31 * aonv) s in
  set xlamo (fmod2pi (n mo + n nodeo + n argpo - theta))
    (set xfact (n mdot + xpidot - rptim + n dmdt + n domdt + n dnodt - n no) s).
(** U 616-764 with t = tc = 0: em, inclm, argpm, nodem, mm are local to sgp4init and not used afterwards *)
Definition dsinit (w : gravconst) (o : dsorb) (ss b : dsbody) (s : satrec) : res satrec :=
  let nm := num s no in
  let s := set_irez (ds_irez nm (o_em o)) s in
  do (dedt_, didt_, dmdt_, domdt_, dnodt_) <- ds_secular o (num s inclo) ss b;
  let s := set dedt dedt_ (set didt didt_ (set dmdt dmdt_ (set domdt domdt_ (set dnodt dnodt_ s)))) in
  let theta := fmod2pi (num s gsto + 0 * rptim) in
  if negb (irez s =? 0)%Z then
    do q <- fdiv nm (xke (getgravconst w));
    do aonv <- fpow q (2 / 3);
    let s := if (irez s =? 2)%Z then ds_half o nm aonv theta s else s in
    let s := if (irez s =? 1)%Z then ds_sync o nm aonv theta s else s in
    Val (set xli (num s xlamo) (set xni (num s no) (set atime 0 s)))
  else Val s.

(** ** U 1363-1389: the calls from sgp4init.  With init = 'y' dpper (U 149-255) changes none of its reference parameters, as everything after U 197
    is guarded by init == 'n'. *)
Definition deepinit (w : gravconst) (epoch : R) (s : satrec) : res satrec :=
  let tc := 0 in
  let day := epoch + 18261.5 + tc / 1440 in
  let n := num s in
  do (o, ss, b, gam) <- dscom_bodies day (n ecco) (n argpo) (n inclo) (n nodeo) (n no);
  dsinit w o ss b (dscom_store day gam (o_emsq o) ss b s).
