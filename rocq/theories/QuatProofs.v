From Coq Require Import Reals Lra Lia List Bool ZArith Nsatz.
From Verif Require Import Base RBase VecModel VecProofs Trig QuatModel QuatSpec.
Open Scope R_scope.

Ltac i3 i H := destruct i as [|[|[|i]]]; [| | |exfalso; lia]; clear H.
Ltac i4 i H := destruct i as [|[|[|[|i]]]]; [| | | |exfalso; lia]; clear H.
Ltac qunf := cbv [qmul qmulv qconj qscal qadd qsub frame_conversion inverse_frame_conversion to_dcm q4 v3 m3 mmul mtrans mvec mident
                  vadd vsub vscal cross dot sumn hamilton_scalar hamilton_vector rodrigues rot_x rot_y rot_z euler_dcm det3
                  Nat.eqb Nat.ltb Nat.leb q_axis_angle].

Lemma unit4 (q : quat) : unit 4 q -> q 0%nat * q 0%nat + q 1%nat * q 1%nat + q 2%nat * q 2%nat + q 3%nat * q 3%nat = 1.
Proof. intros H. unfold unit in H. revert H. qunf. lra. Qed.
Lemma unit3 (q : vec) : unit 3 q -> q 0%nat * q 0%nat + q 1%nat * q 1%nat + q 2%nat * q 2%nat = 1.
Proof. intros H. unfold unit in H. revert H. qunf. lra. Qed.

Lemma qmul_hamilton (p q : quat) :
  qmul p q 3%nat = hamilton_scalar (p 3%nat) p (q 3%nat) q /\ veq 3 (qmul p q) (hamilton_vector (p 3%nat) p (q 3%nat) q).
Proof. split; [qunf; ring|]. intros i H. i3 i H; qunf; ring. Qed.
Lemma qmulv_pure (q : quat) (v : vec) : veq 4 (qmulv q v) (qmul q (q4 (v 0%nat) (v 1%nat) (v 2%nat) 0)).
Proof. intros i H. i4 i H; qunf; ring. Qed.
Lemma qmul_assoc (a b c : quat) : veq 4 (qmul (qmul a b) c) (qmul a (qmul b c)).
Proof. intros i H. i4 i H; qunf; ring. Qed.
Lemma qmul_conj (a b : quat) : veq 4 (qconj (qmul a b)) (qmul (qconj b) (qconj a)).
Proof. intros i H. i4 i H; qunf; ring. Qed.
Lemma qmul_norm (a b : quat) : dot 4 (qmul a b) (qmul a b) = dot 4 a a * dot 4 b b.
Proof. qunf. ring. Qed.
Lemma qconj_inverse (q : quat) : veq 4 (qmul q (qconj q)) (q4 0 0 0 (dot 4 q q)) /\ veq 4 (qmul (qconj q) q) (q4 0 0 0 (dot 4 q q)).
Proof. split; intros i H; i4 i H; qunf; ring. Qed.

Lemma frame_dcm (q : quat) (v : vec) : veq 3 (frame_conversion q v) (mvec 3 (to_dcm q) v).
Proof. intros i H. i3 i H; qunf; ring. Qed.
Lemma inverse_frame_dcm (q : quat) (v : vec) : veq 3 (inverse_frame_conversion q v) (mvec 3 (mtrans (to_dcm q)) v).
Proof. intros i H. i3 i H; qunf; ring. Qed.

Lemma dcm_mul (a b : quat) : meq3 (to_dcm (qmul a b)) (mmul 3 (to_dcm b) (to_dcm a)).
Proof. intros i j H K. i3 i H; i3 j K; qunf; ring. Qed.

Lemma dcm_gram (q : quat) (i j : nat) : (i < 3)%nat -> (j < 3)%nat ->
  mmul 3 (to_dcm q) (mtrans (to_dcm q)) i j = (dot 4 q q) * (dot 4 q q) * mident i j /\
  mmul 3 (mtrans (to_dcm q)) (to_dcm q) i j = (dot 4 q q) * (dot 4 q q) * mident i j.
Proof. intros H K. i3 i H; i3 j K; qunf; split; ring. Qed.
Lemma dcm_det (q : quat) : det3 (to_dcm q) = dot 4 q q * dot 4 q q * dot 4 q q.
Proof. qunf. ring. Qed.
Lemma dcm_rotation (q : quat) : unit 4 q -> rotation (to_dcm q).
Proof.
  intros U. unfold unit in U. split; [|split].
  - intros i j H K. destruct (dcm_gram q i j H K) as [E _]. rewrite E, U. ring.
  - intros i j H K. destruct (dcm_gram q i j H K) as [_ E]. rewrite E, U. ring.
  - rewrite dcm_det, U. ring.
Qed.

(** what a rotation matrix does to vectors *)
Lemma rotation_dot (m : mat) (u v : vec) : rotation m -> dot 3 (mvec 3 m u) (mvec 3 m v) = dot 3 u v.
Proof.
  intros (_ & H & _).
  pose proof (H 0 0 ltac:(lia) ltac:(lia))%nat as H00. pose proof (H 0 1 ltac:(lia) ltac:(lia))%nat as H01.
  pose proof (H 0 2 ltac:(lia) ltac:(lia))%nat as H02. pose proof (H 1 1 ltac:(lia) ltac:(lia))%nat as H11.
  pose proof (H 1 2 ltac:(lia) ltac:(lia))%nat as H12. pose proof (H 2 2 ltac:(lia) ltac:(lia))%nat as H22.
  clear H. revert H00 H01 H02 H11 H12 H22. qunf. intros.
  set (a := m 0%nat 0%nat) in *. set (b := m 0%nat 1%nat) in *. set (c := m 0%nat 2%nat) in *.
  set (d := m 1%nat 0%nat) in *. set (e := m 1%nat 1%nat) in *. set (f := m 1%nat 2%nat) in *.
  set (g := m 2%nat 0%nat) in *. set (h := m 2%nat 1%nat) in *. set (k := m 2%nat 2%nat) in *.
  transitivity (u 0%nat * v 0%nat * (0 + a * a + d * d + g * g)
    + (u 0%nat * v 1%nat + u 1%nat * v 0%nat) * (0 + a * b + d * e + g * h)
    + (u 0%nat * v 2%nat + u 2%nat * v 0%nat) * (0 + a * c + d * f + g * k)
    + u 1%nat * v 1%nat * (0 + b * b + e * e + h * h)
    + (u 1%nat * v 2%nat + u 2%nat * v 1%nat) * (0 + b * c + e * f + h * k)
    + u 2%nat * v 2%nat * (0 + c * c + f * f + k * k)); [ring|].
  rewrite H00, H01, H02, H11, H12, H22. ring.
Qed.

(** the nine relations of a rotation matrix: rows, columns, cofactors *)
Record rot9 (a b c d e f g h k : R) : Prop := {
  r00 : a*a + b*b + c*c = 1; r11 : d*d + e*e + f*f = 1; r22 : g*g + h*h + k*k = 1;
  r01 : a*d + b*e + c*f = 0; r02 : a*g + b*h + c*k = 0; r12 : d*g + e*h + f*k = 0;
  c00 : a*a + d*d + g*g = 1; c11 : b*b + e*e + h*h = 1; c22 : c*c + f*f + k*k = 1;
  c01 : a*b + d*e + g*h = 0; c02 : a*c + d*f + g*k = 0; c12 : b*c + e*f + h*k = 0;
  k00 : a = e*k - f*h; k01 : b = f*g - d*k; k02 : c = d*h - e*g;
  k10 : d = c*h - b*k; k11 : e = a*k - c*g; k12 : f = b*g - a*h;
  k20 : g = b*f - c*e; k21 : h = c*d - a*f; k22 : k = a*e - b*d }.
Lemma rotation_rot9 (m : mat) : rotation m ->
  rot9 (m 0%nat 0%nat) (m 0%nat 1%nat) (m 0%nat 2%nat) (m 1%nat 0%nat) (m 1%nat 1%nat) (m 1%nat 2%nat)
       (m 2%nat 0%nat) (m 2%nat 1%nat) (m 2%nat 2%nat).
Proof.
  intros (H & G & D).
  pose proof (H 0 0 ltac:(lia) ltac:(lia))%nat as H00. pose proof (H 0 1 ltac:(lia) ltac:(lia))%nat as H01.
  pose proof (H 0 2 ltac:(lia) ltac:(lia))%nat as H02. pose proof (H 1 1 ltac:(lia) ltac:(lia))%nat as H11.
  pose proof (H 1 2 ltac:(lia) ltac:(lia))%nat as H12. pose proof (H 2 2 ltac:(lia) ltac:(lia))%nat as H22.
  pose proof (G 0 0 ltac:(lia) ltac:(lia))%nat as G00. pose proof (G 0 1 ltac:(lia) ltac:(lia))%nat as G01.
  pose proof (G 0 2 ltac:(lia) ltac:(lia))%nat as G02. pose proof (G 1 1 ltac:(lia) ltac:(lia))%nat as G11.
  pose proof (G 1 2 ltac:(lia) ltac:(lia))%nat as G12. pose proof (G 2 2 ltac:(lia) ltac:(lia))%nat as G22.
  clear H G. revert D H00 H01 H02 H11 H12 H22 G00 G01 G02 G11 G12 G22. qunf.
  generalize (m 0%nat 0%nat) (m 0%nat 1%nat) (m 0%nat 2%nat) (m 1%nat 0%nat) (m 1%nat 1%nat) (m 1%nat 2%nat)
       (m 2%nat 0%nat) (m 2%nat 1%nat) (m 2%nat 2%nat). clear m.
  intros a b c d e f g h k D H00 H01 H02 H11 H12 H22 G00 G01 G02 G11 G12 G22.
  assert (Ha : a = e*k - f*h) by nsatz.
  assert (Hb : b = f*g - d*k) by nsatz.
  assert (Hc : c = d*h - e*g) by nsatz.
  assert (Hd : d = c*h - b*k) by nsatz.
  assert (He : e = a*k - c*g) by nsatz.
  assert (Hf : f = b*g - a*h) by nsatz.
  assert (Hg : g = b*f - c*e) by nsatz.
  assert (Hh : h = c*d - a*f) by nsatz.
  assert (Hk : k = a*e - b*d) by nsatz.
  constructor; try assumption; lra.
Qed.
(** 4 q q^T of the quaternion behind a rotation matrix has rank one *)
Record rank1 (xx yy zz ww xy xz xw yz yw zw : R) : Prop := {
  xxyy : xx*yy = xy*xy; xxzz : xx*zz = xz*xz; xxww : xx*ww = xw*xw;
  yyzz : yy*zz = yz*yz; yyww : yy*ww = yw*yw; zzww : zz*ww = zw*zw;
  xxyz : xx*yz = xy*xz; xxyw : xx*yw = xy*xw; xxzw : xx*zw = xz*xw;
  yyxz : yy*xz = xy*yz; yyxw : yy*xw = xy*yw; yyzw : yy*zw = yz*yw;
  zzxy : zz*xy = xz*yz; zzxw : zz*xw = xz*zw; zzyw : zz*yw = yz*zw;
  wwxy : ww*xy = xw*yw; wwxz : ww*xz = xw*zw; wwyz : ww*yz = yw*zw }.
Lemma rot9_rank1 a b c d e f g h k : rot9 a b c d e f g h k ->
  rank1 (1+a-e-k) (1-a+e-k) (1-a-e+k) (1+a+e+k) (b+d) (c+g) (f-h) (f+h) (g-c) (b-d).
Proof.
  intros []. constructor; lra.
Qed.

Lemma scan_max_spec (q : quat) : (scan_max q < 4)%nat /\ forall i, (i < 4)%nat -> Rabs (q i) <= Rabs (q (scan_max q)).
Proof.
  unfold scan_max. pose proof (Rabs_pos (q 0%nat)). pose proof (Rabs_pos (q 1%nat)).
  pose proof (Rabs_pos (q 2%nat)). pose proof (Rabs_pos (q 3%nat)).
  repeat match goal with |- context [rlt ?a ?b] => destruct (rlt_spec a b) end; cbn [snd]; (split; [lia|]);
    intros i Hi; i4 i Hi; lra.
Qed.

Lemma prod_aux p T s t u : 0 < p -> p * p = T / 4 -> T * u = s * t -> s / (4 * p) * (t / (4 * p)) = u / 4.
Proof.
  intros Hp E F. assert (HT : T = 4 * (p * p)) by lra. rewrite HT in F.
  replace (s / (4 * p) * (t / (4 * p))) with (s * t / (16 * (p * p))) by (field; lra).
  rewrite <- F. field. lra.
Qed.
Lemma prod_aux1 p s : 0 < p -> p * (s / (4 * p)) = s / 4.
Proof. intros H. field. lra. Qed.

Lemma dcm_of_products (q : quat) (m : mat) :
  let a := m 0%nat 0%nat in let b := m 0%nat 1%nat in let c := m 0%nat 2%nat in
  let d := m 1%nat 0%nat in let e := m 1%nat 1%nat in let f := m 1%nat 2%nat in
  let g := m 2%nat 0%nat in let h := m 2%nat 1%nat in let k := m 2%nat 2%nat in
  let x := q 0%nat in let y := q 1%nat in let z := q 2%nat in let w := q 3%nat in
  x*x = (1+a-e-k)/4 -> y*y = (1-a+e-k)/4 -> z*z = (1-a-e+k)/4 -> w*w = (1+a+e+k)/4 ->
  x*y = (b+d)/4 -> x*z = (c+g)/4 -> x*w = (f-h)/4 -> y*z = (f+h)/4 -> y*w = (g-c)/4 -> z*w = (b-d)/4 ->
  unit 4 q /\ meq3 (to_dcm q) m.
Proof.
  intros. split.
  - unfold unit. qunf. fold x y z w. lra.
  - intros i j Hi Hj. i3 i Hi; i3 j Hj; qunf; fold x y z w a b c d e f g h k; lra.
Qed.

Lemma sqrt_half_sq t : 0 <= t -> sqrt t / 2 * (sqrt t / 2) = t / 4.
Proof. intros H. replace (sqrt t / 2 * (sqrt t / 2)) with (sqrt t * sqrt t / 4) by field. rewrite sqrt_sqrt by exact H. reflexivity. Qed.

Lemma max_pos p x y z w : 0 <= x <= p -> 0 <= y <= p -> 0 <= z <= p -> 0 <= w <= p -> x * x + y * y + z * z + w * w = 1 -> 0 < p.
Proof.
  intros X Y Z W E. destruct (Rle_lt_or_eq_dec 0 p) as [L|L]; [lra|exact L|].
  assert (x = 0) by lra. assert (y = 0) by lra. assert (z = 0) by lra. assert (w = 0) by lra. nra.
Qed.
Lemma from_dcm_spec (m : mat) : rotation m -> unit 4 (from_dcm m) /\ meq3 (to_dcm (from_dcm m)) m.
Proof.
  intros Rm. pose proof (rot9_rank1 _ _ _ _ _ _ _ _ _ (rotation_rot9 m Rm)) as K.
  unfold from_dcm.
  set (a := m 0%nat 0%nat) in *. set (b := m 0%nat 1%nat) in *. set (c := m 0%nat 2%nat) in *.
  set (d := m 1%nat 0%nat) in *. set (e := m 1%nat 1%nat) in *. set (f := m 1%nat 2%nat) in *.
  set (g := m 2%nat 0%nat) in *. set (h := m 2%nat 1%nat) in *. set (k := m 2%nat 2%nat) in *.
  destruct K.
  assert (SUM : (1+a-e-k) + (1-a+e-k) + (1-a-e+k) + (1+a+e+k) = 4) by ring.
  assert (NN : 0 <= 1+a-e-k /\ 0 <= 1-a+e-k /\ 0 <= 1-a-e+k /\ 0 <= 1+a+e+k).
  { revert SUM xxyy0 xxzz0 xxww0 yyzz0 yyww0 zzww0.
    generalize (1+a-e-k) (1-a+e-k) (1-a-e+k) (1+a+e+k) (b+d) (c+g) (f-h) (f+h) (g-c) (b-d). clear.
    intros x y z w t1 t2 t3 t4 t5 t6 SUM P1 P2 P3 P4 P5 P6.
    assert (S1 := Rle_0_sqr t1). assert (S2 := Rle_0_sqr t2). assert (S3 := Rle_0_sqr t3).
    assert (S4 := Rle_0_sqr t4). assert (S5 := Rle_0_sqr t5). assert (S6 := Rle_0_sqr t6). unfold Rsqr in *.
    repeat split; apply Rnot_lt_le; intros L.
    - assert (y <= 0) by nra. assert (z <= 0) by nra. assert (w <= 0) by nra. lra.
    - assert (x <= 0) by nra. assert (z <= 0) by nra. assert (w <= 0) by nra. lra.
    - assert (x <= 0) by nra. assert (y <= 0) by nra. assert (w <= 0) by nra. lra.
    - assert (x <= 0) by nra. assert (y <= 0) by nra. assert (z <= 0) by nra. lra. }
  destruct NN as (N0 & N1 & N2 & N3).
  pose proof (sqrt_half_sq _ N0) as Q0. pose proof (sqrt_half_sq _ N1) as Q1.
  pose proof (sqrt_half_sq _ N2) as Q2. pose proof (sqrt_half_sq _ N3) as Q3.
  assert (P0 : 0 <= sqrt (1+a-e-k) / 2) by (pose proof (sqrt_pos (1+a-e-k)); lra).
  assert (P1 : 0 <= sqrt (1-a+e-k) / 2) by (pose proof (sqrt_pos (1-a+e-k)); lra).
  assert (P2 : 0 <= sqrt (1-a-e+k) / 2) by (pose proof (sqrt_pos (1-a-e+k)); lra).
  assert (P3 : 0 <= sqrt (1+a+e+k) / 2) by (pose proof (sqrt_pos (1+a+e+k)); lra).
  set (s0 := sqrt (1+a-e-k) / 2) in *. set (s1 := sqrt (1-a+e-k) / 2) in *.
  set (s2 := sqrt (1-a-e+k) / 2) in *. set (s3 := sqrt (1+a+e+k) / 2) in *.
  destruct (scan_max_spec (q4 s0 s1 s2 s3)) as [B M].
  destruct (scan_max (q4 s0 s1 s2 s3)) as [|[|[|[|n]]]]; [| | | |lia];
    pose proof (M 0%nat ltac:(lia)) as M0; pose proof (M 1%nat ltac:(lia)) as M1;
    pose proof (M 2%nat ltac:(lia)) as M2; pose proof (M 3%nat ltac:(lia)) as M3; clear M B;
    cbv [q4] in M0, M1, M2, M3; 
    rewrite (Rabs_pos_eq s0 P0), ?(Rabs_pos_eq s1 P1), ?(Rabs_pos_eq s2 P2), ?(Rabs_pos_eq s3 P3) in M0;
    rewrite (Rabs_pos_eq s1 P1), ?(Rabs_pos_eq s0 P0), ?(Rabs_pos_eq s2 P2), ?(Rabs_pos_eq s3 P3) in M1;
    rewrite (Rabs_pos_eq s2 P2), ?(Rabs_pos_eq s0 P0), ?(Rabs_pos_eq s1 P1), ?(Rabs_pos_eq s3 P3) in M2;
    rewrite (Rabs_pos_eq s3 P3), ?(Rabs_pos_eq s0 P0), ?(Rabs_pos_eq s1 P1), ?(Rabs_pos_eq s2 P2) in M3; cbn [q4].
  - assert (P : 0 < s0) by (apply (max_pos s0 s0 s1 s2 s3); lra). clear M0 M1 M2 M3.
    apply dcm_of_products; fold a b c d e f g h k; cbv [q4].
    + exact Q0. 
    + apply (prod_aux s0 _ _ _ _ P Q0). lra.
    + apply (prod_aux s0 _ _ _ _ P Q0). lra.
    + apply (prod_aux s0 _ _ _ _ P Q0). lra.
    + now apply prod_aux1.
    + now apply prod_aux1.
    + now apply prod_aux1.
    + apply (prod_aux s0 _ _ _ _ P Q0). lra.
    + apply (prod_aux s0 _ _ _ _ P Q0). lra.
    + apply (prod_aux s0 _ _ _ _ P Q0). lra.
  - assert (P : 0 < s1) by (apply (max_pos s1 s0 s1 s2 s3); lra). clear M0 M1 M2 M3.
    apply dcm_of_products; fold a b c d e f g h k; cbv [q4].
    + apply (prod_aux s1 _ _ _ _ P Q1). lra.
    + exact Q1.
    + apply (prod_aux s1 _ _ _ _ P Q1). lra.
    + apply (prod_aux s1 _ _ _ _ P Q1). lra.
    + rewrite Rmult_comm. now apply prod_aux1.
    + apply (prod_aux s1 _ _ _ _ P Q1). lra.
    + apply (prod_aux s1 _ _ _ _ P Q1). lra.
    + rewrite prod_aux1 by exact P. lra.
    + now apply prod_aux1.
    + apply (prod_aux s1 _ _ _ _ P Q1). lra.
  - assert (P : 0 < s2) by (apply (max_pos s2 s0 s1 s2 s3); lra). clear M0 M1 M2 M3.
    apply dcm_of_products; fold a b c d e f g h k; cbv [q4].
    + apply (prod_aux s2 _ _ _ _ P Q2). lra.
    + apply (prod_aux s2 _ _ _ _ P Q2). lra.
    + exact Q2.
    + apply (prod_aux s2 _ _ _ _ P Q2). lra.
    + apply (prod_aux s2 _ _ _ _ P Q2). lra.
    + rewrite Rmult_comm, prod_aux1 by exact P. lra.
    + apply (prod_aux s2 _ _ _ _ P Q2). lra.
    + rewrite Rmult_comm, prod_aux1 by exact P. lra.
    + apply (prod_aux s2 _ _ _ _ P Q2). lra.
    + now apply prod_aux1.
  - assert (P : 0 < s3) by (apply (max_pos s3 s0 s1 s2 s3); lra). clear M0 M1 M2 M3.
    apply dcm_of_products; fold a b c d e f g h k; cbv [q4].
    + apply (prod_aux s3 _ _ _ _ P Q3). lra.
    + apply (prod_aux s3 _ _ _ _ P Q3). lra.
    + apply (prod_aux s3 _ _ _ _ P Q3). lra.
    + exact Q3.
    + apply (prod_aux s3 _ _ _ _ P Q3). lra.
    + apply (prod_aux s3 _ _ _ _ P Q3). lra.
    + rewrite Rmult_comm. now apply prod_aux1.
    + apply (prod_aux s3 _ _ _ _ P Q3). lra.
    + rewrite Rmult_comm. now apply prod_aux1.
    + rewrite Rmult_comm. now apply prod_aux1.
Qed.

(** equal rotation matrices come from equal or opposite unit quaternions *)
Lemma dcm_inj (p q : quat) : unit 4 p -> unit 4 q -> meq3 (to_dcm p) (to_dcm q) -> veq 4 p q \/ veq 4 p (qscal (-1) q).
Proof.
  intros Up Uq E. apply unit4 in Up. apply unit4 in Uq.
  pose proof (E 0 0 ltac:(lia) ltac:(lia))%nat as E00. pose proof (E 0 1 ltac:(lia) ltac:(lia))%nat as E01.
  pose proof (E 0 2 ltac:(lia) ltac:(lia))%nat as E02. pose proof (E 1 0 ltac:(lia) ltac:(lia))%nat as E10.
  pose proof (E 1 1 ltac:(lia) ltac:(lia))%nat as E11. pose proof (E 1 2 ltac:(lia) ltac:(lia))%nat as E12.
  pose proof (E 2 0 ltac:(lia) ltac:(lia))%nat as E20. pose proof (E 2 1 ltac:(lia) ltac:(lia))%nat as E21.
  pose proof (E 2 2 ltac:(lia) ltac:(lia))%nat as E22. clear E.
  revert E00 E01 E02 E10 E11 E12 E20 E21 E22. cbv [to_dcm m3 v3].
  set (x := p 0%nat) in *. set (y := p 1%nat) in *. set (z := p 2%nat) in *. set (w := p 3%nat) in *.
  set (x' := q 0%nat) in *. set (y' := q 1%nat) in *. set (z' := q 2%nat) in *. set (w' := q 3%nat) in *.
  intros.
  assert (XX : x*x = x'*x') by lra. assert (YY : y*y = y'*y') by lra. assert (ZZ : z*z = z'*z') by lra. assert (WW : w*w = w'*w') by lra.
  assert (XY : x*y = x'*y') by lra. assert (XZ : x*z = x'*z') by lra. assert (XW : x*w = x'*w') by lra.
  assert (YZ : y*z = y'*z') by lra. assert (YW : y*w = y'*w') by lra. assert (ZW : z*w = z'*w') by lra.
  set (s := x*x' + y*y' + z*z' + w*w').
  assert (SX : x * s = x').
  { transitivity (x*x*x' + x*y*y' + x*z*z' + x*w*w'); [unfold s; ring|]. rewrite XX, XY, XZ, XW.
    transitivity (x' * (x'*x' + y'*y' + z'*z' + w'*w')); [ring|]. rewrite Uq. ring. }
  assert (SY : y * s = y').
  { transitivity (x*y*x' + y*y*y' + y*z*z' + y*w*w'); [unfold s; ring|]. rewrite YY, XY, YZ, YW.
    transitivity (y' * (x'*x' + y'*y' + z'*z' + w'*w')); [ring|]. rewrite Uq. ring. }
  assert (SZ : z * s = z').
  { transitivity (x*z*x' + y*z*y' + z*z*z' + z*w*w'); [unfold s; ring|]. rewrite ZZ, XZ, YZ, ZW.
    transitivity (z' * (x'*x' + y'*y' + z'*z' + w'*w')); [ring|]. rewrite Uq. ring. }
  assert (SW : w * s = w').
  { transitivity (x*w*x' + y*w*y' + z*w*z' + w*w*w'); [unfold s; ring|]. rewrite WW, XW, YW, ZW.
    transitivity (w' * (x'*x' + y'*y' + z'*z' + w'*w')); [ring|]. rewrite Uq. ring. }
  assert (SS : s * s = 1).
  { rewrite <- SX, <- SY, <- SZ, <- SW in Uq. transitivity (s * s * (x*x + y*y + z*z + w*w)); [rewrite Up; ring|]. lra. }
  assert (D : s = 1 \/ s = -1). { assert ((s - 1) * (s + 1) = 0) as M by lra. apply Rmult_integral in M. destruct M; [left|right]; lra. }
  destruct D as [D|D]; [left|right]; rewrite D in SX, SY, SZ, SW; intros i Hi; i4 i Hi; cbv [qscal]; fold x y z w x' y' z' w'; lra.
Qed.

(** axis and angle *)
Lemma half_sin angle : sin angle = 2 * sin (angle * (1 / 2)) * cos (angle * (1 / 2)).
Proof. rewrite <- sin_2a. f_equal. field. Qed.
Lemma half_cos angle : cos angle = 1 - 2 * sin (angle * (1 / 2)) * sin (angle * (1 / 2)).
Proof. rewrite <- cos_2a_sin. f_equal. field. Qed.
Lemma axis_angle_unit (axis : vec) angle : unit 3 axis -> unit 4 (q_axis_angle axis angle).
Proof.
  intros U. apply unit3 in U. unfold unit. qunf. pose proof (sin2_cos2 (angle * (1 / 2))) as H. unfold Rsqr in H.
  set (s := sin (angle * (1 / 2))) in *. set (c := cos (angle * (1 / 2))) in *.
  transitivity (s * s * (axis 0%nat * axis 0%nat + axis 1%nat * axis 1%nat + axis 2%nat * axis 2%nat) + c * c); [ring|].
  rewrite U. lra.
Qed.
Lemma axis_angle_rodrigues (axis : vec) angle (v : vec) : unit 3 axis ->
  veq 3 (inverse_frame_conversion (q_axis_angle axis angle) v) (rodrigues axis angle v).
Proof.
  intros U. apply unit3 in U. pose proof (sin2_cos2 (angle * (1 / 2))) as H. unfold Rsqr in H.
  intros i Hi.
  assert (G : forall i, (i < 3)%nat -> inverse_frame_conversion (q_axis_angle axis angle) v i =
     (cos (angle * (1 / 2)) * cos (angle * (1 / 2)) - sin (angle * (1 / 2)) * sin (angle * (1 / 2)) * dot 3 axis axis) * v i
     + 2 * sin (angle * (1 / 2)) * cos (angle * (1 / 2)) * cross axis v i
     + 2 * sin (angle * (1 / 2)) * sin (angle * (1 / 2)) * dot 3 axis v * axis i).
  { clear. intros i Hi. i3 i Hi; qunf; ring. }
  rewrite (G i Hi). replace (dot 3 axis axis) with 1 by (qunf; lra).
  unfold rodrigues, vadd, vscal. rewrite (half_sin angle), (half_cos angle).
  set (s := sin (angle * (1 / 2))) in *. set (c := cos (angle * (1 / 2))) in *.
  replace (c * c) with (1 - s * s) by lra. ring.
Qed.

(** the scaled vectors the two-vector constructor works with *)
Lemma normalized_unit (v : vec) : 0 < norm 3 v -> unit 3 (vscal (1 / norm 3 v) v).
Proof.
  intros P. unfold unit, dot, vscal.
  rewrite (sumn_ext 3 _ (fun i => 1 / norm 3 v * (1 / norm 3 v) * (v i * v i))) by (intros; ring).
  rewrite sumn_scal. pose proof (norm_sq 3 v) as E. unfold sq in E. rewrite <- E. field. lra.
Qed.
Lemma unit_norm (v : vec) : unit 3 v -> norm 3 v = 1.
Proof. intros U. unfold norm. unfold unit, dot in U. rewrite U. apply sqrt_1. Qed.

Lemma orthogonal_unit_spec (v : vec) : (exists i, (i < 3)%nat /\ v i <> 0) ->
  unit 3 (orthogonal_unit_vector v) /\ dot 3 v (orthogonal_unit_vector v) = 0.
Proof.
  intros (i & Hi & N).
  assert (NZ : v 0%nat * v 0%nat + v 1%nat * v 1%nat + v 2%nat * v 2%nat <> 0).
  { i3 i Hi; nra. }
  assert (G : forall u : vec, norm 3 u <> 0 -> dot 3 v u = 0 -> unit 3 (normalize 3 u) /\ dot 3 v (normalize 3 u) = 0).
  { intros u Hu D. unfold normalize. rewrite req_false by exact Hu. unfold vdiv. split.
    - apply normalized_unit. pose proof (norm_nonneg 3 u). lra.
    - unfold dot, vscal in *. rewrite (sumn_ext 3 _ (fun i => 1 / norm 3 u * (v i * u i))) by (intros; ring).
      rewrite sumn_scal, D. ring. }
  assert (Z : forall u : vec, u 0%nat * u 0%nat + u 1%nat * u 1%nat + u 2%nat * u 2%nat <> 0 -> norm 3 u <> 0).
  { intros u Hu E. pose proof (norm_sq 3 u) as Q. rewrite E in Q. unfold sq in Q. rewrite sumn3 in Q. lra. }
  unfold orthogonal_unit_vector.
  destruct (rle_spec (v 0%nat * v 0%nat) (v 1%nat * v 1%nat)) as [L|L]; cbn [andb].
  { apply G; [apply Z; cbv [v3]; nra|]. unfold dot. rewrite sumn3. cbv [v3]. ring. }
  destruct (rle_spec (v 1%nat * v 1%nat) (v 0%nat * v 0%nat)) as [L1|L1]; cbn [andb]; [|lra].
  destruct (rle_spec (v 1%nat * v 1%nat) (v 2%nat * v 2%nat)) as [L2|L2].
  { apply G; [apply Z; cbv [v3]; nra|]. unfold dot. rewrite sumn3. cbv [v3]. ring. }
  apply G; [apply Z; cbv [v3]; nra|]. unfold dot. rewrite sumn3. cbv [v3]. ring.
Qed.

Lemma lagrange (u v : vec) : dot 3 (cross u v) (cross u v) = dot 3 u u * dot 3 v v - dot 3 u v * dot 3 u v.
Proof. qunf. ring. Qed.

Lemma eps_pos : 0 < dbl_epsilon < 1.
Proof.
  unfold dbl_epsilon. split; [apply Rinv_0_lt_compat, pow_lt; lra|].
  rewrite <- Rinv_1. apply Rinv_lt_contravar; [rewrite Rmult_1_l; apply pow_lt; lra|]. apply Rlt_pow_R1; [lra|lia].
Qed.

Lemma two_vectors_spec (before after : vec) : dbl_epsilon < norm 3 before -> dbl_epsilon < norm 3 after ->
  let b := vscal (1 / norm 3 before) before in
  let a := vscal (1 / norm 3 after) after in
  exists q, q_two_vectors before after = Ok q /\ unit 4 q /\
    (1 - dbl_epsilon < dot 3 b a -> veq 3 (inverse_frame_conversion q b) b) /\
    (dot 3 b a < -1 + dbl_epsilon -> veq 3 (inverse_frame_conversion q b) (vscal (-1) b)) /\
    (-1 + dbl_epsilon <= dot 3 b a <= 1 - dbl_epsilon -> veq 3 (inverse_frame_conversion q b) a).
Proof.
  intros Hb Ha b a. pose proof eps_pos as EP. unfold q_two_vectors. rewrite !rlt_true by assumption. cbn [negb].
  fold b a. assert (Ub : unit 3 b) by (apply normalized_unit; lra). assert (Ua : unit 3 a) by (apply normalized_unit; lra).
  destruct (rlt_spec (1 - dbl_epsilon) (dot 3 b a)) as [L|L].
  { eexists. split; [reflexivity|]. split; [unfold unit; qunf; ring|]. split; [|split; intros; lra].
    intros _ i Hi. i3 i Hi; qunf; ring. }
  destruct (rlt_spec (dot 3 b a) (-1 + dbl_epsilon)) as [M|M].
  { destruct (orthogonal_unit_spec before) as [Uo Oo].
    { assert (exists i, (i < 3)%nat /\ before i <> 0); [|assumption].
      destruct (Req_dec (before 0%nat) 0) as [A|A]; [|exists 0%nat; split; [lia|exact A]].
      destruct (Req_dec (before 1%nat) 0) as [B|B]; [|exists 1%nat; split; [lia|exact B]].
      destruct (Req_dec (before 2%nat) 0) as [C|C]; [|exists 2%nat; split; [lia|exact C]].
      exfalso. rewrite (norm_zero_vec 3 before) in Hb; [lra|]. intros i Hi. i3 i Hi; assumption. }
    set (o := orthogonal_unit_vector before) in *. clearbody o.
    eexists. split; [reflexivity|]. apply unit3 in Uo. split; [unfold unit; qunf; lra|]. split; [intros; lra|]. split; [|intros; lra].
    intros _ i Hi.
    assert (Ob : dot 3 b o = 0).
    { unfold dot, b, vscal in *. rewrite (sumn_ext 3 _ (fun i => 1 / norm 3 before * (before i * o i))) by (intros; ring).
      rewrite sumn_scal, Oo. ring. }
    assert (G : forall i, (i < 3)%nat -> inverse_frame_conversion (q4 (o 0%nat) (o 1%nat) (o 2%nat) 0) b i =
       2 * dot 3 b o * o i - (o 0%nat * o 0%nat + o 1%nat * o 1%nat + o 2%nat * o 2%nat) * b i).
    { clear. clearbody b. intros i Hi. i3 i Hi; qunf; ring. }
    rewrite G by exact Hi. rewrite Ob, Uo. unfold vscal at 1. cbv [vscal]. ring. }
  assert (IP : -1 <= dot 3 b a <= 1) by lra.
  assert (NS : dot 3 (cross b a) (cross b a) = 1 - dot 3 b a * dot 3 b a).
  { rewrite lagrange. unfold unit in Ua, Ub. rewrite Ua, Ub. ring. }
  assert (NN : norm 3 (cross b a) = sqrt (1 - dot 3 b a * dot 3 b a)) by (unfold norm, dot in *; now rewrite NS).
  assert (PP : 0 < 1 - dot 3 b a * dot 3 b a) by nra.
  assert (NP : 0 < norm 3 (cross b a)) by (rewrite NN; now apply sqrt_lt_R0).
  rewrite rlt_true by exact NP. cbn [negb].
  set (axis := vscal (1 / norm 3 (cross b a)) (cross b a)).
  assert (Uax : unit 3 axis) by (now apply normalized_unit).
  eexists. split; [reflexivity|].
  replace (1 / 2 * acos (dot 3 b a)) with (acos (dot 3 b a) * (1 / 2)) by ring.
  change (q4 (axis 0%nat * sin (acos (dot 3 b a) * (1 / 2))) (axis 1%nat * sin (acos (dot 3 b a) * (1 / 2))) (axis 2%nat * sin (acos (dot 3 b a) * (1 / 2)))
     (cos (acos (dot 3 b a) * (1 / 2)))) with (q_axis_angle axis (acos (dot 3 b a))).
  split; [now apply axis_angle_unit|]. split; [intros; lra|]. split; [intros; lra|]. intros _ i Hi.
  rewrite (axis_angle_rodrigues axis _ b Uax i Hi). unfold rodrigues. rewrite cos_acos, sin_acos by lra.
  unfold Rsqr. rewrite <- NN.
  assert (D0 : dot 3 axis b = 0) by (unfold axis; qunf; ring).
  unfold vadd, vscal at 1 2 3. rewrite D0.
  assert (C : norm 3 (cross b a) * cross axis b i = dot 3 b b * a i - dot 3 b a * b i).
  { unfold axis. transitivity (cross (cross b a) b i).
    - clear - Hi NP. revert NP. generalize (norm 3 (cross b a)). clearbody a b. intros N NP. i3 i Hi; cbv [vscal cross v3]; field; lra.
    - clear - Hi. clearbody a b. i3 i Hi; qunf; ring. }
  rewrite C. unfold unit in Ub. rewrite Ub. ring.
Qed.

(** Euler angles *)
Lemma euler_composition (e : vec) :
  meq3 (euler_dcm e) (mmul 3 (rot_x (e 0%nat)) (mmul 3 (rot_y (e 1%nat)) (rot_z (e 2%nat)))).
Proof. intros i j Hi Hj. i3 i Hi; i3 j Hj; qunf; ring. Qed.

Lemma sc (t : R) : sin t * sin t + cos t * cos t = 1.
Proof. pose proof (sin2_cos2 t) as H. unfold Rsqr in H. exact H. Qed.

Lemma rot_x_rotation t : rotation (rot_x t).
Proof. pose proof (sc t) as H. split; [|split]; [intros i j Hi Hj; i3 i Hi; i3 j Hj; qunf; lra..|]. qunf. lra. Qed.
Lemma rot_y_rotation t : rotation (rot_y t).
Proof. pose proof (sc t) as H. split; [|split]; [intros i j Hi Hj; i3 i Hi; i3 j Hj; qunf; lra..|]. qunf. lra. Qed.
Lemma rot_z_rotation t : rotation (rot_z t).
Proof. pose proof (sc t) as H. split; [|split]; [intros i j Hi Hj; i3 i Hi; i3 j Hj; qunf; lra..|]. qunf. lra. Qed.

Lemma det_mul (a b : mat) : det3 (mmul 3 a b) = det3 a * det3 b.
Proof. qunf. ring. Qed.
Lemma mmul_assoc3 (a b c : mat) : meq3 (mmul 3 (mmul 3 a b) c) (mmul 3 a (mmul 3 b c)).
Proof. intros i j Hi Hj. qunf. ring. Qed.
Lemma mmul_ext3 (a a' b b' : mat) : meq3 a a' -> meq3 b b' -> meq3 (mmul 3 a b) (mmul 3 a' b').
Proof.
  intros A B i j Hi Hj. unfold mmul. apply sumn_ext. intros k Hk. rewrite (A i k Hi Hk), (B k j Hk Hj). reflexivity.
Qed.
Lemma meq3_trans (a b c : mat) : meq3 a b -> meq3 b c -> meq3 a c.
Proof. intros A B i j Hi Hj. rewrite (A i j Hi Hj). apply B; assumption. Qed.
Lemma meq3_sym (a b : mat) : meq3 a b -> meq3 b a.
Proof. intros A i j Hi Hj. symmetry. apply A; assumption. Qed.
Lemma meq3_refl (a : mat) : meq3 a a. Proof. intros i j _ _. reflexivity. Qed.
Lemma mmul_ident_l (a : mat) : meq3 (mmul 3 mident a) a.
Proof. intros i j Hi Hj. i3 i Hi; qunf; ring. Qed.
Lemma mtrans_mul3 (a b : mat) : meq3 (mtrans (mmul 3 a b)) (mmul 3 (mtrans b) (mtrans a)).
Proof. intros i j _ _. qunf. ring. Qed.

Lemma rotation_ext (a b : mat) : meq3 a b -> rotation a -> rotation b.
Proof.
  intros E (H1 & H2 & H3).
  assert (T : meq3 (mtrans b) (mtrans a)) by (intros i j Hi Hj; symmetry; apply E; assumption).
  split; [|split].
  - eapply meq3_trans; [apply mmul_ext3; [apply meq3_sym, E|exact T]|exact H1].
  - eapply meq3_trans; [apply mmul_ext3; [exact T|apply meq3_sym, E]|exact H2].
  - rewrite <- H3. unfold det3. rewrite !E by lia. reflexivity.
Qed.
Lemma rotation_mul (a b : mat) : rotation a -> rotation b -> rotation (mmul 3 a b).
Proof.
  intros (A1 & A2 & A3) (B1 & B2 & B3). split; [|split].
  - eapply meq3_trans; [apply mmul_ext3; [apply meq3_refl|apply mtrans_mul3]|].
    eapply meq3_trans; [apply mmul_assoc3|].
    eapply meq3_trans; [apply mmul_ext3; [apply meq3_refl|]|exact A1].
    eapply meq3_trans; [apply meq3_sym, mmul_assoc3|].
    eapply meq3_trans; [apply mmul_ext3; [exact B1|apply meq3_refl]|]. apply mmul_ident_l.
  - eapply meq3_trans; [apply mmul_ext3; [apply mtrans_mul3|apply meq3_refl]|].
    eapply meq3_trans; [apply mmul_assoc3|].
    eapply meq3_trans; [apply mmul_ext3; [apply meq3_refl|]|exact B2].
    eapply meq3_trans; [apply meq3_sym, mmul_assoc3|].
    eapply meq3_trans; [apply mmul_ext3; [exact A2|apply meq3_refl]|]. apply mmul_ident_l.
  - rewrite det_mul, A3, B3. ring.
Qed.
Lemma euler_rotation (e : vec) : rotation (euler_dcm e).
Proof.
  eapply rotation_ext; [apply meq3_sym, euler_composition|].
  apply rotation_mul; [apply rot_x_rotation|]. apply rotation_mul; [apply rot_y_rotation|apply rot_z_rotation].
Qed.

(** angles of a rotation matrix as ConvertToEuler computes them *)
Definition euler_of (d : mat) : vec :=
  v3 (atan2 (d 1%nat 2%nat) (d 2%nat 2%nat))
     (atan2 (- d 0%nat 2%nat) (sqrt (d 1%nat 2%nat * d 1%nat 2%nat + d 2%nat 2%nat * d 2%nat 2%nat)))
     (atan2 (d 0%nat 1%nat) (d 0%nat 0%nat)).
Lemma euler_of_ext (a b : mat) : meq3 a b -> euler_of a = euler_of b.
Proof. intros E. unfold euler_of. rewrite !E by lia. reflexivity. Qed.

Lemma euler_of_euler_dcm (e : vec) :
  - PI < e 0%nat <= PI -> - (PI / 2) < e 1%nat < PI / 2 -> - PI < e 2%nat <= PI -> veq 3 (euler_of (euler_dcm e)) e.
Proof.
  intros E0 E1 E2. pose proof PI_RGT_0 as PP.
  assert (C : 0 < cos (e 1%nat)) by (apply cos_gt_0; lra).
  intros i Hi. i3 i Hi; cbv [euler_of euler_dcm v3 m3].
  - rewrite (Rmult_comm (sin (e 0%nat))), (Rmult_comm (cos (e 0%nat))). now apply atan2_polar.
  - replace (sin (e 0%nat) * cos (e 1%nat) * (sin (e 0%nat) * cos (e 1%nat)) + cos (e 0%nat) * cos (e 1%nat) * (cos (e 0%nat) * cos (e 1%nat)))
      with (cos (e 1%nat) * cos (e 1%nat)).
    2:{ transitivity (cos (e 1%nat) * cos (e 1%nat) * (sin (e 0%nat) * sin (e 0%nat) + cos (e 0%nat) * cos (e 0%nat))); [rewrite sc|]; ring. }
    rewrite sqrt_square by lra. rewrite Ropp_involutive.
    transitivity (atan2 (1 * sin (e 1%nat)) (1 * cos (e 1%nat))); [now rewrite !Rmult_1_l|]. apply atan2_polar; lra.
  - now apply atan2_polar.
Qed.

Lemma euler_dcm_euler_of (m : mat) : rotation m -> (m 1%nat 2%nat <> 0 \/ m 2%nat 2%nat <> 0) -> meq3 (euler_dcm (euler_of m)) m.
Proof.
  intros Rm N. apply rotation_rot9 in Rm.
  destruct (atan2_spec (m 2%nat 2%nat) (m 1%nat 2%nat)) as [C0 S0]; [tauto|].
  set (r := sqrt (m 1%nat 2%nat * m 1%nat 2%nat + m 2%nat 2%nat * m 2%nat 2%nat)).
  assert (RP : 0 < r) by (apply hyp_pos; tauto).
  assert (RNZ : r * r <> 0) by (intros X; apply Rmult_integral in X; destruct X; lra).
  assert (RR : r * r = m 1%nat 2%nat * m 1%nat 2%nat + m 2%nat 2%nat * m 2%nat 2%nat) by (apply sqrt_sqrt; nra).
  replace (m 2%nat 2%nat * m 2%nat 2%nat + m 1%nat 2%nat * m 1%nat 2%nat) with (m 1%nat 2%nat * m 1%nat 2%nat + m 2%nat 2%nat * m 2%nat 2%nat) in C0, S0 by ring.
  fold r in C0, S0.
  destruct (atan2_spec r (- m 0%nat 2%nat)) as [C1 S1]; [lra|].
  assert (AB : m 0%nat 0%nat * m 0%nat 0%nat + m 0%nat 1%nat * m 0%nat 1%nat = r * r) by (rewrite RR; destruct Rm; lra).
  assert (N2 : m 0%nat 0%nat <> 0 \/ m 0%nat 1%nat <> 0).
  { destruct (Req_dec (m 0%nat 0%nat) 0) as [A|A]; [right|now left]. intros B. rewrite A, B in AB. nra. }
  destruct (atan2_spec (m 0%nat 0%nat) (m 0%nat 1%nat) N2) as [C2 S2].
  rewrite AB in C2, S2. rewrite sqrt_square in C2, S2 by lra.
  replace (r * r + - m 0%nat 2%nat * - m 0%nat 2%nat) with 1 in C1, S1 by (rewrite RR; destruct Rm; lra).
  rewrite sqrt_1 in C1, S1.
  unfold euler_of. fold r. cbv [euler_dcm v3].
  set (e0 := atan2 (m 1%nat 2%nat) (m 2%nat 2%nat)) in *. set (e1 := atan2 (- m 0%nat 2%nat) r) in *.
  set (e2 := atan2 (m 0%nat 1%nat) (m 0%nat 0%nat)) in *. clearbody e0 e1 e2 r.
  destruct Rm.
  set (a := m 0%nat 0%nat) in *. set (b := m 0%nat 1%nat) in *. set (c := m 0%nat 2%nat) in *.
  set (d := m 1%nat 0%nat) in *. set (e := m 1%nat 1%nat) in *. set (f := m 1%nat 2%nat) in *.
  set (g := m 2%nat 0%nat) in *. set (h := m 2%nat 1%nat) in *. set (k := m 2%nat 2%nat) in *.
  rewrite Rmult_1_r in C1, S1. rewrite C1, S1.
  assert (I0 : cos e0 = k / r) by (rewrite <- C0; field; lra). assert (J0 : sin e0 = f / r) by (rewrite <- S0; field; lra).
  assert (I2 : cos e2 = a / r) by (rewrite <- C2; field; lra). assert (J2 : sin e2 = b / r) by (rewrite <- S2; field; lra).
  rewrite I0, J0, I2, J2. clear I0 J0 I2 J2 C0 S0 C1 S1 C2 S2.
  assert (R1 : r * r = 1 - c * c) by lra.
  intros i j Hi Hj. i3 i Hi; i3 j Hj; cbv [m3 v3]; fold a b c d e f g h k.
  - field. lra.
  - field. lra.
  - ring.
  - apply (Rmult_eq_reg_r (r * r)); [|exact RNZ]. transitivity (- k * b + - c * f * a); [field; lra|]. rewrite R1.
    assert (c * (h - c * d + a * f) = 0) as Z by (replace h with (c * d - a * f) by lra; ring).
    lra.
  - apply (Rmult_eq_reg_r (r * r)); [|exact RNZ]. transitivity (k * a + - c * f * b); [field; lra|]. rewrite R1.
    assert (c * (g - b * f + c * e) = 0) as Z by (replace g with (b * f - c * e) by lra; ring). lra.
  - field. lra.
  - apply (Rmult_eq_reg_r (r * r)); [|exact RNZ]. transitivity (f * b + - c * k * a); [field; lra|]. rewrite R1.
    assert (c * (e - a * k + c * g) = 0) as Z by (replace e with (a * k - c * g) by lra; ring). lra.
  - apply (Rmult_eq_reg_r (r * r)); [|exact RNZ]. transitivity (- f * a + - c * k * b); [field; lra|]. rewrite R1.
    assert (c * (d - c * h + b * k) = 0) as Z by (replace d with (c * h - b * k) by lra; ring). lra.
  - field. lra.
Qed.

(** polar coordinates *)
Lemma to_polar_spec (v : vec) :
  let r := to_polar v 0%nat in let th := to_polar v 1%nat in let ph := to_polar v 2%nat in
  0 <= r /\ 0 <= th <= PI /\ 0 <= ph < 2 * PI /\
  v 0%nat = r * sin th * cos ph /\ v 1%nat = r * sin th * sin ph /\ v 2%nat = r * cos th.
Proof.
  pose proof PI_RGT_0 as PP. unfold to_polar. pose proof (norm_nonneg 3 v) as NN.
  destruct (req_spec (norm 3 v) 0) as [E|E]; cbv [v3].
  { pose proof (norm_0 3 v E) as Z. rewrite E, !(Z _) by lia. rewrite sin_0, cos_0. repeat split; lra. }
  pose proof (norm_sq 3 v) as Q. unfold sq in Q. rewrite sumn3 in Q. set (r := norm 3 v) in *. clearbody r.
  assert (RP : 0 < r) by lra.
  set (x := v 0%nat) in *. set (y := v 1%nat) in *. set (z := v 2%nat) in *.
  assert (ZB : -1 <= z / r <= 1).
  { assert (- r <= z <= r) by nra. split; apply (Rmult_le_reg_r r); try assumption; unfold Rdiv; rewrite Rmult_assoc, Rinv_l; lra. }
  pose proof (acos_bound (z / r)) as AB. pose proof (cos_acos (z / r) ZB) as CE.
  assert (SE : r * sin (acos (z / r)) = sqrt (x * x + y * y)).
  { rewrite sin_acos by exact ZB. rewrite <- (sqrt_square r) at 1 by lra. rewrite <- sqrt_mult_alt by nra.
    f_equal. unfold Rsqr. transitivity (r * r - z * z); [field; lra|lra]. }
  destruct (req_spec x 0) as [X|X]; destruct (req_spec y 0) as [Y|Y]; cbn [andb]; cbv zeta; rewrite CE, SE.
  { rewrite X, Y. replace (0 * 0 + 0 * 0) with 0 by ring. rewrite sqrt_0, sin_0, cos_0. repeat split; try lra. field; lra. }
  all: assert (NZ : x <> 0 \/ y <> 0) by tauto; destruct (atan2_spec x y NZ) as [CC SS]; pose proof (atan2_range y x) as AR;
    destruct (rlt_spec (atan2 y x) 0) as [L|L];
    [replace (cos (atan2 y x + 2 * PI)) with (cos (atan2 y x)) by (rewrite cos_plus, cos_2PI, sin_2PI; ring);
     replace (sin (atan2 y x + 2 * PI)) with (sin (atan2 y x)) by (rewrite sin_plus, cos_2PI, sin_2PI; ring)|];
    repeat split; try lra; field; lra.
Qed.

(** angle wrapping, exact arithmetic *)
Notation tau := (2 * PI).
Lemma congruent_refl a : congruent a a. Proof. exists 0%Z. lra. Qed.
Lemma congruent_add a b : congruent (a + tau) b -> congruent a b.
Proof. intros (k & ->). exists (k + 1)%Z. rewrite plus_IZR. lra. Qed.
Lemma congruent_sub a b : congruent (a - tau) b -> congruent a b.
Proof. intros (k & ->). exists (k - 1)%Z. rewrite minus_IZR. lra. Qed.
Lemma wrap_up_spec n a r : a < tau -> wrap_up Rplus tau n a = Some r -> congruent a r /\ 0 <= r < tau.
Proof.
  revert a. induction n as [|n IH]; intros a B E; cbn [wrap_up] in E; destruct (rlt_spec a 0) as [L|L]; try discriminate.
  - injection E as <-. split; [apply congruent_refl|lra].
  - apply IH in E; [|lra]. destruct E as [E R]. split; [now apply congruent_add|exact R].
  - injection E as <-. split; [apply congruent_refl|lra].
Qed.
Lemma wrap_down_spec n a r : 0 <= a -> wrap_down Rminus tau n a = Some r -> congruent a r /\ 0 <= r <= tau.
Proof.
  revert a. induction n as [|n IH]; intros a B E; cbn [wrap_down] in E; destruct (rlt_spec tau a) as [L|L]; try discriminate.
  - injection E as <-. split; [apply congruent_refl|lra].
  - apply IH in E; [|lra]. destruct E as [E R]. split; [now apply congruent_sub|exact R].
  - injection E as <-. split; [apply congruent_refl|lra].
Qed.
Lemma archimedean t x : 0 < t -> exists n, x <= INR n * t.
Proof.
  intros T. destruct (archimed (x / t)) as [A _]. exists (Z.to_nat (up (x / t))).
  assert (B : x / t <= INR (Z.to_nat (up (x / t)))).
  { rewrite INR_IZR_INZ. destruct (Z_le_gt_dec 0 (up (x / t))) as [P|P].
    - rewrite Z2Nat.id by exact P. lra.
    - assert (IZR (up (x / t)) <= 0) by (apply IZR_le; lia).
      pose proof (IZR_le 0 (Z.of_nat (Z.to_nat (up (x / t)))) ltac:(lia)). lra. }
  apply (Rmult_le_compat_r t) in B; [|lra]. unfold Rdiv in B. rewrite Rmult_assoc, Rinv_l in B by lra. lra.
Qed.
Lemma wrap_up_total a : exists n r, wrap_up Rplus tau n a = Some r.
Proof.
  pose proof PI_RGT_0 as PP.
  assert (G : forall n a, - (INR n * tau) <= a -> exists r, wrap_up Rplus tau n a = Some r).
  { induction n as [|n IH]; intros b B; cbn [wrap_up].
    - cbn in B. rewrite rlt_false by lra. now exists b.
    - destruct (rlt_spec b 0); [|now exists b]. apply IH. rewrite S_INR in B. lra. }
  destruct (archimedean tau (- a)) as [n Hn]; [lra|]. exists n. apply G. lra.
Qed.
Lemma wrap_down_total a : exists n r, wrap_down Rminus tau n a = Some r.
Proof.
  pose proof PI_RGT_0 as PP.
  assert (G : forall n a, a <= tau + INR n * tau -> exists r, wrap_down Rminus tau n a = Some r).
  { induction n as [|n IH]; intros b B; cbn [wrap_down].
    - cbn in B. rewrite rlt_false by lra. now exists b.
    - destruct (rlt_spec tau b); [|now exists b]. apply IH. rewrite S_INR in B. lra. }
  destruct (archimedean tau a) as [n Hn]; [lra|]. exists n. apply G. lra.
Qed.
