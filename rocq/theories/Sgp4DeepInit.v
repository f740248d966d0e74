(** Proofs for C162-C165: the record of a deep space satellite after sgp4init. *)
From Coq Require Import Reals Lra Lia Psatz List Bool ZArith.
From Verif Require Import RBase VecModel VecProofs Trig SensorModel JulianModel OeProofs Sgp4Model Sgp4Spec Sgp4Proofs Sgp4Geom Sgp4Init Sgp4Near Sgp4Loop Sgp4DeepModel Sgp4DeepSpec Sgp4Third Sgp4DeepProofs.
Import ListNotations.
Open Scope R_scope.

(** ** deepinit *)
Record deep_facts (w : gravconst) (day : R) (s s' : satrec) (o : dsorb) (ss sl : dsbody) (gam : R) (m : body) : Prop := mkDF {
  df_e : num s ecco ^ 2 < 1; df_n : num s no <> 0;
  df_frame : forall f, by_dscom f = false -> by_dsinit f = false -> num s' f = num s f;
  df_flags : isimp s' = isimp s /\ deep s' = deep s /\ error s' = error s;
  df_orb : forall a, is_orb o (num s no) (mkOrbE a (num s ecco) (num s inclo) (num s argpo) (num s nodeo));
  df_sun : ds_terms o zcosgs zsings zcosis zsinis (1 * o_cnodm o + 0 * o_snodm o) (o_snodm o * 1 - o_cnodm o * 0) c1ss = Val ss;
  df_gam : gam = 5.8351514 + 0.0019443680 * day;
  df_moon : exists cg sg ci si ch sh, ds_terms o cg sg ci si (ch * o_cnodm o + sh * o_snodm o) (o_snodm o * ch - o_cnodm o * sh) c1l = Val sl /\
            m = mkBody (4 * c1l * znl) znl zel (dirA cg sg ci si ch sh) (dirB cg sg ci si ch sh);
  df_is_moon : is_moon day m;
  df_com : forall f, by_dscom f = true -> num s' f = num (dscom_store day gam (o_emsq o) ss sl s) f;
  df_sec : ds_secular o (num s inclo) ss sl = Val (num s' dedt, num s' didt, num s' dmdt, num s' domdt, num s' dnodt);
  df_start : start_facts w o s s' }.
Lemma com_not_init f : by_dscom f = true -> by_dsinit f = false.
Proof. destruct f; cbn; congruence. Qed.
Lemma deepinit_ok w epoch s s' : deepinit w epoch s = Val s' -> exists o ss sl gam m, deep_facts w (epoch + 18261.5) s s' o ss sl gam m.
Proof.
  unfold deepinit. replace (epoch + 18261.5 + 0 / 1440) with (epoch + 18261.5) by (unfold Rdiv; ring). set (day := epoch + 18261.5).
  intros H. apply rbind_val in H. destruct H as ([[[o ss] sl] gam] & B & H). unfold dscom_bodies in B.
  apply rbind_val in B. destruct B as (o' & OR & B). unfold ds_orbit in OR.
  apply rbind_val in OR. destruct OR as (rt & Q & OR). apply fsqrt_val in Q. destruct Q as (E0 & ->).
  apply rbind_val in OR. destruct OR as (xn & Q & OR). apply fdiv_val in Q. destruct Q as (N0 & ->). apply Val_inj in OR.
  destruct (lunar_ok day) as (g & i & nd & x & k & gm & LU & GM & I0 & CI & ND & SN & K0 & KS & KC & EG). rewrite LU in B. cbn [rbind] in B.
  apply rbind_val in B. destruct B as (ss' & SS & B). apply rbind_val in B. destruct B as (sl' & SL & B). apply Val_inj in B.
  injection B as -> -> -> ->. destruct (dsinit_ok _ _ _ _ _ _ H) as (F1 & F2 & F3 & FR & SE & ST). clear H LU.
  assert (IO : forall a, is_orb o (num s no) (mkOrbE a (num s ecco) (num s inclo) (num s argpo) (num s nodeo))) by (intros a; symmetry; exact OR).
  exists o, ss, sl, gam, (mkBody (4 * c1l * znl) znl zel (dirA (cos g) (sin g) (cos i) (sin i) (cos nd) (sin nd)) (dirB (cos g) (sin g) (cos i) (sin i) (cos nd) (sin nd))). split.
  - destruct (terms_facts o (num s no) _ zcosgs zsings zcosis zsinis 1 0 c1ss ss (IO 0)) as (BE & _).
    { replace (1 * o_cnodm o + 0 * o_snodm o) with (o_cnodm o) by ring. replace (o_snodm o * 1 - o_cnodm o * 0) with (o_snodm o) by ring. exact SS. }
    cbn [q_e] in BE. destruct (Rlt_dec (num s ecco ^ 2) 1) as [L|L]; [exact L|]. exfalso. apply BE. replace (1 - num s ecco ^ 2) with 0; [apply sqrt_0|]. nra.
  - exact N0.
  - intros f A B. rewrite FR by exact B. apply dscom_frame. exact A.
  - split; [rewrite F1; reflexivity|]. split; [rewrite F2; reflexivity|rewrite F3; reflexivity].
  - exact IO.
  - replace (1 * o_cnodm o + 0 * o_snodm o) with (o_cnodm o) by ring. replace (o_snodm o * 1 - o_cnodm o * 0) with (o_snodm o) by ring. exact SS.
  - exact GM.
  - exists (cos g), (sin g), (cos i), (sin i), (cos nd), (sin nd). split; [exact SL|reflexivity].
  - destruct (dir_exact g i nd) as (-> & ->). exists i, nd, x, k. cbn zeta. repeat split; try assumption; try apply I0; try apply ND. rewrite EG, GM. reflexivity.
  - intros f A. apply FR. now apply com_not_init.
  - rewrite dscom_frame in SE by reflexivity. exact SE.
  - exact ST.
Qed.
(** when it gives numbers *)
Lemma ds_terms_total o a b c d e f g : o_rtemsq o <> 0 -> exists x, ds_terms o a b c d e f g = Val x.
Proof. intros H. unfold ds_terms. rewrite fdiv_ok by exact H. cbn [rbind]. eexists. reflexivity. Qed.
Lemma ds_secular_total o i ss sl : exists x, ds_secular o i ss sl = Val x.
Proof.
  unfold ds_secular. destruct (Req_dec (o_sinim o) 0) as [Z|Z].
  - rewrite (req_true _ _ Z). cbn [negb rbind]. eexists. reflexivity.
  - rewrite (req_false _ _ Z). cbn [negb]. rewrite !fdiv_ok by exact Z. cbn [rbind]. eexists. reflexivity.
Qed.
Lemma deepinit_total w epoch s : num s ecco ^ 2 < 1 -> num s no <> 0 -> exists s', deepinit w epoch s = Val s'.
Proof.
  intros E N. unfold deepinit. set (day := epoch + 18261.5 + 0 / 1440).
  unfold dscom_bodies, ds_orbit. rewrite fsqrt_ok by nra. cbn [rbind]. rewrite fdiv_ok by exact N. cbn [rbind].
  destruct (lunar_ok day) as (g & i & nd & x & k & gm & LU & _). rewrite LU. cbn [rbind]. set (o := mkDso _ _ _ _ _ _ _ _ _ _ _).
  assert (R0 : o_rtemsq o <> 0). { unfold o. cbn [o_rtemsq]. assert (0 < sqrt (1 - num s ecco * num s ecco)) by (apply sqrt_lt_R0; nra). lra. }
  destruct (ds_terms_total o zcosgs zsings zcosis zsinis (o_cnodm o) (o_snodm o) c1ss R0) as (ss & ->). cbn [rbind].
  destruct (ds_terms_total o (cos g) (sin g) (cos i) (sin i) (cos nd * o_cnodm o + sin nd * o_snodm o) (o_snodm o * cos nd - o_cnodm o * sin nd) c1l R0) as (sl & ->). cbn [rbind].
  set (s1 := dscom_store _ _ _ _ _ _). unfold dsinit.
  destruct (ds_secular_total o (num (set_irez (ds_irez (num s1 no) (o_em o)) s1) inclo) ss sl) as ([[[[a b] c] d] e] & ->). cbn [rbind].
  match goal with |- context [set dedt a ?x] => set (s2 := set dedt a x) end.
  assert (NO : num s1 no = num s no) by (unfold s1; apply dscom_frame; reflexivity).
  assert (IR : irez s2 = ds_irez (num s1 no) (o_em o)) by reflexivity. clearbody s2.
  destruct (Z.eqb_spec (irez s2) 0) as [Z|Z]; cbn [negb]; [eexists; reflexivity|].
  pose proof (xke_pos w) as KE. rewrite fdiv_ok by lra. cbn [rbind].
  assert (NP : 0 < num s1 no).
  { rewrite IR in Z. unfold ds_irez in Z. destruct (rle_spec 8.26e-3 (num s1 no)); [lra|]. cbn [andb] in Z.
    destruct (rlt_spec (num s1 no) 0.0052359877); cbn [andb] in Z; [|congruence]. destruct (rlt_spec 0.0034906585 (num s1 no)); [lra|congruence]. }
  rewrite fpow_ok by (apply Rdiv_lt_0_compat; assumption). cbn [rbind]. eexists. reflexivity.
Qed.
Lemma deepinit_ends w epoch s : deepinit w epoch s <> NoEnd.
Proof.
  destruct (Rlt_dec (num s ecco ^ 2) 1) as [L|L]; [destruct (Req_dec (num s no) 0) as [Z|Z]|].
  - unfold deepinit, dscom_bodies, ds_orbit. rewrite fsqrt_ok by nra. cbn [rbind]. unfold fdiv at 1. rewrite (req_true _ _ Z). cbn [rbind]. discriminate.
  - destruct (deepinit_total w epoch s L Z) as (s' & ->). discriminate.
  - unfold deepinit, dscom_bodies, ds_orbit. destruct (Rlt_dec (1 - num s ecco * num s ecco) 0) as [M|M].
    + unfold fsqrt at 1. rewrite rlt_true by exact M. discriminate.
    + rewrite fsqrt_ok by lra. cbn [rbind]. unfold fdiv at 1. destruct (req (num s no) 0); cbn [rbind]; [discriminate|].
      set (day := epoch + 18261.5 + 0 / 1440). destruct (lunar_ok day) as (g & i & nd & x & k & gm & LU & _). rewrite LU. cbn [rbind]. set (o := mkDso _ _ _ _ _ _ _ _ _ _ _).
      assert (R0 : o_rtemsq o = 0). { unfold o. cbn [o_rtemsq]. replace (1 - num s ecco * num s ecco) with 0 by nra. apply sqrt_0. }
      unfold ds_terms at 1. unfold fdiv. rewrite (req_true _ _ R0). cbn [rbind]. discriminate.
Qed.

(** ** sgp4init *)
Lemma init_terms_gsto g i s s' x y : init_terms g i s = Val (s', x, y) -> num s' gsto = num s gsto.
Proof.
  unfold init_terms. destruct (drag_params g (i_rp i)) as [sf qz].
  repeat (let H := fresh in intros H; apply rbind_val in H; destruct H as (? & _ & H); revert H).
  intros H. apply Val_inj in H. injection H as <- _ _. repeat (rewrite set_other by discriminate). reflexivity.
Qed.
Definition deep_space (w : gravconst) (l : tle_elems) : Prop := 225 <= 2 * PI / n_orig (theory_w w) l.
Lemma deep_inv w epoch l s0 s : init_with deepinit w epoch l s0 = Val s -> deep_space w l ->
  exists s1 s2, coef_facts (getgravconst w) l s1 /\ num s1 gsto = init_gsto epoch /\
    deepinit w epoch (set_isimp 1 (set_deep true s1)) = Val s2 /\ same s2 s /\ deep s = true /\ isimp s = 1%Z /\
    0 < n_orig (theory_w w) l /\ 0 < beta l /\ beta l * beta l = 1 - l_e0 l * l_e0 l /\ num s jdsatepoch = num s0 jdsatepoch /\
    (a_orig (theory_w w) l * (1 - l_e0 l) < 1 -> s = s2 /\ error s = 5%Z) /\
    (1 <= a_orig (theory_w w) l * (1 - l_e0 l) -> exists o, sgp4 w s2 0 = Val (s, o)).
Proof.
  intros H NE. unfold init_with, sgp4init in H. set (g := getgravconst w) in *.
  match type of H with rbind (initl g (num ?s ecco) _ _) _ = _ => set (s1 := s) in H end.
  assert (F1 : num s1 ecco = l_e0 l /\ num s1 inclo = l_i0 l /\ num s1 no = l_n0 l /\ num s1 bstar = l_B l /\ num s1 argpo = l_w0 l /\ num s1 mo = l_M0 l /\ num s1 nodeo = l_node0 l /\ num s1 jdsatepoch = num s0 jdsatepoch).
  { unfold s1. repeat split; gs; reflexivity. }
  clearbody s1. destruct F1 as (F1 & F2 & F3 & F4 & F5 & F6 & F7 & F7'). rewrite F1, F2, F3 in H.
  apply rbind_val in H. destruct H as (i & I & H). apply (initl_inv g l (xke_pos w)) in I.
  match type of H with context [set_error ?e ?s] => set (s2 := set_error e s) in H end.
  assert (F8 : num s2 ecco = l_e0 l /\ num s2 inclo = l_i0 l /\ num s2 no = n_orig (theory_of g) l /\ num s2 bstar = l_B l /\ num s2 argpo = l_w0 l /\
               num s2 mo = l_M0 l /\ num s2 nodeo = l_node0 l /\ num s2 con41 = 3 * cos (l_i0 l) ^ 2 - 1 /\ num s2 gsto = init_gsto epoch /\ num s2 jdsatepoch = num s0 jdsatepoch /\ (a_orig (theory_w w) l * (1 - l_e0 l) < 1 -> error s2 = 5%Z) /\ (1 <= a_orig (theory_w w) l * (1 - l_e0 l) -> error s2 = 0%Z)).
  { unfold s2. cbn [set_error num]. repeat split; gs; cbn [set_deep num]; gs; try assumption; try reflexivity; [apply (if_no _ _ _ I)|apply (if_con41 _ _ _ I)| |]; intros RP; change (theory_w w) with (theory_of g) in RP; rewrite <- (if_rp _ _ _ I) in RP; cbn [error]; [rewrite rlt_true by exact RP|rewrite rlt_false by exact RP]; reflexivity. }
  clearbody s2. destruct F8 as (G1 & G2 & G3 & G4 & G5 & G6 & G7 & G8 & G9 & G10 & G11 & G12).
  pose proof (if_n _ _ _ I) as NP. pose proof (if_b _ _ _ I) as BP. pose proof (if_bb _ _ _ I) as BB.
  rewrite rle_true in H by (rewrite (if_omeosq _ _ _ I); nra). cbn [Datatypes.orb] in H.
  apply rbind_val in H. destruct H as (s3 & H3 & H).
  pose proof (re_bounds w) as RE. pose proof (j2_bounds w) as J2.
  unfold init_coefs in H3. fold g in H3. apply rbind_val in H3. destruct H3 as ([[s4 tsx] sfx] & HT & H3).
  pose proof (init_terms_gsto _ _ _ _ _ _ HT) as GS. rewrite G9 in GS.
  destruct (init_terms_inv g l i s2 s4 tsx sfx ltac:(unfold g; lra) ltac:(unfold g; lra) I G4 G1 G2 G6 G5 G7 G3 G8 HT) as (CF & ES & _ & _ & _ & JD). clear HT.
  apply rbind_val in H3. destruct H3 as (per & PE & H3). apply fdiv_val in PE. destruct PE as (_ & ->).
  rewrite (cf_no _ _ _ CF) in H3. unfold twopi in H3. rewrite rle_true in H3 by exact NE.
  apply rbind_val in H3. destruct H3 as (s5 & H5 & H3).
  destruct (deepinit_ok _ _ _ _ H5) as (o & ss & sl & gam & m & DF). destruct (df_flags _ _ _ _ _ _ _ _ _ DF) as (D1 & D2 & D3). cbn [set_isimp set_deep isimp deep error] in D1, D2, D3.
  rewrite D1 in H3. cbn [Z.eqb Pos.eqb negb] in H3. apply Val_inj in H3. subst s3.
  assert (S3 : same s5 s).
  { destruct (error s5 =? 0)%Z; [|injection H as <-; apply same_refl]. apply rbind_val in H. destruct H as ([s6 o6] & H6 & H).
    injection H as <-. now apply sgp4_keeps in H6. }
  exists s4, s5. split; [exact CF|]. split; [exact GS|]. split; [exact H5|]. split; [exact S3|].
  split. { destruct S3 as (_ & _ & X & _). congruence. } split. { destruct S3 as (X & _). congruence. }
  split; [exact NP|]. split; [exact BP|]. split; [exact BB|]. split.
  - destruct S3 as (_ & _ & _ & X). rewrite <- X by reflexivity. rewrite (df_frame _ _ _ _ _ _ _ _ _ DF) by reflexivity. cbn [set_isimp set_deep num]. congruence.
  - split; intros RP.
    + specialize (G11 RP). rewrite D3, ES, G11 in H. cbn [Z.eqb] in H. apply Val_inj in H. subst s5. split; [reflexivity|]. congruence.
    + specialize (G12 RP). rewrite D3, ES, G12 in H. cbn [Z.eqb] in H. apply rbind_val in H. destruct H as ([s6 o6] & H6 & H). apply Val_inj in H. subst s6. eauto.
Qed.

(** ** A satellite after initialisation and any propagations *)
Definition epoch_orbit (w : gravconst) (l : tle_elems) : orb := mkOrbE (a_orig (theory_w w) l) (l_e0 l) (l_i0 l) (l_w0 l) (l_node0 l).
Record deep_rec (w : gravconst) (epoch : R) (l : tle_elems) (s : satrec) (sb s2 : satrec) (o : dsorb) (ss sl : dsbody) (gam : R) (m : body) : Prop := mkDR {
  dr_df : deep_facts w (epoch + 18261.5) sb s2 o ss sl gam m;
  dr_same : same s2 s; dr_deep : deep s2 = true; dr_isimp : isimp s = 1%Z;
  dr_gsto : num sb gsto = init_gsto epoch;
  dr_cf : exists s1, coef_facts (getgravconst w) l s1 /\ num sb = num s1;
  dr_n : 0 < n_orig (theory_w w) l; dr_a : 0 < a_orig (theory_w w) l; dr_e : l_e0 l ^ 2 < 1;
  dr_orb : is_orb o (n_orig (theory_w w) l) (epoch_orbit w l) }.
Lemma deep_start w epoch l s0 s s1 : init_with deepinit w epoch l s0 = Val s -> deep_space w l -> same s s1 ->
  exists sb s2 o ss sl gam m, deep_rec w epoch l s1 sb s2 o ss sl gam m.
Proof.
  intros H D SA. destruct (deep_inv _ _ _ _ _ H D) as (sc & s2 & CF & GS & DI & S2 & DP & IS & NP & BP & BB & _).
  destruct (deepinit_ok _ _ _ _ DI) as (o & ss & sl & gam & m & DF). exists (set_isimp 1 (set_deep true sc)), s2, o, ss, sl, gam, m.
  split; try assumption.
  - eapply same_trans; eassumption.
  - destruct S2 as (_ & _ & X & _). congruence.
  - destruct SA as (X & _). congruence.
  - exists sc. split; [exact CF|reflexivity].
  - apply exp_pos.
  - nra.
  - pose proof (df_orb _ _ _ _ _ _ _ _ _ DF (a_orig (theory_w w) l)) as IO. cbn [set_isimp set_deep num] in IO.
    rewrite (cf_no _ _ _ CF), (cf_ecco _ _ _ CF), (cf_inclo _ _ _ CF), (cf_argpo _ _ _ CF), (cf_nodeo _ _ _ CF) in IO. exact IO.
Qed.
(** a field that neither a propagation nor the deep space initialisation writes *)
Lemma dr_num w epoch l s sb s2 o ss sl gam m f : deep_rec w epoch l s sb s2 o ss sl gam m -> stable true f = true -> num s f = num s2 f.
Proof. intros D F. destruct (dr_same _ _ _ _ _ _ _ _ _ _ _ D) as (_ & _ & _ & X). symmetry. apply X. rewrite (dr_deep _ _ _ _ _ _ _ _ _ _ _ D). exact F. Qed.

(** ** Secular rates *)
Definition add_rates (x y : rates) : rates := mkRates (r_e x + r_e y) (r_i x + r_i y) (r_w x + r_w y) (r_node x + r_node y) (r_M x + r_M y).
Lemma secular_result o i ss sl de di dm dw dn : ds_secular o i ss sl = Val (de, di, dm, dw, dn) -> o_sinim o = sin i -> o_cosim o = cos i -> sin i <> 0 ->
  forall e, o_emsq o = e * e ->
  let x := add_rates (terms_secular ss zns e i) (terms_secular sl znl e i) in
  de = r_e x /\ di = r_i x /\ dm = r_M x /\
  (0.052359877 <= i <= PI - 0.052359877 -> dw = r_w x /\ dn = r_node x) /\
  (i < 0.052359877 \/ PI - 0.052359877 < i -> dw = r_w x + cos i * r_node x /\ dn = 0).
Proof.
  intros H SI CI NZ e EE x. unfold ds_secular in H. rewrite SI, CI, EE in H. rewrite (req_false _ _ NZ) in H. cbn [negb] in H. rewrite !fdiv_ok in H by exact NZ. cbn [rbind] in H.
  apply Val_inj in H. injection H as <- <- <- <- <-. unfold x, add_rates, terms_secular. cbn [r_e r_i r_w r_node r_M].
  split; [ring|]. split; [ring|]. split; [ring|]. split; intros B.
  - rewrite !rlt_false by lra. cbn [Datatypes.orb]. split; field; exact NZ.
  - assert (T : rlt i 5.2359877e-2 || rlt (PI - 5.2359877e-2) i = true).
    { destruct (rlt_spec i 5.2359877e-2); [reflexivity|]. cbn [Datatypes.orb]. apply rlt_true. lra. }
    rewrite T. split; field; exact NZ.
Qed.
Lemma lagrange_sum V V' n q x y : lagrange V n q x -> lagrange V' n q y -> lagrange (fun q => V q + V' q) n q (add_rates x y).
Proof. intros A B. eapply (lagrange_ext _ (fun q => 1 * (V q + V' q))); [| |exact (lagrange_lin 1 _ _ _ _ _ _ A B)]; [intros q0; cbn beta; ring|]. unfold add_rates. f_equal; ring. Qed.
Lemma plane_sum V V' n q x y x' y' : plane_rates V n q x y -> plane_rates V' n q x' y' -> plane_rates (fun q => V q + V' q) n q (x + x') (y + y').
Proof. intros A B. eapply (plane_ext _ (fun q => 1 * (V q + V' q))); [| | |exact (plane_lin 1 _ _ _ _ _ _ _ _ A B)]; [intros q0; cbn beta; ring| |]; ring. Qed.

Section rec.
Variables (w : gravconst) (epoch : R) (l : tle_elems) (s sb s2 : satrec) (o : dsorb) (ss sl : dsbody) (gam : R) (m : body).
Hypothesis D : deep_rec w epoch l s sb s2 o ss sl gam m.
Let n := n_orig (theory_w w) l.
Let q := epoch_orbit w l.
Lemma rec_elems : num sb ecco = l_e0 l /\ num sb inclo = l_i0 l /\ num sb argpo = l_w0 l /\ num sb nodeo = l_node0 l /\ num sb mo = l_M0 l /\ num sb no = n /\
  num sb mdot = M_rate (theory_w w) l /\ num sb argpdot = w_rate (theory_w w) l /\ num sb nodedot = node_rate (theory_w w) l.
Proof. destruct (dr_cf _ _ _ _ _ _ _ _ _ _ _ D) as (s1 & CF & ->). destruct CF. repeat split; assumption. Qed.
Lemma rec_orbit : o_emsq o = l_e0 l * l_e0 l /\ o_em o = l_e0 l /\ o_sinim o = sin (l_i0 l) /\ o_cosim o = cos (l_i0 l).
Proof. rewrite (dr_orb _ _ _ _ _ _ _ _ _ _ _ D). repeat split; reflexivity. Qed.
Lemma rec_secular : sin (l_i0 l) <> 0 ->
  let x := add_rates (terms_secular ss zns (l_e0 l) (l_i0 l)) (terms_secular sl znl (l_e0 l) (l_i0 l)) in
  num s dedt = r_e x /\ num s didt = r_i x /\ num s dmdt = r_M x /\
  (0.052359877 <= l_i0 l <= PI - 0.052359877 -> num s domdt = r_w x /\ num s dnodt = r_node x) /\
  (l_i0 l < 0.052359877 \/ PI - 0.052359877 < l_i0 l -> num s domdt = r_w x + cos (l_i0 l) * r_node x /\ num s dnodt = 0).
Proof.
  intros NZ. rewrite !(dr_num _ _ _ _ _ _ _ _ _ _ _ _ D) by reflexivity. destruct rec_elems as (_ & EI & _). destruct rec_orbit as (E2 & _ & SI & CI).
  pose proof (df_sec _ _ _ _ _ _ _ _ _ (dr_df _ _ _ _ _ _ _ _ _ _ _ D)) as SE. rewrite EI in SE.
  exact (secular_result _ _ _ _ _ _ _ _ _ SE SI CI NZ _ E2).
Qed.
Lemma rec_sun : 0 < l_e0 l -> sin (l_i0 l) <> 0 ->
  lagrange (averaged2 sun) n q (terms_secular ss zns (l_e0 l) (l_i0 l)) /\ body_periodics sun n q (terms_periodic ss zes (l_e0 l)).
Proof.
  intros E I. pose proof (dr_n _ _ _ _ _ _ _ _ _ _ _ D) as NP. pose proof (dr_e _ _ _ _ _ _ _ _ _ _ _ D) as EP. fold n in NP.
  rewrite <- sun_dirs.
  apply (body_ok o n q zcosgs zsings zcosis zsinis 1 0 c1ss zns zes ss).
  - apply (dr_orb _ _ _ _ _ _ _ _ _ _ _ D). - apply (dr_a _ _ _ _ _ _ _ _ _ _ _ D). - cbn [q epoch_orbit q_e]. split; nra. - lra. - exact I. - unfold zns. lra.
  - apply (df_sun _ _ _ _ _ _ _ _ _ (dr_df _ _ _ _ _ _ _ _ _ _ _ D)).
Qed.
Lemma rec_moon : 0 < l_e0 l -> sin (l_i0 l) <> 0 ->
  lagrange (averaged2 m) n q (terms_secular sl znl (l_e0 l) (l_i0 l)) /\ body_periodics m n q (terms_periodic sl zel (l_e0 l)).
Proof.
  intros E I. pose proof (dr_n _ _ _ _ _ _ _ _ _ _ _ D) as NP. pose proof (dr_e _ _ _ _ _ _ _ _ _ _ _ D) as EP. fold n in NP.
  destruct (df_moon _ _ _ _ _ _ _ _ _ (dr_df _ _ _ _ _ _ _ _ _ _ _ D)) as (cg & sg & ci & si & ch & sh & T & ->).
  apply (body_ok o n q cg sg ci si ch sh c1l znl zel sl).
  - apply (dr_orb _ _ _ _ _ _ _ _ _ _ _ D). - apply (dr_a _ _ _ _ _ _ _ _ _ _ _ D). - cbn [q epoch_orbit q_e]. split; nra. - lra. - exact I. - unfold znl. lra.
  - exact T.
Qed.
Lemma rec_circular : l_e0 l = 0 -> sin (l_i0 l) <> 0 ->
  plane_rates (averaged2 sun) n q (r_i (terms_secular ss zns 0 (l_i0 l))) (r_node (terms_secular ss zns 0 (l_i0 l))) /\
  plane_rates (averaged2 m) n q (r_i (terms_secular sl znl 0 (l_i0 l))) (r_node (terms_secular sl znl 0 (l_i0 l))) /\ num s dedt = 0.
Proof.
  intros E I. pose proof (dr_n _ _ _ _ _ _ _ _ _ _ _ D) as NP. fold n in NP. pose proof (dr_orb _ _ _ _ _ _ _ _ _ _ _ D) as IO. fold n q in IO.
  destruct (df_moon _ _ _ _ _ _ _ _ _ (dr_df _ _ _ _ _ _ _ _ _ _ _ D)) as (cg & sg & ci & si & ch & sh & T & EM).
  pose proof (df_sun _ _ _ _ _ _ _ _ _ (dr_df _ _ _ _ _ _ _ _ _ _ _ D)) as TS.
  assert (QE : q_e q = 0) by exact E. rewrite <- QE at 1 2 3 4.
  split; [|split].
  - rewrite <- sun_dirs. apply (body_plane o n q zcosgs zsings zcosis zsinis 1 0 c1ss zns zes ss IO); try assumption; [apply (dr_a _ _ _ _ _ _ _ _ _ _ _ D)|rewrite QE; lra|lra].
  - rewrite EM. apply (body_plane o n q cg sg ci si ch sh c1l znl zel sl IO); try assumption; [apply (dr_a _ _ _ _ _ _ _ _ _ _ _ D)|rewrite QE; lra|lra].
  - destruct (rec_secular I) as (-> & _). unfold add_rates, terms_secular. cbn [r_e].
    pose proof (terms_facts _ _ _ _ _ _ _ _ _ _ _ IO TS) as (_ & X & _). pose proof (terms_facts _ _ _ _ _ _ _ _ _ _ _ IO T) as (_ & Y & _). rewrite X, Y, QE. ring.
Qed.
End rec.

(** ** Periodic terms *)
Definition sun_at (day t : R) : R := true_anomaly 0.01675 (sun_anomaly day + 1.19459e-5 * t).
Definition moon_at (day t : R) : R := true_anomaly 0.05490 (moon_anomaly day + 1.5835218e-4 * t).
Lemma anomaly_mod ecc M d : let zf := fmod2pi M + d + 2 * ecc * sin (fmod2pi M + d) in sin zf = sin (true_anomaly ecc (M + d)) /\ cos zf = cos (true_anomaly ecc (M + d)).
Proof.
  destruct (fmod_turns M) as (k & ->). cbn zeta. assert (E : sin (M + IZR k * (2 * PI) + d) = sin (M + d)).
  { rewrite <- (sin_period_Z (M + d) k). f_equal. ring. }
  rewrite E. unfold true_anomaly. split; [rewrite <- (sin_period_Z (M + d + _) k)|rewrite <- (cos_period_Z (M + d + _) k)]; f_equal; ring.
Qed.
(** the node and the argument of perigee for inclinations below 0.2: the direction of the node is moved in the plane of the equator, and the sum
    of mean anomaly, perigee and cos i times node follows the sum of the changes *)
Definition low_inclination (p p' : periodics) (y : rates) : Prop :=
  let i := xincp p' in
  exists node0 k, congruent node0 (nodep p) /\ 0 <= node0 < 2 * PI /\ 0 <= k /\ Rabs (nodep p' - node0) <= PI /\
    k * cos (nodep p') = (sin i + r_i y * cos i) * cos node0 - r_node y * sin node0 /\
    k * sin (nodep p') = (sin i + r_i y * cos i) * sin node0 + r_node y * cos node0 /\
    mp p' + argpp p' + cos i * nodep p' = mp p + argpp p + cos i * node0 + r_M y + r_w y - r_i y * sin i * node0.
Definition periodics_applied (p p' : periodics) (y : rates) : Prop :=
  ep p' = ep p + r_e y /\ xincp p' = xincp p + r_i y /\ mp p' = mp p + r_M y /\
  (0.2 <= xincp p' -> sin (xincp p') * (nodep p' - nodep p) = r_node y /\ argpp p' - argpp p + cos (xincp p') * (nodep p' - nodep p) = r_w y) /\
  (xincp p' < 0.2 -> low_inclination p p' y).
Lemma fmod_range x : - (2 * PI) < fmod2pi x < 2 * PI.
Proof.
  unfold fmod2pi, twopi. pose proof PI_RGT_0 as P. assert (E : x = x / (2 * PI) * (2 * PI)) by (field; lra).
  set (y := x / (2 * PI)) in *. unfold trunc. destruct (rle_spec 0 y) as [Y|Y].
  - destruct (base_Int_part y) as (A & B). set (z := IZR (Int_part y)) in *. split; nra.
  - destruct (base_Int_part (- y)) as (A & B). rewrite opp_IZR. set (z := IZR (Int_part (- y))) in *. split; nra.
Qed.
Lemma congruent_sc x y : congruent x y -> sin x = sin y /\ cos x = cos y.
Proof. intros (k & ->). split; [rewrite <- (sin_period_Z y k)|rewrite <- (cos_period_Z y k)]; f_equal; ring. Qed.
(** the second half of dpper, from the changes on *)
Definition dpper_apply (x : periodics) (y : rates) : res periodics :=
  let '(pe, pinc, pgh, ph, pl) := (r_e y, r_i y, r_w y, r_node y, r_M y) in
  let inclp := xincp x + pinc in
  let ep' := ep x + pe in
  let sinip := sin inclp in
  let cosip := cos inclp in
  if rle 0.2 inclp then
    do ph <- fdiv ph sinip;
    let pgh := pgh - cosip * ph in
    Val (mkPer ep' inclp (nodep x + ph) (argpp x + pgh) (mp x + pl))
  else
    let sinop := sin (nodep x) in
    let cosop := cos (nodep x) in
    let dalf := ph * cosop + pinc * cosip * sinop in
    let dbet := - ph * sinop + pinc * cosip * cosop in
    let alfdp := sinip * sinop + dalf in
    let betdp := sinip * cosop + dbet in
    let nodep' := fmod2pi (nodep x) in
    let nodep' := if rlt nodep' 0 then nodep' + twopi else nodep' in
    let xls := mp x + argpp x + cosip * nodep' in
    let dls := pl + pgh - pinc * nodep' * sinip in
    let xls := xls + dls in
    let xnoh := nodep' in
    let nodep' := atan2 alfdp betdp in
    let nodep' := if rlt nodep' 0 then nodep' + twopi else nodep' in
    let nodep' := if rlt PI (Rabs (xnoh - nodep')) then (if rlt nodep' xnoh then nodep' + twopi else nodep' - twopi) else nodep' in
    let mp' := mp x + pl in
    Val (mkPer ep' inclp nodep' (xls - mp' - cosip * nodep') mp').
Definition dpper_sums (n : fld -> R) (zs zl : R) : rates :=
  mkRates (n se2 * f2 zs + n se3 * f3 zs + (n ee2 * f2 zl + n e3 * f3 zl) - n peo)
    (n si2 * f2 zs + n si3 * f3 zs + (n xi2 * f2 zl + n xi3 * f3 zl) - n pinco)
    (n sgh2 * f2 zs + n sgh3 * f3 zs + n sgh4 * sin zs + (n xgh2 * f2 zl + n xgh3 * f3 zl + n xgh4 * sin zl) - n pgho)
    (n sh2 * f2 zs + n sh3 * f3 zs + (n xh2 * f2 zl + n xh3 * f3 zl) - n pho)
    (n sl2 * f2 zs + n sl3 * f3 zs + n sl4 * sin zs + (n xl2 * f2 zl + n xl3 * f3 zl + n xl4 * sin zl) - n plo).
Lemma dpper_split s t x : let zs := num s zmos + 1.19459e-5 * t in let zl := num s zmol + 1.5835218e-4 * t in
  dpper s t x = dpper_apply x (dpper_sums (num s) (zs + 2 * 0.01675 * sin zs) (zl + 2 * 0.05490 * sin zl)).
Proof. reflexivity. Qed.
Lemma apply_spec p p' y : dpper_apply p y = Val p' -> periodics_applied p p' y.
Proof.
  unfold dpper_apply, periodics_applied. intros H.
  destruct (rle_spec 0.2 (xincp p + r_i y)) as [I|I].
  - apply rbind_val in H. destruct H as (ph & Q & H). apply fdiv_val in Q. destruct Q as (NZ & ->). apply Val_inj in H. subst p'. cbn [ep xincp nodep argpp mp].
    split; [reflexivity|]. split; [reflexivity|]. split; [reflexivity|]. split; [|lra]. intros _. split; field; exact NZ.
  - apply Val_inj in H. subst p'. cbn [ep xincp nodep argpp mp]. split; [reflexivity|]. split; [reflexivity|]. split; [reflexivity|]. split; [lra|]. intros _.
    pose proof PI_RGT_0 as PP. unfold low_inclination. cbn [ep xincp nodep argpp mp]. set (i := xincp p + r_i y) in *.
    set (n0 := if rlt (fmod2pi (nodep p)) 0 then fmod2pi (nodep p) + twopi else fmod2pi (nodep p)).
    assert (N0 : congruent n0 (nodep p) /\ 0 <= n0 < 2 * PI).
    { pose proof (fmod_range (nodep p)) as B. destruct (fmod_turns (nodep p)) as (k & E). unfold n0, twopi. destruct (rlt_spec (fmod2pi (nodep p)) 0) as [L|L].
      - split; [|lra]. exists (k + 1)%Z. rewrite E, plus_IZR. ring. - split; [|lra]. exists k. rewrite E. ring. }
    clearbody n0. destruct N0 as (N0 & NB). destruct (congruent_sc _ _ N0) as (<- & <-).
    set (al := sin i * sin n0 + (r_node y * cos n0 + r_i y * cos i * sin n0)). set (be := sin i * cos n0 + (- r_node y * sin n0 + r_i y * cos i * cos n0)).
    set (n1 := if rlt (atan2 al be) 0 then atan2 al be + twopi else atan2 al be).
    assert (N1 : congruent n1 (atan2 al be) /\ 0 <= n1 < 2 * PI).
    { pose proof (atan2_range al be) as B. unfold n1, twopi. destruct (rlt_spec (atan2 al be) 0) as [L|L].
      - split; [|lra]. exists 1%Z. ring. - split; [|lra]. exists 0%Z. ring. }
    clearbody n1. destruct N1 as (N1 & NB1).
    exists n0, (sqrt (be * be + al * al)). match goal with |- context [Rabs (?x - n0) <= PI] => set (n2 := x) end.
    assert (N2 : congruent n2 n1 /\ Rabs (n2 - n0) <= PI).
    { unfold n2, twopi. destruct (rlt_spec PI (Rabs (n0 - n1))) as [L|L].
      - destruct (rlt_spec n1 n0) as [M|M].
        + split; [exists 1%Z; ring|]. rewrite Rabs_pos_eq in L by lra. apply Rabs_le. lra.
        + split; [exists (-1)%Z; ring|]. rewrite Rabs_left1 in L by lra. apply Rabs_le. lra.
      - split; [exists 0%Z; ring|]. rewrite Rabs_minus_sym. lra. }
    destruct N2 as (N2 & NB2). destruct (congruent_sc _ _ N1) as (X1 & X2). destruct (congruent_sc _ _ N2) as (Y1 & Y2).
    split; [exact N0|]. split; [exact NB|]. split; [apply sqrt_pos|]. split; [exact NB2|].
    rewrite Y1, Y2, X1, X2. assert (AT : sqrt (be * be + al * al) * cos (atan2 al be) = be /\ sqrt (be * be + al * al) * sin (atan2 al be) = al).
    { destruct (Req_dec be 0) as [B0|B0]; [destruct (Req_dec al 0) as [A0|A0]|].
      - rewrite B0, A0. replace (0 * 0 + 0 * 0) with 0 by ring. rewrite sqrt_0. lra.
      - destruct (atan2_spec be al (or_intror A0)). lra. - destruct (atan2_spec be al (or_introl B0)). lra. }
    destruct AT as (-> & ->). fold n2. split; [unfold be; ring|]. split; [unfold al; ring|]. ring.
Qed.
Section rec2.
Variables (w : gravconst) (epoch : R) (l : tle_elems) (s sb s2 : satrec) (o : dsorb) (ss sl : dsbody) (gam : R) (m : body).
Hypothesis D : deep_rec w epoch l s sb s2 o ss sl gam m.
Let day := epoch + 18261.5.
Lemma rec_com f : by_dscom f = true -> num s f = num (dscom_store day gam (l_e0 l * l_e0 l) ss sl sb) f.
Proof.
  intros F. rewrite (dr_num _ _ _ _ _ _ _ _ _ _ _ _ D) by (destruct f; cbn in *; congruence).
  rewrite (df_com _ _ _ _ _ _ _ _ _ (dr_df _ _ _ _ _ _ _ _ _ _ _ D)) by exact F. destruct (rec_orbit _ _ _ _ _ _ _ _ _ _ _ D) as (-> & _). reflexivity.
Qed.
Lemma rec_dpper t p p' : dpper s t p = Val p' ->
  periodics_applied p p' (add_rates (terms_periodic ss zes (l_e0 l) (sun_at day t)) (terms_periodic sl zel (l_e0 l) (moon_at day t))).
Proof.
  intros H. rewrite dpper_split in H. apply apply_spec in H. pose proof (df_gam _ _ _ _ _ _ _ _ _ (dr_df _ _ _ _ _ _ _ _ _ _ _ D)) as GM. fold day in GM.
  assert (ZS : num s zmos = fmod2pi (sun_anomaly day)) by (rewrite rec_com by reflexivity; unfold dscom_store; gs; reflexivity).
  assert (ZL : num s zmol = fmod2pi (moon_anomaly day)). { rewrite rec_com by reflexivity. unfold dscom_store. gs. rewrite GM. reflexivity. }
  rewrite ZS, ZL in H.
  destruct (anomaly_mod 0.01675 (sun_anomaly day) (1.19459e-5 * t)) as (S1 & C1). destruct (anomaly_mod 0.05490 (moon_anomaly day) (1.5835218e-4 * t)) as (S2 & C2). cbn zeta in S1, C1, S2, C2.
  change (true_anomaly 0.01675 _) with (sun_at day t) in S1, C1. change (true_anomaly 0.05490 _) with (moon_at day t) in S2, C2.
  set (zs := fmod2pi (sun_anomaly day) + _ + _) in *. set (zl := fmod2pi (moon_anomaly day) + _ + _) in *. clearbody zs zl.
  match goal with |- periodics_applied _ _ ?y => replace y with (dpper_sums (num s) zs zl); [exact H|] end.
  unfold dpper_sums, f2, f3. rewrite S1, C1, S2, C2. fold (f2 (sun_at day t)) (f2 (moon_at day t)) (f3 (sun_at day t)) (f3 (moon_at day t)).
  apply rates_eq5; unfold add_rates, terms_periodic; cbn [r_e r_i r_w r_node r_M]; rewrite !rec_com by reflexivity; unfold dscom_store; gs; ring.
Qed.
End rec2.
