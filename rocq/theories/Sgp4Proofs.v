From Coq Require Import Reals Lra Lia List Bool ZArith.
From Verif Require Import RBase VecModel VecProofs Trig SensorModel JulianModel Sgp4Model.
Import ListNotations.
Open Scope R_scope.

Lemma rbind_val {A B} (m : res A) (k : A -> res B) b : rbind m k = Val b -> exists a, m = Val a /\ k a = Val b.
Proof. destruct m as [a| |]; cbn [rbind]; intros H; [exists a; now split|discriminate|discriminate]. Qed.
Lemma fdiv_val x y z : fdiv x y = Val z -> y <> 0 /\ z = x / y.
Proof. unfold fdiv. destruct (req_spec y 0); intros H; [discriminate|]. injection H as <-. now split. Qed.
Lemma fpow_val x a z : fpow x a = Val z -> 0 < x /\ z = Rpower x a.
Proof. unfold fpow. destruct (rlt_spec 0 x); intros H; [|discriminate]. injection H as <-. now split. Qed.
Lemma fsqrt_val x z : fsqrt x = Val z -> 0 <= x /\ z = sqrt x.
Proof. unfold fsqrt. destruct (rlt_spec x 0); intros H; [discriminate|]. injection H as <-. split; lra. Qed.
Lemma fdiv_ok x y : y <> 0 -> fdiv x y = Val (x / y).
Proof. intros H. unfold fdiv. now rewrite req_false. Qed.
Lemma fpow_ok x a : 0 < x -> fpow x a = Val (Rpower x a).
Proof. intros H. unfold fpow. now rewrite rlt_true. Qed.
Lemma fsqrt_ok x : 0 <= x -> fsqrt x = Val (sqrt x).
Proof. intros H. unfold fsqrt. now rewrite rlt_false. Qed.

(** ** History independence *)
(** the fields that a propagation of a near-Earth (false) or deep space (true) satellite leaves alone *)
Definition stable (b : bool) (f : fld) : bool :=
  match f with
  | tt | atime | xli | xni => false
  | aycof | xlcof | con41 | x1mth2 | x7thm1 => negb b
  | _ => true
  end.
Definition same (s s' : satrec) : Prop :=
  isimp s = isimp s' /\ irez s = irez s' /\ deep s = deep s' /\ forall f, stable (deep s) f = true -> num s f = num s' f.
Lemma same_refl s : same s s. Proof. now repeat split. Qed.
Lemma same_sym s s' : same s s' -> same s' s.
Proof. intros (A & B & C & D). repeat split; try congruence. intros f E. symmetry. apply D. now rewrite C. Qed.
Lemma same_trans a b c : same a b -> same b c -> same a c.
Proof. intros (A & B & C & D) (A' & B' & C' & D'). repeat split; try congruence. intros f E. rewrite D by exact E. apply D'. now rewrite <- C. Qed.
Lemma same_set f x s : stable (deep s) f = false -> same s (set f x s).
Proof.
  intros H. split; [reflexivity|]. split; [reflexivity|]. split; [reflexivity|]. intros f' E. cbn [set num].
  destruct (fld_eq_dec f f') as [->|]; [congruence|reflexivity].
Qed.
Lemma same_error e s : same s (set_error e s). Proof. now repeat split. Qed.
Lemma set_same f x s : num (set f x s) f = x.
Proof. cbn [set num]. destruct (fld_eq_dec f f); congruence. Qed.
Lemma set_other f g x s : f <> g -> num (set f x s) g = num s g.
Proof. intros H. cbn [set num]. destruct (fld_eq_dec f g); congruence. Qed.

Ltac agree :=
  repeat match goal with
  | H : (forall f, stable _ f = true -> num ?s f = num ?s' f) |- context [num ?s ?f] => rewrite (H f eq_refl)
  end.
Lemma drag_same s s' t : same s s' -> drag_terms s t = drag_terms s' t.
Proof. intros (A & B & C & D). unfold drag_terms. rewrite A. agree. reflexivity. Qed.
Lemma dots_same s s' a b c : same s s' -> ds_dots s a b c = ds_dots s' a b c.
Proof. intros (A & B & C & D). unfold ds_dots. rewrite B. agree. reflexivity. Qed.
Lemma loop_same fuel s s' t back st : same s s' -> ds_loop fuel s t back st = ds_loop fuel s' t back st.
Proof.
  intros E. revert back st. induction fuel as [|k IH]; intros back st; [reflexivity|]. cbn [ds_loop].
  rewrite (dots_same s s') by exact E.
  destruct (if rlt (Rabs t) (Rabs (ds_atime st)) || back then _ else _) as [[[delt back'] again] ft].
  destruct (ds_dots s' (ds_xli st) (ds_xni st) (ds_atime st)) as [[xndt xldot] xnddt].
  destruct again; [apply IH|reflexivity].
Qed.
Definition erase (s : satrec) : satrec := mkSat (fun f => if stable (deep s) f then num s f else 0) (isimp s) (irez s) (deep s) 0.
Lemma same_erase s s' : same s s' -> erase s = erase s'.
Proof.
  intros (A & B & C & D). unfold erase. rewrite A, B, C. f_equal. apply FunctionalExtensionality.functional_extensionality. intros f.
  rewrite C in D. destruct (stable (deep s') f) eqn:E; [now apply D|reflexivity].
Qed.
Lemma dpper_erase s t p : dpper s t p = dpper (erase s) t p. Proof. reflexivity. Qed.
Lemma dpper_same s s' t p : same s s' -> dpper s t p = dpper s' t p.
Proof. intros E. rewrite (dpper_erase s), (dpper_erase s'), (same_erase s s' E). reflexivity. Qed.

Definition rel {A} (m m' : res (satrec * A)) : Prop :=
  match m, m' with
  | Val (s, a), Val (s', a') => same s s' /\ error s = error s' /\ num s tt = num s' tt /\ a = a'
  | NotFinite, NotFinite => True
  | NoEnd, NoEnd => True
  | _, _ => False
  end.
Lemma rel_bind {A B} (m m' : res (satrec * A)) (k k' : satrec * A -> res (satrec * B)) :
  rel m m' -> (forall s s' a, same s s' -> error s = error s' -> num s tt = num s' tt -> rel (k (s, a)) (k' (s', a))) -> rel (rbind m k) (rbind m' k').
Proof.
  destruct m as [[s a]| |], m' as [[s' a']| |]; cbn [rel rbind]; try tauto. intros (E & F & G & <-) H. now apply H.
Qed.
Lemma rel_val {A} s s' (a : A) : same s s' -> error s = error s' -> num s tt = num s' tt -> rel (Val (s, a)) (Val (s', a)).
Proof. cbn [rel]. tauto. Qed.

Lemma dspace_same s s' t tc x : same s s' -> error s = error s' -> num s tt = num s' tt -> rel (dspace s t tc x) (dspace s' t tc x).
Proof.
  intros E F G. pose proof E as (A & B & C & D). unfold dspace. agree.
  assert (E1 : same (set atime 0 s) (set atime 0 s')).
  { eapply same_trans; [apply same_sym, same_set; reflexivity|]. eapply same_trans; [exact E|]. apply same_set. reflexivity. }
  cbn [set irez]. rewrite B. destruct (negb (irez s' =? 0)%Z).
  - rewrite (loop_same _ _ _ _ _ _ E1).
    destruct (ds_loop (ds_fuel t) (set atime 0 s') t false _) as [[[st [[xndt xldot] xnddt]] ft]| |]; cbn [rbind rel]; auto.
    split; [|split; [exact F|split; [|reflexivity]]].
    + eapply same_trans; [apply same_sym|].
      * eapply same_trans; [|apply same_set; reflexivity]. eapply same_trans; [|apply same_set; reflexivity].
        eapply same_trans; [|apply same_set; reflexivity]. apply same_set. reflexivity.
      * eapply same_trans; [exact E|]. eapply same_trans; [|apply same_set; reflexivity]. eapply same_trans; [|apply same_set; reflexivity].
        eapply same_trans; [|apply same_set; reflexivity]. apply same_set. reflexivity.
    + rewrite !set_other by discriminate. exact G.
  - apply rel_val; [exact E1|exact F|]. cbn [num]. destruct (fld_eq_dec atime tt); [discriminate|exact G].
Qed.

(** what a call reports: the error code and, if written, position and velocity *)
Definition report {A} (m : res (satrec * A)) : res (Z * A) :=
  match m with Val (s, a) => Val (error s, a) | NotFinite => NotFinite | NoEnd => NoEnd end.
Lemma periodic_same g s s' am nm_ si ci p : same s s' -> error s = error s' ->
  report (sgp4_periodic g s am nm_ si ci p) = report (sgp4_periodic g s' am nm_ si ci p).
Proof.
  intros E F. pose proof E as (A & B & C & D). unfold sgp4_periodic. rewrite C.
  destruct (deep s') eqn:DS; cbn [rbind].
  - destruct (calc_xlcof g (sin (xincp p)) (cos (xincp p))) as [xl| |]; cbn [rbind]; [|reflexivity|reflexivity].
    rewrite !set_same. rewrite !(set_other xlcof aycof) by discriminate. rewrite !set_same.
    destruct (fdiv 1 (am * (1 - ep p * ep p))) as [temp| |]; cbn [rbind]; [|reflexivity|reflexivity].
    destruct (kepler _ _ _) as [[sE cE]| |]; cbn [rbind]; [|reflexivity|reflexivity].
    destruct (rlt (am * _) 0); [destruct (rlt 0 1); reflexivity|].
    destruct (fdiv (sqrt am * _) _); cbn [rbind]; [|reflexivity|reflexivity].
    destruct (fdiv (sqrt (am * _)) _); cbn [rbind]; [|reflexivity|reflexivity].
    destruct (fsqrt _); cbn [rbind]; [|reflexivity|reflexivity].
    destruct (fdiv _ (1 + _)); cbn [rbind]; [|reflexivity|reflexivity].
    destruct (fdiv am _); cbn [rbind]; [|reflexivity|reflexivity].
    destruct (fdiv 1 (am * (1 - (_ + _)))); cbn [rbind]; [|reflexivity|reflexivity].
    cbn [set deep]. rewrite C, DS. rewrite !(set_other x7thm1 con41), !(set_other x7thm1 x1mth2), !(set_other x1mth2 con41) by discriminate.
    cbn [report]. f_equal. f_equal.
    destruct (rlt _ 1); [reflexivity|]. cbn [error set]. exact F.
  - rewrite C in D. agree.
    destruct (fdiv 1 (am * (1 - ep p * ep p))) as [temp| |]; cbn [rbind]; [|reflexivity|reflexivity].
    destruct (kepler _ _ _) as [[sE cE]| |]; cbn [rbind]; [|reflexivity|reflexivity].
    destruct (rlt (am * _) 0); [destruct (rlt 0 1); reflexivity|].
    destruct (fdiv (sqrt am * _) _); cbn [rbind]; [|reflexivity|reflexivity].
    destruct (fdiv (sqrt (am * _)) _); cbn [rbind]; [|reflexivity|reflexivity].
    destruct (fsqrt _); cbn [rbind]; [|reflexivity|reflexivity].
    destruct (fdiv _ (1 + _)); cbn [rbind]; [|reflexivity|reflexivity].
    destruct (fdiv am _); cbn [rbind]; [|reflexivity|reflexivity].
    destruct (fdiv 1 (am * (1 - (_ + _)))); cbn [rbind]; [|reflexivity|reflexivity].
    rewrite C, DS. cbn [report]. agree. f_equal. f_equal.
    destruct (rlt _ 1); [reflexivity|exact F].
Qed.

Lemma same_if_error (b : bool) e s : same s (if b then set_error e s else s).
Proof. destruct b; [apply same_error|apply same_refl]. Qed.
Lemma periodic_keeps g s am nm_ si ci p s' o : sgp4_periodic g s am nm_ si ci p = Val (s', o) -> same s s'.
Proof.
  unfold sgp4_periodic. intros H. apply rbind_val in H. destruct H as ([[s1 si1] ci1] & H1 & H).
  assert (S1 : same s s1).
  { destruct (deep s) eqn:DS.
    - apply rbind_val in H1. destruct H1 as (xl & _ & H1). injection H1 as <- _ _.
      eapply same_trans; [apply (same_set aycof); now rewrite DS|]. apply same_set. cbn [set deep]. now rewrite DS.
    - injection H1 as <- _ _. apply same_refl. }
  eapply same_trans; [exact S1|]. clear H1 S1 s.
  apply rbind_val in H. destruct H as (temp & _ & H). apply rbind_val in H. destruct H as ([sE cE] & _ & H).
  destruct (rlt _ 0).
  - injection H as <- _. destruct (rlt 0 1); [eapply same_trans; [apply same_error|apply same_error]|apply same_error].
  - repeat (apply rbind_val in H; destruct H as (? & _ & H)). injection H as <- _. destruct (deep s1) eqn:DS.
    + eapply same_trans; [|apply same_if_error]. eapply same_trans; [apply (same_set con41); now rewrite DS|].
      eapply same_trans; [apply (same_set x1mth2); cbn [set deep]; now rewrite DS|]. apply same_set. cbn [set deep]. now rewrite DS.
    + apply same_if_error.
Qed.
Lemma dspace_keeps s t tc x s' x' : dspace s t tc x = Val (s', x') -> same s s'.
Proof.
  unfold dspace. intros H. cbn [set irez] in H. destruct (negb (irez s =? 0)%Z).
  - apply rbind_val in H. destruct H as ([[st [[a b] c]] ft] & _ & H). injection H as <- _.
    eapply same_trans; [|apply same_set; reflexivity]. eapply same_trans; [|apply same_set; reflexivity].
    eapply same_trans; [|apply same_set; reflexivity]. apply same_set. reflexivity.
  - injection H as <- _. apply same_set. reflexivity.
Qed.
Lemma sgp4_keeps w s t s' o : sgp4 w s t = Val (s', o) -> same s s'.
Proof.
  unfold sgp4. intros H. set (s0 := set_error 0 (set tt t s)) in *.
  assert (S0 : same s s0). { eapply same_trans; [apply (same_set tt t); reflexivity|apply same_error]. }
  eapply same_trans; [exact S0|]. clearbody s0. clear S0 s.
  destruct (drag_terms s0 (num s0 tt)) as [[[[[mm0 argpm0] nodem0] tempa] tempe] templ].
  apply rbind_val in H. destruct H as ([s1 x] & H1 & H).
  assert (S1 : same s0 s1).
  { destruct (deep s0); [now apply dspace_keeps in H1|injection H1 as <- _; apply same_refl]. }
  eapply same_trans; [exact S1|]. clear H1 S1.
  do 4 (apply rbind_val in H; destruct H as (? & _ & H)). apply rbind_val in H. destruct H as ([s2 p] & H2 & H).
  apply periodic_keeps in H. eapply same_trans; [|exact H]. clear H.
  set (s1' := if rle 1 _ || _ || _ then _ else _) in *.
  assert (S1 : same s1 s1'). { eapply same_trans; [apply (same_if_error (rle (nm x) 0) 2)|apply same_if_error]. }
  eapply same_trans; [exact S1|]. clearbody s1'. destruct (deep s1').
  - apply rbind_val in H2. destruct H2 as (q & _ & H2). injection H2 as <- _. apply same_if_error.
  - injection H2 as <- _. apply same_refl.
Qed.
Lemma sgp4_same w s s' t : same s s' -> report (sgp4 w s t) = report (sgp4 w s' t).
Proof.
  intros E. unfold sgp4.
  set (s0 := set_error 0 (set tt t s)). set (s0' := set_error 0 (set tt t s')).
  assert (E0 : same s0 s0').
  { eapply same_trans; [apply same_sym, (same_error 0)|]. eapply same_trans; [apply same_sym, (same_set tt t); reflexivity|].
    eapply same_trans; [exact E|]. eapply same_trans; [apply (same_set tt t); reflexivity|apply same_error]. }
  assert (F0 : error s0 = error s0') by reflexivity.
  assert (T0 : num s0 tt = t). { unfold s0. cbn [set_error num]. apply set_same. }
  assert (T0' : num s0' tt = t). { unfold s0'. cbn [set_error num]. apply set_same. }
  rewrite T0, T0'. clearbody s0 s0'. clear E.
  rewrite (drag_same s0 s0') by exact E0. destruct (drag_terms s0' t) as [[[[[mm0 argpm0] nodem0] tempa] tempe] templ].
  pose proof E0 as (_ & _ & C & D). agree. rewrite C. clear D.
  set (x := mkSec _ _ _ _ _ _).
  assert (R1 : rel (if deep s0' then dspace s0 t t x else Val (s0, x)) (if deep s0' then dspace s0' t t x else Val (s0', x))).
  { destruct (deep s0'); [apply dspace_same; congruence|apply rel_val; congruence]. }
  destruct (if deep s0' then dspace s0 t t x else Val (s0, x)) as [[s1 x1]| |], (if deep s0' then dspace s0' t t x else Val (s0', x)) as [[s1' x1']| |];
    cbn [rel] in R1; try contradiction; try reflexivity.
  destruct R1 as (E1 & F1 & G1 & <-). cbn [rbind]. clear C E0 F0 T0 T0'.
  destruct (fdiv (xke (getgravconst w)) (nm x1)) as [q| |]; cbn [rbind]; [|reflexivity|reflexivity].
  destruct (fpow q (2 / 3)) as [am| |]; cbn [rbind]; [|reflexivity|reflexivity].
  destruct (fpow _ 1.5) as [am15| |]; cbn [rbind]; [|reflexivity|reflexivity].
  destruct (fdiv (xke (getgravconst w)) am15) as [nm2| |]; cbn [rbind]; [|reflexivity|reflexivity].
  set (c1 := rle 1 (em x1 - tempe) || _ || _).
  set (s2 := if c1 then set_error 1 (if rle (nm x1) 0 then set_error 2 s1 else s1) else if rle (nm x1) 0 then set_error 2 s1 else s1).
  set (s2' := if c1 then set_error 1 (if rle (nm x1) 0 then set_error 2 s1' else s1') else if rle (nm x1) 0 then set_error 2 s1' else s1').
  assert (E2 : same s2 s2').
  { eapply same_trans; [apply same_sym; eapply same_trans; [apply (same_if_error (rle (nm x1) 0) 2)|apply (same_if_error c1 1)]|].
    eapply same_trans; [exact E1|]. eapply same_trans; [apply (same_if_error (rle (nm x1) 0) 2)|apply (same_if_error c1 1)]. }
  assert (F2 : error s2 = error s2'). { unfold s2, s2'. destruct c1; [reflexivity|]. destruct (rle (nm x1) 0); [reflexivity|exact F1]. }
  clearbody s2 s2'. clear E1 F1 G1 s1 s1'. pose proof E2 as (_ & _ & C & D). agree. clear D. rewrite C.
  destruct (deep s2'); cbn [rbind].
  - rewrite (dpper_same s2 s2') by exact E2. destruct (dpper s2' t _) as [p| |]; cbn [rbind]; [|reflexivity|reflexivity].
    apply periodic_same.
    + set (c := rlt _ 0 || rlt 1 _). eapply same_trans; [apply same_sym, (same_if_error c 3)|].
      eapply same_trans; [exact E2|]. apply (same_if_error c 3).
    + destruct (rlt _ 0 || rlt 1 _); [reflexivity|exact F2].
  - now apply periodic_same.
Qed.
