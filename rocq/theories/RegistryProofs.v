From Coq Require Import List ZArith Bool Arith Lia.
From Verif Require Import Base RegistryModel RegistrySpec.
Import ListNotations.
Open Scope Z_scope.

Section pr.
Context {A : Type}.
Implicit Types (r : reg A) (m : Z -> option A).

(** representation invariant *)
Record rep r m : Prop := {
  rep_some : forall k p, entry r k = Some (Some p) -> exists a, heap r p = Live a /\ m k = Some a;
  rep_none : forall k, (forall p, entry r k <> Some (Some p)) -> m k = None;
  rep_inj : forall k k' p, entry r k = Some (Some p) -> entry r k' = Some (Some p) -> k = k';
  rep_brk : forall p, (brk r <= p)%nat -> heap r p = Unallocated;
  rep_live : forall p a, heap r p = Live a -> exists k, entry r k = Some (Some p) }.

Lemma rep_empty : rep reg_empty (fun _ => None).
Proof. split; cbn; intros; try discriminate; auto. Qed.

Lemma rep_None_entry r m k : rep r m -> m k = None -> forall p, entry r k <> Some (Some p).
Proof. intros H E p E2. destruct (rep_some _ _ H k p E2) as (a & _ & E3). congruence. Qed.

Lemma rep_Some_entry r m k a : rep r m -> m k = Some a -> exists p, entry r k = Some (Some p) /\ heap r p = Live a.
Proof.
  intros H E. destruct (entry r k) as [[p|]|] eqn:E2.
  - exists p. split; [reflexivity|]. destruct (rep_some _ _ H k p E2) as (a' & L & E3). congruence.
  - rewrite (rep_none _ _ H k) in E; [discriminate|]. congruence.
  - rewrite (rep_none _ _ H k) in E; [discriminate|]. congruence.
Qed.

Lemma rep_null r m k : rep r m -> m k = None -> rep (set_entry r k (Some None)) m.
Proof.
  intros H E. pose proof (rep_None_entry r m k H E) as N. destruct H as [H1 H2 H3 H4 H5].
  split; cbn [set_entry entry heap brk].
  - intros j p. destruct (Z.eqb_spec j k) as [->|]; [discriminate|]. apply H1.
  - intros j Hj. destruct (Z.eq_dec j k) as [->|NE]; [exact E|]. apply H2. intros p.
    specialize (Hj p). destruct (Z.eqb_spec j k); [contradiction|exact Hj].
  - intros j j' p. destruct (Z.eqb_spec j k), (Z.eqb_spec j' k); try discriminate. apply H3.
  - exact H4.
  - intros p a L. destruct (H5 p a L) as (j & Hj). exists j. destruct (Z.eqb_spec j k) as [->|]; [|exact Hj].
    exfalso. exact (N p Hj).
Qed.

Lemma index_null r m k : rep r m -> m k = None ->
  index r k = (None, snd (index r k)) /\ rep (snd (index r k)) m /\ entry (snd (index r k)) k = Some None
  /\ (forall j, j <> k -> entry (snd (index r k)) j = entry r j) /\ heap (snd (index r k)) = heap r.
Proof.
  intros H E. pose proof (rep_None_entry r m k H E) as N. unfold index.
  destruct (entry r k) as [[p|]|] eqn:E2.
  - exfalso. exact (N p eq_refl).
  - cbn [snd]. repeat split; auto; try apply H.
  - cbn [snd]. split; [reflexivity|]. split; [now apply rep_null|]. cbn.
    rewrite Z.eqb_refl. repeat split; auto. intros j Hj. destruct (Z.eqb_spec j k); [contradiction|reflexivity].
Qed.
Lemma index_some r m k a : rep r m -> m k = Some a ->
  exists p, index r k = (Some p, r) /\ heap r p = Live a /\ entry r k = Some (Some p).
Proof.
  intros H E. destruct (rep_Some_entry r m k a H E) as (p & E1 & E2). exists p. unfold index. rewrite E1. auto.
Qed.

Lemma rep_connect r m k a : rep r m -> m k = None -> entry r k = Some None ->
  rep (set_entry (snd (new_cell r a)) k (Some (Some (brk r)))) (upd m k (Some a)).
Proof.
  intros H E N. destruct H as [H1 H2 H3 H4 H5]. unfold upd.
  split; cbn [new_cell snd set_entry entry heap brk].
  - intros j p. destruct (Z.eqb_spec j k) as [->|NE].
    + intros [= <-]. rewrite Nat.eqb_refl. eauto.
    + intros Ej. destruct (H1 j p Ej) as (a' & L & M). exists a'. split; [|exact M].
      destruct (Nat.eqb_spec p (brk r)) as [->|]; [|exact L]. rewrite (H4 (brk r) (Nat.le_refl _)) in L. discriminate.
  - intros j Hj. destruct (Z.eq_dec j k) as [->|NE].
    + exfalso. apply (Hj (brk r)). now rewrite Z.eqb_refl.
    + destruct (Z.eqb_spec j k) as [|_]; [contradiction|]. apply H2. exact Hj.
  - intros j j' p. destruct (Z.eqb_spec j k) as [->|NE], (Z.eqb_spec j' k) as [->|NE']; auto.
    + intros [= <-] Ej. exfalso. destruct (H1 j' _ Ej) as (a' & L & _). rewrite (H4 (brk r) (Nat.le_refl _)) in L. discriminate.
    + intros Ej [= <-]. exfalso. destruct (H1 j _ Ej) as (a' & L & _). rewrite (H4 (brk r) (Nat.le_refl _)) in L. discriminate.
    + apply H3.
  - intros p Hp. destruct (Nat.eqb_spec p (brk r)); [lia|]. apply H4. lia.
  - intros p b. destruct (Nat.eqb_spec p (brk r)) as [->|NE].
    + intros _. exists k. now rewrite Z.eqb_refl.
    + intros L. destruct (H5 p b L) as (j & Hj). exists j. destruct (Z.eqb_spec j k) as [->|]; [congruence|exact Hj].
Qed.

Lemma rep_close r m k p : rep r m -> entry r k = Some (Some p) ->
  rep (set_entry (mkReg (entry r) (fun q => if Nat.eqb q p then Freed else heap r q) (brk r)) k None) (upd m k None).
Proof.
  intros H E. destruct H as [H1 H2 H3 H4 H5]. unfold upd.
  split; cbn [set_entry entry heap brk].
  - intros j q. destruct (Z.eqb_spec j k) as [->|NE]; [discriminate|]. intros Ej.
    destruct (H1 j q Ej) as (a & L & M). exists a. split; [|exact M].
    destruct (Nat.eqb_spec q p) as [->|]; [|exact L]. exfalso. apply NE. now apply (H3 j k p).
  - intros j Hj. destruct (Z.eq_dec j k) as [->|NE]; [now rewrite Z.eqb_refl|].
    destruct (Z.eqb_spec j k) as [|_]; [contradiction|]. now apply H2.
  - intros j j' q. destruct (Z.eqb_spec j k), (Z.eqb_spec j' k); try discriminate. apply H3.
  - intros q Hq. destruct (Nat.eqb_spec q p) as [->|]; [|auto].
    destruct (H1 k p E) as (a & L & _). rewrite (H4 p Hq) in L. discriminate.
  - intros q a. destruct (Nat.eqb_spec q p) as [->|NE]; [discriminate|]. intros L.
    destruct (H5 q a L) as (j & Hj). exists j. destruct (Z.eqb_spec j k) as [->|]; [|exact Hj]. congruence.
Qed.

Lemma rep_store r m k p a a' : rep r m -> entry r k = Some (Some p) -> heap r p = Live a ->
  rep (store r p a') (upd m k (Some a')).
Proof.
  intros H E L. destruct H as [H1 H2 H3 H4 H5]. unfold upd.
  split; cbn [store entry heap brk].
  - intros j q Ej. destruct (Z.eqb_spec j k) as [->|NE].
    + assert (q = p) as -> by congruence. rewrite Nat.eqb_refl. eauto.
    + destruct (H1 j q Ej) as (b & Lb & M). exists b. split; [|exact M].
      destruct (Nat.eqb_spec q p) as [->|]; [|exact Lb]. exfalso. apply NE. now apply (H3 j k p).
  - intros j Hj. destruct (Z.eq_dec j k) as [->|NE]; [exfalso; now apply (Hj p)|].
    destruct (Z.eqb_spec j k) as [|_]; [contradiction|]. now apply H2.
  - exact H3.
  - intros q Hq. destruct (Nat.eqb_spec q p) as [->|]; [|auto]. rewrite (H4 p Hq) in L. discriminate.
  - intros q b. destruct (Nat.eqb_spec q p) as [->|NE]; [intros _; eauto|apply H5].
Qed.

(** one operation: result, representation, entries of other ids, null-entry bookkeeping *)
Lemma rstep_spec r m o : rep r m ->
  exists v r', rstep r o = Ok (v, r') /\ v = fst (spec_step m o) /\ rep r' (snd (spec_step m o)) /\
    (forall k, entry r' k = Some None <-> (refused m k o \/ (entry r k = Some None /\ snd (spec_step m o) k = None))) /\
    (forall k p, entry r k = Some (Some p) -> ~ closes k o -> entry r' k = Some (Some p)) /\
    (forall k p, entry r k = Some (Some p) -> closes k o -> heap r' p = Freed) /\
    (forall p, heap r p = Freed -> heap r' p = Freed).
Proof.
  intros H. destruct o as [k l a|k|k f|k]; cbn [rstep spec_step].
  - unfold connect. destruct (m k) as [b|] eqn:E.
    + destruct (index_some r m k b H E) as (p & I & L & Ep). rewrite I. eexists _, _.
      split; [reflexivity|]. cbn [fst snd]. split; [reflexivity|]. split; [exact H|]. split; [|cbn; tauto].
      intros j. unfold refused. split.
      * intros Ej. right. split; [exact Ej|]. apply (rep_none _ _ H). congruence.
      * intros [(Mj & Ej & _)|[Ej _]]; [subst j; congruence|exact Ej].
    + destruct (index_null r m k H E) as (I & R1 & E1 & E2 & E3). rewrite I.
      set (r1 := snd (index r k)) in *.
      destruct l.
      * cbn [new_cell]. eexists _, _. split; [reflexivity|]. cbn [fst snd]. split; [reflexivity|].
        split; [exact (rep_connect r1 m k a R1 E E1)|]. split; [|split; [|split]].
        -- intros j. unfold refused, upd. cbn [set_entry entry]. destruct (Z.eqb_spec j k) as [->|NE].
           ++ split; [discriminate|]. intros [(_ & _ & X)|[_ X]]; discriminate.
           ++ rewrite E2 by exact NE. split; [|intros [(_ & X & _)|[X _]]; [congruence|exact X]].
              intros X. right. split; [exact X|]. apply (rep_none _ _ H). congruence.
        -- intros j p Ej _. cbn [set_entry entry]. destruct (Z.eqb_spec j k) as [->|NE].
           ++ exfalso. exact (rep_None_entry r m k H E p Ej).
           ++ now rewrite E2.
        -- cbn. tauto.
        -- intros p Hp. cbn [set_entry heap]. destruct (Nat.eqb_spec p (brk r1)) as [->|]; [|now rewrite E3].
           rewrite <- E3 in Hp. rewrite (rep_brk _ _ R1 _ (Nat.le_refl _)) in Hp. discriminate.
      * eexists _, _. split; [reflexivity|]. cbn [fst snd]. split; [reflexivity|]. split; [exact R1|]. split; [|split; [|split]].
        -- intros j. unfold refused. destruct (Z.eq_dec j k) as [->|NE]; [tauto|]. rewrite E2 by exact NE.
           split; [|intros [(_ & X & _)|[X _]]; [congruence|exact X]].
           intros X. right. split; [exact X|]. apply (rep_none _ _ H). congruence.
        -- intros j p Ej _. destruct (Z.eq_dec j k) as [->|NE]; [|now rewrite E2].
           exfalso. exact (rep_None_entry r m k H E p Ej).
        -- cbn. tauto.
        -- intros p Hp. now rewrite E3.
  - unfold close. destruct (m k) as [b|] eqn:E.
    + destruct (index_some r m k b H E) as (p & I & L & Ep). rewrite I. unfold at_. rewrite Ep. cbn [bind].
      unfold delete_cell. rewrite L. cbn [bind]. eexists _, _. split; [reflexivity|]. cbn [fst snd].
      split; [reflexivity|]. split; [exact (rep_close r m k p H Ep)|]. split; [|split; [|split]].
      * intros j. unfold refused, upd. cbn [set_entry entry]. destruct (Z.eqb_spec j k) as [->|NE].
        -- split; [discriminate|]. intros [(X & _)|[X _]]; congruence.
        -- split; [|intros [(_ & X)|[X _]]; [congruence|exact X]].
           intros X. right. split; [exact X|]. apply (rep_none _ _ H). congruence.
      * intros j q Ej NC. cbn in NC. cbn [set_entry entry]. destruct (Z.eqb_spec j k) as [->|NE]; [tauto|exact Ej].
      * intros j q Ej C. cbn in C. subst j. assert (q = p) as -> by congruence. cbn. now rewrite Nat.eqb_refl.
      * intros q Hq. cbn. destruct (Nat.eqb_spec q p); [reflexivity|exact Hq].
    + destruct (index_null r m k H E) as (I & R1 & E1 & E2 & E3). rewrite I.
      eexists _, _. split; [reflexivity|]. cbn [fst snd]. split; [reflexivity|]. split; [exact R1|]. split; [|split; [|split]].
      * intros j. unfold refused. destruct (Z.eq_dec j k) as [->|NE]; [tauto|]. rewrite E2 by exact NE.
        split; [|intros [(_ & X)|[X _]]; [congruence|exact X]].
        intros X. right. split; [exact X|]. apply (rep_none _ _ H). congruence.
      * intros j p Ej _. destruct (Z.eq_dec j k) as [->|NE]; [|now rewrite E2].
        exfalso. exact (rep_None_entry r m k H E p Ej).
      * intros j p Ej C. cbn in C. subst j. exfalso. exact (rep_None_entry r m k H E p Ej).
      * intros p Hp. now rewrite E3.
  - unfold use. destruct (m k) as [b|] eqn:E.
    + destruct (index_some r m k b H E) as (p & I & L & Ep). rewrite I. unfold deref. rewrite L. cbn [bind].
      destruct (f b) as [v a'] eqn:F. eexists _, _. split; [reflexivity|]. cbn [fst snd].
      split; [reflexivity|]. split; [exact (rep_store r m k p b a' H Ep L)|]. split; [|split; [|split]].
      * intros j. unfold refused, upd. cbn [store entry].
        split; [|intros [(X & Y)|[X _]]; [congruence|exact X]].
        intros X. right. split; [exact X|]. destruct (Z.eqb_spec j k) as [->|]; [congruence|]. apply (rep_none _ _ H). congruence.
      * intros j q Ej _. exact Ej.
      * cbn. tauto.
      * intros q Hq. cbn. destruct (Nat.eqb_spec q p) as [->|]; [congruence|exact Hq].
    + destruct (index_null r m k H E) as (I & R1 & E1 & E2 & E3). rewrite I.
      eexists _, _. split; [reflexivity|]. cbn [fst snd]. split; [reflexivity|]. split; [exact R1|]. split; [|split; [|split]].
      * intros j. unfold refused. destruct (Z.eq_dec j k) as [->|NE]; [tauto|]. rewrite E2 by exact NE.
        split; [|intros [(_ & X)|[X _]]; [congruence|exact X]].
        intros X. right. split; [exact X|]. apply (rep_none _ _ H). congruence.
      * intros j p Ej _. destruct (Z.eq_dec j k) as [->|NE]; [|now rewrite E2].
        exfalso. exact (rep_None_entry r m k H E p Ej).
      * cbn. tauto.
      * intros p Hp. now rewrite E3.
  - unfold get, at_. exists 0, r.
    assert (match match entry r k with Some p => Ok p | None => Throw end with
            | Ok _ => Ok (0, r) | Throw => Ok (0, r) | UB => UB | Hang => Hang end = Ok (0, r)) as ->
      by (destruct (entry r k); reflexivity).
    cbn [fst snd]. repeat split; auto; try apply H; try (cbn; tauto).
    + intros X. right. split; [exact X|]. apply (rep_none _ _ H). congruence.
    + intros [(_ & [])|[X _]]; exact X.
Qed.

Lemma rrun_spec ops : forall r m, rep r m ->
  exists r', rrun r ops = Ok (fst (spec_run m ops), r') /\ rep r' (snd (spec_run m ops)).
Proof.
  induction ops as [|o ops IH]; intros r m H; cbn [rrun spec_run]; [eauto|].
  destruct (rstep_spec r m o H) as (v & r1 & E & V & R1 & _). rewrite E. cbn [bind].
  destruct (spec_step m o) as [v' m1]. cbn [fst snd] in *. subst v'.
  destruct (IH r1 m1 R1) as (r2 & E2 & R2). rewrite E2. cbn [bind].
  destruct (spec_run m1 ops) as [vs m2]. cbn [fst snd] in *. eauto.
Qed.

Lemma rrun_app ops1 : forall ops2 r,
  rrun r (ops1 ++ ops2) =
  let! (v1, r1) := rrun r ops1 in let! (v2, r2) := rrun r1 ops2 in Ok (v1 ++ v2, r2).
Proof.
  induction ops1 as [|o ops1 IH]; intros ops2 r; cbn [rrun app].
  - cbn [bind]. destruct (rrun r ops2) as [[v2 r2]| | |]; reflexivity.
  - destruct (rstep r o) as [[v r1]| | |]; cbn [bind]; try reflexivity. rewrite IH.
    destruct (rrun r1 ops1) as [[v1 r2]| | |]; cbn [bind]; try reflexivity.
    destruct (rrun r2 ops2) as [[v2 r3]| | |]; reflexivity.
Qed.

Lemma keep_pointer ops : forall r m k p, rep r m -> entry r k = Some (Some p) -> Forall (fun o => ~ closes k o) ops ->
  exists vs r', rrun r ops = Ok (vs, r') /\ entry r' k = Some (Some p).
Proof.
  induction ops as [|o ops IH]; intros r m k p H E F; cbn [rrun]; [eauto|].
  inversion F as [|x y NC F']; subst.
  destruct (rstep_spec r m o H) as (v & r1 & E1 & _ & R1 & _ & K & _). rewrite E1. cbn [bind].
  destruct (IH r1 _ k p R1 (K k p E NC) F') as (vs & r2 & E2 & E3). rewrite E2. cbn [bind]. eauto.
Qed.

Lemma freed_stays ops : forall r m p, rep r m -> heap r p = Freed ->
  exists vs r', rrun r ops = Ok (vs, r') /\ heap r' p = Freed.
Proof.
  induction ops as [|o ops IH]; intros r m p H E; cbn [rrun]; [eauto|].
  destruct (rstep_spec r m o H) as (v & r1 & E1 & _ & R1 & _ & _ & _ & K). rewrite E1. cbn [bind].
  destruct (IH r1 _ p R1 (K p E)) as (vs & r2 & E2 & E3). rewrite E2. cbn [bind]. eauto.
Qed.
End pr.

(** I2C target registers *)
Lemma write_registers_spec data : forall t a, 0 <= a -> a + Z.of_nat (length data) <= max_reg t -> max_reg t <= 256 ->
  max_reg (write_registers t a data) = max_reg t /\
  forall j, registers (write_registers t a data) j =
    if (a <=? j) && (j <? a + Z.of_nat (length data)) then nth (Z.to_nat (j - a)) data 0 else registers t j.
Proof.
  induction data as [|d data IH]; intros t a Ha Hl Hm; cbn [write_registers length].
  - split; [reflexivity|]. intros j. destruct (Z.leb_spec a j), (Z.ltb_spec j (a + Z.of_nat 0)); cbn [andb]; try reflexivity; lia.
  - cbn [length] in Hl. rewrite Z.mod_small by lia.
    assert (W : write_register t a d = mkTarget (max_reg t) a (frames t) (fun j => if j =? a then d else registers t j) (command t)).
    { unfold write_register. destruct (Z.leb_spec (max_reg t) a); [lia|reflexivity]. }
    rewrite W. destruct (IH (mkTarget (max_reg t) a (frames t) (fun j => if j =? a then d else registers t j) (command t)) (a + 1))
      as (M & Hr); cbn [max_reg]; try lia.
    split; [exact M|]. intros j. rewrite Hr. cbn [registers].
    destruct (Z.leb_spec a j), (Z.leb_spec (a + 1) j), (Z.ltb_spec j (a + 1 + Z.of_nat (length data))),
      (Z.ltb_spec j (a + Z.of_nat (S (length data)))); cbn [andb]; try lia; try reflexivity;
      destruct (Z.eqb_spec j a) as [E|E]; try lia; try reflexivity; try (subst j; now rewrite Z.sub_diag);
      replace (Z.to_nat (j - a)) with (S (Z.to_nat (j - (a + 1)))) by lia; reflexivity.
Qed.

Lemma read_registers_spec n : forall t a, 0 <= a -> a + Z.of_nat n <= max_reg t -> max_reg t <= 256 ->
  fst (read_registers t a n) = map (fun i => registers t (a + Z.of_nat i)) (seq 0 n) /\
  registers (snd (read_registers t a n)) = registers t.
Proof.
  induction n as [|n IH]; intros t a Ha Hl Hm; cbn [read_registers]; [split; reflexivity|].
  rewrite Z.mod_small by lia. unfold read_register. destruct (Z.leb_spec (max_reg t) a); [lia|].
  set (t1 := mkTarget (max_reg t) a (frames t) (registers t) (command t)).
  destruct (IH t1 (a + 1)) as (E1 & E2); cbn [t1 max_reg]; try lia.
  destruct (read_registers t1 (a + 1) n) as [vs t2]. cbn [fst snd] in *. rewrite E1. split; [|exact E2].
  cbn [seq map]. rewrite Z.add_0_r. f_equal. rewrite <- seq_shift, map_map. apply map_ext. intros i. cbn [t1 registers].
  f_equal. lia.
Qed.
