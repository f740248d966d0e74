From Coq Require Import Reals Lra Lia List Bool Arith ZArith String.
From Verif Require Import Base RBase VecModel VecProofs QuatModel QuatSpec QuatProofs AttitudeSpec AttitudeProofs CelestialModel CelestialSpec.
Import ListNotations.
Open Scope R_scope.

Lemma aset_spec a i x : (i < List.length a)%nat -> exists b, aset a i x = Ok b /\ List.length b = List.length a /\
  nth_error b i = Some x /\ forall k, k <> i -> nth_error b k = nth_error a k.
Proof.
  intro H. unfold aset. rewrite (proj2 (Nat.ltb_lt _ _) H). eexists. split; [reflexivity|].
  assert (F : List.length (firstn i a) = i) by (rewrite firstn_length; lia). split; [|split].
  - rewrite app_length. cbn [List.length]. rewrite F, skipn_length. lia.
  - rewrite nth_error_app2 by lia. rewrite F, Nat.sub_diag. reflexivity.
  - intros k K. destruct (Nat.lt_ge_cases k i) as [L|L].
    + rewrite nth_error_app1 by lia. rewrite nth_error_firstn. now rewrite (proj2 (Nat.ltb_lt _ _) L).
    + rewrite nth_error_app2 by lia. rewrite F. destruct (k - i)%nat as [|m] eqn:E; [lia|]. cbn [nth_error]. rewrite nth_error_skipn. f_equal. lia.
Qed.
Lemma aset3_spec a i v : (3 * i + 2 < List.length a)%nat -> exists b, aset3 a i v = Ok b /\ List.length b = List.length a /\
  holds b i v /\ forall k, (k < 3 * i \/ 3 * i + 2 < k)%nat -> nth_error b k = nth_error a k.
Proof.
  intro H. unfold aset3. destruct (aset_spec a (i * 3) (v 0%nat)) as (b & E & L & G & K); [lia|]. rewrite E. cbn [bind].
  destruct (aset_spec b (i * 3 + 1) (v 1%nat)) as (c & E1 & L1 & G1 & K1); [lia|]. rewrite E1. cbn [bind].
  destruct (aset_spec c (i * 3 + 2) (v 2%nat)) as (d & E2 & L2 & G2 & K2); [lia|]. exists d. split; [exact E2|]. split; [lia|]. split.
  - intros j Hj. destruct j as [|[|[|j]]]; [| | |lia].
    + rewrite K2, K1 by lia. rewrite <- G. f_equal. lia.
    + rewrite K2 by lia. rewrite <- G1. f_equal. lia.
    + rewrite <- G2. f_equal. lia.
  - intros k Hk. rewrite K2, K1, K by lia. reflexivity.
Qed.
Lemma aget3_holds a i v : holds a i v -> exists u, aget3 a i = Ok u /\ veq 3 u v.
Proof.
  intro H. pose proof (H 0%nat ltac:(lia)) as H0. pose proof (H 1%nat ltac:(lia)) as H1. pose proof (H 2%nat ltac:(lia)) as H2.
  unfold aget3, aget. replace (3 * i + 0)%nat with (i * 3)%nat in H0 by lia. rewrite H0. cbn [bind]. replace (i * 3 + 1)%nat with (3 * i + 1)%nat by lia. rewrite H1. cbn [bind].
  replace (i * 3 + 2)%nat with (3 * i + 2)%nat by lia. rewrite H2. cbn [bind]. eexists. split; [reflexivity|]. intros j Hj. destruct j as [|[|[|j]]]; [reflexivity..|lia].
Qed.
Lemma holds_some a i : (3 * i + 2 < List.length a)%nat -> exists v, holds a i v /\ aget3 a i = Ok v.
Proof.
  intro H. assert (X : forall k, (k < 3)%nat -> exists x, nth_error a (3 * i + k) = Some x). { intros k K. destruct (nth_error a (3 * i + k)) eqn:E; [eauto|]. apply nth_error_None in E. lia. }
  destruct (X 0%nat ltac:(lia)) as [x0 E0]. destruct (X 1%nat ltac:(lia)) as [x1 E1]. destruct (X 2%nat ltac:(lia)) as [x2 E2].
  assert (HH : holds a i (v3 x0 x1 x2)). { intros j Hj. destruct j as [|[|[|j]]]; [exact E0|exact E1|exact E2|lia]. }
  exists (v3 x0 x1 x2). split; [exact HH|]. unfold aget3, aget. replace (3 * i + 0)%nat with (i * 3)%nat in E0 by lia. rewrite E0. cbn [bind].
  replace (i * 3 + 1)%nat with (3 * i + 1)%nat by lia. rewrite E1. cbn [bind]. replace (i * 3 + 2)%nat with (3 * i + 2)%nat by lia. rewrite E2. reflexivity.
Qed.
Lemma holds_ext a i u v : holds a i u -> veq 3 u v -> holds a i v.
Proof. intros H E j Hj. rewrite H by exact Hj. now rewrite E. Qed.
Lemma holds_unique a i u v : holds a i u -> holds a i v -> veq 3 u v.
Proof. intros H E j Hj. specialize (H j Hj). specialize (E j Hj). congruence. Qed.
Lemma for_upto_inv {A} (I : nat -> A -> Prop) (body : nat -> A -> outcome A) n s :
  I 0%nat s -> (forall i s, (i < n)%nat -> I i s -> exists s', body i s = Ok s' /\ I (S i) s') -> exists s', for_upto n body s = Ok s' /\ I n s'.
Proof.
  intros I0. induction n as [|n IH]; intro H; [exists s; now split|]. destruct IH as (s1 & E & I1). { intros i s1 L. apply H. lia. }
  destruct (H n s1 ltac:(lia) I1) as (s2 & E2 & I2). exists s2. cbn [for_upto]. rewrite E. cbn [bind]. now split.
Qed.
Lemma from_center_in g a i : (i < n_bodies g)%nat -> from_center g a i = aget3 a i.
Proof. intro H. unfold from_center. now rewrite (proj2 (Nat.ltb_ge _ _)) by lia. Qed.
Lemma index_of_some p ids : forall i, index_of p ids = Some i <-> nth_error ids i = Some p /\ forall k, (k < i)%nat -> nth_error ids k <> Some p.
Proof.
  induction ids as [|z l IH]; intro i; cbn [index_of].
  - split; [discriminate|]. intros [H _]. destruct i; discriminate.
  - destruct (Z.eqb_spec z p) as [->|NE].
    + split. * intro H. injection H as <-. split; [reflexivity|]. intros k K. lia.
      * intros [H1 H2]. destruct i as [|i]; [reflexivity|]. exfalso. exact (H2 0%nat ltac:(lia) eq_refl).
    + destruct i as [|i].
      * split. -- destruct (index_of p l); discriminate. -- intros [H _]. cbn in H. congruence.
      * rewrite <- (Nat.add_1_l i). cbn [Nat.add nth_error]. split.
        -- destruct (index_of p l) as [k|] eqn:E; [|discriminate]. cbn. intro H. injection H as ->. destruct (proj1 (IH i) eq_refl) as [H1 H2]. split; [exact H1|]. intros [|k] K; cbn; [congruence|]. apply H2. lia.
        -- intros [H1 H2]. rewrite (proj2 (IH i)). ++ reflexivity. ++ split; [exact H1|]. intros k K. exact (H2 (S k) ltac:(lia)).
Qed.
Lemma selected_index naif g name i : selected_at naif g name i -> body_index naif g name = Ok i /\ (i < n_bodies g)%nat.
Proof.
  intros (p & N & E & F). unfold body_index. rewrite N. rewrite (proj2 (index_of_some p (body_ids g) i) (conj E F)). split; [reflexivity|]. apply nth_error_Some. congruence.
Qed.

(** the loop of UpdateAllObjectsInformation *)
Lemma update_local_spec g sp sv q w l : well_sized g -> local_sized g l -> exists l', update_local g sp sv q w l = Ok l' /\ local_sized g l' /\
  forall i r v, (i < n_bodies g)%nat -> holds (body_pos g) i r -> holds (body_vel g) i v ->
    holds (ps_i l') i (vsub r sp) /\ holds (vs_i l') i (vsub v sv) /\ holds (pc_b l') i (frame_conversion q r) /\ holds (ps_b l') i (frame_conversion q (vsub r sp)) /\
    holds (vc_b l') i (velocity_to_body r v q w) /\ holds (vs_b l') i (velocity_to_body (vsub r sp) (vsub v sv) q w).
Proof.
  intros (LP & LV & _) LS. set (n := n_bodies g) in *. unfold update_local. fold n.
  destruct (for_upto_inv (fun m l => local_sized g l /\ forall i r v, (i < m)%nat -> holds (body_pos g) i r -> holds (body_vel g) i v -> holds (ps_i l) i (vsub r sp) /\ holds (vs_i l) i (vsub v sv))
    (fun i l => let! r := from_center g (body_pos g) i in let! v := from_center g (body_vel g) i in let! p := aset3 (ps_i l) i (vsub r sp) in let! v := aset3 (vs_i l) i (vsub v sv) in Ok (mkLocal (pc_b l) (vc_b l) p v (ps_b l) (vs_b l))) n l) as (l1 & E1 & LS1 & P1).
  { split; [exact LS|]. intros i r v H. lia. }
  { intros m s Hm [LSs Ps]. destruct (holds_some (body_pos g) m ltac:(lia)) as (r & HR & ER). destruct (holds_some (body_vel g) m ltac:(lia)) as (v & HV & EV).
    rewrite !from_center_in by exact Hm. rewrite ER, EV. cbn [bind]. assert (L1 : List.length (ps_i s) = (3 * n)%nat) by (apply LSs; cbn; tauto). assert (L2 : List.length (vs_i s) = (3 * n)%nat) by (apply LSs; cbn; tauto).
    destruct (aset3_spec (ps_i s) m (vsub r sp) ltac:(lia)) as (a & EA & LA & HA & KA). rewrite EA. cbn [bind].
    destruct (aset3_spec (vs_i s) m (vsub v sv) ltac:(lia)) as (b & EB & LB & HB & KB). rewrite EB. cbn [bind]. eexists. split; [reflexivity|]. split.
    - intros x X. unfold local_sized in LSs. cbn [pc_b vc_b ps_i vs_i ps_b vs_b In] in X. fold n. destruct X as [<-|[<-|[<-|[<-|[<-|[<-|[]]]]]]]; try (apply LSs; cbn; tauto); lia.
    - cbn [ps_i vs_i]. intros i r' v' Hi Hr Hv. destruct (Nat.eq_dec i m) as [->|NE].
      + split; [apply (holds_ext _ _ _ _ HA)|apply (holds_ext _ _ _ _ HB)]; intros j Hj; unfold vsub; f_equal; [exact (holds_unique _ _ _ _ HR Hr j Hj)|exact (holds_unique _ _ _ _ HV Hv j Hj)].
      + destruct (Ps i r' v' ltac:(lia) Hr Hv) as [A B]. split; intros j Hj; [rewrite KA by lia; now apply A|rewrite KB by lia; now apply B]. }
  rewrite E1. cbn [bind]. unfold calc_all_b. fold n.
  set (P := fun (l' : local_celestial) i => forall r v, holds (body_pos g) i r -> holds (body_vel g) i v -> holds (pc_b l') i (frame_conversion q r) /\ holds (ps_b l') i (frame_conversion q (vsub r sp)) /\
    holds (vc_b l') i (velocity_to_body r v q w) /\ holds (vs_b l') i (velocity_to_body (vsub r sp) (vsub v sv) q w)).
  match goal with |- exists l', for_upto n ?body l1 = _ /\ _ => destruct (for_upto_inv (fun m l => local_sized g l /\ ps_i l = ps_i l1 /\ vs_i l = vs_i l1 /\ forall i, (i < m)%nat -> P l i) body n l1) as (l2 & E2 & LS2 & PI2 & VI2 & P2) end.
  { split; [exact LS1|]. split; [reflexivity|]. split; [reflexivity|]. intros i H. lia. }
  { intros m s Hm (LSs & PIs & VIs & Ps). destruct (holds_some (body_pos g) m ltac:(lia)) as (r & HR & ER). destruct (holds_some (body_vel g) m ltac:(lia)) as (v & HV & EV).
    rewrite !from_center_in by exact Hm. rewrite ER, EV. cbn [bind]. destruct (P1 m r v Hm HR HV) as [H1 H2].
    destruct (aget3_holds (ps_i s) m (vsub r sp)) as (r2 & ER2 & R2); [rewrite PIs; exact H1|]. destruct (aget3_holds (vs_i s) m (vsub v sv)) as (v2 & EV2 & V2); [rewrite VIs; exact H2|]. rewrite ER2, EV2. cbn [bind].
    assert (SZ : forall a, In a [pc_b s; vc_b s; ps_i s; vs_i s; ps_b s; vs_b s] -> (3 * m + 2 < List.length a)%nat). { intros a Ha. rewrite (LSs a Ha). fold n. lia. }
    destruct (aset3_spec (pc_b s) m (frame_conversion q r)) as (a & EA & LA & HA & KA); [apply SZ; cbn; tauto|]. rewrite EA. cbn [bind].
    destruct (aset3_spec (ps_b s) m (frame_conversion q r2)) as (b & EB & LB & HB & KB); [apply SZ; cbn; tauto|]. rewrite EB. cbn [bind].
    destruct (aset3_spec (vc_b s) m (velocity_to_body r v q w)) as (c & EC & LC & HC & KC); [apply SZ; cbn; tauto|]. rewrite EC. cbn [bind].
    destruct (aset3_spec (vs_b s) m (velocity_to_body r2 v2 q w)) as (d & ED & LD & HD & KD); [apply SZ; cbn; tauto|]. rewrite ED. cbn [bind]. eexists. split; [reflexivity|]. split; [|split; [exact PIs|split; [exact VIs|]]].
    - intros x X. cbn [pc_b vc_b ps_i vs_i ps_b vs_b In] in X. destruct X as [<-|[<-|[<-|[<-|[<-|[<-|[]]]]]]]; rewrite ?LA, ?LB, ?LC, ?LD; apply LSs; cbn; tauto.
    - intros i Hi. unfold P. cbn [pc_b vc_b ps_b vs_b]. intros r' v' Hr Hv. destruct (Nat.eq_dec i m) as [->|NE].
      + pose proof (holds_unique _ _ _ _ HR Hr) as RR. pose proof (holds_unique _ _ _ _ HV Hv) as VV.
        assert (FC : forall x y, veq 3 x y -> veq 3 (frame_conversion q x) (frame_conversion q y)). { intros x y XY j Hj. rewrite !frame_dcm by exact Hj. unfold mvec. rewrite !sumn3, !XY by lia. reflexivity. }
        assert (CX : forall x y, veq 3 x y -> veq 3 (cross w x) (cross w y)). { intros x y XY j Hj. unfold cross. pose proof (XY 0%nat ltac:(lia)). pose proof (XY 1%nat ltac:(lia)). pose proof (XY 2%nat ltac:(lia)). destruct j as [|[|[|j]]]; [cbn [v3]; congruence..|lia]. }
        split; [|split; [|split]].
        * apply (holds_ext _ _ _ _ HA). now apply FC.
        * apply (holds_ext _ _ _ _ HB). apply FC. intros j Hj. rewrite R2 by exact Hj. unfold vsub. now rewrite RR.
        * apply (holds_ext _ _ _ _ HC). unfold velocity_to_body. apply FC. intros j Hj. unfold vsub. rewrite VV by exact Hj. now rewrite (CX r r').
        * apply (holds_ext _ _ _ _ HD). unfold velocity_to_body. apply FC. intros j Hj. unfold vsub at 1. unfold vsub at 2. rewrite V2 by exact Hj. rewrite (CX r2 (vsub r' sp)); [|intros k Hk; rewrite R2 by exact Hk; unfold vsub; now rewrite RR|exact Hj]. unfold vsub. now rewrite VV.
      + destruct (Ps i ltac:(lia) r' v' Hr Hv) as (A & B & C & D). repeat split; intros j Hj; [rewrite KA by lia; now apply A|rewrite KB by lia; now apply B|rewrite KC by lia; now apply C|rewrite KD by lia; now apply D]. }
  exists l2. split; [exact E2|]. split; [exact LS2|]. intros i r v Hi Hr Hv. destruct (P1 i r v Hi Hr Hv) as [A B]. rewrite PI2, VI2. split; [exact A|]. split; [exact B|]. exact (P2 i Hi r v Hr Hv).
Qed.

(** d/dt of the body-frame components of a moving vector *)
Lemma dpl_ext f g t d : (forall s, f s = g s) -> derivable_pt_lim f t d -> derivable_pt_lim g t d.
Proof. intros E H eps P. destruct (H eps P) as [de D]. exists de. intros h H0 H1. rewrite <- !E. now apply D. Qed.
Lemma turning_entry w q t i j : turns_with w q -> (i < 3)%nat -> (j < 3)%nat ->
  derivable_pt_lim (fun s => to_dcm (q s) i j) t (- cross (w t) (fun k => to_dcm (q t) k j) i).
Proof.
  intros T Hi Hj. set (e := (fun k => if Nat.eqb j k then 1 else 0) : vec).
  assert (EN : forall (m : mat) k, mvec 3 m e k = m k j). { intros m k. unfold mvec, e. rewrite sumn3. destruct j as [|[|[|j]]]; cbn [Nat.eqb]; [ring..|lia]. }
  apply (dpl_ext (fun s => seen_from_body (q s) e i)); [intro s; apply EN|]. eapply dpl_eq; [apply T; exact Hi|]. unfold seen_from_body. f_equal. i3 i Hi; cbn [cross v3]; now rewrite !EN.
Qed.
Lemma moving_seen (w : R -> vec) (q : R -> quat) (r v : R -> vec) t i : turns_with w q ->
  (forall j, (j < 3)%nat -> derivable_pt_lim (fun s => r s j) t (v t j)) -> (i < 3)%nat ->
  derivable_pt_lim (fun s => seen_from_body (q s) (r s) i) t (seen_from_body (q t) (v t) i - cross (w t) (seen_from_body (q t) (r t)) i).
Proof.
  intros T D Hi. unfold seen_from_body, mvec.
  eapply dpl_eq; [apply (dpl_sumn 3 (fun s j => to_dcm (q s) i j * r s j) t (fun j => - cross (w t) (fun k => to_dcm (q t) k j) i * r t j + to_dcm (q t) i j * v t j))|].
  - intros j Hj. eapply dpl_eq; [apply dpl_mult; [now apply (turning_entry w q)|now apply D]|cbv beta; ring].
  - rewrite !sumn3. i3 i Hi; cbn [cross v3]; rewrite !sumn3; ring.
Qed.
