From Coq Require Import Reals Lra Lia List Bool Arith ZArith Ascii String.
From Verif Require Import Base RBase VecModel StringModel SensorModel CompInitModel CelestialModel CelestialSpec CelestialProofs ShadowModel EnvModel EnvSpec DisturbanceModel DisturbanceSpec GravityModel
  EarthRotModel AtmosphereModel EnvInitModel.
Import ListNotations.
Open Scope list_scope.
Open Scope R_scope.

Lemma Forall2_length {A B} (P : A -> B -> Prop) l m : Forall2 P l m -> List.length l = List.length m.
Proof. induction 1; cbn; congruence. Qed.
Lemma id_list_ok naif names ids : body_id_list naif names = Ok ids <->
  Forall2 (fun n p => (String.length n < 30)%nat /\ naif n = Some p) names ids.
Proof.
  revert ids. induction names as [|n l IH]; intros ids; cbn [body_id_list].
  - split; [intros E; injection E as <-; constructor|intros E; now inversion E].
  - destruct (Nat.leb_spec 30 (String.length n)).
    + split; [discriminate|]. intros F. inversion F as [|? ? ? ? [A _]]. lia.
    + destruct (naif n) as [p|] eqn:N.
      * split.
        -- destruct (body_id_list naif l) as [r| | |] eqn:E; try discriminate. cbn [bind]. intros Q. injection Q as <-. constructor; [split; [lia|exact N]|now apply IH].
        -- intros F. inversion F as [|? q ? r [A B] C]; subst. apply IH in C. rewrite C. cbn [bind]. congruence.
      * split; [discriminate|]. intros F. inversion F as [|? q ? r [A B] C]; subst. congruence.
Qed.
Lemma id_list_fail naif names : (forall ids, body_id_list naif names <> Ok ids) ->
  exists pre n post ids, names = pre ++ n :: post /\ body_id_list naif pre = Ok ids /\
    (((30 <= String.length n)%nat /\ body_id_list naif names = UB) \/ ((String.length n < 30)%nat /\ naif n = None /\ body_id_list naif names = Throw)).
Proof.
  induction names as [|n l IH]; intros H; [exfalso; now apply (H [])|].
  cbn [body_id_list] in H. destruct (Nat.leb_spec 30 (String.length n)) as [L|L].
  - exists [], n, l, []. split; [reflexivity|]. split; [reflexivity|]. left. split; [exact L|]. cbn [body_id_list]. now rewrite (proj2 (Nat.leb_le _ _) L).
  - destruct (naif n) as [p|] eqn:N.
    + destruct IH as (pre & m & post & ids & E & P & F).
      { intros ids Q. rewrite Q in H. cbn [bind] in H. now apply (H (p :: ids)). }
      exists (n :: pre), m, post, (p :: ids). split; [cbn; now f_equal|]. 
      assert (L' : (30 <=? String.length n)%nat = false) by (apply Nat.leb_gt; exact L).
      split; [cbn [body_id_list]; now rewrite L', N, P|].
      cbn [body_id_list]. rewrite L', N. destruct F as [[A B]|(A & B & C)]; [left|right]; rewrite ?B, ?C; auto.
    + exists [], n, l, []. split; [reflexivity|]. split; [reflexivity|]. right. split; [exact L|]. split; [exact N|]. cbn [body_id_list].
      rewrite (proj2 (Nat.leb_gt _ _) L), N. reflexivity.
Qed.

Lemma first_index (p : Z) ids : In p ids -> exists i, nth_error ids i = Some p /\ forall k, (k < i)%nat -> nth_error ids k <> Some p.
Proof.
  induction ids as [|q l IH]; [intros []|]. intros H. destruct (Z.eq_dec q p) as [->|N].
  - exists 0%nat. split; [reflexivity|]. intros k K. lia.
  - destruct H as [H|H]; [congruence|]. destruct (IH H) as (i & A & B). exists (S i). split; [exact A|]. intros [|k] K; cbn; [congruence|]. apply B. lia.
Qed.
Lemma rd_names_length f sec key n : List.length (rd_names f sec key n) = n.
Proof. unfold rd_names. now rewrite map_length, seq_length. Qed.
Lemma rd_names_nth f sec key n i : (i < n)%nat -> nth_error (rd_names f sec key n) i = Some (rd_name f sec (element key i)).
Proof.
  intros H. unfold rd_names. rewrite nth_error_map. assert (E : nth_error (seq 0 n) i = Some i).
  { rewrite (nth_error_nth' _ 0%nat) by (now rewrite seq_length). now rewrite seq_nth. }
  now rewrite E.
Qed.

Section celestial.
Context (naif : string -> option Z) (radii_km : Z -> R * R * R) (garbage : nat -> R).
Notation init := (init_celestial naif radii_km garbage).
Lemma index_known g n p : naif n = Some p -> exists i, body_index naif g n = Ok i.
Proof. intros N. unfold body_index. rewrite N. eauto. Qed.
Lemma rotation_ok g modes n p : naif n = Some p -> List.length modes = n_bodies g -> exists w, rotation_mode naif g modes n = Ok w.
Proof.
  intros N L. unfold rotation_mode. destruct (index_known g n p N) as (i & E). rewrite E. cbn [bind].
  destruct (Nat.leb_spec (n_bodies g) i); [eauto|]. destruct (nth_error modes i) eqn:M; [eauto|]. apply nth_error_None in M. lia.
Qed.
End celestial.
