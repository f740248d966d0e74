From Coq Require Import Reals Lra Lia List Bool Arith ZArith.
From Verif Require Import Base RBase VecModel LuModel InterpModel InterpSpec InterpProofs InterpProps TimeSeriesModel TimeSeriesSpec TimeSeriesProofs GnssSatModel GnssSatSpec.
Import ListNotations.
Open Scope R_scope.

Lemma rows_of_length sat f : length (file_rows sat f) = length (f_epochs f).
Proof. unfold file_rows. now rewrite map_length, seq_length. Qed.
Lemma nth_file_row sat f i : (i < length (f_epochs f))%nat ->
  nth i (file_rows sat f) row0 = (let e := nth i (nth sat (f_pc f) []) ((0, 0, 0), 0) in mkRow (nth i (f_epochs f) 0) (metres e) (snd e, 0, 0)).
Proof.
  intros H. unfold file_rows. set (h := fun i => _). rewrite (nth_indep _ row0 (h 0%nat)) by (rewrite map_length, seq_length; exact H).
  rewrite (map_nth h). now rewrite seq_nth.
Qed.
Lemma all_length files s1 s2 : length (all_rows files s1) = length (all_rows files s2).
Proof. unfold all_rows. induction files as [|f r IH]; [reflexivity|]. cbn [flat_map]. rewrite !app_length, !rows_of_length. lia. Qed.
Lemma all_T files s1 s2 i : T (all_rows files s1) i = T (all_rows files s2) i.
Proof.
  unfold T. revert i. induction files as [|f r IH]; intros i; [reflexivity|]. unfold all_rows in *. cbn [flat_map].
  destruct (Nat.lt_ge_cases i (length (f_epochs f))) as [H|H].
  - rewrite !app_nth1 by (rewrite rows_of_length; exact H). now rewrite !nth_file_row.
  - rewrite !app_nth2 by (rewrite rows_of_length; exact H). rewrite !rows_of_length. apply IH.
Qed.
Lemma offset_S files i f : nth_error files i = Some f -> offset files (S i) = (offset files i + length (f_epochs f))%nat.
Proof.
  unfold offset. revert i. induction files as [|g r IH]; intros i H; [now destruct i|]. destruct i as [|i].
  - injection H as ->. cbn [firstn]. unfold all_rows. cbn [flat_map]. rewrite app_nil_r, rows_of_length. reflexivity.
  - cbn [nth_error] in H. specialize (IH i H). change (firstn (S (S i)) (g :: r)) with (g :: firstn (S i) r). change (firstn (S i) (g :: r)) with (g :: firstn i r).
    unfold all_rows in *. cbn [flat_map]. rewrite !app_length, !rows_of_length. lia.
Qed.
Lemma offset_end files : offset files (length files) = length (all_rows files 0).
Proof. unfold offset. now rewrite firstn_all. Qed.
Lemma offset_row files sat i f k : nth_error files i = Some f -> (k < length (f_epochs f))%nat ->
  nth (offset files i + k) (all_rows files sat) row0 = nth k (file_rows sat f) row0 /\ (offset files i + k < length (all_rows files sat))%nat.
Proof.
  unfold offset. revert i. induction files as [|g r IH]; intros i H K; [now destruct i|]. destruct i as [|i].
  - injection H as ->. cbn [firstn]. unfold all_rows. cbn [flat_map length]. rewrite app_nth1 by (rewrite rows_of_length; lia). rewrite app_length, rows_of_length. split; [reflexivity|lia].
  - cbn [nth_error] in H. specialize (IH i H K). destruct IH as (IH & IL). cbn [firstn]. unfold all_rows in *. cbn [flat_map]. rewrite !app_length, !rows_of_length.
    rewrite app_nth2 by (rewrite rows_of_length; lia). rewrite rows_of_length. split; [|lia].
    replace (length (f_epochs g) + length (flat_map (file_rows 0) (firstn i r)) + k - length (f_epochs g))%nat with (length (flat_map (file_rows 0) (firstn i r)) + k)%nat by lia. exact IH.
Qed.

Lemma upd_list_map {A} (h : nat -> A) n id x : (id < n)%nat -> upd_list (map h (seq 0 n)) id x = map (fun s => if Nat.eqb s id then x else h s) (seq 0 n).
Proof.
  intros H. unfold upd_list. apply (nth_ext _ _ x x).
  - rewrite !app_length, firstn_length, skipn_length, !map_length, !seq_length. cbn [length]. lia.
  - intros i Hi. rewrite !app_length, firstn_length, skipn_length, !map_length, !seq_length in Hi. cbn [length] in Hi.
    assert (i < n)%nat by lia. set (h' := fun s => if Nat.eqb s id then x else h s).
    rewrite (nth_indep (map h' (seq 0 n)) x (h' 0%nat)) by (rewrite map_length, seq_length; lia). rewrite (map_nth h'), seq_nth by lia. cbn [Nat.add]. unfold h'.
    destruct (Nat.lt_trichotomy i id) as [Q|[Q|Q]].
    + rewrite app_nth1 by (rewrite firstn_length, map_length, seq_length; lia). rewrite (proj2 (Nat.eqb_neq i id)) by lia.
      assert (FN : forall (l : list A) k j, (j < k)%nat -> nth j (firstn k l) x = nth j l x).
      { intros l k. revert l. induction k as [|k IHk]; intros l j Hj; [lia|]. destruct l as [|a l]; [now destruct j|]. destruct j as [|j]; [reflexivity|]. cbn [firstn nth]. apply IHk. lia. }
      rewrite FN by lia. rewrite (nth_indep _ x (h 0%nat)) by (rewrite map_length, seq_length; lia). rewrite (map_nth h), seq_nth by lia. reflexivity.
    + subst i. rewrite Nat.eqb_refl. rewrite app_nth2; rewrite firstn_length, map_length, seq_length; [|lia]. replace (id - Nat.min id n)%nat with 0%nat by lia. reflexivity.
    + rewrite (proj2 (Nat.eqb_neq i id)) by lia. rewrite app_nth2; rewrite firstn_length, map_length, seq_length; [|lia]. replace (i - Nat.min id n)%nat with (S (i - S id)) by lia. cbn [app nth].
      assert (SN : forall (l : list A) k j, nth j (skipn k l) x = nth (k + j) l x).
      { intros l k. revert l. induction k as [|k IHk]; intros l j; [reflexivity|]. destruct l as [|a l]; [now destruct j|]. cbn [skipn Nat.add nth]. apply IHk. }
      rewrite SN. replace (S id + (i - S id))%nat with i by lia. rewrite (nth_indep _ x (h 0%nat)) by (rewrite map_length, seq_length; lia). rewrite (map_nth h), seq_nth by lia. reflexivity.
Qed.
Lemma nth_error_map_seq {A} (h : nat -> A) n id : (id < n)%nat -> nth_error (map h (seq 0 n)) id = Some (h id).
Proof. intros H. rewrite nth_error_map. rewrite (nth_error_nth' _ 0%nat) by (rewrite seq_length; lia). rewrite seq_nth by lia. reflexivity. Qed.
Lemma repeat_map_seq {A} (x : A) n : repeat x n = map (fun _ => x) (seq 0 n).
Proof. generalize 0%nat. induction n as [|n IH]; intros k; [reflexivity|]. cbn [repeat seq map]. f_equal. apply IH. Qed.

(** pushing epoch ref_id of file f into every satellite *)
Lemma push_sats_ok f n id0 ref_time t0 ts (ps : nat -> list (R * R * R)) (ks : nat -> list R) (tt : R) :
  complete n f -> (id0 < length (f_epochs f))%nat -> tt = nth id0 (f_epochs f) 0 ->
  (forall s, (s < n)%nat -> ps s <> []) -> (forall s, (s < n)%nat -> ks s <> []) ->
  last (t0 :: ts) 0 < tt - ref_time ->
  forall count id, (id + count = n)%nat ->
  push_sats count id f id0 ref_time
    (map (fun s => if (s <? id)%nat then o3 9 (ts ++ [tt - ref_time]) (tl (ps s) ++ [metres (nth id0 (nth s (f_pc f) []) ((0, 0, 0), 0))]) else o3 9 (t0 :: ts) (ps s)) (seq 0 n))
    (map (fun s => if (s <? id)%nat then mkInterp (ts ++ [tt - ref_time]) (tl (ks s) ++ [snd (nth id0 (nth s (f_pc f) []) ((0, 0, 0), 0))]) 9 else mkInterp (t0 :: ts) (ks s) 9) (seq 0 n))
  = Ok (map (fun s => o3 9 (ts ++ [tt - ref_time]) (tl (ps s) ++ [metres (nth id0 (nth s (f_pc f) []) ((0, 0, 0), 0))])) (seq 0 n),
        map (fun s => mkInterp (ts ++ [tt - ref_time]) (tl (ks s) ++ [snd (nth id0 (nth s (f_pc f) []) ((0, 0, 0), 0))]) 9) (seq 0 n)).
Proof.
  intros (C1 & C2 & C3 & C4) HI HT HP HK HL. induction count as [|count IH]; intros id E; cbn [push_sats].
  - f_equal. f_equal; apply map_ext_in; intros s Hs; apply in_seq in Hs; rewrite (proj2 (Nat.ltb_lt _ _)) by lia; reflexivity.
  - unfold epoch_at. rewrite (nth_error_nth' _ 0) by exact HI. cbn [bind]. rewrite <- HT.
    unfold position_clock. rewrite (proj2 (Nat.leb_gt _ _)) by lia. rewrite (proj2 (Nat.leb_gt _ _)) by lia. cbn [orb].
    rewrite (@nth_error_nth' pc _ _ ((0, 0, 0), 0)) by (rewrite C4; lia). cbn [bind].
    destruct (nth id0 (nth id (f_pc f) []) ((0, 0, 0), 0)) as [[[x y] z] clk] eqn:Ee. cbv beta iota.
    rewrite !nth_error_map_seq by lia. cbv beta. rewrite Nat.ltb_irrefl. cbv iota.
    destruct (ps id) as [|p0 pt] eqn:Ep; [exfalso; now apply (HP id ltac:(lia))|]. rewrite o3_push by exact HL. cbn [bind].
    destruct (ks id) as [|k0 kt] eqn:Ek; [exfalso; now apply (HK id ltac:(lia))|]. unfold push_and_pop. cbn [xs ys degree].
    destruct (rle_spec (tt - ref_time) (last (t0 :: ts) 0)) as [Q|Q]; [lra|]. cbn [bind].
    rewrite !upd_list_map by lia. rewrite <- (IH (S id)) by lia. f_equal; apply map_ext_in; intros s Hs; apply in_seq in Hs.
    + destruct (Nat.eqb_spec s id) as [->|NE].
      * rewrite (proj2 (Nat.ltb_lt _ _)) by lia. rewrite Ep. cbn [tl]. rewrite Ee. reflexivity.
      * destruct (Nat.ltb_spec s id); destruct (Nat.ltb_spec s (S id)); try lia; reflexivity.
    + destruct (Nat.eqb_spec s id) as [->|NE].
      * rewrite (proj2 (Nat.ltb_lt _ _)) by lia. rewrite Ek. cbn [tl]. rewrite Ee. reflexivity.
      * destruct (Nat.ltb_spec s id); destruct (Nat.ltb_spec s (S id)); try lia; reflexivity.
Qed.

(** the place of the next sample in the table *)
Definition at_row (files : list sp3) (file id G : nat) : Prop :=
  (exists f, nth_error files file = Some f /\ (id < length (f_epochs f))%nat /\ G = (offset files file + id)%nat) \/
  (file = length files /\ id = 0%nat /\ G = length (all_rows files 0)).
(** padded window: the k rows from r0 preceded by the initial filling *)
Definition wts (files : list sp3) (t0 : R) (r0 k : nat) : list R := repeat (-1) (9 - k) ++ rel t0 (rows_from (all_rows files 0) r0 k).
Definition wps (files : list sp3) (r0 k s : nat) : list (R * R * R) := repeat (0, 0, 0) (9 - k) ++ map r_pos (rows_from (all_rows files s) r0 k).
Definition wks (files : list sp3) (r0 k s : nat) : list R := repeat (-1) (9 - k) ++ map clock_us (rows_from (all_rows files s) r0 k).
Definition GInv (g : gnss) (files : list sp3) (n r0 k : nat) : Prop :=
  g_files g = files /\ g_nsat g = n /\ at_row files (g_file g) (g_ref_id g) (r0 + k) /\ (k <= 9)%nat /\ (r0 + k <= length (all_rows files 0))%nat /\
  g_orbit g = map (fun s => o3 9 (wts files (g_ref_time g) r0 k) (wps files r0 k s)) (seq 0 n) /\
  g_clock g = map (fun s => mkInterp (wts files (g_ref_time g) r0 k) (wks files r0 k s) 9) (seq 0 n).

Lemma rel_same files s t0 r0 k : (r0 + k <= length (all_rows files 0))%nat -> rel t0 (rows_from (all_rows files s) r0 k) = rel t0 (rows_from (all_rows files 0) r0 k).
Proof.
  intros B. assert (B' : (r0 + k <= length (all_rows files s))%nat) by (rewrite (all_length files s 0); exact B).
  apply (nth_ext _ _ 0 0); unfold rel; [rewrite !map_length, !rows_length by lia; reflexivity|].
  intros i Hi. rewrite map_length, rows_length in Hi by lia. rewrite !(nth_indep _ 0 ((fun r => r_time r - t0) row0)) by (rewrite map_length, rows_length; lia).
  rewrite !(map_nth (fun r => r_time r - t0)). rewrite !nth_rows by lia. pose proof (all_T files s 0 (r0 + i)) as Q. unfold T in Q. now rewrite Q.
Qed.

Lemma at_row_next files n file id G f : (forall f, In f files -> complete n f) -> nth_error files file = Some f -> (id < length (f_epochs f))%nat -> G = (offset files file + id)%nat ->
  let '(file', id') := if (f_nepoch f <=? S id)%nat then (S file, 0%nat) else (file, S id) in at_row files file' id' (S G).
Proof.
  intros HC HF HI HG. destruct (HC f (nth_error_In _ _ HF)) as (C1 & C2 & _). rewrite C2.
  destruct (Nat.leb_spec (length (f_epochs f)) (S id)) as [L|L].
  - pose proof (offset_S files file f HF) as OS. destruct (nth_error files (S file)) as [f'|] eqn:E.
    + left. exists f'. split; [exact E|]. destruct (HC f' (nth_error_In _ _ E)) as (C1' & _). split; [exact C1'|]. lia.
    + right. apply nth_error_None in E. assert (file < length files)%nat by (apply nth_error_Some; congruence). assert (H0 : S file = length files) by lia.
      split; [exact H0|]. split; [reflexivity|]. pose proof (offset_end files) as OE. rewrite <- H0 in OE. lia.
  - left. exists f. split; [exact HF|]. split; [lia|lia].
Qed.

(** the window after one more sample *)
Lemma pad_push {A} (d : A) (f : row -> A) data r0 k : (k <= 9)%nat -> (r0 + k < length data)%nat ->
  tl (repeat d (9 - k) ++ map f (rows_from data r0 k)) ++ [f (nth (r0 + k) data row0)]
  = if (k <? 9)%nat then repeat d (9 - S k) ++ map f (rows_from data r0 (S k)) else map f (rows_from data (S r0) 9).
Proof.
  intros K B. destruct (Nat.ltb_spec k 9) as [L|L].
  - replace (9 - k)%nat with (S (9 - S k)) by lia. cbn [repeat app tl]. rewrite <- app_assoc. f_equal. rewrite <- rows_snoc by exact B. now rewrite map_app.
  - assert (k = 9%nat) as -> by lia. cbn [Nat.sub repeat app]. rewrite (rows_cons data r0 8) by lia. cbn [map tl].
    transitivity (map f (rows_from data (S r0) (S 8))); [|reflexivity]. rewrite <- (rows_snoc data (S r0) 8) by lia. rewrite map_app. cbn [map].
    replace (S r0 + 8)%nat with (r0 + 9)%nat by lia. reflexivity.
Qed.
Lemma pad_nonempty {A} (d : A) (f : row -> A) data r0 k : (k <= 9)%nat -> (r0 + k < length data)%nat -> repeat d (9 - k) ++ map f (rows_from data r0 k) <> [].
Proof.
  intros K B E. apply (f_equal (@length A)) in E. rewrite app_length, repeat_length, map_length, rows_length in E by lia. cbn [length] in E. lia.
Qed.

Lemma gnss_push_ok g files n r0 k t0 : (forall f, In f files -> complete n f) -> sorted (all_rows files 0) -> g_ref_time g = t0 ->
  T (all_rows files 0) r0 >= t0 -> GInv g files n r0 k -> (r0 + k < length (all_rows files 0))%nat ->
  exists g', gnss_push g = Ok g' /\ GInv g' files n (if (k <? 9)%nat then r0 else S r0) (if (k <? 9)%nat then S k else 9) /\ g_ref_time g' = t0 /\ g_current g' = g_current g.
Proof.
  intros HC SD HR HT (F & N & AT & K & B & GO & GC) L. destruct AT as [(f & HF & HI & HG)|(_ & _ & HG)]; [|lia].
  unfold gnss_push. rewrite F, HF, N, GO, GC, HR in *. pose proof (HC f (nth_error_In _ _ HF)) as CF.
  set (id0 := g_ref_id g) in *. set (tt := nth id0 (f_epochs f) 0).
  assert (ROW : forall s, nth (r0 + k) (all_rows files s) row0 = nth id0 (file_rows s f) row0) by (intros s; rewrite HG; apply (offset_row files s _ f); assumption).
  assert (ETT : T (all_rows files 0) (r0 + k) = tt) by (unfold T; rewrite ROW, nth_file_row by exact HI; reflexivity).
  assert (EP : forall s, r_pos (nth (r0 + k) (all_rows files s) row0) = metres (nth id0 (nth s (f_pc f) []) ((0, 0, 0), 0))) by (intros s; rewrite ROW, nth_file_row by exact HI; reflexivity).
  assert (EK : forall s, clock_us (nth (r0 + k) (all_rows files s) row0) = snd (nth id0 (nth s (f_pc f) []) ((0, 0, 0), 0))) by (intros s; rewrite ROW, nth_file_row by exact HI; reflexivity).
  assert (BS : forall s, (r0 + k < length (all_rows files s))%nat) by (intros s; rewrite (all_length files s 0); exact L).
  destruct (wts files t0 r0 k) as [|u0 us] eqn:EW; [exfalso; apply (pad_nonempty (-1) (fun r => r_time r - t0) (all_rows files 0) r0 k K L); exact EW|].
  assert (LT : last (u0 :: us) 0 < tt - t0).
  { rewrite <- EW, <- ETT. unfold wts. destruct k as [|k].
    - rewrite Nat.add_0_r. unfold rel, rows_from. cbn [firstn map Nat.sub]. rewrite app_nil_r. cbn. lra.
    - unfold rel. assert (NE : map (fun r => r_time r - t0) (rows_from (all_rows files 0) r0 (S k)) <> []).
      { intros E. apply (f_equal (@length R)) in E. rewrite map_length, rows_length in E by lia. cbn in E. lia. }
      assert (LA : forall (a b : list R), b <> [] -> last (a ++ b) 0 = last b 0).
      { induction a as [|x a IHa]; intros b Hb; [reflexivity|]. cbn [app]. specialize (IHa b Hb). destruct (a ++ b) eqn:Q; [apply app_eq_nil in Q; now destruct Q|]. exact IHa. }
      rewrite LA by exact NE. rewrite (last_map _ _ row0) by (intros E; apply NE; now rewrite E). rewrite last_rows by lia.
      assert (T (all_rows files 0) (r0 + S k - 1) < T (all_rows files 0) (r0 + S k)) by (apply SD; lia). unfold T in *. lra. }
  pose proof (push_sats_ok f n id0 t0 u0 us (wps files r0 k) (wks files r0 k) tt CF HI eq_refl) as PS.
  assert (P1 : forall s, (s < n)%nat -> wps files r0 k s <> []) by (intros s _; apply pad_nonempty; [exact K|apply BS]).
  assert (P2 : forall s, (s < n)%nat -> wks files r0 k s <> []) by (intros s _; apply pad_nonempty; [exact K|apply BS]).
  specialize (PS P1 P2 LT n 0%nat eq_refl).
  assert (Z : forall s, (s <? 0)%nat = false) by (intros s; reflexivity). 
  match type of PS with push_sats _ _ _ _ _ ?a ?b = _ =>
    replace a with (map (fun s => o3 9 (u0 :: us) (wps files r0 k s)) (seq 0 n)) in PS by (apply map_ext; intros s; reflexivity);
    replace b with (map (fun s => mkInterp (u0 :: us) (wks files r0 k s) 9) (seq 0 n)) in PS by (apply map_ext; intros s; reflexivity) end.
  rewrite PS. cbn [bind]. clear PS.
  pose proof (at_row_next files n (g_file g) id0 (r0 + k) f HC HF HI HG) as AN.
  destruct (if (f_nepoch f <=? S id0)%nat then (S (g_file g), 0%nat) else (g_file g, S id0)) as [fl ix0].
  eexists. split; [reflexivity|]. split; [|split; reflexivity]. unfold GInv. cbn [g_files g_nsat g_file g_ref_id g_ref_time g_orbit g_clock].
  assert (RK : ((if (k <? 9)%nat then r0 else S r0) + (if (k <? 9)%nat then S k else 9) = S (r0 + k))%nat) by (destruct (Nat.ltb_spec k 9); lia).
  rewrite RK. split; [reflexivity|]. split; [reflexivity|]. split; [exact AN|]. split; [destruct (Nat.ltb_spec k 9); lia|]. split; [lia|].
  assert (W1 : us ++ [tt - t0] = wts files t0 (if (k <? 9)%nat then r0 else S r0) (if (k <? 9)%nat then S k else 9)).
  { pose proof (pad_push (-1) (fun r => r_time r - t0) (all_rows files 0) r0 k K L) as Q. unfold wts, rel in EW |- *. rewrite EW in Q. cbn [tl] in Q.
    change (r_time (nth (r0 + k) (all_rows files 0) row0)) with (T (all_rows files 0) (r0 + k)) in Q. rewrite ETT in Q. rewrite Q. destruct (k <? 9)%nat; reflexivity. }
  split; apply map_ext; intros s.
  - rewrite W1. f_equal. rewrite <- EP. unfold wps. rewrite (pad_push (0, 0, 0) r_pos (all_rows files s) r0 k K (BS s)). destruct (k <? 9)%nat; reflexivity.
  - rewrite W1. f_equal. rewrite <- EK. unfold wks. rewrite (pad_push (-1) clock_us (all_rows files s) r0 k K (BS s)). destruct (k <? 9)%nat; reflexivity.
Qed.
Lemma gnss_push_end g files n r0 k : GInv g files n r0 k -> (forall f, In f files -> complete n f) -> (r0 + k = length (all_rows files 0))%nat -> gnss_push g = UB.
Proof.
  intros (F & N & AT & K & B & GO & GC) HC L. destruct AT as [(f & HF & HI & HG)|(HF & _ & _)].
  - exfalso. destruct (offset_row files 0 _ f _ HF HI) as (_ & Q). lia.
  - unfold gnss_push. rewrite F, HF. rewrite (proj2 (nth_error_None files (length files))) by lia. reflexivity.
Qed.
Lemma gnss_fill_ok g files n r0 k t0 c : (forall f, In f files -> complete n f) -> sorted (all_rows files 0) -> g_ref_time g = t0 ->
  T (all_rows files 0) r0 >= t0 -> GInv g files n r0 k -> (k + c = 9)%nat ->
  if (r0 + 9 <=? length (all_rows files 0))%nat then exists g', gnss_fill c g = Ok g' /\ GInv g' files n r0 9 /\ g_ref_time g' = t0 /\ g_current g' = g_current g
  else gnss_fill c g = UB.
Proof.
  intros HC SD. revert g k. induction c as [|c IH]; intros g k HR HT GI E; cbn [gnss_fill].
  - assert (k = 9%nat) as -> by lia. destruct GI as (? & ? & ? & ? & ? & ?). destruct (Nat.leb_spec (r0 + 9) (length (all_rows files 0))); [|lia].
    exists g. split; [reflexivity|]. split; [repeat split; tauto|]. split; [exact HR|reflexivity].
  - destruct (Nat.lt_ge_cases (r0 + k) (length (all_rows files 0))) as [L|L].
    + destruct (gnss_push_ok g files n r0 k t0 HC SD HR HT GI L) as (g' & Ep & GI' & HR' & HC'). rewrite Ep. cbn [bind].
      rewrite (proj2 (Nat.ltb_lt k 9)) in GI' by lia. specialize (IH g' (S k) HR' HT GI' ltac:(lia)). rewrite HC' in IH. exact IH.
    + assert (Q : (r0 + k = length (all_rows files 0))%nat) by (destruct GI as (_ & _ & _ & _ & B & _); lia).
      rewrite (gnss_push_end g files n r0 k GI HC Q). cbn [bind]. rewrite (proj2 (Nat.leb_gt _ _)) by lia. reflexivity.
Qed.

(** ** choice of the file *)
Lemma current_file_from files i0 t : forall i, current_file files i0 t = Some i <-> (i0 <= i)%nat /\ covers files t (i - i0) /\ True.
Proof.
  revert i0. induction files as [|f r IH]; intros i0 i; cbn [current_file].
  - split; [discriminate|]. intros (_ & (f & H & _) & _). destruct (i - i0)%nat; discriminate.
  - destruct (rlt_spec (t - f_start f) 0) as [A|A].
    + split; [discriminate|]. intros (_ & (g & H & B & C) & _). exfalso. destruct (i - i0)%nat as [|k]; [injection H as <-; lra|]. specialize (C 0%nat f ltac:(lia) eq_refl). lra.
    + destruct (rlt_spec (t - f_start f) 86400) as [B|B].
      * split.
        -- intros E. injection E as <-. split; [lia|]. rewrite Nat.sub_diag. split; [|exact I]. exists f. split; [reflexivity|]. split; [lra|]. intros j g Hj. lia.
        -- intros (L & (g & H & D & C) & _). destruct (i - i0)%nat as [|k] eqn:E; [f_equal; lia|]. specialize (C 0%nat f ltac:(lia) eq_refl). lra.
      * rewrite IH. split.
        -- intros (L & (g & H & D & C) & _). split; [lia|]. split; [|exact I]. exists g. replace (i - i0)%nat with (S (i - S i0)) by lia. split; [exact H|]. split; [exact D|].
           intros j g' Hj Hn. destruct j as [|j]; [injection Hn as <-; lra|]. apply (C j); [lia|exact Hn].
        -- intros (L & (g & H & D & C) & _). destruct (i - i0)%nat as [|k] eqn:E; [injection H as <-; lra|]. split; [lia|]. split; [|exact I].
           exists g. replace (i - S i0)%nat with k by lia. split; [exact H|]. split; [exact D|]. intros j g' Hj Hn. apply (C (S j)); [lia|exact Hn].
Qed.
Lemma current_file_covers files t i : current_file files 0 t = Some i <-> covers files t i.
Proof. rewrite current_file_from. rewrite Nat.sub_0_r. split; [tauto|]. intros H. repeat split; [lia|exact H]. Qed.

(** ** the nearest epoch *)
Lemma nearest_unique f t a b : nearest_epoch f t a -> nearest_epoch f t b -> a = b.
Proof.
  intros (LA & HA) (LB & HB). destruct (Nat.eq_dec a b) as [E|N]; [exact E|]. exfalso.
  destruct (HA b LB ltac:(lia)) as [P|(P & P')]; destruct (HB a LA ltac:(lia)) as [Q|(Q & Q')]; try lra; lia.
Qed.
Lemma abs_le_cases x y : 0 <= y -> (- y <= x <= y <-> Rabs x <= y).
Proof. intros H. split; [intros (A & B); apply Rabs_le; lra|]. intros A. pose proof (Rle_abs x). pose proof (Rle_abs (- x)). rewrite Rabs_Ropp in *. lra. Qed.
Lemma search_nearest_ok f t : (0 < length (f_epochs f))%nat -> f_nepoch f = length (f_epochs f) -> even f ->
  exists m, search_epoch f t = Ok m /\ nearest_epoch f t m.
Proof.
  intros HL HN (HP & EV). unfold search_epoch. set (h := f_interval f) in *. set (L := length (f_epochs f)) in *. set (e0 := nth 0 (f_epochs f) 0) in *.
  rewrite (nth_error_nth' _ 0) by lia. fold e0. rewrite HN.
  destruct (rlt_spec t e0) as [A|A].
  { exists 0%nat. split; [reflexivity|]. split; [lia|]. intros k Hk Nk. fold L in Hk. left. rewrite (EV k Hk). fold e0.
    assert (0 < INR k * h) by (apply Rmult_lt_0_compat; [apply lt_0_INR; lia|exact HP]). rewrite !Rabs_left by lra. lra. }
  rewrite (nth_error_nth' _ 0) by lia. pose proof (EV (L - 1)%nat ltac:(lia)) as EL. rewrite EL.
  destruct (rlt_spec (e0 + INR (L - 1) * h) t) as [B|B].
  { exists (L - 1)%nat. split; [reflexivity|]. split; [lia|]. intros k Hk Nk. fold L in Hk. left. rewrite EL, (EV k Hk).
    assert (INR k * h < INR (L - 1) * h) by (apply Rmult_lt_compat_r; [exact HP|apply lt_INR; lia]). rewrite !Rabs_pos_eq by lra. lra. }
  set (x := (t - e0) / h). assert (TX : t = e0 + x * h) by (unfold x; field; lra).
  assert (X0 : 0 <= x) by (unfold x; apply Rmult_le_pos; [lra|left; apply Rinv_0_lt_compat; exact HP]).
  assert (X1 : x <= INR (L - 1)). { apply (Rmult_le_reg_r h); [exact HP|]. lra. }
  set (z := Int_part (x + / 2)). destruct (base_Int_part (x + / 2)) as (Z1 & Z2). fold z in Z1, Z2.
  assert (ZP : (0 <= z)%Z). { apply (Zlt_succ_le 0 z). apply lt_IZR. rewrite succ_IZR. lra. }
  set (m := Z.to_nat z). assert (EM : INR m = IZR z) by (unfold m; rewrite INR_IZR_INZ, Z2Nat.id by exact ZP; reflexivity).
  assert (ML : (m <= L - 1)%nat). { destruct (Nat.le_gt_cases m (L - 1)) as [Q|Q]; [exact Q|]. exfalso. assert (INR (S (L - 1)) <= INR m) by (apply le_INR; lia). rewrite S_INR in *. lra. }
  exists m. split; [reflexivity|]. split; [fold L; lia|]. intros k Hk Nk. fold L in Hk. rewrite (EV m) by (fold L; lia). rewrite (EV k Hk). fold e0.
  replace (t - (e0 + INR m * h)) with ((x - INR m) * h) by (rewrite TX; ring). replace (t - (e0 + INR k * h)) with ((x - INR k) * h) by (rewrite TX; ring).
  rewrite !Rabs_mult, (Rabs_pos_eq h) by lra.
  destruct (Nat.lt_trichotomy k m) as [Q|[Q|Q]]; [|lia|].
  - assert (INR k + 1 <= INR m) by (rewrite <- S_INR; apply le_INR; lia). rewrite (Rabs_pos_eq (x - INR k)) by lra.
    assert (AB : Rabs (x - INR m) <= x - INR k) by (apply Rabs_le; lra). destruct (Rle_lt_or_eq_dec _ _ AB) as [C|C]; [left; apply Rmult_lt_compat_r; lra|right; split; [now rewrite C|lia]].
  - assert (INR m + 1 <= INR k) by (rewrite <- S_INR; apply le_INR; lia). left. apply Rmult_lt_compat_r; [exact HP|]. rewrite (Rabs_left (x - INR k)) by lra. apply Rabs_def1; lra.
Qed.

(** ** construction, updates, queries *)
Lemma at_row_start files n i f k : (forall f, In f files -> complete n f) -> nth_error files i = Some f -> (k < length (f_epochs f))%nat ->
  at_row files i k (offset files i + k) /\ T (all_rows files 0) (offset files i + k) = nth k (f_epochs f) 0 /\ (offset files i + k < length (all_rows files 0))%nat.
Proof.
  intros HC HF HK. destruct (offset_row files 0 i f k HF HK) as (E & B). split; [left; exists f; auto|]. split; [|exact B].
  unfold T. rewrite E, nth_file_row by exact HK. reflexivity.
Qed.
Lemma init_ok files n t i f m : (forall f, In f files -> complete n f) -> sorted (all_rows files 0) ->
  nth_error files i = Some f -> covers files t i -> f_nsat f = n -> even f -> nearest_epoch f t m ->
  let start := (offset files i + (m - 4))%nat in
  if (start + 9 <=? length (all_rows files 0))%nat
  then exists g, gnss_init files t = Ok (Some g) /\ GInv g files n start 9 /\ g_ref_time g = T (all_rows files 0) start /\ g_current g = t
  else gnss_init files t = UB.
Proof.
  intros HC SD HF CV NS EV NE start. unfold gnss_init. destruct files as [|f0 fr]; [destruct i; discriminate|]. set (files := f0 :: fr) in *. unfold files at 3. fold files.
  pose proof (proj2 (current_file_covers files t i) CV) as CF. rewrite CF, HF. pose proof (HC f (nth_error_In _ _ HF)) as (C1 & C2 & C3 & C4).
  destruct (search_nearest_ok f t C1 C2 EV) as (m' & SE & NE'). rewrite (nearest_unique f t m' m NE' NE) in SE. rewrite SE. cbn [bind].
  assert (RI : (if (4 <=? m)%nat then (m - 4)%nat else 0%nat) = (m - 4)%nat) by (destruct (Nat.leb_spec 4 m); lia). rewrite RI.
  assert (MK : (m - 4 < length (f_epochs f))%nat) by (destruct NE; lia).
  destruct (at_row_start files n i f (m - 4)%nat HC HF MK) as (AR & ET & BB). fold start in AR, ET, BB.
  unfold epoch_at. rewrite (nth_error_nth' _ 0) by exact MK. cbn [bind]. rewrite <- ET, NS.
  set (g0 := mkGnss files n i (T (all_rows files 0) start) (m - 4) t (repeat (orbit_interpolation 9) n) (repeat (interpolation (repeat (-1) 9) (repeat (-1) 9)) n)).
  assert (G0 : GInv g0 files n start 0).
  { unfold GInv, g0. cbn [g_files g_nsat g_file g_ref_id g_ref_time g_orbit g_clock]. rewrite Nat.add_0_r. split; [reflexivity|]. split; [reflexivity|]. split; [exact AR|].
    split; [lia|]. split; [lia|]. rewrite !repeat_map_seq. split; apply map_ext; intros s; unfold wts, wps, wks, rel, rows_from; cbn [firstn map]; rewrite !app_nil_r; [apply o3_init|reflexivity]. }
  pose proof (gnss_fill_ok g0 files n start 0 (T (all_rows files 0) start) 9 HC SD eq_refl ltac:(lra) G0 eq_refl) as FO.
  destruct (start + 9 <=? length (all_rows files 0))%nat.
  - destruct FO as (g & E & GI & RT & CU). rewrite E. cbn [bind]. exists g. split; [reflexivity|]. split; [exact GI|]. split; [exact RT|exact CU].
  - rewrite FO. reflexivity.
Qed.
Definition set_current (g : gnss) (t : R) : gnss := mkGnss (g_files g) (g_nsat g) (g_file g) (g_ref_time g) (g_ref_id g) t (g_orbit g) (g_clock g).
Lemma update_ok g files n r0 t0 t : (forall f, In f files -> complete n f) -> sorted (all_rows files 0) -> (0 < n)%nat -> g_ref_time g = t0 ->
  T (all_rows files 0) r0 >= t0 -> GInv g files n r0 9 ->
  let w := advance (all_rows files 0) 4 r0 t in
  if (length (all_rows files 0) <? w + 9)%nat then gnss_update g t = UB
  else exists g', gnss_update g t = Ok g' /\ GInv g' files n w 9 /\ g_ref_time g' = t0 /\ g_current g' = t.
Proof.
  intros HC SD HN HR HT GI w. pose proof GI as (F & N & AT & K & B & GO & GC). rewrite HR in GO.
  unfold gnss_update. fold (set_current g t). assert (GI' : GInv (set_current g t) files n r0 9) by exact GI.
  change (g_ref_time (set_current g t)) with (g_ref_time g). change (g_orbit (set_current g t)) with (g_orbit g). rewrite GO, HR.
  destruct n as [|n]; [lia|]. cbn [seq map]. cbn [time_list o3 fst xs]. unfold wts. cbn [Nat.sub repeat app].
  change (time_list (o3 9 (rel t0 (rows_from (all_rows files 0) r0 9)) (wps files r0 9 0))) with (rel t0 (rows_from (all_rows files 0) r0 9)).
  rewrite nth_error_rel by lia. unfold advance in w.
  destruct (Rlt_dec (T (all_rows files 0) (r0 + 4)) t) as [A|A].
  - destruct (rlt_spec (T (all_rows files 0) (r0 + 4) - t0) (t - t0)) as [Q|Q]; [|lra]. unfold w.
    destruct (Nat.ltb_spec (length (all_rows files 0)) (S r0 + 9)) as [L|L].
    + apply (gnss_push_end _ files (S n) r0 9 GI' HC). lia.
    + destruct (gnss_push_ok (set_current g t) files (S n) r0 9 t0 HC SD HR HT GI' ltac:(lia)) as (g' & E & GI2 & RT & CU). exists g'. split; [exact E|]. split; [exact GI2|]. split; [exact RT|exact CU].
  - destruct (rlt_spec (T (all_rows files 0) (r0 + 4) - t0) (t - t0)) as [Q|Q]; [lra|]. unfold w. rewrite (proj2 (Nat.ltb_ge _ _)) by lia.
    exists (set_current g t). split; [reflexivity|]. split; [exact GI'|]. split; [exact HR|reflexivity].
Qed.
Lemma updates_ok files n t0 ts : (forall f, In f files -> complete n f) -> sorted (all_rows files 0) -> (0 < n)%nat ->
  forall g r0, g_ref_time g = t0 -> T (all_rows files 0) r0 >= t0 -> GInv g files n r0 9 ->
  match walk (all_rows files 0) 9 4 r0 ts with
  | None => gnss_updates g ts = UB
  | Some w => exists g', gnss_updates g ts = Ok g' /\ GInv g' files n w 9 /\ g_ref_time g' = t0 /\ g_current g' = last ts (g_current g)
  end.
Proof.
  intros HC SD HN. induction ts as [|t ts IH]; intros g r0 HR HT GI; cbn [walk gnss_updates].
  - exists g. split; [reflexivity|]. split; [exact GI|]. split; [exact HR|reflexivity].
  - pose proof (update_ok g files n r0 t0 t HC SD HN HR HT GI) as U. cbv zeta in U.
    destruct (Nat.ltb_spec (length (all_rows files 0)) (advance (all_rows files 0) 4 r0 t + 9)) as [L|L].
    + rewrite U. reflexivity.
    + destruct U as (g' & E & GI' & RT & CU). rewrite E. cbn [bind].
      assert (HT' : T (all_rows files 0) (advance (all_rows files 0) 4 r0 t) >= t0).
      { unfold advance in *. destruct (Rlt_dec _ _); [|exact HT]. assert (T (all_rows files 0) r0 < T (all_rows files 0) (S r0)) by (apply SD; lia). lra. }
      specialize (IH g' _ RT HT' GI'). destruct (walk _ 9 4 _ ts) as [w|]; [|exact IH]. destruct IH as (g2 & E2 & G2 & R2 & C2). exists g2. split; [exact E2|]. split; [exact G2|]. split; [exact R2|].
      rewrite C2, CU. clear. destruct ts as [|b ts]; [reflexivity|]. revert b. induction ts as [|c ts IH]; intros b; [reflexivity|]. change (last (c :: ts) t = last (c :: ts) (g_current g)). apply IH.
Qed.
Lemma serves_ok g files n start w now : sorted (all_rows files 0) -> GInv g files n w 9 -> g_ref_time g = T (all_rows files 0) start -> g_current g = now ->
  serves g files n start w now.
Proof.
  intros SD (F & N & AT & K & B & GO & GC) HR HCu. unfold serves. intros sat time u HU. set (t0 := T (all_rows files 0) start) in *.
  assert (TG : target g time = u) by (unfold target; now rewrite HU, HCu).
  unfold gnss_position, gnss_clock. rewrite N, HR, TG. split; [|split; [|split]].
  - intros L. rewrite (proj2 (Nat.ltb_lt _ _) L). split; reflexivity.
  - intros Q. assert (OO : rlt (u - t0) 0 || rlt 1000000 (u - t0) = true).
    { destruct (rlt_spec (u - t0) 0); [reflexivity|]. destruct (rlt_spec 1000000 (u - t0)); [reflexivity|]. destruct Q; lra. }
    rewrite OO. destruct (n <? sat)%nat; split; reflexivity.
  - intros Q ->. rewrite Nat.ltb_irrefl. destruct (rlt_spec (u - t0) 0); [lra|]. destruct (rlt_spec 1000000 (u - t0)); [lra|]. cbn [orb].
    rewrite GO, GC. rewrite !(proj2 (nth_error_None _ _)) by (rewrite map_length, seq_length; lia). split; reflexivity.
  - intros Q L. rewrite (proj2 (Nat.ltb_ge _ _)) by lia. destruct (rlt_spec (u - t0) 0); [lra|]. destruct (rlt_spec 1000000 (u - t0)); [lra|]. cbn [orb].
    rewrite GO, GC, HR. rewrite !nth_error_map_seq by exact L. unfold wts, wps, wks. cbn [Nat.sub repeat app].
    assert (BS : (w + 9 <= length (all_rows files sat))%nat) by (rewrite (all_length files sat 0); exact B).
    pose proof (rel_NoDup (all_rows files 0) w 9 t0 SD B) as ND. rewrite <- (rel_same files sat t0 w 9 B) in ND |- *.
    assert (RL : length (rows_from (all_rows files sat) w 9) = 9%nat) by (apply rows_length; exact BS).
    destruct (o3_trigonometric (rows_from (all_rows files sat) w 9) r_pos t0 u 9 (86400 * 1003 / 1000) RL ltac:(lia)) as (p & EP & TP).
    destruct (axis_value (rows_from (all_rows files sat) w 9) clock_us t0 u) as (c & EC & IC); [intros E; rewrite E in RL; discriminate|exact ND|]. rewrite RL in EC.
    exists p, (c * / 1000000), c. replace (24 * 60 * 60 * (1003 / 1000)) with (86400 * 1003 / 1000) by field. split; [exact EP|]. split; [exact TP|]. rewrite EC. cbn [bind]. split; [reflexivity|]. split; [reflexivity|exact IC].
Qed.
