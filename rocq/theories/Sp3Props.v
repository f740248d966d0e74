(** C123-C124: reading SP3 files. *)
From Coq Require Import String Reals List Bool Arith ZArith Ascii Lia Lra.
From Verif Require Import Base StringModel GnssSatModel GnssSatSpec Sp3Model Sp3Spec Sp3Proofs.
Import ListNotations.
Open Scope nat_scope.

(** ** C123: a position file is read completely *)
(** a line gives an entry exactly when it says one; otherwise an exception leaves the reader *)
Theorem C123_position_line : forall L l,
  (forall e, decode_position L l = Ok e <-> says L l e) /\
  ((forall e, ~ says L l e) -> decode_position L l = Throw).
Proof.
  intros L l. split; [intros e; apply decode_says|]. intros H. destruct (decode_cases L l) as [E|(e & E)]; [exact E|]. exfalso. apply decode_says in E. exact (H e E).
Qed.
Print Assumptions C123_position_line.
(** a velocity and clock rate line is accepted exactly when its four numbers, and beyond 60 characters the deviations in columns 61, 63, 65 and 70, are numbers *)
Theorem C123_velocity_line : forall L l,
  (decode_velocity L l = Ok tt <-> 46 <= length l /\ Forall (fun p => numeric L (field l p 14)) [4; 18; 32; 46] /\
    (length l <= 60 \/ 70 <= length l /\ Forall (fun p => numeric L (field l p 2)) [61; 63; 65] /\ numeric L (field l 70 3))) /\
  (decode_velocity L l <> Ok tt -> decode_velocity L l = Throw).
Proof.
  intros L l. split.
  - unfold decode_velocity. split.
    + intros H. apply bind_ok in H as (id & Hid & H). apply bind_ok in H as (x & Hx & H). apply bind_ok in H as (y & Hy & H).
      apply bind_ok in H as (z & Hz & H). apply bind_ok in H as (c & Hc & H). apply stod_at_inv in Hx as [_ Hx], Hy as [_ Hy], Hz as [_ Hz], Hc as [B Hc].
      split; [exact B|]. split; [repeat constructor; eexists; eassumption|]. destruct (Nat.ltb_spec 60 (length l)) as [Hl|Hl]; [right|left; exact Hl].
      apply bind_ok in H as (s1 & D1 & H). apply bind_ok in H as (s2 & D2 & H). apply bind_ok in H as (s3 & D3 & H). apply bind_ok in H as (s4 & D4 & H).
      apply stod_at_inv in D1 as [_ D1], D2 as [_ D2], D3 as [_ D3], D4 as [B4 D4]. split; [exact B4|]. split; [repeat constructor; eexists; eassumption|eexists; exact D4].
    + intros (B & F & D). apply Forall_cons_iff in F as [(x & Hx) F]. apply Forall_cons_iff in F as [(y & Hy) F]. apply Forall_cons_iff in F as [(z & Hz) F]. apply Forall_cons_iff in F as [(c & Hc) _].
      rewrite substr_ok by lia. cbn [bind]. rewrite (stod_at_ok L l 4 14 x) by (assumption || lia). cbn [bind].
      rewrite (stod_at_ok L l 18 14 y) by (assumption || lia). cbn [bind]. rewrite (stod_at_ok L l 32 14 z) by (assumption || lia). cbn [bind].
      rewrite (stod_at_ok L l 46 14 c) by (assumption || lia). cbn [bind]. destruct (Nat.ltb_spec 60 (length l)) as [Hl|Hl]; [|reflexivity].
      destruct D as [D|(B4 & F & (d & Hd))]; [lia|]. apply Forall_cons_iff in F as [(x' & Hx') F]. apply Forall_cons_iff in F as [(y' & Hy') F]. apply Forall_cons_iff in F as [(z' & Hz') _].
      rewrite (stod_at_ok L l 61 2 x') by (assumption || lia). cbn [bind]. rewrite (stod_at_ok L l 63 2 y') by (assumption || lia). cbn [bind].
      rewrite (stod_at_ok L l 65 2 z') by (assumption || lia). cbn [bind]. rewrite (stod_at_ok L l 70 3 d) by (assumption || lia). reflexivity.
  - assert (Q : decode_velocity L l = Throw \/ decode_velocity L l = Ok tt); [|intros N; destruct Q as [Q|Q]; [exact Q|contradiction]].
    assert (C : forall p n, stod_at L l p n = Throw \/ exists r, stod_at L l p n = Ok r).
    { intros p n. unfold stod_at, substr. destruct (length l <? p); [now left|]. cbn [bind]. unfold stod. destruct (l_stod L _); [right; eexists; reflexivity|now left|now left]. }
    unfold decode_velocity, substr. destruct (length l <? 1); [now left|]. cbn [bind].
    repeat match goal with |- context [bind (stod_at L l ?p ?n)] => let r := fresh "r" in destruct (C p n) as [->|(r & ->)]; cbn [bind]; [now left|]; clear r end.
    destruct (60 <? length l); [|now right].
    repeat match goal with |- context [bind (stod_at L l ?p ?n)] => let r := fresh "r" in destruct (C p n) as [->|(r & ->)]; cbn [bind]; [now left|]; clear r end. now right.
Qed.
Print Assumptions C123_velocity_line.
(** so the blank deviations that a position line may have end the reading of a velocity line with an exception *)
Theorem C123_blank_velocity_deviation_refuted : forall L l, 62 <= length l -> l_stod L (lit "  ") = Invalid -> field l 61 2 = lit "  " ->
  decode_velocity L l = Throw.
Proof.
  intros L l B I F. apply (proj2 (C123_velocity_line L l)). intros H. apply (proj1 (C123_velocity_line L l)) in H as (_ & _ & [H|(_ & H & _)]); [lia|].
  apply Forall_cons_iff in H as [(r & H) _]. rewrite F in H. unfold number in H. congruence.
Qed.
Print Assumptions C123_blank_velocity_deviation_refuted.
(** trailing blanks matter: a line whose last columns were trimmed away in the middle of the optional fields throws *)
Theorem C123_trimmed_line : forall L l, 62 <= length l <= 69 \/ 74 <= length l <= 78 -> decode_position L l = Throw.
Proof.
  intros L l H. apply (C123_position_line L l). intros e (x & y & z & c & _ & _ & _ & _ & _ & _ & _ & A & B). destruct A as [[A _]|[A _]], B as [[B _]|[B _]]; lia.
Qed.
Print Assumptions C123_trimmed_line.

Lemma touch_length t : length (touch t) = Nat.max 2 (length t).
Proof. destruct t as [|a [|b t]]; cbn [touch length]; lia. Qed.
Lemma touch_nth t k : nth k (touch t) [] = nth k t [].
Proof. destruct t as [|a [|b t]]; destruct k as [|[|[|k]]]; reflexivity. Qed.
Lemma all_blocks L t n : position_file L t n -> exists b bs, x_blocks t = b :: bs /\ good_block L n b.
Proof. intros (_ & _ & B & F & _). destruct (x_blocks t) as [|b bs]; [cbn in B; lia|]. exists b, bs. split; [reflexivity|]. exact (Forall_inv F). Qed.
Lemma finish L n bs ds t' : bs <> [] -> 2 <= length bs -> Forall2 (fun b e => l_date L (field (b_epoch b) 3 28) = Some e) bs ds -> gained L n bs [] t' ->
  (exists d, nth_error ds 1 = Some d) /\ data_read L bs n ds (touch t') /\ length (touch t') = Nat.max 2 n.
Proof.
  intros NE B D [GL GN]. assert (LD := F2len D). split.
  - destruct (nth_error ds 1) eqn:E; [eauto|]. apply nth_error_None in E. lia.
  - split; [split; [exact D|]|].
    + intros sat BS. destruct (GN sat BS) as (new & E & F). rewrite touch_nth, E. destruct sat; exact F.
    + rewrite touch_length, GL. destruct bs; [congruence|]. cbn [length]. lia.
Qed.
Lemma read_complete L t n h ds data : header_read L t n h -> 2 <= length (x_blocks t) -> data_read L (x_blocks t) n ds data -> length data = Nat.max 2 n ->
  read_as L t n (mkReader true h ds data).
Proof.
  intros H B D LD. split; [reflexivity|]. split; [exact H|]. split; [exact D|]. split; [exact LD|].
  destruct D as [D1 D2]. assert (L1 := F2len D1). destruct H as (_ & HN & _).
  unfold complete, sp3_of. cbn [rd_epochs rd_header rd_data f_epochs f_nepoch f_pc]. split; [lia|]. split; [lia|]. split; [rewrite map_length; lia|].
  intros sat BS. specialize (D2 sat BS). assert (L2 := F2len D2).
  change (@nil pc) with (map en_pc []). rewrite map_nth, map_length. lia.
Qed.
Lemma epoch_not_comment L n b : good_block L n b -> ~ starts "/*" (b_epoch b).
Proof. intros ((_ & (r & E) & _) & _) (r' & E'). rewrite E in E'. discriminate. Qed.

Theorem C123_reads_position_file : forall L t n, position_file L t n ->
  exists r, read_file L (Some (file t)) = Ok r /\ read_as L t n r.
Proof.
  intros L t n HF. destruct (all_blocks L t n HF) as (b & bs & EB & GB). destruct HF as (HG & HM & B & FB & HT).
  unfold read_file, file. rewrite EB. cbn [flat_map]. unfold block_lines at 1. cbn [app].
  rewrite app_assoc, <- text_app.
  destruct (read_header_ok L t n (b_epoch b) (flat_map sat_lines (b_sats b) ++ flat_map block_lines bs) (x_tail t) HG (proj1 (proj1 GB)) (epoch_not_comment L n b GB))
    as (h & -> & HR & HM1 & _). cbn [bind]. rewrite (HM1 HM).
  assert (HN := HR). destruct HN as (_ & HN & _ & HS & _). rewrite HN, HS.
  destruct (epochs_ok L MPosition n (x_blocks t) ltac:(discriminate) 0 [] (x_tail t) [] [] FB HT) as (ds & s' & t' & D & _ & G & E).
  rewrite EB in E at 2. cbn [flat_map] in E. rewrite app_nil_r in E. unfold block_lines at 1 in E. cbn [app] in E. rewrite Nat.add_0_r in E. rewrite E.
  cbn [read_epochs app bind negb].
  destruct (finish L n (x_blocks t) ds t') as ((d & ED) & DR & DL); try assumption; [rewrite EB; discriminate|]. rewrite ED.
  eexists. split; [reflexivity|]. now apply read_complete.
Qed.
Print Assumptions C123_reads_position_file.

(** ** C124: files that are not complete position files *)
(** a file that cannot be opened *)
Theorem C124_no_file : forall L, exists r, read_file L None = Ok r /\ rd_ok r = false /\ rd_epochs r = [] /\ rd_data r = [] /\ h_nsat (rd_header r) = 0.
Proof. intros L. eexists. split; [reflexivity|]. repeat split. Qed.
Print Assumptions C124_no_file.

Lemma Forall_firstn {A} (P : A -> Prop) k l : Forall P l -> Forall P (firstn k l).
Proof. intros H. revert k. induction H; intros [|k]; cbn [firstn]; constructor; auto. Qed.
Lemma repeat_F2 L l e k : says L l e -> Forall2 (fun p e => says L (fst p) e) (repeat (l, @None str) k) (repeat e k).
Proof. intros H. induction k; constructor; assumption. Qed.
(** a file that ends after a position line of its last epoch, without a newline, is accepted: the line is read again for every satellite left *)
Theorem C124_cut_file_repeats_line_refuted : forall L t n bs ep ps l k, position_file L t n ->
  x_blocks t = bs ++ [mkBlock ep (ps ++ repeat (l, None) (S k))] ->
  exists r, read_file L (Some (text_of (header_lines t) ++ text_of (flat_map block_lines bs) ++ text_of (ep :: flat_map sat_lines ps) ++ l)) = Ok r /\ read_as L t n r.
Proof.
  intros L t n bs ep ps l k (HG & HM & B & FB & HT) EB.
  assert (FB' := FB). rewrite EB in FB'. apply Forall_app in FB' as [F1 F2]. apply Forall_inv in F2. destruct F2 as (GE & LB & GS). cbn [b_epoch b_sats] in *.
  apply Forall_app in GS as [GP GL]. cbn [repeat] in GL. assert (GL0 := Forall_inv GL). destruct GL0 as (PL & SP & (e & SE) & _). cbn [fst] in *. apply Forall_inv in PL. cbn [fst] in PL.
  assert (NB : 1 <= length bs). { rewrite EB, app_length in B. cbn [length] in B. lia. }
  destruct bs as [|b bs]; [cbn in NB; lia|]. clear NB. assert (GB := Forall_inv F1).
  unfold read_file. cbn [flat_map]. unfold block_lines at 1. cbn [app].
  destruct (read_header_ok L t n (b_epoch b) ((flat_map sat_lines (b_sats b) ++ flat_map block_lines bs) ++ ep :: flat_map sat_lines ps) l HG (proj1 (proj1 GB)) (epoch_not_comment L n b GB))
    as (h & EH & HR & HM1 & _).
  replace (text_of (header_lines t) ++ text_of (b_epoch b :: flat_map sat_lines (b_sats b) ++ flat_map block_lines bs) ++ text_of (ep :: flat_map sat_lines ps) ++ l)
    with (text_of (header_lines t ++ b_epoch b :: (flat_map sat_lines (b_sats b) ++ flat_map block_lines bs) ++ ep :: flat_map sat_lines ps) ++ l)
    by (rewrite !(text_app (header_lines t)), app_comm_cons, text_app, <- !app_assoc; reflexivity).
  rewrite EH. cbn [bind]. rewrite (HM1 HM). assert (HN := HR). destruct HN as (_ & HN & _ & HS & _). rewrite HN, HS.
  destruct (epochs_ok L MPosition n (b :: bs) ltac:(discriminate) 1 (ep :: flat_map sat_lines ps) l [] [] F1) as (ds & s' & t1 & D & S1 & G & E).
  { rewrite text_cons. destruct GE as (_ & (r & ->) & _). intros (r' & E'). discriminate. }
  rewrite S1 in E by (rewrite text_cons; destruct ep; discriminate). clear S1 s'.
  cbn [flat_map] in E. unfold block_lines at 1 in E. cbn [app] in E. rewrite <- app_assoc in E.
  replace (length (x_blocks t)) with (length (b :: bs) + 1) by (rewrite EB, app_length; reflexivity). rewrite <- app_assoc. rewrite E. clear E.
  cbn [read_epochs]. destruct GE as (PE & SEp & BE & (d & ED)). rewrite getline_text by exact PE. rewrite (starts_true _ _ SEp). cbn [negb]. rewrite substr_ok by exact BE. cbn [bind]. rewrite ED.
  assert (NL : length ps + S k = n) by (rewrite <- LB, app_length, repeat_length; reflexivity).
  destruct (read_sats_ok L MPosition ps ltac:(discriminate) (S k) 0 [] l ep t1 GP) as (s' & line' & t2 & es & A1 & A2 & A3 & A4 & A5).
  { cbn [text_of flat_map app]. destruct SP as (r & ->). intros (r' & E'). discriminate. } { lia. }
  assert (ES : s' = mkStream l false false).
  { cbn [text_of flat_map app] in A1, A4. destruct A1 as [X|X]; [destruct SP as (r & ->); discriminate|exact X|now apply A4]. }
  rewrite ES, NL, app_nil_r in A5. rewrite A5. clear A5 A1 A4 ES s'. cbn [Nat.add].
  assert (LE := F2len A2).
  destruct (sats_cut L MPosition k (length ps) l e line' t2 ltac:(discriminate) PL SP SE) as (s3 & t3 & -> & P3). { destruct A3 as [A3 _]. rewrite A3. lia. }
  cbn [bind negb]. cbn [app].
  assert (G3 : gained L n ((b :: bs) ++ [mkBlock ep (ps ++ repeat (l, None) (S k))]) [] t3).
  { assert (P : pushed t1 0 (es ++ repeat e (S k)) t3) by (eapply pushed_app; [lia|exact A3|cbn [Nat.add]; rewrite <- LE; exact P3]).
    assert (F : Forall2 (fun p e => says L (fst p) e) (ps ++ repeat (l, None) (S k)) (es ++ repeat e (S k))) by (apply Forall2_app; [exact A2|now apply repeat_F2]).
    assert (G1 : gained L n [mkBlock ep (ps ++ repeat (l, None) (S k))] t1 t3).
    { eapply gained_step; [exact LB|exact F|exact P|]. split; [reflexivity|]. intros sat BS. exists []. rewrite app_nil_r. split; [reflexivity|constructor]. }
    destruct G as [GL1 GN1], G1 as [GL2 GN2]. split; [rewrite GL2, GL1; cbn [length app]; lia|]. intros sat BS.
    destruct (GN1 sat BS) as (n1 & E1 & X1), (GN2 sat BS) as (n2 & E2 & X2). exists (n1 ++ n2). split; [rewrite E2, E1; now rewrite app_assoc|]. now apply Forall2_app. }
  destruct (finish L n (x_blocks t) (ds ++ [d]) t3) as ((d1 & ED1) & DR & DL); try assumption.
  { rewrite EB. destruct bs; discriminate. } { rewrite EB. apply F2snoc; [exact D|exact ED]. } { rewrite EB. exact G3. }
  rewrite ED1. eexists. split; [reflexivity|]. now apply read_complete.
Qed.
Print Assumptions C124_cut_file_repeats_line_refuted.

(** a file that ends inside the satellite id lines or inside the comments, without a newline, is never done with *)
Theorem C124_cut_header_hangs_refuted : forall L t n last, good_header L t n -> plain last ->
  (forall k, starts "+ " last -> 60 <= length last -> 1 <= k <= length (x_ids t) ->
     read_file L (Some (text_of (x_first t :: x_second t :: firstn k (x_ids t)) ++ last)) = Hang) /\
  (forall k, starts "/*" last -> k <= length (x_comments t) ->
     read_file L (Some (text_of (before_comments t ++ firstn k (x_comments t)) ++ last)) = Hang).
Proof.
  intros L t n last HG PL. split.
  - intros k SL BL BK. destruct k as [|k]; [lia|].
    destruct HG as (HP & B1 & (d & D) & N & S2 & B2 & I2a & (r2a & I2b) & (iv & I2c) & I2d & (r2b & I2e) & NE & HI & NS & _).
    unfold header_lines in HP. apply Forall_cons_iff in HP as [P1 HP]. apply Forall_cons_iff in HP as [P2 HP]. apply Forall_app in HP as [PI HP]. clear HP.
    destruct (x_ids t) as [|i0 ids]; [congruence|]. clear NE. cbn [firstn hd length] in *.
    unfold read_file, read_header. cbn [s_rest]. remember (S (S (length (text_of (x_first t :: x_second t :: i0 :: firstn k ids) ++ last)))) as fuel eqn:EF. clear EF.
    rewrite getline_text by exact P1. destruct (first_line_ok L _ _ _ B1 D N) as (m & -> & _). cbn [bind].
    rewrite getline_text by exact P2. rewrite (starts_true _ _ S2). cbn [negb].
    destruct (stoi_at_ok (x_second t) 3 4 ltac:(lia) I2a) as (? & ->). cbn [bind]. rewrite (stod_at_ok L (x_second t) 8 15 _ ltac:(lia) I2b). cbn [bind].
    rewrite (stod_at_ok L (x_second t) 24 14 _ ltac:(lia) I2c). cbn [bind]. destruct (stoi_at_ok (x_second t) 39 5 ltac:(lia) I2d) as (? & ->). cbn [bind].
    rewrite (stod_at_ok L (x_second t) 45 15 _ ltac:(lia) I2e). cbn [bind].
    apply Forall_cons_iff in PI as [PI0 PI]. rewrite getline_text by exact PI0. assert (HI0 := Forall_inv HI). destruct HI0 as [SI0 BI0]. rewrite (starts_true _ _ SI0). cbn [negb].
    unfold stoi_at. rewrite substr_ok by lia. cbn [bind]. rewrite NS. cbn [bind].
    rewrite item_cut_hang; [reflexivity|intros y; now exists y| |now apply Forall_firstn|exact PL].
    apply Forall_cons_iff in HI as [HI1 HI]. constructor; [exact HI1|]. apply Forall_app. split; [now apply Forall_firstn|]. repeat constructor; assumption.
  - intros k SL BK. unfold read_file.
    destruct (read_header_comments L t n (firstn k (x_comments t)) last HG) as (h & fuel & _ & -> & _).
    destruct HG as (HP & HG). repeat match type of HG with _ /\ _ => destruct HG as [_ HG] end. unfold header_lines in HP. do 2 (apply Forall_cons_iff in HP as [_ HP]).
    do 3 (apply Forall_app in HP as [_ HP]).
    rewrite comment_cut_hang; [reflexivity| |now apply Forall_firstn|exact PL]. apply Forall_app. split; [now apply Forall_firstn|]. repeat constructor; exact SL.
Qed.
Print Assumptions C124_cut_header_hangs_refuted.

(** a file of one epoch: the reader looks at a second one *)
Theorem C124_single_epoch_refuted : forall L t n b, good_header L t n -> nth_error (x_first t) 2 = Some "P"%char -> x_blocks t = [b] -> good_block L n b -> ~ starts "EP" (x_tail t) ->
  read_file L (Some (file t)) = UB.
Proof.
  intros L t n b HG HM EB GB HT. unfold read_file, file. rewrite EB. cbn [flat_map]. rewrite app_nil_r. rewrite app_assoc, <- text_app. unfold block_lines at 1.
  destruct (read_header_ok L t n (b_epoch b) (flat_map sat_lines (b_sats b)) (x_tail t) HG (proj1 (proj1 GB)) (epoch_not_comment L n b GB))
    as (h & -> & HR & HM1 & _). cbn [bind]. rewrite (HM1 HM). destruct HR as (_ & HN & _ & HS & _). rewrite HN, HS, EB.
  destruct (epochs_ok L MPosition n [b] ltac:(discriminate) 0 [] (x_tail t) [] [] ltac:(constructor; [exact GB|constructor]) HT) as (ds & s' & t' & D & _ & G & E).
  cbn [flat_map] in E. rewrite !app_nil_r in E. unfold block_lines at 1 in E. rewrite Nat.add_0_r in E. rewrite E. cbn [read_epochs app bind negb].
  assert (LD := F2len D). destruct ds as [|d [|d2 ds]]; cbn in LD; try lia. reflexivity.
Qed.
Print Assumptions C124_single_epoch_refuted.

(** a position and velocity file, header column 2 'V': the velocities are never expected, reading ends after the first satellite of the first epoch *)
Theorem C124_velocity_file_refuted : forall L t n ep p v rest, good_header L t n ->
  nth_error (x_first t) 2 = Some "V"%char -> nth_error (x_first t) 3 <> Some "V"%char ->
  good_epoch L ep -> good_sat L p -> starts "V" v -> plain v -> 1 <= n -> (2 <= n \/ 2 <= length (x_blocks t)) -> 1 <= length (x_blocks t) ->
  exists r d e, read_file L (Some (text_of (header_lines t) ++ text_of (ep :: sat_lines p ++ [v]) ++ rest)) = Ok r /\
    rd_ok r = false /\ l_date L (field ep 3 28) = Some d /\ rd_epochs r = [d] /\ says L (fst p) e /\ rd_data r = [[e]].
Proof.
  intros L t n ep p v rest HG HV HV3 (PE & SE & BE & (d & ED)) GP SV PV BN BNE BE1. unfold read_file.
  rewrite app_assoc, <- text_app.
  destruct (read_header_ok L t n ep (sat_lines p ++ [v]) rest HG PE) as (h & -> & HR & _ & HM). { destruct SE as (r & ->). intros (r' & E'). discriminate. }
  cbn [bind]. rewrite HM by (rewrite ?HV; congruence). destruct HR as (_ & HN & _ & HS & _). rewrite HN, HS. clear HM HN HS.
  destruct (length (x_blocks t)) as [|ne]; [lia|]. cbn [read_epochs]. rewrite getline_text by exact PE. rewrite (starts_true _ _ SE). cbn [negb]. rewrite substr_ok by exact BE. cbn [bind]. rewrite ED.
  destruct (read_sats_ok L MOther [p] ltac:(discriminate) (n - 1) 0 [v] rest ep [] ltac:(constructor; [exact GP|constructor])) as (s' & line' & t2 & es & A1 & A2 & A3 & A4 & A5).
  { destruct SV as (r & ->). intros (r' & E'). discriminate. } { cbn; lia. }
  cbn [flat_map] in A5. rewrite app_nil_r in A5. replace (length [p] + (n - 1)) with n in A5 by (cbn [length]; lia). rewrite A5. clear A5. cbn [length Nat.add].
  destruct A1 as [X|X]; [rewrite text_cons; destruct v; discriminate| |discriminate]. subst s'. clear A4.
  inversion A2 as [|? e ? es' HE F0]; subst. inversion F0; subst. clear A2 F0.
  assert (ET : t2 = [[e]]).
  { destruct A3 as [L3 N3]. cbn in L3. destruct t2 as [|c0 [|c1 t2]]; cbn in L3; try lia. specialize (N3 0). cbn in N3. now subst. }
  subst t2. clear A3.
  assert (VP : prefix (lit "P") v = false) by (destruct SV as (r & ->); reflexivity). assert (VS : prefix (lit "* ") v = false) by (destruct SV as (r & ->); reflexivity).
  destruct (n - 1) as [|k] eqn:EK; cbn [read_sats bind negb app].
  - destruct ne as [|ne]; [lia|]. cbn [read_epochs]. rewrite getline_text by exact PV. rewrite VS. cbn [negb bind]. do 3 eexists. split; [reflexivity|]. repeat split; assumption.
  - rewrite getline_text by exact PV. rewrite VP. cbn [negb bind]. do 3 eexists. split; [reflexivity|]. repeat split; assumption.
Qed.
Print Assumptions C124_velocity_file_refuted.

(** ** a file *)
Definition x_first_ex : str := lit "#dP2024  1  1  0  0  0.00000000       2 ORBIT IGS14 HLM  IGS".
Definition x_firstv_ex : str := lit "#dV2024  1  1  0  0  0.00000000       2 ORBIT IGS14 HLM  IGS".
Definition x_v_ex : str := lit "VG01            11            12            13            14".
Definition x_second_ex : str := lit "## 2295 86400.00000000    900.00000000 60310 0.0000000000000".
Definition x_ids_ex : str := lit "+    2   G01G02                                             ".
Definition x_acc_ex : str := lit "++         2  3                                             ".
Definition x_c1_ex : str := lit "%c G     GPS                                                ".
Definition x_c2_ex : str := lit "%c cc                                                       ".
Definition x_f1_ex : str := lit "%f 1.2500000  1.025000000                                   ".
Definition x_f2_ex : str := lit "%f 0                                                        ".
Definition x_i1_ex : str := lit "%i    0                                                     ".
Definition x_com_ex : str := lit "/* comment".
Definition x_e1_ex : str := lit "*  2024  1  1  0  0  0.00000000".
Definition x_e2_ex : str := lit "*  2025  1  1  0 15  0.00000000".
Definition x_p11_ex : str := lit "PG01            11            12            13            14".
Definition x_p12_ex : str := lit "PG02           -21            22            23            24  5  6  7  8  EP  MP".
Definition x_ep_ex : str := lit "EP    55   55   55     222  1234567  -123456        1       -2        3        4".
Definition x_p21_ex : str := lit "PG01            31            32            33            34".
Definition x_p22_ex : str := lit "PG02            41            42            43            44    6        ".

Definition L_ex : lib := mkLib (fun s => match stoi s with Ok z => Val (IZR z) | _ => Invalid end) (fun s => match stoi s with Ok z => Some (IZR z) | _ => None end).
Definition text_of_first (first : str) (bs : list block) : sp3text :=
  mkText first x_second_ex [x_ids_ex] [x_acc_ex] x_c1_ex x_c2_ex x_f1_ex x_f2_ex x_i1_ex x_i1_ex [x_com_ex] bs (lit "EOF").
Definition block1_ex : block := mkBlock x_e1_ex [(x_p11_ex, Some x_ep_ex); (x_p12_ex, None)].
Definition text_ex : sp3text := text_of_first x_first_ex [block1_ex; mkBlock x_e2_ex [(x_p21_ex, None); (x_p22_ex, None)]].
(** its last epoch has the same line twice *)
Definition text2_ex : sp3text := text_of_first x_first_ex [block1_ex; mkBlock x_e2_ex [(x_p21_ex, None); (x_p21_ex, None)]].
Definition textv_ex : sp3text := text_of_first x_firstv_ex [block1_ex; block1_ex].
Ltac no_nl := unfold plain; intros HX; cbn in HX; repeat destruct HX as [HX|HX]; first [discriminate HX | exact HX].
Ltac st := eexists; reflexivity.
Ltac num := eexists; unfold number; vm_compute; reflexivity.
Lemma decodes L l : (exists e, decode_position L l = Ok e) -> exists e, says L l e.
Proof. intros (e & H). exists e. now apply decode_says. Qed.
Ltac all := repeat first [apply Forall_cons | apply Forall_nil].
Ltac header_ex :=
  split; [unfold header_lines; cbn [x_first x_second x_ids x_acc x_c1 x_c2 x_f1 x_f2 x_i1 x_i2 x_comments text_of_first app]; all; no_nl|];
  split; [cbn; lia|]; split; [eexists; vm_compute; reflexivity|]; split; [vm_compute; reflexivity|];
  split; [st|]; split; [cbn; lia|]; split; [num|]; split; [num|]; split; [num|]; split; [num|]; split; [num|];
  split; [discriminate|]; split; [all; split; [st|cbn; lia]|]; split; [vm_compute; reflexivity|]; split; [cbn; lia|];
  split; [discriminate|]; split; [all; split; [st|cbn; lia]|]; split; [cbn; lia|];
  split; [cbn [text_of_first x_acc flat_map items map seq app firstn]; all; num|];
  split; [st|]; split; [cbn; lia|]; split; [st|]; split; [st|]; split; [cbn; lia|]; split; [num|]; split; [num|]; split; [st|]; split; [st|]; split; [st|];
  cbn [text_of_first x_comments]; all; st.
Ltac blocks_ex :=
  all; (split; [split; [no_nl|split; [st|split; [cbn; lia|eexists; vm_compute; reflexivity]]]|split; [reflexivity|]]); cbn [b_sats]; all;
      (split; [unfold sat_lines; cbn [fst snd]; all; no_nl|split; [st|split; [apply decodes; eexists; vm_compute; reflexivity|]]]);
      intros c HC; first [discriminate HC | injection HC as <-; split; [st|split; [cbn; lia|unfold correlation_fields; all; eexists; vm_compute; reflexivity]]].
Example position_file_ex : position_file L_ex text_ex 2.
Proof.
  split; [|split; [reflexivity|split; [cbn; lia|split]]].
  - unfold text_ex. header_ex.
  - cbn [text_ex text_of_first x_blocks]. unfold block1_ex. blocks_ex.
  - intros (r & E). discriminate.
Qed.
Example read_ex : exists r, read_file L_ex (Some (file text_ex)) = Ok r /\ rd_ok r = true.
Proof. destruct (C123_reads_position_file _ _ _ position_file_ex) as (r & E & H & _). now exists r. Qed.
(** the same file without its last line and the newline before it: the second satellite gets the first one's position *)
Example position_file2_ex : position_file L_ex text2_ex 2.
Proof.
  split; [|split; [reflexivity|split; [cbn; lia|split]]].
  - unfold text2_ex. header_ex.
  - cbn [text2_ex text_of_first x_blocks]. unfold block1_ex. blocks_ex.
  - intros (r & E). discriminate.
Qed.
Example cut_ex : exists r, read_file L_ex (Some (text_of (header_lines text2_ex) ++ text_of (flat_map block_lines [block1_ex]) ++ text_of [x_e2_ex] ++ x_p21_ex)) = Ok r /\
  read_as L_ex text2_ex 2 r.
Proof. exact (C124_cut_file_repeats_line_refuted L_ex text2_ex 2 [block1_ex] x_e2_ex [] x_p21_ex 1 position_file2_ex eq_refl). Qed.
Example header_v_ex : good_header L_ex textv_ex 2.
Proof. unfold textv_ex. header_ex. Qed.
Example velocity_ex : exists r d e, read_file L_ex (Some (text_of (header_lines textv_ex) ++ text_of (x_e1_ex :: sat_lines (x_p11_ex, Some x_ep_ex) ++ [x_v_ex]) ++ lit "EOF")) = Ok r /\
    rd_ok r = false /\ l_date L_ex (field x_e1_ex 3 28) = Some d /\ rd_epochs r = [d] /\ says L_ex x_p11_ex e /\ rd_data r = [[e]].
Proof.
  apply (C124_velocity_file_refuted L_ex textv_ex 2 x_e1_ex (x_p11_ex, Some x_ep_ex) x_v_ex (lit "EOF") header_v_ex); try reflexivity; try discriminate; try (cbn; lia).
  - assert (H := proj1 (proj2 (proj2 (proj2 position_file_ex)))). apply Forall_inv in H. exact (proj1 H).
  - assert (H := proj1 (proj2 (proj2 (proj2 position_file_ex)))). apply Forall_inv in H. exact (Forall_inv (proj2 (proj2 H))).
  - st.
  - no_nl.
Qed.
Example hang_ex : read_file L_ex (Some (text_of [x_first_ex; x_second_ex; x_ids_ex] ++ x_ids_ex)) = Hang.
Proof.
  destruct (C124_cut_header_hangs_refuted L_ex text_ex 2 x_ids_ex (proj1 position_file_ex)) as [H _]; [no_nl|]. apply (H 1); [st|cbn; lia|cbn; lia].
Qed.
Example velocity_line_ex : decode_velocity L_ex x_v_ex = Ok tt /\ decode_velocity L_ex (x_v_ex ++ lit " 18 18 18 219") = Ok tt /\ decode_velocity L_ex (x_v_ex ++ lit "             ") = Throw.
Proof. repeat split; reflexivity. Qed.
