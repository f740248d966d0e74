From Coq Require Import Reals Lra List ZArith Bool Ascii String Lia.
From Verif Require Import Base RBase StringModel SettingModel SettingSpec SettingProofs WingsModel WingsSpec.
Import ListNotations.
Open Scope R_scope.

(** * running *)
Lemma run_app e u n : forall m s, run (n + m) e u s =
  let! (s', ev) := run n e u s in let! (s'', ev') := run m e u s' in Ok (s'', ev ++ ev').
Proof.
  induction n as [|n IH]; intros m s.
  - cbn [Nat.add run bind]. destruct (run m e u s) as [[s' ev]| | |]; reflexivity.
  - cbn [Nat.add run]. destruct (main_routine e u s) as [[s' ev]| | |]; cbn [bind]; try reflexivity.
    rewrite IH. destruct (run n e u s') as [[s2 ev2]| | |]; cbn [bind]; try reflexivity.
    destruct (run m e u s2) as [[s3 ev3]| | |]; cbn [bind]; reflexivity.
Qed.
Lemma run_length e u n : forall s s' evs, run n e u s = Ok (s', evs) -> List.length evs = n.
Proof.
  induction n as [|n IH]; intros s s' evs E; cbn [run] in E.
  - injection E as <- <-. reflexivity.
  - destruct (main_routine e u s) as [[s1 ev]| | |]; cbn [bind] in E; try discriminate.
    destruct (run n e u s1) as [[s2 ev2]| | |] eqn:R; cbn [bind] in E; try discriminate.
    injection E as <- <-. cbn. f_equal. now apply IH in R.
Qed.
Lemma run_prefix e u n m s s' evs : run (n + m) e u s = Ok (s', evs) ->
  exists s'', run n e u s = Ok (s'', firstn n evs).
Proof.
  rewrite run_app. destruct (run n e u s) as [[s1 ev]| | |] eqn:R; cbn [bind]; try discriminate.
  destruct (run m e u s1) as [[s2 ev2]| | |]; cbn [bind]; try discriminate. intros E. injection E as <- <-.
  exists s1. pose proof (run_length _ _ _ _ _ _ R) as L. rewrite firstn_app, L, Nat.sub_diag.
  cbn [firstn]. rewrite app_nil_r, firstn_all2 by lia. reflexivity.
Qed.
Lemma run_disabled e u n s : enabled s = false -> run n e u s = Ok (s, repeat Idle n).
Proof.
  intros E; induction n as [|n IH]; [reflexivity|]. cbn [run]. unfold main_routine. rewrite E. cbn [negb bind].
  rewrite IH. reflexivity.
Qed.
Lemma run_ended e u n s : at_end s = true -> run n e u s = Ok (s, repeat Idle n).
Proof.
  intros E; induction n as [|n IH]; [reflexivity|]. cbn [run]. unfold main_routine. rewrite E.
  destruct (enabled s); cbn [negb bind]; rewrite IH; reflexivity.
Qed.

(** * waiting *)
Lemma wait_calls_exists step w : 0 < step -> exists k, wait_calls step w k.
Proof.
  intros Sp. destruct (Rle_lt_dec w 0) as [L|L]; [exists 0%nat; left; auto|].
  destruct (nat_above (w / step)) as (n & Hn).
  assert (B : w <= INR n * step).
  { apply (Rmult_lt_compat_r step) in Hn; [|lra]. unfold Rdiv in Hn. rewrite Rmult_assoc, Rinv_l, Rmult_1_r in Hn; lra. }
  clear Hn. induction n as [|n IH].
  - cbn in B. lra.
  - destruct (Rle_lt_dec w (INR n * step)) as [C|C]; [now apply IH|].
    exists (S n). right. split; [lra|]. split; [lia|]. rewrite S_INR in *. split; lra.
Qed.
Lemma wait_calls_unique step w k k' : 0 < step -> wait_calls step w k -> wait_calls step w k' -> k = k'.
Proof.
  intros Sp [(A & ->)|(A & B & C & D)] [(A' & ->)|(A' & B' & C' & D')]; try lra; [reflexivity|].
  assert (H1 : INR k - 1 < INR k') by (apply (Rmult_lt_reg_r step); lra).
  assert (H2 : INR k' - 1 < INR k) by (apply (Rmult_lt_reg_r step); lra).
  assert (INR k < INR (S k')) by (rewrite S_INR; lra). assert (INR k' < INR (S k)) by (rewrite S_INR; lra).
  apply INR_lt in H. apply INR_lt in H0. lia.
Qed.
Lemma run_wait e u k : forall s, enabled s = true -> at_end s = false -> 0 < step_s s ->
  wait_calls (step_s s) (wait_s s) k ->
  exists w', w' <= 0 /\ run k e u s = Ok (mkSender (sdb s) (ops s) true (step_s s) w' false, repeat Idle k).
Proof.
  induction k as [|k IH]; intros s En Ae Sp W.
  - exists (wait_s s). destruct W as [(A & _)|(_ & B & _)]; [|lia]. split; [exact A|]. cbn [run repeat].
    destruct s; cbn in *; subst; reflexivity.
  - destruct W as [(_ & B)|(A & _ & C & D)]; [discriminate|]. cbn [run]. unfold main_routine. rewrite En, Ae. cbn [negb].
    rewrite rle_false by lra. cbn [bind].
    specialize (IH (mkSender (sdb s) (ops s) true (step_s s) (wait_s s - step_s s) false)).
    cbn [enabled at_end step_s wait_s sdb ops] in IH.
    destruct IH as (w' & Lw & R); auto.
    + rewrite S_INR in C, D. destruct k as [|k]; [left; cbn in D; split; [lra|reflexivity]|].
      right. rewrite S_INR in *. assert (0 <= INR k) by apply pos_INR.
      split; [nra|]. split; [lia|]. split; lra.
    + exists w'. split; [exact Lw|]. rewrite R. reflexivity.
Qed.

Lemma run_history e u db step : 0 < step -> forall runs done w,
  w <= 0 ->
  Forall (fun r => fst (fst r) <> lit "EOL") runs ->
  Forall (fun r => exists w, execute_line e db u (fst (fst r)) = Ok (w, snd (fst r)) /\ wait_calls step w (snd r)) runs ->
  exists w', w' <= 0 /\
  run (List.length (history runs)) e u (mkSender db (mkOps (done ++ map (fun r => fst (fst r)) runs) (List.length done)) true step w false)
  = Ok (mkSender db (mkOps (done ++ map (fun r => fst (fst r)) runs) (List.length done + List.length runs)) true step w' false, history runs).
Proof.
  intros Sp. induction runs as [|[[l o] k] runs IH]; intros done w W NE EX.
  - exists w. split; [exact W|]. cbn. now rewrite Nat.add_0_r.
  - inversion NE as [|? ? NE1 NE2]; subst. inversion EX as [|? ? EX1 EX2]; subst. cbn [fst snd] in *.
    destruct EX1 as (w1 & E1 & K1).
    cbn [history map]. change (fst (fst (l, o, k))) with l.
    change (List.length (Ran l o :: repeat Idle k ++ history runs)) with (S (List.length (repeat Idle k ++ history runs))).
    rewrite app_length, repeat_length. cbn [run]. unfold main_routine.
    cbn [enabled at_end wait_s ops sdb step_s negb]. rewrite rle_true by exact W.
    unfold latest_line. cbn [lines pointer]. rewrite nth_error_app2 by lia. rewrite Nat.sub_diag. cbn [nth_error].
    destruct (str_eqb_spec l (lit "EOL")) as [X|_]; [contradiction|]. rewrite E1. cbn [bind].
    rewrite run_app.
    destruct (run_wait e u k (mkSender db (mkOps (done ++ l :: map (fun r => fst (fst r)) runs) (S (List.length done))) true step w1 false))
      as (w' & W' & RW); auto.
    rewrite RW. cbn [bind sdb ops step_s].
    specialize (IH (done ++ [l]) w' W' NE2 EX2). destruct IH as (w2 & W2 & IH). exists w2. split; [exact W2|].
    rewrite <- app_assoc in IH. cbn [app] in IH. rewrite app_length in IH. cbn [List.length] in IH.
    replace (List.length done + 1)%nat with (S (List.length done)) in IH by lia.
    rewrite IH. cbn [bind]. cbn [List.length]. rewrite Nat.add_succ_r. reflexivity.
Qed.
Lemma run_schedule e u db step runs n : 0 < step ->
  Forall (fun r => fst (fst r) <> lit "EOL") runs ->
  Forall (fun r => exists w, execute_line e db u (fst (fst r)) = Ok (w, snd (fst r)) /\ wait_calls step w (snd r)) runs ->
  exists s', run n e u (sender_new db (mkOps (map (fun r => fst (fst r)) runs) 0) true step)
    = Ok (s', firstn n (history runs ++ repeat Idle n)).
Proof.
  intros Sp NE EX. destruct (run_history e u db step Sp runs [] 0 (Rle_refl 0) NE EX) as (w' & W' & R).
  cbn [app List.length Nat.add] in R. set (h := history runs) in *.
  assert (R2 : exists s', run (List.length h + n) e u (sender_new db (mkOps (map (fun r => fst (fst r)) runs) 0) true step)
    = Ok (s', h ++ repeat Idle n)).
  { unfold sender_new. rewrite run_app. rewrite R. cbn [bind]. destruct n as [|n].
    - cbn [run bind repeat]. eexists. reflexivity.
    - cbn [run]. unfold main_routine at 1. cbn [enabled at_end wait_s ops sdb step_s negb].
      rewrite rle_true by exact W'. unfold latest_line. cbn [lines pointer].
      assert (N : nth_error (map (fun r : str * list sent * nat => fst (fst r)) runs) (List.length runs) = None)
        by (apply nth_error_None; rewrite map_length; lia).
      rewrite N. destruct (str_eqb_spec (lit "EOL") (lit "EOL")) as [_|X]; [|now destruct X]. cbn [bind].
      rewrite run_ended by reflexivity. cbn [bind]. eexists. reflexivity. }
  destruct R2 as (s' & R2). rewrite Nat.add_comm in R2. apply run_prefix in R2. exact R2.
Qed.

(** * sending *)
Lemma find_char_app c a b : ~ In c a -> find [c] (a ++ c :: b) = Some (List.length a).
Proof.
  intros N; induction a as [|x a IH].
  - cbn. now rewrite Ascii.eqb_refl.
  - cbn [app find prefix]. destruct (Ascii.eqb_spec c x) as [->|E]; [exfalso; apply N; now left|]. cbn [andb].
    rewrite IH; [reflexivity|]. intros X. apply N. now right.
Qed.
Lemma find_char_none c a : ~ In c a -> find [c] a = None.
Proof.
  induction a as [|x a IH]; intros N; [reflexivity|]. cbn [find prefix].
  destruct (Ascii.eqb_spec c x) as [->|E]; [exfalso; apply N; now left|]. cbn [andb].
  rewrite IH; [reflexivity|]. intros X. apply N. now right.
Qed.
Lemma skipn_app_len {A} (a b : list A) : skipn (List.length a) (a ++ b) = b.
Proof. rewrite skipn_app, Nat.sub_diag, skipn_all. reflexivity. Qed.
Lemma firstn_app_len {A} (a b : list A) : firstn (List.length a) (a ++ b) = a.
Proof. rewrite firstn_app, Nat.sub_diag, firstn_all. cbn. apply app_nil_r. Qed.

Lemma encode_args_ok e c : forall vs ts k param len,
  (forall i, (i < List.length ts)%nat -> argument_type c (k + i) = nth i ts kError) ->
  Forall2 fits ts vs -> (len + total_width ts <= List.length param)%nat -> (List.length param < 2 ^ 16)%nat ->
  exists bss param', encode_args e c k (map to_string vs) param len = Ok (param', (len + total_width ts)%nat) /\
    firstn (len + total_width ts) param' = firstn len param ++ List.concat bss /\
    List.length param' = List.length param /\
    Forall2 (fun tv bs => encodes (fst tv) (snd tv) bs) (combine ts vs) bss.
Proof.
  induction vs as [|v vs IH]; intros ts k param len TY F L M; inversion F as [|t v' ts' vs' F1 F2]; subst.
  - exists [], param. cbn. rewrite Nat.add_0_r, app_nil_r. auto.
  - destruct F1 as (w & sg & I & R).
    assert (AW : arg_width t = w) by (unfold arg_width; now rewrite I).
    cbn [total_width fold_right] in L. fold (total_width ts') in L. rewrite AW in L.
    cbn [map encode_args].
    assert (T0 : argument_type c k = t) by (specialize (TY 0%nat); rewrite Nat.add_0_r in TY; apply TY; cbn; lia).
    rewrite T0.
    destruct (decode_in_range (stof_bytes e) (stod_bytes e) t w sg v (skipn len param) 0 I) as (bs & D & Lb & Bb & V).
    { rewrite skipn_length. lia. }
    { exact R. }
    rewrite D. cbn [bind].
    rewrite Z.mod_small by (change (2 ^ 16)%Z with (Z.of_nat (2 ^ 16)); split; [lia|apply inj_lt; lia]).
    rewrite Nat2Z.id.
    set (p1 := firstn len param ++ bs ++ skipn w (skipn len param)).
    assert (P1L : List.length p1 = List.length param).
    { unfold p1. rewrite !app_length, !skipn_length, firstn_length. lia. }
    assert (P1F : firstn (len + w) p1 = firstn len param ++ bs).
    { unfold p1. rewrite app_assoc. replace (len + w)%nat with (List.length (firstn len param ++ bs)).
      - apply firstn_app_len.
      - rewrite app_length, firstn_length. lia. }
    destruct (IH ts' (S k) p1 (len + w)%nat) as (bss & p2 & E2 & C2 & L2 & F3).
    + intros i Hi. specialize (TY (S i)). replace (S k + i)%nat with (k + S i)%nat by lia. rewrite TY by (cbn; lia). reflexivity.
    + exact F2.
    + lia.
    + lia.
    + exists (bs :: bss), p2. cbn [total_width fold_right]. fold (total_width ts'). rewrite AW.
      replace (len + (w + total_width ts'))%nat with (len + w + total_width ts')%nat by lia.
      split; [exact E2|]. split; [rewrite C2, P1F; cbn [List.concat]; now rewrite <- app_assoc|]. split; [lia|].
      cbn [combine]. constructor; [|exact F3]. cbn [fst snd]. exists w, sg. auto.
Qed.

Definition head_token (target type name : str) : str := target ++ lit "_" ++ type ++ lit "." ++ name.
Lemma analyze_head e db u target type name args :
  ~ In "_"%char target -> ~ In "."%char target -> ~ In "."%char type ->
  analyze e db u (head_token target type name :: args) =
    (if existsb (fun a => prefix (lit "{") a) args then Ok [] else
    let! (ti, arguments) :=
      (if str_eqb type (lit "TL") || str_eqb type (lit "BL") then
         let! a0 := at_ args 0 in let! v := stoi a0 in Ok ((v mod 2 ^ 32)%Z, tl args)
       else Ok (0%Z, args)) in
    let! (param, len) := encode_args e (command_information db name) 0 arguments u 0 in
    if str_eqb type (lit "RT") then Ok [RealTime (cid (command_information db name)) (firstn len param)]
    else if str_eqb type (lit "TL") then Ok [TimeLine ti (cid (command_information db name)) (firstn len param)]
    else Ok []).
Proof.
  intros N1 N2 N3. unfold analyze. cbn [at_ nth_error bind tl].
  assert (FU : find (lit "_") (head_token target type name) = Some (List.length target)).
  { unfold head_token. apply (find_char_app "_"). exact N1. }
  assert (FD : find (lit ".") (head_token target type name) = Some (List.length target + S (List.length type))%nat).
  { unfold head_token. change (lit ".") with ["."%char]. change (lit "_") with ["_"%char].
    replace (target ++ ["_"%char] ++ type ++ ["."%char] ++ name) with (((target ++ ["_"%char]) ++ type) ++ "."%char :: name)
      by (rewrite <- !app_assoc; reflexivity).
    rewrite (find_char_app "."%char ((target ++ ["_"%char]) ++ type) name).
    - rewrite !app_length. cbn [List.length]. f_equal. lia.
    - rewrite !in_app_iff. intros [[X|[X|[]]]|X]; try contradiction. discriminate. }
  rewrite FU, FD.
  assert (LT : (List.length target + S (List.length type) <? S (List.length target))%nat = false)
    by (apply Nat.ltb_ge; lia).
  rewrite LT.
  assert (S1 : skipn (S (List.length target)) (head_token target type name) = type ++ lit "." ++ name).
  { unfold head_token. change (lit "_" ++ type ++ lit "." ++ name) with (["_"%char] ++ type ++ lit "." ++ name).
    rewrite app_assoc. replace (S (List.length target)) with (List.length (target ++ ["_"%char])).
    - apply skipn_app_len.
    - rewrite app_length. cbn [List.length]. lia. }
  rewrite S1. replace (List.length target + S (List.length type) - S (List.length target))%nat with (List.length type) by lia.
  rewrite firstn_app_len.
  assert (S2 : skipn (S (List.length target + S (List.length type))) (head_token target type name) = name).
  { unfold head_token. change (lit "_" ++ type ++ lit "." ++ name) with (["_"%char] ++ type ++ ["."%char] ++ name).
    rewrite !app_assoc. replace (S (List.length target + S (List.length type)))
      with (List.length (((target ++ ["_"%char]) ++ type) ++ ["."%char])).
    - apply skipn_app_len.
    - rewrite !app_length. cbn [List.length]. lia. }
  rewrite S2. reflexivity.
Qed.
Lemma to_string_no_brace v : prefix (lit "{") (to_string v) = false.
Proof.
  destruct (to_string v) as [|c s] eqn:E; [reflexivity|]. change (lit "{") with ["{"%char]. cbn [prefix].
  destruct (Ascii.eqb_spec "{" c) as [<-|N]; [|reflexivity]. exfalso.
  pose proof (strto_to_string v) as S. rewrite E in S. cbn in S. discriminate.
Qed.
Lemma args_no_brace vs : existsb (fun a => prefix (lit "{") a) (map to_string vs) = false.
Proof. induction vs as [|v vs IH]; [reflexivity|]. cbn [map existsb]. now rewrite to_string_no_brace, IH. Qed.

Lemma encode_args_error e c : forall args k param len, (forall i, (k <= i)%nat -> argument_type c i = kError) ->
  (len < 2 ^ 16)%nat ->
  encode_args e c k args param len = Ok (param, len).
Proof.
  induction args as [|a r IH]; intros k param len H M; [reflexivity|]. cbn [encode_args]. rewrite (H k) by lia.
  unfold decode_argument. cbn [bind]. rewrite Nat.add_0_r, firstn_skipn.
  rewrite Z.mod_small by (change (2 ^ 16)%Z with (Z.of_nat (2 ^ 16)); split; [lia|apply inj_lt; lia]).
  rewrite Nat2Z.id. apply IH; [|exact M]. intros i Hi. apply H. lia.
Qed.

(** words *)
Lemma words_from_word w : forall cur t, (forall c, In c w -> is_space c = false) ->
  words_from cur (w ++ t) = words_from (rev w ++ cur) t.
Proof.
  induction w as [|c w IH]; intros cur t H; [reflexivity|]. cbn [app words_from]. rewrite (H c) by now left.
  rewrite IH by (intros x X; apply H; now right). cbn [rev]. now rewrite <- app_assoc.
Qed.
Lemma words_blank s : (forall c, In c s -> is_space c = true) -> words s = [].
Proof.
  unfold words. induction s as [|c s IH]; intros H; [reflexivity|]. cbn [words_from]. rewrite (H c) by now left.
  apply IH. intros x X. apply H. now right.
Qed.
Lemma words_join ws : Forall (fun w => w <> [] /\ forall c, In c w -> is_space c = false) ws ->
  words (join " "%char ws) = ws.
Proof.
  unfold words. induction ws as [|w ws IH]; intros F; [reflexivity|].
  inversion F as [|? ? (N & W) F2]; subst. specialize (IH F2).
  destruct ws as [|w2 ws].
  - cbn [join]. rewrite <- (app_nil_r w) at 1. rewrite words_from_word by exact W. cbn [words_from].
    rewrite app_nil_r. destruct (rev w) eqn:E.
    + exfalso. apply N. apply (f_equal (@rev _)) in E. now rewrite rev_involutive in E.
    + rewrite <- E. now rewrite rev_involutive.
  - change (join " " (w :: w2 :: ws)) with (w ++ " "%char :: join " " (w2 :: ws)).
    rewrite words_from_word by exact W. cbn [words_from]. change (is_space " ") with true. cbn iota.
    rewrite app_nil_r, IH. destruct (rev w) eqn:E.
    + exfalso. apply N. apply (f_equal (@rev _)) in E. now rewrite rev_involutive in E.
    + rewrite <- E. now rewrite rev_involutive.
Qed.
