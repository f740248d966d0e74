(** C175: where the files of a log are and what they hold. *)
From Coq Require Import List ZArith Bool Ascii String Lia.
From Verif Require Import Base StringModel LogFileModel LogFileSpec LogFileProofs.
From Verif Require CompInitModel.
Import ListNotations.
Open Scope Z_scope.

(** In every history of loggers on any disk, the file DATA/logs_STAMP/STAMP_NAME of a logger that is made switched on holds at
    the end exactly the texts given to it while it was switched on, in order, provided the file can be written and no other
    logger of the history has the same file; settings files that are saved or not make no difference. *)
Theorem C175_own_file :
  forall (writable : str -> bool) (d : disk) (pre post : list call) (t : ltime) (name data ini : str) (save : bool) (w : world),
    let file := log_path data t name in
    run writable (at_start d) (pre ++ New t name data ini save true :: post) = Ok w ->
    writable file = true -> no_log_at file (pre ++ post) ->
    w_disk w file = Some (shown (made pre) true post).
Proof.
  intros wr d pre post t name data ini save w file H W N. rewrite run_app in H. destruct (run wr (at_start d) pre) as [w0| | |] eqn:R0; cbn [bind] in H; try discriminate.
  apply no_log_app in N. destruct N as [N0 N1]. pose proof (run_elsewhere _ _ _ _ _ R0 (start_elsewhere d file) N0) as [C0 E0].
  pose proof (run_length _ _ _ _ R0) as L. cbn in L. cbn [run perform] in H.
  destruct (new_logger wr w0 t name data ini save true) as [w1| | |] eqn:NL; cbn [bind] in H; try discriminate.
  destruct (new_spec _ _ _ _ _ _ _ _ _ C0 NL) as [[X _]|[_ (d' & CP & ->)]]; [discriminate|]. cbv zeta in CP. fold file in CP. rewrite W in CP.
  apply (run_owns wr post _ w file (made pre) true [] H); [|exact N1]. split; [split; [reflexivity|]|split]; cbn.
  - intros m lg X G O. apply nth_app_inv in G. destruct G as [G|[-> _]]; [exact (E0 m lg (fun f => f) G O)|congruence].
  - eapply copy_keeps; [exact CP|]. apply put_same.
  - eexists. rewrite nth_error_app2 by lia. replace (made pre - List.length (w_logs w0))%nat with 0%nat by lia. split; [reflexivity|]. cbn. fold file. rewrite W. auto.
Qed.
Print Assumptions C175_own_file.

(** Two logs of the same directory and name have different files if they are begun in different seconds of a century; so have two
    of different names. *)
Theorem C175_files_differ :
  forall (data : str) (t1 t2 : ltime) (n1 n2 : str),
    calendar t1 -> calendar t2 -> 2000 <= lt_year t1 < 2100 -> 2000 <= lt_year t2 < 2100 ->
    log_path data t1 n1 = log_path data t2 n2 -> t1 = t2 /\ n1 = n2.
Proof.
  intros data t1 t2 n1 n2 C1 C2 Y1 Y2 H. unfold log_path, log_dir in H. rewrite <- !app_assoc in H. apply app_inv_head in H.
  apply app_inj_length in H; [|reflexivity]. destruct H as [_ H]. apply app_inj_length in H; [|now rewrite !stamp_length]. destruct H as [S H].
  apply app_inv_head in H. apply app_inj_length in H; [|now rewrite !stamp_length]. destruct H as [_ H]. apply app_inv_head in H.
  split; [|exact H]. destruct (stamp_inj _ _ C1 C2 S) as (A & B & D & E & F & G).
  destruct t1 as [y1 mo1 d1 h1 mi1 s1], t2 as [y2 mo2 d2 h2 mi2 s2]; cbn in *. subst.
  pose proof (Z.div_mod y1 100 ltac:(lia)). pose proof (Z.div_mod y2 100 ltac:(lia)).
  assert (Q : forall y, 2000 <= y < 2100 -> y / 100 = 20) by (intros y X; symmetry; apply (Z.div_unique y 100 20 (y - 2000)); lia).
  rewrite (Q _ Y1) in *. rewrite (Q _ Y2) in *. f_equal. lia.
Qed.
Print Assumptions C175_files_differ.

(** That a simulation's log is there after the next simulation is refuted: two simulations begun in the same second, one after
    the other, have the same file, and only the rows of the second are left, whatever the first wrote. *)
Theorem C175_log_kept_refuted :
  forall (writable : str -> bool) (d : disk) (t : ltime) (name data ini a b : str),
    let file := log_path data t name in writable file = true ->
    exists w, run writable (at_start d) [New t name data ini false true; Text 0 a; Delete 0; New t name data ini false true; Text 1 b; Delete 1] = Ok w /\
      w_disk w file = Some b.
Proof.
  intros wr d t name data ini a b file W.
  assert (P : join (create_directory data (start_time t)) ((start_time t ++ lit "_") ++ name) = file) by apply join_log.
  unfold run at 1. cbn [perform bind]. unfold new_logger. cbn [negb w_created at_start orb]. cbv zeta. rewrite P, W. cbn [copy_file fl_save negb bind].
  unfold with_logger. cbn [w_logs app nth_error fl_alive at_start]. unfold write_text. cbn [fl_enabled fl_open fl_path fl_pos w_disk at_start]. rewrite put_same.
  cbn [w_created w_logs set_nth nth_error fl_alive w_disk negb orb bind app fl_enabled fl_save fl_open fl_path fl_pos fl_dir]. rewrite P, W.
  cbn [copy_file fl_save negb bind w_logs app nth_error fl_alive fl_enabled fl_open fl_path fl_pos w_disk w_created set_nth]. rewrite put_same.
  cbn [w_disk w_logs nth_error fl_alive set_nth w_created]. eexists. split; [reflexivity|]. cbn [w_disk]. rewrite put_same.
  unfold overwrite. cbn. now rewrite skipn_nil, app_nil_r.
Qed.
Print Assumptions C175_log_kept_refuted.

(** No logger changes a file that is there, except that beginning a log empties the file of that log: what a path holds at some
    time of a history it holds at the end, if it is not the file of a logger of the history. *)
Theorem C175_existing_files_kept :
  forall (writable : str -> bool) (d : disk) (pre post : list call) (w1 w2 : world) (p c : str),
    run writable (at_start d) pre = Ok w1 -> run writable (at_start d) (pre ++ post) = Ok w2 -> no_log_at p (pre ++ post) ->
    w_disk w1 p = Some c -> w_disk w2 p = Some c.
Proof.
  intros wr d pre post w1 w2 p c R1 R2 N D. rewrite run_app, R1 in R2. cbn [bind] in R2. apply no_log_app in N. destruct N as [N0 N1].
  eapply run_frame; [exact R2| |exact D|exact N1]. eapply run_elsewhere; [exact R1|apply start_elsewhere|exact N0].
Qed.
Print Assumptions C175_existing_files_kept.

(** the file name of a path *)
Definition named (p folder n : str) : Prop := p = folder ++ n /\ ~ In "/"%char n /\ (folder = [] \/ exists f, folder = f ++ lit "/").

Lemma filename_from_tail n : forall cur, ~ In "/"%char n -> filename_from n cur = rev cur ++ n.
Proof.
  induction n as [|c n IH]; intros cur N; cbn; [now rewrite app_nil_r|]. destruct (Ascii.eqb_spec c slash) as [->|E]; [exfalso; apply N; now left|].
  rewrite IH by (intros I; apply N; now right). cbn. now rewrite <- app_assoc.
Qed.
Lemma filename_from_folder f : forall cur n, filename_from (f ++ lit "/" ++ n) cur = filename_from n [].
Proof. induction f as [|c f IH]; intros cur n; cbn; [reflexivity|]. destruct (Ascii.eqb c slash); apply IH. Qed.
Lemma filename_named p f n : named p f n -> filename p = n.
Proof.
  intros (-> & N & [->|(g & ->)]); unfold filename; [exact (filename_from_tail n [] N)|].
  rewrite <- app_assoc, filename_from_folder. exact (filename_from_tail n [] N).
Qed.
Lemma join_named a n : ~ In "/"%char n -> a <> [] -> join a n = in_dir a ++ n.
Proof.
  intros N A. destruct n as [|c n].
  - rewrite app_nil_r. destruct a as [|x a]; [congruence|]. unfold join. unfold in_dir. rewrite <- ends_slash_last. destruct (ends_slash (x :: a)); [now rewrite app_nil_r|reflexivity].
  - apply join_relative. destruct (Ascii.eqb_spec c slash) as [->|]; [exfalso; apply N; now left|reflexivity].
Qed.

(** directory and saving of a logger never change *)
Lemma step_dir wr w c w' n lg :
  perform wr w c = Ok w' -> nth_error (w_logs w) n = Some lg ->
  exists lg', nth_error (w_logs w') n = Some lg' /\ fl_dir lg' = fl_dir lg /\ fl_save lg' = fl_save lg.
Proof.
  intros H G. destruct c as [t name data ini save en|i tx|i b|i ini|i]; cbn [perform] in H.
  - exists lg. split; [|auto]. unfold new_logger in H. destruct en; cbn [negb] in H; [cbv zeta in H; destruct (copy_file _ _ _ _) in H; cbn [bind] in H; try discriminate|]; injection H as <-; cbn; (rewrite nth_error_app1 by (apply nth_error_Some; congruence); exact G).
  - unfold with_logger in H. destruct (nth_error (w_logs w) i) as [li|] eqn:GI; [|discriminate]. destruct (fl_alive li); [|discriminate].
    destruct (write_text (w_disk w) li tx) as [d l'] eqn:WT in H. injection H as <-. cbn.
    assert (fl_dir l' = fl_dir li /\ fl_save l' = fl_save li) as [Q1 Q2].
    { unfold write_text in WT. destruct (fl_enabled li) in WT; [destruct (fl_open li) in WT; [destruct (w_disk w (fl_path li)) in WT|]|]; injection WT as <- <-; auto. }
    destruct (Nat.eq_dec n i) as [->|NE]; [rewrite G in GI; injection GI as <-; exists l'; split; [eapply nth_set_same; exact G|auto]|exists lg; rewrite nth_set_other by exact NE; auto].
  - unfold with_logger in H. destruct (nth_error (w_logs w) i) as [li|] eqn:GI; [|discriminate]. destruct (fl_alive li); [|discriminate]. injection H as <-. cbn.
    destruct (Nat.eq_dec n i) as [->|NE]; [rewrite G in GI; injection GI as <-; eexists; split; [eapply nth_set_same; exact G|auto]|exists lg; rewrite nth_set_other by exact NE; auto].
  - unfold with_logger in H. destruct (nth_error (w_logs w) i) as [li|] eqn:GI; [|discriminate]. destruct (fl_alive li); [|discriminate].
    destruct (copy_file _ _ _ _) in H; cbn [bind] in H; try discriminate. injection H as <-. eauto.
  - unfold with_logger in H. destruct (nth_error (w_logs w) i) as [li|] eqn:GI; [|discriminate]. destruct (fl_alive li); [|discriminate]. injection H as <-. cbn.
    destruct (Nat.eq_dec n i) as [->|NE]; [rewrite G in GI; injection GI as <-; eexists; split; [eapply nth_set_same; exact G|auto]|exists lg; rewrite nth_set_other by exact NE; auto].
Qed.
Lemma run_dir wr cs : forall w w' n lg,
  run wr w cs = Ok w' -> nth_error (w_logs w) n = Some lg ->
  exists lg', nth_error (w_logs w') n = Some lg' /\ fl_dir lg' = fl_dir lg /\ fl_save lg' = fl_save lg.
Proof.
  induction cs as [|c r IH]; intros w w' n lg H G; cbn [run] in H; [injection H as <-; eauto|].
  destruct (perform wr w c) as [w1| | |] eqn:P; cbn [bind] in H; try discriminate. destruct (step_dir _ _ _ _ _ _ P G) as (l1 & G1 & D1 & S1).
  destruct (IH _ _ _ _ H G1) as (l2 & G2 & D2 & S2). exists l2. split; [exact G2|]. split; congruence.
Qed.

(** Saving a settings file .../n with a logger that is on and saves: afterwards the file n of the log's directory holds what the
    settings file holds, if there was no file n in it yet; otherwise nothing changes on the disk. A missing settings file whose
    name is not there yet stops the program; a logger that does not save changes nothing. *)
Theorem C175_saved_files :
  forall (writable : str -> bool) (d : disk) (pre post : list call) (t : ltime) (name data ini : str) (save : bool) (w1 : world) (p folder n : str),
    run writable (at_start d) (pre ++ New t name data ini save true :: post) = Ok w1 -> named p folder n ->
    let to := log_dir data t ++ n in
    let after := run writable (at_start d) ((pre ++ New t name data ini save true :: post) ++ [Copy (made pre) p]) in
    (forall w2, after = Ok w2 ->
       (save = false -> forall q, w_disk w2 q = w_disk w1 q) /\
       (save = true -> (forall c, w_disk w1 to = Some c -> forall q, w_disk w2 q = w_disk w1 q) /\
                       (w_disk w1 to = None -> w_disk w1 p <> None /\ w_disk w2 to = w_disk w1 p /\ forall q, q <> to -> w_disk w2 q = w_disk w1 q))) /\
    (save = true -> w_disk w1 to = None -> w_disk w1 p = None -> after = Throw \/ after = UB).
Proof.
  intros wr d pre post t name data ini save w1 p folder n R NM to after. subst after. rewrite run_app, R. cbn [bind run perform].
  assert (LG : exists lg, nth_error (w_logs w1) (made pre) = Some lg /\ in_dir (fl_dir lg) = log_dir data t /\ fl_dir lg <> [] /\ fl_save lg = save).
  { rewrite run_app in R. destruct (run wr (at_start d) pre) as [w0| | |] eqn:R0; cbn [bind] in R; try discriminate. cbn [run perform] in R.
    pose proof (run_length _ _ _ _ R0) as L. cbn in L.
    assert (C0 : w_created w0 = false).
    { clear -R0. assert (G : forall cs w w', run wr w cs = Ok w' -> w_created w' = w_created w).
      { induction cs as [|c r IH]; intros w w' H; cbn [run] in H; [now injection H as <-|]. destruct (perform wr w c) as [w1| | |] eqn:P; cbn [bind] in H; try discriminate.
        rewrite (IH _ _ H). clear -P. destruct c; cbn [perform] in P; unfold new_logger, with_logger in P.
        - destruct (negb en); [now injection P as <-|]. cbv zeta in P. destruct (copy_file _ _ _ _) in P; cbn [bind] in P; try discriminate. now injection P as <-.
        - destruct (nth_error _ _) in P; [|discriminate]. destruct (fl_alive _) in P; [|discriminate]. destruct (write_text _ _ _) in P. now injection P as <-.
        - destruct (nth_error _ _) in P; [|discriminate]. destruct (fl_alive _) in P; [|discriminate]. now injection P as <-.
        - destruct (nth_error _ _) in P; [|discriminate]. destruct (fl_alive _) in P; [|discriminate]. destruct (copy_file _ _ _ _) in P; cbn [bind] in P; try discriminate. now injection P as <-.
        - destruct (nth_error _ _) in P; [|discriminate]. destruct (fl_alive _) in P; [|discriminate]. now injection P as <-. }
      now rewrite (G _ _ _ R0). }
    destruct (new_logger wr w0 t name data ini save true) as [wn| | |] eqn:NL; cbn [bind] in R; try discriminate.
    destruct (new_spec _ _ _ _ _ _ _ _ _ C0 NL) as [[X _]|[_ (d' & CP & ->)]]; [discriminate|].
    set (l0 := mkFlog true save (join data (lit "logs_" ++ start_time t)) (wr (log_path data t name)) (log_path data t name) 0 true) in *.
    assert (G0 : nth_error (w_logs w0 ++ [l0]) (made pre) = Some l0) by (rewrite nth_error_app2 by lia; replace (made pre - List.length (w_logs w0))%nat with 0%nat by lia; reflexivity).
    destruct (run_dir _ _ _ _ _ l0 R G0) as (lg & G & D & S). exists lg. split; [exact G|]. rewrite D, S. cbn [fl_dir fl_save l0].
    split; [apply in_dir_logs|]. split; [|reflexivity]. intros Z. pose proof (in_dir_logs data t) as Q. rewrite Z in Q. unfold log_dir in Q. cbn in Q.
    symmetry in Q. apply app_eq_nil in Q. destruct Q as [_ Q]. discriminate. }
  destruct LG as (lg & G & DIR & NE & SV). unfold with_logger. rewrite G. unfold copy_file. rewrite SV, (filename_named _ _ _ NM).
  destruct NM as (_ & NS & _). rewrite (join_named _ _ NS NE), DIR. fold to.
  destruct (fl_alive lg); cbn [bind]; [|split; [discriminate|auto]].
  destruct save; cbn [negb].
  - destruct (w_disk w1 to) as [c|] eqn:T; cbn [bind].
    + split; [|discriminate]. intros w2 H. injection H as <-. split; [discriminate|]. intros _. split; [reflexivity|discriminate].
    + destruct (w_disk w1 p) as [c|] eqn:PP; cbn [bind].
      * split; [|discriminate]. destruct (wr to); cbn [bind]; [|discriminate]. intros w2 H. injection H as <-. split; [discriminate|]. intros _. split; [discriminate|]. intros _.
        split; [discriminate|]. cbn. split; [rewrite put_same; reflexivity|]. intros q Q. apply put_other. congruence.
      * split; [discriminate|auto].
  - cbn [bind]. split; [|discriminate]. intros w2 H. injection H as <-. split; [reflexivity|discriminate].
Qed.
Print Assumptions C175_saved_files.

(** That every settings file of a run is saved is refuted: of two files of the same name in different directories only the first is. *)
Theorem C175_all_settings_saved_refuted :
  ~ (forall (writable : str -> bool) (d : disk) (cs : list call) (w : world) (t : ltime) (name data ini p folder n : str),
       run writable (at_start d) (New t name data ini true true :: cs) = Ok w -> In (Copy 0 p) cs -> named p folder n ->
       w_disk w (log_dir data t ++ n) = d p).
Proof.
  intros H.
  set (d := put (put (put (fun _ => None) (lit "base.ini") (lit "b")) (lit "sat0/local.ini") (lit "first")) (lit "sat1/local.ini") (lit "second")).
  set (t := mkTime 2024 5 17 9 3 4).
  assert (R : exists w, run (fun _ => true) (at_start d) [New t (lit "default.csv") (lit "logs") (lit "base.ini") true true; Copy 0 (lit "sat0/local.ini"); Copy 0 (lit "sat1/local.ini")] = Ok w /\
    w_disk w (log_dir (lit "logs") t ++ lit "local.ini") = Some (lit "first")).
  { eexists. split; [reflexivity|]. vm_compute. reflexivity. }
  destruct R as (w & R & E).
  specialize (H (fun _ => true) d _ w t _ _ _ (lit "sat1/local.ini") (lit "sat1/") (lit "local.ini") R).
  rewrite E in H. assert (X : Some (lit "first") = d (lit "sat1/local.ini")).
  { apply H; [cbn; auto|]. split; [reflexivity|]. split; [cbn; intuition discriminate|]. right. exists (lit "sat1"). reflexivity. }
  vm_compute in X. discriminate.
Qed.
Print Assumptions C175_all_settings_saved_refuted.

(** A log that is switched off and does not save leaves the disk as it is, whatever is done with it; that a log that is switched
    off leaves the disk as it is, is refuted: when settings files are saved, they go to the working directory. *)
Theorem C175_switched_off :
  (forall (writable : str -> bool) (d : disk) (cs : list call) (w : world),
     (forall t name data ini save en, In (New t name data ini save en) cs -> save = false /\ en = false) ->
     run writable (at_start d) cs = Ok w -> forall p, w_disk w p = d p) /\
  (forall (writable : str -> bool) (d : disk) (t : ltime) (name data ini p folder n c : str),
     named p folder n -> n <> [] -> d p = Some c -> d n = None -> writable n = true ->
     exists w, run writable (at_start d) [New t name data ini true false; Copy 0 p] = Ok w /\ w_disk w n = Some c).
Proof.
  split.
  - intros wr d cs w Q R.
    assert (G : forall cs w0 w1, (forall t name data ini save en, In (New t name data ini save en) cs -> save = false /\ en = false) ->
      Forall (fun lg => fl_open lg = false /\ fl_save lg = false) (w_logs w0) -> run wr w0 cs = Ok w1 -> forall p, w_disk w1 p = w_disk w0 p).
    { clear. induction cs as [|c r IH]; intros w0 w1 Q F H p; cbn [run] in H; [now injection H as <-|].
      destruct (perform wr w0 c) as [wm| | |] eqn:P; cbn [bind] in H; try discriminate.
      assert (S : (forall p, w_disk wm p = w_disk w0 p) /\ Forall (fun lg => fl_open lg = false /\ fl_save lg = false) (w_logs wm)).
      { assert (SET : forall l i x, Forall (fun lg => fl_open lg = false /\ fl_save lg = false) l -> fl_open x = false /\ fl_save x = false -> Forall (fun lg => fl_open lg = false /\ fl_save lg = false) (set_nth l i x)).
        { induction l as [|a l IHl]; intros [|i] x FL X; cbn; auto; inversion FL; subst; constructor; auto. }
        clear H IH. destruct c as [t name data ini save en|i tx|i b|i ini|i]; cbn [perform] in P.
        - destruct (Q t name data ini save en (or_introl eq_refl)) as [-> ->]. injection P as <-. cbn. split; [reflexivity|]. apply Forall_app. split; [exact F|]. constructor; auto.
        - unfold with_logger in P. destruct (nth_error (w_logs w0) i) as [li|] eqn:G; [|discriminate]. destruct (fl_alive li); [|discriminate].
          pose proof (proj1 (Forall_forall _ _) F li (nth_error_In _ _ G)) as [O S]. unfold write_text in P. rewrite O in P. destruct (fl_enabled li) in P; injection P as <-; cbn; auto.
        - unfold with_logger in P. destruct (nth_error (w_logs w0) i) as [li|] eqn:G; [|discriminate]. destruct (fl_alive li); [|discriminate].
          pose proof (proj1 (Forall_forall _ _) F li (nth_error_In _ _ G)) as [O S]. injection P as <-. cbn. auto.
        - unfold with_logger in P. destruct (nth_error (w_logs w0) i) as [li|] eqn:G; [|discriminate]. destruct (fl_alive li); [|discriminate].
          pose proof (proj1 (Forall_forall _ _) F li (nth_error_In _ _ G)) as [O S]. unfold copy_file in P. rewrite S in P. cbn [negb bind] in P. injection P as <-. auto.
        - unfold with_logger in P. destruct (nth_error (w_logs w0) i) as [li|] eqn:G; [|discriminate]. destruct (fl_alive li); [|discriminate].
          pose proof (proj1 (Forall_forall _ _) F li (nth_error_In _ _ G)) as [O S]. injection P as <-. cbn. auto. }
      destruct S as [S1 S2]. rewrite (IH wm w1); [apply S1| |exact S2|exact H]. intros t0 n0 d0 i0 s0 e0 I. apply (Q t0 n0 d0 i0 s0 e0). now right. }
    intros p. apply (G cs (at_start d) w Q); [constructor|exact R].
  - intros wr d t name data ini p folder n c NM NN DP DN W. cbn [run perform bind]. unfold new_logger. cbn [negb bind with_logger w_logs at_start app nth_error fl_alive].
    unfold with_logger. cbn [w_logs nth_error fl_alive w_disk]. unfold copy_file. cbn [fl_save negb fl_dir]. rewrite (filename_named _ _ _ NM).
    assert (J : join [] n = n). { destruct NM as (_ & NS & _). destruct n as [|x n]; [congruence|]. unfold join. destruct (Ascii.eqb x slash); reflexivity. }
    rewrite J. cbn [w_disk at_start]. rewrite DN, DP, W. cbn [bind]. eexists. split; [reflexivity|]. cbn. apply put_same.
Qed.
Print Assumptions C175_switched_off.

(** The log of a simulation is DIR/logs_STAMP/STAMP_default.csv with DIR the file's log_file_save_directory, that of a Monte
    Carlo simulation DIR/logs_STAMP/STAMP_monte_carlo.csv; they are in a new directory whether settings files are saved or not. *)
Theorem C175_from_settings_file :
  forall (writable : str -> bool) (d : disk) (f : CompInitModel.ini) (base : str) (pre post : list call) (t : ltime) (w : world),
    let dir := CompInitModel.rd_string f (lit "SIMULATION_SETTINGS") (lit "log_file_save_directory") in
    let saved := CompInitModel.rd_string f (lit "SIMULATION_SETTINGS") (lit "save_initialize_files") in
    let log (name : str) (c : call) :=
      let file := log_path dir t name in
      run writable (at_start d) (pre ++ c :: post) = Ok w -> writable file = true -> no_log_at file (pre ++ post) ->
      w_disk w file = Some (shown (made pre) true post) in
    log (lit "default.csv") (init_log f t base) /\ log (lit "monte_carlo.csv") (init_monte_carlo_log f t base true) /\
    (saved <> lit "ENABLE" -> saved <> lit "1" -> run writable (at_start d) (pre ++ init_monte_carlo_log f t base false :: post) = Ok w ->
       (forall c, In c (pre ++ post) -> quiet c) -> forall p, w_disk w p = d p).
Proof.
  intros wr d f base pre post t w dir saved log. repeat split.
  - intros R W N. eapply C175_own_file; eassumption.
  - intros R W N. eapply C175_own_file; eassumption.
  - intros N1 N2 R Q. refine (proj1 C175_switched_off wr d _ w _ R). intros t0 n0 d0 i0 s0 e0 I. apply in_app_or in I. destruct I as [I|[I|I]].
    + apply (Q (New t0 n0 d0 i0 s0 e0)). apply in_or_app. now left.
    + unfold init_monte_carlo_log in I. injection I as <- <- <- <- <- <-. split; [|reflexivity]. unfold CompInitModel.rd_enable. cbv zeta. change (str_eqb saved (lit "ENABLE") || str_eqb saved (lit "1") = false)%bool.
      destruct (str_eqb saved (lit "ENABLE")) eqn:E1; [apply eqb_true_str in E1; contradiction|]. destruct (str_eqb saved (lit "1")) eqn:E2; [apply eqb_true_str in E2; contradiction|]. reflexivity.
    + apply (Q (New t0 n0 d0 i0 s0 e0)). apply in_or_app. now right.
Qed.
Print Assumptions C175_from_settings_file.

(** The hypotheses are met: two logs of a run, one switched off for a while, settings files saved. *)
Definition ex_disk : disk := put (put (fun _ => None) (lit "base.ini") (lit "b")) (lit "sat0/local.ini") (lit "first").
Definition ex_pre : list call := [New (mkTime 2024 5 17 9 3 4) (lit "monte_carlo.csv") (lit "out/") (lit "base.ini") true true].
Definition ex_post : list call := [Text 1 (lit "time[s],"); Copy 1 (lit "sat0/local.ini"); Enable 1 false; Text 1 (lit "lost"); Text 0 (lit "mc"); Enable 1 true; Text 1 (lit "0,"); Delete 1; Delete 0].
Example C175_witness :
  let t := mkTime 2024 5 17 9 3 5 in
  let file := log_path (lit "out/") t (lit "default.csv") in
  calendar t /\ file = lit "out/logs_240517_090305/240517_090305_default.csv" /\ shown (made ex_pre) true ex_post = lit "time[s],0," /\
  no_log_at file (ex_pre ++ ex_post) /\
  match run (fun _ => true) (at_start ex_disk) (ex_pre ++ New t (lit "default.csv") (lit "out/") (lit "base.ini") true true :: ex_post) with
  | Ok w =>
    w_disk w (lit "out/logs_240517_090305/240517_090305_default.csv") = Some (lit "time[s],0,") /\
    w_disk w (lit "out/logs_240517_090304/240517_090304_monte_carlo.csv") = Some (lit "mc") /\
    w_disk w (lit "out/logs_240517_090305/local.ini") = Some (lit "first") /\ w_disk w (lit "out/logs_240517_090305/base.ini") = Some (lit "b")
  | _ => False
  end.
Proof.
  cbv zeta. split; [unfold calendar; cbn [lt_month lt_day lt_hour lt_min lt_sec]; lia|]. split; [vm_compute; reflexivity|]. split; [vm_compute; reflexivity|]. split.
  - intros t n dd i s I. cbn [app ex_pre ex_post In] in I. repeat (destruct I as [I|I]; [try discriminate; injection I as <- <- <- <- <-; vm_compute; discriminate|]). destruct I.
  - vm_compute. auto.
Qed.
