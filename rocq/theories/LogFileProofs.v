From Coq Require Import List ZArith Bool Ascii String Lia.
From Verif Require Import Base StringModel LogFileModel LogFileSpec.
Import ListNotations.
Open Scope Z_scope.

Lemma eqb_refl_str s : str_eqb s s = true.
Proof. induction s as [|c s IH]; cbn; [reflexivity|]. now rewrite Ascii.eqb_refl, IH. Qed.
Lemma eqb_true_str a : forall b, str_eqb a b = true -> a = b.
Proof.
  induction a as [|c a IH]; intros [|e b] H; cbn in H; try discriminate; [reflexivity|].
  apply andb_prop in H. destruct H as [H1 H2]. apply Ascii.eqb_eq in H1. rewrite (IH b H2). now subst.
Qed.
Lemma put_same d p s : put d p s p = Some s.
Proof. unfold put. now rewrite eqb_refl_str. Qed.
Lemma put_other d p q s : p <> q -> put d p s q = d q.
Proof. intros N. unfold put. destruct (str_eqb q p) eqn:E; [|reflexivity]. apply eqb_true_str in E. congruence. Qed.
Lemma overwrite_end c s : overwrite c (List.length c) s = c ++ s.
Proof. unfold overwrite. rewrite firstn_all, Nat.sub_diag, skipn_all2 by lia. cbn. now rewrite app_nil_r. Qed.

(** paths *)
Lemma ends_slash_last a : ends_slash a = Ascii.eqb (last a "."%char) "/"%char.
Proof.
  unfold ends_slash, slash. destruct (rev a) as [|c r] eqn:E.
  - apply (f_equal (@rev ascii)) in E. rewrite rev_involutive in E. subst. reflexivity.
  - apply (f_equal (@rev ascii)) in E. rewrite rev_involutive in E. cbn in E. subst. now rewrite last_last.
Qed.
Lemma chr_not_slash n : 0 <= n < 10 -> Ascii.eqb (chr (48 + n)) "/"%char = false.
Proof. intros H. assert (C : n = 0 \/ n = 1 \/ n = 2 \/ n = 3 \/ n = 4 \/ n = 5 \/ n = 6 \/ n = 7 \/ n = 8 \/ n = 9) by lia. repeat (destruct C as [->|C]; [reflexivity|]). now subst. Qed.
Lemma join_relative a c b : Ascii.eqb c slash = false -> join a (c :: b) = in_dir a ++ c :: b.
Proof.
  intros N. unfold join. rewrite N. unfold in_dir. destruct a as [|x a]; [reflexivity|]. rewrite <- ends_slash_last.
  destruct (ends_slash (x :: a)); [reflexivity|]. rewrite <- app_assoc. reflexivity.
Qed.
Lemma stamp_start t : start_time t = stamp t.
Proof. reflexivity. Qed.
Lemma stamp_head t : exists c r, stamp t = c :: r /\ Ascii.eqb c slash = false.
Proof.
  exists (chr (48 + lt_year t mod 100 / 10)). eexists. split; [reflexivity|]. apply chr_not_slash.
  pose proof (Z.mod_pos_bound (lt_year t) 100). split; [apply Z.div_pos; lia|]. apply Z.div_lt_upper_bound; lia.
Qed.
Lemma stamp_last t d : last (stamp t) d = chr (48 + lt_sec t mod 10).
Proof. reflexivity. Qed.
Lemma last_app_nonempty (a b : str) d : b <> [] -> last (a ++ b) d = last b d.
Proof.
  intros N. destruct (exists_last N) as (b' & x & ->). rewrite app_assoc. now rewrite !last_last.
Qed.
Lemma in_dir_add a : a <> [] -> Ascii.eqb (last a "."%char) "/"%char = false -> in_dir a = a ++ lit "/".
Proof. intros N E. unfold in_dir. rewrite E. destruct a; congruence. Qed.
Lemma in_dir_logs data t : in_dir (join data (lit "logs_" ++ start_time t)) = log_dir data t.
Proof.
  rewrite stamp_start. change (lit "logs_" ++ stamp t) with ("l"%char :: (lit "ogs_" ++ stamp t)). rewrite join_relative by reflexivity.
  unfold log_dir. change (lit "logs_" ++ stamp t ++ lit "/") with ((lit "logs_" ++ stamp t) ++ lit "/").
  change ("l"%char :: (lit "ogs_" ++ stamp t)) with (lit "logs_" ++ stamp t). rewrite app_assoc.
  rewrite in_dir_add.
  - now rewrite <- !app_assoc.
  - intros F. apply app_eq_nil in F. destruct F as [F _]. apply app_eq_nil in F. destruct F as [_ F]. discriminate.
  - rewrite <- app_assoc. rewrite app_assoc, last_app_nonempty by discriminate. rewrite stamp_last. apply chr_not_slash. apply Z.mod_pos_bound. lia.
Qed.
Lemma join_log data t name : join (join data (lit "logs_" ++ start_time t)) ((start_time t ++ lit "_") ++ name) = log_path data t name.
Proof.
  rewrite (stamp_start t) at 2. destruct (stamp_head t) as (c & r & E & N).
  assert (F : (stamp t ++ lit "_") ++ name = c :: r ++ lit "_" ++ name) by (rewrite E; cbn; now rewrite <- !app_assoc).
  rewrite F, join_relative by exact N. rewrite in_dir_logs. unfold log_path. f_equal. now rewrite E.
Qed.

(** lists of loggers *)
Lemma nth_set_same l : forall n x y, nth_error l n = Some y -> nth_error (set_nth l n x) n = Some x.
Proof. induction l as [|a l IH]; intros [|n] x y H; cbn in *; try discriminate; eauto. Qed.
Lemma nth_set_other l : forall n m x, m <> n -> nth_error (set_nth l n x) m = nth_error l m.
Proof. induction l as [|a l IH]; intros [|n] [|m] x H; cbn in *; auto; try congruence. Qed.
Lemma length_set l : forall n x, List.length (set_nth l n x) = List.length l.
Proof. induction l as [|a l IH]; intros [|n] x; cbn; auto. Qed.
Lemma nth_app_inv {A} (l : list A) x m y : nth_error (l ++ [x]) m = Some y -> nth_error l m = Some y \/ (m = List.length l /\ y = x).
Proof.
  intros H. destruct (Nat.lt_ge_cases m (List.length l)) as [L|L]; [left; now rewrite nth_error_app1 in H|].
  rewrite nth_error_app2 in H by lia. destruct (m - List.length l)%nat as [|k] eqn:E; cbn in H; [right|destruct k; discriminate].
  injection H as <-. split; [lia|reflexivity].
Qed.

(** copies leave existing files alone *)
Lemma copy_keeps wr lg d ini d' p s : copy_file wr lg d ini = Ok d' -> d p = Some s -> d' p = Some s.
Proof.
  unfold copy_file. destruct (negb (fl_save lg)); [congruence|]. cbv zeta. destruct (d (join (fl_dir lg) (filename ini))) eqn:E; [congruence|].
  destruct (d ini); [|discriminate]. destruct (wr _); [|discriminate]. intros H P. injection H as <-. rewrite put_other; [exact P|]. congruence.
Qed.

(** all open loggers outside [except] have their file elsewhere; Logger::is_directory_created_ stays false *)
Definition elsewhere (p : str) (except : nat -> Prop) (w : world) : Prop :=
  w_created w = false /\ forall m lg, ~ except m -> nth_error (w_logs w) m = Some lg -> fl_open lg = true -> fl_path lg <> p.

Lemma new_spec wr w t name data ini save en w' :
  w_created w = false -> new_logger wr w t name data ini save en = Ok w' ->
  (en = false /\ w' = mkWorld (w_disk w) false (w_logs w ++ [mkFlog false save [] false [] 0 true])) \/
  (en = true /\ let p := log_path data t name in
    let lg := mkFlog true save (join data (lit "logs_" ++ start_time t)) (wr p) p 0 true in
    let d := if wr p then put (w_disk w) p [] else w_disk w in
    exists d', copy_file wr lg d ini = Ok d' /\ w' = mkWorld d' false (w_logs w ++ [lg])).
Proof.
  intros C H. unfold new_logger in H. rewrite C in H. destruct en; cbn [negb] in H.
  - right. split; [reflexivity|]. cbv zeta in *. rewrite orb_true_r in H. unfold create_directory in H. rewrite join_log in H.
    destruct (copy_file _ _ _ _) as [d'| | |] eqn:E; cbn [bind] in H; try discriminate. injection H as <-. eauto.
  - left. injection H as <-. auto.
Qed.

(** a file that no logger has open is not changed by a call that does not open it *)
Lemma step_frame wr w c w' p s :
  perform wr w c = Ok w' -> elsewhere p (fun _ => False) w -> w_disk w p = Some s ->
  no_log_at p [c] -> w_disk w' p = Some s /\ elsewhere p (fun _ => False) w'.
Proof.
  intros H [C E] D N. destruct c as [t name data ini save en|i tx|i b|i ini|i]; cbn [perform] in H.
  - destruct (new_spec _ _ _ _ _ _ _ _ _ C H) as [[-> ->]|[-> (d' & CP & ->)]]; cbn.
    + split; [exact D|]. split; [reflexivity|]. intros m lg X G O; cbn in G. apply nth_app_inv in G. destruct G as [G|[_ ->]]; [eauto|discriminate].
    + assert (Q : log_path data t name <> p) by (apply (N t name data ini save); left; reflexivity).
      split; [eapply copy_keeps; [exact CP|]; destruct (wr _); [rewrite put_other by exact Q|]; exact D|].
      split; [reflexivity|]. intros m lg X G O; cbn in G. apply nth_app_inv in G. destruct G as [G|[_ ->]]; [eauto|exact Q].
  - unfold with_logger in H. destruct (nth_error (w_logs w) i) as [lg|] eqn:G; [|discriminate]. destruct (fl_alive lg); [|discriminate].
    unfold write_text in H. destruct (fl_enabled lg) eqn:EN; [destruct (fl_open lg) eqn:OP; [destruct (w_disk w (fl_path lg)) as [x|] eqn:DX|]|]; injection H as <-; cbn.
    + pose proof (E i lg (fun f => f) G OP) as Q. split; [rewrite put_other by exact Q; exact D|]. split; [exact C|]. intros m l X G2 O; cbn in G2.
      destruct (Nat.eq_dec m i) as [->|NE]; [rewrite (nth_set_same _ _ _ _ G) in G2; injection G2 as <-; exact Q|rewrite nth_set_other in G2 by exact NE; eauto].
    + split; [exact D|]. split; [exact C|]. intros m l X G2 O; cbn in G2.
      destruct (Nat.eq_dec m i) as [->|NE]; [rewrite (nth_set_same _ _ _ _ G) in G2; injection G2 as <-; eauto|rewrite nth_set_other in G2 by exact NE; eauto].
    + split; [exact D|]. split; [exact C|]. intros m l X G2 O; cbn in G2.
      destruct (Nat.eq_dec m i) as [->|NE]; [rewrite (nth_set_same _ _ _ _ G) in G2; injection G2 as <-; eauto|rewrite nth_set_other in G2 by exact NE; eauto].
    + split; [exact D|]. split; [exact C|]. intros m l X G2 O; cbn in G2.
      destruct (Nat.eq_dec m i) as [->|NE]; [rewrite (nth_set_same _ _ _ _ G) in G2; injection G2 as <-; eauto|rewrite nth_set_other in G2 by exact NE; eauto].
  - unfold with_logger in H. destruct (nth_error (w_logs w) i) as [lg|] eqn:G; [|discriminate]. destruct (fl_alive lg); [|discriminate].
    injection H as <-. cbn. split; [exact D|]. split; [exact C|]. intros m l X G2 O; cbn in G2.
    destruct (Nat.eq_dec m i) as [->|NE]; [rewrite (nth_set_same _ _ _ _ G) in G2; injection G2 as <-; cbn in *; eauto|rewrite nth_set_other in G2 by exact NE; eauto].
  - unfold with_logger in H. destruct (nth_error (w_logs w) i) as [lg|] eqn:G; [|discriminate]. destruct (fl_alive lg); [|discriminate].
    destruct (copy_file _ _ _ _) as [d'| | |] eqn:CP; cbn [bind] in H; try discriminate. injection H as <-. cbn. split; [eapply copy_keeps; eauto|]. split; assumption.
  - unfold with_logger in H. destruct (nth_error (w_logs w) i) as [lg|] eqn:G; [|discriminate]. destruct (fl_alive lg); [|discriminate].
    injection H as <-. cbn. split; [exact D|]. split; [exact C|]. intros m l X G2 O; cbn in G2.
    destruct (Nat.eq_dec m i) as [->|NE]; [rewrite (nth_set_same _ _ _ _ G) in G2; injection G2 as <-; discriminate|rewrite nth_set_other in G2 by exact NE; eauto].
Qed.

(** [elsewhere] needs no file there *)
Lemma step_elsewhere wr w c w' p :
  perform wr w c = Ok w' -> elsewhere p (fun _ => False) w -> no_log_at p [c] -> elsewhere p (fun _ => False) w'.
Proof.
  intros H [C E] N. destruct c as [t name data ini save en|i tx|i b|i ini|i]; cbn [perform] in H.
  - destruct (new_spec _ _ _ _ _ _ _ _ _ C H) as [[-> ->]|[-> (d' & CP & ->)]]; cbn; (split; [reflexivity|]); intros m lg X G O; apply nth_app_inv in G; (destruct G as [G|[_ ->]]; [eauto|]); [discriminate|].
    apply (N t name data ini save). left. reflexivity.
  - unfold with_logger in H. destruct (nth_error (w_logs w) i) as [lg|] eqn:G; [|discriminate]. destruct (fl_alive lg); [|discriminate].
    unfold write_text in H.
    destruct (fl_enabled lg) eqn:EN; [destruct (fl_open lg) eqn:OP; [destruct (w_disk w (fl_path lg)) as [x|] eqn:DX|]|]; injection H as <-; (split; [exact C|]); cbn; intros m l X G2 O; cbn in G2;
      (destruct (Nat.eq_dec m i) as [->|NE]; [rewrite (nth_set_same _ _ _ _ G) in G2; injection G2 as <-; cbn in *; eauto|rewrite nth_set_other in G2 by exact NE; eauto]).
  - unfold with_logger in H. destruct (nth_error (w_logs w) i) as [lg|] eqn:G; [|discriminate]. destruct (fl_alive lg); [|discriminate].
    injection H as <-. cbn. split; [exact C|]. cbn. intros m l X G2 O; cbn in G2.
    destruct (Nat.eq_dec m i) as [->|NE]; [rewrite (nth_set_same _ _ _ _ G) in G2; injection G2 as <-; cbn in *; eauto|rewrite nth_set_other in G2 by exact NE; eauto].
  - unfold with_logger in H. destruct (nth_error (w_logs w) i) as [lg|] eqn:G; [|discriminate]. destruct (fl_alive lg); [|discriminate].
    destruct (copy_file _ _ _ _) as [d'| | |] eqn:CP; cbn [bind] in H; try discriminate. injection H as <-. split; assumption.
  - unfold with_logger in H. destruct (nth_error (w_logs w) i) as [lg|] eqn:G; [|discriminate]. destruct (fl_alive lg); [|discriminate].
    injection H as <-. split; [exact C|]. cbn. intros m l X G2 O; cbn in G2.
    destruct (Nat.eq_dec m i) as [->|NE]; [rewrite (nth_set_same _ _ _ _ G) in G2; injection G2 as <-; discriminate|rewrite nth_set_other in G2 by exact NE; eauto].
Qed.

Lemma no_log_cons p c r : no_log_at p (c :: r) -> no_log_at p [c] /\ no_log_at p r.
Proof. intros H. split; intros t n d i s I; apply (H t n d i s); [destruct I as [->|[]]; now left|now right]. Qed.
Lemma no_log_app p a b : no_log_at p (a ++ b) -> no_log_at p a /\ no_log_at p b.
Proof. intros H. split; intros t n d i s I; apply (H t n d i s); apply in_or_app; auto. Qed.

Lemma run_frame wr cs : forall w w' p s,
  run wr w cs = Ok w' -> elsewhere p (fun _ => False) w -> w_disk w p = Some s -> no_log_at p cs -> w_disk w' p = Some s.
Proof.
  induction cs as [|c r IH]; intros w w' p s H E D N; cbn [run] in H; [now injection H as <-|].
  destruct (perform wr w c) as [w1| | |] eqn:P; cbn [bind] in H; try discriminate. apply no_log_cons in N. destruct N as [N1 N2].
  destruct (step_frame _ _ _ _ _ _ P E D N1) as [D1 E1]. eauto.
Qed.
Lemma run_elsewhere wr cs : forall w w' p,
  run wr w cs = Ok w' -> elsewhere p (fun _ => False) w -> no_log_at p cs -> elsewhere p (fun _ => False) w'.
Proof.
  induction cs as [|c r IH]; intros w w' p H E N; cbn [run] in H; [now injection H as <-|].
  destruct (perform wr w c) as [w1| | |] eqn:P; cbn [bind] in H; try discriminate. apply no_log_cons in N. destruct N as [N1 N2].
  eapply IH; [exact H|eapply step_elsewhere; eauto|exact N2].
Qed.
Lemma run_app wr a : forall b w, run wr w (a ++ b) = bind (run wr w a) (fun w' => run wr w' b).
Proof. induction a as [|c r IH]; intros b w; cbn; [reflexivity|]. destruct (perform wr w c); cbn; auto. Qed.
Lemma start_elsewhere d p : elsewhere p (fun _ => False) (at_start d).
Proof. split; [reflexivity|]. intros [|m] lg _ G; discriminate. Qed.

(** loggers are numbered in the order of their construction *)
Lemma step_length wr w c w' : perform wr w c = Ok w' -> List.length (w_logs w') = (List.length (w_logs w) + made [c])%nat.
Proof.
  intros H. destruct c as [t name data ini save en|i tx|i b|i ini|i]; cbn [perform] in H.
  - unfold new_logger in H. destruct en; cbn [negb] in H; [cbv zeta in H; destruct (copy_file _ _ _ _) in H; cbn [bind] in H; try discriminate|]; injection H as <-; cbn; now rewrite app_length.
  - unfold with_logger in H. destruct (nth_error (w_logs w) i) as [lg|]; [|discriminate]. destruct (fl_alive lg); [|discriminate].
    destruct (write_text _ _ _) in H. injection H as <-. cbn. rewrite length_set. lia.
  - unfold with_logger in H. destruct (nth_error (w_logs w) i) as [lg|]; [|discriminate]. destruct (fl_alive lg); [|discriminate]. injection H as <-. cbn. rewrite length_set. lia.
  - unfold with_logger in H. destruct (nth_error (w_logs w) i) as [lg|]; [|discriminate]. destruct (fl_alive lg); [|discriminate].
    destruct (copy_file _ _ _ _) in H; cbn [bind] in H; try discriminate. injection H as <-. cbn. lia.
  - unfold with_logger in H. destruct (nth_error (w_logs w) i) as [lg|]; [|discriminate]. destruct (fl_alive lg); [|discriminate]. injection H as <-. cbn. rewrite length_set. lia.
Qed.
Lemma run_length wr cs : forall w w', run wr w cs = Ok w' -> List.length (w_logs w') = (List.length (w_logs w) + made cs)%nat.
Proof.
  induction cs as [|c r IH]; intros w w' H; cbn [run] in H; [injection H as <-; cbn; lia|].
  destruct (perform wr w c) as [w1| | |] eqn:P; cbn [bind] in H; try discriminate. rewrite (IH _ _ H), (step_length _ _ _ _ P). destruct c; cbn; lia.
Qed.

(** the file of a logger *)
Definition owns (p : str) (n : nat) (on : bool) (acc : str) (w : world) : Prop :=
  elsewhere p (fun m => m = n) w /\ w_disk w p = Some acc /\
  exists lg, nth_error (w_logs w) n = Some lg /\
    (fl_alive lg = true -> fl_open lg = true /\ fl_path lg = p /\ fl_pos lg = List.length acc /\ fl_enabled lg = on).

Lemma step_owns wr w c w' p n on acc :
  perform wr w c = Ok w' -> owns p n on acc w -> no_log_at p [c] ->
  match c with
  | Text i s => owns p n on (acc ++ if (Nat.eqb i n && on)%bool then s else []) w'
  | Enable i b => owns p n (if Nat.eqb i n then b else on) acc w'
  | _ => owns p n on acc w'
  end.
Proof.
  intros H ((C & E) & D & lg & G & A) N. destruct c as [t name data ini save en|i tx|i b|i ini|i]; cbn [perform] in H.
  - destruct (new_spec _ _ _ _ _ _ _ _ _ C H) as [[-> ->]|[-> (d' & CP & ->)]].
    + repeat split; cbn; [|exact D|exists lg; split; [rewrite nth_error_app1 by (apply nth_error_Some; congruence); exact G|exact A]].
      intros m l X G2 O; cbn in G2. apply nth_app_inv in G2. destruct G2 as [G2|[_ ->]]; [eauto|discriminate].
    + assert (Q : log_path data t name <> p) by (apply (N t name data ini save); left; reflexivity).
      repeat split; cbn; [|eapply copy_keeps; [exact CP|]; destruct (wr _); [rewrite put_other by exact Q|]; exact D|exists lg; split; [rewrite nth_error_app1 by (apply nth_error_Some; congruence); exact G|exact A]].
      intros m l X G2 O; cbn in G2. apply nth_app_inv in G2. destruct G2 as [G2|[_ ->]]; [eauto|exact Q].
  - unfold with_logger in H. destruct (nth_error (w_logs w) i) as [li|] eqn:GI; [|discriminate]. destruct (fl_alive li) eqn:AL; [|discriminate].
    destruct (Nat.eqb_spec i n) as [->|NI].
    + rewrite G in GI. injection GI as <-. destruct (A AL) as (OP & PA & PO & EN). unfold write_text in H. rewrite EN, OP, PA, D, PO in H.
      destruct on; injection H as <-; cbn [andb].
      * rewrite overwrite_end. split; [split; [exact C|]|split]; cbn.
        -- intros m l X G2 O; cbn in G2. rewrite nth_set_other in G2 by exact X. eauto.
        -- apply put_same.
        -- eexists. split; [eapply nth_set_same; exact G|]. cbn. rewrite app_length. auto.
      * rewrite app_nil_r. split; [split; [exact C|]|split]; cbn.
        -- intros m l X G2 O; cbn in G2. rewrite nth_set_other in G2 by exact X. eauto.
        -- exact D.
        -- eexists. split; [eapply nth_set_same; exact G|]. auto.
    + cbn [andb]. rewrite app_nil_r. unfold write_text in H.
      destruct (fl_enabled li) eqn:EN; [destruct (fl_open li) eqn:OP; [destruct (w_disk w (fl_path li)) as [x|] eqn:DX|]|]; injection H as <-.
      * pose proof (E i li NI GI OP) as Q. split; [split; [exact C|]|split]; cbn.
        -- intros m l X G2 O; cbn in G2. destruct (Nat.eq_dec m i) as [->|NE]; [rewrite (nth_set_same _ _ _ _ GI) in G2; injection G2 as <-; exact Q|rewrite nth_set_other in G2 by exact NE; eauto].
        -- rewrite put_other by exact Q. exact D.
        -- exists lg. rewrite nth_set_other by congruence. auto.
      * split; [split; [exact C|]|split]; cbn; [|exact D|exists lg; rewrite nth_set_other by congruence; auto].
        intros m l X G2 O; cbn in G2. destruct (Nat.eq_dec m i) as [->|NE]; [rewrite (nth_set_same _ _ _ _ GI) in G2; injection G2 as <-; eauto|rewrite nth_set_other in G2 by exact NE; eauto].
      * split; [split; [exact C|]|split]; cbn; [|exact D|exists lg; rewrite nth_set_other by congruence; auto].
        intros m l X G2 O; cbn in G2. destruct (Nat.eq_dec m i) as [->|NE]; [rewrite (nth_set_same _ _ _ _ GI) in G2; injection G2 as <-; eauto|rewrite nth_set_other in G2 by exact NE; eauto].
      * split; [split; [exact C|]|split]; cbn; [|exact D|exists lg; rewrite nth_set_other by congruence; auto].
        intros m l X G2 O; cbn in G2. destruct (Nat.eq_dec m i) as [->|NE]; [rewrite (nth_set_same _ _ _ _ GI) in G2; injection G2 as <-; eauto|rewrite nth_set_other in G2 by exact NE; eauto].
  - unfold with_logger in H. destruct (nth_error (w_logs w) i) as [li|] eqn:GI; [|discriminate]. destruct (fl_alive li) eqn:AL; [|discriminate]. injection H as <-.
    split; [split; [exact C|]|split]; cbn; [|exact D|].
    + intros m l X G2 O; cbn in G2. destruct (Nat.eq_dec m i) as [->|NE]; [rewrite (nth_set_same _ _ _ _ GI) in G2; injection G2 as <-; cbn in *; eauto|rewrite nth_set_other in G2 by exact NE; eauto].
    + destruct (Nat.eqb_spec i n) as [->|NI].
      * rewrite G in GI. injection GI as <-. destruct (A AL) as (OP & PA & PO & EN). eexists. split; [eapply nth_set_same; exact G|]. cbn. auto.
      * exists lg. rewrite nth_set_other by congruence. auto.
  - unfold with_logger in H. destruct (nth_error (w_logs w) i) as [li|] eqn:GI; [|discriminate]. destruct (fl_alive li); [|discriminate].
    destruct (copy_file _ _ _ _) as [d'| | |] eqn:CP; cbn [bind] in H; try discriminate. injection H as <-. split; [split; assumption|]. split; [eapply copy_keeps; eauto|]. eauto.
  - unfold with_logger in H. destruct (nth_error (w_logs w) i) as [li|] eqn:GI; [|discriminate]. destruct (fl_alive li) eqn:AL; [|discriminate]. injection H as <-.
    split; [split; [exact C|]|split]; cbn; [|exact D|].
    + intros m l X G2 O; cbn in G2. destruct (Nat.eq_dec m i) as [->|NE]; [rewrite (nth_set_same _ _ _ _ GI) in G2; injection G2 as <-; discriminate|rewrite nth_set_other in G2 by exact NE; eauto].
    + destruct (Nat.eq_dec i n) as [->|NI].
      * eexists. split; [eapply nth_set_same; exact G|]. discriminate.
      * exists lg. rewrite nth_set_other by congruence. auto.
Qed.

Lemma run_owns wr cs : forall w w' p n on acc,
  run wr w cs = Ok w' -> owns p n on acc w -> no_log_at p cs -> w_disk w' p = Some (acc ++ shown n on cs).
Proof.
  induction cs as [|c r IH]; intros w w' p n on acc H O N; cbn [run shown] in *.
  - injection H as <-. rewrite app_nil_r. exact (proj1 (proj2 O)).
  - destruct (perform wr w c) as [w1| | |] eqn:P; cbn [bind] in H; try discriminate. apply no_log_cons in N. destruct N as [N1 N2].
    pose proof (step_owns _ _ _ _ _ _ _ _ P O N1) as S. destruct c; try (rewrite app_assoc); eauto.
Qed.

(** stamps of different times *)
Lemma chr_inj a b : 0 <= a < 256 -> 0 <= b < 256 -> chr a = chr b -> a = b.
Proof.
  intros A B H. unfold chr in H. apply (f_equal nat_of_ascii) in H. rewrite !nat_ascii_embedding in H by lia. lia.
Qed.
Lemma two_inj a b : 0 <= a < 100 -> 0 <= b < 100 -> two a = two b -> a = b.
Proof.
  intros A B H. unfold two in H. injection H as H1 H2.
  assert (Q : forall x, 0 <= x < 100 -> 0 <= x / 10 < 10) by (intros x X; split; [apply Z.div_pos; lia|apply Z.div_lt_upper_bound; lia]). pose proof (Q a A). pose proof (Q b B).
  pose proof (Z.mod_pos_bound a 10 ltac:(lia)). pose proof (Z.mod_pos_bound b 10 ltac:(lia)).
  assert (E1 : 48 + a / 10 = 48 + b / 10) by (apply chr_inj; [lia|lia|exact H1]).
  assert (E2 : 48 + a mod 10 = 48 + b mod 10) by (apply chr_inj; [lia|lia|exact H2]).
  pose proof (Z.div_mod a 10 ltac:(lia)). pose proof (Z.div_mod b 10 ltac:(lia)). lia.
Qed.
Lemma stamp_inj a b : calendar a -> calendar b -> stamp a = stamp b ->
  lt_year a mod 100 = lt_year b mod 100 /\ lt_month a = lt_month b /\ lt_day a = lt_day b /\ lt_hour a = lt_hour b /\ lt_min a = lt_min b /\ lt_sec a = lt_sec b.
Proof.
  intros (A1 & A2 & A3 & A4 & A5) (B1 & B2 & B3 & B4 & B5) H.
  pose proof (Z.mod_pos_bound (lt_year a) 100 ltac:(lia)). pose proof (Z.mod_pos_bound (lt_year b) 100 ltac:(lia)).
  assert (N : forall i, nth i (stamp a) "0"%char = nth i (stamp b) "0"%char) by (now rewrite H).
  assert (T : forall x y c d, c = chr (48 + x / 10) -> d = chr (48 + x mod 10) -> c = chr (48 + y / 10) -> d = chr (48 + y mod 10) -> two x = two y) by (intros x y c d -> -> E1 E2; unfold two; congruence).
  repeat split; apply two_inj; try lia.
  - exact (T _ _ _ _ eq_refl eq_refl (N 0%nat) (N 1%nat)).
  - exact (T _ _ _ _ eq_refl eq_refl (N 2%nat) (N 3%nat)).
  - exact (T _ _ _ _ eq_refl eq_refl (N 4%nat) (N 5%nat)).
  - exact (T _ _ _ _ eq_refl eq_refl (N 7%nat) (N 8%nat)).
  - exact (T _ _ _ _ eq_refl eq_refl (N 9%nat) (N 10%nat)).
  - exact (T _ _ _ _ eq_refl eq_refl (N 11%nat) (N 12%nat)).
Qed.
Lemma stamp_length t : List.length (stamp t) = 13%nat.
Proof. reflexivity. Qed.
Lemma app_inj_length (a b c d : str) : List.length a = List.length b -> a ++ c = b ++ d -> a = b /\ c = d.
Proof.
  revert b. induction a as [|x a IH]; intros [|y b] L H; cbn in *; try discriminate; [auto|]. injection H as -> H. injection L as L. destruct (IH b L H). subst. auto.
Qed.
