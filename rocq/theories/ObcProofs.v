From Coq Require Import List Arith ZArith Bool Lia.
From Verif Require Import Base RingBufferModel RingBufferSpec RingBufferProofs ObcModel ObcSpec.
Import ListNotations.

Section P.
Context {A : Type}.
Variable junk : nat -> list A.
Hypothesis junk_length : forall n, length (junk n) = n.

Definition chan_ok (u : uart A) (c : @chan A) : Prop :=
  both u (snd (to_compo c)) (snd (to_obc c)) /\
  size (txb u) = fst (to_compo c) /\ size (rxb u) = fst (to_obc c).

Definition tagree (t : @obc A) (s : @chans A) : Prop :=
  forall id, match t id, s id with
             | None, None => True | Some u, Some c => chan_ok u c | _, _ => False end.

Lemma size_default n : size_or_default n = checked_size n.
Proof. destruct n; reflexivity. Qed.

Lemma uart_step_ok u c d o : chan_ok u c -> in_bounds o ->
  exists u', 
  match d with
  | Tx => uart_step u (d, o) = Ok (u', snd (q_step (fst (to_compo c)) (snd (to_compo c)) o)) /\
          chan_ok u' (mkChan (fst (to_compo c), fst (q_step (fst (to_compo c)) (snd (to_compo c)) o)) (to_obc c))
  | Rx => uart_step u (d, o) = Ok (u', snd (q_step (fst (to_obc c)) (snd (to_obc c)) o)) /\
          chan_ok u' (mkChan (to_compo c) (fst (to_obc c), fst (q_step (fst (to_obc c)) (snd (to_obc c)) o)))
  end.
Proof.
  intros [(Wt & Rt & Wr & Rr) [S1 S2]] Ho. destruct d.
  - destruct (step_ok (txb u) _ o Wt Rt Ho) as (b' & E & S' & W' & R').
    exists (mkUart (rxb u) b'). rewrite uart_step_tx, E. cbn [bind fst snd]. rewrite <- S1.
    split; [reflexivity|]. split; [split; [exact W'|split; [exact R'|split; [exact Wr|exact Rr]]]|].
    cbn. split; [exact S'|exact S2].
  - destruct (step_ok (rxb u) _ o Wr Rr Ho) as (b' & E & S' & W' & R').
    exists (mkUart b' (txb u)). rewrite uart_step_rx, E. cbn [bind fst snd]. rewrite <- S2.
    split; [reflexivity|]. split; [split; [exact Wt|split; [exact Rt|split; [exact W'|exact R']]]|].
    cbn. split; [exact S1|exact S'].
Qed.

Lemma tagree_put t s id u c : tagree t s ->
  match u, c with None, None => True | Some u, Some c => chan_ok u c | _, _ => False end ->
  tagree (set_port t id u) (put s id c).
Proof. intros H Hu i. unfold set_port, put. destruct (Z.eqb i id); [exact Hu|apply H]. Qed.

Lemma xfer_ok t s id d o : tagree t s -> in_bounds o ->
  exists t', xfer t id (d, o) = Ok (t',
     match s id with
     | None => Code (-1)
     | Some c => let p := match d with Tx => to_compo c | Rx => to_obc c end in
                 Xfer (snd (q_step (fst p) (snd p) o))
     end) /\
   tagree t' (match s id with
     | None => s
     | Some c => put s id (Some (match d with
         | Tx => mkChan (fst (to_compo c), fst (q_step (fst (to_compo c)) (snd (to_compo c)) o)) (to_obc c)
         | Rx => mkChan (to_compo c) (fst (to_obc c), fst (q_step (fst (to_obc c)) (snd (to_obc c)) o))
         end))
     end).
Proof.
  intros H Ho. pose proof (H id) as Hid. unfold xfer.
  destruct (t id) as [u|] eqn:Et; destruct (s id) as [c|] eqn:Es; try contradiction.
  - destruct (uart_step_ok u c d o Hid Ho) as (u' & Hu).
    destruct d; destruct Hu as [E C]; rewrite E; cbn [bind fst snd];
    eexists; (split; [reflexivity|]); apply tagree_put; auto.
  - exists t. split; [reflexivity|exact H].
Qed.

Lemma ostep_ok t s o : tagree t s -> buffers_ok o ->
  exists t', ostep junk t o = Ok (t', snd (spec_step s o)) /\ tagree t' (fst (spec_step s o)).
Proof.
  intros H Hb. destruct o as [id a b|id|id sr f l|id ds f l|id sr f l|id ds f l]; cbn [ostep spec_step].
  - unfold connect. pose proof (H id) as Hid.
    destruct (t id) eqn:Et; destruct (s id) eqn:Es; try contradiction.
    + exists t. split; [reflexivity|exact H].
    + eexists. split; [reflexivity|]. cbn [fst snd]. apply tagree_put; [exact H|].
      unfold chan_ok, both; cbn [fst snd to_compo to_obc make_uart txb rxb size make].
      rewrite !junk_length, !size_default.
      pose proof (@checked_size_spec a) as Ha. pose proof (@checked_size_spec b) as Hb'.
      assert (La : 0 < length (junk (checked_size a))) by (rewrite junk_length; lia).
      assert (Lb : 0 < length (junk (checked_size b))) by (rewrite junk_length; lia).
      split; [|split; reflexivity].
      split; [now apply wf_make|]. split; [now apply repr_make|]. split; [now apply wf_make|now apply repr_make].
  - unfold close. pose proof (H id) as Hid.
    destruct (t id) eqn:Et; destruct (s id) eqn:Es; try contradiction.
    + eexists. split; [reflexivity|]. now apply tagree_put.
    + exists t. split; [reflexivity|exact H].
  - destruct (xfer_ok t s id Tx (OWrite sr f l) H Hb) as (t' & E & T).
    exists t'. rewrite E. destruct (s id) as [c|]; [|split; [reflexivity|exact T]].
    rewrite (surjective_pairing (q_step (fst (to_compo c)) (snd (to_compo c)) (OWrite sr f l))). split; [reflexivity|exact T].
  - destruct (xfer_ok t s id Tx (ORead ds f l) H Hb) as (t' & E & T).
    exists t'. rewrite E. destruct (s id) as [c|]; [|split; [reflexivity|exact T]].
    rewrite (surjective_pairing (q_step (fst (to_compo c)) (snd (to_compo c)) (ORead ds f l))). split; [reflexivity|exact T].
  - destruct (xfer_ok t s id Rx (OWrite sr f l) H Hb) as (t' & E & T).
    exists t'. rewrite E. destruct (s id) as [c|]; [|split; [reflexivity|exact T]].
    rewrite (surjective_pairing (q_step (fst (to_obc c)) (snd (to_obc c)) (OWrite sr f l))). split; [reflexivity|exact T].
  - destruct (xfer_ok t s id Rx (ORead ds f l) H Hb) as (t' & E & T).
    exists t'. rewrite E. destruct (s id) as [c|]; [|split; [reflexivity|exact T]].
    rewrite (surjective_pairing (q_step (fst (to_obc c)) (snd (to_obc c)) (ORead ds f l))). split; [reflexivity|exact T].
Qed.

Lemma orun_ok ops : forall t s, tagree t s -> Forall buffers_ok ops ->
  exists t', orun junk t ops = Ok (t', spec_run s ops).
Proof.
  induction ops as [|o os IH]; intros t s H HF.
  - exists t. reflexivity.
  - inversion HF; subst. destruct (ostep_ok t s o H) as (t1 & E1 & H1); [assumption|].
    destruct (IH t1 _ H1) as (t2 & E2); [assumption|].
    exists t2. cbn [orun spec_run]. rewrite E1. cbn [bind fst snd]. rewrite E2. cbn [bind fst snd].
    destruct (spec_step s o); reflexivity.
Qed.

Lemma obc_history ops : Forall buffers_ok ops ->
  exists t', orun junk obc_new ops = Ok (t', spec_run (fun _ => None) ops).
Proof. intros H. apply orun_ok; [intros i; exact I|exact H]. Qed.
End P.

Section U.
Context {A : Type}.
Implicit Types (u : uart A).

Lemma resize_length (z : A) l n : length (resize z l n) = n.
Proof. unfold resize. rewrite app_length, firstn_length, repeat_length. lia. Qed.

Lemma holds_both u nt qt nr qr : holds u nt qt nr qr ->
  both u qt qr /\ size (txb u) = nt /\ size (rxb u) = nr.
Proof.
  intros (rc & tc & ops & outs & Lt & Lr & Pt & Pr & Hb & E & Et & Er).
  assert (HB : both (make_uart rc tc) [] []).
  { split; [apply wf_make; cbn; lia|]. split; [apply repr_make; cbn; lia|].
    split; [apply wf_make; cbn; lia|apply repr_make; cbn; lia]. }
  destruct (uart_run_ok ops _ _ _ HB Hb) as (u' & outs' & E' & _ & _ & _ & B' & Z1 & Z2).
  rewrite E in E'. injection E' as <- _. cbn [make_uart txb rxb make size] in *.
  rewrite Lt, Lr in *. rewrite <- Et, <- Er in B'. auto.
Qed.

Lemma uart_run_app ops1 : forall ops2 u, uart_run u (ops1 ++ ops2) =
  let! r := uart_run u ops1 in
  let! r' := uart_run (fst r) ops2 in Ok (fst r', snd r ++ snd r').
Proof.
  induction ops1 as [|o os IH]; intros ops2 u; cbn [uart_run app bind fst snd].
  - destruct (uart_run u ops2) as [[c' l]| | |]; reflexivity.
  - destruct (uart_step u o) as [[c' l]| | |]; cbn [bind fst snd]; try reflexivity.
    rewrite IH. destruct (uart_run c' os) as [[c1 l1]| | |]; cbn [bind fst snd]; try reflexivity.
    destruct (uart_run c1 ops2) as [[c2 l2]| | |]; reflexivity.
Qed.

Lemma q_run_snoc s ops o : forall q : list A,
  fst (q_run s q (ops ++ [o])) = fst (q_step s (fst (q_run s q ops)) o).
Proof.
  induction ops as [|x xs IH]; intros q; cbn [q_run app].
  - cbn [fst]. destruct (q_step s q o); reflexivity.
  - destruct (q_step s q x) as [q1 y]. specialize (IH q1).
    destruct (q_run s q1 (xs ++ [o])), (q_run s q1 xs); cbn [fst] in *. exact IH.
Qed.

Lemma holds_step u nt qt nr qr d o u' x : holds u nt qt nr qr -> in_bounds o ->
  uart_step u (d, o) = Ok (u', x) ->
  match d with
  | Tx => holds u' nt (fst (q_step nt qt o)) nr qr
  | Rx => holds u' nt qt nr (fst (q_step nr qr o))
  end.
Proof.
  intros (rc & tc & ops & outs & Lt & Lr & Pt & Pr & Hb & E & Et & Er) Ho Es.
  assert (G : forall qt' qr', qt' = fst (q_run nt [] (on_side Tx (ops ++ [(d, o)]))) ->
                 qr' = fst (q_run nr [] (on_side Rx (ops ++ [(d, o)]))) ->
                 holds u' nt qt' nr qr').
  { intros qt' qr' H1 H2. exists rc, tc, (ops ++ [(d, o)]), (outs ++ [(d, x)]).
    repeat split; try assumption.
    - rewrite map_app. apply Forall_app. split; [exact Hb|]. repeat constructor. exact Ho.
    - rewrite uart_run_app, E. cbn [bind fst snd uart_run]. rewrite Es. reflexivity. }
  assert (F : forall d', on_side d' (ops ++ [(d, o)]) = on_side d' ops ++ (if side_eqb d d' then [o] else [])).
  { intros d'. unfold on_side. rewrite filter_app, map_app. f_equal. cbn. destruct (side_eqb d d'); reflexivity. }
  destruct d; apply G; rewrite F; cbn [side_eqb]; rewrite ?app_nil_r, ?q_run_snoc, <- ?Et, <- ?Er; auto.
Qed.

(** With offset 0 and 0 < rec_size <= rx_size the call is safe and hands over the first
    min(rec_size, unread) bytes. *)
Lemma receive_command_ok (z : A) u nt qt nr qr rx_size buf rec_size :
  holds u nt qt nr qr -> (0 < rec_size <= rx_size)%Z -> (rx_size <= 1024)%Z ->
  let k := Nat.min (Z.to_nat rec_size) (length qt) in
  exists u', receive_command z u rx_size buf 0 rec_size
     = Ok (Some (u', firstn k qt ++ skipn k (resize z buf (Z.to_nat rec_size)), k)) /\
     holds u' nt (skipn k qt) nr qr.
Proof.
  intros HH Hrec Hrx k. destruct (holds_both _ _ _ _ _ HH) as [(Wt & Rt & Wr & Rr) [Z1 Z2]].
  unfold receive_command.
  destruct (Z.ltb_spec rx_size 0); [lia|].
  rewrite Z.mod_small by lia. destruct (Z.ltb_spec rx_size (0 + rec_size)); [lia|].
  pose proof (resize_length z buf (Z.to_nat rec_size)) as L.
  destruct (resize z buf (Z.to_nat rec_size)) as [|x l] eqn:Eb; [cbn in L; lia|].
  rewrite <- Eb in *. unfold read_tx.
  destruct (read_ok (txb u) qt (resize z buf (Z.to_nat rec_size)) (Z.to_nat 0) (Z.to_nat rec_size) Wt Rt)
    as (b' & E & S' & W' & R'); [lia|].
  rewrite E. cbn [bind fst snd]. exists (mkUart (rxb u) b').
  split; [|eapply (holds_step u nt qt nr qr Tx (ORead (resize z buf (Z.to_nat rec_size)) (Z.to_nat 0) (Z.to_nat rec_size)) _ _ HH);
     [cbn; lia|rewrite uart_step_tx; cbn [step]; rewrite E; reflexivity]].
  fold k. assert (Ep : patched (resize z buf (Z.to_nat rec_size)) (Z.to_nat 0) (firstn k qt)
                      = firstn k qt ++ skipn k (resize z buf (Z.to_nat rec_size))).
  { unfold patched. change (Z.to_nat 0) with 0. cbn [firstn app Nat.add].
    rewrite firstn_length. replace (Nat.min k (length qt)) with k by (unfold k; lia). reflexivity. }
  rewrite Ep. reflexivity.
Qed.

(** The loop of Read stores byte number cnt at offset+cnt: with a destination of length
    len and a positive offset the last requested byte is out of bounds. *)
Lemma read_loop_oob fuel : forall (b : rb A) q dst off len cnt,
  wf b -> repr b q -> cnt < len -> len - cnt < fuel -> 0 < off -> length dst = len ->
  len - cnt <= length q ->
  read_loop fuel b dst off len cnt = UB.
Proof.
  induction fuel as [|fuel IH]; intros b q dst off len cnt Hwf Hq Hc Hf Ho Hd Hlen; [lia|].
  cbn [read_loop].
  pose proof (unread_cases b Hwf) as Hu.
  assert (HL : length q = unread b) by apply Hq.
  destruct (Nat.eqb_spec cnt len) as [?|_]; [lia|].
  destruct (Nat.eqb_spec (wp b) (rp b)) as [?|Hne0]; [exfalso; lia|]. cbn [orb].
  assert (Hwf0 := Hwf). destruct Hwf0 as (H0 & Hl & Hr & Hw).
  set (n := if rp b <? wp b then Nat.min (wp b - rp b) (len - cnt)
            else Nat.min (size b - rp b) (len - cnt)).
  assert (Hn : 0 < n /\ n <= len - cnt /\ n <= unread b /\ rp b + n <= size b).
  { unfold n. destruct (Nat.ltb_spec (rp b) (wp b)); lia. }
  destruct Hn as (Hn0 & Hn1 & Hn2 & Hn3).
  destruct (memcpy dst (off + cnt) (buf b) (rp b) n) as [nd| | |] eqn:Em; cbn [bind]; try reflexivity;
  try (unfold memcpy in Em; destruct (_ && _); discriminate).
  destruct (read_pass b q n Hwf Hq Hn2 Hn3) as (W1 & W2 & W3).
  assert (Hok : off + cnt + n <= length dst).
  { unfold memcpy in Em. destruct (Nat.leb_spec (off + cnt + n) (length dst)); [assumption|discriminate]. }
  eapply (IH _ (skipn n q)); try eassumption; try lia.
  - rewrite (memcpy_length _ _ _ _ _ _ Em). exact Hd.
  - rewrite skipn_length. lia.
Qed.

Lemma receive_command_oob (z : A) u nt qt nr qr rx_size buf offset rec_size :
  holds u nt qt nr qr -> (0 < offset)%Z -> (0 < rec_size)%Z -> (offset + rec_size <= rx_size)%Z ->
  (rx_size <= 1024)%Z -> Z.to_nat rec_size <= length qt ->
  receive_command z u rx_size buf offset rec_size = UB.
Proof.
  intros HH Ho Hr Hs Hx Hq. destruct (holds_both _ _ _ _ _ HH) as [(Wt & Rt & _) _]. unfold receive_command.
  destruct (Z.ltb_spec rx_size offset); [lia|].
  rewrite Z.mod_small by lia. destruct (Z.ltb_spec rx_size (offset + rec_size)); [lia|].
  pose proof (resize_length z buf (Z.to_nat rec_size)) as L.
  destruct (resize z buf (Z.to_nat rec_size)) as [|x l] eqn:Eb; [reflexivity|].
  rewrite <- Eb in *. unfold read_tx, read.
  rewrite (read_loop_oob _ _ qt); try assumption; try lia. reflexivity.
Qed.

Lemma receive_command_rejects (z : A) u rx_size buf offset rec_size :
  (0 <= offset)%Z -> (0 <= rec_size)%Z -> (offset + rec_size < 2 ^ 32)%Z -> (rx_size < offset + rec_size)%Z ->
  receive_command z u rx_size buf offset rec_size = Ok None.
Proof.
  intros H1 H2 H3 H4. unfold receive_command. destruct (Z.ltb_spec rx_size offset); [reflexivity|].
  rewrite Z.mod_small by lia. destruct (Z.ltb_spec rx_size (offset + rec_size)); [reflexivity|lia].
Qed.

(** unsigned wrap-around defeats the check *)
Lemma receive_command_wrap (z : A) u rx_size buf offset :
  (0 < offset <= rx_size)%Z -> (rx_size <= 1024)%Z ->
  exists r : outcome (option (uart A * list A * nat)),
  receive_command z u rx_size buf offset (2 ^ 32 - offset) = r /\ r <> Ok None.
Proof.
  intros H Hx. eexists. split; [reflexivity|]. unfold receive_command.
  destruct (Z.ltb_spec rx_size offset); [lia|].
  replace (offset + (2 ^ 32 - offset))%Z with (2 ^ 32)%Z by lia.
  rewrite Z.mod_same by lia. destruct (Z.ltb_spec rx_size 0); [lia|].
  destruct (resize z buf (Z.to_nat (2 ^ 32 - offset))); [discriminate|].
  destruct (read_tx u (a :: l) (Z.to_nat offset) (Z.to_nat (2 ^ 32 - offset))); discriminate.
Qed.

(** telemetry *)
Lemma send_telemetry_ok u nt qt nr qr rx_size txbuf offset tlm :
  holds u nt qt nr qr -> txbuf <> [] -> (0 <= offset)%Z -> (0 <= tlm)%Z -> (offset + tlm <= rx_size)%Z ->
  (rx_size <= 1024)%Z -> (offset + tlm <= Z.of_nat (length txbuf))%Z ->
  exists u', send_telemetry u rx_size txbuf offset tlm = Ok (Some (u', Z.to_nat tlm)) /\
    holds u' nt qt nr (q_write nr qr (slice txbuf (Z.to_nat offset) (Z.to_nat tlm))).
Proof.
  intros HH Hne Ho Ht Hs Hx Hl. destruct (holds_both _ _ _ _ _ HH) as [(Wt & Rt & Wr & Rr) _]. unfold send_telemetry.
  destruct (Z.ltb_spec rx_size offset); [lia|].
  rewrite Z.mod_small by lia. destruct (Z.ltb_spec rx_size (offset + tlm)); [lia|].
  destruct txbuf as [|x l] eqn:Eb; [congruence|]. rewrite <- Eb in *. unfold write_rx.
  destruct (write_ok (rxb u) qr txbuf (Z.to_nat offset) (Z.to_nat tlm) Wr Rr) as (b' & E & S' & W' & R'); [lia|].
  rewrite E. cbn [bind fst snd]. eexists. split; [reflexivity|].
  eapply (holds_step u nt qt nr qr Rx (OWrite txbuf (Z.to_nat offset) (Z.to_nat tlm)) _ _ HH);
     [cbn; lia|rewrite uart_step_rx; cbn [step]; rewrite E; reflexivity].
Qed.

Lemma write_loop_oob fuel : forall (b : rb A) src off len cnt,
  wf b -> cnt < len -> len - cnt < fuel -> length src < off + len ->
  write_loop fuel b src off len cnt = UB.
Proof.
  induction fuel as [|fuel IH]; intros b src off len cnt Hwf Hc Hf Hs; [lia|].
  cbn [write_loop]. destruct (Nat.eqb_spec cnt len) as [?|_]; [lia|].
  assert (Hwf0 := Hwf). destruct Hwf0 as (H0 & Hl & Hr & Hw).
  set (n := Nat.min (size b - wp b) (len - cnt)).
  destruct (memcpy (buf b) (wp b) src (off + cnt) n) as [nb| | |] eqn:Em; cbn [bind]; try reflexivity;
  try (unfold memcpy in Em; destruct (_ && _); discriminate).
  assert (Hok : off + cnt + n <= length src).
  { unfold memcpy in Em. destruct (Nat.leb_spec (wp b + n) (length (buf b))); [|discriminate].
    destruct (Nat.leb_spec (off + cnt + n) (length src)); [assumption|discriminate]. }
  apply IH; try lia. unfold wf; cbn. rewrite (memcpy_length _ _ _ _ _ _ Em).
  repeat split; try lia. destruct (Nat.eqb_spec (wp b + n) (size b)); lia.
Qed.

Lemma send_telemetry_oob u nt qt nr qr rx_size txbuf offset tlm :
  holds u nt qt nr qr -> (0 <= offset)%Z -> (0 < tlm)%Z -> (offset + tlm <= rx_size)%Z -> (rx_size <= 1024)%Z ->
  (Z.of_nat (length txbuf) < offset + tlm)%Z ->
  send_telemetry u rx_size txbuf offset tlm = UB.
Proof.
  intros HH Ho Ht Hs Hx Hl. destruct (holds_both _ _ _ _ _ HH) as [(Wt & Rt & Wr & Rr) _]. unfold send_telemetry.
  destruct (Z.ltb_spec rx_size offset); [lia|].
  rewrite Z.mod_small by lia. destruct (Z.ltb_spec rx_size (offset + tlm)); [lia|].
  destruct txbuf as [|x l] eqn:Eb; [reflexivity|]. rewrite <- Eb in *. unfold write_rx, write.
  rewrite write_loop_oob; try assumption; try lia. reflexivity.
Qed.
End U.
