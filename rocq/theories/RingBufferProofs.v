From Coq Require Import List Arith Lia Bool.
From Coq Require Import ZifyBool ZifyNat.
From Verif Require Import Base RingBufferModel RingBufferSpec.
Import ListNotations.

Section P.
Context {A : Type}.
Implicit Types (b : rb A) (q d : list A).

Definition wf b := 0 < size b /\ length (buf b) = size b /\ rp b < size b /\ wp b < size b.

(** number of unread bytes *)
Definition unread b := (wp b + size b - rp b) mod size b.

Definition repr b q :=
  length q = unread b /\
  forall i, i < unread b -> nth_error q i = nth_error (buf b) ((rp b + i) mod size b).

Lemma repr_fun b q q' : repr b q -> repr b q' -> q = q'.
Proof.
  intros [L H] [L' H']. apply nth_error_ext. intros i.
  destruct (Nat.lt_ge_cases i (unread b)) as [Hi|Hi].
  - now rewrite H, H'.
  - rewrite (proj2 (nth_error_None q i)), (proj2 (nth_error_None q' i)); [reflexivity| |]; lia.
Qed.

Lemma unread_cases b : wf b ->
  (rp b <= wp b /\ unread b = wp b - rp b) \/ (wp b < rp b /\ unread b = wp b + size b - rp b).
Proof.
  intros (H0 & _ & Hr & Hw). unfold unread.
  destruct (Nat.le_gt_cases (rp b) (wp b)).
  - left; split; [assumption|]. 
    replace (wp b + size b - rp b) with (wp b - rp b + 1 * size b) by lia.
    rewrite Nat.mod_add by lia. apply Nat.mod_small. lia.
  - right; split; [assumption|]. apply Nat.mod_small. lia.
Qed.

Lemma mod_case x s : 0 < s -> x < 2 * s -> (x < s /\ x mod s = x) \/ (s <= x /\ x mod s = x - s).
Proof.
  intros Hs Hx. destruct (Nat.lt_ge_cases x s).
  - left. split; [assumption|now apply Nat.mod_small].
  - right. split; [assumption|].
    replace x with (x - s + 1 * s) at 1 by lia. rewrite Nat.mod_add by lia.
    apply Nat.mod_small. lia.
Qed.

(** one pass of the write loop *)
Lemma write_pass b q src spos n nb :
  wf b -> repr b q -> n <= size b - wp b -> spos + n <= length src ->
  memcpy (buf b) (wp b) src spos n = Ok nb ->
  let b' := mkRb (size b) nb (rp b) (if wp b + n =? size b then 0 else wp b + n) in
  wf b' /\ repr b' (q_write (size b) q (slice src spos n)).
Proof.
  intros Hwf [HL HN] Hn Hs Hm b'.
  pose proof (unread_cases b Hwf) as Hu.
  destruct Hwf as (H0 & Hlen & Hr & Hw).
  pose proof (memcpy_length _ _ _ _ _ _ Hm) as Hnl.
  assert (Hwf' : wf b').
  { unfold wf, b'; simpl. repeat split; try lia.
    destruct (Nat.eqb_spec (wp b + n) (size b)); lia. }
  assert (Lsl : length (slice src spos n) = n).
  { unfold slice. rewrite firstn_length, skipn_length. lia. }
  pose proof (unread_cases b' Hwf') as Hu'.
  assert (Hun : unread b' = (unread b + n) mod size b).
  { destruct (mod_case (unread b + n) (size b)) as [[? ->]|[? ->]]; try lia;
    unfold b' in *; simpl in *;
    destruct (Nat.eqb_spec (wp b + n) (size b)); lia. }
  split; [assumption|].
  assert (Hbound : unread b' <= unread b + n) by (rewrite Hun; apply Nat.mod_le; lia).
  unfold repr, q_write. rewrite HL, Lsl, <- Hun.
  split. { rewrite length_lastn, app_length, Lsl. lia. }
  intros i Hi. rewrite nth_error_lastn, app_length, Lsl, HL.
  simpl (buf b'). rewrite (memcpy_nth _ _ _ _ _ _ _ Hm). simpl (rp b'); simpl (size b').
  rewrite nth_error_app, HL.
  assert (Hk : unread b + n - unread b' = 0 \/ unread b + n - unread b' = size b).
  { rewrite Hun. destruct (mod_case (unread b + n) (size b)) as [[? ->]|[? ->]]; try lia. }
  assert (Hi2 : unread b' < size b).
  { rewrite Hun. apply Nat.mod_upper_bound. lia. }
  destruct (Nat.ltb_spec (unread b + n - unread b' + i) (unread b)) as [Hc|Hc].
  - (* old byte *)
    rewrite HN by assumption.
    assert (Hk0 : unread b + n - unread b' = 0) by lia. rewrite Hk0 in *. simpl.
    destruct (mod_case (rp b + i) (size b)) as [[? E]|[? E]]; try lia; rewrite E;
    match goal with |- context [if ?c then _ else _] => destruct c eqn:Ec end;
    try reflexivity; exfalso; lia.
  - (* new byte *)
    unfold slice. rewrite nth_error_firstn, nth_error_skipn.
    assert (Hlt : unread b + n - unread b' + i - unread b < n) by lia.
    apply Nat.ltb_lt in Hlt as Hlt'. rewrite Hlt'.
    assert (Em : (rp b + i) mod size b = wp b + (unread b + n - unread b' + i - unread b)).
    { destruct (mod_case (rp b + i) (size b)) as [[? E]|[? E]]; try lia; rewrite E;
      destruct Hk as [Hk|Hk]; lia. }
    rewrite Em.
    destruct (Nat.leb_spec (wp b) (wp b + (unread b + n - unread b' + i - unread b))); [|lia].
    destruct (Nat.ltb_spec (wp b + (unread b + n - unread b' + i - unread b)) (wp b + n)); [|lia].
    simpl. f_equal. lia.
Qed.

Lemma lastn_all (l : list A) k : length l <= k -> lastn k l = l.
Proof. intros H. unfold lastn. replace (length l - k) with 0 by lia. reflexivity. Qed.

Lemma lastn_lastn_app k j (l d : list A) : k <= j + length d -> j <= length l ->
  lastn k (lastn j l ++ d) = lastn k (l ++ d).
Proof.
  intros H Hj. apply nth_error_ext. intros i.
  rewrite !nth_error_lastn, !app_length, length_lastn.
  rewrite !nth_error_app, length_lastn, nth_error_lastn.
  rewrite Nat.min_l by assumption.
  destruct (Nat.ltb_spec (j + length d - k + i) j);
  destruct (Nat.ltb_spec (length l + length d - k + i) (length l)); try lia;
  f_equal; lia.
Qed.

Lemma q_write_app s q d1 d2 : 0 < s ->
  q_write s (q_write s q d1) d2 = q_write s q (d1 ++ d2).
Proof.
  intros Hs. unfold q_write. rewrite length_lastn, !app_length.
  pose proof (Nat.mod_le (length q + length d1) s ltac:(lia)) as H1.
  rewrite Nat.min_l by lia.
  rewrite lastn_lastn_app.
  - rewrite <- app_assoc. f_equal.
    rewrite Nat.add_mod_idemp_l by lia. f_equal. lia.
  - apply Nat.mod_le. lia.
  - rewrite app_length. assumption.
Qed.

Lemma q_write_nil s q : length q < s -> q_write s q [] = q.
Proof.
  intros H. unfold q_write. simpl. rewrite Nat.add_0_r, app_nil_r.
  apply lastn_all. rewrite Nat.mod_small; lia.
Qed.

Lemma slice_app (src : list A) o n m : o + n + m <= length src ->
  slice src o n ++ slice src (o + n) m = slice src o (n + m).
Proof.
  intros H. unfold slice. apply nth_error_ext. intros i.
  rewrite nth_error_app, !nth_error_firstn, firstn_length, skipn_length, !nth_error_skipn.
  rewrite Nat.min_l by lia.
  destruct (Nat.ltb_spec i n); destruct (Nat.ltb_spec i (n + m)); try lia; try reflexivity.
  - destruct (Nat.ltb_spec (i - n) m); try lia. f_equal. lia.
  - destruct (Nat.ltb_spec (i - n) m); try lia. reflexivity.
Qed.

Lemma write_loop_ok fuel : forall b q src off len cnt,
  wf b -> repr b q -> cnt <= len -> len - cnt < fuel -> off + len <= length src ->
  exists b', write_loop fuel b src off len cnt = Ok (b', len) /\
    size b' = size b /\ wf b' /\ repr b' (q_write (size b) q (slice src (off + cnt) (len - cnt))).
Proof.
  induction fuel as [|fuel IH]; intros b q src off len cnt Hwf Hq Hc Hf Hs; [lia|].
  cbn [write_loop].
  destruct (Nat.eqb_spec cnt len) as [->|Hne].
  - exists b. repeat split; try assumption; try apply Hwf; rewrite Nat.sub_diag; unfold slice; simpl;
      rewrite q_write_nil; try apply Hq;
      rewrite (proj1 Hq); unfold unread; apply Nat.mod_upper_bound; destruct Hwf; lia.
  - assert (Hwf0 := Hwf). destruct Hwf0 as (H0 & Hl & Hr & Hw).
    set (n := Nat.min (size b - wp b) (len - cnt)).
    rewrite memcpy_ok by lia.
    cbn [bind].
    destruct (write_pass b q src (off + cnt) n _ Hwf Hq ltac:(lia) ltac:(lia)
               (memcpy_ok (buf b) (wp b) src (off + cnt) n ltac:(lia) ltac:(lia))) as [W1 W2].
    destruct (IH _ _ src off len (cnt + n) W1 W2 ltac:(lia) ltac:(lia) Hs) as (b' & E & S' & W' & R').
    exists b'. split; [exact E|]. simpl in S'. split; [exact S'|]. split; [exact W'|].
    simpl in R'. rewrite q_write_app in R' by assumption.
    replace (off + (cnt + n)) with (off + cnt + n) in R' by lia.
    rewrite slice_app in R' by lia.
    replace (n + (len - (cnt + n))) with (len - cnt) in R' by lia. exact R'.
Qed.

Lemma write_ok b q src off len :
  wf b -> repr b q -> off + len <= length src ->
  exists b', write b src off len = Ok (b', len) /\
    size b' = size b /\ wf b' /\ repr b' (q_write (size b) q (slice src off len)).
Proof.
  intros Hwf Hq Hs. unfold write.
  destruct (write_loop_ok (S len) b q src off len 0 Hwf Hq ltac:(lia) ltac:(lia) Hs)
    as (b' & E & S' & W' & R').
  exists b'. rewrite Nat.add_0_r, Nat.sub_0_r in R'. auto.
Qed.

(** one pass of the read loop *)
Lemma read_pass b q n :
  wf b -> repr b q -> n <= unread b -> rp b + n <= size b ->
  let b' := mkRb (size b) (buf b) (if rp b + n =? size b then 0 else rp b + n) (wp b) in
  wf b' /\ repr b' (skipn n q) /\ firstn n (skipn (rp b) (buf b)) = firstn n q.
Proof.
  intros Hwf [HL HN] Hn Hs b'.
  pose proof (unread_cases b Hwf) as Hu.
  destruct Hwf as (H0 & Hlen & Hr & Hw).
  assert (Hwf' : wf b').
  { unfold wf, b'; simpl. repeat split; try lia.
    destruct (Nat.eqb_spec (rp b + n) (size b)); lia. }
  pose proof (unread_cases b' Hwf') as Hu'.
  assert (Hun : unread b' = unread b - n).
  { unfold b' in *; simpl in *. destruct (Nat.eqb_spec (rp b + n) (size b)); lia. }
  split; [assumption|]. split.
  - split. { rewrite skipn_length. lia. }
    intros i Hi. rewrite nth_error_skipn, HN by lia. simpl. f_equal.
    destruct (Nat.eqb_spec (rp b + n) (size b)) as [E|E].
    + replace (rp b + (n + i)) with (0 + i + 1 * size b) by lia.
      rewrite Nat.mod_add by lia. reflexivity.
    + f_equal. lia.
  - apply nth_error_ext. intros i. rewrite !nth_error_firstn, nth_error_skipn.
    destruct (Nat.ltb_spec i n); [|reflexivity].
    rewrite HN by lia. f_equal. symmetry. apply Nat.mod_small. lia.
Qed.

Lemma patched_app (dst : list A) off d1 d2 : off + length d1 + length d2 <= length dst ->
  patched (patched dst off d1) (off + length d1) d2 = patched dst off (d1 ++ d2).
Proof.
  intros H. unfold patched.
  assert (E1 : firstn (off + length d1) (firstn off dst ++ d1 ++ skipn (off + length d1) dst)
               = firstn off dst ++ d1).
  { rewrite app_assoc, firstn_app, app_length, firstn_length, Nat.min_l by lia.
    rewrite Nat.sub_diag. simpl. rewrite app_nil_r. apply firstn_all2.
    rewrite app_length, firstn_length. lia. }
  rewrite E1. rewrite <- !app_assoc. f_equal. f_equal. f_equal.
  rewrite app_length.
  rewrite (app_assoc (firstn off dst)).
  rewrite skipn_app, app_length, firstn_length, Nat.min_l by lia.
  rewrite (skipn_all2 (firstn off dst ++ d1)) by (rewrite app_length, firstn_length; lia).
  simpl. apply nth_error_ext. intros i. rewrite !nth_error_skipn. f_equal. lia.
Qed.

Lemma firstn_app_skipn n m (q : list A) : firstn n q ++ firstn m (skipn n q) = firstn (n + m) q.
Proof.
  revert q; induction n as [|n IH]; intros q; [reflexivity|].
  destruct q as [|x q]; simpl; [now rewrite firstn_nil|]. now rewrite IH.
Qed.

Lemma skipn_skipn' n m (q : list A) : skipn m (skipn n q) = skipn (n + m) q.
Proof.
  revert q; induction n as [|n IH]; intros q; [reflexivity|].
  destruct q as [|x q]; simpl; [now rewrite skipn_nil|]. apply IH.
Qed.

Lemma read_loop_ok fuel : forall b q dst off len cnt,
  wf b -> repr b q -> cnt <= len -> len - cnt < fuel -> off + len <= length dst ->
  let k := Nat.min (len - cnt) (length q) in
  exists b', read_loop fuel b dst off len cnt
             = Ok (b', patched dst (off + cnt) (firstn k q), cnt + k) /\
    size b' = size b /\ wf b' /\ repr b' (skipn k q).
Proof.
  induction fuel as [|fuel IH]; intros b q dst off len cnt Hwf Hq Hc Hf Hs k; [lia|].
  cbn [read_loop].
  pose proof (unread_cases b Hwf) as Hu.
  assert (Hd0 : forall x, patched dst x [] = dst).
  { intros x. unfold patched. simpl. rewrite Nat.add_0_r. apply firstn_skipn. }
  destruct ((cnt =? len) || (wp b =? rp b)) eqn:Estop.
  - exists b. assert (k = 0) as ->.
    { unfold k. destruct Hq as [HL _]. rewrite HL.
      apply orb_true_iff in Estop as [E|E]; apply Nat.eqb_eq in E; lia. }
    simpl. rewrite Hd0, Nat.add_0_r. repeat split; try assumption; try apply Hwf; apply Hq.
  - apply orb_false_iff in Estop as [E1 E2].
    apply Nat.eqb_neq in E1. apply Nat.eqb_neq in E2.
    assert (Hwf0 := Hwf). destruct Hwf0 as (H0 & Hl & Hr & Hw).
    set (n := if rp b <? wp b then Nat.min (wp b - rp b) (len - cnt)
              else Nat.min (size b - rp b) (len - cnt)).
    assert (Hn : 0 < n /\ n <= len - cnt /\ n <= unread b /\ rp b + n <= size b).
    { unfold n. destruct (Nat.ltb_spec (rp b) (wp b)); lia. }
    destruct Hn as (Hn0 & Hn1 & Hn2 & Hn3).
    rewrite memcpy_ok by lia. cbn [bind].
    destruct (read_pass b q n Hwf Hq Hn2 Hn3) as (W1 & W2 & W3).
    assert (HLq : length q = unread b) by apply Hq.
    assert (Lf : length (firstn n q) = n) by (rewrite firstn_length; lia).
    assert (Ed : firstn (off + cnt) dst ++ firstn n (skipn (rp b) (buf b)) ++ skipn (off + cnt + n) dst
                 = patched dst (off + cnt) (firstn n q)).
    { unfold patched. rewrite W3, Lf. reflexivity. }
    rewrite Ed.
    assert (Lp : length (patched dst (off + cnt) (firstn n q)) = length dst).
    { unfold patched. rewrite !app_length, firstn_length, skipn_length, Lf. lia. }
    destruct (IH _ _ (patched dst (off + cnt) (firstn n q)) off len (cnt + n)
                W1 W2 ltac:(lia) ltac:(lia) ltac:(lia)) as (b' & E & S' & W' & R').
    exists b'.
    rewrite skipn_length in E, R'.
    set (k' := Nat.min (len - (cnt + n)) (length q - n)) in *.
    assert (Ek : k = n + k') by (unfold k, k'; lia).
    split.
    + rewrite E. f_equal. f_equal; [f_equal|lia].
      replace (off + (cnt + n)) with (off + cnt + length (firstn n q)) by (rewrite Lf; lia).
      rewrite patched_app.
      * rewrite firstn_app_skipn, <- Ek. reflexivity.
      * rewrite Lf, firstn_length, skipn_length. lia.
    + simpl in S'. split; [exact S'|]. split; [exact W'|].
      rewrite skipn_skipn', <- Ek in R'. exact R'.
Qed.

Lemma read_ok b q dst off len :
  wf b -> repr b q -> off + len <= length dst ->
  let k := Nat.min len (length q) in
  exists b', read b dst off len = Ok (b', patched dst off (firstn k q), k) /\
    size b' = size b /\ wf b' /\ repr b' (skipn k q).
Proof.
  intros Hwf Hq Hs k. unfold read.
  destruct (read_loop_ok (S len) b q dst off len 0 Hwf Hq ltac:(lia) ltac:(lia) Hs)
    as (b' & E & S' & W' & R').
  rewrite Nat.add_0_r, Nat.sub_0_r in *. exists b'. auto.
Qed.

Lemma step_ok b q o : wf b -> repr b q -> in_bounds o ->
  exists b', step b o = Ok (b', snd (q_step (size b) q o)) /\ size b' = size b /\ wf b' /\
    repr b' (fst (q_step (size b) q o)).
Proof.
  intros Hwf Hq Hb. destruct o as [src off len|dst off len]; simpl in *.
  - destruct (write_ok b q src off len Hwf Hq Hb) as (b' & E & S' & W' & R').
    exists b'. rewrite E. simpl. auto.
  - destruct (read_ok b q dst off len Hwf Hq Hb) as (b' & E & S' & W' & R').
    exists b'. rewrite E. simpl. auto.
Qed.

Lemma run_ok ops : forall b q, wf b -> repr b q -> Forall in_bounds ops ->
  exists b', run b ops = Ok (b', snd (q_run (size b) q ops)) /\ size b' = size b /\ wf b' /\
    repr b' (fst (q_run (size b) q ops)).
Proof.
  induction ops as [|o os IH]; intros b q Hwf Hq Hb.
  - exists b. simpl. auto.
  - inversion Hb as [|? ? Ho Hos]; subst.
    destruct (step_ok b q o Hwf Hq Ho) as (b1 & E1 & S1 & W1 & R1).
    destruct (IH b1 _ W1 R1 Hos) as (b2 & E2 & S2 & W2 & R2).
    rewrite S1 in *.
    exists b2. cbn [run q_run]. rewrite E1. cbn [bind fst snd]. rewrite E2. cbn [bind fst snd].
    destruct (q_step (size b) q o) as [q1 x]. cbn [fst snd] in *.
    destruct (q_run (size b) q1 os) as [q2 xs]. cbn [fst snd] in *. auto.
Qed.

Lemma wf_make (c : list A) : 0 < length c -> wf (make c).
Proof. intros H. unfold wf, make; simpl. lia. Qed.

Lemma repr_make (c : list A) : 0 < length c -> repr (make c) [].
Proof.
  intros H. assert (unread (make c) = 0) as Hu.
  { unfold unread, make; simpl. rewrite Nat.sub_0_r. apply Nat.mod_same. lia. }
  split; [now rewrite Hu|]. intros i Hi. lia.
Qed.

Lemma ring_queue (c : list A) ops : 0 < length c -> Forall in_bounds ops ->
  exists b', run (make c) ops = Ok (b', snd (q_run (length c) [] ops)).
Proof.
  intros H Hb. destruct (run_ok ops (make c) [] (wf_make c H) (repr_make c H) Hb) as (b' & E & _).
  exists b'. exact E.
Qed.

Lemma slice_length (src : list A) off len : off + len <= length src -> length (slice src off len) = len.
Proof. intros H. unfold slice. rewrite firstn_length, skipn_length. lia. Qed.

Lemma q_run_ideal s ops : forall q, 0 < s -> Forall in_bounds ops -> never_full s q ops ->
  q_run s q ops = ideal_run q ops.
Proof.
  induction ops as [|o os IH]; intros q Hs Hb Hn; [reflexivity|].
  inversion Hb as [|? ? Ho Hos]; subst. cbn [q_run ideal_run].
  assert (E : q_step s q o = ideal_step q o).
  { destruct o as [src off len|dst off len]; simpl in *; [|reflexivity].
    destruct Hn as [Hn _]. f_equal. unfold q_write.
    rewrite slice_length by assumption. rewrite Nat.mod_small by assumption.
    apply lastn_all. rewrite app_length, slice_length by assumption. lia. }
  rewrite E. destruct Hn as [_ Hn].
  destruct (ideal_step q o) as [q1 x] eqn:E1. simpl in Hn.
  rewrite (IH q1 Hs Hos Hn). reflexivity.
Qed.

Lemma ring_lossless (c : list A) ops : 0 < length c -> Forall in_bounds ops ->
  never_full (length c) [] ops ->
  exists b', run (make c) ops = Ok (b', snd (ideal_run [] ops)).
Proof.
  intros H Hb Hn. destruct (ring_queue c ops H Hb) as (b' & E).
  exists b'. rewrite E. rewrite (q_run_ideal _ _ _ H Hb Hn). reflexivity.
Qed.

Lemma ring_exact_fill_empties (c src : list A) : 0 < length c -> length src = length c ->
  forall dst n, n <= length dst ->
  exists b', run (make c) [OWrite src 0 (length src); ORead dst 0 n]
             = Ok (b', [WCount (length src); RData dst 0]).
Proof.
  intros H Hl dst n Hn.
  destruct (ring_queue c [OWrite src 0 (length src); ORead dst 0 n] H) as (b' & E).
  { repeat constructor; simpl; lia. }
  exists b'. rewrite E. f_equal. f_equal. cbn [q_run q_step snd].
  assert (E1 : q_write (length c) [] (slice src 0 (length src)) = []).
  { unfold q_write. rewrite slice_length by lia. simpl. rewrite Hl, Nat.mod_same by lia.
    unfold lastn. rewrite Nat.sub_0_r. apply skipn_all. }
  rewrite E1. simpl. rewrite Nat.min_0_r. simpl. reflexivity.
Qed.

Lemma write_size0_hangs fuel : forall src off len cnt, cnt < len -> off + len <= length src ->
  write_loop fuel (@make A []) src off len cnt = Hang.
Proof.
  induction fuel as [|fuel IH]; intros src off len cnt H Hs; [reflexivity|].
  cbn [write_loop]. destruct (Nat.eqb_spec cnt len); [lia|].
  unfold make; cbn [size buf wp rp length]. rewrite Nat.sub_0_l, Nat.min_0_l.
  rewrite memcpy_ok by (simpl; lia). cbn. rewrite Nat.add_0_r.
  apply IH; assumption.
Qed.

(** UART: product of two queues. *)
Definition both (u : uart A) (qt qr : list A) :=
  wf (txb u) /\ repr (txb u) qt /\ wf (rxb u) /\ repr (rxb u) qr.

Lemma uart_step_tx (u : uart A) o : uart_step u (Tx, o)
  = let! r := step (txb u) o in Ok (mkUart (rxb u) (fst r), snd r).
Proof.
  destruct o; cbn [uart_step step]; unfold write_tx, read_tx;
  [destruct (write (txb u) src off len)|destruct (read (txb u) dst off len)]; reflexivity.
Qed.
Lemma uart_step_rx (u : uart A) o : uart_step u (Rx, o)
  = let! r := step (rxb u) o in Ok (mkUart (fst r) (txb u), snd r).
Proof.
  destruct o; cbn [uart_step step]; unfold write_rx, read_rx;
  [destruct (write (rxb u) src off len)|destruct (read (rxb u) dst off len)]; reflexivity.
Qed.

Lemma uart_run_ok ops : forall u qt qr,
  both u qt qr -> Forall in_bounds (map snd ops) ->
  exists u' outs, uart_run u ops = Ok (u', outs) /\
    map fst outs = map fst ops /\
    on_side Tx outs = snd (q_run (size (txb u)) qt (on_side Tx ops)) /\
    on_side Rx outs = snd (q_run (size (rxb u)) qr (on_side Rx ops)) /\
    both u' (fst (q_run (size (txb u)) qt (on_side Tx ops))) (fst (q_run (size (rxb u)) qr (on_side Rx ops))) /\
    size (txb u') = size (txb u) /\ size (rxb u') = size (rxb u).
Proof.
  induction ops as [|[d o] os IH]; intros u qt qr HB Hb.
  - exists u, []. simpl. auto 10.
  - inversion Hb as [|? ? Ho Hos]; subst. cbn [snd] in Ho.
    destruct HB as (Wt & Rt & Wr & Rr).
    assert (HS : exists u1 x, uart_step u (d, o) = Ok (u1, x) /\
      (d = Tx -> x = snd (q_step (size (txb u)) qt o) /\
          both u1 (fst (q_step (size (txb u)) qt o)) qr) /\
      (d = Rx -> x = snd (q_step (size (rxb u)) qr o) /\
          both u1 qt (fst (q_step (size (rxb u)) qr o))) /\
      size (txb u1) = size (txb u) /\ size (rxb u1) = size (rxb u)).
    { destruct d.
      - destruct (step_ok (txb u) qt o Wt Rt Ho) as (b1 & E1 & S1 & W1 & R1).
        exists (mkUart (rxb u) b1), (snd (q_step (size (txb u)) qt o)).
        split. { rewrite uart_step_tx, E1. reflexivity. }
        split. { intros _; split; [reflexivity|]. repeat split; simpl; try assumption; try apply W1; try apply R1; try apply Wr; try apply Rr. }
        split. { discriminate. } simpl; auto.
      - destruct (step_ok (rxb u) qr o Wr Rr Ho) as (b1 & E1 & S1 & W1 & R1).
        exists (mkUart b1 (txb u)), (snd (q_step (size (rxb u)) qr o)).
        split. { rewrite uart_step_rx, E1. reflexivity. }
        split. { discriminate. }
        split. { intros _; split; [reflexivity|]. repeat split; simpl; try assumption; try apply W1; try apply R1; try apply Wt; try apply Rt. }
        simpl; auto. }
    destruct HS as (u1 & x & E1 & Ht & Hr & S1 & S2).
    destruct d.
    + destruct (Ht eq_refl) as [Hx HB1]. clear Ht Hr.
      destruct (IH u1 _ _ HB1 Hos) as (u' & outs & E2 & M & T2 & R2 & B2 & Z1 & Z2).
      exists u', ((Tx, x) :: outs). cbn [uart_run]. rewrite E1. cbn [bind fst snd]. rewrite E2.
      cbn [bind fst snd map]. rewrite M. split; [reflexivity|]. split; [reflexivity|].
      rewrite S1 in *; rewrite S2 in *.
      split.
      * change (on_side Tx ((Tx, x) :: outs)) with (x :: on_side Tx outs).
        change (on_side Tx ((Tx, o) :: os)) with (o :: on_side Tx os).
        rewrite T2, Hx. cbn [q_run]. destruct (q_step (size (txb u)) qt o) as [q1 y]. cbn [fst snd].
        destruct (q_run (size (txb u)) q1 (on_side Tx os)); reflexivity.
      * split; [exact R2|]. split; [|split; [exact Z1|exact Z2]].
        change (on_side Tx ((Tx, o) :: os)) with (o :: on_side Tx os).
        change (on_side Rx ((Tx, o) :: os)) with (on_side Rx os).
        cbn [q_run]. destruct (q_step (size (txb u)) qt o) as [q1 y]. cbn [fst snd] in *.
        destruct (q_run (size (txb u)) q1 (on_side Tx os)); exact B2.
    + destruct (Hr eq_refl) as [Hx HB1]. clear Ht Hr.
      destruct (IH u1 _ _ HB1 Hos) as (u' & outs & E2 & M & T2 & R2 & B2 & Z1 & Z2).
      exists u', ((Rx, x) :: outs). cbn [uart_run]. rewrite E1. cbn [bind fst snd]. rewrite E2.
      cbn [bind fst snd map]. rewrite M. split; [reflexivity|]. split; [reflexivity|].
      rewrite S1 in *; rewrite S2 in *.
      split.
      * exact T2.
      * split.
        { change (on_side Rx ((Rx, x) :: outs)) with (x :: on_side Rx outs).
          change (on_side Rx ((Rx, o) :: os)) with (o :: on_side Rx os).
          rewrite R2, Hx. cbn [q_run]. destruct (q_step (size (rxb u)) qr o) as [q1 y]. cbn [fst snd].
          destruct (q_run (size (rxb u)) q1 (on_side Rx os)); reflexivity. }
        split; [|split; [exact Z1|exact Z2]].
        change (on_side Rx ((Rx, o) :: os)) with (o :: on_side Rx os).
        change (on_side Tx ((Rx, o) :: os)) with (on_side Tx os).
        cbn [q_run]. destruct (q_step (size (rxb u)) qr o) as [q1 y]. cbn [fst snd] in *.
        destruct (q_run (size (rxb u)) q1 (on_side Rx os)); exact B2.
Qed.

Lemma checked_size_spec n : 0 < checked_size n /\ (n <> 0 -> checked_size n = n) /\ checked_size 0 = 1024.
Proof. unfold checked_size. destruct (Nat.leb_spec n 0); cbn; lia. Qed.

Lemma uart_queues (rxn txn : nat) (rc tc : list A) ops :
  length rc = checked_size rxn -> length tc = checked_size txn ->
  Forall in_bounds (map snd ops) ->
  exists u' outs, uart_run (make_uart rc tc) ops = Ok (u', outs) /\
    map fst outs = map fst ops /\
    on_side Tx outs = snd (q_run (if txn =? 0 then 1024 else txn) [] (on_side Tx ops)) /\
    on_side Rx outs = snd (q_run (if rxn =? 0 then 1024 else rxn) [] (on_side Rx ops)).
Proof.
  intros Hr Ht Hb.
  assert (HB : both (make_uart rc tc) [] []).
  { pose proof (checked_size_spec rxn). pose proof (checked_size_spec txn).
    unfold both; simpl. rewrite <- Hr, <- Ht in *. 
    split; [apply wf_make; lia|]. split; [apply repr_make; lia|].
    split; [apply wf_make; lia|]. apply repr_make; lia. }
  destruct (uart_run_ok ops _ _ _ HB Hb) as (u' & outs & E & M & T & R & _).
  exists u', outs. split; [exact E|]. split; [exact M|].
  cbn [txb rxb make_uart size make] in T, R.
  rewrite Ht in T. rewrite Hr in R.
  rewrite T, R. unfold checked_size. destruct txn, rxn; split; reflexivity.
Qed.
End P.
