From Coq Require Import List Arith ZArith Lia Bool.
From Verif Require Import Base SlipModel SlipSpec.
Import ListNotations.
Open Scope Z_scope.

Lemma find_at_spec v l :
  (~ In v l /\ find_at l v = length l) \/
  (exists a b, l = a ++ v :: b /\ ~ In v a /\ find_at l v = length a).
Proof.
  induction l as [|x l IH]; simpl.
  - left; auto.
  - destruct (Z.eqb_spec x v) as [->|Hx].
    + right. exists [], l. auto.
    + destruct IH as [[H E]|(a & b & -> & H & E)].
      * left. split; [intros [?|?]; contradiction|]. now rewrite E.
      * right. exists (x :: a), b. simpl. rewrite E. split; [reflexivity|]. split; [|reflexivity].
        intros [?|?]; contradiction.
Qed.

Lemma skipn_len_app {A} (p s : list A) : skipn (length p) (p ++ s) = s.
Proof. rewrite skipn_app, skipn_all, Nat.sub_diag. reflexivity. Qed.
Lemma firstn_len_app {A} (p s : list A) : firstn (length p) (p ++ s) = p.
Proof. rewrite firstn_app, firstn_all, Nat.sub_diag. simpl. apply app_nil_r. Qed.

Lemma find_from_app v p s : find_from (p ++ s) (length p) v = (length p + find_at s v)%nat.
Proof. unfold find_from. now rewrite skipn_len_app. Qed.

Lemma insert_app p x s v : insert (p ++ x :: s) (S (length p)) v = p ++ x :: v :: s.
Proof.
  unfold insert.
  change (p ++ x :: s) with (p ++ [x] ++ s). rewrite app_assoc.
  replace (S (length p)) with (length (p ++ [x])) by (rewrite app_length; simpl; lia).
  rewrite firstn_len_app, skipn_len_app, <- app_assoc. reflexivity.
Qed.

Lemma set_nth_app p x s v : set_nth (p ++ x :: s) (length p) v = p ++ v :: s.
Proof.
  unfold set_nth. rewrite firstn_len_app. f_equal. f_equal.
  change (p ++ x :: s) with (p ++ [x] ++ s). rewrite app_assoc.
  replace (S (length p)) with (length (p ++ [x])) by (rewrite app_length; simpl; lia).
  apply skipn_len_app.
Qed.

Lemma erase_app p x s : erase (p ++ x :: s) (length p) = p ++ s.
Proof.
  unfold erase. rewrite firstn_len_app. f_equal.
  change (p ++ x :: s) with (p ++ [x] ++ s). rewrite app_assoc.
  replace (S (length p)) with (length (p ++ [x])) by (rewrite app_length; simpl; lia).
  apply skipn_len_app.
Qed.

(** generic substitution pass *)
Definition pass1 (b : Z) : list Z := if b =? FESC then [FESC; TFESC] else [b].
Definition pass2 (b : Z) : list Z := if b =? FEND then [FESC; TFEND] else [b].

Lemma flat_map_id (f : Z -> list Z) a : (forall x, In x a -> f x = [x]) -> flat_map f a = a.
Proof.
  induction a as [|x a IH]; intros H; simpl; [reflexivity|].
  rewrite H by now left. simpl. f_equal. apply IH. intros y Hy. apply H. now right.
Qed.


Lemma encode_fesc_loop_ok fuel : forall p s, (count FESC s < fuel)%nat ->
  encode_fesc_loop fuel (p ++ s) (length p) = Ok (p ++ flat_map pass1 s).
Proof.
  induction fuel as [|fuel IH]; intros p s Hf; [lia|].
  cbn [encode_fesc_loop]. rewrite find_from_app.
  destruct (find_at_spec FESC s) as [[H E]|(a & b & -> & H & E)]; rewrite E.
  - rewrite app_length, Nat.eqb_refl. f_equal. f_equal. symmetry. apply flat_map_id.
    intros x Hx. unfold pass1. destruct (Z.eqb_spec x FESC); [subst; contradiction|reflexivity].
  - destruct (Nat.eqb_spec (length p + length a) (length (p ++ a ++ FESC :: b))) as [X|_].
    { rewrite !app_length in X. simpl in X. lia. }
    rewrite app_assoc, <- (app_length p a), insert_app.
    replace (S (length (p ++ a))) with (length ((p ++ a) ++ [FESC])) by (rewrite !app_length; simpl; lia).
    change ((p ++ a) ++ FESC :: TFESC :: b) with ((p ++ a) ++ [FESC] ++ (TFESC :: b)).
    rewrite app_assoc.
    rewrite IH.
    + rewrite flat_map_app. rewrite (flat_map_id pass1 a).
      * rewrite <- !app_assoc. reflexivity.
      * intros x Hx. unfold pass1. destruct (Z.eqb_spec x FESC); [subst; contradiction|reflexivity].
    + unfold count in *. rewrite count_occ_app in Hf. simpl in Hf. simpl. lia.
Qed.

Lemma encode_fend_loop_ok fuel : forall p s, (count FEND s < fuel)%nat ->
  encode_fend_loop fuel (p ++ s) (length p) = Ok (p ++ flat_map pass2 s).
Proof.
  induction fuel as [|fuel IH]; intros p s Hf; [lia|].
  cbn [encode_fend_loop]. rewrite find_from_app.
  destruct (find_at_spec FEND s) as [[H E]|(a & b & -> & H & E)]; rewrite E.
  - rewrite app_length, Nat.eqb_refl. f_equal. f_equal. symmetry. apply flat_map_id.
    intros x Hx. unfold pass2. destruct (Z.eqb_spec x FEND); [subst; contradiction|reflexivity].
  - destruct (Nat.eqb_spec (length p + length a) (length (p ++ a ++ FEND :: b))) as [X|_].
    { rewrite !app_length in X. simpl in X. lia. }
    rewrite app_assoc, <- (app_length p a), set_nth_app, insert_app.
    replace (S (length (p ++ a))) with (length ((p ++ a) ++ [FESC])) by (rewrite !app_length; simpl; lia).
    change ((p ++ a) ++ FESC :: TFEND :: b) with ((p ++ a) ++ [FESC] ++ (TFEND :: b)).
    rewrite app_assoc.
    rewrite IH.
    + rewrite flat_map_app. rewrite (flat_map_id pass2 a).
      * rewrite <- !app_assoc. reflexivity.
      * intros x Hx. unfold pass2. destruct (Z.eqb_spec x FEND); [subst; contradiction|reflexivity].
    + unfold count in *. rewrite count_occ_app in Hf. simpl in Hf. simpl. lia.
Qed.

Lemma count_le v l : (count v l <= length l)%nat.
Proof. unfold count. apply count_occ_bound. Qed.

Lemma pass_escape s : flat_map pass2 (flat_map pass1 s) = flat_map escape s.
Proof.
  induction s as [|b s IH]; [reflexivity|]. cbn [flat_map].
  rewrite flat_map_app, IH. f_equal.
  unfold pass1, escape, pass2, FESC, FEND, TFESC, TFEND.
  destruct (Z.eqb_spec b 219) as [->|H1].
  - reflexivity.
  - destruct (Z.eqb_spec b 192) as [->|H2]; [reflexivity|].
    simpl. destruct (Z.eqb_spec b 192); [contradiction|reflexivity].
Qed.

Lemma encode_slip_ok m : encode_slip m = Ok (flat_map escape m ++ [192]).
Proof.
  unfold encode_slip.
  pose proof (encode_fesc_loop_ok (S (length m)) [] m) as E1. cbn [length app] in E1.
  rewrite E1 by (pose proof (count_le FESC m); lia). cbn [bind].
  pose proof (encode_fend_loop_ok (S (length (flat_map pass1 m))) [] (flat_map pass1 m)) as E2.
  cbn [length app] in E2.
  rewrite E2 by (pose proof (count_le FEND (flat_map pass1 m)); lia). cbn [bind].
  rewrite pass_escape. reflexivity.
Qed.

Lemma escape_no_end b : ~ In 192 (escape b).
Proof.
  unfold escape. destruct (Z.eqb_spec b 192) as [->|H]; [simpl; lia|].
  destruct (Z.eqb_spec b 219) as [->|H2]; simpl; lia.
Qed.

Lemma body_no_end m : ~ In 192 (flat_map escape m).
Proof. rewrite in_flat_map. intros (x & _ & H). exact (escape_no_end x H). Qed.

Lemma body_length m : length (flat_map escape m) = (length m + count 192 m + count 219 m)%nat.
Proof.
  unfold count. induction m as [|b m IH]; [reflexivity|].
  cbn [flat_map count_occ length]. rewrite app_length, IH. unfold escape.
  destruct (Z.eqb_spec b 192) as [->|H].
  - destruct (Z.eq_dec 192 192); destruct (Z.eq_dec 192 219); cbn [length]; lia.
  - destruct (Z.eqb_spec b 219) as [->|H2];
    repeat match goal with |- context [Z.eq_dec ?x ?y] => destruct (Z.eq_dec x y) end; cbn [length]; lia.
Qed.

Lemma firstn_find_frame s : firstn (find_from s 0 FEND) s = frame s.
Proof.
  unfold find_from. simpl. induction s as [|b s IH]; [reflexivity|].
  simpl. unfold FEND in *. destruct (b =? 192); simpl; [reflexivity|]. now rewrite IH.
Qed.

Lemma frame_app b r : ~ In 192 b -> frame (b ++ 192 :: r) = b.
Proof.
  induction b as [|x b IH]; intros H; [reflexivity|]. cbn [app frame].
  destruct (Z.eqb_spec x 192) as [->|Hx]; [exfalso; apply H; now left|].
  f_equal. apply IH. intros X. apply H. now right.
Qed.

Lemma decode_loop_skip fuel p a s : ~ In FESC a ->
  decode_loop fuel (p ++ a ++ s) (length p) = decode_loop fuel ((p ++ a) ++ s) (length (p ++ a)).
Proof.
  intros H. destruct fuel as [|fuel]; [reflexivity|]. cbn [decode_loop].
  assert (E : find_from (p ++ a ++ s) (length p) FESC = find_from ((p ++ a) ++ s) (length (p ++ a)) FESC).
  { rewrite !find_from_app, app_length.
    assert (Ea : find_at (a ++ s) FESC = (length a + find_at s FESC)%nat).
    { clear p. induction a as [|x a IH]; [reflexivity|]. simpl.
      destruct (Z.eqb_spec x FESC) as [->|Hx]; [exfalso; apply H; now left|].
      rewrite IH; [reflexivity|]. intros X. apply H. now right. }
    lia. }
  rewrite E, <- app_assoc. reflexivity.
Qed.

(** main characterisation of the decoder on any suffix *)
Lemma decode_loop_char n : forall s p fuel, (length s <= n)%nat -> (length s < fuel)%nat ->
  (exists r, decode_loop fuel (p ++ s) (length p) = Ok (p ++ r) /\ Unesc s r) \/
  (decode_loop fuel (p ++ s) (length p) = UB /\ Dangling s).
Proof.
  induction n as [|n IH]; intros s p fuel Hn Hf.
  - destruct s; [|simpl in Hn; lia]. left. exists []. split; [|constructor].
    destruct fuel; [lia|]. cbn [decode_loop]. rewrite find_from_app. simpl.
    rewrite app_length. simpl. rewrite Nat.eqb_refl. reflexivity.
  - destruct s as [|b s].
    { left. exists []. split; [|constructor].
      destruct fuel; [simpl in Hf; lia|]. cbn [decode_loop]. rewrite find_from_app. simpl.
      rewrite app_length. simpl. rewrite Nat.eqb_refl. reflexivity. }
    cbn [length] in Hn, Hf.
    destruct (Z.eq_dec b FESC) as [->|Hb].
    + destruct fuel as [|fuel]; [lia|]. cbn [decode_loop]. rewrite find_from_app.
      change (find_at (FESC :: s) FESC) with 0%nat. rewrite Nat.add_0_r.
      destruct (Nat.eqb_spec (length p) (length (p ++ FESC :: s))) as [X|_].
      { rewrite app_length in X; simpl in X; lia. }
      assert (En : nth_error (p ++ FESC :: s) (S (length p)) = nth_error s 0).
      { rewrite nth_error_app2 by lia. replace (S (length p) - length p)%nat with 1%nat by lia. reflexivity. }
      rewrite En. destruct s as [|x s]; [right; split; [reflexivity|constructor]|].
      cbn [nth_error].
      set (y := if x =? TFEND then FEND else if x =? TFESC then FESC else x).
      assert (Eset : (if x =? TFEND then set_nth (p ++ FESC :: x :: s) (S (length p)) FEND
              else if x =? TFESC then set_nth (p ++ FESC :: x :: s) (S (length p)) FESC
              else p ++ FESC :: x :: s) = p ++ FESC :: y :: s).
      { assert (Es : forall v, set_nth (p ++ FESC :: x :: s) (S (length p)) v = p ++ FESC :: v :: s).
        { intros v. change (p ++ FESC :: x :: s) with (p ++ [FESC] ++ x :: s). rewrite app_assoc.
          replace (S (length p)) with (length (p ++ [FESC])) by (rewrite app_length; simpl; lia).
          rewrite set_nth_app, <- app_assoc. reflexivity. }
        unfold y. destruct (x =? TFEND); [apply Es|]. destruct (x =? TFESC); [apply Es|reflexivity]. }
      rewrite Eset, erase_app.
      change (p ++ y :: s) with (p ++ [y] ++ s). rewrite app_assoc.
      replace (S (length p)) with (length (p ++ [y])) by (rewrite app_length; simpl; lia).
      cbn [length] in *.
      destruct (IH s (p ++ [y]) fuel ltac:(lia) ltac:(lia)) as [(r & Er & Ur)|[Er Dr]].
      * left. exists (y :: r). split.
        { rewrite Er, <- app_assoc. reflexivity. }
        unfold y, TFEND, TFESC, FEND, FESC.
        destruct (Z.eqb_spec x 220) as [->|H1]; [now constructor|].
        destruct (Z.eqb_spec x 221) as [->|H2]; [now constructor|]. now constructor.
      * right. split; [exact Er|]. now constructor.
    + change (p ++ b :: s) with (p ++ [b] ++ s).
      rewrite decode_loop_skip by (simpl; intuition).
      destruct (IH s (p ++ [b]) fuel ltac:(lia) ltac:(lia)) as [(r & Er & Ur)|[Er Dr]].
      * left. exists (b :: r). rewrite Er, <- app_assoc. split; [reflexivity|]. now constructor.
      * right. split; [exact Er|]. now constructor.
Qed.

Lemma decode_slip_char s :
  (exists r, decode_slip s = Ok r /\ Unesc (frame s) r) \/
  (decode_slip s = UB /\ Dangling (frame s)).
Proof.
  unfold decode_slip. rewrite firstn_find_frame.
  exact (decode_loop_char (length (frame s)) (frame s) [] (S (length (frame s))) ltac:(lia) ltac:(lia)).
Qed.

Lemma Unesc_fun n : forall s r r', (length s <= n)%nat -> Unesc s r -> Unesc s r' -> r = r'.
Proof.
  induction n as [|n IH]; intros s r r' Hn H H'.
  - destruct s; [|simpl in Hn; lia]. inversion H; inversion H'; reflexivity.
  - inversion H; subst; inversion H'; subst; simpl in Hn; try congruence; f_equal; eapply IH; eauto; lia.
Qed.

Lemma Unesc_not_dangling n : forall s r, (length s <= n)%nat -> Unesc s r -> ~ Dangling s.
Proof.
  induction n as [|n IH]; intros s r Hn H D.
  - destruct s; [|simpl in Hn; lia]. inversion D.
  - inversion H; subst; inversion D; subst; simpl in Hn; try congruence;
    match goal with U : Unesc ?x _, D : Dangling ?x |- _ => refine (IH x _ _ U D); lia end.
Qed.

Lemma Unesc_encode m : Unesc (flat_map escape m) m.
Proof.
  induction m as [|b m IH]; [constructor|]. cbn [flat_map]. unfold escape at 1.
  destruct (Z.eqb_spec b 192) as [->|H]; [now constructor|].
  destruct (Z.eqb_spec b 219) as [->|H2]; now constructor.
Qed.

Lemma decode_frame m rest : decode_slip (flat_map escape m ++ 192 :: rest) = Ok m.
Proof.
  destruct (decode_slip_char (flat_map escape m ++ 192 :: rest)) as [(r & E & U)|[E D]];
  rewrite (frame_app _ _ (body_no_end m)) in *.
  - rewrite E. f_equal. eapply Unesc_fun; [reflexivity|exact U|apply Unesc_encode].
  - exfalso. eapply Unesc_not_dangling; [reflexivity|apply Unesc_encode|exact D].
Qed.

(** endian_memcpy *)
Lemma length_set_nth l i v : (i < length l)%nat -> length (set_nth l i v) = length l.
Proof. intros H. unfold set_nth. rewrite app_length, firstn_length. cbn [length]. rewrite skipn_length. lia. Qed.

Lemma nth_set_nth l i v j : (i < length l)%nat ->
  nth_error (set_nth l i v) j = if Nat.eqb j i then Some v else nth_error l j.
Proof.
  intros H. unfold set_nth. rewrite nth_error_app, firstn_length, Nat.min_l by lia.
  rewrite nth_error_firstn.
  destruct (Nat.ltb_spec j i).
  - destruct (Nat.eqb_spec j i); [lia|reflexivity].
  - destruct (Nat.eqb_spec j i) as [->|].
    + rewrite Nat.sub_diag. reflexivity.
    + destruct (j - i)%nat as [|k] eqn:E; [lia|]. cbn [nth_error].
      rewrite nth_error_skipn. f_equal. lia.
Qed.

Lemma endian_loop_ok fuel : forall i last dst src,
  (last < length dst)%nat -> (last < length src)%nat -> (i <= S last)%nat -> (S last - i < fuel)%nat ->
  exists r, endian_loop fuel i last dst src = Ok r /\ length r = length dst /\
    forall j, nth_error r j = if Nat.leb j (last - i) && Nat.leb i last
                              then nth_error src (last - j) else nth_error dst j.
Proof.
  induction fuel as [|fuel IH]; intros i last dst src Hd Hs Hi Hf; [lia|].
  cbn [endian_loop]. destruct (Nat.leb_spec i last) as [Hl|Hl].
  - destruct (nth_error src i) as [x|] eqn:Ex.
    2:{ apply nth_error_None in Ex. lia. }
    destruct (Nat.ltb_spec (last - i) (length dst)); [|lia].
    destruct (IH (S i) last (set_nth dst (last - i) x) src) as (r & E & L & N);
      try rewrite length_set_nth by lia; try lia.
    exists r. split; [exact E|]. split; [rewrite L; apply length_set_nth; lia|].
    intros j. rewrite N, nth_set_nth by lia.
    destruct (Nat.leb_spec j (last - S i)); destruct (Nat.leb_spec (S i) last);
    destruct (Nat.leb_spec j (last - i)); destruct (Nat.eqb_spec j (last - i)); simpl; try lia; try reflexivity;
    subst; replace (last - (last - i))%nat with i by lia; now rewrite Ex.
  - exists dst. split; [reflexivity|]. split; [reflexivity|]. intros j. rewrite andb_false_r. reflexivity.
Qed.

Lemma nth_error_rev (l : list Z) j : (j < length l)%nat ->
  nth_error (rev l) j = nth_error l (length l - 1 - j).
Proof.
  intros H. rewrite (nth_error_nth' (rev l) 0) by (rewrite rev_length; lia).
  rewrite (nth_error_nth' l 0) by lia. f_equal. rewrite rev_nth by lia. f_equal. lia.
Qed.

Lemma endian_memcpy_ok dst src n : (1 <= n)%nat -> (n <= length dst)%nat -> (n <= length src)%nat ->
  endian_memcpy dst src n = Ok (rev (firstn n src) ++ skipn n dst).
Proof.
  intros H1 Hd Hs. unfold endian_memcpy.
  destruct (endian_loop_ok (S (S (Nat.pred n))) 0 (Nat.pred n) dst src) as (r & E & L & N); try lia.
  rewrite E. f_equal. apply nth_error_ext. intros j. rewrite N.
  rewrite nth_error_app, rev_length, firstn_length, Nat.min_l by lia.
  destruct (Nat.ltb_spec j n).
  - rewrite nth_error_rev by (rewrite firstn_length; lia).
    rewrite firstn_length, Nat.min_l, nth_error_firstn by lia.
    destruct (Nat.ltb_spec (n - 1 - j) n); [|lia].
    destruct (Nat.leb_spec j (Nat.pred n - 0)); [|lia]. simpl. f_equal. lia.
  - destruct (Nat.leb_spec j (Nat.pred n - 0)); [lia|]. simpl. rewrite nth_error_skipn. f_equal. lia.
Qed.

Lemma endian_memcpy_zero x xs y ys : endian_memcpy (x :: xs) (y :: ys) 0 = Ok (y :: xs).
Proof. reflexivity. Qed.

Lemma endian_twice d1 d2 src n : (1 <= n)%nat -> length d1 = n -> length d2 = n -> length src = n ->
  (let! t := endian_memcpy d1 src n in endian_memcpy d2 t n) = Ok src.
Proof.
  intros H L1 L2 Ls. rewrite endian_memcpy_ok by lia. cbn [bind].
  rewrite (skipn_all2 d1), app_nil_r by lia.
  rewrite endian_memcpy_ok by (try rewrite rev_length, firstn_length; lia).
  rewrite (skipn_all2 d2), app_nil_r by lia.
  rewrite (firstn_all2 (rev _)) by (rewrite rev_length, firstn_length; lia).
  rewrite rev_involutive, firstn_all2 by lia. reflexivity.
Qed.
Lemma encode_slip_with_header_ok m : encode_slip_with_header m = Ok (192 :: flat_map escape m ++ [192]).
Proof. unfold encode_slip_with_header. rewrite encode_slip_ok. reflexivity. Qed.

Lemma roundtrip m rest :
  (let! f := encode_slip m in decode_slip (f ++ rest)) = Ok m /\
  (let! f := encode_slip_with_header m in decode_slip_with_header (f ++ rest)) = Ok m.
Proof.
  rewrite encode_slip_ok, encode_slip_with_header_ok. cbn [bind app decode_slip_with_header].
  rewrite <- app_assoc. split; apply decode_frame.
Qed.

Lemma frame_format m : exists body,
  encode_slip m = Ok (body ++ [192]) /\
  encode_slip_with_header m = Ok (192 :: body ++ [192]) /\
  ~ In 192 body /\ body = flat_map escape m /\
  length body = (length m + count 192 m + count 219 m)%nat.
Proof.
  exists (flat_map escape m).
  split; [apply encode_slip_ok|]. split; [apply encode_slip_with_header_ok|].
  split; [apply body_no_end|]. split; [reflexivity|apply body_length].
Qed.

Lemma encode_injective m m' f : encode_slip m = Ok f -> encode_slip m' = Ok f -> m = m'.
Proof.
  intros H H'. destruct (roundtrip m []) as [R _]. destruct (roundtrip m' []) as [R' _].
  rewrite H in R. rewrite H' in R'. simpl in *. congruence.
Qed.

Lemma decode_any s :
  (forall r, decode_slip s = Ok r <-> Unesc (frame s) r) /\
  (decode_slip s = UB <-> Dangling (frame s)).
Proof.
  destruct (decode_slip_char s) as [(r & E & U)|[E D]]; rewrite E; split.
  - intros r'. split; intros H; [injection H as <-; exact U|].
    f_equal. eapply Unesc_fun; [reflexivity|exact U|exact H].
  - split; [discriminate|]. intros D. exfalso. eapply Unesc_not_dangling; [reflexivity|exact U|exact D].
  - intros r'. split; [discriminate|]. intros U. exfalso. eapply Unesc_not_dangling; [reflexivity|exact U|exact D].
  - tauto.
Qed.
Lemma decode_header_any s :
  (decode_slip_with_header s = UB <-> s = [] \/ Dangling (frame (tl s))) /\
  (forall r, decode_slip_with_header s = Ok r <-> s <> [] /\ Unesc (frame (tl s)) r).
Proof.
  destruct s as [|b s]; cbn [decode_slip_with_header tl].
  - split; [tauto|]. intros r; split; [discriminate|]. intros [H _]; congruence.
  - destruct (decode_any s) as [H1 H2]. split.
    + rewrite H2. split; [now right|]. intros [X|X]; [discriminate|exact X].
    + intros r. rewrite H1. split; [intros U; split; [discriminate|exact U]|tauto].
Qed.
