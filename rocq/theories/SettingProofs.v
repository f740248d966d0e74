From Coq Require Import List ZArith Bool Ascii String Lia.
From Verif Require Import Base SlipModel SlipProofs StringModel SettingModel SettingSpec.
Import ListNotations.
Open Scope Z_scope.

(** * bytes *)
Lemma le_bytes_length n : forall v, List.length (le_bytes n v) = n.
Proof. induction n as [|n IH]; intros v; cbn; [reflexivity|]. now rewrite IH. Qed.
Lemma le_bytes_range n : forall v, Forall is_byte (le_bytes n v).
Proof.
  induction n as [|n IH]; intros v; cbn; constructor; [|apply IH].
  unfold is_byte. apply Z.mod_pos_bound. lia.
Qed.
Lemma le_bytes_value n : forall v, big_endian (rev (le_bytes n v)) = v mod 2 ^ (8 * Z.of_nat n).
Proof.
  induction n as [|n IH]; intros v.
  - cbn. now rewrite Z.mod_1_r.
  - cbn [le_bytes rev]. unfold big_endian. rewrite fold_left_app. fold (big_endian (rev (le_bytes n (v / 256)))).
    cbn [fold_left]. rewrite IH.
    replace (2 ^ (8 * Z.of_nat (S n))) with (256 * 2 ^ (8 * Z.of_nat n)).
    + rewrite Z.rem_mul_r by lia. lia.
    + replace (8 * Z.of_nat (S n)) with (8 + 8 * Z.of_nat n) by lia. rewrite Z.pow_add_r by lia. reflexivity.
Qed.
Lemma put_ok param n v : (1 <= n)%nat -> (n <= List.length param)%nat ->
  endian_memcpy param (le_bytes n v) n = Ok (rev (le_bytes n v) ++ skipn n param).
Proof.
  intros H1 H2. rewrite endian_memcpy_ok; [|lia|lia|rewrite le_bytes_length; lia].
  rewrite firstn_all2; [reflexivity|]. rewrite le_bytes_length. lia.
Qed.

Definition parse (t : argtype) (s : str) : outcome Z :=
  match t with
  | kInt8t | kInt16t | kInt32t => stoi s
  | kInt64t => stol s
  | _ => stoul 10 s
  end.
Lemma decode_integer fl db t w sg s param size : integer_type t = Some (w, sg) -> (w <= List.length param)%nat ->
  decode_argument fl db t s param size =
  let! v := parse t s in Ok (rev (le_bytes w v) ++ skipn w param, w).
Proof.
  intros I L.
  destruct t; cbn [integer_type] in I; try discriminate; injection I as <- <-; unfold decode_argument, parse; cbv zeta;
    (match goal with |- bind ?m _ = _ => destruct m as [v| | |]; cbn [bind]; try reflexivity end);
    rewrite put_ok by lia; reflexivity.
Qed.
Lemma bytes_mod w v : let bs := rev (le_bytes w v) in
  List.length bs = w /\ Forall is_byte bs /\ big_endian bs = v mod 2 ^ (8 * Z.of_nat w).
Proof.
  cbv zeta. split; [|split].
  - now rewrite rev_length, le_bytes_length.
  - apply Forall_rev, le_bytes_range.
  - apply le_bytes_value.
Qed.
Lemma twos_complement_mod w v : (1 <= w)%nat ->
  - 2 ^ (8 * Z.of_nat w - 1) <= v < 2 ^ (8 * Z.of_nat w - 1) ->
  twos_complement w (v mod 2 ^ (8 * Z.of_nat w)) = v.
Proof.
  intros H R. unfold twos_complement.
  assert (E : 2 ^ (8 * Z.of_nat w) = 2 * 2 ^ (8 * Z.of_nat w - 1)).
  { replace (8 * Z.of_nat w) with (1 + (8 * Z.of_nat w - 1)) at 1 by lia. rewrite Z.pow_add_r by lia. reflexivity. }
  rewrite E. set (h := 2 ^ (8 * Z.of_nat w - 1)) in *.
  destruct (Z_le_gt_dec 0 v) as [P|P].
  - rewrite Z.mod_small by lia. destruct (Z.ltb_spec v h); lia.
  - replace (v mod (2 * h)) with (v + 2 * h).
    + destruct (Z.ltb_spec (v + 2 * h) h); lia.
    + symmetry. rewrite <- (Z_mod_plus_full v 1). rewrite Z.mul_1_l. apply Z.mod_small. lia.
Qed.
Lemma parse_in_range t w sg v : integer_type t = Some (w, sg) -> in_range w sg v -> parse t (to_string v) = Ok v.
Proof.
  intros I R.
  destruct t; cbn [integer_type] in I; try discriminate; injection I as <- <-; unfold parse, in_range in *;
    (first [apply stoul_to_string | apply stoi_to_string | apply stol_to_string]);
    cbn in R; lia.
Qed.
Lemma decode_in_range fl db t w sg v param size : integer_type t = Some (w, sg) -> (w <= List.length param)%nat ->
  in_range w sg v ->
  exists bs, decode_argument fl db t (to_string v) param size = Ok (bs ++ skipn w param, w) /\
    List.length bs = w /\ Forall is_byte bs /\
    (if sg then twos_complement w (big_endian bs) else big_endian bs) = v.
Proof.
  intros I L R. exists (rev (le_bytes w v)).
  rewrite (decode_integer fl db t w sg _ param size I L), (parse_in_range t w sg v I R). cbn [bind].
  pose proof (bytes_mod w v) as B. cbv zeta in B. destruct B as (B1 & B2 & B3).
  split; [reflexivity|]. split; [exact B1|]. split; [exact B2|]. rewrite B3.
  unfold in_range in R. destruct sg.
  - apply twos_complement_mod; [|exact R]. destruct t; cbn in I; try discriminate; injection I; lia.
  - apply Z.mod_small. exact R.
Qed.

(** * operation files *)
Lemma cut_at_spec c s : exists r, s = cut_at c s ++ r /\ ~ In c (cut_at c s) /\ (r = [] \/ hd_error r = Some c).
Proof.
  induction s as [|x t IH].
  - exists []. cbn. auto.
  - cbn. destruct (Ascii.eqb_spec x c) as [->|N].
    + exists (c :: t). cbn. auto.
    + destruct IH as (r & E & NI & R). exists r. cbn. rewrite <- E. split; [reflexivity|]. split; [|exact R].
      intros [X|X]; [congruence|contradiction].
Qed.
Lemma starts_spec x s : starts x s = true -> s = x :: tl s.
Proof. destruct s as [|y t]; cbn; [discriminate|]. intros E. apply Ascii.eqb_eq in E. now subst. Qed.
Lemma starts_false x s : starts x s = false -> hd_error s <> Some x.
Proof. destruct s as [|y t]; cbn; [discriminate|]. intros E X. injection X as ->. now rewrite Ascii.eqb_refl in E. Qed.
Lemma clean_line_cleaned line : cleaned line (clean_line line).
Proof.
  unfold cleaned, clean_line. cbv zeta.
  set (l1 := if starts "." line then tl line else line).
  set (l2 := if starts " " l1 then tl l1 else l1).
  destruct (cut_at_spec "#" l2) as (r & E & NI & R).
  exists (if starts "." line then ["."%char] else []), (if starts " " l1 then [" "%char] else []), r.
  assert (E1 : (if starts " " l1 then [" "%char] else []) ++ l2 = l1).
  { unfold l2. destruct (starts " " l1) eqn:S; [|reflexivity]. now rewrite (starts_spec _ _ S). }
  assert (E0 : (if starts "." line then ["."%char] else []) ++ l1 = line).
  { unfold l1. destruct (starts "." line) eqn:S; [|reflexivity]. now rewrite (starts_spec _ _ S). }
  rewrite <- !E, E1, E0. split; [reflexivity|]. split; [|split; [|split; [exact NI|exact R]]].
  - unfold opt_lead. destruct (starts "." line) eqn:S; [now left|right]. split; [reflexivity|].
    unfold l1. now apply starts_false.
  - unfold opt_lead. destruct (starts " " l1) eqn:S; [now left|right]. split; [reflexivity|].
    unfold l2. rewrite ?S. now apply starts_false.
Qed.
Lemma opt_lead_fun x d1 s1 d2 s2 : opt_lead x d1 s1 -> opt_lead x d2 s2 -> d1 ++ s1 = d2 ++ s2 -> d1 = d2 /\ s1 = s2.
Proof.
  unfold opt_lead. intros [->|(-> & H1)] [->|(-> & H2)] E; cbn in E.
  - injection E as ->. auto.
  - subst s2. now destruct H2.
  - subst s1. now destruct H1.
  - auto.
Qed.
Lemma cut_unique (c : ascii) (a1 r1 a2 r2 : str) : ~ In c a1 -> ~ In c a2 ->
  (r1 = [] \/ hd_error r1 = Some c) -> (r2 = [] \/ hd_error r2 = Some c) -> a1 ++ r1 = a2 ++ r2 -> a1 = a2.
Proof.
  revert a2; induction a1 as [|x a1 IH]; intros a2 N1 N2 R1 R2 E; destruct a2 as [|y a2]; [reflexivity| | |].
  - cbn in E. destruct R1 as [->|R1]; [discriminate|]. destruct r1 as [|z r1]; [discriminate|].
    injection R1 as ->. injection E as -> _. exfalso. apply N2. now left.
  - cbn in E. destruct R2 as [->|R2]; [discriminate|]. destruct r2 as [|z r2]; [discriminate|].
    injection R2 as ->. injection E as -> _. exfalso. apply N1. now left.
  - injection E as -> E. f_equal. apply (IH a2); auto; intros X; [apply N1|apply N2]; now right.
Qed.
Lemma cleaned_unique line c1 c2 : cleaned line c1 -> cleaned line c2 -> c1 = c2.
Proof.
  intros (d1 & b1 & r1 & E1 & D1 & B1 & N1 & R1) (d2 & b2 & r2 & E2 & D2 & B2 & N2 & R2).
  rewrite E1 in E2.
  destruct (opt_lead_fun _ _ _ _ _ D1 D2 E2) as [_ E3].
  destruct (opt_lead_fun _ _ _ _ _ B1 B2 E3) as [_ E4].
  exact (cut_unique "#" _ _ _ _ N1 N2 R1 R2 E4).
Qed.
Lemma keep_lines_filter ls : keep_lines ls = filter (fun c => (2 <? List.length c)%nat) (map clean_line ls).
Proof. induction ls as [|l ls IH]; cbn; [reflexivity|]. rewrite IH. reflexivity. Qed.
Lemma read_lines_from n : forall ls p, (p <= List.length ls)%nat ->
  read_lines n (mkOps ls p) = firstn n (skipn p ls ++ repeat (lit "EOL") n).
Proof.
  induction n as [|n IH]; intros ls p H; [reflexivity|]. cbn [read_lines]. unfold latest_line. cbn [lines pointer].
  destruct (nth_error ls p) as [l|] eqn:E.
  - assert (Lp : (p < List.length ls)%nat) by (apply nth_error_Some; congruence).
    rewrite IH by lia.
    assert (S1 : skipn p ls = l :: skipn (S p) ls).
    { clear -E. revert ls E; induction p as [|p IHp]; intros ls E; destruct ls as [|x ls]; cbn in E; try discriminate.
      - now injection E as ->.
      - cbn [skipn]. now apply IHp. }
    rewrite S1. cbn [app firstn]. f_equal.
    rewrite !firstn_app. f_equal. rewrite skipn_length.
    change (repeat (lit "EOL") (S n)) with (lit "EOL" :: repeat (lit "EOL") n).
    clear. set (k := (n - _)%nat). assert (K : (k <= n)%nat) by lia. clearbody k.
    revert n K; induction k as [|k IHk]; intros n K; [reflexivity|].
    destruct n as [|n]; [lia|]. cbn [repeat firstn]. f_equal.
    change (firstn k (lit "EOL" :: repeat (lit "EOL") n)) with (firstn k (repeat (lit "EOL") (S n))).
    apply (IHk n). lia.
  - apply nth_error_None in E. assert (p = List.length ls) by lia. subst p.
    rewrite IH by lia. rewrite skipn_all. cbn [app repeat firstn]. reflexivity.
Qed.
Lemma read_lines_new n file : read_lines n (ops_new file) =
  firstn n (filter (fun c => (2 <? List.length c)%nat) (map clean_line (getlines nl file)) ++ repeat (lit "EOL") n).
Proof. unfold ops_new. rewrite read_lines_from by lia. now rewrite keep_lines_filter. Qed.

(** * strings *)
Lemma prefix_spec p s : prefix p s = true <-> exists t, s = p ++ t.
Proof.
  revert s; induction p as [|x p IH]; intros s.
  - cbn. split; [intros _; now exists s|reflexivity].
  - destruct s as [|y s]; cbn.
    + split; [discriminate|]. intros (t & E). discriminate.
    + split.
      * intros H. apply andb_prop in H as [H1 H2]. apply Ascii.eqb_eq in H1. subst y.
        apply IH in H2 as (t & ->). now exists t.
      * intros (t & E). injection E as -> ->. rewrite Ascii.eqb_refl. cbn. apply IH. now exists t.
Qed.
Lemma occurs_prefix p s i : occurs p s i <-> prefix p (skipn i s) = true.
Proof. unfold occurs. symmetry. apply prefix_spec. Qed.
Lemma free_of_tail p c s : free_of p (c :: s) -> free_of p s.
Proof. intros F i O. apply (F (S i)). exact O. Qed.
Lemma replace_free p r s : free_of p s -> replace_all p r 0 s = s.
Proof.
  induction s as [|c s IH]; intros F; [reflexivity|]. cbn [replace_all].
  destruct (prefix p (c :: s)) eqn:P.
  - exfalso. apply (F 0%nat). apply occurs_prefix. exact P.
  - f_equal. apply IH. now apply free_of_tail with c.
Qed.
Lemma replace_skip (p r a b : str) : replace_all p r (List.length a) (a ++ b) = replace_all p r 0 b.
Proof. induction a as [|x a IH]; cbn; [destruct b; reflexivity|]. exact IH. Qed.
Lemma replace_at (p r a b : str) : p <> [] -> (forall i, (i < List.length a)%nat -> ~ occurs p (a ++ p ++ b) i) ->
  replace_all p r 0 (a ++ p ++ b) = a ++ r ++ replace_all p r 0 b.
Proof.
  intros NP; induction a as [|c a IH]; intros F.
  - cbn [app]. destruct p as [|x p]; [congruence|]. change ((x :: p) ++ b) with (x :: p ++ b). cbn [replace_all].
    assert (P : prefix (x :: p) (x :: p ++ b) = true) by (apply prefix_spec; now exists b).
    rewrite P. cbn [List.length Nat.pred]. now rewrite replace_skip.
  - cbn [app replace_all].
    destruct (prefix p (c :: a ++ p ++ b)) eqn:P.
    + exfalso. apply (F 0%nat); [cbn; lia|]. apply occurs_prefix. exact P.
    + f_equal. apply IH. intros i Hi O. apply (F (S i)); [cbn; lia|]. exact O.
Qed.

Lemma skip_space_suffix s : exists k, skip_space s = skipn k s.
Proof.
  induction s as [|c s (k & IH)]; [now exists 0%nat|]. cbn. destruct (is_space c).
  - exists (S k). exact IH.
  - now exists 0%nat.
Qed.
Lemma skipn_skipn' {A} (l : list A) a b : skipn a (skipn b l) = skipn (b + a) l.
Proof. revert l; induction b as [|b IH]; intros l; [reflexivity|]. destruct l; cbn; [now destruct a|apply IH]. Qed.
Lemma slashes_occurs s : slashes s = true -> exists i, occurs (lit "//") s i.
Proof.
  intros H. unfold slashes in H. destruct (skip_space_suffix s) as (k & E). exists k. apply occurs_prefix.
  now rewrite <- E.
Qed.
Lemma strip_free s : free_of (lit "//") s -> strip_comment false s = s.
Proof.
  induction s as [|c s IH]; intros F; [reflexivity|]. cbn [strip_comment andb].
  destruct (slashes (c :: s)) eqn:P.
  - destruct (slashes_occurs _ P) as (i & O). now destruct (F i).
  - f_equal. apply IH. now apply free_of_tail with c.
Qed.
Lemma strip_inside s : (forall c, In c s -> is_eol c = false) -> strip_comment true s = [].
Proof.
  induction s as [|c s IH]; intros F; [reflexivity|]. cbn [strip_comment].
  rewrite (F c) by now left. cbn. apply IH. intros x X. apply F. now right.
Qed.
Lemma strip_blanks (w t : str) : (forall c, In c w -> is_space c = true) -> (forall c, In c t -> is_eol c = false) ->
  strip_comment false (w ++ lit "//" ++ t) = [].
Proof.
  intros W T. induction w as [|c w IH].
  - cbn [app]. change (lit "//" ++ t) with ("/"%char :: "/"%char :: t). cbn [strip_comment andb].
    assert (S : slashes ("/"%char :: "/"%char :: t) = true) by (unfold slashes; cbn; reflexivity).
    rewrite S. change (negb (is_space "/")) with true. cbn [strip_comment andb].
    change (is_eol "/") with false. cbn. apply strip_inside. exact T.
  - cbn [app strip_comment andb].
    assert (Wc : is_space c = true) by (apply W; now left).
    assert (SK : skip_space (w ++ lit "//" ++ t) = lit "//" ++ t).
    { assert (W' : forall x, In x w -> is_space x = true) by (intros x X; apply W; now right). clear -W'.
      induction w as [|x w IHw]; [reflexivity|]. cbn [app skip_space].
      rewrite (W' x) by now left. apply IHw. intros y Y. apply W'. now right. }
    assert (S : slashes (c :: w ++ lit "//" ++ t) = true).
    { unfold slashes. cbn [skip_space]. rewrite Wc, SK. reflexivity. }
    rewrite S, Wc. cbn [negb]. apply IH. intros x X. apply W. now right.
Qed.
(** an inline comment is removed together with the blanks before it *)
Lemma strip_comment_spec (v w t : str) :
  free_of (lit "//") (v ++ lit "/") -> (v = [] \/ is_space (last v " "%char) = false) ->
  (forall c, In c w -> is_space c = true) -> (forall c, In c t -> is_eol c = false) ->
  strip_comment false (v ++ w ++ lit "//" ++ t) = v.
Proof.
  intros F L W T. induction v as [|c v IH]; [now apply strip_blanks|].
  cbn [app strip_comment andb].
  assert (NS : slashes (c :: v ++ w ++ lit "//" ++ t) = false).
  { destruct (slashes (c :: v ++ w ++ lit "//" ++ t)) eqn:SL; [|reflexivity]. exfalso.
    unfold slashes in SL.
    assert (X : exists i, (i <= List.length v)%nat /\ occurs (lit "//") ((c :: v) ++ w ++ lit "//" ++ t) i).
    { change (c :: v ++ w ++ lit "//" ++ t) with ((c :: v) ++ w ++ lit "//" ++ t) in SL.
      destruct L as [L|L]; [discriminate|].
      remember (w ++ lit "//" ++ t) as rest eqn:ER. clear -SL L.
      revert c L SL; induction v as [|x v IHv]; intros c L SL.
      - cbn in L. cbn [app skip_space] in SL. rewrite L in SL. exists 0%nat. split; [lia|]. apply occurs_prefix. exact SL.
      - change ((c :: x :: v) ++ rest) with (c :: (x :: v) ++ rest) in SL. cbn [skip_space] in SL.
        destruct (is_space c) eqn:Sc.
        + assert (L' : is_space (last (x :: v) " "%char) = false) by exact L.
          destruct (IHv x L' SL) as (i & Hi & O). exists (S i). split; [cbn; lia|]. exact O.
        + exists 0%nat. split; [lia|]. apply occurs_prefix. exact SL. }
    destruct X as (i & Hi & (u & O)).
    apply (F i). unfold occurs.
    assert (LEN : (S i <= List.length (c :: v))%nat) by (cbn; lia).
    rewrite skipn_app in O |- *.
    replace (i - List.length (c :: v))%nat with 0%nat in * by lia. cbn [skipn] in O |- *.
    destruct (skipn i (c :: v)) as [|y [|z k]] eqn:K.
    - apply (f_equal (@List.length _)) in K. rewrite skipn_length in K. change (List.length (@nil ascii)) with 0%nat in K. lia.
    - cbn in O. injection O as -> O. exists []. reflexivity.
    - cbn in O. injection O as -> -> O. exists (k ++ lit "/"). reflexivity. }
  rewrite NS. f_equal. apply IH.
  - now apply free_of_tail with c.
  - destruct v as [|x v]; [now left|right]. destruct L as [L|L]; [discriminate|exact L].
Qed.

(** * keys *)
Lemma indexed_inj key i j : 0 <= i -> 0 <= j -> indexed key i = indexed key j -> i = j.
Proof.
  intros Hi Hj E. unfold indexed in E. apply app_inv_head in E. apply app_inv_head in E. apply app_inv_tail in E.
  now apply to_string_inj.
Qed.
Lemma get_in s k v : get s k = Some v -> In k (map fst s).
Proof.
  induction s as [|(k', v') s IH]; cbn; [discriminate|].
  destruct (str_eqb_spec k k') as [->|N]; [now left|]. intros E. right. now apply IH.
Qed.
Lemma read_string_absent d s k : get s k = None -> read_string d s k = lit "NULL".
Proof. intros E. unfold read_string. rewrite E. reflexivity. Qed.

Fixpoint value_list (d : dirs) (s : section) (key : str) (i : Z) (n : nat) : list str :=
  match n with O => [] | S m => read_string d s (indexed key i) :: value_list d s key (i + 1) m end.
Lemma value_list_nth d s key : forall n i j, (j < n)%nat ->
  nth_error (value_list d s key i n) j = Some (read_string d s (indexed key (i + Z.of_nat j))).
Proof.
  induction n as [|n IH]; intros i j H; [lia|]. cbn [value_list]. destruct j as [|j].
  - cbn. now rewrite Z.add_0_r.
  - cbn [nth_error]. rewrite IH by lia. do 3 f_equal. lia.
Qed.
Lemma value_list_length d s key n : forall i, List.length (value_list d s key i n) = n.
Proof. induction n as [|n IH]; intros i; cbn; [reflexivity|]. now rewrite IH. Qed.
Lemma vector_loop_spec d s key n : forall i fuel, (n < fuel)%nat -> 0 <= i -> i + Z.of_nat n < 2 ^ 32 ->
  (forall j, (j < n)%nat -> read_string d s (indexed key (i + Z.of_nat j)) <> lit "NULL") ->
  read_string d s (indexed key (i + Z.of_nat n)) = lit "NULL" ->
  str_vector_loop fuel d s key i = Ok (value_list d s key i n).
Proof.
  induction n as [|n IH]; intros i fuel Hf Hi Hb Hj Hn; destruct fuel as [|f]; [lia| |lia|]; cbn [str_vector_loop]; cbv zeta.
  - rewrite Z.add_0_r in Hn. rewrite Hn. destruct (str_eqb_spec (lit "NULL") (lit "NULL")); [reflexivity|congruence].
  - specialize (Hj 0%nat) as H0. rewrite Z.add_0_r in H0.
    destruct (str_eqb_spec (read_string d s (indexed key i)) (lit "NULL")) as [E|_]; [exfalso; apply H0; [lia|exact E]|].
    rewrite Z.mod_small by lia. rewrite IH; [reflexivity|lia|lia|lia| |].
    + intros j Lj. replace (i + 1 + Z.of_nat j) with (i + Z.of_nat (S j)) by lia. apply Hj. lia.
    + rewrite <- Hn. do 2 f_equal. lia.
Qed.
Lemma first_missing d s key :
  exists n, (n <= List.length s)%nat /\
    (forall j, (j < n)%nat -> read_string d s (indexed key (Z.of_nat j)) <> lit "NULL") /\
    read_string d s (indexed key (Z.of_nat n)) = lit "NULL".
Proof.
  assert (D : forall m, (exists n, (n < m)%nat /\
      (forall j, (j < n)%nat -> read_string d s (indexed key (Z.of_nat j)) <> lit "NULL") /\
      read_string d s (indexed key (Z.of_nat n)) = lit "NULL") \/
      (forall j, (j < m)%nat -> read_string d s (indexed key (Z.of_nat j)) <> lit "NULL")).
  { induction m as [|m [(n & H1 & H2 & H3)|IH]].
    - right. intros j H. lia.
    - left. exists n. split; [lia|]. auto.
    - destruct (str_eqb_spec (read_string d s (indexed key (Z.of_nat m))) (lit "NULL")) as [E|N].
      + left. exists m. split; [lia|]. auto.
      + right. intros j H. destruct (Nat.eq_dec j m) as [->|]; [exact N|apply IH; lia]. }
  destruct (D (S (List.length s))) as [(n & H1 & H2 & H3)|A].
  - exists n. split; [lia|]. auto.
  - exfalso.
    assert (I : incl (map (fun j => indexed key (Z.of_nat j)) (seq 0 (S (List.length s)))) (map fst s)).
    { intros k K. apply in_map_iff in K as (j & <- & J). apply in_seq in J.
      destruct (get s (indexed key (Z.of_nat j))) as [v|] eqn:G; [now apply get_in with v|].
      exfalso. apply (A j); [lia|]. now apply read_string_absent. }
    apply NoDup_incl_length in I.
    + rewrite !map_length, seq_length in I. lia.
    + assert (ND : forall m a, NoDup (map (fun j => indexed key (Z.of_nat j)) (seq a m))).
      { induction m as [|m IH]; intros a; cbn; constructor; [|apply IH].
        intros X. apply in_map_iff in X as (j & E & J). apply in_seq in J.
        apply indexed_inj in E; lia. }
      apply ND.
Qed.
Lemma read_str_vector_ok d s key : Z.of_nat (List.length s) < 2 ^ 32 ->
  exists n, (n <= List.length s)%nat /\
    (forall j, (j < n)%nat -> read_string d s (indexed key (Z.of_nat j)) <> lit "NULL") /\
    read_string d s (indexed key (Z.of_nat n)) = lit "NULL" /\
    forall fuel, (List.length s < fuel)%nat -> read_str_vector fuel d s key = Ok (value_list d s key 0 n).
Proof.
  intros B. destruct (first_missing d s key) as (n & H1 & H2 & H3). exists n. split; [exact H1|]. split; [exact H2|].
  split; [exact H3|]. intros fuel Hf. unfold read_str_vector. apply vector_loop_spec; auto; lia.
Qed.

Lemma read_vector_from_nth {A} (rd : str -> A) key num : forall i j, (j < num)%nat ->
  nth_error (read_vector_from rd key i num) j = Some (rd (indexed key (Z.of_nat (i + j)))).
Proof.
  induction num as [|n IH]; intros i j H; [lia|]. cbn [read_vector_from]. destruct j as [|j].
  - cbn. now rewrite Nat.add_0_r.
  - cbn [nth_error]. rewrite IH by lia. do 4 f_equal. lia.
Qed.
Lemma read_vector_from_length {A} (rd : str -> A) key num : forall i, List.length (read_vector_from rd key i num) = num.
Proof. induction num as [|n IH]; intros i; cbn; [reflexivity|]. now rewrite IH. Qed.

(** * split *)
Lemma join_split_from d s : forall cur, s <> [] ->
  join d (split_from d s cur) ++ (if Ascii.eqb (last s d) d then [d] else []) = rev cur ++ s.
Proof.
  induction s as [|c t IH]; intros cur N; [congruence|]. cbn [split_from].
  destruct (Ascii.eqb_spec c d) as [->|Nc].
  - destruct t as [|x t].
    + cbn [last]. rewrite Ascii.eqb_refl. cbn [join]. reflexivity.
    + specialize (IH []). cbn [rev app] in IH.
      change (last (d :: x :: t) d) with (last (x :: t) d).
      destruct (split_from d (x :: t) []) as [|f fs] eqn:E.
      { exfalso. clear -E. cbn in E. destruct (Ascii.eqb x d); [discriminate|].
        revert E. generalize [x]. induction t as [|y t IHt]; intros l E; cbn in E; [discriminate|].
        destruct (Ascii.eqb y d); [discriminate|]. now apply IHt in E. }
      change (join d (rev cur :: f :: fs)) with (rev cur ++ d :: join d (f :: fs)).
      rewrite <- app_assoc. cbn [app]. rewrite IH by discriminate. reflexivity.
  - destruct t as [|x t].
    + cbn [split_from last join]. destruct (Ascii.eqb_spec c d) as [->|_]; [congruence|].
      rewrite app_nil_r. reflexivity.
    + change (last (c :: x :: t) d) with (last (x :: t) d). rewrite IH by discriminate. cbn [rev]. now rewrite <- app_assoc.
Qed.
Lemma split_join d s : join d (split s d) ++ (match s with [] => [] | _ => if Ascii.eqb (last s d) d then [d] else [] end) = s.
Proof.
  unfold split, getlines. destruct s as [|c t]; [reflexivity|]. rewrite join_split_from by discriminate. reflexivity.
Qed.

(** * CSV *)
Lemma convert_cells_all {A} (f : str -> outcome A) colh : forall cells i, (colh <= i)%nat ->
  convert_cells f i colh cells = mapM f cells.
Proof.
  induction cells as [|c r IH]; intros i H; [reflexivity|]. cbn [convert_cells mapM].
  destruct (Nat.leb_spec colh i); [|lia]. rewrite IH by lia. reflexivity.
Qed.
Lemma convert_cells_from {A} (f : str -> outcome A) colh : forall cells i, (i <= colh)%nat ->
  convert_cells f i colh cells = mapM f (skipn (colh - i) cells).
Proof.
  induction cells as [|c r IH]; intros i H; [now rewrite skipn_nil|]. cbn [convert_cells].
  destruct (Nat.leb_spec colh i).
  - replace (colh - i)%nat with 0%nat by lia. cbn [skipn mapM]. rewrite convert_cells_all by lia. reflexivity.
  - rewrite IH by lia. replace (colh - i)%nat with (S (colh - S i))%nat by lia. reflexivity.
Qed.
Lemma csv_rows_all {A} (f : str -> outcome A) rowh colh : forall ls k, (rowh <= k)%nat ->
  csv_rows f rowh colh k ls = mapM (mapM f) (map (fun l => skipn colh (split l ","%char)) ls).
Proof.
  induction ls as [|l r IH]; intros k H; [reflexivity|]. cbn [csv_rows map mapM].
  destruct (Nat.leb_spec rowh k); [|lia]. rewrite convert_cells_from by lia. rewrite Nat.sub_0_r, IH by lia. reflexivity.
Qed.
Lemma csv_rows_from {A} (f : str -> outcome A) rowh colh : forall ls k, (k <= rowh)%nat ->
  csv_rows f rowh colh k ls = mapM (mapM f) (map (fun l => skipn colh (split l ","%char)) (skipn (rowh - k) ls)).
Proof.
  induction ls as [|l r IH]; intros k H; [now rewrite skipn_nil|]. cbn [csv_rows].
  destruct (Nat.leb_spec rowh k).
  - replace (rowh - k)%nat with 0%nat by lia. cbn [skipn map mapM].
    rewrite convert_cells_from by lia. rewrite Nat.sub_0_r, csv_rows_all by lia. reflexivity.
  - rewrite IH by lia. replace (rowh - k)%nat with (S (rowh - S k))%nat by lia. reflexivity.
Qed.
Lemma read_csv_with_header_spec {A} (f : str -> outcome A) file rowh colh :
  read_csv_with_header f file rowh colh = mapM (mapM f) (map (skipn colh) (skipn rowh (read_csv_string file))).
Proof.
  unfold read_csv_with_header, read_csv_string. rewrite csv_rows_from by lia. rewrite Nat.sub_0_r.
  rewrite skipn_map, map_map. reflexivity.
Qed.
Lemma csv_rows_plain_spec {A} (f : str -> outcome A) ls :
  csv_rows_plain f ls = mapM (mapM f) (map (fun l => split l ","%char) ls).
Proof.
  induction ls as [|l r IH]; [reflexivity|]. cbn [csv_rows_plain map mapM].
  rewrite convert_cells_all by lia. rewrite IH. reflexivity.
Qed.
Lemma mapM_ok {A B} (f : A -> outcome B) l r : mapM f l = Ok r -> Forall2 (fun x y => f x = Ok y) l r.
Proof.
  revert r; induction l as [|x l IH]; intros r E; cbn in E.
  - injection E as <-. constructor.
  - destruct (f x) as [y| | |] eqn:F; cbn in E; try discriminate.
    destruct (mapM f l) as [ys| | |] eqn:M; cbn in E; try discriminate. injection E as <-. constructor; auto.
Qed.

(** * command database *)
Lemma read_types_ok tokens n : forall k fuel, (k < fuel)%nat ->
  (forall j, (j < k)%nat -> nth_error tokens (5 + 2 * (n - k + j)) <> None) -> (k <= n)%nat ->
  read_types fuel tokens (n - k) (Z.of_nat n) =
  Ok (map (fun j => convert_type (nth (5 + 2 * (n - k + j)) tokens [])) (seq 0 k)).
Proof.
  induction k as [|k IH]; intros fuel Hf H Hk; destruct fuel as [|f]; [lia| |lia|]; cbn [read_types].
  - destruct (Z.ltb_spec (Z.of_nat (n - 0)) (Z.of_nat n)); [lia|reflexivity].
  - destruct (Z.ltb_spec (Z.of_nat (n - S k)) (Z.of_nat n)); [|lia].
    pose proof (H 0%nat) as H00. rewrite Nat.add_0_r in H00. unfold at_.
    destruct (nth_error tokens (5 + 2 * (n - S k))) as [t|] eqn:E; [|exfalso; apply H00; [lia|reflexivity]].
    cbn [bind]. replace (S (n - S k)) with (n - k)%nat by lia. rewrite IH.
    + cbn [bind]. cbn [seq map]. rewrite Nat.add_0_r. apply nth_error_nth with (d := []) in E. rewrite E.
      do 2 f_equal. rewrite <- seq_shift, map_map. apply map_ext. intros j. do 2 f_equal. lia.
    + lia.
    + intros j Hj. specialize (H (S j)). replace (n - k + j)%nat with (n - S k + S j)%nat by lia. apply H. lia.
    + lia.
Qed.
Lemma read_types_missing tokens n : forall fuel i, (List.length tokens < fuel + i)%nat ->
  (forall j, (j < i)%nat -> nth_error tokens (5 + 2 * j) <> None) ->
  0 <= n -> (exists j, Z.of_nat j < n /\ nth_error tokens (5 + 2 * j) = None) ->
  read_types fuel tokens i n = UB.
Proof.
  induction fuel as [|f IH]; intros i Hf H Hn (j & J1 & J2).
  - exfalso. assert (L : (List.length tokens <= 5 + 2 * (i - 1))%nat) by lia.
    apply nth_error_None in L. destruct i as [|i]; [lia|]. apply (H i); [lia|]. replace i with (S i - 1)%nat by lia. exact L.
  - cbn [read_types].
    destruct (Nat.ltb_spec j i) as [Lj|Lj]; [now destruct (H j Lj)|].
    destruct (Z.ltb_spec (Z.of_nat i) n); [|lia].
    unfold at_. destruct (nth_error tokens (5 + 2 * i)) as [t|] eqn:E; [|reflexivity]. cbn [bind].
    rewrite IH; [reflexivity|lia| |exact Hn|exists j; auto].
    intros j' Hj'. destruct (Nat.eq_dec j' i) as [->|]; [congruence|apply H; lia].
Qed.
Lemma parse_command_ok line tokens name id n :
  prefix (lit ",") line = true -> getlines ","%char line = tokens ->
  nth_error tokens 1 = Some name -> name <> [] ->
  (exists t3, nth_error tokens 3 = Some t3 /\ stoul 0 t3 = Ok id) ->
  (exists t4, nth_error tokens 4 = Some t4 /\ stoul 0 t4 = Ok (Z.of_nat n)) ->
  (forall j, (j < n)%nat -> nth_error tokens (5 + 2 * j) <> None) ->
  parse_command line = Ok (mkCommand name id (map (fun j => convert_type (nth (5 + 2 * j) tokens [])) (seq 0 n))).
Proof.
  intros P T N1 NN (t3 & E3 & I3) (t4 & E4 & I4) A. unfold parse_command.
  destruct (prefix (lit "*") line) eqn:ST.
  { exfalso. apply prefix_spec in P as (u & ->). apply prefix_spec in ST as (w & ST). discriminate. }
  rewrite P, T. cbn [negb]. unfold at_. rewrite N1. cbn [bind].
  destruct name as [|c name]; [congruence|]. rewrite E3. cbn [bind]. rewrite I3. cbn [bind]. rewrite E4. cbn [bind].
  rewrite I4. cbn [bind].
  pose proof (read_types_ok tokens n n (S (List.length tokens))) as R. rewrite Nat.sub_diag in R. rewrite R.
  - reflexivity.
  - destruct n as [|m]; [lia|]. specialize (A m). assert (X : nth_error tokens (5 + 2 * m) <> None) by (apply A; lia).
    apply nth_error_Some in X. lia.
  - intros j Hj. apply A. lia.
  - lia.
Qed.
Lemma parse_command_missing_type line tokens name id n :
  prefix (lit ",") line = true -> getlines ","%char line = tokens ->
  nth_error tokens 1 = Some name -> name <> [] ->
  (exists t3, nth_error tokens 3 = Some t3 /\ stoul 0 t3 = Ok id) ->
  (exists t4, nth_error tokens 4 = Some t4 /\ stoul 0 t4 = Ok n) -> 0 <= n ->
  (exists j, Z.of_nat j < n /\ nth_error tokens (5 + 2 * j) = None) ->
  parse_command line = UB.
Proof.
  intros P T N1 NN (t3 & E3 & I3) (t4 & E4 & I4) Hn A. unfold parse_command.
  destruct (prefix (lit "*") line) eqn:ST.
  { exfalso. apply prefix_spec in P as (u & ->). apply prefix_spec in ST as (w & ST). discriminate. }
  rewrite P, T. cbn [negb]. unfold at_. rewrite N1. cbn [bind].
  destruct name as [|c name]; [congruence|]. rewrite E3. cbn [bind]. rewrite I3. cbn [bind]. rewrite E4. cbn [bind].
  rewrite I4. cbn [bind]. rewrite read_types_missing; [reflexivity|lia|intros j; lia|exact Hn|exact A].
Qed.

Lemma cmap_get_set m k v k' : cmap_get (cmap_set m k v) k' = if str_eqb k' k then Some v else cmap_get m k'.
Proof. reflexivity. Qed.
Lemma str_eqb_sym a b : str_eqb a b = str_eqb b a.
Proof. destruct (str_eqb_spec a b), (str_eqb_spec b a); congruence. Qed.
Lemma find_app {A} (f : A -> bool) (l1 l2 : list A) : List.find f (l1 ++ l2) = match List.find f l1 with Some x => Some x | None => List.find f l2 end.
Proof. induction l1 as [|x l1 IH]; cbn; [reflexivity|]. now destruct (f x). Qed.
Lemma read_database_spec lines : forall m cs, mapM parse_command lines = Ok cs ->
  exists m', read_database m lines = Ok m' /\
    forall k, k <> lit "Error" ->
      cmap_get m' k = match last_named cs k with Some c => Some c | None => cmap_get m k end.
Proof.
  induction lines as [|l lines IH]; intros m cs E; cbn [mapM] in E.
  - injection E as <-. exists m. split; reflexivity.
  - destruct (parse_command l) as [c| | |] eqn:P; cbn [bind] in E; try discriminate.
    destruct (mapM parse_command lines) as [cs'| | |] eqn:M; cbn [bind] in E; try discriminate. injection E as <-.
    cbn [read_database]. rewrite P. cbn [bind].
    assert (LN : forall k, last_named (c :: cs') k = match last_named cs' k with Some x => Some x | None =>
        if str_eqb (cname c) k then Some c else None end).
    { intros k. unfold last_named. cbn [rev]. rewrite find_app. reflexivity. }
    destruct (str_eqb_spec (cname c) (lit "Error")) as [Er|Er].
    + destruct (IH m cs' eq_refl) as (m' & R & G). exists m'. split; [exact R|]. intros k K. rewrite (G k K), LN.
      destruct (last_named cs' k); [reflexivity|]. destruct (str_eqb_spec (cname c) k); [congruence|reflexivity].
    + destruct (IH (cmap_set m (cname c) c) cs' eq_refl) as (m' & R & G). exists m'. split; [exact R|].
      intros k K. rewrite (G k K), LN, cmap_get_set. rewrite (str_eqb_sym k).
      destruct (last_named cs' k); [reflexivity|]. now destruct (str_eqb (cname c) k).
Qed.
Lemma read_database_error_key lines : forall m m', read_database m lines = Ok m' ->
  cmap_get m (lit "Error") = None -> cmap_get m' (lit "Error") = None.
Proof.
  induction lines as [|l lines IH]; intros m m' E G; cbn [read_database] in E; [congruence|].
  destruct (parse_command l) as [c| | |]; cbn [bind] in E; try discriminate.
  destruct (str_eqb_spec (cname c) (lit "Error")) as [Er|Er]; [now apply (IH m)|].
  apply (IH _ _ E). rewrite cmap_get_set. destruct (str_eqb_spec (lit "Error") (cname c)); [congruence|exact G].
Qed.
