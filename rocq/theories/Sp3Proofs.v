(** Proofs for the SP3 reader. *)
From Coq Require Import String Reals List Bool Arith ZArith Ascii Lia.
From Verif Require Import Base StringModel SettingProofs GnssSatModel GnssSatSpec Sp3Model Sp3Spec.
Import ListNotations.
Open Scope nat_scope.

(** ** fields and prefixes *)
Lemma substr_ok l pos n : pos <= length l -> substr l pos n = Ok (field l pos n).
Proof. intros H. unfold substr. destruct (Nat.ltb_spec (length l) pos); [lia|reflexivity]. Qed.
Lemma substr_throw l pos n : length l < pos -> substr l pos n = Throw.
Proof. intros H. unfold substr. destruct (Nat.ltb_spec (length l) pos); [reflexivity|lia]. Qed.
Lemma starts_true p l : starts p l -> prefix (lit p) l = true.
Proof. intros (r & ->). apply prefix_spec. now exists r. Qed.
Lemma starts_false p l : ~ starts p l -> prefix (lit p) l = false.
Proof. intros H. destruct (prefix (lit p) l) eqn:E; [|reflexivity]. exfalso. apply H. apply prefix_spec in E as (r & ->). now exists r. Qed.
Lemma starts_iff p l : prefix (lit p) l = true <-> starts p l.
Proof. split; [|apply starts_true]. intros E. apply prefix_spec in E as (r & ->). now exists r. Qed.
Lemma field_nil l pos n : length l <= pos -> field l pos n = [].
Proof. intros H. unfold field. rewrite skipn_all2 by lia. apply firstn_nil. Qed.
Lemma char_field l pos c : str_eqb (field l pos 1) [c] = true <-> nth_error l pos = Some c.
Proof.
  unfold field. revert l; induction pos as [|k IH]; intros l; destruct l as [|x l]; cbn [skipn firstn nth_error]; try (split; discriminate).
  - cbn. rewrite Bool.andb_true_r. split; [intros H%Ascii.eqb_eq; now f_equal|intros [= ->]; apply Ascii.eqb_refl].
  - apply IH.
Qed.
Lemma stoi_range s z : stoi s = Ok z -> (- 2 ^ 31 <= z < 2 ^ 31)%Z.
Proof.
  unfold stoi. destruct (stol s) as [v| | |]; cbn [bind]; try discriminate.
  destruct ((- 2 ^ 31 <=? v) && (v <? 2 ^ 31))%Z eqn:E; [|discriminate]. intros [= <-].
  apply andb_prop in E as [A B]. apply Z.leb_le in A. apply Z.ltb_lt in B. lia.
Qed.
Lemma size_nat s n : stoi s = Ok (Z.of_nat n) -> size_of_int (Z.of_nat n) = n.
Proof. intros H%stoi_range. unfold size_of_int. rewrite Z.mod_small by lia. apply Nat2Z.id. Qed.

(** ** a position line *)
Lemma deviation_spec L s r : deviation L s r <-> stod_or_zero L s = Ok r.
Proof.
  unfold deviation, number, stod_or_zero. destruct (l_stod L s) as [v| |]; split.
  - intros [[= ->]|[E _]]; [reflexivity|discriminate].
  - intros [= ->]. now left.
  - intros [E|[_ ->]]; [discriminate|reflexivity].
  - intros [= <-]. right; split; reflexivity.
  - intros [E|[E _]]; discriminate.
  - discriminate.
Qed.
Lemma stod_ok L s r : number L s r <-> stod L s = Ok r.
Proof. unfold number, stod. destruct (l_stod L s); split; intros H; try discriminate; injection H as ->; reflexivity. Qed.
Lemma bind_ok {A B} (m : outcome A) (f : A -> outcome B) b : bind m f = Ok b -> exists a, m = Ok a /\ f a = Ok b.
Proof. destruct m; cbn; intros H; try discriminate. exists a; split; [reflexivity|exact H]. Qed.
Lemma substr_inv l pos n s : substr l pos n = Ok s -> pos <= length l /\ s = field l pos n.
Proof. unfold substr. destruct (Nat.ltb_spec (length l) pos); intros E; [discriminate|]. injection E as <-. split; [lia|reflexivity]. Qed.
Lemma stod_at_inv L l pos n r : stod_at L l pos n = Ok r -> pos <= length l /\ number L (field l pos n) r.
Proof. intros H. apply bind_ok in H as (s & A & B). apply substr_inv in A as [A ->]. split; [exact A|]. now apply stod_ok. Qed.
Lemma stodz_at_inv L l pos n r : stod_at_or_zero L l pos n = Ok r -> pos <= length l /\ deviation L (field l pos n) r.
Proof. intros H. apply bind_ok in H as (s & A & B). apply substr_inv in A as [A ->]. split; [exact A|]. now apply deviation_spec. Qed.
Lemma stod_at_ok L l pos n r : pos <= length l -> number L (field l pos n) r -> stod_at L l pos n = Ok r.
Proof. intros A B. unfold stod_at. rewrite substr_ok by exact A. cbn [bind]. now apply stod_ok. Qed.
Lemma stodz_at_ok L l pos n r : pos <= length l -> deviation L (field l pos n) r -> stod_at_or_zero L l pos n = Ok r.
Proof. intros A B. unfold stod_at_or_zero. rewrite substr_ok by exact A. cbn [bind]. now apply deviation_spec. Qed.
Lemma stoi_at_ok l pos n : pos <= length l -> integral (field l pos n) -> exists z, stoi_at l pos n = Ok z.
Proof. intros A (z & B). exists z. unfold stoi_at. rewrite substr_ok by exact A. exact B. Qed.

Lemma iff_bool (a b : bool) (P : Prop) : (a = true <-> P) -> (b = true <-> P) -> a = b.
Proof. destruct a, b; intros A B; try reflexivity; exfalso; intuition congruence. Qed.
Lemma decode_says L l e : decode_position L l = Ok e <-> says L l e.
Proof.
  unfold decode_position, says. split.
  - intros H. apply bind_ok in H as (id & Hid & H). apply bind_ok in H as (x & Hx & H). apply bind_ok in H as (y & Hy & H).
    apply bind_ok in H as (z & Hz & H). apply bind_ok in H as (c & Hc & H). apply bind_ok in H as (sd & Hsd & H). apply bind_ok in H as (fl & Hfl & H).
    injection H as <-. exists x, y, z, c. cbn [en_pc en_id en_sd en_flags].
    apply substr_inv in Hid as [_ ->]. apply stod_at_inv in Hx as [_ Hx], Hy as [_ Hy], Hz as [_ Hz], Hc as [B Hc].
    repeat (split; [first [reflexivity | assumption]|]). split.
    + destruct (Nat.ltb_spec 61 (length l)).
      * right. apply bind_ok in Hsd as (s1 & D1 & Hsd). apply bind_ok in Hsd as (s2 & D2 & Hsd). apply bind_ok in Hsd as (s3 & D3 & Hsd).
        apply bind_ok in Hsd as (s4 & D4 & Hsd). injection Hsd as <-.
        apply stodz_at_inv in D1 as [_ D1], D2 as [_ D2], D3 as [_ D3], D4 as [B4 D4].
        split; [exact B4|]. exists s1, s2, s3, s4. repeat split; assumption.
      * left. injection Hsd as <-. split; [lia|reflexivity].
    + destruct (Nat.ltb_spec 73 (length l)).
      * right. apply bind_ok in Hfl as (s1 & D1 & Hfl). apply bind_ok in Hfl as (s2 & D2 & Hfl). apply bind_ok in Hfl as (s3 & D3 & Hfl).
        apply bind_ok in Hfl as (s4 & D4 & Hfl). injection Hfl as <-.
        apply substr_inv in D1 as [_ ->], D2 as [_ ->], D3 as [_ ->], D4 as [B4 ->].
        split; [exact B4|]. do 4 eexists. split; [reflexivity|]. repeat apply conj; apply char_field.
      * left. injection Hfl as <-. split; [lia|reflexivity].
  - intros (x & y & z & c & Epc & Eid & B & Hx & Hy & Hz & Hc & Hsd & Hfl).
    rewrite substr_ok by lia. cbn [bind]. rewrite (stod_at_ok L l 4 14 x) by (assumption || lia). cbn [bind].
    rewrite (stod_at_ok L l 18 14 y) by (assumption || lia). cbn [bind]. rewrite (stod_at_ok L l 32 14 z) by (assumption || lia). cbn [bind].
    rewrite (stod_at_ok L l 46 14 c) by (assumption || lia). cbn [bind].
    assert (E1 : (if 61 <? length l then
                let! sx := stod_at_or_zero L l 61 2 in let! sy := stod_at_or_zero L l 64 2 in let! sz := stod_at_or_zero L l 67 2 in
                let! sc := stod_at_or_zero L l 70 3 in Ok [sx; sy; sz; sc]
              else Ok [0%R; 0%R; 0%R; 0%R]) = Ok (en_sd e)).
    { destruct Hsd as [[A ->]|(A & s1 & s2 & s3 & s4 & -> & D1 & D2 & D3 & D4)]; destruct (Nat.ltb_spec 61 (length l)); try lia; [reflexivity|].
      rewrite (stodz_at_ok L l 61 2 s1), (stodz_at_ok L l 64 2 s2), (stodz_at_ok L l 67 2 s3), (stodz_at_ok L l 70 3 s4) by (assumption || lia). reflexivity. }
    rewrite E1. cbn [bind].
    assert (E2 : (if 73 <? length l then
                   let! a := substr l 74 1 in let! b := substr l 75 1 in let! c := substr l 78 1 in let! d := substr l 79 1 in
                   Ok [str_eqb a (lit "E"); str_eqb b (lit "P"); str_eqb c (lit "M"); str_eqb d (lit "P")]
                 else Ok [false; false; false; false]) = Ok (en_flags e)).
    { destruct Hfl as [[A ->]|(A & s1 & s2 & s3 & s4 & -> & D1 & D2 & D3 & D4)]; destruct (Nat.ltb_spec 73 (length l)); try lia; [reflexivity|].
      rewrite !substr_ok by lia. cbn [bind].
      rewrite (iff_bool _ _ _ (char_field l 74 "E"%char) D1 : str_eqb (field l 74 1) (lit "E") = s1), (iff_bool _ _ _ (char_field l 75 "P"%char) D2 : str_eqb (field l 75 1) (lit "P") = s2),
        (iff_bool _ _ _ (char_field l 78 "M"%char) D3 : str_eqb (field l 78 1) (lit "M") = s3), (iff_bool _ _ _ (char_field l 79 "P"%char) D4 : str_eqb (field l 79 1) (lit "P") = s4).
      reflexivity. }
    rewrite E2. cbn [bind]. destruct e; cbn in *. now subst.
Qed.
Lemma substr_cases l pos n : substr l pos n = Throw \/ exists s, substr l pos n = Ok s.
Proof. unfold substr. destruct (_ <? _); [now left|right; eexists; reflexivity]. Qed.
Lemma stod_at_cases L l pos n : stod_at L l pos n = Throw \/ exists s, stod_at L l pos n = Ok s.
Proof. unfold stod_at. destruct (substr_cases l pos n) as [->|(s & ->)]; cbn; [now left|]. unfold stod. destruct (l_stod L s); eauto. Qed.
Lemma stodz_at_cases L l pos n : stod_at_or_zero L l pos n = Throw \/ exists s, stod_at_or_zero L l pos n = Ok s.
Proof. unfold stod_at_or_zero. destruct (substr_cases l pos n) as [->|(s & ->)]; cbn; [now left|]. unfold stod_or_zero. destruct (l_stod L s); eauto. Qed.
Ltac step1 :=
  match goal with
  | |- context [bind (substr ?l ?p ?n)] => let s := fresh "s" in destruct (substr_cases l p n) as [->|(s & ->)]; cbn [bind]; [now left|]
  | |- context [bind (stod_at ?L ?l ?p ?n)] => let s := fresh "s" in destruct (stod_at_cases L l p n) as [->|(s & ->)]; cbn [bind]; [now left|]
  | |- context [bind (stod_at_or_zero ?L ?l ?p ?n)] => let s := fresh "s" in destruct (stodz_at_cases L l p n) as [->|(s & ->)]; cbn [bind]; [now left|]
  end.
Lemma decode_cases L l : decode_position L l = Throw \/ exists e, decode_position L l = Ok e.
Proof.
  unfold decode_position. do 5 step1. destruct (61 <? length l).
  - do 4 step1. destruct (73 <? length l); [|right; eexists; reflexivity]. do 4 step1. right; eexists; reflexivity.
  - cbn [bind]. destruct (73 <? length l); [|right; eexists; reflexivity]. do 4 step1. right; eexists; reflexivity.
Qed.
Lemma decode_correlation_ok l : correlation l -> decode_correlation l = Ok tt.
Proof.
  intros (_ & B & F). unfold correlation_fields in F. repeat apply Forall_cons_iff in F as [? F]. cbn [fst snd] in *. unfold decode_correlation.
  repeat match goal with
  | H : integral (field l ?p ?n) |- _ => let E := fresh in destruct (stoi_at_ok l p n ltac:(lia) H) as (? & E); rewrite ?E; cbn [bind]; clear H
  end. repeat match goal with H : stoi_at _ _ _ = Ok _ |- _ => rewrite H; cbn [bind] end. reflexivity.
Qed.

(** ** the stream *)
Lemma cut_line l r : plain l -> cut (l ++ nl :: r) = (l, Some r).
Proof.
  unfold plain. induction l as [|c l IH]; intros H; cbn [app cut]; [now rewrite Ascii.eqb_refl|].
  destruct (Ascii.eqb_spec c nl) as [->|]; [exfalso; apply H; now left|]. rewrite IH; [reflexivity|]. intros X; apply H; now right.
Qed.
Lemma getline_line l r line : plain l -> getline (mkStream (l ++ nl :: r) false false) line = (mkStream r false false, l).
Proof. intros H. unfold getline. cbn [s_eof s_fail s_rest orb]. destruct (l ++ nl :: r) eqn:E; [destruct l; discriminate|]. rewrite <- E, cut_line by exact H. reflexivity. Qed.
Lemma text_cons l ls : text_of (l :: ls) = l ++ nl :: text_of ls.
Proof. unfold text_of. cbn. now rewrite <- app_assoc. Qed.
Lemma text_app a b : text_of (a ++ b) = text_of a ++ text_of b.
Proof. unfold text_of. apply flat_map_app. Qed.
Lemma getline_text l ls tail line : plain l -> getline (mkStream (text_of (l :: ls) ++ tail) false false) line = (mkStream (text_of ls ++ tail) false false, l).
Proof. intros H. rewrite text_cons, <- app_assoc. now apply getline_line. Qed.

(** ** satellite id and accuracy lines *)
Lemma take_items_ok {A} (f : str -> outcome A) count : forall i line n acc,
  9 + 3 * (i + count) <= length line ->
  Forall (fun s => exists a, f s = Ok a) (firstn (n - length acc) (map (fun k => field line (9 + 3 * k) 3) (seq i count))) ->
  exists new, take_items f count i line n acc = Ok (acc ++ new) /\
    Forall2 (fun s a => f s = Ok a) (firstn (n - length acc) (map (fun k => field line (9 + 3 * k) 3) (seq i count))) new.
Proof.
  induction count as [|c IH]; intros i line n acc B F; cbn [take_items seq map].
  - exists []. rewrite app_nil_r, firstn_nil. split; [reflexivity|constructor].
  - destruct (Nat.leb_spec n (length acc)).
    + exists []. replace (n - length acc) with 0 by lia. rewrite app_nil_r. split; [reflexivity|constructor].
    + rewrite substr_ok by lia. cbn [bind]. replace (n - length acc) with (S (n - S (length acc))) in * by lia. cbn [seq map firstn] in *.
      apply Forall_cons_iff in F as [(a & Ha) F]. replace (9 + i * 3) with (9 + 3 * i) by lia. rewrite Ha. cbn [bind].
      destruct (IH (S i) line n (acc ++ [a])) as (new & E & G).
      * lia.
      * rewrite app_length. cbn [length]. rewrite Nat.add_1_r. exact F.
      * exists (a :: new). rewrite E, <- app_assoc. split; [reflexivity|]. constructor; [exact Ha|]. rewrite app_length in G. cbn [length] in G. rewrite Nat.add_1_r in G. exact G.
Qed.
Lemma F2len {A B} {P : A -> B -> Prop} {xs ys} : Forall2 P xs ys -> length xs = length ys.
Proof. induction 1; cbn [length]; congruence. Qed.
Lemma F2impl {A B} (P Q : A -> B -> Prop) xs ys : (forall x y, P x y -> Q x y) -> Forall2 P xs ys -> Forall2 Q xs ys.
Proof. intros I. induction 1; constructor; auto. Qed.
Lemma items_length l : length (items l) = 17.
Proof. unfold items. now rewrite map_length, seq_length. Qed.
Lemma all_items_length ls : length (flat_map items ls) = 17 * length ls.
Proof. induction ls as [|l ls IH]; [reflexivity|]. cbn [flat_map]. rewrite app_length, items_length, IH. cbn [length]. lia. Qed.
Lemma item_lines_ok {A} (f : str -> outcome A) p ls : forall fuel l next rest tail n acc,
  Forall (fun l => starts p l /\ 60 <= length l) (l :: ls) -> Forall plain ls -> plain next -> ~ starts p next -> length ls + 1 <= fuel ->
  Forall (fun s => exists a, f s = Ok a) (firstn (n - length acc) (flat_map items (l :: ls))) ->
  exists new, item_lines f fuel (lit p) (mkStream (text_of (ls ++ next :: rest) ++ tail) false false) l n acc
      = Ok (mkStream (text_of rest ++ tail) false false, next, acc ++ new) /\
    Forall2 (fun s a => f s = Ok a) (firstn (n - length acc) (flat_map items (l :: ls))) new.
Proof.
  induction ls as [|l' ls IH]; intros fuel l next rest tail n acc HL HP HN HS HF F; apply Forall_cons_iff in HL as [[S1 B] HL];
    (destruct fuel as [|k]; [cbn in HF; lia|]); cbn [item_lines]; rewrite (starts_true _ _ S1).
  - cbn [flat_map] in *. rewrite app_nil_r in *. destruct (take_items_ok f 17 0 l n acc ltac:(lia) F) as (new & E & G). rewrite E. cbn [bind app].
    rewrite getline_text by exact HN. destruct k; cbn [item_lines]; rewrite (starts_false _ _ HS); exists new; split; (reflexivity || exact G).
  - cbn [flat_map] in F. rewrite firstn_app, items_length in F. apply Forall_app in F as [F1 F2].
    destruct (take_items_ok f 17 0 l n acc ltac:(lia) F1) as (new & E & G). rewrite E. cbn [bind app].
    apply Forall_cons_iff in HP as [P1 HP]. rewrite getline_text by exact P1.
    assert (LG := F2len G). rewrite firstn_length in LG. change (length (map _ _)) with (length (items l)) in LG. rewrite items_length in LG.
    destruct (IH k l' next rest tail n (acc ++ new) HL HP HN HS) as (new2 & E2 & G2).
    + cbn [length] in HF. lia.
    + rewrite app_length. destruct (Nat.le_gt_cases (n - length acc) 17).
      * replace (n - (length acc + length new)) with 0 by lia. constructor.
      * replace (n - (length acc + length new)) with (n - length acc - 17) by lia. exact F2.
    + exists (new ++ new2). rewrite E2, app_assoc. split; [reflexivity|].
      change (flat_map items (l :: l' :: ls)) with (items l ++ flat_map items (l' :: ls)). rewrite firstn_app, items_length. apply Forall2_app; [exact G|].
      rewrite app_length in G2. destruct (Nat.le_gt_cases (n - length acc) 17).
      * replace (n - length acc - 17) with 0 by lia. replace (n - (length acc + length new)) with 0 in G2 by lia. exact G2.
      * replace (n - length acc - 17) with (n - (length acc + length new)) by lia. exact G2.
Qed.
Lemma skip_comments_ok cs : forall fuel l rest tail line,
  Forall (starts "/*") cs -> Forall plain cs -> plain l -> ~ starts "/*" l -> length cs + 1 <= fuel ->
  skip_comments fuel (mkStream (text_of (cs ++ l :: rest) ++ tail) false false) line = Ok (mkStream (text_of (l :: rest) ++ tail) false false).
Proof.
  induction cs as [|c cs IH]; intros fuel l rest tail line H1 H2 HL HS HF; (destruct fuel as [|k]; [cbn in HF; lia|]); cbn [skip_comments app];
    unfold tellg; cbn [s_eof s_fail orb s_rest].
  - rewrite getline_text by exact HL. rewrite (starts_false _ _ HS). reflexivity.
  - apply Forall_cons_iff in H1 as [S1 H1]. apply Forall_cons_iff in H2 as [P1 H2]. rewrite getline_text by exact P1. rewrite (starts_true _ _ S1).
    apply IH; try assumption. cbn [length] in HF. lia.
Qed.

(** ** the header *)
Lemma first_line_ok L l d z : 56 <= length l -> l_date L (field l 3 28) = Some d -> stoi (field l 32 7) = Ok z ->
  exists m, first_line L l = Ok (m, d, size_of_int z) /\
    (nth_error l 2 = Some "P"%char -> m = MPosition) /\ (nth_error l 2 <> Some "P"%char -> nth_error l 3 <> Some "V"%char -> m = MOther).
Proof.
  intros B D N. unfold first_line, char_at.
  destruct (nth_error l 2) as [c2|] eqn:E2; [|apply nth_error_None in E2; lia]. destruct (nth_error l 3) as [c3|] eqn:E3; [|apply nth_error_None in E3; lia].
  cbn [bind]. assert (exists m, (if Ascii.eqb c2 "P" then Ok MPosition else Ok (if Ascii.eqb c3 "V" then MVelocity else MOther)) = Ok m /\
     (c2 = "P"%char -> m = MPosition) /\ (c2 <> "P"%char -> c3 <> "V"%char -> m = MOther)) as (m & -> & M1 & M2).
  { destruct (Ascii.eqb_spec c2 "P") as [->|N2].
    - exists MPosition. split; [reflexivity|]. split; [reflexivity|]. intros X; now destruct X.
    - destruct (Ascii.eqb_spec c3 "V") as [->|N3]; eexists; (split; [reflexivity|]); (split; [intros ->; now destruct N2|]); [intros _ X; now destruct X|reflexivity]. }
  cbn [bind]. rewrite substr_ok by lia. cbn [bind]. rewrite D. unfold stoi_at. rewrite !substr_ok by lia. cbn [bind]. rewrite N. cbn [bind].
  exists m. split; [reflexivity|]. split; [intros [= ->]; now apply M1|]. intros X Y. apply M2; congruence.
Qed.
Lemma starts_diff p q l : starts p l -> prefix (lit q) (lit p) = false -> String.length q <= String.length p -> ~ starts q l.
Proof.
  intros (r & ->) E B (r' & E'). assert (H : prefix (lit q) (lit p) = true); [|congruence]. clear E. unfold lit in *.
  revert p r r' E' B. induction q as [|c q IH]; intros p r r' E' B; [reflexivity|]. destruct p as [|c' p]; [cbn in B; lia|].
  cbn in *. injection E' as -> E'. rewrite Ascii.eqb_refl. cbn. apply (IH p r r' E'). lia.
Qed.
Ltac other := first [eapply starts_diff; [eassumption|reflexivity|cbn; lia]].
Lemma text_long ls tail : length ls <= length (text_of ls ++ tail).
Proof. rewrite app_length. induction ls as [|l ls IH]; [cbn; lia|]. rewrite text_cons, app_length. cbn [length]. lia. Qed.
Definition before_comments (t : sp3text) : list str :=
  x_first t :: x_second t :: x_ids t ++ x_acc t ++ [x_c1 t; x_c2 t; x_f1 t; x_f2 t; x_i1 t; x_i2 t].
Lemma read_header_comments L t n more tail : good_header L t n ->
  exists h fuel, length more <= fuel /\ read_header L (mkStream (text_of (before_comments t ++ more) ++ tail) false false)
      = (let! s := skip_comments (S fuel) (mkStream (text_of more ++ tail) false false) (x_i2 t) in Ok (h, Some s)) /\ header_read L t n h /\
    (nth_error (x_first t) 2 = Some "P"%char -> h_mode h = MPosition) /\
    (nth_error (x_first t) 2 <> Some "P"%char -> nth_error (x_first t) 3 <> Some "V"%char -> h_mode h = MOther).
Proof.
  intros (HP & B1 & (d & D) & N & S2 & B2 & I2a & (r2a & I2b) & (iv & I2c) & I2d & (r2b & I2e) & NE & HI & NS & NI & NA & HA & NAC & IA &
          Sc1 & Bc1 & Sc2 & Sf1 & Bf1 & (f1 & If1) & (f2 & If2) & Sf2 & Si1 & Si2 & SC).
  unfold header_lines in HP. apply Forall_cons_iff in HP as [P1 HP]. apply Forall_cons_iff in HP as [P2 HP]. apply Forall_app in HP as [PI HP].
  apply Forall_app in HP as [PA HP]. apply Forall_app in HP as [PS PC]. do 6 (apply Forall_cons_iff in PS as [? PS]). clear PS.
  assert (TL := text_long (before_comments t ++ more) tail).
  unfold read_header. cbn [s_rest]. remember (length (text_of (before_comments t ++ more) ++ tail)) as fuel eqn:EF. clear EF.
  rewrite app_length in TL. unfold before_comments in TL at 1. cbn [length] in TL.
  rewrite !app_length in TL. cbn [length] in TL.
  unfold before_comments. cbn [app]. rewrite getline_text by exact P1.
  destruct (first_line_ok L _ _ _ B1 D N) as (m & EFL & M1 & M2). rewrite EFL. cbn [bind]. clear EFL. rewrite (size_nat _ _ N).
  rewrite getline_text by exact P2. rewrite (starts_true _ _ S2). cbn [negb].
  destruct (stoi_at_ok (x_second t) 3 4 ltac:(lia) I2a) as (? & ->). cbn [bind]. rewrite (stod_at_ok L (x_second t) 8 15 _ ltac:(lia) I2b). cbn [bind].
  rewrite (stod_at_ok L (x_second t) 24 14 _ ltac:(lia) I2c). cbn [bind]. destruct (stoi_at_ok (x_second t) 39 5 ltac:(lia) I2d) as (? & ->). cbn [bind].
  rewrite (stod_at_ok L (x_second t) 45 15 _ ltac:(lia) I2e). cbn [bind].
  destruct (x_ids t) as [|i0 ids] eqn:EI; [congruence|]. cbn [app hd] in *. apply Forall_cons_iff in PI as [PI0 PI]. rewrite getline_text by exact PI0.
  assert (HI0 := HI). apply Forall_cons_iff in HI0 as [[SI0 BI0] _]. rewrite (starts_true _ _ SI0). cbn [negb].
  unfold stoi_at. rewrite substr_ok by lia. cbn [bind]. rewrite NS. cbn [bind]. rewrite (size_nat _ _ NS).
  destruct (x_acc t) as [|a0 acs] eqn:EA; [congruence|]. apply Forall_cons_iff in PA as [PA0 PA].
  assert (HA0 := HA). apply Forall_cons_iff in HA0 as [[SA0 BA0] _].
  rewrite <- !app_assoc. cbn [app].
  destruct (item_lines_ok (fun x => Ok x) "+ " ids (S (S fuel)) i0 a0
              (acs ++ [x_c1 t; x_c2 t; x_f1 t; x_f2 t; x_i1 t; x_i2 t] ++ more) tail n [] HI PI PA0) as (idl & E & G).
  { other. } { cbn [length] in TL. lia. } { apply Forall_forall. intros s _. now exists s. }
  cbn [app] in E |- *. rewrite E. clear E. cbn [bind]. cbn [length] in G. rewrite Nat.sub_0_r in G.
  assert (EQ : forall (A : Type) (l1 l2 : list A), Forall2 (fun s a => Ok s = Ok a) l1 l2 -> l2 = l1).
  { induction 1; [reflexivity|]. congruence. }
  apply EQ in G. clear EQ. subst idl.
  assert (LI : length (firstn n (flat_map items (i0 :: ids))) = n) by (rewrite firstn_length, all_items_length; lia).
  rewrite LI, Nat.eqb_refl. cbn [negb]. rewrite (starts_true _ _ SA0). cbn [negb].
  destruct (item_lines_ok accuracy "++" acs (S (S fuel)) a0 (x_c1 t)
              ([x_c2 t; x_f1 t; x_f2 t; x_i1 t; x_i2 t] ++ more) tail n [] HA PA) as (acl & E & G); [assumption| | | |].
  { other. } { cbn [length] in TL. lia. }
  { cbn [length]. rewrite Nat.sub_0_r. eapply Forall_impl; [|exact IA]. intros s (z & Ez). unfold accuracy. rewrite Ez. eexists; reflexivity. }
  cbn [app] in E |- *. rewrite E. clear E. cbn [bind]. cbn [length] in G. rewrite Nat.sub_0_r in G.
  rewrite <- (F2len G), firstn_length, all_items_length, Nat.min_l, Nat.eqb_refl by lia. cbn [negb]. rewrite (starts_true _ _ Sc1). cbn [negb].
  rewrite !substr_ok by lia. cbn [bind]. rewrite getline_text by assumption. rewrite (starts_true _ _ Sc2). cbn [negb].
  rewrite getline_text by assumption. rewrite (starts_true _ _ Sf1). cbn [negb].
  rewrite (stod_at_ok L (x_f1 t) 3 10 _ ltac:(lia) If1). cbn [bind]. rewrite (stod_at_ok L (x_f1 t) 14 12 _ ltac:(lia) If2). cbn [bind].
  rewrite getline_text by assumption. rewrite (starts_true _ _ Sf2). cbn [negb]. rewrite getline_text by assumption. rewrite (starts_true _ _ Si1). cbn [negb].
  rewrite getline_text by assumption. rewrite (starts_true _ _ Si2). cbn [negb].
  eexists. exists (S fuel). split; [cbn [length] in TL; lia|]. split; [reflexivity|]. cbn [h_mode]. split; [|split; [exact M1|exact M2]].
  unfold header_read. cbn [h_start h_nepoch h_interval h_nsat h_ids h_acc]. rewrite EI, EA. split; [exact D|]. split; [reflexivity|]. split; [exact I2c|]. split; [reflexivity|].
  split; [reflexivity|]. eapply F2impl; [|exact G]. intros s a E. unfold accuracy in E. apply bind_ok in E as (z & Ez & E). injection E as <-. now exists z.
Qed.

Lemma read_header_ok L t n first rest tail : good_header L t n -> plain first -> ~ starts "/*" first ->
  exists h, read_header L (mkStream (text_of (header_lines t ++ first :: rest) ++ tail) false false)
      = Ok (h, Some (mkStream (text_of (first :: rest) ++ tail) false false)) /\ header_read L t n h /\
    (nth_error (x_first t) 2 = Some "P"%char -> h_mode h = MPosition) /\
    (nth_error (x_first t) 2 <> Some "P"%char -> nth_error (x_first t) 3 <> Some "V"%char -> h_mode h = MOther).
Proof.
  intros HG PF SF. destruct (read_header_comments L t n (x_comments t ++ first :: rest) tail HG) as (h & fuel & LF & E & H). exists h. split; [|exact H].
  assert (EH : header_lines t ++ first :: rest = before_comments t ++ x_comments t ++ first :: rest).
  { unfold header_lines, before_comments. cbn [app]. do 2 f_equal. now rewrite <- !app_assoc. }
  rewrite EH, E. destruct HG as (HP & HG). repeat match type of HG with _ /\ _ => destruct HG as [_ HG] end. unfold header_lines in HP. do 2 (apply Forall_cons_iff in HP as [_ HP]).
  do 3 (apply Forall_app in HP as [_ HP]). rewrite app_length in LF. cbn [length] in LF. rewrite skip_comments_ok by (assumption || lia). reflexivity.
Qed.

(** ** the epochs *)
Lemma push_length t id e : id <= length t -> length (push_entry t id e) = Nat.max (length t) (S id).
Proof.
  intros B. unfold push_entry. destruct (Nat.ltb_spec id (length t)).
  - rewrite !app_length, firstn_length, skipn_length. cbn [length]. lia.
  - rewrite app_length. cbn [length]. lia.
Qed.
Lemma push_nth t id e k : id <= length t -> nth k (push_entry t id e) [] = nth k t [] ++ (if k =? id then [e] else []).
Proof.
  intros B. unfold push_entry. destruct (Nat.ltb_spec id (length t)) as [H|H].
  - destruct (Nat.eqb_spec k id) as [->|N].
    + rewrite app_nth2; rewrite firstn_length, Nat.min_l by lia; [|lia]. rewrite Nat.sub_diag. reflexivity.
    + rewrite app_nil_r. destruct (Nat.lt_ge_cases k id).
      * rewrite app_nth1 by (rewrite firstn_length; lia). rewrite <- (firstn_skipn id t) at 2. rewrite app_nth1 by (rewrite firstn_length; lia). reflexivity.
      * rewrite app_nth2; rewrite firstn_length, Nat.min_l by lia; [|lia]. destruct (k - id) as [|j] eqn:E; [lia|]. cbn [app nth].
        rewrite <- (firstn_skipn (S id) t) at 2. rewrite app_nth2; rewrite firstn_length, Nat.min_l by lia; [|lia]. f_equal. lia.
  - assert (id = length t) by lia. subst id. destruct (Nat.eqb_spec k (length t)) as [->|N].
    + rewrite app_nth2 by lia. rewrite Nat.sub_diag. rewrite nth_overflow with (l := t) by lia. reflexivity.
    + rewrite app_nil_r. destruct (Nat.lt_ge_cases k (length t)).
      * now rewrite app_nth1 by lia.
      * rewrite !nth_overflow; rewrite ?app_length; cbn [length]; try lia. reflexivity.
Qed.
(** the columns after the entries es of the satellites from id on *)
Definition pushed (t : list (list entry)) (id : nat) (es : list entry) (t' : list (list entry)) : Prop :=
  length t' = Nat.max (length t) (id + length es) /\ forall k, nth k t' [] = nth k t [] ++ match (if k <? id then None else nth_error es (k - id)) with Some e => [e] | None => [] end.
Lemma pushed_nil t id : id <= length t -> pushed t id [] t.
Proof.
  intros B. split; [cbn [length]; lia|]. intros k. destruct (k <? id); [now rewrite app_nil_r|]. destruct (k - id); cbn; now rewrite app_nil_r.
Qed.
Lemma pushed_cons t id e es t' : id <= length t -> pushed (push_entry t id e) (S id) es t' -> pushed t id (e :: es) t'.
Proof.
  intros B [HL HN]. split.
  - rewrite HL, push_length by exact B. cbn [length]. lia.
  - intros k. rewrite HN, push_nth, <- app_assoc by exact B. f_equal. destruct (Nat.eqb_spec k id) as [->|N].
    + destruct (Nat.ltb_spec id (S id)); [|lia]. destruct (Nat.ltb_spec id id); [lia|]. rewrite Nat.sub_diag. reflexivity.
    + destruct (Nat.ltb_spec k (S id)), (Nat.ltb_spec k id); try lia; try reflexivity. destruct (k - id) as [|j] eqn:E; [lia|]. cbn [app nth_error]. replace (k - S id) with j by lia. reflexivity.
Qed.
Lemma pushed_app t id es es' t' t'' : id <= length t -> pushed t id es t' -> pushed t' (id + length es) es' t'' -> pushed t id (es ++ es') t''.
Proof.
  intros B [L1 N1] [L2 N2]. split; [rewrite L2, L1, app_length; lia|]. intros k. rewrite N2, N1, <- app_assoc. f_equal.
  destruct (Nat.ltb_spec k (id + length es)), (Nat.ltb_spec k id); try lia; cbn [app].
  - reflexivity.
  - rewrite nth_error_app1 by lia. now rewrite app_nil_r.
  - rewrite nth_error_app2 by lia. replace (nth_error es (k - id)) with (@None entry) by (symmetry; apply nth_error_None; lia). cbn [app].
    replace (k - id - length es) with (k - (id + length es)) by lia. reflexivity.
Qed.
Lemma cut_prefix x l r : cut x = (l, r) -> exists y, x = l ++ y.
Proof.
  revert l r; induction x as [|c x IH]; cbn [cut]; intros l r H; [injection H as <- <-; now exists []|].
  destruct (Ascii.eqb_spec c nl); [injection H as <- <-; eexists; reflexivity|]. destruct (cut x) as [l' r'] eqn:E. injection H as <- <-.
  destruct (IH l' r' eq_refl) as (y & ->). now exists y.
Qed.
Lemma peek x line p : ~ starts p x -> p <> ""%string ->
  exists s2 line', getline (mkStream x false false) line = (s2, line') /\ prefix (lit p) line' = false /\ (x <> [] -> seekg s2 (Some x) = mkStream x false false).
Proof.
  intros H NE. unfold getline. cbn [s_eof s_fail s_rest orb]. destruct x as [|c x].
  - do 2 eexists. split; [reflexivity|]. split; [destruct p; [congruence|reflexivity]|]. intros X; now destruct X.
  - assert (PL : forall l r, cut (c :: x) = (l, r) -> prefix (lit p) l = false).
    { intros l r E. apply starts_false. intros (y & ->). apply H. apply cut_prefix in E as (z & ->). exists (y ++ z). now rewrite app_assoc. }
    destruct (cut (c :: x)) as [l r] eqn:E. specialize (PL l r eq_refl). destruct r as [rr|]; do 2 eexists; (split; [reflexivity|]); (split; [exact PL|]); intros _; reflexivity.
Qed.
Lemma flat_cons p ps : flat_map sat_lines (p :: ps) = sat_lines p ++ flat_map sat_lines ps.
Proof. reflexivity. Qed.
Lemma read_sats_ok L m ps : m <> MVelocity -> forall c id rest tail line t,
  Forall (good_sat L) ps -> ~ starts "EP" (text_of rest ++ tail) -> id <= length t ->
  exists s' line' t' es, (text_of rest ++ tail <> [] -> s' = mkStream (text_of rest ++ tail) false false \/ ps = [] ) /\
    Forall2 (fun p e => says L (fst p) e) ps es /\ pushed t id es t' /\
    (ps = [] -> s' = mkStream (text_of rest ++ tail) false false) /\
    read_sats L m (length ps + c) id (mkStream (text_of (flat_map sat_lines ps ++ rest) ++ tail) false false) line t = read_sats L m c (id + length ps) s' line' t'.
Proof.
  intros NV. induction ps as [|[l oc] ps IH]; intros c id rest tail line t HG HT B.
  - exists (mkStream (text_of rest ++ tail) false false), line, t, []. split; [now left|]. split; [constructor|]. split; [now apply pushed_nil|]. split; [reflexivity|].
    cbn [length flat_map app Nat.add]. now rewrite Nat.add_0_r.
  - apply Forall_cons_iff in HG as [(PL & SP & (e & HE) & HC) HG]. cbn [fst snd] in *.
    unfold sat_lines in PL. cbn [fst snd] in PL. apply Forall_cons_iff in PL as [P1 PL].
    cbn [length Nat.add read_sats]. rewrite flat_cons. unfold sat_lines at 1. cbn [fst snd app]. rewrite getline_text by exact P1.
    rewrite (starts_true _ _ SP). cbn [negb]. rewrite (proj2 (decode_says L l e) HE). cbn [bind]. unfold tellg at 1. cbn [s_eof s_fail orb s_rest].
    assert (LP : id <= length (push_entry t id e)) by (rewrite push_length by exact B; lia).
    assert (LP' : S id <= length (push_entry t id e)) by (rewrite push_length by exact B; lia).
    destruct oc as [cl|].
    + apply Forall_cons_iff in PL as [P2 _]. cbn [app]. rewrite getline_text by exact P2. specialize (HC cl eq_refl). rewrite (starts_true _ _ (proj1 HC)). cbn [negb].
      rewrite decode_correlation_ok by exact HC. cbn [bind].
      destruct (IH c (S id) rest tail cl (push_entry t id e) HG HT LP') as (s' & line' & t' & es & A1 & A2 & A3 & A4 & A5).
      exists s', line', t', (e :: es). split. { intros X. left. destruct (A1 X) as [Y|Y]; [exact Y|now apply A4]. }
      split; [now constructor|]. split; [now apply pushed_cons|]. split; [discriminate|]. replace (id + S (length ps)) with (S id + length ps) by lia.
      rewrite <- A5. destruct m; [reflexivity|congruence|reflexivity].
    + cbn [app]. clear HC PL.
      assert (NX : ~ starts "EP" (text_of (flat_map sat_lines ps ++ rest) ++ tail)).
      { destruct ps as [|[l2 oc2] ps]; [exact HT|]. apply Forall_cons_iff in HG as [(_ & (r & Er) & _) _]. cbn [fst] in Er. subst l2. rewrite flat_cons. unfold sat_lines at 1. cbn [fst app].
        rewrite text_cons. intros (r' & E'). cbn in E'. discriminate. }
      destruct (peek _ l "EP" NX ltac:(discriminate)) as (s2 & l2 & E2 & F2 & G2). rewrite E2, F2. cbn [negb bind].
      destruct ps as [|p2 ps].
      * cbn [flat_map app] in *. exists (seekg s2 (Some (text_of rest ++ tail))), l2, (push_entry t id e), [e]. split; [intros X; left; now apply G2|].
        split; [now repeat constructor|]. split; [apply pushed_cons; [exact B|]; now apply pushed_nil|]. split; [discriminate|]. cbn [length Nat.add]. replace (id + 1) with (S id) by lia.
        destruct m; [reflexivity|congruence|reflexivity].
      * rewrite G2; [|rewrite flat_cons; unfold sat_lines at 1; cbn [app]; rewrite text_cons; destruct (fst p2); discriminate].
        destruct (IH c (S id) rest tail l2 (push_entry t id e) HG HT LP') as (s' & line' & t' & es & A1 & A2 & A3 & A4 & A5).
        exists s', line', t', (e :: es). split. { intros X. left. destruct (A1 X) as [Y|Y]; [exact Y|discriminate]. }
        split; [now constructor|]. split; [now apply pushed_cons|]. split; [discriminate|]. match goal with |- _ = read_sats _ _ _ ?x _ _ _ => replace x with (S id + length (p2 :: ps)) by (cbn [length]; lia) end.
        rewrite <- A5. destruct m; [reflexivity|congruence|reflexivity].
Qed.

Lemma F2snoc {A B} (P : A -> B -> Prop) xs ys x y : Forall2 P xs ys -> P x y -> Forall2 P (xs ++ [x]) (ys ++ [y]).
Proof. intros H1 H2. apply Forall2_app; [exact H1|repeat constructor; exact H2]. Qed.
Lemma F2nth {A B} (P : A -> B -> Prop) xs ys k x : Forall2 P xs ys -> nth_error xs k = Some x -> exists y, nth_error ys k = Some y /\ P x y.
Proof. intros H; revert k; induction H as [|a b xs ys H1 H2 IH]; intros [|k] E; cbn in *; try discriminate; [injection E as ->; eauto|eauto]. Qed.
(** one epoch with its satellites: continues with the columns pushed *)
Definition epoch_step (L : lib) (m : mode) (n c : nat) (s : stream) (ep : list R) (t : list (list entry)) (d : R) (s' : stream) (t' : list (list entry)) : Prop :=
  read_epochs L m n (S c) s ep t = read_epochs L m n c s' (ep ++ [d]) t'.
Lemma epoch_ok L m n c b rest tail ep t : m <> MVelocity -> good_block L n b -> ~ starts "EP" (text_of rest ++ tail) ->
  exists d s' t' es, l_date L (field (b_epoch b) 3 28) = Some d /\ (text_of rest ++ tail <> [] -> s' = mkStream (text_of rest ++ tail) false false) /\
    Forall2 (fun p e => says L (fst p) e) (b_sats b) es /\ pushed t 0 es t' /\
    epoch_step L m n c (mkStream (text_of (block_lines b ++ rest) ++ tail) false false) ep t d s' t'.
Proof.
  intros NV ((PE & SE & BE & (d & D)) & LB & HG) HT. unfold epoch_step. cbn [read_epochs]. unfold block_lines. cbn [app]. rewrite getline_text by exact PE.
  rewrite (starts_true _ _ SE). cbn [negb]. rewrite substr_ok by exact BE. cbn [bind]. rewrite D.
  destruct (read_sats_ok L m (b_sats b) NV 0 0 rest tail (b_epoch b) t HG HT ltac:(lia)) as (s' & line' & t' & es & A1 & A2 & A3 & A4 & A5).
  exists d, s', t', es. split; [reflexivity|]. split. { intros X. destruct (A1 X) as [Y|Y]; [exact Y|now apply A4]. }
  split; [exact A2|]. split; [exact A3|]. rewrite Nat.add_0_r, LB in A5. rewrite A5. reflexivity.
Qed.
Lemma blocks_start L n b bs rest tail : good_block L n b -> ~ starts "EP" (text_of (flat_map block_lines (b :: bs) ++ rest) ++ tail) /\ text_of (flat_map block_lines (b :: bs) ++ rest) ++ tail <> [].
Proof.
  intros ((_ & (r & E) & _) & _). cbn [flat_map]. unfold block_lines at 1 3. cbn [app]. rewrite text_cons, E. split; [|discriminate].
  intros (r' & E'). cbn in E'. discriminate.
Qed.
(** the columns gain the entries of the blocks *)
Definition gained (L : lib) (n : nat) (bs : list block) (t t' : list (list entry)) : Prop :=
  length t' = match bs with [] => length t | _ => Nat.max (length t) n end /\
  forall sat, sat < n -> exists new, nth sat t' [] = nth sat t [] ++ new /\ Forall2 (fun b e => exists l c, nth_error (b_sats b) sat = Some (l, c) /\ says L l e) bs new.
Lemma gained_step L n b bs t t1 t2 es : length (b_sats b) = n -> Forall2 (fun p e => says L (fst p) e) (b_sats b) es -> pushed t 0 es t1 -> gained L n bs t1 t2 ->
  gained L n (b :: bs) t t2.
Proof.
  intros LB F [L1 N1] [L2 N2]. assert (LE := F2len F). split.
  - rewrite L2, L1. destruct bs; lia.
  - intros sat B. destruct (N2 sat B) as (new & E & G). rewrite N1 in E. cbn [Nat.ltb Nat.leb] in E. rewrite Nat.sub_0_r in E.
    destruct (nth_error (b_sats b) sat) as [[l c]|] eqn:EN; [|apply nth_error_None in EN; lia].
    destruct (F2nth _ _ _ _ _ F EN) as (e & Ee & He). rewrite Ee, <- app_assoc in E. cbn [app] in E. exists (e :: new). split; [exact E|].
    constructor; [|exact G]. exists l, c. split; [exact EN|exact He].
Qed.
Lemma epochs_ok L m n bs : m <> MVelocity -> forall c rest tail ep t,
  Forall (good_block L n) bs -> ~ starts "EP" (text_of rest ++ tail) ->
  exists ds s' t', Forall2 (fun b e => l_date L (field (b_epoch b) 3 28) = Some e) bs ds /\ (text_of rest ++ tail <> [] -> s' = mkStream (text_of rest ++ tail) false false) /\
    gained L n bs t t' /\
    read_epochs L m n (length bs + c) (mkStream (text_of (flat_map block_lines bs ++ rest) ++ tail) false false) ep t = read_epochs L m n c s' (ep ++ ds) t'.
Proof.
  intros NV. induction bs as [|b bs IH]; intros c rest tail ep t HG HT.
  - exists [], (mkStream (text_of rest ++ tail) false false), t. split; [constructor|]. split; [reflexivity|]. split.
    + split; [reflexivity|]. intros sat B. exists []. rewrite app_nil_r. split; [reflexivity|constructor].
    + now rewrite app_nil_r.
  - apply Forall_cons_iff in HG as [HB HG]. cbn [flat_map length Nat.add]. rewrite <- app_assoc.
    destruct (epoch_ok L m n (length bs + c) b (flat_map block_lines bs ++ rest) tail ep t NV HB) as (d & s1 & t1 & es & D & S1 & F & P & E).
    { destruct bs as [|b2 bs]; [exact HT|]. apply Forall_cons_iff in HG as [HB2 _]. exact (proj1 (blocks_start L n b2 bs rest tail HB2)). }
    unfold epoch_step in E. rewrite E. clear E.
    destruct bs as [|b2 bs].
    + cbn [flat_map app length Nat.add] in *. exists [d], s1, t1. split; [repeat constructor; exact D|]. split; [exact S1|]. split; [|reflexivity].
      eapply gained_step; [exact (proj1 (proj2 HB))|exact F|exact P|]. split; [reflexivity|]. intros sat B. exists []. rewrite app_nil_r. split; [reflexivity|constructor].
    + rewrite S1; [|assert (HB2 := Forall_inv HG); exact (proj2 (blocks_start L n b2 bs rest tail HB2))].
      destruct (IH c rest tail (ep ++ [d]) t1 HG HT) as (ds & s' & t' & D2 & S2 & G2 & E2). exists (d :: ds), s', t'. split; [now constructor|]. split; [exact S2|]. split.
      * eapply gained_step; [exact (proj1 (proj2 HB))|exact F|exact P|exact G2].
      * rewrite E2, <- app_assoc. reflexivity.
Qed.

(** ** files that are cut off *)
Lemma getline_bad s line : s_eof s || s_fail s = true -> exists s', getline s line = (s', line) /\ s_eof s' || s_fail s' = true.
Proof. intros H. unfold getline. rewrite H. eexists. split; [reflexivity|]. cbn. apply Bool.orb_true_r. Qed.
Lemma cut_none l : plain l -> cut l = (l, None).
Proof.
  unfold plain. induction l as [|c l IH]; intros H; cbn [cut]; [reflexivity|].
  destruct (Ascii.eqb_spec c nl) as [->|]; [exfalso; apply H; now left|]. rewrite IH; [reflexivity|]. intros X; apply H; now right.
Qed.
Lemma getline_last l line : plain l -> l <> [] -> getline (mkStream l false false) line = (mkStream [] true false, l).
Proof. intros H N. unfold getline. cbn [s_eof s_fail s_rest orb]. destruct l as [|c l]; [congruence|]. now rewrite cut_none. Qed.
Lemma item_loop_hang {A} (f : str -> outcome A) p fuel : forall s line n acc, (forall x, exists a, f x = Ok a) -> starts p line -> 60 <= length line ->
  s_eof s || s_fail s = true -> item_lines f fuel (lit p) s line n acc = Hang.
Proof.
  induction fuel as [|k IH]; intros s line n acc F HS B G; cbn [item_lines]; rewrite (starts_true _ _ HS); [reflexivity|].
  destruct (take_items_ok f 17 0 line n acc ltac:(lia)) as (new & -> & _); [apply Forall_forall; intros; apply F|]. cbn [bind].
  destruct (getline_bad s line G) as (s' & -> & G'). now apply IH.
Qed.
Lemma item_cut_hang {A} (f : str -> outcome A) p ls : forall fuel l last n acc, (forall x, exists a, f x = Ok a) ->
  Forall (fun l => starts p l /\ 60 <= length l) (l :: ls ++ [last]) -> Forall plain ls -> plain last ->
  item_lines f fuel (lit p) (mkStream (text_of ls ++ last) false false) l n acc = Hang.
Proof.
  induction ls as [|l' ls IH]; intros fuel l last n acc F HA HP PL; assert (H0 := Forall_inv HA); destruct H0 as [HS B];
    (destruct fuel as [|k]; cbn [item_lines]; rewrite (starts_true _ _ HS); [reflexivity|]);
    (destruct (take_items_ok f 17 0 l n acc ltac:(lia)) as (new & -> & _); [apply Forall_forall; intros; apply F|]); cbn [bind].
  - cbn [app text_of flat_map] in *. apply Forall_cons_iff in HA as [_ HA]. apply Forall_inv in HA as [HS2 B2].
    rewrite getline_last; [|exact PL|intros ->; cbn in B2; lia]. now apply item_loop_hang.
  - apply Forall_cons_iff in HP as [P1 HP]. rewrite getline_text by exact P1. apply Forall_cons_iff in HA as [_ HA]. now apply IH.
Qed.
Lemma comment_loop_hang fuel : forall s line, starts "/*" line -> s_eof s || s_fail s = true -> skip_comments fuel s line = Hang.
Proof.
  induction fuel as [|k IH]; intros s line HS G; cbn [skip_comments]; [reflexivity|]. unfold tellg. rewrite G.
  destruct (getline_bad (mkStream (s_rest s) (s_eof s) true) line) as (s' & -> & G'); [cbn; apply Bool.orb_true_r|]. rewrite (starts_true _ _ HS). now apply IH.
Qed.
Lemma comment_cut_hang cs : forall fuel last line, Forall (starts "/*") (cs ++ [last]) -> Forall plain cs -> plain last ->
  skip_comments fuel (mkStream (text_of cs ++ last) false false) line = Hang.
Proof.
  induction cs as [|c cs IH]; intros fuel last line HA HP PL; (destruct fuel as [|k]; cbn [skip_comments]; [reflexivity|]); unfold tellg; cbn [s_eof s_fail orb s_rest].
  - cbn [app text_of flat_map] in *. apply Forall_inv in HA. rewrite getline_last; [|exact PL|destruct HA as (r & ->); discriminate]. rewrite (starts_true _ _ HA). now apply comment_loop_hang.
  - apply Forall_cons_iff in HP as [P1 HP]. rewrite getline_text by exact P1. cbn [app] in HA. apply Forall_cons_iff in HA as [HS HA]. rewrite (starts_true _ _ HS). now apply IH.
Qed.
Lemma not_ep l : starts "P" l -> prefix (lit "EP") l = false.
Proof. intros (r & ->). reflexivity. Qed.
Lemma sats_stuck L m c : m <> MVelocity -> forall id l e r t, starts "P" l -> says L l e -> id <= length t ->
  exists s' t', read_sats L m c id (mkStream r false true) l t = Ok (true, s', l, t') /\ pushed t id (repeat e c) t'.
Proof.
  intros NV. induction c as [|c IH]; intros id l e r t SP SE B; cbn [read_sats repeat].
  - do 2 eexists. split; [reflexivity|now apply pushed_nil].
  - unfold getline at 1. cbn [s_eof s_fail orb s_rest]. rewrite (starts_true _ _ SP). cbn [negb]. rewrite (proj2 (decode_says L l e) SE). cbn [bind].
    unfold tellg, getline. cbn [s_eof s_fail orb s_rest]. rewrite (not_ep _ SP). cbn [negb bind]. unfold seekg. cbn [s_fail s_rest].
    destruct (IH (S id) l e r (push_entry t id e) SP SE) as (s' & t' & E & P); [rewrite push_length by exact B; lia|].
    exists s', t'. split; [|now apply pushed_cons]. rewrite E. destruct m; [reflexivity|congruence|reflexivity].
Qed.
Lemma sats_cut L m c id l e line t : m <> MVelocity -> plain l -> starts "P" l -> says L l e -> id <= length t ->
  exists s' t', read_sats L m (S c) id (mkStream l false false) line t = Ok (true, s', l, t') /\ pushed t id (repeat e (S c)) t'.
Proof.
  intros NV PL SP SE B. cbn [read_sats]. rewrite getline_last; [|exact PL|destruct SP as (r & ->); discriminate].
  rewrite (starts_true _ _ SP). cbn [negb]. rewrite (proj2 (decode_says L l e) SE). cbn [bind].
  unfold tellg, getline. cbn [s_eof s_fail orb s_rest]. rewrite (not_ep _ SP). cbn [negb bind]. unfold seekg. cbn [s_fail s_rest].
  destruct (sats_stuck L m c NV (S id) l e [] (push_entry t id e) SP SE) as (s' & t' & E & P); [rewrite push_length by exact B; lia|].
  exists s', t'. split; [|now apply pushed_cons]. rewrite E. destruct m; [reflexivity|congruence|reflexivity].
Qed.
