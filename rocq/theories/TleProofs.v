(** Scanning the pieces of two line elements *)
From Coq Require Import Reals Lra Lia List Bool Arith ZArith Ascii String.
From Verif Require Import Base RBase StringModel Sgp4Model TleModel TleSpec.
Import ListNotations.
Open Scope list_scope.
Open Scope nat_scope.

Definition stops (s : str) : Prop := forall c t, s = c :: t -> ~ is_dig c.
Definition fold_digits (s : str) (a : Z) : Z := fold_left (fun a c => 10 * a + (Z.of_nat (nat_of_ascii c) - 48))%Z s a.
Lemma digit_iff c : digit c = true <-> is_dig c.
Proof. unfold digit, is_dig, code. rewrite Bool.andb_true_iff, !Z.leb_le. tauto. Qed.
Lemma digit_not c : ~ is_dig c -> digit c = false.
Proof. intros H. destruct (digit c) eqn:E; [apply digit_iff in E; contradiction|reflexivity]. Qed.
Lemma take_all t w a rest : all_digits t -> List.length t <= w -> (List.length t = w \/ stops rest) ->
  take_digits w a (t ++ rest) = (fold_digits t a, List.length t, rest).
Proof.
  revert w a. induction t as [|c t IH]; intros w a D L O.
  - cbn [app List.length fold_digits fold_left]. destruct w as [|w]; [reflexivity|]. destruct rest as [|c r]; [reflexivity|]. cbn [take_digits].
    destruct O as [O|O]; [discriminate|]. now rewrite (digit_not c (O c r eq_refl)).
  - destruct w as [|w]; [cbn in L; lia|]. cbn [app take_digits List.length]. rewrite (proj2 (digit_iff c)) by (apply D; now left).
    cbn [List.length] in L. rewrite IH; [reflexivity|intros x X; apply D; now right|lia|]. cbn [List.length] in O. destruct O; [left; lia|now right].
Qed.
Lemma dig_no_space c : is_dig c -> is_space c = false.
Proof.
  unfold is_dig, is_space, code. intros D. destruct (Z.eqb_spec (Z.of_nat (nat_of_ascii c)) 32); [lia|].
  destruct (Z.leb_spec 9 (Z.of_nat (nat_of_ascii c))); destruct (Z.leb_spec (Z.of_nat (nat_of_ascii c)) 13); try reflexivity; lia.
Qed.
Lemma skip_pad pad s : all_blank pad -> skip_space (pad ++ s) = skip_space s.
Proof.
  intros B. induction pad as [|c b IH]; [reflexivity|]. cbn [app skip_space]. rewrite (B c) by now left. change (is_space " ") with true. cbv iota.
  apply IH. intros x X. apply B. now right.
Qed.
Lemma skip_one s : skip_space (" "%char :: s) = skip_space s. Proof. reflexivity. Qed.
Lemma skip_dig c s : is_dig c -> skip_space (c :: s) = c :: s.
Proof. intros D. cbn [skip_space]. now rewrite (dig_no_space c D). Qed.
Lemma sign_dig c s : is_dig c -> sign_of (c :: s) = None.
Proof.
  intros D. unfold sign_of. destruct (Ascii.eqb_spec c "-") as [->|]; [unfold is_dig in D; cbn in D; lia|].
  destruct (Ascii.eqb_spec c "+") as [->|]; [unfold is_dig in D; cbn in D; lia|reflexivity].
Qed.
(** a whole number: optional sign, digits *)
Lemma scan_d_digits w pad t rest : all_blank pad -> all_digits t -> t <> [] -> List.length t <= w -> (List.length t = w \/ stops rest) ->
  scan_d w (pad ++ t ++ rest) = Some (digits_to_Z t, rest).
Proof.
  intros B D N L O. unfold scan_d. rewrite (skip_pad _ _ B). destruct t as [|c t]; [contradiction|]. assert (Dc := D c (or_introl eq_refl)).
  cbn [app]. rewrite (skip_dig c _ Dc), (sign_dig c _ Dc). change (c :: t ++ rest) with ((c :: t) ++ rest). rewrite (take_all _ _ _ _ D L O).
  cbn [List.length Nat.eqb]. now rewrite Z.mul_1_l.
Qed.
(** sign column and one digit *)
Lemma scan_d_exponent e x h rest : sign_char e h -> is_dig x -> stops rest -> scan_d 2 (e :: x :: rest) = Some ((h * digits_to_Z [x])%Z, rest).
Proof.
  intros E X O. destruct E as [[-> ->]|[[-> ->]|[-> ->]]].
  - rewrite Z.mul_1_l. apply (scan_d_digits 2 [" "%char] [x] rest); [intros c [<-|[]]; reflexivity|intros c [<-|[]]; exact X|discriminate|cbn; lia|now right].
  - unfold scan_d. cbn [skip_space]. change (is_space "+") with false. cbv iota. cbn [sign_of]. change (Ascii.eqb "+" "-") with false. change (Ascii.eqb "+" "+") with true. cbv iota.
    change (x :: rest) with ([x] ++ rest). rewrite (take_all [x] (2 - 1) 0 rest); [reflexivity|intros c [<-|[]]; exact X|cbn; lia|now right].
  - unfold scan_d. cbn [skip_space]. change (is_space "-") with false. cbv iota. cbn [sign_of]. change (Ascii.eqb "-" "-") with true. cbv iota.
    change (x :: rest) with ([x] ++ rest). rewrite (take_all [x] (2 - 1) 0 rest); [reflexivity|intros c [<-|[]]; exact X|cbn; lia|now right].
Qed.
Lemma fold_digits_app i f : fold_digits f (fold_digits i 0) = digits_to_Z (i ++ f).
Proof. unfold fold_digits, digits_to_Z. now rewrite fold_left_app. Qed.
(** after the sign *)
Lemma take_decimal w i f rest : all_digits i -> all_digits f -> List.length i + 1 + List.length f <= w -> (List.length i + 1 + List.length f = w \/ stops rest) ->
  take_digits w 0 (i ++ "."%char :: f ++ rest) = (fold_digits i 0, List.length i, "."%char :: f ++ rest) /\
  take_digits (w - List.length i - 1) (fold_digits i 0) (f ++ rest) = (digits_to_Z (i ++ f), List.length f, rest) /\ (List.length i <? w) = true.
Proof.
  intros I F L O. split; [|split].
  - apply take_all; [exact I|lia|]. right. intros c t E. injection E as <- _. unfold is_dig. cbn. lia.
  - rewrite take_all; [now rewrite fold_digits_app|exact F|lia|]. destruct O; [left; lia|now right].
  - apply Nat.ltb_lt. lia.
Qed.
Lemma first_no_space s x rest : decimal_text s x -> skip_space (s ++ rest) = s ++ rest.
Proof.
  intros (sg & g & i & f & -> & S0 & I & F & N & _). destruct S0 as [[-> _]|[[-> _]|[-> _]]]; [|reflexivity|reflexivity].
  cbn [app]. destruct i as [|c i]; [reflexivity|]. cbn [app]. apply skip_dig. apply I. now left.
Qed.
Lemma scan_lf_decimal w pad s x rest : all_blank pad -> decimal_text s x -> List.length s <= w -> (List.length s = w \/ stops rest) ->
  scan_lf w (pad ++ s ++ rest) = Some (x, rest).
Proof.
  intros B T L O. unfold scan_lf. rewrite (skip_pad _ _ B), (first_no_space s x rest T).
  destruct T as (sg & g & i & f & -> & S0 & I & F & N & ->).
  assert (K : forall w', List.length i + 1 + List.length f <= w' -> (List.length i + 1 + List.length f = w' \/ stops rest) ->
    (let '(v, k, r) := take_digits w' 0 (i ++ "."%char :: f ++ rest) in
     let '(v, k, ff, r) := match r with
       | c :: t => if Ascii.eqb c "." && (k <? w') then let '(v', j, r') := take_digits (w' - k - 1) v t in (v', k + j, j, r') else (v, k, 0, r)
       | [] => (v, k, 0, r) end in
     if (k =? 0) then None else Some ((IZR (g * v) / 10 ^ ff)%R, r)) = Some ((IZR g * IZR (digits_to_Z (i ++ f)) / 10 ^ List.length f)%R, rest)).
  { intros w' L' O'. destruct (take_decimal w' i f rest I F L' O') as (T1 & T2 & T3). rewrite T1. cbv iota beta. rewrite Ascii.eqb_refl, T3. cbn [andb].
    rewrite T2. cbv iota beta. destruct (Nat.eqb_spec (List.length i + List.length f) 0) as [Z|Z].
    - exfalso. apply N. apply length_zero_iff_nil. rewrite app_length. exact Z.
    - now rewrite mult_IZR. }
  rewrite !app_length in L, O. cbn [List.length] in L, O.
  destruct S0 as [[-> ->]|[[-> ->]|[-> ->]]]; cbn [app List.length] in *.
  - assert (SN : sign_of (i ++ "."%char :: f ++ rest) = None) by (destruct i as [|c i]; [reflexivity|cbn [app]; apply sign_dig, I; now left]).
    rewrite <- app_assoc. cbn [app]. rewrite SN. apply K; lia || (destruct O; [left; lia|now right]).
  - rewrite <- app_assoc. cbn [app sign_of]. change (Ascii.eqb "+" "-") with false. change (Ascii.eqb "+" "+") with true. cbv iota.
    apply K; lia || (destruct O; [left; lia|now right]).
  - rewrite <- app_assoc. cbn [app sign_of]. change (Ascii.eqb "-" "-") with true. cbv iota.
    apply K; lia || (destruct O; [left; lia|now right]).
Qed.
Lemma field_scan n w s x pre rest : field n s x -> all_blank pre -> (n = w /\ (forall d u, s = d :: u -> d <> " "%char)) \/ (n <= w /\ stops rest) ->
  scan_lf w (pre ++ s ++ rest) = Some (x, rest).
Proof.
  intros (L & pad & t & -> & B & T) P C.
  replace (pre ++ (pad ++ t) ++ rest) with ((pre ++ pad) ++ t ++ rest) by now rewrite <- !app_assoc.
  rewrite app_length in L. assert (BB : all_blank (pre ++ pad)) by (intros c I; apply in_app_or in I as [I|I]; auto).
  apply scan_lf_decimal; [exact BB|exact T|destruct C as [[C _]|[C _]]; lia|].
  destruct C as [[C NB]|[_ C]]; [|now right]. left. destruct pad as [|c pad]; [cbn in L; lia|]. exfalso. apply (NB c (pad ++ t)); [reflexivity|]. apply B. now left.
Qed.
(** implied point *)
Lemma implied_decimal m : all_digits m -> m <> [] -> decimal_text ("."%char :: m) (IZR (digits_to_Z m) / 10 ^ List.length m)%R.
Proof. intros D N. exists [], 1%Z, [], m. cbn [app]. split; [reflexivity|]. split; [left; split; reflexivity|]. split; [intros c []|]. split; [exact D|]. split; [exact N|]. now rewrite Rmult_1_l. Qed.
Lemma implied_signed s g m rest : sign_char s g -> all_digits m -> List.length m = 5 -> stops rest ->
  scan_lf 7 (s :: "."%char :: m ++ rest) = Some ((IZR g * IZR (digits_to_Z m) / 10 ^ 5)%R, rest).
Proof.
  intros G D L O. assert (NE : m <> []) by (intros ->; discriminate).
  destruct G as [[-> ->]|[[-> ->]|[-> ->]]].
  - rewrite Rmult_1_l, <- L. change (" "%char :: "."%char :: m ++ rest) with ([" "%char] ++ ("."%char :: m) ++ rest).
    apply scan_lf_decimal; [intros c [<-|[]]; reflexivity|now apply implied_decimal|cbn; lia|now right].
  - change ("+"%char :: "."%char :: m ++ rest) with ([] ++ ("+"%char :: "."%char :: m) ++ rest).
    apply scan_lf_decimal; [intros c []| |cbn; lia|left; cbn; lia]. exists ["+"%char], 1%Z, [], m. rewrite L. split; [reflexivity|]. split; [right; left; split; reflexivity|]. split; [intros c []|]. split; [exact D|]. split; [exact NE|reflexivity].
  - change ("-"%char :: "."%char :: m ++ rest) with ([] ++ ("-"%char :: "."%char :: m) ++ rest).
    apply scan_lf_decimal; [intros c []| |cbn; lia|left; cbn; lia]. exists ["-"%char], (-1)%Z, [], m. rewrite L. split; [reflexivity|]. split; [right; right; split; reflexivity|]. split; [intros c []|]. split; [exact D|]. split; [exact NE|reflexivity].
Qed.

(** ** Repairs *)
Lemma set_at_app i c p q : List.length p <= i -> set_at i c (p ++ q) = p ++ set_at (i - List.length p) c q.
Proof. revert i. induction p as [|x p IH]; intros i L; [now rewrite Nat.sub_0_r|]. destruct i as [|i]; [cbn in L; lia|]. cbn [app set_at List.length Nat.sub]. f_equal. apply IH. cbn in L. lia. Qed.
Lemma fill_app i c p q : List.length p <= i -> fill i c (p ++ q) = p ++ fill (i - List.length p) c q.
Proof. intros L. unfold fill, at_. rewrite app_nth2 by lia. destruct (blank (nth (i - List.length p) q zero)); [now apply set_at_app|reflexivity]. Qed.
Lemma fill_head i c q : stops q -> stops (fill (S i) c q).
Proof. intros O. unfold fill. destruct (blank _); [|exact O]. destruct q as [|x q]; [exact O|]. intros d t E. cbn [set_at] in E. injection E as -> _. eapply O; reflexivity. Qed.
Definition unblank (d c : ascii) : ascii := if blank c then d else c.
Lemma set_at_same i s : set_at i (nth i s zero) s = s.
Proof. revert i. induction s as [|c s IH]; intros [|i]; cbn [set_at nth]; try reflexivity. now rewrite IH. Qed.
Lemma fill_eq i c s : fill i c s = set_at i (unblank c (at_ s i)) s.
Proof. unfold fill, unblank. destruct (blank (at_ s i)); [reflexivity|]. unfold at_. now rewrite set_at_same. Qed.
Lemma shift_eq i j s : shift i j s = set_at j (if blank (at_ s i) then at_ s j else at_ s i) s.
Proof. unfold shift. destruct (blank (at_ s i)); cbn [negb]; [unfold at_; now rewrite set_at_same|reflexivity]. Qed.
Ltac explicit s := lazymatch s with context [fill] => fail | context [shift] => fail | context [set_at] => fail | _ => idtac end.
Ltac step1 :=
  match goal with
  | |- context [fill ?i ?c ?s] => explicit s; rewrite (fill_eq i c s); lazy beta iota delta [set_at at_ nth]
  | |- context [shift ?i ?j ?s] => explicit s; rewrite (shift_eq i j s); lazy beta iota delta [set_at at_ nth]
  end.
Definition repair_designator (s : str) : str :=
  match s with c0 :: c1 :: c2 :: c3 :: c4 :: c5 :: c6 :: r => unblank "." c0 :: map (unblank "_") [c1; c2; c3; c4; c5; c6] ++ r | _ => s end.
Lemma blank_shift s g : sign_char s g -> (if blank s then " "%char else s) = s.
Proof. intros _. unfold blank. destruct (Ascii.eqb_spec s " "); congruence. Qed.
Lemma unblank_zero c : unblank "0" c = blank_as_zero c. Proof. reflexivity. Qed.
Lemma repair1_line cat cls desig y d fd s1 m1 e1 x1 s2 m2 e2 x2 rest :
  List.length cat = 5 -> List.length desig = 8 -> List.length y = 2 -> List.length d = 12 -> List.length fd = 10 -> List.length m1 = 5 -> List.length m2 = 5 ->
  repair1 (lit "1 " ++ cat ++ [cls] ++ lit " " ++ desig ++ lit " " ++ y ++ d ++ lit " " ++ fd ++ lit " " ++ [s1] ++ m1 ++ [e1; x1] ++ lit " " ++ [s2] ++ m2 ++ [e2; x2] ++ rest) =
  lit "1 " ++ cat ++ [unblank "U" cls] ++ lit " " ++ repair_designator desig ++ lit " " ++ y ++ d ++ lit " " ++ fd ++
    s1 :: "."%char :: map blank_as_zero m1 ++ e1 :: blank_as_zero x1 :: s2 :: "."%char :: m2 ++ [e2; x2] ++ fill 7 "0" (fill 1 "0" rest).
Proof.
  intros L1 L2 L3 L4 L5 L6 L7. unfold repair1. cbv zeta. unfold fills. cbn [fold_left].
  assert (BS : forall s, (if blank s then " "%char else s) = s) by (intros s; unfold blank; destruct (Ascii.eqb_spec s " "); congruence).
  do 6 (destruct cat as [|? cat]; try discriminate). do 9 (destruct desig as [|? desig]; try discriminate). do 3 (destruct y as [|? y]; try discriminate).
  do 13 (destruct d as [|? d]; try discriminate). do 11 (destruct fd as [|? fd]; try discriminate). do 6 (destruct m1 as [|? m1]; try discriminate).
  do 6 (destruct m2 as [|? m2]; try discriminate). clear - BS.
  change blank_as_zero with (unblank "0"). lazy beta iota delta [lit list_ascii_of_string app map repair_designator]. repeat step1. rewrite !BS. reflexivity.
Qed.
Lemma repair2_line cat fi fn fe rest :
  List.length cat = 5 -> List.length fi = 8 -> List.length fn = 8 -> List.length fe = 7 ->
  repair2 (lit "2 " ++ cat ++ lit " " ++ fi ++ lit " " ++ fn ++ lit " " ++ fe ++ rest) =
  lit "2 " ++ cat ++ lit " " ++ fi ++ lit " " ++ fn ++ "."%char :: map blank_as_zero fe ++ rest.
Proof.
  intros L1 L2 L3 L4. unfold repair2, fills. cbn [fold_left].
  do 6 (destruct cat as [|? cat]; try discriminate). do 9 (destruct fi as [|? fi]; try discriminate). do 9 (destruct fn as [|? fn]; try discriminate).
  do 8 (destruct fe as [|? fe]; try discriminate). clear.
  change blank_as_zero with (unblank "0"). lazy beta iota delta [lit list_ascii_of_string app map set_at]. repeat step1. reflexivity.
Qed.

(** ** Scanning the repaired lines *)
Lemma stops_char c t : ~ is_dig c -> stops (c :: t).
Proof. intros N d u E. injection E as <- _. exact N. Qed.
Lemma blank_no_dig : ~ is_dig " "%char. Proof. unfold is_dig. cbn. lia. Qed.
Lemma point_no_dig : ~ is_dig "."%char. Proof. unfold is_dig. cbn. lia. Qed.
Lemma sign_no_dig s g : sign_char s g -> ~ is_dig s.
Proof. intros [[-> _]|[[-> _]|[-> _]]]; unfold is_dig; cbn; lia. Qed.
Lemma one_blank : all_blank (lit " "). Proof. intros c [<-|[]]. reflexivity. Qed.
Lemma catalogue_scan cat pre rest : catalogue cat -> all_blank pre -> stops rest -> exists v, scan_d 5 (pre ++ cat ++ rest) = Some (v, rest).
Proof.
  intros (L & pad & t & -> & B & D & N) P O. exists (digits_to_Z t). rewrite app_length in L.
  replace (pre ++ (pad ++ t) ++ rest) with ((pre ++ pad) ++ t ++ rest) by now rewrite <- !app_assoc.
  apply scan_d_digits; [intros c I; apply in_app_or in I as [I|I]; auto|exact D|exact N|lia|now right].
Qed.
Lemma no_space c : no_control c -> c <> " "%char -> is_space c = false.
Proof.
  unfold no_control, is_space, code. intros N B. destruct (Z.eqb_spec (Z.of_nat (nat_of_ascii c)) 32) as [E|_].
  - exfalso. apply B. rewrite <- (ascii_nat_embedding c). replace (nat_of_ascii c) with 32%nat by lia. reflexivity.
  - destruct (Z.leb_spec 9 (Z.of_nat (nat_of_ascii c))); destruct (Z.leb_spec (Z.of_nat (nat_of_ascii c)) 13); try reflexivity; lia.
Qed.
Lemma unblank_no_space d c : is_space d = false -> no_control c -> is_space (unblank d c) = false.
Proof. intros D N. unfold unblank, blank. destruct (Ascii.eqb_spec c " "); [exact D|now apply no_space]. Qed.
Lemma designator_scan desig rest : List.length desig = 8 -> (forall c, In c desig -> no_control c) ->
  exists r, scan_s 10 (lit " " ++ repair_designator desig ++ " "%char :: rest) = Some r /\ skip_space r = skip_space rest.
Proof.
  intros L NC. do 9 (destruct desig as [|? desig]; try discriminate). clear L.
  assert (U : forall d x, is_space d = false -> In x [a; a0; a1; a2; a3; a4; a5; a6] -> is_space (unblank d x) = false) by (intros d x D I; apply unblank_no_space; [exact D|now apply NC]).
  cbv [lit list_ascii_of_string]. unfold scan_s. cbn [app repair_designator map]. rewrite skip_one.
  cbn [skip_space take_word].
  repeat (rewrite U by (cbn; tauto || reflexivity); cbn [take_word]).
  destruct (is_space a6) eqn:E6.
  - eexists. split; [reflexivity|]. cbn [skip_space]. rewrite E6. change (is_space " ") with true. reflexivity.
  - change (is_space " ") with true. cbv iota beta. eexists. split; [reflexivity|]. reflexivity.
Qed.
Lemma scan_d_skip w s : scan_d w s = scan_d w (skip_space s).
Proof. unfold scan_d. replace (skip_space (skip_space s)) with (skip_space s); [reflexivity|]. induction s as [|c s IH]; [reflexivity|]. cbn [skip_space]. destruct (is_space c) eqn:E; [exact IH|]. cbn [skip_space]. now rewrite E. Qed.

Lemma scan_line1_ok line yr days nd ndd nexp bs ibexp : line1_means line yr days nd ndd nexp bs ibexp ->
  scan_line1 (repair1 line) = Some (yr, days, nd, ndd, nexp, bs, ibexp) /\ fits 54 line = true.
Proof.
  intros (cat & cls & desig & y & d & fd & s1 & m1 & e1 & x1 & s2 & m2 & e2 & x2 & g1 & h1 & g2 & h2 & rest & -> & CAT & NC & ND & LD & DC & (LY & DY & ->) & FD & FN &
    G1 & L1 & D1 & -> & H1 & X1 & -> & G2 & L2 & D2 & -> & H2 & X2 & -> & RS & LL).
  assert (LC : List.length cat = 5) by apply CAT. assert (L12 : List.length d = 12) by apply FD. assert (L10 : List.length fd = 10) by apply FN.
  split.
  2:{ unfold fits. apply Bool.andb_true_iff. split; [apply Nat.leb_le|apply Nat.ltb_lt; exact LL].
      rewrite !app_length. cbn [List.length lit list_ascii_of_string]. lia. }
  rewrite (repair1_line cat cls desig y d fd s1 m1 e1 x1 s2 m2 e2 x2 rest) by assumption. clear LL.
  assert (RS' : stops (fill 7 "0" (fill 1 "0" rest))) by (apply fill_head, fill_head; exact RS). set (rest' := fill 7 "0" (fill 1 "0" rest)) in *.
  assert (LM : List.length (map blank_as_zero m1) = 5) by now rewrite map_length. set (m1' := map blank_as_zero m1) in *.
  unfold scan_line1. change (lit "1 ") with ([] ++ ["1"%char] ++ [" "%char]). rewrite <- !app_assoc.
  rewrite (scan_d_digits 2 [] ["1"%char]) by (first [solve [intros c []]|intros c [<-|[]]; unfold is_dig; cbn; lia|discriminate|cbn; lia|right; apply stops_char, blank_no_dig]).
  destruct (catalogue_scan cat [" "%char] ([unblank "U" cls] ++ lit " " ++ repair_designator desig ++ lit " " ++ y ++ d ++ lit " " ++ fd ++ s1 :: "."%char :: m1' ++ e1 :: blank_as_zero x1 :: s2 :: "."%char :: m2 ++ [e2; x2] ++ rest') CAT) as [v V].
  { exact one_blank. } { cbn [app]. apply stops_char. unfold unblank, blank. destruct (Ascii.eqb_spec cls " "); [unfold is_dig; cbn; lia|exact ND]. }
  rewrite V. cbn [app]. cbn [skip_space]. rewrite (unblank_no_space "U" cls eq_refl NC). cbn [scan_c].
  destruct (designator_scan desig (y ++ d ++ lit " " ++ fd ++ s1 :: "."%char :: m1' ++ e1 :: blank_as_zero x1 :: s2 :: "."%char :: m2 ++ [e2; x2] ++ rest') LD DC) as (r & R1 & R2).
  cbn [app] in R1, R2. change (lit " ") with [" "%char] in *. cbn [app] in R1, R2 |- *. rewrite R1. rewrite scan_d_skip, R2, <- scan_d_skip.
  rewrite (scan_d_digits 2 [] y _ (fun c (H : In c []) => match H with end) DY ltac:(intros ->; discriminate) ltac:(lia) (or_introl LY) : scan_d 2 (y ++ _) = _).
  rewrite (field_scan 12 12 d days [] (" "%char :: fd ++ s1 :: "."%char :: m1' ++ e1 :: blank_as_zero x1 :: s2 :: "."%char :: m2 ++ e2 :: x2 :: rest') FD (fun c (H : In c []) => match H with end) ltac:(right; split; [lia|apply stops_char, blank_no_dig]) : scan_lf 12 (d ++ _) = _).
  change (" "%char :: fd ++ s1 :: "."%char :: m1' ++ e1 :: blank_as_zero x1 :: s2 :: "."%char :: m2 ++ e2 :: x2 :: rest') with ([" "%char] ++ fd ++ (s1 :: "."%char :: m1' ++ e1 :: blank_as_zero x1 :: s2 :: "."%char :: m2 ++ e2 :: x2 :: rest')).
  rewrite (field_scan 10 11 fd nd [" "%char] _ FN) by (first [exact one_blank|right; split; [lia|apply stops_char, (sign_no_dig _ _ G1)]]).
  rewrite (implied_signed s1 g1 m1' _ G1 D1 LM) by (apply stops_char, (sign_no_dig _ _ H1)).
  rewrite (scan_d_exponent e1 (blank_as_zero x1) h1 _ H1 X1) by (apply stops_char, (sign_no_dig _ _ G2)).
  rewrite (implied_signed s2 g2 m2 _ G2 D2 L2) by (apply stops_char, (sign_no_dig _ _ H2)).
  rewrite (scan_d_exponent e2 x2 h2 _ H2 X2 RS'). reflexivity.
Qed.
Lemma at_app p q i : List.length p = i -> at_ (p ++ q) i = nth 0 q zero.
Proof. intros L. unfold at_. rewrite app_nth2 by lia. f_equal. lia. Qed.
Lemma scan_line2_ok line incl node ecc argp m n : line2_means line incl node ecc argp m n ->
  scan_line2 (repair2 line) = Some (incl, node, ecc, argp, m, n) /\ fits 26 line = true.
Proof.
  intros (cat & fi & fn & fe & fp & fm & fr & rest & -> & CAT & FI & FN & (LE & DE & ->) & FP & FM & FR & RR & LL).
  assert (LC : List.length cat = 5) by apply CAT. assert (L1 : List.length fi = 8) by apply FI. assert (L2 : List.length fn = 8) by apply FN.
  assert (L3 : List.length fp = 8) by apply FP. assert (L4 : List.length fm = 8) by apply FM. assert (L5 : List.length fr = 11) by apply FR.
  split.
  2:{ unfold fits. apply Bool.andb_true_iff. split; [apply Nat.leb_le|apply Nat.ltb_lt; exact LL].
      rewrite !app_length. cbn [List.length lit list_ascii_of_string]. lia. }
  clear LL. rewrite (repair2_line cat fi fn fe) by assumption. assert (LM : List.length (map blank_as_zero fe) = 7) by now rewrite map_length. set (fe' := map blank_as_zero fe) in *.
  assert (W : scan_lf (if blank (at_ (lit "2 " ++ cat ++ lit " " ++ fi ++ lit " " ++ fn ++ "."%char :: fe' ++ lit " " ++ fp ++ lit " " ++ fm ++ lit " " ++ fr ++ rest) 52) then 10 else 11) (lit " " ++ fr ++ rest) = Some (n, rest)).
  { replace (lit "2 " ++ cat ++ lit " " ++ fi ++ lit " " ++ fn ++ "."%char :: fe' ++ lit " " ++ fp ++ lit " " ++ fm ++ lit " " ++ fr ++ rest)
      with ((lit "2 " ++ cat ++ lit " " ++ fi ++ lit " " ++ fn ++ "."%char :: fe' ++ lit " " ++ fp ++ lit " " ++ fm ++ lit " ") ++ fr ++ rest) by (rewrite <- !app_assoc; cbn [app]; now rewrite <- !app_assoc).
    rewrite at_app by (rewrite !app_length; cbn [List.length lit list_ascii_of_string]; rewrite !app_length; cbn [List.length lit list_ascii_of_string]; lia).
    destruct fr as [|c t]; [discriminate|]. cbn [app nth]. unfold blank. destruct FR as (_ & pad & u & E & B & T). destruct (Ascii.eqb_spec c " ") as [->|NB].
    - destruct pad as [|b pad].
      + exfalso. cbn [app] in E. destruct T as (sg & g & i & f & E2 & S0 & I & _). rewrite E2 in E. destruct S0 as [[-> _]|[[-> _]|[-> _]]]; [|discriminate|discriminate].
        destruct i as [|z i]; [discriminate|]. cbn [app] in E. injection E as E _. assert (Z : is_dig z) by (apply I; now left). rewrite <- E in Z. now apply blank_no_dig in Z.
      + injection E as <- ->. cbn [List.length] in L5. rewrite app_length in L5.
        replace (lit " " ++ " "%char :: (pad ++ u) ++ rest) with (((lit " " ++ [" "%char]) ++ pad) ++ u ++ rest) by (cbn [app lit list_ascii_of_string]; now rewrite <- app_assoc).
        apply scan_lf_decimal; [|exact T|lia|].
        * intros x X. apply in_app_or in X as [X|X]; [|apply B; now right]. cbn in X. destruct X as [X|[X|[]]]; now symmetry.
        * destruct RR as [(c & t & E & N)|RR]; [|now right]. injection E as <- <-. left. destruct pad as [|z pad]; [cbn in L5; lia|]. exfalso. apply (N z (pad ++ u) eq_refl). apply B. right. now left.
    - destruct pad as [|b pad]; [|exfalso; injection E as -> _; apply NB, B; now left]. cbn [app] in E.
      rewrite E in *. change (c :: t ++ rest) with ((c :: t) ++ rest). rewrite E. apply (scan_lf_decimal 11 (lit " ") u n rest); [exact one_blank|exact T|lia|left; lia]. }
  unfold scan_line2. change (lit "2 ") with ([] ++ ["2"%char] ++ [" "%char]) in *. rewrite <- !app_assoc in *. set (whole := [] ++ ["2"%char] ++ _) in *.
  set (wn := if blank (at_ whole 52) then 10 else 11) in *. unfold whole.
  rewrite (scan_d_digits 2 [] ["2"%char]) by (first [solve [intros c []]|intros c [<-|[]]; unfold is_dig; cbn; lia|discriminate|cbn; lia|right; apply stops_char, blank_no_dig]).
  destruct (catalogue_scan cat [" "%char] (lit " " ++ fi ++ lit " " ++ fn ++ "."%char :: fe' ++ lit " " ++ fp ++ lit " " ++ fm ++ lit " " ++ fr ++ rest) CAT) as [v V];
    [exact one_blank|apply stops_char, blank_no_dig|]. rewrite V.
  rewrite (field_scan 8 9 fi incl (lit " ") _ FI one_blank) by (right; split; [lia|apply stops_char, blank_no_dig]).
  rewrite (field_scan 8 9 fn node (lit " ") _ FN one_blank) by (right; split; [lia|apply stops_char, point_no_dig]).
  change ("."%char :: fe' ++ lit " " ++ fp ++ lit " " ++ fm ++ lit " " ++ fr ++ rest) with ([] ++ ("."%char :: fe') ++ (lit " " ++ fp ++ lit " " ++ fm ++ lit " " ++ fr ++ rest)).
  rewrite (scan_lf_decimal 8 [] ("."%char :: fe') _ _ (fun c (H : In c []) => match H with end) (implied_decimal fe' DE ltac:(intros Q; rewrite Q in LM; discriminate))) by (cbn [List.length]; lia || (left; lia)).
  rewrite LM.
  rewrite (field_scan 8 9 fp argp (lit " ") _ FP one_blank) by (right; split; [lia|apply stops_char, blank_no_dig]).
  rewrite (field_scan 8 9 fm m (lit " ") _ FM one_blank) by (right; split; [lia|apply stops_char, blank_no_dig]).
  rewrite W. reflexivity.
Qed.
