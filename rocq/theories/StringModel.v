(** C++ standard library pieces used by the text-processing code: std::string as the list of its
    characters, getline, std::to_string, std::stoul / stol / stoi (strtoul / strtol of a 64-bit
    Linux: long is 64 bit), std::string::find and regex_replace with a literal pattern. *)
From Coq Require Import List ZArith Bool Ascii String Lia.
From Verif Require Import Base.
Import ListNotations.
Open Scope Z_scope.

Definition str : Type := list ascii.
Definition lit (s : string) : str := list_ascii_of_string s.
Definition code (c : ascii) : Z := Z.of_nat (nat_of_ascii c).
Definition chr (n : Z) : ascii := ascii_of_nat (Z.to_nat n).

Fixpoint str_eqb (a b : str) : bool :=
  match a, b with
  | [], [] => true
  | x :: a', y :: b' => Ascii.eqb x y && str_eqb a' b'
  | _, _ => false
  end.

(** std::getline(stream, field, d) repeated until it fails: the fields of the remaining input.
    A call on an exhausted stream fails; a delimiter at the very end is not followed by a field. *)
Fixpoint split_from (d : ascii) (s : str) (cur : str) : list str :=
  match s with
  | [] => [rev cur]
  | c :: t => if Ascii.eqb c d
              then rev cur :: match t with [] => [] | _ => split_from d t [] end
              else split_from d t (c :: cur)
  end.
Definition getlines (d : ascii) (s : str) : list str := match s with [] => [] | _ => split_from d s [] end.

(** decimal output of a non-negative number, std::to_string / operator<< *)
Definition digit_chr (n : Z) : ascii := chr (48 + n).
Fixpoint dec_loop (fuel : nat) (n : Z) (acc : str) : str :=
  match fuel with
  | O => acc
  | S f => if n <? 10 then digit_chr n :: acc else dec_loop f (n / 10) (digit_chr (n mod 10) :: acc)
  end.
Definition to_string (n : Z) : str :=
  if n <? 0 then lit "-" ++ dec_loop (S (Z.to_nat (- n))) (- n) [] else dec_loop (S (Z.to_nat n)) n [].

Definition is_space (c : ascii) : bool := (code c =? 32) || ((9 <=? code c) && (code c <=? 13)).
Fixpoint skip_space (s : str) : str :=
  match s with c :: t => if is_space c then skip_space t else s | [] => [] end.
Definition digit_val (c : ascii) : Z :=
  let n := code c in
  if (48 <=? n) && (n <=? 57) then n - 48
  else if (97 <=? n) && (n <=? 122) then n - 87
  else if (65 <=? n) && (n <=? 90) then n - 55
  else 99.
(** value of the longest prefix of digits *)
Fixpoint digits (base : Z) (acc : Z) (s : str) : Z :=
  match s with
  | c :: t => if digit_val c <? base then digits base (acc * base + digit_val c) t else acc
  | [] => acc
  end.
Definition starts_digit (base : Z) (s : str) : bool :=
  match s with c :: _ => digit_val c <? base | [] => false end.
(** magnitude after the sign; base 0 means: 0x.. hexadecimal, 0.. octal, else decimal *)
Definition magnitude (base : Z) (s : str) : option Z :=
  if base =? 0 then
    match s with
    | c :: t =>
        if code c =? 48 then
          match t with
          | x :: h => if ((code x =? 120) || (code x =? 88)) && starts_digit 16 h
                      then Some (digits 16 0 h) else Some (digits 8 0 s)
          | [] => Some 0
          end
        else if starts_digit 10 s then Some (digits 10 0 s) else None
    | [] => None
    end
  else if starts_digit base s then Some (digits base 0 s) else None.
(** sign and magnitude of the number at the start of s; None: no number there *)
Definition strto (base : Z) (s : str) : option (bool * Z) :=
  match skip_space s with
  | c :: t =>
      if code c =? 45 then option_map (pair true) (magnitude base t)
      else if code c =? 43 then option_map (pair false) (magnitude base t)
      else option_map (pair false) (magnitude base (c :: t))
  | [] => None
  end.
(** std::stoul(s, nullptr, base): invalid_argument / out_of_range are [Throw]; "-n" is negated
    modulo 2^64 *)
Definition stoul (base : Z) (s : str) : outcome Z :=
  match strto base s with
  | Some (neg, m) => if 2 ^ 64 <=? m then Throw else Ok (if neg then (- m) mod 2 ^ 64 else m)
  | None => Throw
  end.
Definition stol (s : str) : outcome Z :=
  match strto 10 s with
  | Some (neg, m) => let v := if neg then - m else m in
                     if (- 2 ^ 63 <=? v) && (v <? 2 ^ 63) then Ok v else Throw
  | None => Throw
  end.
Definition stoi (s : str) : outcome Z :=
  let! v := stol s in if (- 2 ^ 31 <=? v) && (v <? 2 ^ 31) then Ok v else Throw.

(** s starts with p *)
Fixpoint prefix (p s : str) : bool :=
  match p, s with
  | [], _ => true
  | x :: p', y :: s' => Ascii.eqb x y && prefix p' s'
  | _, [] => false
  end.
(** s.find(p): [None] is npos *)
Fixpoint find (p s : str) : option nat :=
  if prefix p s then Some 0%nat
  else match s with [] => None | _ :: t => option_map S (find p t) end.

(** * lemmas *)
Lemma str_eqb_spec a b : reflect (a = b) (str_eqb a b).
Proof.
  revert b; induction a as [|x a IH]; destruct b as [|y b]; cbn; try (constructor; congruence).
  destruct (Ascii.eqb_spec x y) as [->|N]; cbn; [|constructor; congruence].
  destruct (IH b) as [->|N]; constructor; congruence.
Qed.
Lemma code_range c : 0 <= code c < 256.
Proof. unfold code. pose proof (nat_ascii_bounded c). lia. Qed.
Lemma code_chr n : 0 <= n < 256 -> code (chr n) = n.
Proof. intros H. unfold code, chr. rewrite nat_ascii_embedding; lia. Qed.
Lemma chr_code c : chr (code c) = c.
Proof. unfold code, chr. rewrite Nat2Z.id. apply ascii_nat_embedding. Qed.
Lemma digit_val_chr n : 0 <= n < 10 -> digit_val (digit_chr n) = n.
Proof.
  intros H. unfold digit_val, digit_chr. rewrite code_chr by lia.
  destruct (Z.leb_spec 48 (48 + n)); [|lia]. destruct (Z.leb_spec (48 + n) 57); [|lia]. cbn [andb]. lia.
Qed.
Lemma digits_app base acc s t : (forall c, In c s -> digit_val c < base) ->
  digits base acc (s ++ t) = digits base (digits base acc s) t.
Proof.
  revert acc; induction s as [|c s IH]; intros acc H; [reflexivity|]. cbn.
  rewrite (proj2 (Z.ltb_lt _ _) (H c (or_introl eq_refl))). apply IH. intros; apply H. now right.
Qed.
Lemma is_space_digit n : 0 <= n < 10 -> is_space (digit_chr n) = false.
Proof.
  intros H. unfold is_space, digit_chr. rewrite code_chr by lia.
  destruct (Z.eqb_spec (48 + n) 32); [lia|]. destruct (Z.leb_spec 9 (48 + n)); [|reflexivity].
  destruct (Z.leb_spec (48 + n) 13); [lia|reflexivity].
Qed.

(** decimal digits of n followed by acc: [dec_loop] produces them all, first one is a digit *)
Lemma dec_loop_acc fuel : forall n acc, dec_loop fuel n acc = dec_loop fuel n [] ++ acc.
Proof.
  induction fuel as [|f IH]; intros n acc; [reflexivity|]. cbn.
  destruct (n <? 10); [reflexivity|]. rewrite IH, (IH _ [_]), <- app_assoc. reflexivity.
Qed.
Lemma dec_loop_spec fuel : forall n, 0 <= n < Z.of_nat fuel ->
  let s := dec_loop fuel n [] in
  digits 10 0 s = n /\ (forall c, In c s -> exists k, 0 <= k < 10 /\ c = digit_chr k) /\ s <> [].
Proof.
  induction fuel as [|f IH]; intros n H; [lia|]. cbn zeta. cbn [dec_loop].
  destruct (Z.ltb_spec n 10) as [L|L].
  - cbn. rewrite digit_val_chr by lia. destruct (Z.ltb_spec n 10); [|lia].
    split; [reflexivity|]. split; [|discriminate]. intros c [<-|[]]. exists n. split; [lia|reflexivity].
  - rewrite dec_loop_acc.
    assert (D : 0 <= n / 10 < Z.of_nat f).
    { split; [apply Z.div_pos; lia|]. apply Z.div_lt_upper_bound; lia. }
    destruct (IH _ D) as (A & B & C). cbn zeta in *.
    pose proof (Z.mod_pos_bound n 10 ltac:(lia)) as M.
    split; [|split].
    + rewrite digits_app.
      * rewrite A. cbn. rewrite digit_val_chr by lia. destruct (Z.ltb_spec (n mod 10) 10); [|lia].
        pose proof (Z.div_mod n 10 ltac:(lia)). lia.
      * intros c Hc. destruct (B c Hc) as (k & K & ->). rewrite digit_val_chr; lia.
    + intros c Hc. apply in_app_iff in Hc as [Hc|[<-|[]]]; [now apply B|]. eauto.
    + destruct (dec_loop f (n / 10) []); discriminate.
Qed.
Lemma dec_loop_fuel f : forall f' n acc, 0 <= n < Z.of_nat f -> n < Z.of_nat f' -> dec_loop f n acc = dec_loop f' n acc.
Proof.
  induction f as [|f IH]; intros f' n acc H H'; [lia|]. destruct f' as [|f']; [lia|]. cbn [dec_loop].
  destruct (Z.ltb_spec n 10); [reflexivity|]. apply IH.
  - split; [apply Z.div_pos; lia|apply Z.div_lt_upper_bound; lia].
  - apply Z.div_lt_upper_bound; lia.
Qed.
Lemma to_string_step m r : 0 < m -> 0 <= r < 10 -> to_string (10 * m + r) = to_string m ++ [digit_chr r].
Proof.
  intros M R. unfold to_string. destruct (Z.ltb_spec (10 * m + r) 0); [lia|]. destruct (Z.ltb_spec m 0); [lia|].
  rewrite (dec_loop_fuel (S (Z.to_nat m)) (Z.to_nat (10 * m + r)) m []) by lia.
  cbn [dec_loop]. destruct (Z.ltb_spec (10 * m + r) 10); [lia|].
  replace ((10 * m + r) / 10) with m by (apply (Z.div_unique _ _ _ r); lia).
  replace ((10 * m + r) mod 10) with r by (apply (Z.mod_unique _ _ m); lia).
  apply dec_loop_acc.
Qed.
Lemma to_string_nonneg n : 0 <= n -> let s := to_string n in
  digits 10 0 s = n /\ (forall c, In c s -> exists k, 0 <= k < 10 /\ c = digit_chr k) /\ s <> [].
Proof.
  intros H. unfold to_string. destruct (Z.ltb_spec n 0); [lia|]. apply dec_loop_spec. lia.
Qed.
Lemma to_string_inj n m : 0 <= n -> 0 <= m -> to_string n = to_string m -> n = m.
Proof.
  intros Hn Hm E. destruct (to_string_nonneg n Hn) as (A & _). destruct (to_string_nonneg m Hm) as (B & _).
  cbn zeta in *. rewrite E in A. congruence.
Qed.
(** a run of decimal digits is read as the number it denotes *)
Lemma strto_digits s t : s <> [] -> (forall c, In c s -> exists k, 0 <= k < 10 /\ c = digit_chr k) ->
  starts_digit 10 t = false -> strto 10 (s ++ t) = Some (false, digits 10 0 s).
Proof.
  intros N D T. destruct s as [|c s]; [congruence|]. destruct (D c (or_introl eq_refl)) as (k & K & E).
  unfold strto. cbn [app skip_space]. rewrite E at 1. rewrite is_space_digit by lia.
  assert (C : code c = 48 + k) by (rewrite E; apply code_chr; lia). rewrite C.
  destruct (Z.eqb_spec (48 + k) 45); [lia|]. destruct (Z.eqb_spec (48 + k) 43); [lia|].
  unfold magnitude. cbn [Z.eqb]. unfold starts_digit. rewrite E at 1. rewrite digit_val_chr by lia.
  destruct (Z.ltb_spec k 10); [|lia]. cbn [option_map].
  change (c :: s ++ t) with ((c :: s) ++ t). rewrite digits_app.
  - f_equal. f_equal. destruct t as [|x t]; [reflexivity|]. cbn [digits]. cbn in T. now rewrite T.
  - intros x Hx. destruct (D x Hx) as (j & J & ->). rewrite digit_val_chr; lia.
Qed.
Lemma to_string_neg n : n < 0 -> to_string n = lit "-" ++ to_string (- n).
Proof.
  intros H. unfold to_string. destruct (Z.ltb_spec n 0); [|lia]. destruct (Z.ltb_spec (- n) 0); [lia|reflexivity].
Qed.
Lemma strto_to_string n : strto 10 (to_string n) = Some (n <? 0, Z.abs n).
Proof.
  destruct (Z.ltb_spec n 0) as [L|L].
  - rewrite to_string_neg by lia. destruct (to_string_nonneg (- n) ltac:(lia)) as (A & B & C). cbn zeta in *.
    unfold strto, lit. cbn [list_ascii_of_string app skip_space].
    change (is_space "-") with false. cbn iota. change (code "-" =? 45) with true. cbn iota.
    pose proof (strto_digits (to_string (- n)) [] C B eq_refl) as G. rewrite app_nil_r in G.
    destruct (to_string (- n)) as [|c s] eqn:E; [congruence|].
    destruct (B c (or_introl eq_refl)) as (k & K & Ec).
    unfold strto in G. cbn [skip_space] in G. rewrite Ec in G at 1. rewrite is_space_digit in G by lia.
    assert (Cc : code c = 48 + k) by (rewrite Ec; apply code_chr; lia). rewrite Cc in G.
    destruct (Z.eqb_spec (48 + k) 45); [lia|]. destruct (Z.eqb_spec (48 + k) 43); [lia|].
    destruct (magnitude 10 (c :: s)) as [m|]; [|discriminate G]. cbn [option_map] in *.
    assert (Em : m = - n) by congruence. rewrite Em. repeat f_equal. lia.
  - destruct (to_string_nonneg n L) as (A & B & C). cbn zeta in *.
    pose proof (strto_digits (to_string n) [] C B eq_refl) as G. rewrite app_nil_r in G. rewrite G, A.
    repeat f_equal. lia.
Qed.
Lemma stoi_to_string n : - 2 ^ 31 <= n < 2 ^ 31 -> stoi (to_string n) = Ok n.
Proof.
  intros H. unfold stoi, stol. rewrite strto_to_string.
  assert (E : (if n <? 0 then - Z.abs n else Z.abs n) = n) by (destruct (Z.ltb_spec n 0); lia).
  rewrite E. destruct (Z.leb_spec (- 2 ^ 63) n); [|lia]. destruct (Z.ltb_spec n (2 ^ 63)); [|lia].
  cbn [andb bind]. destruct (Z.leb_spec (- 2 ^ 31) n); [|lia]. destruct (Z.ltb_spec n (2 ^ 31)); [reflexivity|lia].
Qed.
Lemma stol_to_string n : - 2 ^ 63 <= n < 2 ^ 63 -> stol (to_string n) = Ok n.
Proof.
  intros H. unfold stol. rewrite strto_to_string.
  assert (E : (if n <? 0 then - Z.abs n else Z.abs n) = n) by (destruct (Z.ltb_spec n 0); lia).
  rewrite E. destruct (Z.leb_spec (- 2 ^ 63) n); [|lia]. destruct (Z.ltb_spec n (2 ^ 63)); [reflexivity|lia].
Qed.
Lemma stoul_to_string n : 0 <= n < 2 ^ 64 -> stoul 10 (to_string n) = Ok n.
Proof.
  intros H. unfold stoul. rewrite strto_to_string. destruct (Z.ltb_spec n 0); [lia|].
  rewrite Z.abs_eq by lia. destruct (Z.leb_spec (2 ^ 64) n); [lia|reflexivity].
Qed.
Lemma stoul_to_string_neg n : - 2 ^ 64 < n < 0 -> stoul 10 (to_string n) = Ok (2 ^ 64 + n).
Proof.
  intros H. unfold stoul. rewrite strto_to_string. destruct (Z.ltb_spec n 0); [|lia].
  destruct (Z.leb_spec (2 ^ 64) (Z.abs n)); [lia|]. f_equal.
  replace (- Z.abs n) with n by lia. replace n with ((2 ^ 64 + n) + (-1) * 2 ^ 64) at 1 by lia.
  rewrite Z_mod_plus_full. apply Z.mod_small. lia.
Qed.

(** getline *)
Lemma split_from_spec d s : forall cur, ~ In d cur ->
  Forall (fun f => ~ In d f) (split_from d s cur).
Proof.
  induction s as [|c t IH]; intros cur H.
  - cbn. constructor; [now rewrite <- in_rev|constructor].
  - cbn [split_from]. destruct (Ascii.eqb_spec c d) as [->|N].
    + constructor; [now rewrite <- in_rev|]. destruct t; [constructor|]. apply IH. intros [].
    + apply IH. intros [E|E]; [congruence|contradiction].
Qed.
Lemma getlines_no_delim d s : Forall (fun f => ~ In d f) (getlines d s).
Proof. unfold getlines. destruct s as [|c t]; [constructor|]. apply split_from_spec. intros []. Qed.

(** fields separated by d *)
Fixpoint join (d : ascii) (fs : list str) : str :=
  match fs with [] => [] | [f] => f | f :: t => f ++ d :: join d t end.
Lemma split_from_field d f : forall cur t, ~ In d f ->
  split_from d (f ++ t) cur = split_from d t (rev f ++ cur).
Proof.
  induction f as [|c f IH]; intros cur t H; [reflexivity|]. cbn [app split_from].
  destruct (Ascii.eqb_spec c d) as [->|N]; [exfalso; apply H; now left|].
  rewrite IH by (intros X; apply H; now right). cbn [rev]. now rewrite <- app_assoc.
Qed.
Lemma getlines_join d fs : Forall (fun f => ~ In d f) fs -> fs <> [] -> last fs [] <> [] ->
  getlines d (join d fs) = fs.
Proof.
  intros F N L.
  assert (G : split_from d (join d fs) [] = fs).
  { clear N. induction fs as [|f fs IH]; [now destruct L|]. inversion F as [|? ? F1 F2]; subst.
    destruct fs as [|g fs].
    - cbn [join]. rewrite <- (app_nil_r f) at 1. rewrite split_from_field by exact F1. cbn.
      now rewrite app_nil_r, rev_involutive.
    - change (join d (f :: g :: fs)) with (f ++ d :: join d (g :: fs)).
      rewrite split_from_field by exact F1. cbn [split_from]. rewrite Ascii.eqb_refl.
      rewrite app_nil_r, rev_involutive.
      change (last (f :: g :: fs) []) with (last (g :: fs) []) in L.
      destruct (join d (g :: fs)) as [|x t] eqn:E; [|now rewrite (IH F2 L)].
      exfalso. specialize (IH F2 L). cbn in IH. injection IH as <- <-. now cbn in L. }
  unfold getlines. destruct (join d fs) as [|x t] eqn:E; [|exact G].
  cbn in G. rewrite <- G in L. cbn in L. congruence.
Qed.
Lemma split_from_drop_last d s : forall cur,
  split_from d (s ++ [d]) cur = split_from d s cur \/ exists l x, s = l ++ [x] /\ x = d.
Proof.
  induction s as [|c s IH]; intros cur.
  - left. cbn. now rewrite Ascii.eqb_refl.
  - cbn [app split_from]. destruct (IH (c :: cur)) as [E|(l & x & E & X)].
    + destruct (Ascii.eqb_spec c d) as [->|N]; [|left; exact E].
      destruct s as [|y s]; [right; exists [], d; auto|].
      destruct (IH []) as [E2|(l & x & E2 & X)].
      * left. f_equal. change ((y :: s) ++ [d]) with (y :: s ++ [d]) in *. cbn iota. exact E2.
      * right. exists (d :: l), x. rewrite E2. auto.
    + right. exists (c :: l), x. rewrite E. auto.
Qed.
(** a delimiter after a non-empty last field is invisible *)
Lemma getlines_trailing d s : s <> [] -> last s d <> d -> getlines d (s ++ [d]) = getlines d s.
Proof.
  intros N L. unfold getlines. destruct s as [|c s]; [congruence|].
  change ((c :: s) ++ [d]) with (c :: s ++ [d]) at 1. cbn iota.
  destruct (split_from_drop_last d (c :: s) []) as [E|(l & x & E & X)]; [exact E|].
  exfalso. apply L. rewrite E, last_last. exact X.
Qed.
