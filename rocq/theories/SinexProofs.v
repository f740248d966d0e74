From Coq Require Import Reals String List Bool Arith Lia.
From Verif Require Import Base SinexModel SinexSpec.
Import ListNotations.
Open Scope string_scope.

Lemma len_app a b : String.length (a ++ b) = (String.length a + String.length b)%nat.
Proof. induction a as [|c a IH]; [reflexivity|]. cbn [append String.length]. rewrite IH. reflexivity. Qed.
Lemma sub_app a : forall b k n, String.length a <= k -> substring k n (a ++ b) = substring (k - String.length a) n b.
Proof.
  induction a as [|c a IH]; intros b k n H; cbn [append String.length] in *; [rewrite Nat.sub_0_r; reflexivity|].
  destruct k as [|k]; [lia|]. cbn [substring Nat.sub]. apply IH. lia.
Qed.
Lemma sub_take a : forall b k n, k = 0 -> String.length a = n -> substring k n (a ++ b) = a.
Proof.
  intros b k n -> <-. induction a as [|c a IH]; cbn [append String.length substring].
  - destruct b; reflexivity.
  - f_equal. exact IH.
Qed.
Lemma sub_all a : forall k n, k = 0 -> String.length a <= n -> substring k n a = a.
Proof.
  intros k n -> L. revert n L. induction a as [|c a IH]; intros n L; [destruct n; reflexivity|]. cbn [String.length] in L. destruct n as [|n]; [lia|]. cbn [substring]. f_equal. apply IH. lia.
Qed.
(** a prefix spelled out *)
Lemma starts_app w t : starts w (w ++ t) = true.
Proof. unfold starts. induction w as [|c w IH]; [destruct t; reflexivity|]. cbn [append prefix]. destruct (Ascii.ascii_dec c c) as [_|N]; [exact IH|now elim N]. Qed.
Lemma starts_nil w : w <> "" -> starts w "" = false.
Proof. destruct w; [congruence|reflexivity]. Qed.

Lemma row_length f : widths_ok f -> String.length (row_text f) = match f_slope f with Some _ => 137 | None => 103 end.
Proof.
  intros (W1 & W2 & W3 & W4 & W5 & W6 & W7 & W8 & W9 & W10 & W11 & W12). unfold row_text. rewrite !len_app. cbn [String.length].
  destruct (f_slope f) as [(s & d)|].
  - destruct (W12 s d eq_refl) as (L1 & L2). rewrite !len_app. cbn [String.length]. lia.
  - cbn [String.length]. lia.
Qed.
Lemma sub_w a w b k n : String.length a = w -> Nat.leb w k = true -> substring k n (a ++ b) = substring (k - w) n b.
Proof. intros <- H. apply sub_app. now apply Nat.leb_le. Qed.
Ltac len := first [eassumption|reflexivity].
Ltac skips := repeat match goal with |- substring ?k ?n (?a ++ ?b) = _ => rewrite (sub_w a _ b k n ltac:(len) eq_refl); cbn [Nat.sub] end.
Ltac col := unfold row_text; skips.
Section cols.
Context (f : fields) (W : widths_ok f).
Lemma cols : let t := row_text f in
  substring 1 4 t = f_bias f /\ substring 6 4 t = f_svn f /\ substring 15 9 t = f_station f /\ substring 25 4 t = f_obs1 f /\ substring 30 4 t = f_obs2 f /\
  substring 65 4 t = f_unit f /\ substring 70 21 t = f_value f.
Proof.
  destruct W as (W1 & W2 & W3 & W4 & W5 & W6 & W7 & W8 & W9 & W10 & W11 & W12). cbv zeta.
  repeat split; col; (apply sub_take; [reflexivity|assumption]).
Qed.
Lemma col_sd_plain : f_slope f = None -> substring 92 12 (row_text f) = f_sd f.
Proof.
  intros E. destruct W as (W1 & W2 & W3 & W4 & W5 & W6 & W7 & W8 & W9 & W10 & W11 & W12). col. rewrite E.
  replace (f_sd f ++ "") with (f_sd f). 2:{ clear. induction (f_sd f) as [|c a IH]; [reflexivity|]. cbn [append]. f_equal. exact IH. }
  apply sub_all; [reflexivity|lia].
Qed.
Lemma app_assoc_s (a b c : string) : (a ++ b) ++ c = a ++ b ++ c.
Proof. induction a as [|x a IH]; [reflexivity|]. cbn [append]. f_equal. exact IH. Qed.
Lemma col_sd_slope s d : f_slope f = Some (s, d) -> substring 92 12 (row_text f) = f_sd f ++ " ".
Proof.
  intros E. destruct W as (W1 & W2 & W3 & W4 & W5 & W6 & W7 & W8 & W9 & W10 & W11 & W12). unfold row_text. rewrite E. skips.
  rewrite <- (app_assoc_s (f_sd f) " "). apply sub_take; [reflexivity|]. rewrite len_app. cbn [String.length]. lia.
Qed.
(** the slope is read one column late *)
Lemma col_slope c s d : f_slope f = Some (String c s, d) -> substring 105 21 (row_text f) = s ++ " ".
Proof.
  intros E. destruct W as (W1 & W2 & W3 & W4 & W5 & W6 & W7 & W8 & W9 & W10 & W11 & W12). destruct (W12 _ _ E) as (L1 & L2). cbn [String.length] in L1.
  unfold row_text. rewrite E. change (" " ++ String c s ++ " " ++ d) with ((" " ++ String c "") ++ s ++ " " ++ d).
  skips.
  rewrite <- (app_assoc_s s " "). apply sub_take; [reflexivity|]. rewrite len_app. cbn [String.length]. lia.
Qed.
End cols.

Lemma substr_ok s pos n : pos <= String.length s -> substr s pos n = Ok (substring pos n s).
Proof. intros H. unfold substr. destruct (Nat.ltb_spec (String.length s) pos); [lia|reflexivity]. Qed.

Section rows.
Context (stod : string -> option R).
Definition parsed (f : fields) (bias sd slope : R) : solution :=
  mkSolution (to_identifier (f_bias f)) (f_svn f) (f_station f) (to_signal (f_obs1 f) (f_obs2 f)) (to_unit (f_unit f)) bias sd slope 0.
Lemma read_row_plain f : widths_ok f -> f_slope f = None ->
  read_row stod (row_text f) = (let! bias := to_double stod (f_value f) in let! sd := to_double stod (f_sd f) in Ok (parsed f bias sd 0)).
Proof.
  intros W E. pose proof (row_length f W) as L. rewrite E in L. destruct (cols f W) as (C1 & C2 & C3 & C4 & C5 & C6 & C7). unfold read_row. cbv zeta.
  rewrite !substr_ok by lia. cbn [bind]. rewrite C1, C2, C3, C4, C5, C6, C7, (col_sd_plain f W E), L. cbn [Nat.ltb Nat.leb Nat.add bind].
  destruct (to_double stod (f_value f)); cbn [bind]; try reflexivity.
Qed.
Lemma read_row_slope f c s d : widths_ok f -> f_slope f = Some (String c s, d) ->
  read_row stod (row_text f) = (let! bias := to_double stod (f_value f) in let! sd := to_double stod (f_sd f ++ " ") in let! slope := to_double stod (s ++ " ") in Ok (parsed f bias sd slope)).
Proof.
  intros W E. pose proof (row_length f W) as L. rewrite E in L. destruct (cols f W) as (C1 & C2 & C3 & C4 & C5 & C6 & C7). unfold read_row. cbv zeta.
  rewrite !substr_ok by lia. cbn [bind]. rewrite C1, C2, C3, C4, C5, C6, C7, L, (col_sd_slope f W _ _ E), (col_slope f W _ _ _ E).
  destruct (to_double stod (f_value f)); cbn [bind]; try reflexivity.
  destruct (to_double stod (f_sd f ++ " ")); cbn [bind]; try reflexivity. change (Nat.ltb (105 + 21) 137) with true. cbv iota. cbn [bind].
  destruct (to_double stod (s ++ " ")); reflexivity.
Qed.

(** whole files *)
Fixpoint rows_read (fs : list fields) : outcome (list solution) :=
  match fs with
  | [] => Ok []
  | f :: rest => let! r := read_row stod (row_text f) in let! rs := rows_read rest in Ok (r :: rs)
  end.
Lemma rows_read_app a : forall b, rows_read (a ++ b)%list = (let! x := rows_read a in let! y := rows_read b in Ok (x ++ y)%list).
Proof.
  induction a as [|f a IH]; intros b; cbn [app rows_read bind].
  - destruct (rows_read b); reflexivity.
  - destruct (read_row stod (row_text f)); cbn [bind]; try reflexivity. rewrite IH. destruct (rows_read a); cbn [bind]; try reflexivity. destruct (rows_read b); reflexivity.
Qed.
Lemma starts_space w t : (exists c r, w = String c r /\ c <> Ascii.Ascii false false false false false true false false) -> starts w (" " ++ t) = false.
Proof. intros (c & r & -> & N). unfold starts. cbn [append prefix]. destruct (Ascii.ascii_dec c _); [contradiction|reflexivity]. Qed.
Lemma read_solution_items nl items : forall last rest, Forall (fun i => match i with Row f => widths_ok f | Remark _ => True end) items ->
  read_solution stod nl last (map item_text items ++ "-BIAS/SOLUTION" :: rest)%list =
  (let! rs := rows_read (flat_map (fun i => match i with Row f => [f] | Remark _ => [] end) items) in Ok (rs, rest)).
Proof.
  induction items as [|i items IH]; intros last rest F; [reflexivity|]. inversion F; subst. cbn [map app read_solution flat_map].
  destruct i as [f|t].
  - cbn [item_text]. unfold row_text at 1 2. rewrite !starts_space by (eexists _, _; split; [reflexivity|discriminate]). fold (row_text f).
    cbn [app rows_read]. destruct (read_row stod (row_text f)); cbn [bind]; try reflexivity. rewrite IH by assumption.
    destruct (rows_read (flat_map _ items)); reflexivity.
  - cbn [item_text]. change (starts "-BIAS/SOLUTION" ("*" ++ t)) with false. rewrite (starts_app "*" t). cbn [app]. apply IH. assumption.
Qed.
Lemma skip_body w body rest : Forall (fun l => starts w l = false) body -> skip_to w (body ++ w :: rest)%list = Ok rest.
Proof.
  induction body as [|l body IH]; intros F; cbn [app skip_to].
  - replace (starts w w) with true; [reflexivity|]. symmetry. rewrite <- (starts_app w "") at 1. f_equal. clear. induction w as [|c w IH]; [reflexivity|]. cbn [append]. f_equal. exact IH.
  - inversion F; subst. rewrite H1. now apply IH.
Qed.
Lemma piece_step nl p : piece_ok p -> forall fuel rest, (List.length (lines_of p ++ rest) <= fuel)%nat ->
  exists fuel', (List.length rest <= fuel')%nat /\ (fuel' < fuel)%nat /\
  read_lines stod nl fuel (lines_of p ++ rest)%list = (let! a := rows_read (rows_of p) in let! b := read_lines stod nl fuel' rest in Ok (a ++ b)%list).
Proof.
  intros P fuel rest L. destruct fuel as [|fuel].
  { destruct p; cbn [lines_of app List.length] in L; lia. }
  exists fuel. split; [destruct p; cbn [lines_of app List.length] in L; rewrite ?app_length in L; lia|]. split; [lia|].
  destruct p as [t|t|l|n body|items]; cbn [lines_of app read_lines rows_of rows_read bind] in *.
  - rewrite (starts_app "*" t). destruct (read_lines stod nl fuel rest); reflexivity.
  - change (starts "*" ("%=BIA" ++ t)) with false. cbn [piece_ok] in P. rewrite P, (starts_app "%=BIA" t). destruct (read_lines stod nl fuel rest); reflexivity.
  - cbn [piece_ok] in P. unfold skipped in P. cbn [app map append] in P.
    rewrite !P by (cbn [In]; tauto). destruct (read_lines stod nl fuel rest); reflexivity.
  - destruct P as (I & F). unfold skipped in I. cbn [In] in I. rewrite <- app_assoc. cbn [app].
    assert (E : skip_to ("-" ++ n) (body ++ (("-" ++ n)%string :: rest))%list = Ok rest) by now apply skip_body.
    destruct I as [<-|[<-|[<-|[<-|[<-|[]]]]]]; cbn [append] in E |- *;
    repeat match goal with |- context [starts ?a (String ?c ?b)] => let v := eval vm_compute in (starts a (String c b)) in change (starts a (String c b)) with v end; cbv iota; rewrite E; cbn [bind]; destruct (read_lines stod nl fuel rest); reflexivity.
  - rewrite <- app_assoc. cbn [app].
    repeat match goal with |- context [starts ?a "+BIAS/SOLUTION"] => let v := eval vm_compute in (starts a "+BIAS/SOLUTION") in change (starts a "+BIAS/SOLUTION") with v end. cbv iota.
    rewrite read_solution_items by exact P. destruct (rows_read (flat_map _ items)); cbn [bind]; try reflexivity.
Qed.
Lemma pieces_read nl ps : Forall piece_ok ps -> forall fuel rest, (List.length (flat_map lines_of ps ++ rest) <= fuel)%nat ->
  exists fuel', (List.length rest <= fuel')%nat /\
  read_lines stod nl fuel (flat_map lines_of ps ++ rest)%list = (let! a := rows_read (file_rows ps) in let! b := read_lines stod nl fuel' rest in Ok (a ++ b)%list).
Proof.
  induction ps as [|p ps IH]; intros F fuel rest L.
  - exists fuel. split; [exact L|]. cbn. destruct (read_lines stod nl fuel rest); reflexivity.
  - inversion F; subst. cbn [flat_map] in *. rewrite <- app_assoc in *. destruct (piece_step nl p H1 fuel _ L) as (f1 & L1 & _ & E1).
    destruct (IH H2 f1 rest L1) as (f2 & L2 & E2). exists f2. split; [exact L2|]. rewrite E1, E2. unfold file_rows. cbn [flat_map]. rewrite rows_read_app. fold (file_rows ps).
    destruct (rows_read (rows_of p)); cbn [bind]; try reflexivity. destruct (rows_read (file_rows ps)); cbn [bind]; try reflexivity. destruct (read_lines stod nl f2 rest); cbn [bind]; try reflexivity. rewrite app_assoc. reflexivity.
Qed.
End rows.
