From Coq Require Import Reals Ascii String List Bool Arith ZArith Lra Lia.
From Verif Require Import Base StringModel GnssModel AntexModel AntexSpec AntexProofs.
Import ListNotations.
Open Scope nat_scope.
Open Scope string_scope.

Lemma last_cons {A} (x : A) l : last_of (x :: l) = match last_of l with Some y => Some y | None => Some x end.
Proof. unfold last_of. cbn [rev]. destruct (rev l); reflexivity. Qed.
Lemma concat_cons c cs : String.concat "" (c :: cs) = c ++ String.concat "" cs.
Proof. destruct cs; cbn [String.concat]; [|reflexivity]. induction c as [|x c IH]; [reflexivity|]. cbn [append]. f_equal. exact IH. Qed.
Lemma concat_length cells : Forall (fun c => String.length c = 8) cells -> String.length (String.concat "" cells) = 8 * List.length cells.
Proof. induction 1 as [|c cs H F IH]; [reflexivity|]. rewrite concat_cons, len_app, IH, H. cbn [List.length]. lia. Qed.
Lemma concat_cell cells : Forall (fun c => String.length c = 8) cells -> forall i r, i < List.length cells -> substring (i * 8) 8 (String.concat "" cells ++ r) = nth i cells "".
Proof.
  induction 1 as [|c cs H F IH]; intros i r L; cbn [List.length] in L; [lia|]. rewrite concat_cons, app_assoc_s. destruct i as [|i].
  - cbn [nth Nat.mul]. now apply sub_take.
  - rewrite sub_app by lia. replace (S i * 8 - String.length c) with (i * 8) by lia. cbn [nth]. apply IH. lia.
Qed.
Ltac labels :=
  repeat match goal with
  | G : good_line ?c ?w ?r |- context [at60 ?w (?c ++ ?w ++ ?r)] => rewrite (at60_own c w r) by (first [discriminate|exact G])
  | G : good_line ?c ?w ?r |- context [at60 ?v (?c ++ ?w ++ ?r)] => rewrite (at60_other c w r v (proj1 G)) by (first [discriminate|reflexivity])
  end.

Section reading.
Context (stod : string -> option R) (scan : string -> list R) (scan_date : string -> option date).
Notation read_phase := (read_phase stod scan).
Notation read_satellite := (read_satellite stod scan scan_date).

Lemma cells_read cells r : Forall (fun c => String.length c = 8) cells -> forall n i, i + n <= List.length cells ->
  Forall (fun t => stod t <> None) (firstn n (skipn i cells)) ->
  exists xs, read_cells stod ("   NOAZI" ++ String.concat "" cells ++ r) n i = Ok xs /\ map stod (firstn n (skipn i cells)) = map Some xs.
Proof.
  intros F. induction n as [|n IH]; intros i L R; cbn [read_cells].
  - exists []. split; reflexivity.
  - rewrite substr_ok. 2:{ rewrite len_app. rewrite len_app. rewrite (concat_length cells F). cbn [String.length]. lia. }
    cbn [bind]. rewrite (sub_app "   NOAZI"); [|cbn [String.length]; lia]. replace (8 + i * 8 - String.length "   NOAZI") with (i * 8) by (cbn [String.length]; lia).
    rewrite (concat_cell cells F) by lia.
    assert (E : skipn i cells = nth i cells "" :: skipn (S i) cells).
    { assert (H : i < List.length cells) by lia. clear - H. revert i H. induction cells as [|c cells IH]; intros i H; cbn [List.length] in H; [lia|]. destruct i as [|i]; [reflexivity|]. cbn [skipn nth] in *. apply IH. lia. }
    rewrite E in *. cbn [firstn] in *. inversion R as [|? ? R1 R2]; subst. unfold to_double. destruct (stod (nth i cells "")) as [x|] eqn:EX; [|now elim R1]. cbn [bind].
    destruct (IH (S i) ltac:(lia) R2) as (xs & -> & M). cbn [bind]. exists (x :: xs). split; [reflexivity|]. cbn [map]. rewrite EX, M. reflexivity.
Qed.
(** too few cells, or one that cannot be read *)
Lemma cells_bad cells : Forall (fun c => String.length c = 8) cells -> forall n i, i <= List.length cells -> stod "" = None ->
  (List.length cells < i + n \/ Exists (fun t => stod t = None) (firstn n (skipn i cells))) ->
  read_cells stod ("   NOAZI" ++ String.concat "" cells ++ "") n i = Throw.
Proof.
  intros F. induction n as [|n IH]; intros i L E0 B; cbn [read_cells].
  - destruct B as [B|B]; [lia|inversion B].
  - rewrite substr_ok. 2:{ rewrite len_app. rewrite len_app. rewrite (concat_length cells F). cbn [String.length]. lia. }
    cbn [bind]. rewrite (sub_app "   NOAZI"); [|cbn [String.length]; lia]. replace (8 + i * 8 - String.length "   NOAZI") with (i * 8) by (cbn [String.length]; lia).
    destruct (Nat.eq_dec i (List.length cells)) as [->|NI].
    + rewrite sub_app by (rewrite concat_length by exact F; lia). replace (substring _ 8 "") with "" by (destruct (_ - _); reflexivity). unfold to_double. rewrite E0. reflexivity.
    + rewrite (concat_cell cells F) by lia.
      assert (E : skipn i cells = nth i cells "" :: skipn (S i) cells).
      { assert (H : i < List.length cells) by lia. clear - H. revert i H. induction cells as [|c cells IH]; intros i H; cbn [List.length] in H; [lia|]. destruct i as [|i]; [reflexivity|]. cbn [skipn nth] in *. apply IH. lia. }
      unfold to_double. destruct (stod (nth i cells "")) as [x|] eqn:EX; [|reflexivity]. cbn [bind]. rewrite IH; [reflexivity|lia|exact E0|].
      destruct B as [B|B]; [left; lia|]. rewrite E in B. cbn [firstn] in B. inversion B as [? ? X|? ? X]; subst; [congruence|now right].
Qed.

Lemma phase_items g : forall items off var more, Forall fitem_ok items ->
  (forall cells, In cells (variations items) -> (g_zenith g <= Z.of_nat (List.length cells))%Z /\ Forall (fun t => stod t <> None) (firstn (Z.to_nat (g_zenith g)) cells)) ->
  exists off' var', read_phase g off var (map fitem_text items ++ more)%list = read_phase g off' var' more /\
    off' = match last_of (offsets items) with Some t => three scan t | None => off end /\
    match last_of (variations items) with Some cells => exists r, var' = [r] /\ map stod (firstn (Z.to_nat (g_zenith g)) cells) = map Some r | None => var' = var end.
Proof.
  induction items as [|it items IH]; intros off var more F RD.
  - exists off, var. repeat split; reflexivity.
  - inversion F as [|? ? OK F']; subst. destruct it as [c r|cells r|l]; cbn [map app AntexModel.read_phase].
    + destruct OK as (G & NA). change (fitem_text (Offset c r)) with (c ++ "NORTH / EAST / UP" ++ r) in *. labels. rewrite (has_without "NOAZI") by (first [discriminate|exact NA]). cbn [bind].
      destruct (IH (read_offset scan (c ++ "NORTH / EAST / UP" ++ r)) var more F' RD) as (o' & v' & E & EO & EV). exists o', v'. split; [exact E|].
      split; [|exact EV]. rewrite EO. cbn [offsets flat_map]. change (flat_map _ items) with (offsets items). cbn [app]. rewrite last_cons. destruct (last_of (offsets items)); reflexivity.
    + destruct OK as (F8 & N1 & N2). rewrite !at60_false by (first [discriminate|assumption]). cbn [fitem_text]. rewrite has_noazi.
      destruct (RD cells) as (R1 & R2); [left; reflexivity|].
      destruct (cells_read cells r F8 (Z.to_nat (g_zenith g)) 0 ltac:(lia) R2) as (xs & -> & M). cbn [bind].
      destruct (IH off [xs] more F') as (o' & v' & E & EO & EV); [intros cs H; apply RD; right; exact H|]. exists o', v'. split; [exact E|]. split; [exact EO|].
      cbn [variations flat_map]. change (flat_map _ items) with (variations items). cbn [app]. rewrite last_cons. destruct (last_of (variations items)); [exact EV|]. exists xs. split; [exact EV|exact M].
    + destruct OK as (N1 & N2 & N3). cbn [fitem_text]. rewrite !at60_false by (first [discriminate|assumption]). rewrite (has_without "NOAZI") by (first [discriminate|exact N3]). cbn [bind].
      destruct (IH off var more F' RD) as (o' & v' & E & EO & EV). exists o', v'. repeat split; assumption.
Qed.
Lemma phase_read g f more : freq_ok f -> freq_readable stod (g_zenith g) f ->
  exists p, read_phase g (0, 0, 0)%R [] (tl (freq_lines f) ++ more)%list = Ok (p, more) /\ freq_reads stod scan g f p.
Proof.
  intros (G1 & FI & L1 & L2 & G2) R. unfold freq_lines. cbn [tl]. rewrite <- app_assoc.
  destruct (phase_items g (fr_items f) (0, 0, 0)%R [] ([((fr_before f ++ fr_name f ++ fr_after f) ++ "END OF FREQUENCY" ++ fr_rest f)%string] ++ more)%list FI R) as (o' & v' & -> & EO & EV).
  cbn [app AntexModel.read_phase]. labels. rewrite substr_ok by (rewrite !len_app; lia). cbn [bind].
  exists (mkPhase (fr_name f) o' g v'). split.
  - rewrite app_assoc_s, (sub_app (fr_before f)) by lia. rewrite L1. change (3 - 3) with 0. rewrite app_assoc_s. rewrite sub_take by exact L2. reflexivity.
  - repeat split; [|exact EV]. exact EO.
Qed.
Lemma grid_default : exists g, default_grid = Ok g /\ grid_is scan None g.
Proof.
  destruct (make_grid_ok 0 90 10) as (n & E & P); [right; split; [lra|]; replace (90 - 0)%R with 90%R by ring; rewrite <- mult_IZR; apply IZR_lt; reflexivity|].
  unfold default_grid. rewrite E. eexists. split; [reflexivity|]. exists 0%R, 90%R, 10%R. cbn. repeat split; auto.
Qed.
Lemma grid_read c : zenith_readable scan c -> exists g, read_grid scan c = Ok g /\ grid_is scan (Some c) g.
Proof.
  intros (a & b & st & E & H). unfold read_grid. rewrite E. destruct (make_grid_ok a b st H) as (n & -> & P). eexists. split; [reflexivity|]. exists a, b, st. cbn. repeat split; auto.
Qed.
Definition same_head (s s' : satellite) : Prop := sa_type s' = sa_type s /\ sa_serial s' = sa_serial s.
Lemma sub_whole c : String.length c = 60 -> substring 0 60 c = c.
Proof. intros L. assert (H : c ++ "" = c) by (clear; induction c as [|x c IH]; [reflexivity|]; cbn [append]; f_equal; exact IH). rewrite <- H at 1. now apply sub_take. Qed.

Lemma satellite_items : forall items n z g s more, Forall sitem_ok items -> Forall (item_readable scan scan_date) items -> grid_is scan z g ->
  (forall z' f g, In (z', f) (frequencies z items) -> grid_is scan z' g -> freq_readable stod (g_zenith g) f) ->
  List.length (flat_map sitem_lines items ++ more) <= n ->
  exists n' g' s' ps, read_satellite n g s (flat_map sitem_lines items ++ more)%list = read_satellite n' g' s' more /\ List.length more <= n' /\
    same_head s s' /\
    sa_from s' = match last_of (contents 1 items) with Some c => scan_date (substring 0 59 c) | None => sa_from s end /\
    sa_until s' = match last_of (contents 2 items) with Some c => scan_date (substring 0 59 c) | None => sa_until s end /\
    match last_of (contents 0 items) with
    | Some c => exists n, stoi (list_ascii_of_string (substring 0 20 c)) = Ok n /\ sa_frequencies s' = (n mod 2 ^ 64)%Z
    | None => sa_frequencies s' = sa_frequencies s
    end /\
    sa_phases s' = (sa_phases s ++ ps)%list /\ grid_is scan (zenith_after z items) g' /\
    Forall2 (fun zf p => exists g, grid_is scan (fst zf) g /\ freq_reads stod scan g (snd zf) p) (frequencies z items) ps.
Proof.
  induction items as [|it items IH]; intros n z g s more F R GI FR LN.
  { exists n, g, s, []. cbn [flat_map app] in *. rewrite app_nil_r. unfold same_head. repeat match goal with |- _ /\ _ => split end; try assumption; try reflexivity. constructor. }
  inversion F as [|? ? OK F']; subst. inversion R as [|? ? RI R']; subst. cbn [flat_map] in *. rewrite <- app_assoc in *.
  destruct it as [c r|c r|c r|c r|f|l]; cbn [sitem_lines app] in *.
  - (* grid *)
    cbn [sitem_ok item_readable] in *. cbn [List.length] in LN. destruct n as [|n]; [lia|]. cbn [AntexModel.read_satellite]. labels. rewrite (substr_content c _ r 60 (proj1 OK) ltac:(lia)). cbn [bind]. rewrite (sub_whole c (proj1 OK)).
    destruct (grid_read c RI) as (g1 & -> & G1). cbn [bind]. rewrite app_nil_r.
    destruct (IH n (Some c) g1 (mkSatellite (sa_type s) (sa_serial s) (sa_from s) (sa_until s) (sa_frequencies s) (sa_phases s)) more F' R' G1) as (n' & g' & s' & ps & E & H); [exact FR|lia|].
    exists n', g', s', ps. split; [exact E|]. exact H.
  - (* count *)
    cbn [sitem_ok item_readable] in *. cbn [List.length] in LN. destruct n as [|n]; [lia|]. cbn [AntexModel.read_satellite]. labels. rewrite (substr_content c _ r 20 (proj1 OK) ltac:(lia)). cbn [bind].
    destruct RI as (k & EK). unfold to_count. rewrite EK. cbn [bind]. rewrite app_nil_r.
    destruct (IH n z g (mkSatellite (sa_type s) (sa_serial s) (sa_from s) (sa_until s) (k mod 2 ^ 64)%Z (sa_phases s)) more F' R' GI) as (n' & g' & s' & ps & E & H0 & H1 & H2 & H3 & H4 & H5); [exact FR|lia|].
    exists n', g', s', ps. split; [exact E|]. split; [exact H0|]. split; [exact H1|]. split; [exact H2|]. split; [exact H3|]. split; [|exact H5].
    cbn [contents flat_map]. change (flat_map _ items) with (contents 0 items). cbn [app]. rewrite last_cons. destruct (last_of (contents 0 items)); [exact H4|]. exists k. split; [exact EK|exact H4].
  - (* valid from *)
    cbn [sitem_ok item_readable] in *. cbn [List.length] in LN. destruct n as [|n]; [lia|]. cbn [AntexModel.read_satellite]. labels. rewrite (substr_content c _ r 59 (proj1 OK) ltac:(lia)). cbn [bind].
    unfold read_date. destruct (scan_date (substring 0 59 c)) as [d|] eqn:ED; [|now elim RI]. cbn [bind]. rewrite app_nil_r.
    destruct (IH n z g (mkSatellite (sa_type s) (sa_serial s) (Some d) (sa_until s) (sa_frequencies s) (sa_phases s)) more F' R' GI) as (n' & g' & s' & ps & E & H0 & H1 & H2 & H3); [exact FR|lia|].
    exists n', g', s', ps. split; [exact E|]. split; [exact H0|]. split; [exact H1|]. split; [|exact H3].
    cbn [contents flat_map]. change (flat_map _ items) with (contents 1 items). cbn [app]. rewrite last_cons. destruct (last_of (contents 1 items)); [exact H2|]. rewrite ED. exact H2.
  - (* valid until *)
    cbn [sitem_ok item_readable] in *. cbn [List.length] in LN. destruct n as [|n]; [lia|]. cbn [AntexModel.read_satellite]. labels. rewrite (substr_content c _ r 59 (proj1 OK) ltac:(lia)). cbn [bind].
    unfold read_date. destruct (scan_date (substring 0 59 c)) as [d|] eqn:ED; [|now elim RI]. cbn [bind]. rewrite app_nil_r.
    destruct (IH n z g (mkSatellite (sa_type s) (sa_serial s) (sa_from s) (Some d) (sa_frequencies s) (sa_phases s)) more F' R' GI) as (n' & g' & s' & ps & E & H0 & H1 & H2 & H3 & H4); [exact FR|lia|].
    exists n', g', s', ps. split; [exact E|]. split; [exact H0|]. split; [exact H1|]. split; [exact H2|]. split; [|exact H4].
    cbn [contents flat_map]. change (flat_map _ items) with (contents 2 items). cbn [app]. rewrite last_cons. destruct (last_of (contents 2 items)); [exact H3|]. rewrite ED. exact H3.
  - (* frequency *)
    cbn [sitem_ok] in OK. pose proof OK as OK'. destruct OK as (G1 & _). unfold freq_lines in LN |- *. cbn [app List.length] in LN. destruct n as [|n]; [lia|]. cbn [app AntexModel.read_satellite]. labels. cbn [bind].
    assert (RF : freq_readable stod (g_zenith g) f) by (apply (FR z f g); [left; reflexivity|exact GI]).
    destruct (phase_read g f (flat_map sitem_lines items ++ more)%list OK' RF) as (p & EP & RP). unfold freq_lines in EP. cbn [tl] in EP. rewrite EP. cbn [bind].
    destruct (IH n z g (mkSatellite (sa_type s) (sa_serial s) (sa_from s) (sa_until s) (sa_frequencies s) (sa_phases s ++ [p])) more F' R' GI) as (n' & g' & s' & ps & E & H0 & H1 & H2 & H3 & H4 & H5 & HG & H6);
      [intros z' f' g' H; apply FR; right; exact H|rewrite !app_length in LN; rewrite !app_length; lia|].
    exists n', g', s', (p :: ps). split; [exact E|]. split; [exact H0|]. split; [exact H1|]. split; [exact H2|]. split; [exact H3|]. split; [exact H4|].
    split; [cbn [sa_phases] in H5; rewrite H5, <- app_assoc; reflexivity|]. split; [exact HG|]. cbn [frequencies]. constructor; [exists g; split; assumption|exact H6].
  - (* other lines *)
    cbn [sitem_ok] in OK. cbn [List.length] in LN. destruct n as [|n]; [lia|]. cbn [AntexModel.read_satellite]. rewrite !at60_false by (first [discriminate|apply OK; cbn; tauto]). cbn [bind]. rewrite app_nil_r.
    destruct (IH n z g (mkSatellite (sa_type s) (sa_serial s) (sa_from s) (sa_until s) (sa_frequencies s) (sa_phases s)) more F' R' GI) as (n' & g' & s' & ps & E & H); [exact FR|lia|].
    exists n', g', s', ps. split; [exact E|]. exact H.
Qed.
Lemma satellite_read n g ty serial items fin more : Forall sitem_ok items -> good_line (fst fin) "END OF ANTENNA" (snd fin) -> satellite_readable stod scan scan_date items -> grid_is scan None g ->
  List.length (flat_map sitem_lines items ++ (fst fin ++ "END OF ANTENNA" ++ snd fin)%string :: more) <= n ->
  exists s, read_satellite n g (mkSatellite ty serial None None 1 []) (flat_map sitem_lines items ++ (fst fin ++ "END OF ANTENNA" ++ snd fin)%string :: more)%list = Ok (s, more) /\
    satellite_reads stod scan scan_date ty serial items s.
Proof.
  intros F G (R & FR) GI LN. destruct (satellite_items items n None g (mkSatellite ty serial None None 1 []) _ F R GI FR LN) as (n' & g' & s' & ps & -> & H0 & (H1a & H1b) & H2 & H3 & H4 & H5 & _ & H6).
  destruct n' as [|n']; [cbn [List.length] in H0; lia|]. cbn [AntexModel.read_satellite]. labels. exists s'. split; [reflexivity|].
  repeat split; try assumption. cbn [sa_phases app] in H5. rewrite H5. exact H6.
Qed.

End reading.

(** ** satellite numbers *)
Lemma digits_two d e : d < 10 -> e < 10 -> forall b, sat_index b (list_ascii_of_string (digit d ++ digit e ++ "                 ")) = Ok ((Z.of_nat (10 * d + e) + b - 1) mod 2 ^ 64)%Z.
Proof.
  intros H1 H2 b. unfold sat_index.
  assert (E : stoi (list_ascii_of_string (digit d ++ digit e ++ "                 ")) = Ok (Z.of_nat (10 * d + e))).
  { do 10 (destruct d as [|d]; [do 10 (destruct e as [|e]; [vm_compute; reflexivity|]); lia|]). lia. }
  rewrite E. reflexivity.
Qed.
Lemma index_satellite sys d e : In sys (map fst first_index) -> d < 10 -> e < 10 ->
  exists b, List.find (fun x => Ascii.eqb (fst x) sys) first_index = Some (sys, b) /\
    number_to_index (list_ascii_of_string (serial_text sys d e)) = Ok ((b + Z.of_nat (10 * d + e) - 1) mod 2 ^ 64)%Z /\
    ((b + Z.of_nat (10 * d + e) - 1) mod 2 ^ 64 <> 4294967295)%Z.
Proof.
  intros I H1 H2. unfold serial_text. cbn [list_ascii_of_string]. cbn [first_index map fst In] in I.
  assert (NE : forall b, (0 <= b < 200)%Z -> ((b + Z.of_nat (10 * d + e) - 1) mod 2 ^ 64 <> 4294967295)%Z).
  { intros b B. destruct (Z.eq_dec (b + Z.of_nat (10 * d + e)) 0) as [E|E]; [rewrite E; discriminate|]. rewrite Z.mod_small by lia. lia. }
  destruct I as [<-|[<-|[<-|[<-|[<-|[<-|[]]]]]]]; cbn [number_to_index Ascii.eqb Bool.eqb]; rewrite (digits_two d e H1 H2); eexists; (split; [reflexivity|]); (split; [|apply NE; lia]); match goal with |- Ok ((?a + ?b - 1) mod _)%Z = _ => rewrite (Z.add_comm a b); reflexivity end.
Qed.
Lemma index_receiver serial : String.length serial = 20 -> (forall c t, serial = String c t -> ~ In c (map fst first_index)) -> number_to_index (list_ascii_of_string serial) = Ok 4294967295%Z.
Proof.
  intros L N. destruct serial as [|c t]; [discriminate|]. specialize (N c t eq_refl). cbn [list_ascii_of_string number_to_index].
  repeat match goal with |- context [Ascii.eqb c ?x] => destruct (Ascii.eqb_spec c x) as [->|?]; [exfalso; apply N; cbn; tauto|] end. reflexivity.
Qed.
