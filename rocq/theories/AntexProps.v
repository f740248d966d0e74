(** C137: reading ANTEX files; C138: grids. *)
From Coq Require Import Reals Ascii String List Bool Arith ZArith Lra Lia.
From Verif Require Import Base StringModel GnssModel AntexModel AntexSpec AntexProofs AntexRead.
Import ListNotations.
Open Scope nat_scope.
Open Scope string_scope.

Section lemmas.
Context (stod : string -> option R) (scan : string -> list R) (scan_date : string -> option date).
Notation read_lines := (read_lines stod scan scan_date).
Notation read_satellite := (read_satellite stod scan scan_date).
Lemma head_read n m st b ty serial more r rest : head_ok st b ty serial more r -> List.length (head_lines st b ty serial more r ++ rest) <= n ->
  exists n', List.length rest <= n' /\ read_lines n m (head_lines st b ty serial more r ++ rest)%list =
    let! (m', rest') := (let! i := number_to_index (list_ascii_of_string serial) in
      if Z.eqb i 4294967295 then Ok (m, rest)
      else let! g := default_grid in
           let! (s, rest') := read_satellite n' g (mkSatellite ty serial None None 1 []) rest in Ok (store_add i s m, rest')) in read_lines n' m' rest'.
Proof.
  intros (G1 & FB & LT & LS & G2) LN. unfold head_lines in *. cbn [app List.length] in LN. destruct n as [|n]; [lia|]. exists n.
  split; [rewrite !app_length in LN; cbn [List.length] in LN; lia|]. cbn [app AntexModel.read_lines].
  destruct (Nat.ltb_spec (String.length (fst st ++ "START OF ANTENNA" ++ snd st)) 60) as [X|_]; [rewrite len_app, (proj1 G1) in X; lia|]. labels.
  assert (E : forall k, AntexModel.read_antenna stod scan scan_date k m ((b ++ [((ty ++ serial ++ more) ++ "TYPE / SERIAL NO" ++ r)%string]) ++ rest)%list =
    let! i := number_to_index (list_ascii_of_string serial) in
      if Z.eqb i 4294967295 then Ok (m, rest)
      else let! g := default_grid in
           let! (s, rest') := read_satellite k g (mkSatellite ty serial None None 1 []) rest in Ok (store_add i s m, rest')).
  { intros k. rewrite <- app_assoc. clear - FB LT LS G2. induction FB as [|l b N FB IH]; cbn [app AntexModel.read_antenna].
    - labels. rewrite (substr_content _ _ _ 20 (proj1 G2)) by lia. cbn [bind]. rewrite (sub_part ty (serial ++ more) 20) by lia.
      assert (W : substring 0 20 ty = ty) by (assert (H : ty ++ "" = ty) by (clear; induction ty as [|x c IH]; [reflexivity|]; cbn [append]; f_equal; exact IH); rewrite <- H at 1; now apply sub_take).
      rewrite W. rewrite substr_ok by (rewrite !len_app; lia). cbn [bind]. rewrite app_assoc_s, (sub_app ty) by lia. rewrite LT. change (20 - 20) with 0. rewrite app_assoc_s, (sub_take serial) by exact LS. reflexivity.
    - rewrite at60_false by (first [discriminate|exact N]). exact IH. }
  rewrite E. reflexivity.
Qed.
Lemma plain_read n m l rest : ~ labelled "START OF ANTENNA" l -> read_lines (S n) m (l :: rest) = read_lines n m rest.
Proof. intros N. cbn [AntexModel.read_lines]. rewrite (at60_false "START OF ANTENNA") by (first [discriminate|exact N]). destruct (Nat.ltb _ _); [reflexivity|]. destruct (at60 "COMMENT" l); reflexivity. Qed.
Definition reads_entry (a : Z * (string * string * list sitem)) (r : Z * satellite) : Prop :=
  fst a = fst r /\ satellite_reads stod scan scan_date (fst (fst (snd a))) (snd (fst (snd a))) (snd (snd a)) (snd r).
Lemma pieces_read ps : Forall piece_ok ps -> Forall (fun a => satellite_readable stod scan scan_date (snd (snd a))) (satellites ps) ->
  forall n m more, List.length (flat_map piece_lines ps ++ more) <= n ->
  exists n' rs, read_lines n m (flat_map piece_lines ps ++ more)%list = read_lines n' (of_list rs m) more /\ List.length more <= n' /\ Forall2 reads_entry (satellites ps) rs.
Proof.
  induction 1 as [|p ps OK F IH]; intros RD n m more LN.
  { exists n, []. split; [reflexivity|]. split; [exact LN|constructor]. }
  cbn [flat_map] in *. rewrite <- app_assoc in *. destruct p as [l|st b ty serial mo r|st b ty sys d e mo r items fin]; cbn [piece_ok piece_lines] in *.
  - cbn [app List.length] in *. destruct n as [|n]; [lia|]. rewrite plain_read by exact OK. apply IH; [exact RD|lia].
  - destruct OK as (H & NI). destruct (head_read n m st b ty serial mo r (flat_map piece_lines ps ++ more)%list H LN) as (n' & L' & ->).
    destruct H as (_ & _ & _ & LS & _). rewrite (index_receiver serial LS NI). cbn [bind]. rewrite Z.eqb_refl. cbn [bind]. apply IH; [exact RD|exact L'].
  - destruct OK as (I & H1 & H2 & H & FI & GF). rewrite <- !app_assoc in *.
    destruct (head_read n m st b ty (serial_text sys d e) mo r _ H LN) as (n' & L' & ->).
    destruct (index_satellite sys d e I H1 H2) as (bg & EF & -> & NE). cbn [bind]. destruct (Z.eqb_spec ((bg + Z.of_nat (10 * d + e) - 1) mod 2 ^ 64) 4294967295) as [X|_]; [contradiction|].
    destruct (grid_default scan) as (g & -> & GD). cbn [bind]. cbn [satellites flat_map] in RD. rewrite EF in RD. change (flat_map _ ps) with (satellites ps) in RD. cbn [app] in RD. inversion RD as [|? ? R1 R2]; subst. cbn [snd] in R1.
    cbn [app] in L' |- *.
    destruct (satellite_read stod scan scan_date n' g ty (serial_text sys d e) items fin (flat_map piece_lines ps ++ more)%list FI GF R1 GD L') as (s & -> & RS). cbn [bind].
    destruct (IH R2 n' (store_add ((bg + Z.of_nat (10 * d + e) - 1) mod 2 ^ 64)%Z s m) more) as (n2 & rs & E & L2 & F2); [rewrite app_length in L'; cbn [List.length] in L'; lia|].
    exists n2, (((bg + Z.of_nat (10 * d + e) - 1) mod 2 ^ 64, s)%Z :: rs). split; [exact E|]. split; [exact L2|].
    cbn [satellites flat_map]. rewrite EF. change (flat_map _ ps) with (satellites ps). cbn [app]. constructor; [split; [reflexivity|exact RS]|exact F2].
Qed.
Lemma file_prefix ps more : Forall piece_ok ps -> Forall (fun a => satellite_readable stod scan scan_date (snd (snd a))) (satellites ps) ->
  exists n' rs, antex_file stod scan scan_date (Some (flat_map piece_lines ps ++ more)%list) = (let! m := read_lines n' (of_list rs []) more in Ok (true, m)) /\ List.length more <= n' /\ Forall2 reads_entry (satellites ps) rs.
Proof. intros F R. unfold antex_file. destruct (pieces_read ps F R (List.length (flat_map piece_lines ps ++ more)) [] more (Nat.le_refl _)) as (n' & rs & -> & H). exists n', rs. split; [reflexivity|exact H]. Qed.
End lemmas.

(** For every file: the entries found under a satellite index are those of the satellite blocks with that index, in the order of the file,
    each with the data of its lines; the number of satellites is the number of different indices; receivers and other lines have no effect. *)
Theorem C137_file : forall stod scan scan_date ps, Forall piece_ok ps -> Forall (fun a => satellite_readable stod scan scan_date (snd (snd a))) (satellites ps) ->
  exists m rs, antex_file stod scan scan_date (Some (flat_map piece_lines ps)) = Ok (true, m) /\
    Forall2 (fun a r => fst a = fst r /\ satellite_reads stod scan scan_date (fst (fst (snd a))) (snd (fst (snd a))) (snd (snd a)) (snd r)) (satellites ps) rs /\
    (forall i, get_satellite m i = match map snd (filter (fun r => Z.eqb i (fst r)) rs) with [] => Throw | l => Ok l end) /\
    number_of_satellites m = List.length (nodup Z.eq_dec (map fst (satellites ps))).
Proof.
  intros stod scan scan_date ps F R. destruct (file_prefix stod scan scan_date ps [] F R) as (n' & rs & E & _ & F2). rewrite app_nil_r in E.
  assert (X : read_lines stod scan scan_date n' (of_list rs []) [] = Ok (of_list rs [])) by (destruct n'; reflexivity). rewrite X in E. cbn [bind] in E.
  exists (of_list rs []), rs. split; [exact E|]. split; [exact F2|]. split.
  - intros i. rewrite of_list_get. cbn [get_satellite]. destruct (map snd _); reflexivity.
  - rewrite of_list_number. f_equal. f_equal. clear - F2. induction F2 as [|a r l l' (H & _) F IH]; [reflexivity|]. cbn [map]. rewrite H, IH. reflexivity.
Qed.
Print Assumptions C137_file.
(** The phase data of frequency k of an entry is that of its k-th frequency block; past the last block the access is undefined, whatever the
    number of frequencies in the file says.  A file that cannot be opened yields nothing and says so. *)
Theorem C137_access : forall stod scan scan_date ty serial items s k, satellite_reads stod scan scan_date ty serial items s ->
  match nth_error (frequencies None items) k with
  | Some (z, f) => exists p g, get_phase s k = Ok p /\ grid_is scan z g /\ freq_reads stod scan g f p
  | None => get_phase s k = UB
  end.
Proof.
  intros stod scan scan_date ty serial items s k (_ & _ & _ & _ & _ & F). unfold get_phase. revert k. induction F as [|(z & f) p l l' (g & H) F IH]; intros [|k]; cbn [nth_error]; try reflexivity.
  - exists p, g. split; [reflexivity|exact H].
  - apply IH.
Qed.
Theorem C137_unopened : forall stod scan scan_date, antex_file stod scan scan_date None = Ok (false, []).
Proof. reflexivity. Qed.
Print Assumptions C137_access.
Print Assumptions C137_unopened.

(** ** Damaged files *)
Section damaged.
Context (stod : string -> option R) (scan : string -> list R) (scan_date : string -> option date) (ps : list piece).
Context (F : Forall piece_ok ps) (RD : Forall (fun a => satellite_readable stod scan scan_date (snd (snd a))) (satellites ps)).
Lemma in_satellite st b ty sys d e mo r items rest : In sys (map fst first_index) -> d < 10 -> e < 10 -> head_ok st b ty (serial_text sys d e) mo r ->
  Forall sitem_ok items -> satellite_readable stod scan scan_date items ->
  exists n n' g s i m, antex_file stod scan scan_date (Some (flat_map piece_lines ps ++ head_lines st b ty (serial_text sys d e) mo r ++ flat_map sitem_lines items ++ rest)%list) =
    (let! m := (let! (m', rest') := (let! (s, rest') := read_satellite stod scan scan_date n' g s rest in Ok (store_add i s m, rest')) in read_lines stod scan scan_date n m' rest') in Ok (true, m)) /\
    List.length rest <= n' /\ grid_is scan (zenith_after None items) g.
Proof.
  intros I H1 H2 H FI (R1 & R2). destruct (file_prefix stod scan scan_date ps (head_lines st b ty (serial_text sys d e) mo r ++ flat_map sitem_lines items ++ rest)%list F RD) as (n & rs & -> & L & _).
  destruct (head_read stod scan scan_date n (of_list rs []) st b ty _ mo r _ H L) as (n1 & L' & ->).
  destruct (index_satellite sys d e I H1 H2) as (bg & EF & -> & NE). cbn [bind]. destruct (Z.eqb_spec ((bg + Z.of_nat (10 * d + e) - 1) mod 2 ^ 64) 4294967295) as [X|_]; [contradiction|].
  destruct (grid_default scan) as (g & -> & GD). cbn [bind].
  destruct (satellite_items stod scan scan_date items n1 None g (mkSatellite ty (serial_text sys d e) None None 1 []) rest FI R1 GD R2 L') as (n2 & g' & s' & qs & -> & L2 & _ & _ & _ & _ & _ & GG & _).
  exists n1, n2, g', s', ((bg + Z.of_nat (10 * d + e) - 1) mod 2 ^ 64)%Z, (of_list rs []). split; [reflexivity|]. split; [exact L2|exact GG].
Qed.
Lemma phase_hang g off var items : Forall fitem_ok items -> freq_readable stod (g_zenith g) (mkFreq ("", "") items "" "" "" "") -> read_phase stod scan g off var (map fitem_text items) = Hang.
Proof. intros FI R. destruct (phase_items stod scan g items off var [] FI R) as (o' & v' & E & _). rewrite app_nil_r in E. rewrite E. reflexivity. Qed.

(** An antenna without its type line, a satellite without its end and a frequency without its end never let the reader return. *)
Theorem C137_unended : 
  (forall c r b, good_line c "START OF ANTENNA" r -> Forall (fun l => ~ labelled "TYPE / SERIAL NO" l) b ->
     antex_file stod scan scan_date (Some (flat_map piece_lines ps ++ (c ++ "START OF ANTENNA" ++ r)%string :: b)%list) = Hang) /\
  (forall st b ty sys d e mo r items, In sys (map fst first_index) -> d < 10 -> e < 10 -> head_ok st b ty (serial_text sys d e) mo r -> Forall sitem_ok items -> satellite_readable stod scan scan_date items ->
     antex_file stod scan scan_date (Some (flat_map piece_lines ps ++ head_lines st b ty (serial_text sys d e) mo r ++ flat_map sitem_lines items)%list) = Hang /\
     (forall c r' fitems, good_line c "START OF FREQUENCY" r' -> Forall fitem_ok fitems ->
        (forall g, grid_is scan (zenith_after None items) g -> freq_readable stod (g_zenith g) (mkFreq (c, r') fitems "" "" "" "")) ->
        antex_file stod scan scan_date (Some (flat_map piece_lines ps ++ head_lines st b ty (serial_text sys d e) mo r ++ flat_map sitem_lines items ++ (c ++ "START OF FREQUENCY" ++ r')%string :: map fitem_text fitems)%list) = Hang)).
Proof.
  split.
  - intros c r b G NB. destruct (file_prefix stod scan scan_date ps ((c ++ "START OF ANTENNA" ++ r)%string :: b) F RD) as (n & rs & -> & L & _).
    destruct n as [|n]; [cbn [List.length] in L; lia|]. cbn [read_lines].
    destruct (Nat.ltb_spec (String.length (c ++ "START OF ANTENNA" ++ r)) 60) as [X|_]; [rewrite len_app, (proj1 G) in X; lia|]. labels.
    assert (E : forall k m, read_antenna stod scan scan_date k m b = Hang) by (intros k m; clear - NB; induction NB as [|l b N FB IH]; [reflexivity|]; cbn [read_antenna]; rewrite at60_false by (first [discriminate|exact N]); exact IH).
    rewrite E. reflexivity.
  - intros st b ty sys d e mo r items I H1 H2 H FI R. split.
    + destruct (in_satellite st b ty sys d e mo r items [] I H1 H2 H FI R) as (n & n' & g & s & i & m & E & _). rewrite app_nil_r in E. rewrite E. destruct n'; reflexivity.
    + intros c r' fitems G FF FR. destruct (in_satellite st b ty sys d e mo r items ((c ++ "START OF FREQUENCY" ++ r')%string :: map fitem_text fitems)%list I H1 H2 H FI R) as (n & n' & g & s & i & m & E & L & GG). rewrite E.
      destruct n' as [|n']; [cbn [List.length] in L; lia|]. cbn [read_satellite]. labels. cbn [bind]. rewrite (phase_hang g _ _ fitems FF); [reflexivity|]. exact (FR g GG).
Qed.

(** A number of frequencies that is no number, a variation line with too few or unreadable numbers, is an exception; a grid or date line with
    numbers missing is a read of uninitialised variables. *)
Theorem C137_unreadable : forall st b ty sys d e mo r items rest, In sys (map fst first_index) -> d < 10 -> e < 10 -> head_ok st b ty (serial_text sys d e) mo r -> Forall sitem_ok items -> satellite_readable stod scan scan_date items ->
  let file l := antex_file stod scan scan_date (Some (flat_map piece_lines ps ++ head_lines st b ty (serial_text sys d e) mo r ++ flat_map sitem_lines items ++ l ++ rest)%list) in
  (forall c r', good_line c "# OF FREQUENCIES" r' -> stoi (list_ascii_of_string (substring 0 20 c)) = Throw -> file (sitem_lines (Count c r')) = Throw) /\
  (forall c r', good_line c "ZEN1 / ZEN2 / DZEN" r' -> List.length (scan c) <> 3 -> file (sitem_lines (Zenith c r')) = UB) /\
  (forall c r', good_line c "VALID FROM" r' -> scan_date (substring 0 59 c) = None -> file (sitem_lines (From c r')) = UB) /\
  (forall c r', good_line c "VALID UNTIL" r' -> scan_date (substring 0 59 c) = None -> file (sitem_lines (Until c r')) = UB) /\
  (forall c r' fitems cells, good_line c "START OF FREQUENCY" r' -> Forall fitem_ok fitems -> fitem_ok (Variation cells "") -> stod "" = None ->
     (forall g, grid_is scan (zenith_after None items) g -> freq_readable stod (g_zenith g) (mkFreq (c, r') fitems "" "" "" "") /\
        ((Z.of_nat (List.length cells) < g_zenith g)%Z \/ Exists (fun t => stod t = None) (firstn (Z.to_nat (g_zenith g)) cells))) ->
     file (((c ++ "START OF FREQUENCY" ++ r')%string :: map fitem_text fitems) ++ [fitem_text (Variation cells "")])%list = Throw).
Proof.
  intros st b ty sys d e mo r items rest I H1 H2 H FI R file. unfold file. clear file. repeat split.
  - intros c r' G X. cbn [sitem_lines app]. destruct (in_satellite st b ty sys d e mo r items ((c ++ "# OF FREQUENCIES" ++ r')%string :: rest) I H1 H2 H FI R) as (n & n' & g & s & i & m & E & L & GG). rewrite E.
    destruct n' as [|n']; [cbn [List.length] in L; lia|]. cbn [read_satellite]. labels. rewrite (substr_content c _ r' 20 (proj1 G)) by lia. cbn [bind]. unfold to_count. rewrite X. reflexivity.
  - intros c r' G X. cbn [sitem_lines app]. destruct (in_satellite st b ty sys d e mo r items ((c ++ "ZEN1 / ZEN2 / DZEN" ++ r')%string :: rest) I H1 H2 H FI R) as (n & n' & g & s & i & m & E & L & GG). rewrite E.
    destruct n' as [|n']; [cbn [List.length] in L; lia|]. cbn [read_satellite]. labels. rewrite (substr_content c _ r' 60 (proj1 G)) by lia. cbn [bind]. rewrite (sub_whole c (proj1 G)). unfold read_grid. destruct (scan c) as [|? [|? [|? [|? ?]]]]; try reflexivity. now elim X.
  - intros c r' G X. cbn [sitem_lines app]. destruct (in_satellite st b ty sys d e mo r items ((c ++ "VALID FROM" ++ r')%string :: rest) I H1 H2 H FI R) as (n & n' & g & s & i & m & E & L & GG). rewrite E.
    destruct n' as [|n']; [cbn [List.length] in L; lia|]. cbn [read_satellite]. labels. rewrite (substr_content c _ r' 59 (proj1 G)) by lia. cbn [bind]. unfold read_date. rewrite X. reflexivity.
  - intros c r' G X. cbn [sitem_lines app]. destruct (in_satellite st b ty sys d e mo r items ((c ++ "VALID UNTIL" ++ r')%string :: rest) I H1 H2 H FI R) as (n & n' & g & s & i & m & E & L & GG). rewrite E.
    destruct n' as [|n']; [cbn [List.length] in L; lia|]. cbn [read_satellite]. labels. rewrite (substr_content c _ r' 59 (proj1 G)) by lia. cbn [bind]. unfold read_date. rewrite X. reflexivity.
  - intros c r' fitems cells G FF (F8 & N1 & N2) E0 BAD. cbn [app]. rewrite <- app_assoc. cbn [app].
    destruct (in_satellite st b ty sys d e mo r items ((c ++ "START OF FREQUENCY" ++ r')%string :: map fitem_text fitems ++ fitem_text (Variation cells "") :: rest)%list I H1 H2 H FI R) as (n & n' & g & s & i & m & E & L & GG). rewrite E.
    destruct n' as [|n']; [cbn [List.length] in L; lia|]. cbn [read_satellite]. labels. cbn [bind]. destruct (BAD g GG) as (B1 & B2).
    destruct (phase_items stod scan g fitems (0, 0, 0)%R [] (fitem_text (Variation cells "") :: rest) FF B1) as (o' & v' & -> & _). cbn [read_phase].
    rewrite !at60_false by (first [discriminate|assumption]). cbn [fitem_text]. rewrite has_noazi. rewrite (cells_bad stod cells F8 (Z.to_nat (g_zenith g)) 0); [reflexivity|lia|exact E0|].
    destruct B2 as [B2|B2]; [left; lia|right; exact B2].
Qed.

(** That any receiver's serial number is accepted is refuted: one that begins with G, R, E, C, J or I and goes on without a number (as
    serial numbers of receiver antennas may) ends the reading of the whole file with an exception. *)
Theorem C137_receiver_serial_refuted : forall st b ty sys t mo r rest, In sys (map fst first_index) -> head_ok st b ty (String sys t) mo r -> stoi (list_ascii_of_string t) = Throw ->
  antex_file stod scan scan_date (Some (flat_map piece_lines ps ++ head_lines st b ty (String sys t) mo r ++ rest)%list) = Throw.
Proof.
  intros st b ty sys t mo r rest I H X. destruct (file_prefix stod scan scan_date ps (head_lines st b ty (String sys t) mo r ++ rest)%list F RD) as (n & rs & -> & L & _).
  destruct (head_read stod scan scan_date n (of_list rs []) st b ty _ mo r _ H L) as (n1 & L' & ->).
  cbn [first_index map fst In] in I. cbn [list_ascii_of_string number_to_index].
  destruct I as [<-|[<-|[<-|[<-|[<-|[<-|[]]]]]]]; cbn [Ascii.eqb Bool.eqb]; unfold sat_index; rewrite X; reflexivity.
Qed.
(** That comments have no effect is refuted: one inside a frequency that mentions NOAZI is read as a variation line. *)
Theorem C137_comment_refuted : forall st b ty sys d e mo r items rest c r' fitems l, In sys (map fst first_index) -> d < 10 -> e < 10 -> head_ok st b ty (serial_text sys d e) mo r -> Forall sitem_ok items -> satellite_readable stod scan scan_date items ->
  good_line c "START OF FREQUENCY" r' -> Forall fitem_ok fitems ->
  (forall g, grid_is scan (zenith_after None items) g -> freq_readable stod (g_zenith g) (mkFreq (c, r') fitems "" "" "" "") /\ (1 <= g_zenith g)%Z) ->
  labelled "COMMENT" l -> (exists p, substring p 5 l = "NOAZI") -> stod (substring 8 8 l) = None ->
  antex_file stod scan scan_date (Some (flat_map piece_lines ps ++ head_lines st b ty (serial_text sys d e) mo r ++ flat_map sitem_lines items ++ ((c ++ "START OF FREQUENCY" ++ r')%string :: map fitem_text fitems) ++ l :: rest)%list) = Throw.
Proof.
  intros st b ty sys d e mo r items rest c r' fitems l I H1 H2 H FI R G FF GF (C1 & _) (p & NP) X. cbn [app].
  destruct (in_satellite st b ty sys d e mo r items ((c ++ "START OF FREQUENCY" ++ r')%string :: map fitem_text fitems ++ l :: rest)%list I H1 H2 H FI R) as (n & n' & g & s & i & m & E & L & GG). rewrite E.
  destruct n' as [|n']; [cbn [List.length] in L; lia|]. cbn [read_satellite]. labels. cbn [bind]. destruct (GF g GG) as (B1 & B2).
  destruct (phase_items stod scan g fitems (0, 0, 0)%R [] (l :: rest) FF B1) as (o' & v' & -> & _). cbn [read_phase].
  assert (SUB : forall w, substring 60 (String.length w) l = w -> w = "" \/ 60 < String.length l).
  { intros w E1. destruct w as [|x w]; [now left|]. right. clear - E1. cbn [String.length] in E1.
    assert (Q : forall k s, substring k (S (String.length w)) s = String x w -> k < String.length s).
    { induction k as [|k IH]; intros [|y s] Q; cbn in *; try discriminate; [lia|]. apply IH in Q. lia. }
    now apply Q in E1. }
  assert (LL : 60 < String.length l) by (destruct (SUB "COMMENT" C1); [discriminate|assumption]).
  assert (CMT : String.get 60 l = Some "C"%char).
  { pose proof (substring_correct1 l 60 7 0 ltac:(lia)) as Q. change (String.length "COMMENT") with 7 in C1. rewrite C1 in Q. exact (eq_sym Q). }
  assert (OTHER : forall x w, "C"%char <> x -> at60 (String x w) l = false).
  { intros x w NX. apply at60_false; [discriminate|]. intros (A & _). pose proof (substring_correct1 l 60 (String.length (String x w)) 0 ltac:(cbn [String.length]; lia)) as Q. rewrite A in Q. cbn in Q. rewrite CMT in Q. injection Q as Q. now elim NX. }
  rewrite !OTHER by discriminate.
  assert (HN : has "NOAZI" l = true).
  { unfold has. destruct (String.index 0 "NOAZI" l) eqn:EI; [reflexivity|]. elim (index_correct3 0 p "NOAZI" l EI ltac:(discriminate) (Nat.le_0_l _)). exact NP. }
  rewrite HN. destruct (Z.to_nat (g_zenith g)) as [|k] eqn:EK; [lia|]. cbn [read_cells Nat.mul Nat.add]. rewrite substr_ok by lia. cbn [bind]. unfold to_double. rewrite X. reflexivity.
Qed.
End damaged.
Print Assumptions C137_unended.
Print Assumptions C137_unreadable.
Print Assumptions C137_receiver_serial_refuted.
Print Assumptions C137_comment_refuted.

(** ** Grids *)
Open Scope R_scope.
(** The number of zenith points counts the points from the start not beyond the end. *)
Theorem C138_number_of_points : forall zs ze step, (step <= 0 \/ zs <= ze /\ ze - zs < step * IZR (2 ^ 64 - 1)) ->
  exists g, make_grid zs ze step 0 = Ok g /\ grid_points zs ze step (g_zenith g) /\ g_azimuth g = 0%Z /\ g_start g = zs /\ g_end g = ze /\ g_step g = step.
Proof. intros zs ze step H. destruct (make_grid_ok zs ze step H) as (n & E & P). rewrite E. eexists. split; [reflexivity|]. cbn. auto. Qed.
(** If the step divides the range, the index is that of a nearest grid point for every angle, also outside of the range. *)
Theorem C138_closest_zenith : forall zs step k az g z, 0 < step -> (0 <= k < 2 ^ 64 - 1)%Z -> make_grid zs (zs + IZR k * step) step az = Ok g ->
  exists i, closest_zenith g z = Ok i /\ nearest zs step (k + 1) i z /\ g_zenith g = (k + 1)%Z.
Proof.
  intros zs step k az g z P K MG. unfold make_grid in MG. destruct (Rle_dec step 0) as [X|_]; [lra|].
  assert (Q : (zs + IZR k * step - zs) / step = IZR k) by (field; lra). rewrite Q in MG.
  assert (K0 : 0 <= IZR k) by (apply IZR_le; lia). assert (K1 : IZR k < IZR (2 ^ 64)) by (apply IZR_lt; lia).
  rewrite (to_size_nonneg _ K0 K1) in MG. rewrite (int_part_between (IZR k) k) in MG by lra. cbn [bind] in MG. rewrite Z.mod_small in MG by lia.
  match type of MG with (let! na := ?o in _) = _ => destruct o as [na| | |]; cbn [bind] in MG; try discriminate end. injection MG as <-.
  unfold closest_zenith. cbn [g_start g_end g_step g_zenith]. destruct (Rle_dec z zs) as [L|L].
  - exists 0%Z. split; [reflexivity|]. split; [|reflexivity]. split; [lia|]. intros j J. assert (0 <= IZR j * step) by (apply Rmult_le_pos; [apply IZR_le; lia|lra]).
    rewrite !Rabs_left1 by lra. lra.
  - destruct (Rge_dec z (zs + IZR k * step)) as [G|G].
    + exists k. rewrite Z.mod_small by lia. replace (k + 1 - 1)%Z with k by lia. split; [reflexivity|]. split; [|reflexivity]. split; [lia|]. intros j J.
      assert (IZR j * step <= IZR k * step) by (apply Rmult_le_compat_r; [lra|apply IZR_le; lia]). rewrite !Rabs_pos_eq by lra. lra.
    + destruct (rounded_ok (z - zs) step P ltac:(lra)) as (i & E & I0 & I1 & I2).
      { assert ((z - zs) / step < IZR k). { apply Rmult_lt_reg_r with step; [exact P|]. unfold Rdiv. rewrite Rmult_assoc, Rinv_l by lra. lra. }
        assert (IZR k + 1 <= IZR (2 ^ 64)) by (rewrite <- plus_IZR; apply IZR_le; lia). lra. }
      exists i. split; [exact E|]. split; [|reflexivity]. apply half_step_nearest; [exact P| |].
      * split; [exact I0|]. assert (IZR i - 1 / 2 < IZR k) by (apply Rmult_lt_reg_r with step; [exact P|]; lra).
        assert (IZR i < IZR (k + 1)) by (rewrite plus_IZR; lra). now apply lt_IZR.
      * apply Rabs_le. lra.
Qed.
(** If it does not, the index strictly inside the range is that of a point within half a step, but that point may lie past the last one:
    the index is then the number of points (refuted that an index returned is one of the grid). *)
Theorem C138_index_in_range_refuted : forall zs ze step g z, zs <= ze -> 0 < step -> ze - zs < step * IZR (2 ^ 64 - 1) -> make_grid zs ze step 0 = Ok g -> zs < z < ze ->
  exists i, closest_zenith g z = Ok i /\ (0 <= i <= g_zenith g)%Z /\ Rabs (z - (zs + IZR i * step)) <= step / 2 /\
    (i = g_zenith g <-> zs + (IZR (g_zenith g) - 1 / 2) * step <= z).
Proof.
  intros zs ze step g z L P B MG Z. destruct (make_grid_ok zs ze step (or_intror (conj L B))) as (n & E & [(X & _)|(_ & N1 & G1 & G2)]); [lra|]. rewrite E in MG. injection MG as <-.
  unfold closest_zenith. cbn [g_start g_end g_step g_zenith]. destruct (Rle_dec z zs); [lra|]. destruct (Rge_dec z ze); [lra|].
  destruct (rounded_ok (z - zs) step P ltac:(lra)) as (i & -> & I0 & I1 & I2).
  { assert ((z - zs) / step < IZR (2 ^ 64 - 1)). { apply Rmult_lt_reg_r with step; [exact P|]. unfold Rdiv. rewrite Rmult_assoc, Rinv_l by lra. lra. }
    assert (IZR (2 ^ 64 - 1) + 1 <= IZR (2 ^ 64)) by (rewrite <- plus_IZR; apply IZR_le; lia). lra. }
  exists i. split; [reflexivity|].
  assert (IN : (i <= n)%Z). { assert (IZR i - 1 / 2 < IZR n) by (apply Rmult_lt_reg_r with step; [exact P|]; lra). assert (IZR i < IZR (n + 1)) by (rewrite plus_IZR; lra). apply lt_IZR in H0. lia. }
  split; [lia|]. split; [apply Rabs_le; lra|]. split; [intros ->; lra|]. intros H. destruct (Z.eq_dec i n) as [|NE]; [assumption|exfalso].
  assert (IZR i + 1 <= IZR n) by (rewrite <- plus_IZR; apply IZR_le; lia).
  assert ((IZR i + 1 / 2) * step <= (IZR n - 1 / 2) * step) by (apply Rmult_le_compat_r; lra). lra.
Qed.
(** Azimuth: the same with the range from 0 to 360; an azimuth step of zero, which every grid read from a file has, gives zero points, the
    index 2^64 - 1 from 360 degrees on and undefined behaviour strictly between. *)
Theorem C138_closest_azimuth : forall zs ze step az k g a, 0 < az -> (0 <= k < 2 ^ 64 - 1)%Z -> IZR k * az = 360 -> make_grid zs ze step az = Ok g ->
  exists i, closest_azimuth g a = Ok i /\ nearest 0 az (k + 1) i a /\ g_azimuth g = (k + 1)%Z.
Proof.
  intros zs ze step az k g a P K D MG. unfold make_grid in MG.
  match type of MG with (let! nz := ?o in _) = _ => destruct o as [nz| | |]; cbn [bind] in MG; try discriminate end.
  destruct (Rle_dec az 0) as [X|_]; [lra|]. assert (Q : 360 / az = IZR k) by (rewrite <- D; field; lra). rewrite Q in MG.
  assert (K0 : 0 <= IZR k) by (apply IZR_le; lia). assert (K1 : IZR k < IZR (2 ^ 64)) by (apply IZR_lt; lia).
  rewrite (to_size_nonneg _ K0 K1) in MG. rewrite (int_part_between (IZR k) k) in MG by lra. cbn [bind] in MG. rewrite Z.mod_small in MG by lia. injection MG as <-.
  unfold closest_azimuth. cbn [g_azstep g_azimuth]. destruct (Rle_dec a 0) as [L|L].
  - exists 0%Z. split; [reflexivity|]. split; [|reflexivity]. split; [lia|]. intros j J. assert (0 <= IZR j * az) by (apply Rmult_le_pos; [apply IZR_le; lia|lra]). rewrite !Rabs_left1 by lra. lra.
  - destruct (Rge_dec a 360) as [G|G].
    + exists k. rewrite Z.mod_small by lia. replace (k + 1 - 1)%Z with k by lia. split; [reflexivity|]. split; [|reflexivity]. split; [lia|]. intros j J.
      assert (IZR j * az <= IZR k * az) by (apply Rmult_le_compat_r; [lra|apply IZR_le; lia]). rewrite !Rabs_pos_eq by lra. lra.
    + destruct (rounded_ok a az P ltac:(lra)) as (i & E & I0 & I1 & I2).
      { assert (a / az < IZR k). { apply Rmult_lt_reg_r with az; [exact P|]. unfold Rdiv. rewrite Rmult_assoc, Rinv_l by lra. lra. }
        assert (IZR k + 1 <= IZR (2 ^ 64)) by (rewrite <- plus_IZR; apply IZR_le; lia). lra. }
      exists i. split; [exact E|]. split; [|reflexivity]. apply half_step_nearest; [exact P| |].
      * split; [exact I0|]. assert (IZR i - 1 / 2 < IZR k) by (apply Rmult_lt_reg_r with az; [exact P|]; lra). assert (IZR i < IZR (k + 1)) by (rewrite plus_IZR; lra). now apply lt_IZR.
      * apply Rabs_le. lra.
Qed.
Theorem C138_azimuth_of_files_refuted : forall scan z g a, grid_is scan z g -> g_azimuth g = 0%Z /\
  closest_azimuth g a = if Rle_dec a 0 then Ok 0%Z else if Rge_dec a 360 then Ok (2 ^ 64 - 1)%Z else UB.
Proof.
  intros scan z g a (x & y & w & _ & _ & _ & _ & _ & E1 & E2). split; [exact E2|]. unfold closest_azimuth, rounded. rewrite E1, E2.
  destruct (Rle_dec a 0); [reflexivity|]. destruct (Rge_dec a 360); [reflexivity|]. destruct (Req_EM_T 0 0); [reflexivity|congruence].
Qed.
Theorem C138_zero_step : forall zs ze g z, make_grid zs ze 0 0 = Ok g -> zs < z -> closest_zenith g z = if Rge_dec z ze then Ok (2 ^ 64 - 1)%Z else UB.
Proof.
  intros zs ze g z MG L. unfold make_grid in MG. destruct (Rle_dec 0 0) as [_|X]; [|lra]. cbn [bind] in MG. injection MG as <-. unfold closest_zenith, rounded. cbn [g_start g_end g_step g_zenith].
  destruct (Rle_dec z zs); [lra|]. destruct (Rge_dec z ze); [reflexivity|]. destruct (Req_EM_T 0 0); [reflexivity|congruence].
Qed.
Print Assumptions C138_number_of_points.
Print Assumptions C138_closest_zenith.
Print Assumptions C138_index_in_range_refuted.
Print Assumptions C138_closest_azimuth.
Print Assumptions C138_azimuth_of_files_refuted.
Print Assumptions C138_zero_step.
Close Scope R_scope.

(** Cases that meet the hypotheses *)
Definition pad (k : nat) (s : string) : string := s ++ String.concat "" (repeat " " (k - String.length s)).
Lemma good_check c w r : (Nat.eqb (String.length c) 60 && forallb (fun p => negb (String.eqb (substring p (String.length w) (c ++ w ++ r)) w)) (seq 0 60))%bool = true -> good_line c w r.
Proof.
  intros H. apply andb_true_iff in H. destruct H as (A & B). apply Nat.eqb_eq in A. split; [exact A|]. intros p L E. rewrite forallb_forall in B. specialize (B p). rewrite E, String.eqb_refl in B. discriminate B. apply in_seq. lia.
Qed.
Lemma unlabelled_check w l : w <> "" -> at60 w l = false -> ~ labelled w l.
Proof. intros N E X. apply at60_iff in X; [congruence|exact N]. Qed.
Lemma without_check w l : w <> "" -> String.index 0 w l = None -> without w l.
Proof. intros N E p. apply (index_correct3 0 p w l E N (Nat.le_0_l _)). Qed.
Definition ex_freq : freq :=
  mkFreq (pad 60 "   G01", "") [Offset (pad 60 "    279.00      0.00   2319.50") ""; Variation ["   -0.80"; "   -0.90"; "   -0.90"] ""] "   " "G01" (pad 54 "") "".
Definition ex_items : list sitem := [SLine ""; Zenith (pad 60 "     0.0  14.0   7.0") ""; Count (pad 60 "     1") ""; From (pad 60 "  1992    11    22     0     0    0.0000000") ""; Frequency ex_freq].
Definition ex_file : list piece :=
  [Plain (pad 60 "     1.4            M" ++ "ANTEX VERSION / SYST");
   Satellite (pad 60 "", "") [] "BLOCK IIA           " "G"%char 0 1 "G032      1992-079A " "" ex_items (pad 60 "", "");
   Receiver (pad 60 "", "") [] "AERAT1675_120   SPKE" (pad 20 "") (pad 20 "") ""; Plain "   NOAZI    0.00"].
Definition ex_stod (s : string) : option R := if String.eqb s "" then None else Some 1%R.
Definition ex_scan (s : string) : list R := [0; 14; 7]%R.
Definition ex_date (s : string) : option date := Some (1992%Z, 11%Z, 22%Z, 0%Z, 0%Z, 0%R).
Example C137_example_file : Forall piece_ok ex_file.
Proof.
  repeat apply Forall_cons; try apply Forall_nil.
  - apply unlabelled_check; [discriminate|reflexivity].
  - cbn [piece_ok]. split; [left; reflexivity|]. split; [lia|]. split; [lia|]. split.
    { split; [apply good_check; vm_compute; reflexivity|]. split; [constructor|]. split; [reflexivity|]. split; [reflexivity|]. apply good_check. vm_compute. reflexivity. }
    split; [|apply good_check; vm_compute; reflexivity]. unfold ex_items. repeat apply Forall_cons; try apply Forall_nil; cbn [sitem_ok].
    + intros w H. apply unlabelled_check; [|]; repeat (destruct H as [<-|H]; [first [discriminate|reflexivity]|]); contradiction.
    + apply good_check. vm_compute. reflexivity.
    + apply good_check. vm_compute. reflexivity.
    + apply good_check. vm_compute. reflexivity.
    + split; [apply good_check; vm_compute; reflexivity|]. split; [|split; [reflexivity|split; [reflexivity|apply good_check; vm_compute; reflexivity]]].
      repeat apply Forall_cons; try apply Forall_nil; cbn [fitem_ok].
      * split; [apply good_check; vm_compute; reflexivity|]. apply without_check; [discriminate|]. vm_compute. reflexivity.
      * split; [repeat constructor|]. split; (apply unlabelled_check; [discriminate|vm_compute; reflexivity]).
  - cbn [piece_ok]. split.
    { split; [apply good_check; vm_compute; reflexivity|]. split; [constructor|]. split; [reflexivity|]. split; [reflexivity|]. apply good_check. vm_compute. reflexivity. }
    intros c t E. injection E as <- _. cbn. intuition discriminate.
  - apply unlabelled_check; [discriminate|reflexivity].
Qed.
Example C137_example_readable : Forall (fun a => satellite_readable ex_stod ex_scan ex_date (snd (snd a))) (satellites ex_file) /\ map fst (satellites ex_file) = [0%Z].
Proof.
  split; [|reflexivity]. apply Forall_cons; [|apply Forall_nil]. split.
  - repeat apply Forall_cons; try apply Forall_nil; cbn [item_readable]; try exact I; try discriminate.
    + exists 0%R, 14%R, 7%R. split; [reflexivity|]. right. split; [lra|]. rewrite Rminus_0_r, <- mult_IZR. apply IZR_lt. reflexivity.
    + exists 1%Z. vm_compute. reflexivity.
  - cbn. intros z f g [E|[]] (a & b & c & ES & _ & _ & _ & GP & _). injection E as <- <-. injection ES as <- <- <-.
    assert (N : g_zenith g = 3%Z).
    { destruct GP as [(X & _)|(_ & N1 & A & B)]; [lra|]. assert (IZR (g_zenith g - 1) < IZR 3)%R by lra. assert (IZR 2 < IZR (g_zenith g))%R by lra. apply lt_IZR in H, H0. lia. }
    intros cells [<-|[]]. rewrite N. split; [cbn; lia|]. repeat constructor; discriminate.
Qed.
(** a receiver's serial number that is refused *)
Example C137_example_serial : stoi (list_ascii_of_string "R1234567") = Throw /\ String.length (String "C" "R1234567           ") = 20.
Proof. split; [vm_compute; reflexivity|reflexivity]. Qed.
Example C137_example_comment : let l := pad 60 " phase centre variations NOAZI from the IGS" ++ "COMMENT" in labelled "COMMENT" l /\ exists p, substring p 5 l = "NOAZI".
Proof. split; [apply at60_iff; [discriminate|vm_compute; reflexivity]|]. exists 25. vm_compute. reflexivity. Qed.
(** 0 to 90 degrees by 50: two points, but index 2 at 80 degrees *)
Example C138_example_out_of_range : exists g, make_grid 0 90 50 0 = Ok g /\ g_zenith g = 2%Z /\ closest_zenith g 80 = Ok 2%Z.
Proof.
  destruct (make_grid_ok 0 90 50) as (n & E & [(X & _)|(_ & N1 & A & B)]); [right; split; [lra|]; rewrite Rminus_0_r, <- mult_IZR; apply IZR_lt; reflexivity|lra|].
  assert (n = 2)%Z by (assert (IZR (n - 1) < IZR 2)%R by lra; assert (IZR 1 < IZR n)%R by lra; apply lt_IZR in H, H0; lia). subst n.
  eexists. split; [exact E|]. split; [reflexivity|]. destruct (C138_index_in_range_refuted 0 90 50 _ 80 ltac:(lra) ltac:(lra) ltac:(rewrite Rminus_0_r, <- mult_IZR; apply IZR_lt; reflexivity) E ltac:(lra)) as (i & EI & _ & _ & IFF).
  rewrite EI. f_equal. apply IFF. cbn [g_zenith]. lra.
Qed.
