(** C83: sunlight and eclipses. *)
From Coq Require Import Reals Lra Lia List Bool Arith String.
From Coquelicot Require Import Coquelicot.
From Verif Require Import Base RBase VecModel VecProofs ShadowModel ShadowSpec NodeProofs ShadowProofs.
Import ListNotations.
Open Scope R_scope.

Lemma visible_exists a b c : 0 < a -> 0 < b -> 0 <= c -> exists f, visible_part a b c f /\ 0 <= f <= 1.
Proof.
  intros A B C. assert (E : exists v, is_RInt (shared_chord a b c) (- a) a v).
  { destruct (Rle_dec (a + b) c) as [H|H]; [exists 0; now apply apart|]. destruct (Rle_dec (a + c) b); [eexists; now apply inside|]. destruct (Rle_dec (b + c) a); [eexists; now apply around|].
    eexists. apply crossing; try assumption; [|unfold Rabs; destruct (Rcase_abs (a - b)); lra|lra]. lra. }
  destruct E as [v V]. exists (1 - v / (PI * (a * a))). split; [now exists v|]. destruct (overlap_range a b c v A B V) as [V0 V1]. pose proof PI_RGT_0 as PP. assert (P : 0 < PI * (a * a)) by (apply Rmult_lt_0_compat; [lra|nra]).
  assert (0 <= v / (PI * (a * a)) <= 1); [|lra]. split; [apply Rmult_le_pos; [lra|apply Rlt_le; now apply Rinv_0_lt_compat]|]. apply (Rmult_le_reg_r (PI * (a * a))); [exact P|]. unfold Rdiv. rewrite Rmult_assoc, Rinv_l by lra. lra.
Qed.
(** one source: the coefficient is multiplied by the part of the Sun's disc that stays visible, or replaced by it if the
    source lies wholly in front of the Sun's disc *)
Theorem C83_one_source : forall a b c, 0 < a -> 0 < b -> 0 <= c -> (c = 0 -> a <> b) ->
  exists f, visible_part a b c f /\ 0 <= f <= 1 /\
  forall k, shadow_step a b c (Some k) = Ok (Some (if rlt c (a - b) then f else k * f)).
Proof.
  intros a b c A B C NE. destruct (visible_exists a b c A B C) as (f & V & F). exists f. split; [exact V|]. split; [exact F|]. intro k.
  destruct V as (v & V & FE). pose proof PI_RGT_0 as PP. unfold shadow_step, times.
  destruct (rlt_spec c (Rabs (a - b))) as [L|L]; cbn [andb].
  - destruct (rle_spec a b) as [AB|AB].
    + rewrite Rabs_left1 in L by lra. assert (v = PI * (a * a)) as -> by (apply (overlap_unique _ _ _ _ _ V); apply inside; lra). rewrite rlt_false by lra. do 2 f_equal. rewrite FE. field. split; lra.
    + rewrite Rabs_right in L by lra. rewrite (rlt_true b a) by lra. cbn [andb]. rewrite rlt_true by lra. assert (v = PI * (b * b)) as VE by (apply (overlap_unique _ _ _ _ _ V); apply around; lra). rewrite FE, VE. do 2 f_equal. field. split; lra.
  - apply Rnot_lt_le in L. rewrite (rle_true (Rabs (a - b)) c) by exact L. assert (AB : a - b <= c /\ b - a <= c) by (revert L; unfold Rabs; destruct (Rcase_abs (a - b)); lra). rewrite (rlt_false c (a - b)) by lra. cbn [andb].
    destruct (rle_spec c (a + b)) as [M|M].
    + destruct (req_spec c 0) as [Z|NZ]; [exfalso; apply NE; lra|]. assert (VE : v = lens_area a b c) by (apply (overlap_unique _ _ _ _ _ V); apply crossing; lra). rewrite FE, VE. do 3 f_equal. field. split; lra.
    + rewrite rlt_false by lra. assert (v = 0) as VE by (apply (overlap_unique _ _ _ _ _ V); apply apart; lra). rewrite FE, VE. do 2 f_equal. field. split; lra.
Qed.
(** a source of exactly the size of the Sun and exactly in front of it gives not-a-number instead of darkness *)
Theorem C83_exact_cover_is_nan : forall a co, 0 < a -> shadow_step a a 0 co = Ok None.
Proof.
  intros a co A. unfold shadow_step. replace (a - a) with 0 by ring. rewrite Rabs_R0. rewrite rlt_false by lra. cbn [andb]. rewrite rle_true by lra. rewrite rle_true by lra. cbn [andb]. now rewrite req_true.
Qed.

Lemma size_pos s n : outside s n -> 0 < source_size s n.
Proof.
  intros [R0 R1]. unfold source_size, apparent_radius. rewrite <- asin_0. apply asin_increasing; [lra|apply Rdiv_lt_0_compat; lra|]. left. apply (Rmult_lt_reg_r (norm 3 (to_body s n))); [lra|]. unfold Rdiv. rewrite Rmult_assoc, Rinv_l by lra. lra.
Qed.
Lemma forall2_length {A B} (P : A -> B -> Prop) l m : List.Forall2 P l m -> List.length l = List.length m.
Proof. induction 1; cbn; congruence. Qed.
Lemma one_body s n k : outside s "SUN" -> source_ok s n -> exists f, leaves s n f /\ 0 <= f <= 1 /\
  ((~ annular s n /\ calc_shadow s n (Some k) = Ok (Some (k * f))) \/ (annular s n /\ calc_shadow s n (Some k) = Ok (Some f))).
Proof.
  intros SO OK. unfold leaves, calc_shadow, annular. destruct (String.eqb_spec n "SUN") as [E|NE].
  - exists 1. split; [reflexivity|]. split; [lra|]. left. split; [tauto|reflexivity].
  - destruct OK as [OK|[OU OK]]; [contradiction|]. destruct (C83_one_source (sun_size s) (source_size s n) (separation s n) (size_pos s "SUN" SO) (size_pos s n OU) (proj1 (acos_bound _)) OK) as (f & V & F & ST).
    exists f. split; [exact V|]. split; [exact F|]. change (shadow_step _ _ _ (Some k)) with (shadow_step (sun_size s) (source_size s n) (separation s n) (Some k)). rewrite ST. destruct (rlt_spec (separation s n) (sun_size s - source_size s n)) as [L|L]; [right|left]; tauto.
Qed.
(** any number of sources: the coefficient is a number between 0 and 1, the product of the visible parts if no source lies
    wholly in front of the Sun's disc, and otherwise the product over the last such source and those after it *)
Theorem C83_any_sources : forall s sources, outside s "SUN" -> (forall n, In n sources -> source_ok s n) ->
  exists k fs, all_shadows s sources = Ok (Some k) /\ 0 <= k <= 1 /\ List.Forall2 (leaves s) sources fs /\
  List.Forall (fun f => 0 <= f <= 1) fs /\
  ((forall n, In n sources -> ~ annular s n) -> k = product fs) /\
  (exists pre post fpre fpost, sources = pre ++ post /\ fs = fpre ++ fpost /\ List.length pre = List.length fpre /\ k = product fpost /\
     (pre = [] \/ exists n rest, post = n :: rest /\ annular s n /\ forall m, In m rest -> ~ annular s m)).
Proof.
  intros s sources SO. induction sources as [|n sources IH] using rev_ind; intro OK.
  - exists 1, []. split; [reflexivity|]. split; [lra|]. split; [constructor|]. split; [constructor|]. split; [reflexivity|]. exists [], [], [], []. repeat split. now left.
  - destruct (IH ltac:(intros m M; apply OK, in_or_app; now left)) as (k & fs & R & K & F2 & FR & P & SP). unfold all_shadows in *. rewrite fold_left_app, R. cbn [fold_left bind].
    destruct (one_body s n k SO) as (f & L & F & ST). { apply OK, in_or_app. right. now left. }
    assert (PA : forall l, product (l ++ [f]) = product l * f). { intro l. unfold product. induction l as [|x l IHl]; cbn [app fold_right]; [ring|]. rewrite IHl. ring. }
    assert (FA : List.Forall (fun f => 0 <= f <= 1) (fs ++ [f])) by (apply Forall_app; split; [exact FR|now constructor]).
    assert (F2A : List.Forall2 (leaves s) (sources ++ [n]) (fs ++ [f])) by (apply Forall2_app; [exact F2|now repeat constructor]).
    destruct ST as [[NA ST]|[AN ST]].
    + exists (k * f), (fs ++ [f]). split; [exact ST|]. split; [split; [apply Rmult_le_pos; tauto|nra]|]. split; [exact F2A|]. split; [exact FA|]. split.
      * intro H. rewrite PA. rewrite <- P; [reflexivity|]. intros m M. apply H, in_or_app. now left.
      * destruct SP as (pre & post & fpre & fpost & E1 & E2 & E3 & E4 & E5). exists pre, (post ++ [n]), fpre, (fpost ++ [f]). rewrite E1, E2, !app_assoc. repeat split; [exact E3|now rewrite PA, E4|].
        destruct E5 as [E5|(m & rest & E5 & E6 & E7)]; [now left|]. right. exists m, (rest ++ [n]). rewrite E5. split; [reflexivity|]. split; [exact E6|]. intros m' M. apply in_app_or in M. destruct M as [M|[<-|[]]]; [now apply E7|exact NA].
    + exists f, (fs ++ [f]). split; [exact ST|]. split; [exact F|]. split; [exact F2A|]. split; [exact FA|]. split.
      * intro H. exfalso. apply (H n); [apply in_or_app; right; now left|exact AN].
      * exists sources, [n], fs, [f]. repeat split; [exact (forall2_length _ _ _ F2)|unfold product; cbn; ring|]. right. exists n, []. repeat split; [apply AN|apply AN|]. intros m [].
Qed.
Print Assumptions C83_one_source.
Print Assumptions C83_exact_cover_is_nan.
Print Assumptions C83_any_sources.

(** adding a source can brighten: a transit in front of the Sun undoes a total eclipse *)
Theorem C83_never_brighter_refuted :
  ~ (forall a b c b' c' k k' k'', 0 < a -> 0 < b -> 0 < b' -> 0 < c -> 0 < c' -> 0 <= k <= 1 ->
       shadow_step a b c (Some k) = Ok (Some k') -> shadow_step a b' c' (Some k') = Ok (Some k'') -> k'' <= k').
Proof.
  intro H. specialize (H 1 3 1 (1 / 2) (1 / 4) 1 0 (3 / 4)). assert (3 / 4 <= 0); [|lra]. apply H; try lra.
  - unfold shadow_step. rewrite Rabs_left by lra. rewrite rlt_true by lra. rewrite rle_true by lra. cbn. do 2 f_equal. ring.
  - unfold shadow_step. rewrite Rabs_right by lra. rewrite rlt_true by lra. rewrite rle_false by lra. cbn [andb]. rewrite rlt_true by lra. do 2 f_equal. field.
Qed.
(** the configured sources: only the first one counts *)
Theorem C83_sources : forall center names n, In n (shadow_sources center names) <-> n = center \/ hd_error names = Some n.
Proof.
  intros center [|m l] n; unfold shadow_sources; cbn [hd_error map In]; [intuition congruence|]. rewrite in_map_iff. split.
  - intros [E|[E|[x [E _]]]]; [left; congruence|right; congruence|right; congruence]. - intros [E|E]; [left; congruence|right; left; congruence].
Qed.
Theorem C83_every_configured_source_refuted : ~ (forall center names n, In n names -> In n (shadow_sources center names)).
Proof.
  intro H. specialize (H "EARTH"%string ["MOON"; "VENUS"]%string "VENUS"%string (or_intror (or_introl eq_refl))). apply C83_sources in H. destruct H as [H|H]; discriminate.
Qed.
(** the pressure falls with the square of the distance and is the solar constant over the speed of light at 1 au; the power
    density is the pressure times the speed of light; eclipsed means that something of the Sun is covered *)
Theorem C83_pressure : forall d k, 0 < norm 3 d -> 0 <= k ->
  0 < srp_pressure d /\ srp_pressure d * (norm 3 d * norm 3 d) = solar_constant / speed_of_light * (astronomical_unit * astronomical_unit) /\
  power_density (srp_pressure d) k = pressure_now (srp_pressure d) k * speed_of_light /\ 0 <= pressure_now (srp_pressure d) k /\
  (is_eclipsed k = true <-> k < 1).
Proof.
  intros d k D K. unfold srp_pressure. set (r := norm 3 d) in *. assert (P : 0 < r / astronomical_unit) by (apply Rdiv_lt_0_compat; [exact D|unfold astronomical_unit; lra]).
  assert (Q : 0 < solar_constant / speed_of_light) by (unfold solar_constant, speed_of_light; lra). assert (SP : 0 < solar_constant / speed_of_light / (r / astronomical_unit * (r / astronomical_unit))) by (apply Rdiv_lt_0_compat; [exact Q|now apply Rmult_lt_0_compat]).
  split; [exact SP|]. split; [unfold speed_of_light, astronomical_unit; field; lra|]. split; [unfold power_density, pressure_now; ring|]. split; [unfold pressure_now; apply Rmult_le_pos; lra|].
  unfold is_eclipsed. destruct (rle_spec 1 k); cbn; split; intros; try discriminate; lra.
Qed.
Print Assumptions C83_never_brighter_refuted.
Print Assumptions C83_sources.
Print Assumptions C83_every_configured_source_refuted.
Print Assumptions C83_pressure.

(** ** Non-trivial cases: an Earth-like source half across the Sun *)
Example ex83 : exists f, visible_part 1 1 1 f /\ 0 < f < 1.
Proof.
  destruct (C83_one_source 1 1 1 ltac:(lra) ltac:(lra) ltac:(lra) ltac:(lra)) as (f & V & _ & _). exists f. split; [exact V|]. destruct V as (v & V & FE).
  assert (VE : v = lens_area 1 1 1) by (apply (overlap_unique _ _ _ _ _ V); apply crossing; try lra; unfold Rabs; destruct (Rcase_abs (1 - 1)); lra).
  assert (X : chord_x 1 1 1 = 1 / 2) by (unfold chord_x; field). assert (LE : lens_area 1 1 1 = 2 * (PI / 3) - sqrt (3 / 4)).
  { unfold lens_area, chord_y. rewrite X. replace ((1 - 1 / 2) / 1) with (1 / 2) by field. replace (1 / 2 / 1) with (1 / 2) by field. rewrite Rmax_left by lra. replace (1 * 1 - 1 / 2 * (1 / 2)) with (3 / 4) by field.
    replace (acos (1 / 2)) with (PI / 3). 2:{ pose proof PI_RGT_0. rewrite <- cos_PI3. rewrite acos_cos by lra. reflexivity. } ring. }
  rewrite FE, VE, LE. pose proof PI_RGT_0 as PP. pose proof PI2_1 as P2. assert (S1 : sqrt (3 / 4) < 1). { apply (Rlt_le_trans _ (sqrt 1)); [apply sqrt_lt_1; lra|rewrite sqrt_1; lra]. } assert (S0 : 0 < sqrt (3 / 4)) by (apply sqrt_lt_R0; lra).
  set (q := sqrt (3 / 4)) in *. replace (PI * (1 * 1)) with PI by ring. replace (1 - (2 * (PI / 3) - q) / PI) with (1 / 3 + q / PI) by (field; lra).
  assert (0 < q / PI) by (apply Rdiv_lt_0_compat; lra). assert (q / PI < 1 / 2); [|lra]. apply (Rmult_lt_reg_r PI); [lra|]. unfold Rdiv. rewrite Rmult_assoc, Rinv_l by lra. lra.
Qed.
