(** The format of two line elements (columns of https://celestrak.org/NORAD/documentation/tle-fmt.php), as pieces of text *)
From Coq Require Import Reals List ZArith Ascii String.
From Verif Require Import StringModel.
Import ListNotations.
Open Scope list_scope.

Definition is_dig (c : ascii) : Prop := (48 <= Z.of_nat (nat_of_ascii c) <= 57)%Z.
Definition all_digits (s : str) : Prop := forall c, In c s -> is_dig c.
(** the number a text of digits stands for *)
Definition digits_to_Z (s : str) : Z := fold_left (fun a c => 10 * a + (Z.of_nat (nat_of_ascii c) - 48))%Z s 0%Z.
Definition all_blank (s : str) : Prop := forall c, In c s -> c = " "%char.
Definition sign_text (s : str) (g : Z) : Prop := (s = [] /\ g = 1%Z) \/ (s = ["+"%char] /\ g = 1%Z) \/ (s = ["-"%char] /\ g = (-1)%Z).
Definition sign_char (c : ascii) (g : Z) : Prop := (c = " "%char /\ g = 1%Z) \/ (c = "+"%char /\ g = 1%Z) \/ (c = "-"%char /\ g = (-1)%Z).
(** sign, digits, point, digits *)
Definition decimal_text (s : str) (x : R) : Prop :=
  exists sg g i f, s = sg ++ i ++ "."%char :: f /\ sign_text sg g /\ all_digits i /\ all_digits f /\ i ++ f <> [] /\
    x = (IZR g * IZR (digits_to_Z (i ++ f)) / 10 ^ List.length f)%R.
(** n columns: blanks, then the number *)
Definition field (n : nat) (s : str) (x : R) : Prop :=
  List.length s = n /\ exists pad t, s = pad ++ t /\ all_blank pad /\ decimal_text t x.
(** five columns with the catalogue number *)
Definition catalogue (s : str) : Prop := List.length s = 5%nat /\ exists pad t, s = pad ++ t /\ all_blank pad /\ all_digits t /\ t <> [].
(** a designator: any characters that are no white space other than blanks *)
Definition no_control (c : ascii) : Prop := ~ (9 <= Z.of_nat (nat_of_ascii c) <= 13)%Z.
(** five digits with an implied point before them and the exponent after them: +12345-4 is 0.12345e-4 *)
Definition blank_as_zero (c : ascii) : ascii := if Ascii.eqb c " " then "0"%char else c.

(** Line 1 of numbers: year, day, first and second derivative of the mean motion (mantissa and exponent), drag term likewise *)
Definition line1_means (line : str) (yr : Z) (days nd ndd : R) (nexp : Z) (bs : R) (ibexp : Z) : Prop :=
  exists cat cls desig y d fd s1 m1 e1 x1 s2 m2 e2 x2 g1 h1 g2 h2 rest,
    line = lit "1 " ++ cat ++ [cls] ++ lit " " ++ desig ++ lit " " ++ y ++ d ++ lit " " ++ fd ++ lit " " ++ [s1] ++ m1 ++ [e1; x1] ++ lit " " ++
           [s2] ++ m2 ++ [e2; x2] ++ rest /\
    catalogue cat /\ no_control cls /\ ~ is_dig cls /\ List.length desig = 8%nat /\ (forall c, In c desig -> no_control c) /\
    (List.length y = 2%nat /\ all_digits y /\ yr = digits_to_Z y) /\ field 12 d days /\ field 10 fd nd /\
    sign_char s1 g1 /\ List.length m1 = 5%nat /\ all_digits (map blank_as_zero m1) /\ ndd = (IZR g1 * IZR (digits_to_Z (map blank_as_zero m1)) / 10 ^ 5)%R /\
    sign_char e1 h1 /\ is_dig (blank_as_zero x1) /\ nexp = (h1 * digits_to_Z [blank_as_zero x1])%Z /\
    sign_char s2 g2 /\ List.length m2 = 5%nat /\ all_digits m2 /\ bs = (IZR g2 * IZR (digits_to_Z m2) / 10 ^ 5)%R /\
    sign_char e2 h2 /\ is_dig x2 /\ ibexp = (h2 * digits_to_Z [x2])%Z /\
    (forall c t, rest = c :: t -> ~ is_dig c) /\ (List.length line < 80)%nat.

(** Line 2: inclination, node, eccentricity with implied point, perigee, mean anomaly in degrees, revolutions per day.
    The mean motion fills its eleven columns but for one blank, or is followed by a blank *)
Definition line2_means (line : str) (incl node ecc argp m n : R) : Prop :=
  exists cat fi fn fe fp fm fr rest,
    line = lit "2 " ++ cat ++ lit " " ++ fi ++ lit " " ++ fn ++ lit " " ++ fe ++ lit " " ++ fp ++ lit " " ++ fm ++ lit " " ++ fr ++ rest /\
    catalogue cat /\ field 8 fi incl /\ field 8 fn node /\
    (List.length fe = 7%nat /\ all_digits (map blank_as_zero fe) /\ ecc = (IZR (digits_to_Z (map blank_as_zero fe)) / 10 ^ 7)%R) /\
    field 8 fp argp /\ field 8 fm m /\ field 11 fr n /\
    ((exists c t, fr = c :: t /\ (forall d u, t = d :: u -> d <> " "%char)) \/ (forall c t, rest = c :: t -> ~ is_dig c)) /\ (List.length line < 80)%nat.
