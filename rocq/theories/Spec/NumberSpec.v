(** Vocabulary of C115: every notation of a number that strconv.ParseFloat
    knows. *)
From Coq Require Import ZArith NArith Reals List String Ascii.
Import ListNotations.
From Flocq Require Import Core BinarySingleNaN.
From Verif Require Import Go.Float64 Model.Candle Spec.FileSpec Spec.DecimalSpec Spec.JsonReadSpec.
Open Scope string_scope.
Open Scope list_scope.
Open Scope Z_scope.

(** Hexadecimal digits and the whole numbers they write. *)
Inductive hex_digit : ascii -> Z -> Prop :=
| hex_decimal c : 48 <= byte c <= 57 -> hex_digit c (byte c - 48)
| hex_small c : 97 <= byte c <= 102 -> hex_digit c (byte c - 87)
| hex_capital c : 65 <= byte c <= 70 -> hex_digit c (byte c - 55).
Inductive hex_digits : string -> Z -> Prop :=
| hex_none : hex_digits "" 0
| hex_more s n c v : hex_digits s n -> hex_digit c v -> hex_digits (s ++ String c "")%string (16 * n + v).
Inductive hex_fraction : string -> Z -> Z -> Prop :=
| hex_fraction_none : hex_fraction "" 0 0
| hex_fraction_some d m : hex_digits d m -> hex_fraction (String "." d) m (Z.of_nat (String.length d)).
(** The power of two, in decimal digits; it must be there. *)
Inductive power_of_two : string -> Z -> Prop :=
| power_intro c sg neg d e : c = "p"%char \/ c = "P"%char -> sign sg neg -> digits d e -> d <> "" ->
    power_of_two (String c (sg ++ d)%string) (signed_Z neg e).
(** A hexadecimal number after its sign and "0x". *)
Definition hex_body (s : string) (r : R) : Prop :=
  exists ip n fr m k ex e,
    s = (ip ++ fr ++ ex)%string /\ hex_digits ip n /\ hex_fraction fr m k /\ power_of_two ex e /\ (ip <> "" \/ 0 < k) /\
    r = ((IZR n + IZR m / powerRZ 16 k) * powerRZ 2 e)%R.
Definition small_or_capital_x (x : ascii) : Prop := x = "x"%char \/ x = "X"%char.

(** The text without underscores. *)
Fixpoint bare (s : string) : string :=
  match s with
  | "" => ""
  | String c r => if Ascii.eqb c "_" then bare r else String c (bare r)
  end.
(** Every underscore stands between two digits ([front]: or in front of the
    first one). *)
Definition separated (digit : ascii -> Prop) (front : Prop) (s : string) : Prop :=
  forall a b, s = (a ++ String "_" b)%string ->
    ((a = "" /\ front) \/ exists a' c, a = (a' ++ String c "")%string /\ digit c) /\
    exists c b', b = String c b' /\ digit c.
Definition decimal_digit (c : ascii) : Prop := 48 <= byte c <= 57.
Definition hexadecimal_digit (c : ascii) : Prop := exists v, hex_digit c v.

Definition decimal_number (t : string) (neg : bool) (r : R) : Prop :=
  separated decimal_digit False t /\ decimal (bare t) neg r.
Definition hexadecimal_number (t : string) (neg : bool) (r : R) : Prop :=
  exists sg x h r', t = (sg ++ "0" ++ String x h)%string /\ sign sg neg /\ small_or_capital_x x /\
    separated hexadecimal_digit True h /\ hex_body (bare h) r' /\ r = signed_R neg r'.
Definition number (t : string) (neg : bool) (r : R) : Prop := decimal_number t neg r \/ hexadecimal_number t neg r.

(** The names of the special values; capital and small letters are the same. *)
Inductive special : string -> f64 -> Prop :=
| special_nan s : in_lower_case s = "nan" -> special s B754_nan
| special_inf sg s neg : sign sg neg -> In (in_lower_case s) ["inf"; "infinity"] -> special (sg ++ s)%string (B754_infinity neg).

(** Fewer than 2200 bytes. *)
Definition brief (t : string) : Prop := Z.of_nat (String.length t) < 2200.

(** The word [w] is read as the machine number [x]. *)
Definition means (w : string) (x : f64) : Prop :=
  special w x \/ exists neg r, number w neg r /\ in_range r /\ is_nearest x neg r.
(** A whole number of 32 bits. *)
Definition whole32 (w : string) (z : Z) : Prop := integer w z /\ - 2 ^ 31 <= z < 2 ^ 31.
(** Word [i] of a line: a time, then numbers. *)
Definition readable (i : nat) (w : string) : Prop :=
  match i with O => exists z, whole32 w z | _ => exists x, means w x end.
(** The line between its first and its last byte. *)
Definition framed (t : string) (ws : list string) : Prop :=
  exists a b, t = String a (joined ws ++ String b "")%string /\ Forall (without " ") ws.
Definition line_means (t : string) (c : candle f64) : Prop :=
  exists w0 w1 w2 w3 w4 w5 more, framed t ([w0; w1; w2; w3; w4; w5] ++ more) /\
    whole32 w0 (c_time c) /\ means w1 (c_open c) /\ means w2 (c_high c) /\ means w3 (c_low c) /\ means w4 (c_close c) /\ means w5 (c_volume c).
(** Word [i] is the first one that cannot be read. *)
Definition line_bad (t : string) : Prop :=
  exists ws i w, framed t ws /\ (i < 6)%nat /\ nth_error ws i = Some w /\ ~ readable i w /\
    forall j u, (j < i)%nat -> nth_error ws j = Some u -> readable j u.
(** Fewer than two bytes, or fewer than six words, all readable. *)
Definition line_short (t : string) : Prop :=
  (String.length t < 2)%nat \/
  exists ws, framed t ws /\ (0 < List.length ws < 6)%nat /\ forall j u, nth_error ws j = Some u -> readable j u.
(** A carriage return at the end of a line does not count. *)
Definition shorn (l t : string) : Prop := l = (t ++ String "013" "")%string \/ (l = t /\ forall t', l <> (t' ++ String "013" "")%string).
