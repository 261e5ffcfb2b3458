(** Vocabulary of the properties of numbers in texts (C91): decimal notation,
    and the machine number nearest to a real number. *)
From Coq Require Import ZArith NArith Reals List String Ascii.
Import ListNotations.
From Flocq Require Import Core BinarySingleNaN.
From Verif Require Import Go.Float64 Model.Candle Spec.FileSpec.
Open Scope string_scope.
Open Scope list_scope.
Open Scope Z_scope.

Definition byte (c : ascii) : Z := Z.of_N (N_of_ascii c).

(** A row of decimal digits and the whole number it writes (none for 0 of them). *)
Inductive digits : string -> Z -> Prop :=
| digits_none : digits "" 0
| digits_more s n c : digits s n -> 48 <= byte c <= 57 -> digits (s ++ String c "")%string (10 * n + (byte c - 48)).

(** An optional sign: is it a minus? *)
Inductive sign : string -> bool -> Prop :=
| sign_none : sign "" false
| sign_plus : sign "+" false
| sign_minus : sign "-" true.

Definition signed_Z (neg : bool) (z : Z) : Z := if neg then - z else z.
Definition signed_R (neg : bool) (r : R) : R := if neg then (- r)%R else r.

(** An optional fraction: the number its [k] digits write. *)
Inductive fraction : string -> Z -> Z -> Prop :=
| fraction_none : fraction "" 0 0
| fraction_some d m : digits d m -> fraction (String "." d) m (Z.of_nat (String.length d)).

(** An optional exponent. *)
Inductive exponent : string -> Z -> Prop :=
| exponent_none : exponent "" 0
| exponent_some c sg neg d e : c = "e"%char \/ c = "E"%char -> sign sg neg -> digits d e -> d <> "" ->
    exponent (String c (sg ++ d)%string) (signed_Z neg e).

(** The text [t] is a decimal number with the exact value [r]; [neg]: it has a
    minus sign (which matters for zero). *)
Definition decimal (t : string) (neg : bool) (r : R) : Prop :=
  exists sg ip n fr m k ex e,
    t = (sg ++ ip ++ fr ++ ex)%string /\ sign sg neg /\ digits ip n /\ fraction fr m k /\ exponent ex e /\
    (ip <> "" \/ 0 < k) /\
    r = signed_R neg ((IZR n + IZR m / powerRZ 10 k) * powerRZ 10 e)%R.

(** The text [t] is a whole number with the value [z]. *)
Definition integer (t : string) (z : Z) : Prop :=
  exists sg neg d n, t = (sg ++ d)%string /\ sign sg neg /\ digits d n /\ d <> "" /\ z = signed_Z neg n.

(** Rounding to 53 binary digits, at most 1074 of them after the point; of two
    equally near numbers the one with even last digit. *)
Definition nearest (r : R) : R := round radix2 (FLT_exp (-1074) 53) ZnearestE r.

(** The machine number for [r]: rounded, with the sign of the text. *)
Definition is_nearest (x : f64) (neg : bool) (r : R) : Prop :=
  is_finite x = true /\ Bsign x = neg /\ B2R x = nearest r.

(** Rounding stays within the finite machine numbers. *)
Definition in_range (r : R) : Prop := (Rabs (nearest r) < powerRZ 2 1024)%R.

(** Fewer than 9000 bytes. *)
Definition short (t : string) : Prop := Z.of_nat (String.length t) < 9000.

(** The word [w] writes a number in range, given by minus sign and value. *)
Definition written (w : string) (p : bool * R) : Prop := decimal w (fst p) (snd p) /\ short w /\ in_range (snd p).
(** A line of a candle file: in braces a whole number and five decimals. *)
Definition candle_text (l : string) (time : Z) (ps : list (bool * R)) : Prop :=
  exists w ws, l = String "{" (joined (w :: ws) ++ "}")%string /\ integer w time /\ Forall2 written ws ps /\ List.length ps = 5%nat.
(** The candle with that time and the nearest numbers. *)
Definition nearest_candle (c : candle f64) (time : Z) (ps : list (bool * R)) : Prop :=
  c_time c = time /\
  Forall2 (fun x p => is_nearest x (fst p) (snd p)) [c_open c; c_high c; c_low c; c_close c; c_volume c] ps.
