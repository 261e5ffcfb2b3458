(** Vocabulary of the printing properties (C67, C69-C71). *)
From Coq Require Import Reals.
From Flocq Require Import Core BinarySingleNaN.
From Verif Require Import Go.Outcome Go.Float64 Go.Text Model.OrderBook Spec.FileSpec.
Open Scope string_scope.
Open Scope list_scope.
Open Scope Z_scope.

(** The number written by decimal digits. *)
Fixpoint read_digits (acc : Z) (s : string) : option Z :=
  match s with
  | EmptyString => Some acc
  | String c r =>
      let d := Z.of_N (N_of_ascii c) - 48 in
      if (0 <=? d) && (d <=? 9) then read_digits (10 * acc + d) r else None
  end.

(** At least one digit, no needless leading zero. *)
Definition no_lead (s : string) : Prop := s = "0" \/ (s <> "" /\ forall r, s <> String "0" r).

(** [s] is the decimal text of the integer [z]. *)
Definition int_text (z : Z) (s : string) : Prop :=
  exists ds, s = ((if (z <? 0)%Z then "-" else "") ++ ds)%string /\ no_lead ds /\ read_digits 0 ds = Some (Z.abs z).

(** [s] is the text of [x] with [k] decimals: sign, integer part, point, [k]
    digits, within half a unit of the last digit of [x]; of two texts equally
    near the one whose last digit is even. *)
Definition decimal_text (k : nat) (x : f64) (s : string) : Prop :=
  match x with
  | B754_nan => s = "NaN"
  | B754_infinity false => s = "+Inf"
  | B754_infinity true => s = "-Inf"
  | _ => exists ip fp n,
      s = ((if Bsign x then "-" else "") ++ ip ++ "." ++ fp)%string /\
      String.length fp = k /\ no_lead ip /\ read_digits 0 (ip ++ fp) = Some n /\
      (Rabs (IZR n / IZR (10 ^ Z.of_nat k) - Rabs (B2R x)) <= / 2 / IZR (10 ^ Z.of_nat k))%R /\
      (Rabs (IZR n / IZR (10 ^ Z.of_nat k) - Rabs (B2R x)) = / 2 / IZR (10 ^ Z.of_nat k) -> Z.even n = true)%R
  end.

Definition bool_text (b : bool) (s : string) : Prop := s = if b then "true" else "false".

(** How many lines are ended in [s]. *)
Fixpoint newlines (s : string) : nat :=
  match s with
  | EmptyString => 0
  | String c r => (if Ascii.eqb c newline then 1 else 0) + newlines r
  end.

(** [s] is a line showing the three numbers of the row [r]; each number is
    written so that reading it gives it back exactly. *)
Definition row_line (r : row f64) (s : string) : Prop :=
  exists a b c, s = ("{" ++ a ++ " " ++ b ++ " " ++ c ++ "}")%string /\
    without " " a /\ without " " b /\ without " " c /\
    parse_float a = inl (price r) /\ parse_float b = inl (volume r) /\ parse_float c = inl (accum r).
