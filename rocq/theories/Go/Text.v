(** Text of numbers: the parts of Go's fmt, strconv, strings and bufio used by
    market/candle.go and market/candle_load.go.  Strings are byte strings. *)
From Coq Require Import ZArith NArith List String Ascii Bool.
From Flocq Require Import Core BinarySingleNaN.
From Verif Require Import Go.Outcome Go.Int64 Go.Float64.
Open Scope string_scope.
Open Scope Z_scope.

(** ** Digits *)

Definition digit_char (d : N) : ascii := ascii_of_N (48 + d).
Definition is_digit (c : ascii) : bool :=
  ((48 <=? N_of_ascii c) && (N_of_ascii c <=? 57))%N.
Definition digit_val (c : ascii) : N := (N_of_ascii c - 48)%N.

(** The last [k] decimal digits of [n], most significant first. *)
Fixpoint fixdig (k : nat) (n : N) : string :=
  match k with
  | O => EmptyString
  | S k' => (fixdig k' (n / 10)%N ++ String (digit_char (n mod 10)%N) EmptyString)%string
  end.

Fixpoint ndig (fuel : nat) (n : N) : nat :=
  match fuel with
  | O => 1%nat
  | S f => if (n <? 10)%N then 1%nat else S (ndig f (n / 10)%N)
  end.
(** Number of decimal digits of [n] (1 for 0). *)
Definition num_digits (n : N) : nat := ndig (N.size_nat n) n.

(** Decimal text of a natural number, no leading zeros. *)
Definition dec (n : N) : string := fixdig (num_digits n) n.

Fixpoint zeros (k : nat) : string :=
  match k with O => EmptyString | S k' => String "0" (zeros k') end.

Definition sign_str (neg : bool) : string := if neg then "-" else "".

(** strconv.FormatInt(z, 10), i.e. %d / %v of an integer. *)
Definition fmt_int (z : Z) : string :=
  if z <? 0 then "-" ++ dec (Z.abs_N z) else dec (Z.abs_N z).

(** ** fmt.Sprintf("%.<prec>f", x) *)

(** Integer nearest to [num/den], ties to even. *)
Definition round_ratio (num den : N) : N :=
  let q := (num / den)%N in
  let r := (num mod den)%N in
  match (2 * r ?= den)%N with
  | Lt => q
  | Gt => (q + 1)%N
  | Eq => if N.even q then q else (q + 1)%N
  end.

(** [m * 2^e] as a ratio of naturals. *)
Definition pow2_num (m : positive) (e : Z) : N :=
  match e with Zpos p => (Npos m * 2 ^ Npos p)%N | _ => Npos m end.
Definition pow2_den (e : Z) : N :=
  match e with Zneg p => (2 ^ Npos p)%N | _ => 1%N end.

(** Exact decimal expansion rounded half-even at [prec] digits
    (strconv.bigFtoa + decimal.Round + fmtF); Inf and NaN as fmt prints them. *)
Definition sprintf_f (prec : nat) (x : f64) : string :=
  let render (s : bool) (n : N) :=
    sign_str s ++ dec (n / 10 ^ N.of_nat prec)%N ++
    (match prec with
     | O => ""
     | _ => "." ++ fixdig prec (n mod 10 ^ N.of_nat prec)%N
     end) in
  match x with
  | B754_nan => "NaN"
  | B754_infinity false => "+Inf"
  | B754_infinity true => "-Inf"
  | B754_zero s => render s 0%N
  | B754_finite s m e _ =>
      render s (round_ratio (pow2_num m e * 10 ^ N.of_nat prec)%N (pow2_den e))
  end.

(** ** %v of a float64 (strconv.FormatFloat(x, 'g', -1, 64)): shortest decimal
    that parses back to x. *)

(** Least [k >= k0] with [num * 10^k >= den]. *)
Fixpoint find_scale (fuel : nat) (k : nat) (num den : N) : nat :=
  match fuel with
  | O => k
  | S f => if (den <=? num)%N then k else find_scale f (S k) (10 * num)%N den
  end.

(** Decimal exponent: [10^(dp-1) <= num/den < 10^dp]. *)
Definition dec_point (num den : N) : Z :=
  if (den <=? num)%N then Z.of_nat (num_digits (num / den)%N)
  else 1 - Z.of_nat (find_scale 400 0 num den).

(** Does the decimal [d * 10^e] parse back to [x]? *)
Definition back (s : bool) (x : f64) (d : N) (e : Z) : bool :=
  f64_eq (f64_of_dec s d e) x.

(** The [n]-digit decimal of strconv.roundShortest, if one reads back to x. *)
Definition try_digits (s : bool) (x : f64) (num den : N) (dp : Z) (n : nat) : option N :=
  let sc := Z.of_nat n - dp in
  let num' := match sc with Zpos p => (num * 10 ^ Npos p)%N | _ => num end in
  let den' := match sc with Zneg p => (den * 10 ^ Npos p)%N | _ => den end in
  let q := (num' / den')%N in
  match back s x q (- sc), back s x (q + 1)%N (- sc) with
  | true, true => Some (round_ratio num' den')
  | true, false => Some q
  | false, true => Some (q + 1)%N
  | false, false => None
  end.

Fixpoint search_digits (fuel n : nat) (s : bool) (x : f64) (num den : N) (dp : Z)
  : option (N * Z) :=
  match fuel with
  | O => None
  | S f =>
      match try_digits s x num den dp n with
      | Some d => if back s x d (dp - Z.of_nat n) then Some (d, dp - Z.of_nat n) else None
      | None => search_digits f (S n) s x num den dp
      end
  end.

(** Drop trailing zero digits. *)
Fixpoint strip_zeros (fuel : nat) (d : N) (e : Z) : N * Z :=
  match fuel with
  | O => (d, e)
  | S f => if (d mod 10 =? 0)%N then strip_zeros f (d / 10)%N (e + 1) else (d, e)
  end.

(** Shortest digits of the non-zero finite [m * 2^e].  17 digits always
    suffice; the exact expansion in the last branch is never reached and only
    makes the function total. *)
Definition shortest (s : bool) (m : positive) (e : Z) (x : f64) : N * Z :=
  let num := pow2_num m e in
  let den := pow2_den e in
  let '(d, e10) :=
    match search_digits 17 1 s x num den (dec_point num den) with
    | Some de => de
    | None =>
        match e with
        | Zneg p => ((Npos m * 5 ^ Npos p)%N, e)
        | _ => (num, 0)
        end
    end in
  strip_zeros (num_digits d) d e10.

(** Layout of the digits [d * 10^e10] for verb 'g' with shortest precision
    (strconv/ftoa.go, formatDigits): %e when the decimal exponent is < -4 or
    >= 6, else %f without superfluous digits. *)
Definition g_threshold : Z := 6.

Definition fmt_exp (x : Z) : string :=
  let a := Z.abs_N x in
  (if x <? 0 then "-" else "+") ++ (if (a <? 10)%N then "0" ++ dec a else dec a).

Definition layout_g (d : N) (e10 : Z) : string :=
  let ds := dec d in
  let nd := num_digits d in
  let dp := e10 + Z.of_nat nd in
  let x := dp - 1 in
  if (x <? -4) || (g_threshold <=? x) then
    (* fmtE *)
    substring 0 1 ds ++
    (if (nd =? 1)%nat then "" else "." ++ substring 1 (nd - 1) ds) ++
    "e" ++ fmt_exp x
  else if dp <=? 0 then "0." ++ zeros (Z.to_nat (- dp)) ++ ds
  else if (Z.of_nat nd <=? dp) then ds ++ zeros (Z.to_nat (dp - Z.of_nat nd))
  else substring 0 (Z.to_nat dp) ds ++ "." ++ substring (Z.to_nat dp) (nd - Z.to_nat dp) ds.

(** %v of a float64. *)
Definition fmt_v (x : f64) : string :=
  match x with
  | B754_nan => "NaN"
  | B754_infinity false => "+Inf"
  | B754_infinity true => "-Inf"
  | B754_zero s => sign_str s ++ "0"
  | B754_finite s m e _ =>
      let '(d, e10) := shortest s m e x in sign_str s ++ layout_g d e10
  end.

(** ** strconv.ParseFloat(s, 64)
    Decimal and hexadecimal syntax, digit separators '_' and the special
    names. *)

Inductive parse_err : Type := PSyntax | PRange.

Definition lower (c : ascii) : ascii :=
  let n := N_of_ascii c in
  if ((65 <=? n) && (n <=? 90))%N then ascii_of_N (n + 32) else c.
Fixpoint lower_str (s : string) : string :=
  match s with EmptyString => EmptyString | String c r => String (lower c) (lower_str r) end.

(** strconv.special *)
Definition parse_special (s : string) : option f64 :=
  let l := lower_str s in
  if String.eqb l "nan" then Some f64_nan
  else if String.eqb l "inf" || String.eqb l "infinity" ||
          String.eqb l "+inf" || String.eqb l "+infinity" then Some (f64_inf false)
  else if String.eqb l "-inf" || String.eqb l "-infinity" then Some (f64_inf true)
  else None.

(** Mantissa: digits with at most one dot.  Returns (saw a digit, digits,
    number of digits after the dot, rest). *)
Fixpoint scan_mant (s : string) (sawdot sawdig : bool) (d : N) (fr : Z)
  : bool * N * Z * string :=
  match s with
  | EmptyString => (sawdig, d, fr, s)
  | String c r =>
      if Ascii.eqb c "." then
        if sawdot then (sawdig, d, fr, s) else scan_mant r true sawdig d fr
      else if is_digit c then
        scan_mant r sawdot true (10 * d + digit_val c)%N (if sawdot then fr + 1 else fr)
      else (sawdig, d, fr, s)
  end.

(** Exponent digits; accumulation stops once the value reaches 10000. *)
Fixpoint scan_exp (s : string) (e : N) : N * string :=
  match s with
  | EmptyString => (e, s)
  | String c r =>
      if is_digit c then
        scan_exp r (if (e <? 10000)%N then (10 * e + digit_val c)%N else e)
      else (e, s)
  end.

Definition starts_digit (s : string) : bool :=
  match s with String c _ => is_digit c | EmptyString => false end.

(** Exponent part: empty, or e/E, optional sign, digits, to the end. *)
Definition parse_exp (s : string) : option Z :=
  match s with
  | EmptyString => Some 0
  | String c r =>
      if Ascii.eqb c "e" || Ascii.eqb c "E" then
        let '(neg, r') :=
          match r with
          | String c' r'' =>
              if Ascii.eqb c' "+" then (false, r'')
              else if Ascii.eqb c' "-" then (true, r'') else (false, r)
          | EmptyString => (false, r)
          end in
        if starts_digit r' then
          let '(e, rest) := scan_exp r' 0 in
          if String.eqb rest "" then Some (if neg then - Z.of_N e else Z.of_N e) else None
        else None
      else None
  end.

Definition take_sign (s : string) : bool * string :=
  match s with
  | String c r =>
      if Ascii.eqb c "+" then (false, r)
      else if Ascii.eqb c "-" then (true, r) else (false, s)
  | EmptyString => (false, s)
  end.

(** Decimal number without sign. *)
Definition parse_decimal (neg : bool) (r : string) : f64 + parse_err :=
  let '(sawdig, d, fr, rest) := scan_mant r false false 0%N 0 in
  if sawdig then
    match parse_exp rest with
    | Some e =>
        let x := f64_of_dec neg d (e - fr) in
        match x with B754_infinity _ => inr PRange | _ => inl x end
    | None => inr PSyntax
    end
  else inr PSyntax.

(** Hexadecimal digits. *)
Definition hex_val (c : ascii) : option N :=
  let n := N_of_ascii (lower c) in
  if is_digit c then Some (digit_val c)
  else if ((97 <=? n) && (n <=? 102))%N then Some (n - 87)%N
  else None.

Fixpoint scan_hex (s : string) (sawdot sawdig : bool) (d : N) (fr : Z)
  : bool * N * Z * string :=
  match s with
  | EmptyString => (sawdig, d, fr, s)
  | String c r =>
      if Ascii.eqb c "." then
        if sawdot then (sawdig, d, fr, s) else scan_hex r true sawdig d fr
      else match hex_val c with
           | Some v => scan_hex r sawdot true (16 * d + v)%N (if sawdot then fr + 1 else fr)
           | None => (sawdig, d, fr, s)
           end
  end.

(** The float64 nearest to [(-1)^s * d * 2^e]. *)
Definition f64_of_bin (s : bool) (d : N) (e : Z) : f64 :=
  match d with
  | N0 => B754_zero s
  | Npos p =>
      match e with
      | Z0 => f64_of_ratio s p 1
      | Zpos q => f64_of_ratio s (p * Pos.pow 2 q) 1
      | Zneg q => f64_of_ratio s p (Pos.pow 2 q)
      end
  end.

(** Hexadecimal number after "0x"; the exponent "p" is mandatory.  (As in the
    decimal case the exponent text is checked by [parse_exp], with the "p"
    read as an "e".) *)
Definition parse_hex (neg : bool) (r : string) : f64 + parse_err :=
  let '(sawdig, d, fr, rest) := scan_hex r false false 0%N 0 in
  match rest with
  | String c r' =>
      if sawdig && (Ascii.eqb c "p" || Ascii.eqb c "P") then
        match parse_exp (String "e" r') with
        | Some e =>
            let x := f64_of_bin neg d (e - 4 * fr) in
            match x with B754_infinity _ => inr PRange | _ => inl x end
        | None => inr PSyntax
        end
      else inr PSyntax
  | EmptyString => inr PSyntax
  end.

(** strconv.underscoreOK after the sign: [saw] is the last kind of character
    (0 start, 1 digit or base prefix, 2 underscore, 3 other). *)
Fixpoint us_loop (hex : bool) (saw : nat) (s : string) : bool :=
  match s with
  | EmptyString => negb (saw =? 2)%nat
  | String c r =>
      if is_digit c || (hex && match hex_val c with Some _ => true | None => false end)
      then us_loop hex 1 r
      else if Ascii.eqb c "_" then (saw =? 1)%nat && us_loop hex 2 r
      else negb (saw =? 2)%nat && us_loop hex 3 r
  end.
Definition underscore_ok (s : string) : bool :=
  let '(_, t) := take_sign s in
  match t with
  | String c0 (String c1 r) =>
      let l := lower c1 in
      if Ascii.eqb c0 "0" && (Ascii.eqb l "b" || Ascii.eqb l "o" || Ascii.eqb l "x")
      then us_loop (Ascii.eqb l "x") 1 r
      else us_loop false 0 t
  | _ => us_loop false 0 t
  end.
Fixpoint strip_us (s : string) : string :=
  match s with
  | EmptyString => EmptyString
  | String c r => if Ascii.eqb c "_" then strip_us r else String c (strip_us r)
  end.

Definition parse_number (s : string) : f64 + parse_err :=
  let '(neg, r) := take_sign s in
  match r with
  | String c0 (String c1 (String c2 r')) =>
      if Ascii.eqb c0 "0" && Ascii.eqb (lower c1) "x" then parse_hex neg (String c2 r')
      else parse_decimal neg r
  | _ => parse_decimal neg r
  end.

(** The library skips underscores while reading and checks their places at the
    end; here the check comes first and the text is then read without them.
    (Wherever the library would read the two texts differently - an underscore
    inside "0x", next to a sign, a dot or an exponent mark - the check
    rejects.)  Syntax and range errors are told apart by [parse_err] only
    where the library finds both; the code treats them alike. *)
Definition parse_float (s : string) : f64 + parse_err :=
  match parse_special s with
  | Some x => inl x
  | None => if underscore_ok s then parse_number (strip_us s) else inr PSyntax
  end.

(** ** strconv.ParseInt(s, 10, 32) *)

Fixpoint all_digits (s : string) : bool :=
  match s with
  | EmptyString => true
  | String c r => is_digit c && all_digits r
  end.
Fixpoint digits_val (s : string) (acc : N) : N :=
  match s with
  | EmptyString => acc
  | String c r => digits_val r (10 * acc + digit_val c)%N
  end.

Definition parse_int (bits : Z) (s : string) : Z + parse_err :=
  let '(neg, r) := take_sign s in
  if negb (String.eqb r "") && all_digits r then
    let v := Z.of_N (digits_val r 0) in
    if neg then if v <=? 2 ^ (bits - 1) then inl (- v) else inr PRange
    else if v <? 2 ^ (bits - 1) then inl v else inr PRange
  else inr PSyntax.

(** ** strings.Split(s, " ") *)

Fixpoint split_space (s : string) : list string :=
  match s with
  | EmptyString => [EmptyString]
  | String c r =>
      if Ascii.eqb c " " then EmptyString :: split_space r
      else match split_space r with
           | w :: ws => String c w :: ws
           | [] => [String c EmptyString]   (* not reached *)
           end
  end.

(** ** bufio.Scanner with the default split function ScanLines *)

Definition newline : ascii := "010"%char.
Definition cr : ascii := "013"%char.

(** dropCR *)
Fixpoint drop_cr (s : string) : string :=
  match s with
  | EmptyString => EmptyString
  | String c EmptyString => if Ascii.eqb c cr then EmptyString else s
  | String c r => String c (drop_cr r)
  end.

(** Raw lines: split at newlines; a last unterminated line counts if not empty. *)
Fixpoint raw_lines (s : string) : list string :=
  match s with
  | EmptyString => []
  | String c r =>
      if Ascii.eqb c newline then EmptyString :: raw_lines r
      else match raw_lines r with
           | [] => [String c EmptyString]
           | w :: ws => String c w :: ws
           end
  end.
