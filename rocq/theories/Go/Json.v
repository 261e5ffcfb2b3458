(** Package encoding/json of the Go standard library, as used through the
    struct tags of this repository: json.Marshal and json.Unmarshal for
    strings, int64/int, float64, bool, time.Time, pointers, slices, maps with
    string keys and structs.  Strings are byte strings. *)
From Coq Require Import ZArith NArith List String Ascii Bool.
From Flocq Require Import Core BinarySingleNaN.
From Verif Require Import Go.Outcome Go.Int64 Go.Float64 Go.Text Model.Date.
Import ListNotations.
Open Scope string_scope.
Open Scope list_scope.
Open Scope Z_scope.

(** JSON text as a tree.  [JNum] keeps the literal, [JStr] and the member names
    keep the bytes between the quotes, escapes included. *)
Inductive json : Type :=
| JNull
| JBool (b : bool)
| JNum (t : string)
| JStr (raw : string)
| JArr (l : list json)
| JObj (l : list (string * json)).

(** ** Runes (unicode/utf8) *)
Definition code (c : ascii) : N := N_of_ascii c.
Definition within (a b : N) (c : ascii) : bool := ((a <=? code c) && (code c <=? b))%N.
Definition cont (c : ascii) : bool := within 128 191 c.

(** utf8.DecodeRuneInString: number of bytes of the first rune; 0 when it
    reports RuneError with width 1 (or the string is empty). *)
Definition rune_size (s : string) : nat :=
  match s with
  | EmptyString => 0%nat
  | String c0 r0 =>
      if (code c0 <? 128)%N then 1%nat
      else match r0 with
      | EmptyString => 0%nat
      | String c1 r1 =>
          if within 194 223 c0 then (if cont c1 then 2%nat else 0%nat)
          else match r1 with
          | EmptyString => 0%nat
          | String c2 r2 =>
              if within 224 239 c0 then
                if (if (code c0 =? 224)%N then within 160 191 c1
                    else if (code c0 =? 237)%N then within 128 159 c1 else cont c1) && cont c2
                then 3%nat else 0%nat
              else match r2 with
              | EmptyString => 0%nat
              | String c3 _ =>
                  if within 240 244 c0 then
                    if (if (code c0 =? 240)%N then within 144 191 c1
                        else if (code c0 =? 244)%N then within 128 143 c1 else cont c1) && cont c2 && cont c3
                    then 4%nat else 0%nat
                  else 0%nat
              end
          end
      end
  end.

Definition chr (n : N) : ascii := ascii_of_N n.
(** utf8.EncodeRune for a rune up to 10FFFF that is no surrogate. *)
Definition encode_rune (r : N) : string :=
  (if r <? 128 then String (chr r) ""
   else if r <? 2048 then String (chr (192 + r / 64)) (String (chr (128 + r mod 64)) "")
   else if r <? 65536 then
     String (chr (224 + r / 4096)) (String (chr (128 + r / 64 mod 64)) (String (chr (128 + r mod 64)) ""))
   else
     String (chr (240 + r / 262144)) (String (chr (128 + r / 4096 mod 64))
       (String (chr (128 + r / 64 mod 64)) (String (chr (128 + r mod 64)) ""))))%N.
(** U+FFFD *)
Definition replacement : string := encode_rune 65533.

(** ** Strings *)
Definition quote : ascii := "034"%char.
Definition backslash : ascii := "092"%char.
Definition hex_char (n : N) : ascii := if (n <? 10)%N then chr (48 + n) else chr (87 + n).

(** encode.go, encodeState.string with escapeHTML: one byte below 128. *)
Definition escape_byte (c : ascii) : string :=
  if Ascii.eqb c quote || Ascii.eqb c backslash then String backslash (String c "")
  else if Ascii.eqb c "010" then String backslash "n"
  else if Ascii.eqb c "013" then String backslash "r"
  else if Ascii.eqb c "009" then String backslash "t"
  else if (code c <? 32)%N || Ascii.eqb c "<" || Ascii.eqb c ">" || Ascii.eqb c "&"
  then String backslash (String "u" (String "0" (String "0"
         (String (hex_char (code c / 16)) (String (hex_char (code c mod 16)) "")))))
  else String c "".

(** The same function for the whole string: bytes that are no UTF-8 become the
    escape of U+FFFD, U+2028 and U+2029 are escaped. *)
Fixpoint escape (s : string) : string :=
  match s with
  | EmptyString => EmptyString
  | String c0 r0 =>
      if (code c0 <? 128)%N then (escape_byte c0 ++ escape r0)%string
      else match rune_size s with
      | 2%nat =>
          match r0 with
          | String c1 r1 => String c0 (String c1 (escape r1))
          | _ => ""
          end
      | 3%nat =>
          match r0 with
          | String c1 (String c2 r2) =>
              if (code c0 =? 226)%N && (code c1 =? 128)%N && ((code c2 =? 168)%N || (code c2 =? 169)%N)
              then (String backslash (String "u" (String "2" (String "0" (String "2"
                      (String (hex_char (code c2 mod 16)) ""))))) ++ escape r2)%string
              else String c0 (String c1 (String c2 (escape r2)))
          | _ => ""
          end
      | 4%nat =>
          match r0 with
          | String c1 (String c2 (String c3 r3)) => String c0 (String c1 (String c2 (String c3 (escape r3))))
          | _ => ""
          end
      | _ => (String backslash "ufffd" ++ escape r0)%string
      end
  end.

Definition hex_digit (c : ascii) : bool := match hex_val c with Some _ => true | None => false end.
Definition hex_num (c : ascii) : N := match hex_val c with Some v => v | None => 0%N end.
Definition hex4 (a b c d : ascii) : N := (((hex_num a * 16 + hex_num b) * 16 + hex_num c) * 16 + hex_num d)%N.

(** Bytes after an opening quote, up to the closing one (scanner.go,
    stateInString, stateInStringEsc and the states for \u); [None]: invalid. *)
Fixpoint scan_str (s : string) : option (string * string) :=
  match s with
  | EmptyString => None
  | String c r =>
      if Ascii.eqb c quote then Some ("", r)
      else if Ascii.eqb c backslash then
        match r with
        | String e r1 =>
            if Ascii.eqb e "u" then
              match r1 with
              | String h1 (String h2 (String h3 (String h4 r5))) =>
                  if hex_digit h1 && hex_digit h2 && hex_digit h3 && hex_digit h4 then
                    match scan_str r5 with
                    | Some (t, rest) =>
                        Some (String c (String e (String h1 (String h2 (String h3 (String h4 t))))), rest)
                    | None => None
                    end
                  else None
              | _ => None
              end
            else if Ascii.eqb e "b" || Ascii.eqb e "f" || Ascii.eqb e "n" || Ascii.eqb e "r" || Ascii.eqb e "t"
                    || Ascii.eqb e backslash || Ascii.eqb e "/" || Ascii.eqb e quote then
              match scan_str r1 with
              | Some (t, rest) => Some (String c (String e t), rest)
              | None => None
              end
            else None
        | EmptyString => None
        end
      else if (code c <? 32)%N then None
      else match scan_str r with
           | Some (t, rest) => Some (String c t, rest)
           | None => None
           end
  end.

Definition surrogate (r : N) : bool := ((55296 <=? r) && (r <? 57344))%N.
(** utf16.DecodeRune *)
Definition join_surrogates (a b : N) : option N :=
  (if (55296 <=? a) && (a <? 56320) && (56320 <=? b) && (b <? 57344)
   then Some ((a - 55296) * 1024 + (b - 56320) + 65536) else None)%N.

(** decode.go, unquoteBytes, on the bytes between the quotes.  The text has
    passed [scan_str]; the branches for malformed escapes are never reached. *)
Fixpoint unquote (s : string) : string :=
  match s with
  | EmptyString => EmptyString
  | String c r =>
      if Ascii.eqb c backslash then
        match r with
        | String e r1 =>
            if Ascii.eqb e "u" then
              match r1 with
              | String h1 (String h2 (String h3 (String h4 r5))) =>
                  let rr := hex4 h1 h2 h3 h4 in
                  if surrogate rr then
                    match r5 with
                    | String b1 (String u1 (String g1 (String g2 (String g3 (String g4 r11))))) =>
                        if Ascii.eqb b1 backslash && Ascii.eqb u1 "u" then
                          match join_surrogates rr (hex4 g1 g2 g3 g4) with
                          | Some x => (encode_rune x ++ unquote r11)%string
                          | None => (replacement ++ unquote r5)%string
                          end
                        else (replacement ++ unquote r5)%string
                    | _ => (replacement ++ unquote r5)%string
                    end
                  else (encode_rune rr ++ unquote r5)%string
              | _ => ""
              end
            else if Ascii.eqb e "b" then String "008" (unquote r1)
            else if Ascii.eqb e "f" then String "012" (unquote r1)
            else if Ascii.eqb e "n" then String "010" (unquote r1)
            else if Ascii.eqb e "r" then String "013" (unquote r1)
            else if Ascii.eqb e "t" then String "009" (unquote r1)
            else String e (unquote r1)
        | EmptyString => ""
        end
      else if (code c <? 128)%N then String c (unquote r)
      else match rune_size s with
      | 2%nat => match r with String c1 r1 => String c (String c1 (unquote r1)) | _ => "" end
      | 3%nat =>
          match r with String c1 (String c2 r2) => String c (String c1 (String c2 (unquote r2))) | _ => "" end
      | 4%nat =>
          match r with
          | String c1 (String c2 (String c3 r3)) => String c (String c1 (String c2 (String c3 (unquote r3))))
          | _ => ""
          end
      | _ => (replacement ++ unquote r)%string
      end
  end.

(** ** Numbers *)

(** strconv.AppendFloat(x, 'f', -1, 64) and ('e', -1, 64) of the shortest digits
    [d * 10^e10]; in the second form encode.go removes the zero of a two-digit
    negative exponent. *)
Definition layout_f (d : N) (e10 : Z) : string :=
  let ds := dec d in
  let nd := num_digits d in
  let dp := e10 + Z.of_nat nd in
  (if (dp <=? 0)%Z then "0." ++ zeros (Z.to_nat (- dp)) ++ ds
   else if (Z.of_nat nd <=? dp)%Z then ds ++ zeros (Z.to_nat (dp - Z.of_nat nd))
   else substring 0 (Z.to_nat dp) ds ++ "." ++ substring (Z.to_nat dp) (nd - Z.to_nat dp) ds)%string.
Definition layout_e (d : N) (e10 : Z) : string :=
  let ds := dec d in
  let nd := num_digits d in
  let x := e10 + Z.of_nat nd - 1 in
  (substring 0 1 ds ++ (if (nd =? 1)%nat then "" else "." ++ substring 1 (nd - 1) ds) ++
   "e" ++ (if (x <? 0)%Z then "-" ++ dec (Z.abs_N x) else fmt_exp x))%string.

(** encode.go, floatEncoder.encode: [None] is UnsupportedValueError. *)
Definition json_float (x : f64) : option string :=
  match x with
  | B754_nan => None
  | B754_infinity _ => None
  | B754_zero s => Some (sign_str s ++ "0")%string
  | B754_finite s m e _ =>
      let '(d, e10) := shortest s m e x in
      let a := Babs x in
      Some (sign_str s ++
        (if f64_lt a (f64_of_dec false 1 (-6)) || f64_le (f64_of_dec false 1 21) a
         then layout_e d e10 else layout_f d e10))%string
  end.

Fixpoint span_digits (s : string) : string * string :=
  match s with
  | String c r => if is_digit c then let '(d, r') := span_digits r in (String c d, r') else ("", s)
  | EmptyString => ("", "")
  end.

(** Number literal (scanner.go, state0, state1, stateDot, stateE ...). *)
Definition lex_frac (s : string) : option (string * string) :=
  match s with
  | String c r =>
      if Ascii.eqb c "." then
        let '(d, r') := span_digits r in if String.eqb d "" then None else Some (String c d, r')
      else Some ("", s)
  | EmptyString => Some ("", s)
  end.
Definition lex_exp (s : string) : option (string * string) :=
  match s with
  | String c r =>
      if Ascii.eqb c "e" || Ascii.eqb c "E" then
        let '(sg, r1) :=
          match r with
          | String c' r' => if Ascii.eqb c' "+" || Ascii.eqb c' "-" then (String c' "", r') else ("", r)
          | EmptyString => ("", r)
          end in
        let '(d, r') := span_digits r1 in
        if String.eqb d "" then None else Some (String c (sg ++ d)%string, r')
      else Some ("", s)
  | EmptyString => Some ("", s)
  end.
Definition lex_num (s : string) : option (string * string) :=
  let '(sg, s1) :=
    match s with
    | String c r => if Ascii.eqb c "-" then ("-", r) else ("", s)
    | EmptyString => ("", s)
    end in
  let '(ip, s2) := span_digits s1 in
  match ip with
  | EmptyString => None
  | String c r =>
      if Ascii.eqb c "0" && negb (String.eqb r "") then None
      else match lex_frac s2 with
           | None => None
           | Some (fr, s3) =>
               match lex_exp s3 with
               | None => None
               | Some (ex, s4) => Some ((sg ++ ip ++ fr ++ ex)%string, s4)
               end
           end
  end.

(** ** Writing and reading trees *)
Fixpoint sep_by (sep : string) (l : list string) : string :=
  match l with
  | [] => ""
  | [x] => x
  | x :: r => (x ++ sep ++ sep_by sep r)%string
  end.
Definition quoted (raw : string) : string := String quote (raw ++ String quote "")%string.

Fixpoint print (j : json) : string :=
  match j with
  | JNull => "null"
  | JBool true => "true"
  | JBool false => "false"
  | JNum t => t
  | JStr raw => quoted raw
  | JArr l => ("[" ++ sep_by "," (map print l) ++ "]")%string
  | JObj l => ("{" ++ sep_by "," (map (fun kv => (quoted (fst kv) ++ ":" ++ print (snd kv))%string) l) ++ "}")%string
  end.

Definition is_ws (c : ascii) : bool :=
  Ascii.eqb c " " || Ascii.eqb c "009" || Ascii.eqb c "010" || Ascii.eqb c "013".
Fixpoint skip_ws (s : string) : string :=
  match s with
  | String c r => if is_ws c then skip_ws r else s
  | EmptyString => ""
  end.
(** The rest after a literal prefix. *)
Fixpoint strip_prefix (p s : string) : option string :=
  match p, s with
  | EmptyString, _ => Some s
  | String a p', String b s' => if Ascii.eqb a b then strip_prefix p' s' else None
  | _, EmptyString => None
  end.

Section Lists.
Variable value : string -> option (json * string).
(** Array elements after the opening bracket. *)
Fixpoint elements (k : nat) (s : string) : option (list json * string) :=
  match k with
  | O => None
  | S k' =>
      match value s with
      | None => None
      | Some (j, r) =>
          match skip_ws r with
          | String c r' =>
              if Ascii.eqb c "]" then Some ([j], r')
              else if Ascii.eqb c "," then
                match elements k' r' with Some (l, r'') => Some (j :: l, r'') | None => None end
              else None
          | EmptyString => None
          end
      end
  end.
(** Object members after the opening brace. *)
Fixpoint members (k : nat) (s : string) : option (list (string * json) * string) :=
  match k with
  | O => None
  | S k' =>
      match skip_ws s with
      | String q r0 =>
          if Ascii.eqb q quote then
            match scan_str r0 with
            | None => None
            | Some (name, r1) =>
                match skip_ws r1 with
                | String col r2 =>
                    if Ascii.eqb col ":" then
                      match value r2 with
                      | None => None
                      | Some (j, r) =>
                          match skip_ws r with
                          | String c r' =>
                              if Ascii.eqb c "}" then Some ([(name, j)], r')
                              else if Ascii.eqb c "," then
                                match members k' r' with
                                | Some (l, r'') => Some ((name, j) :: l, r'')
                                | None => None
                                end
                              else None
                          | EmptyString => None
                          end
                      end
                    else None
                | EmptyString => None
                end
            end
          else None
      | EmptyString => None
      end
  end.
End Lists.

(** One value; [n] bounds the nesting. *)
Fixpoint value (n : nat) (s : string) : option (json * string) :=
  match n with
  | O => None
  | S n' =>
      match skip_ws s with
      | EmptyString => None
      | String c r =>
          if Ascii.eqb c "{" then
            match skip_ws r with
            | String c' r' =>
                if Ascii.eqb c' "}" then Some (JObj [], r')
                else match members (value n') (S (String.length r)) r with
                     | Some (l, r'') => Some (JObj l, r'') | None => None end
            | EmptyString => None
            end
          else if Ascii.eqb c "[" then
            match skip_ws r with
            | String c' r' =>
                if Ascii.eqb c' "]" then Some (JArr [], r')
                else match elements (value n') (S (String.length r)) r with
                     | Some (l, r'') => Some (JArr l, r'') | None => None end
            | EmptyString => None
            end
          else if Ascii.eqb c quote then
            match scan_str r with Some (raw, r') => Some (JStr raw, r') | None => None end
          else match strip_prefix "null" (String c r) with
          | Some r' => Some (JNull, r')
          | None =>
              match strip_prefix "true" (String c r) with
              | Some r' => Some (JBool true, r')
              | None =>
                  match strip_prefix "false" (String c r) with
                  | Some r' => Some (JBool false, r')
                  | None => match lex_num (String c r) with Some (t, r') => Some (JNum t, r') | None => None end
                  end
              end
          end
      end
  end.
Definition parse_json (s : string) : option json :=
  match value (S (String.length s)) s with
  | Some (j, r) => if String.eqb (skip_ws r) "" then Some j else None
  | None => None
  end.

(** scanner.go, pushParseState and maxNestingDepth: a text that opens more than
    10000 arrays and objects inside each other is an error. *)
Fixpoint nesting (j : json) : Z :=
  match j with
  | JArr l => 1 + fold_right Z.max 0 (map nesting l)
  | JObj l => 1 + fold_right Z.max 0 (map (fun kv => nesting (snd kv)) l)
  | _ => 0
  end%Z.
Definition max_nesting : Z := 10000.

(** ** Times *)

(** time.Time.date (time.go, absDate) of local seconds [abs] since the absolute
    zero year: year, month 1..12, day. *)
Definition abs_date (abs : Z) : Z * Z * Z :=
  let d := abs / 86400 in
  let n := d / 146097 in let y := 400 * n in let d := d - 146097 * n in
  let n := d / 36524 in let n := n - n / 4 in let y := y + 100 * n in let d := d - 36524 * n in
  let n := d / 1461 in let y := y + 4 * n in let d := d - 1461 * n in
  let n := d / 365 in let n := n - n / 4 in let y := y + n in let d := d - 365 * n in
  let year := y + absolute_zero_year in
  if is_leap year && (d =? 59) then (year, 2, 29)
  else
    let day := if is_leap year && (59 <? d) then d - 1 else d in
    let month := day / 31 in
    let e := days_before (month + 1) in
    if e <=? day then (year, month + 2, day - e + 1) else (year, month + 1, day - days_before month + 1).

Definition two_digits (z : Z) : string := fixdig 2 (Z.to_N z).
(** Fractional seconds ".999999999": nothing for 0, trailing zeros dropped. *)
Fixpoint drop_zeros (s : string) : string :=
  match s with
  | EmptyString => EmptyString
  | String c r =>
      match drop_zeros r with
      | EmptyString => if Ascii.eqb c "0" then "" else String c ""
      | t => String c t
      end
  end.
Definition nano_text (ns : Z) : string :=
  if ns =? 0 then "" else ("." ++ drop_zeros (fixdig 9 (Z.to_N ns)))%string.
(** The zone "Z07:00" of an offset in seconds. *)
Definition zone_text (off : Z) : string :=
  (if (off =? 0)%Z then "Z"
   else
     let zone := Z.quot off 60 in
     let a := Z.abs zone in
     (if (zone <? 0)%Z then "-" else "+") ++ two_digits (a / 60)%Z ++ ":" ++ two_digits (a mod 60)%Z)%string.

(** time.Time.MarshalJSON: the text between the quotes, for an instant [t] in
    nanoseconds since 1970 shown [off] seconds east of UTC; [None] is its error
    for years outside 0..9999. *)
Definition json_time (off t : Z) : option string :=
  let sec := t / 1000000000 in
  let ns := t mod 1000000000 in
  let abs := sec + off - absolute_to_unix in
  let '(year, month, day) := abs_date abs in
  if (year <? 0) || (9999 <? year) then None
  else
    let clock := abs mod 86400 in
    Some (fixdig 4 (Z.to_N year) ++ "-" ++ two_digits month ++ "-" ++ two_digits day ++ "T" ++
          two_digits (clock / 3600)%Z ++ ":" ++ two_digits (clock mod 3600 / 60)%Z ++ ":" ++ two_digits (clock mod 60)%Z ++
          nano_text ns ++ zone_text off)%string.

(** The zone of a text accepted by [parse_rfc3339], as offset: such a text ends
    in "Z" or in the six bytes of a numeric zone. *)
Definition last_bytes (k : nat) (s : string) : string := substring (String.length s - k) k s.
Definition zone_of_text (s : string) : Z :=
  match get_zone (last_bytes 6 s) with Some (off, _) => off | None => 0 end.
(** Nanoseconds from the digits of a fractional second: nine of them count. *)
Fixpoint pad_digits (k : nat) (s : string) : string :=
  match k with
  | O => ""
  | S k' => match s with String c r => String c (pad_digits k' r) | EmptyString => String "0" (pad_digits k' "") end
  end.
Definition nanos (frac : string) : Z := Z.of_N (digits_val (pad_digits 9 frac) 0).
(** time.Time.UnmarshalJSON on a string literal: offset and instant. *)
Definition read_time (raw : string) : option (Z * Z) :=
  match parse_rfc3339 raw with
  | Some (sec, frac) => Some (zone_of_text raw, sec * 1000000000 + nanos frac)
  | None => None
  end.

(** ** Values and types (package reflect) *)
Inductive gotype : Type :=
| TStr | TInt | TFloat | TBool | TTime
| TPtr (t : gotype)
| TSlice (t : gotype)
| TMap (t : gotype)                              (* map[string]t *)
| TStruct (fs : list (string * gotype)).          (* member names in order *)

(** A time has the offset of its location; nil pointers, slices and maps are
    [None]; a map is its list of entries in increasing key order. *)
Inductive goval : Type :=
| VStr (s : string)
| VInt (z : Z)
| VFloat (x : f64)
| VBool (b : bool)
| VTime (off t : Z)
| VPtr (o : option goval)
| VSlice (o : option (list goval))
| VMap (o : option (list (string * goval)))
| VStruct (vs : list goval).

Fixpoint zero (t : gotype) : goval :=
  match t with
  | TStr => VStr ""
  | TInt => VInt 0
  | TFloat => VFloat (B754_zero false)
  | TBool => VBool false
  | TTime => VTime 0 (-62135596800 * 1000000000)
  | TPtr _ => VPtr None
  | TSlice _ => VSlice None
  | TMap _ => VMap None
  | TStruct fs => VStruct (map (fun f => zero (snd f)) fs)
  end.

Fixpoint all_some {A} (l : list (option A)) : option (list A) :=
  match l with
  | [] => Some []
  | Some a :: r => match all_some r with Some l' => Some (a :: l') | None => None end
  | None :: _ => None
  end.

(** json.Marshal up to the tree; [None] is its error. *)
Fixpoint encode (t : gotype) (v : goval) {struct t} : option json :=
  match t, v with
  | TStr, VStr s => Some (JStr (escape s))
  | TInt, VInt z => Some (JNum (fmt_int z))
  | TFloat, VFloat x => option_map JNum (json_float x)
  | TBool, VBool b => Some (JBool b)
  | TTime, VTime off i => option_map JStr (json_time off i)
  | TPtr t', VPtr o => match o with None => Some JNull | Some v' => encode t' v' end
  | TSlice t', VSlice o =>
      match o with None => Some JNull | Some l => option_map JArr (all_some (map (encode t') l)) end
  | TMap t', VMap o =>
      match o with
      | None => Some JNull
      | Some l => option_map JObj (all_some (map (fun kv => option_map (pair (escape (fst kv))) (encode t' (snd kv))) l))
      end
  | TStruct fs, VStruct vs =>
      option_map JObj
        ((fix fields (fs : list (string * gotype)) (vs : list goval) : option (list (string * json)) :=
            match fs, vs with
            | [], [] => Some []
            | (n, t') :: fs', v' :: vs' =>
                match encode t' v', fields fs' vs' with
                | Some j, Some l => Some ((escape n, j) :: l)
                | _, _ => None
                end
            | _, _ => None
            end) fs vs)
  | _, _ => None
  end.
Definition marshal (t : gotype) (v : goval) : option string := option_map print (encode t v).

(** Case folding of a member name (fold.go): ASCII letters, the Kelvin sign
    and the long s. *)
Fixpoint fold_name (s : string) : string :=
  match s with
  | EmptyString => ""
  | String c r =>
      match r with
      | String c1 r1 =>
          if (code c =? 197)%N && (code c1 =? 191)%N then String "s" (fold_name r1)
          else match r1 with
               | String c2 r2 =>
                   if (code c =? 226)%N && (code c1 =? 132)%N && (code c2 =? 170)%N then String "k" (fold_name r2)
                   else String (lower c) (fold_name r)
               | EmptyString => String (lower c) (fold_name r)
               end
      | EmptyString => String (lower c) (fold_name r)
      end
  end.
Fixpoint index_of (p : string -> bool) (ns : list string) : option nat :=
  match ns with
  | [] => None
  | n :: r => if p n then Some 0%nat else option_map S (index_of p r)
  end.
(** decode.go, object: the field of a member, by exact name or else the first
    that agrees up to case. *)
Definition field_index (ns : list string) (key : string) : option nat :=
  match index_of (fun n => String.eqb n key) ns with
  | Some i => Some i
  | None => index_of (fun n => String.eqb (fold_name n) (fold_name key)) ns
  end.

(** Byte order of keys (sort.Slice in the map encoder). *)
Fixpoint str_lt (a b : string) : bool :=
  match a, b with
  | EmptyString, String _ _ => true
  | _, EmptyString => false
  | String x a', String y b' => (code x <? code y)%N || ((code x =? code y)%N && str_lt a' b')
  end.
(** m[k] = v *)
Fixpoint map_put {A} (k : string) (v : A) (m : list (string * A)) : list (string * A) :=
  match m with
  | [] => [(k, v)]
  | (k', v') :: r =>
      if String.eqb k k' then (k, v) :: r
      else if str_lt k k' then (k, v) :: m else (k', v') :: map_put k v r
  end.

Section Fields.
Variable dec_one : gotype -> goval -> option goval.
(** Replace field [i]. *)
Fixpoint set_field (fs : list (string * gotype)) (vs : list goval) (i : nat) : option (list goval) :=
  match fs, vs, i with
  | (_, t) :: _, v :: vs', O => option_map (fun v' => v' :: vs') (dec_one t v)
  | _ :: fs', v :: vs', S i' => option_map (cons v) (set_field fs' vs' i')
  | _, _, _ => None
  end.
End Fields.

(** json.Unmarshal of a tree into a variable holding [old]; [None] means that
    an error is returned.  Elements of an existing slice are reused as the
    library does, except that stale values beyond its length are not
    remembered. *)
Fixpoint decode (t : gotype) (old : goval) (j : json) {struct t} : option goval :=
  match t, j with
  | TStr, JStr raw => Some (VStr (unquote raw))
  | TInt, JNum s => match parse_int 64 s with inl z => Some (VInt z) | inr _ => None end
  | TFloat, JNum s => match parse_float s with inl x => Some (VFloat x) | inr _ => None end
  | TBool, JBool b => Some (VBool b)
  | TTime, JStr raw => option_map (fun p => VTime (fst p) (snd p)) (read_time raw)
  | TPtr _, JNull => Some (VPtr None)
  | TPtr t', _ =>
      option_map (fun v => VPtr (Some v))
        (decode t' (match old with VPtr (Some v) => v | _ => zero t' end) j)
  | TSlice _, JNull => Some (VSlice None)
  | TSlice t', JArr l =>
      let olds := match old with VSlice (Some vs) => vs | _ => [] end in
      option_map (fun vs => VSlice (Some vs))
        (all_some (map (fun ij => decode t' (nth (fst ij) olds (zero t')) (snd ij)) (combine (seq 0 (List.length l)) l)))
  | TMap _, JNull => Some (VMap None)
  | TMap t', JObj ms =>
      let m0 := match old with VMap (Some m) => m | _ => [] end in
      option_map (fun m => VMap (Some m))
        (fold_left (fun acc kv =>
           match acc, decode t' (zero t') (snd kv) with
           | Some m, Some v => Some (map_put (unquote (fst kv)) v m)
           | _, _ => None
           end) ms (Some m0))
  | TStruct fs, JObj ms =>
      let vs0 := match old with VStruct vs => vs | _ => map (fun f => zero (snd f)) fs end in
      option_map VStruct
        (fold_left (fun acc kv =>
           match acc with
           | None => None
           | Some vs =>
               match field_index (map fst fs) (unquote (fst kv)) with
               | None => Some vs
               | Some i => set_field (fun t' v => decode t' v (snd kv)) fs vs i
               end
           end) ms (Some vs0))
  | _, JNull => Some old
  | _, _ => None
  end.
Definition unmarshal (t : gotype) (s : string) : option goval :=
  match parse_json s with
  | Some j => if (nesting j <=? max_nesting)%Z then decode t (zero t) j else None
  | None => None
  end.
