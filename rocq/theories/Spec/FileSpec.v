(** Vocabulary of the candle file properties (C31-C35). *)
From Verif Require Import Go.Outcome Go.Int64 Go.Slice Go.Float64 Go.Text Model.Candle Model.CandleFile.
Open Scope string_scope.
Open Scope list_scope.
Open Scope Z_scope.

Definition fits32 (c : candle f64) : Prop := - 2 ^ 31 <= c_time c < 2 ^ 31.

(** [ch] does not occur in [s]. *)
Fixpoint without (ch : ascii) (s : string) : Prop :=
  match s with
  | EmptyString => True
  | String c r => c <> ch /\ without ch r
  end.

Definition prefix_of (p s : string) : Prop := exists r, (p ++ r)%string = s.

(** Words with single spaces between them. *)
Fixpoint joined (ws : list string) : string :=
  match ws with
  | [] => ""
  | [w] => w
  | w :: rest => (w ++ String " " (joined rest))%string
  end.

(** Complete lines and what follows the last newline. *)
Fixpoint text_of (ls : list string) (tail : string) : string :=
  match ls with
  | [] => tail
  | l :: rest => (l ++ String newline (text_of rest tail))%string
  end.

(** Field [i] of a line: an integer of 32 bits, then five floats. *)
Definition field_ok (i : nat) (w : string) : Prop :=
  match i with
  | O => exists z, parse_int 32 w = inl z
  | _ => exists x, parse_float w = inl x
  end.

(** The line [t] reads as the candle [c]: any first and last byte, between
    them six readable fields and possibly more. *)
Definition reads (t : string) (c : candle f64) : Prop :=
  exists a b w0 w1 w2 w3 w4 w5 more,
    t = String a (joined ([w0; w1; w2; w3; w4; w5] ++ more) ++ String b "")%string /\
    Forall (without " ") ([w0; w1; w2; w3; w4; w5] ++ more) /\
    parse_int 32 w0 = inl (c_time c) /\ parse_float w1 = inl (c_open c) /\
    parse_float w2 = inl (c_high c) /\ parse_float w3 = inl (c_low c) /\
    parse_float w4 = inl (c_close c) /\ parse_float w5 = inl (c_volume c).

(** Reading the line [t] reports an error: field [i] is the first unreadable one. *)
Definition rejected (t : string) : Prop :=
  exists a b ws i w,
    t = String a (joined ws ++ String b "")%string /\ Forall (without " ") ws /\
    (i < 6)%nat /\ nth_error ws i = Some w /\ ~ field_ok i w /\
    forall j u, (j < i)%nat -> nth_error ws j = Some u -> field_ok j u.

(** Reading the line [t] panics: it has fewer than two bytes, or one to five
    fields, all readable. *)
Definition crashes (t : string) : Prop :=
  (String.length t < 2)%nat \/
  exists a b ws,
    t = String a (joined ws ++ String b "")%string /\ Forall (without " ") ws /\
    (0 < List.length ws < 6)%nat /\
    forall j u, nth_error ws j = Some u -> field_ok j u.

(** The scanner accepts the line. *)
Definition scannable (l : string) : Prop := Z.of_nat (String.length l) < 65536.

(** Every line ending turned into carriage return and newline. *)
Fixpoint crlf (s : string) : string :=
  match s with
  | EmptyString => EmptyString
  | String c r => if Ascii.eqb c newline then String cr (String newline (crlf r)) else String c (crlf r)
  end.

(** The text without its last byte. *)
Definition chopped (s : string) : string := substring 0 (String.length s - 1) s.

(** What a load returns when the candles [cs] come before everything else. *)
Definition with_first (cs : list (candle f64)) (r : go (list (candle f64) * option err)) : go (list (candle f64) * option err) :=
  match r with
  | Ret (l, None) => Ret (cs ++ l, None)
  | Ret (_, Some e) => Ret ([], Some e)
  | Panic p => Panic p
  end.
