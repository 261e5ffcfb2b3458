(** Vocabulary of C116: what is left of a save whose writes failed. *)
From Coq Require Import List String Ascii.
Import ListNotations.
From Verif Require Import Go.Float64 Go.Text Model.Candle Model.CandleFile Spec.FileSpec.
Open Scope list_scope.

(** A write of which nothing is missing: it did not fail, or it failed after the
    line and its newline. *)
Definition entire (fault : option nat) (c : candle f64) : bool :=
  match fault with
  | None => true
  | Some k => Nat.ltb (String.length (candle_line c)) k
  end.
(** A write of which something, but not everything, reached the file. *)
Definition torn (fault : option nat) (c : candle f64) : Prop :=
  exists k, fault = Some k /\ (0 < k <= String.length (candle_line c))%nat.

(** The candles of which nothing is missing; write number [i] is the first. *)
Fixpoint arrived (faults : nat -> option nat) (i : nat) (cs : list (candle f64)) : list (candle f64) :=
  match cs with
  | [] => []
  | c :: rest => if entire (faults i) c then c :: arrived faults (S i) rest else arrived faults (S i) rest
  end.

(** [c'] is [c] with the last digits of its volume lost. *)
Definition curtailed (c c' : candle f64) : Prop :=
  c_time c' = c_time c /\ c_open c' = c_open c /\ c_high c' = c_high c /\ c_low c' = c_low c /\ c_close c' = c_close c /\
  exists w, prefix_of w (fmt_v (c_volume c)) /\ parse_float w = inl (c_volume c').
