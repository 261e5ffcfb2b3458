(** Vocabulary of C108: candles that agree in some of their fields. *)
From Coq Require Import List ZArith.
From Verif Require Import Go.Outcome Go.Slice Go.Float64 Model.Candle.

Inductive field := Open | High | Low | Close | Volume.
(** The same time, and the same value of every field of [seen]. *)
Definition agree (seen : field -> Prop) (c d : candle f64) : Prop :=
  c_time c = c_time d /\ (seen Open -> c_open c = c_open d) /\ (seen High -> c_high c = c_high d) /\
  (seen Low -> c_low c = c_low d) /\ (seen Close -> c_close c = c_close d) /\ (seen Volume -> c_volume c = c_volume d).
(** Both nil or neither, and the same [f] at every position. *)
Definition same_visible {A} (f : candle f64 -> A) (s s' : gslice (candle f64)) : Prop :=
  is_nil s = is_nil s' /\ map f (vis s) = map f (vis s').
(** The spare capacity included. *)
Definition same_slice {A} (f : candle f64 -> A) (s s' : gslice (candle f64)) : Prop :=
  is_nil s = is_nil s' /\ map f (vis s) = map f (vis s') /\ map f (hid s) = map f (hid s').
Definition high_low (c : candle f64) : f64 * f64 := (c_high c, c_low c).
Definition time_high_low (c : candle f64) : Z * f64 * f64 := (c_time c, c_high c, c_low c).
