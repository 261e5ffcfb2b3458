(** Vocabulary of C81: one series nowhere below another. *)
From Coq Require Import List.
From Flocq Require Import BinarySingleNaN.
From Verif Require Import Go.Float64 Model.Candle.

(** The closes of the second series are, candle by candle, at least those of
    the first. *)
Definition closes_rise (cs cs' : list (candle f64)) : Prop :=
  Forall2 (fun c c' => f64_le (c_close c) (c_close c') = true) cs cs'.
(** The candles of the second series reach at least as high and as low. *)
Definition ranges_widen (cs cs' : list (candle f64)) : Prop :=
  Forall2 (fun c c' => f64_le (c_high c) (c_high c') = true /\ f64_le (c_low c') (c_low c) = true) cs cs'.
(** [x <= x'] unless one of them overflowed (or is not a number). *)
Definition not_above (x x' : f64) : Prop :=
  is_finite x = true -> is_finite x' = true -> f64_le x x' = true.
