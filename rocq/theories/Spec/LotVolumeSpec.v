(** Vocabulary of C129: candles whose volumes are whole multiples of a lot 2^e. *)
From Coq Require Import List ZArith Reals.
From Flocq Require Import Core BinarySingleNaN.
From Verif Require Import Go.Float64 Model.Candle Spec.AccuracySpec Spec.TickSpec.
Import ListNotations.

(** [x] is a number of lots. *)
Definition in_lots (e : Z) (x : f64) : Prop := exists z, ticks e x z.
(** All volumes are, and together they make at most 2^53 lots. *)
Definition lot_series (e : Z) (cs : list (candle f64)) : Prop :=
  Forall (fun c : candle f64 => in_lots e (c_volume c)) cs /\
  (total_mag (map c_volume cs) <= IZR (2 ^ 53) * bpow radix2 e)%R.
