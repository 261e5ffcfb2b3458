(** Vocabulary of C128: books whose prices are whole multiples of a tick 2^e and
    whose volumes are whole multiples of a lot 2^f. *)
From Coq Require Import List ZArith Reals.
From Flocq Require Import Core BinarySingleNaN.
From Verif Require Import Go.Float64 Model.OrderBook Spec.OrderBookSpec Spec.WholeSpec Spec.TickSpec.
Import ListNotations.

(** Ticks and lots for which 2^53 of each, and of their product, are float64s. *)
Definition grid (e f : Z) : Prop := tick e /\ tick f /\ tick (e + f).
(** [x] is a number of units 2^g, not negative. *)
Definition units (g : Z) (x : f64) : Prop := exists z, (0 <= z)%Z /\ ticks g x z.
(** At most 2^53 units. *)
Definition at_most (g : Z) (r : R) : Prop := (r <= IZR (2 ^ 53) * bpow radix2 g)%R.
Definition grid_side (e f : Z) (l : list (row f64)) : Prop :=
  Forall (fun r => units e (price r) /\ units f (volume r)) l /\
  at_most (e + f) (value (map exact_row l)) /\ at_most f (total_volume (map exact_row l)).
Definition grid_book (e f : Z) (ob : book f64) : Prop := grid_side e f (asks ob) /\ grid_side e f (bids ob).
(** Rows on the grid, without a bound on their sums. *)
Definition grid_rows (e f : Z) (ob : book f64) : Prop :=
  forall r, In r (asks ob ++ bids ob) -> units e (price r) /\ units f (volume r).
