(** Vocabulary of C105: GetDepth as a rounding of prices to levels. *)
From Coq Require Import List ZArith.
From Verif Require Import Go.Outcome Go.Slice Go.Float64 Model.OrderBook Spec.OrderBookSpec.
Open Scope Z_scope.

(** GetDepth answers [d] for the price [p], without an error. *)
Definition answered (ob : book f64) (p d : f64) : Prop := get_depth ob p = Ret (d, None).
Definition two_sided (ob : book f64) : Prop :=
  asks ob <> nil /\ bids ob <> nil /\ zlen (asks ob) <= 2 ^ 53 /\ zlen (bids ob) <= 2 ^ 53.
Definition positive_prices (ob : book f64) : Prop :=
  forall r, In r (asks ob) \/ In r (bids ob) -> f64_lt (i2f 0) (price r) = true.
