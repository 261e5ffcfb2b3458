(** Vocabulary of C109: calls that panic. *)
From Verif Require Import Go.Outcome Go.Float64 Model.OrderBook Spec.OrderBookSpec.
Open Scope list_scope.

Definition panics {A} (o : go A) : Prop := exists p, o = Panic p.
(** A row of [l] has the price [p]. *)
Definition listed (p : f64) (l : rows) : Prop := exists r, In r l /\ f64_eq (price r) p = true.
