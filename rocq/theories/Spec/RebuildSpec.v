(** Vocabulary of C104: books that agree in everything but the time and the
    accumulated volumes. *)
From Coq Require Import List ZArith.
From Verif Require Import Go.Outcome Go.Float64 Model.OrderBook Spec.OrderBookSpec.

Definition same_levels (x y : book f64) : Prop :=
  map pv (asks x) = map pv (asks y) /\ map pv (bids x) = map pv (bids y) /\ max_depth x = max_depth y.
(** Both calls return, with related results, or both panic in the same way. *)
Definition alike {A} (R : A -> A -> Prop) (x y : go A) : Prop :=
  match x, y with
  | Ret a, Ret b => R a b
  | Panic p, Panic q => p = q
  | _, _ => False
  end.
(** The accumulated volumes are the running totals of the volumes. *)
Definition true_totals (b : book f64) : Prop :=
  map accum (asks b) = running_totals f64_add (map volume (asks b)) /\
  map accum (bids b) = running_totals f64_add (map volume (bids b)).
