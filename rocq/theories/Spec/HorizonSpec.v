(** Vocabulary of C102: what a book of limited depth does not show. *)
From Coq Require Import List ZArith String.
From Verif Require Import Go.Outcome Go.Slice Go.Float64 Model.OrderBook Spec.OrderBookSpec Spec.HistorySpec.
Import ListNotations.
Open Scope list_scope.
Open Scope Z_scope.

(** At some moment of the history the asks (bids) were full of better prices
    than [r]'s, and no later update was about the price of [r]. *)
Definition ask_lost (us : list (update f64)) (ob : book f64) (r : row f64) : Prop :=
  exists pre post b, us = pre ++ post /\ apply_updates pre ob = Ret b /\
    zlen (asks b) = max_depth ob /\ (forall x, In x (asks b) -> f64_lt (price x) (price r) = true) /\
    (forall u, In u post -> u_side u = "ask"%string -> f64_eq (price r) (u_price u) = false).
Definition bid_lost (us : list (update f64)) (ob : book f64) (r : row f64) : Prop :=
  exists pre post b, us = pre ++ post /\ apply_updates pre ob = Ret b /\
    zlen (bids b) = max_depth ob /\ (forall x, In x (bids b) -> f64_lt (price r) (price x) = true) /\
    (forall u, In u post -> u_side u = "bid"%string -> f64_eq (price r) (u_price u) = false).

(** At every moment of the history the asks had room or a row at [q] or
    above (the bids had room or a row at [q] or below). *)
Definition asks_reach (q : f64) (us : list (update f64)) (ob : book f64) : Prop :=
  forall pre post b, us = pre ++ post -> apply_updates pre ob = Ret b ->
    zlen (asks b) < max_depth ob \/ exists x, In x (asks b) /\ f64_le q (price x) = true.
Definition bids_reach (q : f64) (us : list (update f64)) (ob : book f64) : Prop :=
  forall pre post b, us = pre ++ post -> apply_updates pre ob = Ret b ->
    zlen (bids b) < max_depth ob \/ exists x, In x (bids b) /\ f64_le (price x) q = true.

(** How many updates of the history delete a level of [side]. *)
Definition deletions (side : string) (us : list (update f64)) : Z :=
  zlen (filter (fun u => String.eqb (u_side u) side && f64_eq (u_volume u) (i2f 0))%bool us).
