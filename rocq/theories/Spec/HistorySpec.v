(** What a book shows after a whole history of updates. *)
From Verif Require Import Go.Outcome Go.Slice Go.Float64 Model.OrderBook Spec.OrderBookSpec.
Open Scope list_scope.
Open Scope Z_scope.

(** The last update of [side] at price [p], if any. *)
Fixpoint last_at (side : string) (p : f64) (us : list (update f64)) : option (update f64) :=
  match us with
  | [] => None
  | u :: rest =>
      match last_at side p rest with
      | Some v => Some v
      | None => if String.eqb (u_side u) side then if f64_eq p (u_price u) then Some u else None else None
      end
  end.

(** Row [r] is what the history says about its price: exactly the last update
    there (which was no deletion), or an initial row never updated. *)
Definition justified (side : string) (init : rows) (us : list (update f64)) (r : row f64) : Prop :=
  match last_at side (price r) us with
  | Some u => nonzero u /\ r = mkRow (u_price u) (u_volume u) (i2f 0)
  | None => In r init
  end.

(** No level ever set on one side reaches a level of the other side, be it an
    initial one or one set by another update. *)
Definition sides_apart (ob : book f64) (us : list (update f64)) : Prop :=
  (forall u b, In u us -> u_side u = "ask"%string -> nonzero u -> In b (bids ob) ->
     f64_lt (price b) (u_price u) = true) /\
  (forall u a, In u us -> u_side u = "bid"%string -> nonzero u -> In a (asks ob) ->
     f64_lt (u_price u) (price a) = true) /\
  (forall u v, In u us -> In v us -> u_side u = "ask"%string -> u_side v = "bid"%string ->
     nonzero u -> nonzero v -> f64_lt (u_price v) (u_price u) = true).

(** The update a row comes from. *)
Definition as_update (side : string) (r : row f64) : update f64 := mkUpdate (price r) (volume r) side.
(** No two rows with the same price. *)
Definition distinct_prices (l : rows) : Prop :=
  ForallOrdPairs (fun a b => f64_eq (price a) (price b) = false) l.
(** At most one update for each side and price. *)
Definition one_each (us : list (update f64)) : Prop :=
  forall u v, In u us -> In v us -> u_side u = u_side v -> f64_eq (u_price u) (u_price v) = true -> u = v.
(** The levels of two sides sent as updates. *)
Definition snapshot_updates (la lb : rows) : list (update f64) :=
  map (as_update "ask") la ++ map (as_update "bid") lb.

(** MaxDepth leaves room for every level the history can produce: each side
    has at most MaxDepth different prices, initial ones and set ones together
    ([pa], [pb] list them). *)
Definition covers (ps : list f64) (p : f64) : Prop := exists q, In q ps /\ f64_eq p q = true.
Definition room (ob : book f64) (us : list (update f64)) : Prop :=
  exists pa pb, zlen pa <= max_depth ob /\ zlen pb <= max_depth ob /\
    (forall r, In r (asks ob) -> covers pa (price r)) /\
    (forall r, In r (bids ob) -> covers pb (price r)) /\
    (forall u, In u us -> u_side u = "ask"%string -> nonzero u -> covers pa (u_price u)) /\
    (forall u, In u us -> u_side u = "bid"%string -> nonzero u -> covers pb (u_price u)).
(** [vs] is the stream [us] delivered by a source that, any number of times,
    goes back by some updates and sends them (and what follows) again. *)
Inductive redelivered {A} (us : list A) : list A -> Prop :=
| as_sent : redelivered us us
| rewound pre k rest : redelivered us (pre ++ k ++ rest) -> redelivered us (pre ++ k ++ k ++ rest).
