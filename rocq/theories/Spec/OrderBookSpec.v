(** What the order-book properties say, in terms of the fields a caller sees.
    Nothing here uses the functions of Model/OrderBook.v, only its records. *)
From Coq Require Import Sorting.Sorted Sorting.Permutation Reals.
From Verif Require Import Go.Outcome Go.Slice Go.Float64 Model.OrderBook.
Open Scope list_scope.
Open Scope Z_scope.

Definition rows := list (row f64).

(** No row price is NaN. *)
Definition nan_free (l : rows) : Prop := Forall (fun r => f64_is_nan (price r) = false) l.

(** Asks strictly ascending, bids strictly descending in price. *)
Definition asks_sorted (l : rows) : Prop :=
  StronglySorted (fun a b => f64_lt (price a) (price b) = true) l.
Definition bids_sorted (l : rows) : Prop :=
  StronglySorted (fun a b => f64_lt (price b) (price a) = true) l.
(** The same with equal prices allowed. *)
Definition asks_ordered (l : rows) : Prop :=
  StronglySorted (fun a b => f64_le (price a) (price b) = true) l.
Definition bids_ordered (l : rows) : Prop :=
  StronglySorted (fun a b => f64_le (price b) (price a) = true) l.

(** Every bid is at or below (strictly below) every ask. *)
Definition uncrossed (ob : book f64) : Prop :=
  forall b a, In b (bids ob) -> In a (asks ob) -> f64_le (price b) (price a) = true.
Definition unlocked (ob : book f64) : Prop :=
  forall b a, In b (bids ob) -> In a (asks ob) -> f64_lt (price b) (price a) = true.

(** Sizes a Go program can hold: a 24-byte row type allows no slice of 2^53
    elements, far beyond the address space. *)
Definition sizes_ok (ob : book f64) : Prop :=
  zlen (asks ob) < 2 ^ 53 /\ zlen (bids ob) < 2 ^ 53 /\ 0 <= max_depth ob < 2 ^ 53.

(** [l'] is the stable ascending (descending) sort of [l] by price. *)
Definition stable_asks (l l' : rows) : Prop :=
  asks_ordered l' /\ Permutation l l' /\
  (forall p, filter (fun r => f64_eq (price r) p) l' = filter (fun r => f64_eq (price r) p) l).
Definition stable_bids (l l' : rows) : Prop :=
  bids_ordered l' /\ Permutation l l' /\
  (forall p, filter (fun r => f64_eq (price r) p) l' = filter (fun r => f64_eq (price r) p) l).

(** Price and volume of a row. *)
Definition pv (r : row f64) : f64 * f64 := (price r, volume r).

(** [full] is the side [old] with the level at price [p] set to [new]
    (removed): same other levels, in order. *)
Definition level_set (sorted : rows -> Prop) (old : rows) (new : row f64) (full : rows) : Prop :=
  sorted full /\
  forall r, In r full <-> r = new \/ (In r old /\ f64_eq (price r) (price new) = false).
Definition level_deleted (sorted : rows -> Prop) (old : rows) (p : f64) (full : rows) : Prop :=
  sorted full /\
  forall r, In r full <-> In r old /\ f64_eq (price r) p = false.

(** Left-to-right running totals. *)
Fixpoint running {F} (add : F -> F -> F) (acc : F) (l : list F) : list F :=
  match l with
  | [] => []
  | v :: rest => add v acc :: running add (add v acc) rest
  end.
Definition running_totals {F} (add : F -> F -> F) (l : list F) : list F :=
  match l with
  | [] => []
  | v :: rest => v :: running add v rest
  end.

(** A book in price order without duplicate or NaN prices. *)
Definition well_sorted (ob : book f64) : Prop :=
  nan_free (asks ob) /\ nan_free (bids ob) /\ asks_sorted (asks ob) /\ bids_sorted (bids ob).
(** In price order, duplicates allowed. *)
Definition well_ordered (ob : book f64) : Prop :=
  nan_free (asks ob) /\ nan_free (bids ob) /\ asks_ordered (asks ob) /\ bids_ordered (bids ob).

(** Neither side longer than MaxDepth. *)
Definition within_depth {F} (ob : book F) : Prop :=
  zlen (asks ob) <= max_depth ob /\ zlen (bids ob) <= max_depth ob.

Definition real_price (u : update f64) : Prop := f64_is_nan (u_price u) = false.
Definition nonzero (u : update f64) : Prop := f64_eq (u_volume u) (i2f 0) = false.
Definition zero (u : update f64) : Prop := f64_eq (u_volume u) (i2f 0) = true.

(** First rows of a list, for an int count. *)
Definition take {A} (d : Z) (l : list A) : list A := firstn (Z.to_nat d) l.

(** [r] is the highest (lowest) priced row at or below (at or above) [p]. *)
Definition highest_below (p : f64) (l : rows) (r : row f64) : Prop :=
  In r l /\ f64_le (price r) p = true /\
  forall r', In r' l -> f64_le (price r') p = true -> f64_le (price r') (price r) = true.
Definition lowest_above (p : f64) (l : rows) (r : row f64) : Prop :=
  In r l /\ f64_le p (price r) = true /\
  forall r', In r' l -> f64_le p (price r') = true -> f64_le (price r) (price r') = true.
(** [p] lies in the price interval spanned by [l]. *)
Definition spans (l : rows) (p : f64) : Prop :=
  (exists r, In r l /\ f64_le (price r) p = true) /\ (exists r, In r l /\ f64_le p (price r) = true).

(** Exact value of rows, and proceeds of selling an amount [v] into the rows
    of [l] from the first on (the rest of [v] is lost when [l] ends). *)
Definition value (l : list (row R)) : R := fold_right (fun r a => (price r * volume r + a)%R) 0%R l.
Definition total_volume (l : list (row R)) : R := fold_right (fun r a => (volume r + a)%R) 0%R l.
Fixpoint proceeds (v : R) (l : list (row R)) : R :=
  match l with
  | [] => 0%R
  | r :: rest => if Rlt_dec v (volume r) then (v * price r)%R
                 else (price r * volume r + proceeds (v - volume r) rest)%R
  end.
Definition ascending (l : list (row R)) : Prop := StronglySorted (fun a b => price a <= price b)%R l.
Definition descending (l : list (row R)) : Prop := StronglySorted (fun a b => price b <= price a)%R l.

(** Updates of [side] that do not reach the other side. *)
Definition ask_free (ob : book f64) (u : update f64) : Prop :=
  u_side u = "ask"%string /\ real_price u /\
  (nonzero u -> forall b, In b (bids ob) -> f64_lt (price b) (u_price u) = true).
Definition bid_free (ob : book f64) (u : update f64) : Prop :=
  u_side u = "bid"%string /\ real_price u /\
  (nonzero u -> forall a, In a (asks ob) -> f64_lt (u_price u) (price a) = true).

(** Best (first) prices. *)
Definition best_ask (ob : book f64) (p : f64) : Prop := exists r l, asks ob = r :: l /\ price r = p.
Definition best_bid (ob : book f64) (p : f64) : Prop := exists r l, bids ob = r :: l /\ price r = p.
